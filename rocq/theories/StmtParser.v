(** The statement parser: the grammar run by the combinators. *)
From Verif Require Import Base Tags SyntaxTags Token TTStream StmtRules Peg StmtGrammar.

(** parse_stmt.cc: parse_stmt_dispatch(stmt_tag, ts).  An unknown tag prints a
    message and returns an empty tree. *)
Definition dispatch_rule (tag : Z) : option rule :=
  match find (fun p => Z.eqb (fst p) tag) dispatch_table with
  | Some p => Some (snd p)
  | None => None
  end.
Definition parse_stmt_dispatch (exts : bool -> list ext) (n : nat) (tag : Z) (s : stream) : out fresult :=
  match dispatch_rule tag with
  | Some r => parse_rule grammar exts n r s
  | None => Done (None, s)
  end.
(** parse_stmt.cc: is_action_stmt *)
Definition is_action_stmt (tag : Z) : bool := existsb (Z.eqb tag) action_tags.
