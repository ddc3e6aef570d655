(** The program parsers on statements that are given by their tokens: every
    statement is parsed by the functions of parse_stmt.cc (StmtGrammar.v). *)
From Verif Require Import Base Tags Token TTStream StmtRules Peg StmtGrammar LabelStack Prgm.
Local Open Scope nat_scope.

(** LL_Stmt.hh: the label and the token range of a statement in the fragments of
    its logical line *)
Record source_stmt := mkSource {
  ss_label : Z;
  ss_frags : list Token;
  ss_beg : nat;
  ss_end : nat }.

(** Prgm_Parsers_utils.hh:399-422 (Statement_Parser): a new TT_Stream on the
    statement; [m] is the fuel of the statement parsers *)
Definition of_source (exts : bool -> list ext) (m : nat) (l : list source_stmt) : stmts :=
  mkStmts (length l)
    (fun i => match nth_error l i with Some q => ss_label q | None => 0%Z end)
    (fun i r =>
       match nth_error l i with
       | Some q => '(t, _) <~ parse_rule grammar exts m r (stream_of (ss_frags q) (ss_beg q) (ss_end q)) ;; Done t
       | None => Done None
       end)
    (fun i => match nth_error l i with Some q => ss_frags q | None => [] end).
