(** The extensions of apps/ext_demo.cc: a WRITE statement with a comma after its
    control list, registered as a further action statement. *)
From Verif Require Import Base Tags SyntaxTags Token TTStream StmtRules Peg StmtGrammar.
Local Open Scope nat_scope.

(** apps/ext_demo.cc:119-130 write_comma_stmt with [tag] = SG_WRITE_STMT;
    :132-143 write_comma_stmt_mytag with [tag] = MY_WRITE_STMT (:34-39, the
    first client tag and one) *)
Definition p_comma (tag : Z) : pexp :=
  PSeq tag [PTok KW_WRITE; PTag SG_IO_CONTROL_SPEC_LIST (PRule r_consume_parens); PTok TK_COMMA;
            POpt (p_list SG_OUTPUT_ITEM_LIST (PRule r_output_item)); p_eol].
Definition MY_WRITE_STMT : Z := (CLIENT_EXTENSION + 1)%Z.
(** "return p(ts)": the tree of the result.  [m] is the fuel.  The rules that p
    calls do not come to action_stmt, so they do not see the extensions
    themselves. *)
Definition comma_ext (tag : Z) (m : nat) : ext :=
  fun s => '(_, t, s') <~ run grammar (fun _ => []) m (p_comma tag) s ;; Done (t, s').
(** apps/ext_demo.cc:61-62, :68-69: register_action_stmt, after clear() *)
Definition demo_exts (tag : Z) (m : nat) (action : bool) : list ext := if action then [comma_ext tag m] else [].
