(** C14: the statement sequence of a file. *)
From Verif Require Import Base Tags SyntaxTags FileLine Token Stmts LogicalLine StmtSrc StmtSrc_spec StmtSrc_proofs.
Local Open Scope Z_scope.

(** For every sequence of logical lines in which a line with statements is
    neither suppressed nor a macro line, make_stmts terminates and yields the
    specified sequence. *)
Theorem C14_make_stmts : forall ls,
  (forall l, In l ls -> l_stmts l <> [] -> l_suppress l = false /\ l_cat l <> CAT_MACRO) ->
  exists n, forall f, (n <= f)%nat -> make_stmts f ls = Some (Ok (stmts_of_file ls)).
Proof. exact make_stmts_main. Qed.
Print Assumptions C14_make_stmts.

Definition ex_ll (lab : Z) (sup : bool) (rs : list (nat * nat)) : LLn :=
  mkLLn lab CAT_UNKNOWN sup false (Z.of_nat (length rs)) [] [] rs.
Definition ex_file : list LLn :=
  [ex_ll 0 false []; ex_ll 10 false [(0, 3); (4, 6)]%nat; ex_ll 0 true []; ex_ll 0 false [];
   ex_ll 20 false [(0, 1)]%nat; ex_ll 0 false []].
Example C14_case : make_stmts 20 ex_file = Some (Ok
  [mkStmt (Some 1) (0, 3) 10 1 [0]; mkStmt (Some 1) (4, 6) 0 2 [];
   mkStmt (Some 4) (0, 1) 20 0 [3]]%nat).
Proof. reflexivity. Qed.
Example C14_case_spec : stmts_of_file ex_file =
  [mkStmt (Some 1) (0, 3) 10 1 [0]; mkStmt (Some 1) (4, 6) 0 2 [];
   mkStmt (Some 4) (0, 1) 20 0 [3]]%nat.
Proof. reflexivity. Qed.
(** A suppressed line that still has statements is an assertion failure. *)
Theorem C14_suppressed_statements_refuted :
  make_stmts 20 [ex_ll 0 true [(0, 1)]%nat] = Some UB.
Proof. reflexivity. Qed.
Print Assumptions C14_suppressed_statements_refuted.
