(** C66: statement trees are derivation trees of the grammar. *)
From Coq Require Import Lia.
From Verif Require Import Base Base_lemmas Tags SyntaxTags Token TTStream StmtRules Peg Peg_spec Stmt_spec StmtGrammar StmtParser StmtTables_proofs
  StmtDispatch_proofs StmtRoots_proofs StmtTree_spec StmtTree_proofs Props_Stmt.
Local Open Scope nat_scope.

(** C66.  What any parser function of the grammar returns is, with a node that is
    tagged to be replaced by its branches replaced, a derivation tree of its rule. *)
Theorem C66_rules : forall exts n r s t s', exts_same exts -> parse_rule grammar exts n r s = Done (Some t, s') ->
  gives_rule grammar (frags s) (made exts) r (hoist [] (Some t)).
Proof. intros exts n r s t s' HX H. eapply grammar_gives; eauto. Qed.
Print Assumptions C66_rules.

(** The tree of a statement is one derivation tree of the rule for its kind. *)
Theorem C66_statements : forall exts n tag s t s', exts_same exts -> parse_stmt_dispatch exts n tag s = Done (Some t, s') ->
  exists r, dispatch_rule tag = Some r /\ gives_rule grammar (frags s) (made exts) r [t].
Proof.
  intros exts n tag s t s' HX H. unfold parse_stmt_dispatch in H. destruct (dispatch_rule tag) as [r|] eqn:D; [|discriminate]. exists r. split; [reflexivity|].
  pose proof (grammar_gives _ _ _ _ _ _ HX H) as G. replace [t] with (hoist [] (Some t)); [exact G|].
  assert (T : forallb (fun p => match any_root (grammar (snd p)) with Some g => negb (g =? HOIST)%Z | None => false end) dispatch_table = true) by (vm_compute; reflexivity).
  rewrite forallb_forall in T. unfold dispatch_rule in D. destruct (find _ _) as [p|] eqn:F; [|discriminate]. injection D as <-. apply find_some in F. destruct F as (F & _). apply T in F.
  destruct (any_root _) as [g|] eqn:R; [|discriminate]. pose proof (any_root_ok _ _ _ _ _ _ _ _ R H) as TG. destruct t as [tg rr kk]. cbn [t_tag] in TG. subst tg. cbn [hoist]. destruct (g =? HOIST)%Z; [discriminate|]. reflexivity.
Qed.
Print Assumptions C66_statements.

(** A CALL statement. *)
Definition callp : list Token := [T KW_CALL "call"; T TK_NAME "a"; T TK_PARENL "("; T TK_NAME "x"; T TK_COMMA ","; T SG_INT_LITERAL_CONSTANT "3"; T TK_PARENR ")"].
Example C66_call : exists t s', parse_stmt_dispatch no_exts 60 SG_CALL_STMT (S_of callp) = Done (Some t, s') /\
  gives_rule grammar callp (made no_exts) r_call_stmt [t].
Proof.
  destruct (parse_stmt_dispatch no_exts 60 SG_CALL_STMT (S_of callp)) as [[[t|] s']| |] eqn:E; try (vm_compute in E; discriminate).
  exists t, s'. split; [reflexivity|]. apply C66_statements in E; [|intro a; constructor]. destruct E as (r & R & G). vm_compute in R. injection R as <-. exact G.
Qed.
(** Some trees are none: CALL with nothing behind it. *)
Example C66_not_all : forall fr E r, ~ gives_rule grammar fr E r_call_stmt [ST SG_CALL_STMT r [leaf_at KW_CALL 0]].
Proof.
  intros fr E r H. inversion H as [r1 p l B G|r1 a g p l B G|r1 a g p t l B|r1 g no l l' B|r1 b l B|r1 b B|r1 p l B]; subst; try discriminate B.
  injection B as <-. inversion G as [| | | | | | | |g ps l l' GS N| | | |]; subst.
  unfold is_node in N. change (SG_CALL_STMT =? HOIST)%Z with false in N. destruct N as (r0 & [= _ <-]).
  inversion GS as [|p ps l l' G1 G2 A B]; subst. inversion G1; subst. cbn [app] in B. injection B as _ ->.
  inversion G2 as [|p ps l1 l2 G3 G4 A B]; subst. apply app_eq_nil in B. destruct B as (-> & ->).
  inversion G3 as [| | | | | | | | | | | |r1 l GR]; subst. inversion GR as [r1 p l B G0|r1 a g p l B G0|r1 a g p t l B|r1 g no l l' B|r1 b0 l B|r1 b0 B|r1 p l B G0]; subst; try discriminate B.
  injection B as <-. inversion G0 as [| | | | | | | |g ps l l' GS1 N1| | | |]; subst. unfold is_node in N1. change (SG_PROCEDURE_DESIGNATOR =? HOIST)%Z with false in N1. destruct N1 as (r1 & [=]).
Qed.
