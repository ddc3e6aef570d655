(** The tag at the root of what every parser function returns. *)
From Coq Require Import Lia.
From Verif Require Import Base Base_lemmas Tags SyntaxTags Token TTStream StmtRules Peg Peg_spec Peg_proofs StmtGrammar StmtTables_proofs
  StmtDispatch_proofs StmtApart_spec StmtApart_proofs LabelStack Prgm PrgmSource PrgmTree_spec Procedure_spec Props_Stmt Props_StmtApart.
Local Open Scope nat_scope.

Definition any_root (b : rbody) : option Z :=
  match b with
  | RExp p => root_exp p
  | RExt _ g p => match root_exp p with Some h => if (g =? h)%Z then Some g else None | None => None end
  | RBreak g _ => Some g
  | RParens => Some HOIST
  | RListName => Some TK_NAME
  | RDesignator p => root_exp p
  end.
Lemma leaf_tag g s t s' : leaf g s = Done (t, s') -> t_tag t = g.
Proof. unfold leaf. intros H. destruct (digest s 1) as [[]| |]; cbn [lift obind] in H; try discriminate. injection H as <- <-. reflexivity. Qed.
Lemma until_tag lit k tag s t s' : until_break lit k tag s = Done (Some t, s') -> t_tag t = tag.
Proof.
  unfold until_break. intros H. step2 H o s1. destruct o as [[|x kids]|]; try discriminate. destruct (covered _) eqn:EC; cbn [obind] in H; try discriminate. injection H as <- <-. eapply covered_tag; eauto.
Qed.
Lemma any_root_ok body exts n r g s t s' : any_root (body r) = Some g -> parse_rule body exts n r s = Done (Some t, s') -> t_tag t = g.
Proof.
  intros H E. destruct (root_body (body r)) eqn:RB.
  - assert (z = g) as <- by (destruct (body r); cbn [root_body any_root] in *; congruence). eapply root_rule; eauto.
  - unfold parse_rule, call_rule in E. destruct (body r) eqn:B; cbn [root_body any_root] in *; try congruence.
    + injection H as ->. step E. destruct (existsb _ _); [discriminate|]. eapply until_tag; eauto.
    + injection H as <-. unfold consume_parens in E. step E. destruct (negb _); [discriminate|]. step2 E x s1. step2 E kids s2.
      destruct (covered _) eqn:EC; cbn [obind] in E; try discriminate. injection E as <- <-. eapply covered_tag; eauto.
    + injection H as <-. unfold list_name in E. destruct (peek_off s 1); cbn [lift obind] in E; try discriminate. destruct (is_name_tag _) as [[]| |]; cbn [lift obind] in E; try discriminate. step E. destruct (existsb _ _); [|discriminate].
      step2 E x s1. injection E as <- <-. eapply leaf_tag; eauto.
    + unfold designator in E. step2 E o s1. step E. destruct (_ <? _); [discriminate|]. step3 E m t1 s2. injection E as -> <-. eapply root_run; eauto.
Qed.
Definition has_root (r : rule) (g : Z) : bool := match any_root (grammar r) with Some h => (h =? g)%Z | None => true end.
Lemma has_root_ok exts n r s t s' : parse_rule grammar exts n r s = Done (Some t, s') -> has_root r (t_tag t) = true.
Proof. intros H. unfold has_root. destruct (any_root _) eqn:E; [|reflexivity]. rewrite (any_root_ok _ _ _ _ _ _ _ _ E H). apply Z.eqb_refl. Qed.
Lemma in_rules r : In r all_rules.
Proof. destruct r; vm_compute; tauto. Qed.
Lemma action_root r : has_root r SG_ACTION_STMT = true -> r = r_action_stmt.
Proof.
  intros H. assert (G : In r (filter (fun r => has_root r SG_ACTION_STMT) all_rules)) by (apply filter_In; auto using in_rules).
  vm_compute in G. intuition.
Qed.
Lemma end_root r g : In g (SG_CONTAINS_STMT :: end_kinds) -> has_root r g = true -> In r delimiters.
Proof.
  intros I H. assert (G : In r (filter (fun r => existsb (has_root r) (SG_CONTAINS_STMT :: end_kinds)) all_rules)).
  { apply filter_In. split; [apply in_rules|]. apply existsb_exists. eauto. }
  vm_compute in G. vm_compute. intuition.
Qed.
(** With the statement parsers as they come, the statements that end the
    execution part are no action statements. *)
Lemma source_apart m l : whole l -> apart (of_source no_exts m l).
Proof.
  intros W i g (r1 & t1 & H1 & G1) I (r2 & t2 & H2 & G2). cbn [of_source x_parse] in H1, H2.
  destruct (nth_error l i) as [q|] eqn:E; [|discriminate]. apply nth_error_In in E. unfold whole in W. rewrite Forall_forall in W. apply W in E.
  step2 H1 o1 s1. step2 H2 o2 s2. injection H1 as ->. injection H2 as ->.
  assert (r1 = r_action_stmt) as -> by (apply action_root; rewrite <- G1; eapply has_root_ok; eauto).
  assert (In r2 delimiters) as D by (eapply end_root; [exact I|]; rewrite <- G2; eapply has_root_ok; eauto).
  eapply C62_not_actions; [exact E|exact D|eexists _, _, _; eauto|eexists _, _, _; eauto].
Qed.
