(** Parse trees cover the consumed tokens. *)
From Verif Require Import Base Tags SyntaxTags Token TTStream StmtRules Peg Peg_spec Peg_proofs.
Local Open Scope nat_scope.

Scheme covers_ind2 := Induction for covers Sort Prop
with covers_list_ind2 := Induction for covers_list Sort Prop.
Combined Scheme covers_mut from covers_ind2, covers_list_ind2.

Definition node_rng (b e : nat) : option (nat * nat) := if b <? e then Some (b, e) else None.
Lemma covers_le_mut s : (forall t b e, covers s t b e -> b <= e /\ t_rng t = node_rng b e) /\
  (forall l b e, covers_list s l b e -> b <= e).
Proof.
  apply covers_mut; cbn; intros; subst; auto.
  - split; [lia|]. unfold node_rng. replace (b <? S b) with true; [reflexivity|]. symmetry. apply Nat.ltb_lt. lia.
  - lia.
Qed.
Lemma covers_rng s t b e : covers s t b e -> b <= e /\ t_rng t = node_rng b e.
Proof. apply (proj1 (covers_le_mut s)). Qed.
Lemma covers_list_le s l b e : covers_list s l b e -> b <= e.
Proof. apply (proj2 (covers_le_mut s)). Qed.
Lemma covers_same_mut s s' : same s s' ->
  (forall t b e, covers s t b e -> covers s' t b e) /\
  (forall l b e, covers_list s l b e -> covers_list s' l b e).
Proof.
  intro H. apply covers_mut; intros; try (econstructor; eauto; fail).
  - constructor. unfold leaf_tag in *. rewrite (set_pos_same _ _ _ H). assumption.
Qed.
Lemma covers_list_same s s' l b e : same s s' -> covers_list s l b e -> covers_list s' l b e.
Proof. intro H. apply (proj2 (covers_same_mut s s' H)). Qed.
Lemma tree_ok_same s s' t b e : same s s' -> tree_ok s t b e -> tree_ok s' t b e.
Proof.
  intros H (H1 & H2). split.
  - apply (proj1 (covers_same_mut s s' H)). exact H1.
  - intro G. apply (covers_list_same s s' _ _ _ H). auto.
Qed.
Lemma covers_list_app s l1 : forall l2 b c e, covers_list s l1 b c -> covers_list s l2 c e -> covers_list s (l1 ++ l2) b e.
Proof.
  induction l1 as [|t l1 IH]; intros l2 b c e H1 H2; inversion H1; subst; [exact H2|].
  cbn. econstructor; eauto.
Qed.
Lemma hoist_ok s kids b c e t : covers_list s kids b c -> tree_ok s t c e ->
  covers_list s (hoist kids (Some t)) b e.
Proof.
  intros H (H1 & H2). destruct t as [g r k]. cbn [hoist].
  destruct (g =? HOIST)%Z eqn:E.
  - apply Z.eqb_eq in E. eapply covers_list_app; [exact H|]. apply H2. exact E.
  - eapply covers_list_app; [exact H|]. econstructor; [exact H1|constructor].
Qed.

(** cover_branches on branches that cover something *)
Lemma node_empty b e : b <= e -> rng_empty (node_rng b e) = (b =? e).
Proof.
  intro H. unfold node_rng. destruct (b <? e) eqn:E; cbn.
  - reflexivity.
  - apply Nat.ltb_ge in E. symmetry. apply Nat.eqb_eq. lia.
Qed.
Lemma push_all_ok s l : forall b c e, b < c -> covers_list s l c e -> rng_push_all (Some (b, c)) l = Ok (Some (b, e)).
Proof.
  induction l as [|t l IH]; intros b c e Hb H; inversion H; subst; [reflexivity|].
  cbn [rng_push_all]. destruct (covers_rng _ _ _ _ H2) as (Hl & ->). unfold rng_push.
  rewrite node_empty by exact Hl. destruct (c =? c0) eqn:E.
  - apply Nat.eqb_eq in E. subst. cbn [bind]. apply IH; assumption.
  - apply Nat.eqb_neq in E. assert (c < c0) by lia. cbn [rng_empty].
    replace (b =? c) with false by (symmetry; apply Nat.eqb_neq; lia).
    unfold node_rng. replace (c <? c0) with true by (symmetry; apply Nat.ltb_lt; lia).
    replace (c0 =? c) with false by (symmetry; apply Nat.eqb_neq; lia).
    rewrite Nat.eqb_refl. cbn [assert_ bind]. apply IH; [lia|assumption].
Qed.
Lemma cover_ok s g r kids b e : covers_list s kids b e ->
  cover (ST g r kids) = Ok (ST g (if b <? e then Some (b, e) else r) kids).
Proof.
  intro H. cbn [cover].
  assert (X : (b = e /\ first_nonempty kids = []) \/
    (b < e /\ exists t l c, first_nonempty kids = t :: l /\ t_rng t = Some (b, c) /\ b < c /\ covers_list s l c e)).
  { induction H as [b|t l b c e H1 H2 IH].
    - left. auto.
    - destruct (covers_rng _ _ _ _ H1) as (Hl & Hr). cbn [first_nonempty]. rewrite Hr, node_empty by exact Hl.
      destruct (b =? c) eqn:E.
      + apply Nat.eqb_eq in E. subst. exact IH.
      + apply Nat.eqb_neq in E. right. pose proof (covers_list_le _ _ _ _ H2). split; [lia|].
        exists t, l, c. split; [reflexivity|]. split; [|split; [lia|exact H2]].
        rewrite Hr. unfold node_rng. replace (b <? c) with true by (symmetry; apply Nat.ltb_lt; lia). reflexivity. }
  destruct X as [(-> & X)|(L & t & l & c & X & Hr & Hc & Hl)]; rewrite X.
  - rewrite Nat.ltb_irrefl. reflexivity.
  - rewrite Hr, (push_all_ok _ _ _ _ _ Hc Hl). cbn [bind].
    replace (b <? e) with true by (symmetry; apply Nat.ltb_lt; lia). reflexivity.
Qed.
Lemma covered_ok s g kids b e : covers_list s kids b e ->
  exists t, covered (ST g None kids) = Done t /\ tree_ok s t b e /\ t_tag t = g.
Proof.
  intro H. unfold covered. rewrite (cover_ok _ _ _ _ _ _ H). cbn [lift]. eexists. split; [reflexivity|].
  split; [|reflexivity]. split; [econstructor; [exact H|reflexivity]|intros _; exact H].
Qed.
Lemma covered_ok2 s g t b e : tree_ok s t b e ->
  exists t', covered (ST g (t_rng t) (hoist [] (Some t))) = Done t' /\ tree_ok s t' b e /\ t_tag t' = g.
Proof.
  intro H. assert (G : covers_list s (hoist [] (Some t)) b e) by (eapply hoist_ok; [constructor|exact H]).
  unfold covered. rewrite (cover_ok _ _ _ _ _ _ G). cbn [lift]. eexists. split; [reflexivity|].
  split; [|reflexivity]. split; [|intros _; exact G]. econstructor; [exact G|].
  destruct H as (H & _). apply covers_rng in H. destruct H as (_ & ->). unfold node_rng. destruct (b <? e); reflexivity.
Qed.
Lemma leaf_ok s g x s' t0 : peek s = Ok t0 -> (g = t0 \/ (g = TK_NAME /\ is_name_tag t0 = Ok true)) ->
  leaf g s = Done (x, s') -> covers s x (pos s) (pos s').
Proof.
  intros Hp Hg H. apply leaf_inv in H. destruct H as (-> & -> & _). cbn [pos set_pos].
  constructor. exists t0. rewrite set_pos_pos. auto.
Qed.
Lemma name_not_hoist : TK_NAME <> HOIST.
Proof. intro H. vm_compute in H. discriminate H. Qed.
Lemma leaf_ok' s g x s' t0 : peek s = Ok t0 -> (g = t0 \/ (g = TK_NAME /\ is_name_tag t0 = Ok true)) ->
  g <> HOIST -> leaf g s = Done (x, s') -> tree_ok s x (pos s) (pos s').
Proof.
  intros Hp Hg Hh H. split; [eapply leaf_ok; eauto|].
  apply leaf_inv in H. destruct H as (-> & _). cbn. congruence.
Qed.

Section Cover.
Variable body : rule -> rbody.
Variable exts : bool -> list ext.
Variable A : rule -> bool.  (* the rules considered *)
Hypothesis Hclean : forall r, clean_body (body r) = true.
Hypothesis Hplain : forall r p, body_exp (body r) = Some p -> plain p = true.
Hypothesis Hcalls : forall r p, A r = true -> body_exp (body r) = Some p -> calls A p = true.
Hypothesis Hlit : A r_real_literal_constant = true.
Hypothesis Hdes : forall r, A r = true -> not_designator (body r) = true.
Hypothesis Hexts : forall a, Forall ext_same (exts a).
Hypothesis Hextc : forall a, Forall ext_covers (exts a).

Definition tiled (s : stream) (t : option stree) (s' : stream) : Prop :=
  match t with None => pos s' = pos s | Some t => tree_ok s t (pos s) (pos s') end.
Definition tiled_r (s : stream) (x : presult) : Prop := let '(m, t, s') := x in tiled s t s'.

Lemma hoist_tiled s0 kids b s t s' : same s0 s -> covers_list s0 kids b (pos s) -> tiled s t s' ->
  covers_list s0 (hoist kids t) b (pos s').
Proof using.
  clear. intros HS H HT. destruct t as [t|].
  - eapply hoist_ok; [exact H|]. apply (tree_ok_same s s0); [apply same_sym; exact HS|exact HT].
  - cbn in HT |- *. rewrite HT. exact H.
Qed.

Section Step.
Variable R : pexp -> stream -> out presult.
Definition good p := sclean p = true /\ plain p = true /\ calls A p = true.
Hypothesis HR : forall p s x, good p -> R p s = Done x -> same s (snd x) /\ tiled_r s x.

Lemma seq_tiled s0 ps : Forall good ps -> forall kids b s m kids' s',
  same s0 s -> covers_list s0 kids b (pos s) -> seq_loop R ps kids s = Done (m, kids', s') ->
  covers_list s0 kids' b (pos s').
Proof using HR.
  induction 1 as [|p ps Hp Hps IH]; intros kids b s m kids' s' HS HC H; cbn [seq_loop] in H.
  - injection H as <- <- <-. exact HC.
  - step3 H m1 t1 s1. apply HR in E; [|exact Hp]. cbn in E. destruct E as (E1 & E2).
    assert (HC' : covers_list s0 (hoist kids t1) b (pos s1)) by (eapply hoist_tiled; eauto).
    destruct m1.
    + eapply IH; [|exact HC'|exact H]. eapply same_trans; eauto.
    + injection H as <- <- <-. exact HC'.
Qed.
Lemma alts_tiled ps : Forall (fun p => good p /\ clean p = true) ps -> forall s m t s',
  (forall p s m t s', clean p = true -> R p s = Done (m, t, s') -> restores s (m, t, s')) ->
  alts_loop R ps s = Done (m, t, s') -> tiled s t s'.
Proof using HR.
  induction 1 as [|p ps (Hp & Hc) Hps IH]; intros s m t s' HRr H; cbn [alts_loop] in H.
  - injection H as <- <- <-. reflexivity.
  - step3 H m1 t1 s1. pose proof (HRr _ _ _ _ _ Hc E) as (_ & Hr). apply HR in E; [|exact Hp]. cbn in E.
    destruct m1.
    + injection H as <- <- <-. apply E.
    + destruct (Hr eq_refl) as (_ & ->). eapply IH; eauto.
Qed.
Lemma star_tiled s0 k p : good p -> forall kids b s kids' s',
  same s0 s -> covers_list s0 kids b (pos s) -> star_loop R k p kids s = Done (kids', s') ->
  covers_list s0 kids' b (pos s').
Proof using HR.
  intro Hp. induction k as [|k IH]; intros kids b s kids' s' HS HC H; cbn [star_loop] in H; [discriminate|].
  step3 H m1 t1 s1. apply HR in E; [|exact Hp]. cbn in E. destruct E as (E1 & E2).
  assert (HC' : covers_list s0 (hoist kids t1) b (pos s1)) by (eapply hoist_tiled; eauto).
  destruct m1.
  - eapply IH; [|exact HC'|exact H]. eapply same_trans; eauto.
  - injection H as <- <-. exact HC'.
Qed.
End Step.

Lemma break_tiled lit k s0 :
  (forall s o s', lit s = Done (o, s') -> same s s' /\ tiled s o s') ->
  forall kids b d s kids' s', same s0 s -> covers_list s0 kids b (pos s) ->
  break_loop lit k kids d s = Done (Some kids', s') -> covers_list s0 kids' b (pos s').
Proof using.
  clear. intro HL. induction k as [|k IH]; intros kids b d s kids' s' HS HC H; cbn [break_loop] in H; [discriminate|].
  destruct (d <=? 0)%Z; [injection H as <- <-; exact HC|].
  step H. destruct (decide d a); [injection H as <- <-; exact HC|discriminate|].
  destruct (_ =? _)%Z.
  - step2 H o s1. destruct o as [t|]; [|discriminate]. apply HL in E0. destruct E0 as (E1 & E2).
    eapply IH; [|eapply covers_list_app; [exact HC|econstructor; [|constructor]]|exact H].
    + eapply same_trans; eauto.
    + apply (tree_ok_same s s0); [apply same_sym; exact HS|exact E2].
  - step2 H x s1. pose proof (leaf_same _ _ _ _ E0) as HS1.
    eapply IH; [|eapply covers_list_app; [exact HC|econstructor; [|constructor]]|exact H].
    + eapply same_trans; eauto.
    + apply (proj1 (covers_same_mut s s0 (same_sym _ _ HS))). eapply leaf_ok; eauto.
Qed.
Lemma parens_tiled k s0 : forall kids b d s kids' s', same s0 s -> covers_list s0 kids b (pos s) ->
  parens_loop k kids d s = Done (kids', s') -> covers_list s0 kids' b (pos s').
Proof using.
  clear. induction k as [|k IH]; intros kids b d s kids' s' HS HC H; cbn [parens_loop] in H; [discriminate|].
  destruct (d <=? 0)%Z; [injection H as <- <-; exact HC|].
  step H. step H. step2 H x s1. pose proof (leaf_same _ _ _ _ E1) as HS1.
  eapply IH; [|eapply covers_list_app; [exact HC|econstructor; [|constructor]]|exact H].
  - eapply same_trans; eauto.
  - apply (proj1 (covers_same_mut s s0 (same_sym _ _ HS))). eapply leaf_ok; eauto.
Qed.
Lemma consume_parens_tiled k s o s' : consume_parens k s = Done (o, s') -> tiled s o s'.
Proof using.
  clear. unfold consume_parens. intro H. step H.
  destruct (negb _); [injection H as <- <-; reflexivity|].
  step2 H x s1. pose proof (leaf_same _ _ _ _ E0) as HS1. step2 H kids s2.
  apply (parens_tiled _ s) with (b := pos s) in E1; [|exact HS1|].
  - step H. injection H as <- <-. destruct (covered_ok _ HOIST _ _ _ E1) as (t & Ht & Hok & _).
    unfold covered in Ht. rewrite E2 in Ht. cbn [lift] in Ht. injection Ht as <-. exact Hok.
  - econstructor; [eapply leaf_ok; eauto|constructor].
Qed.
Lemma peek_off1 s t : peek_off s 1 = Ok t -> peek s = Ok t.
Proof using.
  clear. unfold peek_off, peek_tt, peek. replace (1 - 1)%Z with 0%Z by lia.
  unfold next_n. intro H. destruct (_ && _) eqn:E; cbn [bind] in H; [|discriminate].
  replace (Z.to_nat (Z.of_nat (pos s) + 0)) with (pos s) in H by lia.
  destruct (pos s =? s_end s); cbn [negb] in H; [|exact H]. cbn in H. congruence.
Qed.
Lemma list_name_tiled s o s' : list_name s = Done (o, s') -> tiled s o s'.
Proof using.
  clear. unfold list_name. intro H. step H. step H. destruct a0; [|injection H as <- <-; reflexivity].
  step H. destruct (existsb _ _); [|injection H as <- <-; reflexivity].
  step2 H x s1. injection H as <- <-. eapply leaf_ok'; [apply peek_off1; exact E| |exact name_not_hoist|exact E2].
  right. auto.
Qed.
Lemma ext_tiled tag es : Forall ext_same es -> Forall ext_covers es -> forall s, forall m t s',
  ext_loop tag (pos s) es s = Done (m, t, s') -> tiled s t s'.
Proof using.
  clear. intros H1 H2. induction es as [|e es IH]; intros s m t s' H; cbn [ext_loop] in H.
  - injection H as <- <- <-. reflexivity.
  - inversion H1; subst. inversion H2; subst. step2 H o s1. destruct o as [t0|].
    + apply H6 in E. step H. injection H as <- <- <-.
      destruct (covered_ok2 s tag _ _ _ E) as (t' & Ht & Hok & _). unfold covered in Ht. rewrite E0 in Ht. cbn [lift] in Ht.
      injection Ht as <-. exact Hok.
    + pose proof (H4 _ _ _ E) as HS. replace (rewind s1 (pos s)) with s in H by (symmetry; exact (same_rewind _ _ HS)).
      eapply IH; eauto.
Qed.
Lemma covered_done s g kids b e t : covers_list s kids b e -> covered (ST g None kids) = Done t -> tree_ok s t b e.
Proof using.
  clear. intros H E. destruct (covered_ok _ g _ _ _ H) as (t' & Ht & Hok & _). rewrite Ht in E. injection E as <-. exact Hok.
Qed.

Section CallStep.
Variable R : pexp -> stream -> out presult.
Hypothesis HR : forall p s x, good p -> R p s = Done x -> same s (snd x) /\ tiled_r s x.
Hypothesis HRr : forall p s m t s', clean p = true -> R p s = Done (m, t, s') -> restores s (m, t, s').
Lemma clean_sclean p : clean p = true -> sclean p = true.
Proof using. clear. destruct p; cbn; congruence. Qed.
Lemma call_tiled k r s o s' : A r = true -> call_rule body exts R k r s = Done (o, s') -> tiled s o s'.
Proof using Hclean Hplain Hcalls Hlit Hdes Hexts Hextc HR HRr.
  intros HA H. unfold call_rule in H. specialize (Hclean r) as Hc. specialize (Hplain r) as Hp.
  specialize (Hcalls r) as Hk. specialize (Hdes r HA) as Hd. unfold clean_body, body_exp in *.
  destruct (body r).
  - step3 H m t s1. injection H as <- <-. apply HR in E; [apply E|]. repeat split; auto using clean_sclean.
  - step3 H m t s1. pose proof (HRr _ _ _ _ _ Hc E) as (_ & Hr).
    apply HR in E; [|repeat split; auto using clean_sclean]. cbn in E. destruct m.
    + injection H as <- <-. apply E.
    + destruct (Hr eq_refl) as (-> & ->). step3 H m2 t2 s2. injection H as <- <-. eapply ext_tiled; eauto.
  - step H. destruct (existsb _ _); [injection H as <- <-; reflexivity|].
    unfold until_break in H. step2 H o1 s1.
    assert (HL : forall s o s', (' (m, t, s') <~ R (PRule r_real_literal_constant) s;; Done (t, s')) = Done (o, s') -> same s s' /\ tiled s o s').
    { intros s2 o2 s2' H2. step3 H2 m t s3. injection H2 as <- <-. apply HR in E1; [exact E1|]. repeat split. exact Hlit. }
    destruct o1 as [[|x kids]|].
    + injection H as <- <-. eapply (break_tiled _ _ s) in E0; [|exact HL|apply same_refl|constructor].
      inversion E0. cbn. congruence.
    + step H. injection H as <- <-. eapply (break_tiled _ _ s) in E0; [|exact HL|apply same_refl|constructor].
      eapply (covered_done s tag (x :: kids)); [exact E0|]. unfold covered. rewrite E1. reflexivity.
    + injection H as <- <-. reflexivity.
  - eapply consume_parens_tiled; eauto.
  - eapply list_name_tiled; eauto.
  - discriminate.
Qed.
End CallStep.

Lemma forallb_Forall' A0 (f : A0 -> bool) l : forallb f l = true -> Forall (fun x => f x = true) l.
Proof using. clear. intro H. apply Forall_forall. apply forallb_forall. exact H. Qed.

Lemma run_tiled n : forall p s x, good p -> run body exts n p s = Done x -> same s (snd x) /\ tiled_r s x.
Proof using Hclean Hplain Hcalls Hlit Hdes Hexts Hextc.
  induction n as [|n IH]; intros p s x (Hc & Hp & Hk) H; [discriminate|].
  assert (IR : forall p s m t s', clean p = true -> run body exts n p s = Done (m, t, s') -> restores s (m, t, s')).
  { intros. eapply run_restores; eauto. }
  assert (HS : same s (snd x)).
  { destruct x as ((m & t) & s'). cbn [snd]. destruct p; try (eapply run_restores in H; eauto; apply H).
    cbn [run] in H. step3 H m1 t1 s1. injection H as <- <- <-. cbn [sclean] in Hc. apply IR in E; [|exact Hc]. apply E. }
  split; [exact HS|]. cbn [run] in H. destruct p; cbn [sclean clean plain calls] in *.
  - step3 H m t s1. pose proof E as EA. eapply (alts_tiled _ IH) in E; [|apply Forall_forall; intros q Hq|exact IR].
    + destruct m; [step H|]; injection H as <-.
      * destruct t as [t|].
        -- assert (G : covers_list s (hoist [] (Some t)) (pos s) (pos s1)) by (eapply hoist_ok; [constructor|exact E]).
           cbn. eapply (covered_done s tag); [exact G|]. unfold covered. rewrite E0. reflexivity.
        -- cbn in E. cbn. rewrite E. eapply (covered_done s tag []); [constructor|]. unfold covered. cbn [hoist] in E0. rewrite E0. reflexivity.
      * cbn. destruct t as [t|]; [|exact E]. cbn [snd] in HS.
        (* a failing choice has no tree *)
        exfalso.
        assert (Hx : forall ps s t s1, alts_loop (run body exts n) ps s = Done (false, Some t, s1) -> False).
        { clear. induction ps as [|q ps IHp]; intros s t s1 H; cbn [alts_loop] in H; [discriminate|].
          step3 H m t1 s2. destruct m; [discriminate|]. eauto. }
        exact (Hx _ _ _ _ EA).
    + rewrite forallb_forall in Hc, Hp, Hk. repeat split; auto using clean_sclean.
  - step H. step H. destruct a0; cbn [negb] in H; [|injection H as <-; reflexivity].
    step H. destruct (negb _); [injection H as <-; reflexivity|].
    step2 H y s1. injection H as <-. eapply leaf_ok'; eauto. exact name_not_hoist.
  - step H. step H. destruct a0; cbn [negb] in H; [|injection H as <-; reflexivity].
    step H. destruct (negb _); [injection H as <-; reflexivity|].
    step2 H y s1. injection H as <-. eapply leaf_ok'; eauto. exact name_not_hoist.
  - step H. step H. destruct a0; cbn [negb] in H; [|injection H as <-; reflexivity].
    step2 H y s1. injection H as <-. eapply leaf_ok'; eauto. exact name_not_hoist.
  - step3 H m t s1. injection H as <-. apply IH in E; [apply E|]. repeat split; auto using clean_sclean.
  - step3 H m t s1. injection H as <-. apply IH in E; [apply E|]. repeat split; auto using clean_sclean.
  - step H. injection H as <-. reflexivity.
  - step2 H o s1. apply (call_tiled _ IH IR) in E; [|exact Hk]. destruct o; injection H as <-; [exact E|reflexivity].
  - step3 H m kids s1. destruct m; [step H|]; injection H as <-; [|reflexivity].
    eapply (seq_tiled _ IH s) in E; [| |apply same_refl|constructor].
    + cbn. eapply (covered_done s tag kids); [exact E|]. unfold covered. rewrite E0. reflexivity.
    + apply Forall_forall. intros q Hq. rewrite forallb_forall in Hc, Hp, Hk. repeat split; auto.
      apply Hc in Hq. exact Hq.
  - step2 H kids s1. step H. injection H as <-. eapply (star_tiled _ IH s) in E; [| |apply same_refl|constructor].
    + cbn. eapply (covered_done s HOIST kids); [exact E|]. unfold covered. rewrite E0. reflexivity.
    + repeat split; auto using clean_sclean.
  - step3 H m t s1. apply IH in E; [|repeat split; auto using clean_sclean]. destruct E as (_ & E). cbn in E.
    destruct t as [t|]; [step H|]; injection H as <-; [|exact E].
    destruct (covered_ok2 s tag _ _ _ E) as (t' & Ht & Hok & _). unfold covered in Ht. rewrite E0 in Ht. cbn [lift] in Ht.
    injection Ht as <-. exact Hok.
  - step H. destruct (t =? a)%Z eqn:EQ; cbn [negb] in H; [|injection H as <-; reflexivity].
    step2 H y s1. injection H as <-. apply Z.eqb_eq in EQ. subst. eapply leaf_ok'; eauto.
    intros ->. discriminate.
Qed.
End Cover.

(** the leaves *)
Lemma covers_leaves s : (forall t b e, covers s t b e -> leaf_positions t = seq b (e - b)) /\
  (forall l b e, covers_list s l b e -> flat_map leaf_positions l = seq b (e - b)).
Proof.
  apply covers_mut; intros.
  - cbn [leaf_positions]. reflexivity.
  - subst r. pose proof (covers_list_le _ _ _ _ c) as Hle. destruct kids as [|k kids].
    + inversion c; subst. cbn [leaf_positions]. rewrite Nat.ltb_irrefl. rewrite Nat.sub_diag. reflexivity.
    + exact H.
  - replace (b - b) with 0 by lia. reflexivity.
  - cbn [flat_map]. rewrite H, H0.
    destruct (covers_rng _ _ _ _ c0) as (Hl & _). pose proof (covers_list_le _ _ _ _ c1) as Hle.
    replace (e - b) with ((c - b) + (e - c)) by lia. rewrite seq_app. f_equal. f_equal. lia.
Qed.
