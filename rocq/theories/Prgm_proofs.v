(** Lemmas about the program parser. *)
From Coq Require Import Lia.
From Verif Require Import Base Tags Token StmtRules Peg LabelStack Prgm Prgm_spec.
Local Open Scope nat_scope.

Lemma lift_done {A} (r : res A) a : lift r = Done a -> r = Ok a.
Proof. destruct r; cbn; congruence. Qed.

Fixpoint ptree_rect' (P : ptree -> Prop)
  (H : forall g r i kids, Forall P kids -> P (PT g r i kids)) (t : ptree) {struct t} : P t :=
  match t with
  | PT g r i kids =>
      H g r i kids ((fix go (l : list ptree) : Forall P l :=
        match l with [] => Forall_nil P | a :: l' => Forall_cons a (ptree_rect' P H a) (go l') end) kids)
  end.

(** ** Leaves in order *)
Definition nxt (i : nat) (f : bool) : nat := if f then i else S i.
Fixpoint ordp (p : nat) (l : list (nat * bool)) (q : nat) : Prop :=
  match l with
  | [] => p <= q
  | (i, f) :: l' => p <= i /\ ordp (nxt i f) l' q
  end.
Definition kleaves (kids : list ptree) : list (nat * bool) := flat_map (g_leaves false) kids.

Lemma ordp_le l : forall p q, ordp p l q -> p <= q.
Proof.
  induction l as [|[i f] l IH]; intros p q H; cbn in H; auto.
  destruct H as [H1 H2]. apply IH in H2. unfold nxt in H2. destruct f; lia.
Qed.
Lemma ordp_weak l : forall p p' q q', ordp p l q -> p' <= p -> q <= q' -> ordp p' l q'.
Proof.
  induction l as [|[i f] l IH]; intros p p' q q' H Hp Hq; cbn in *; [lia|].
  destruct H as [H1 H2]. split; [lia|]. eapply IH; eauto.
Qed.
Lemma ordp_app l1 : forall l2 p q, ordp p (l1 ++ l2) q <-> exists m, ordp p l1 m /\ ordp m l2 q.
Proof.
  induction l1 as [|[i f] l1 IH]; intros l2 p q; cbn.
  - split.
    + intro H. exists p. split; auto.
    + intros [m [H1 H2]]. eapply ordp_weak; eauto.
  - rewrite IH. split.
    + intros [H1 [m [H2 H3]]]. exists m. tauto.
    + intros [m [[H1 H2] H3]]. split; auto. exists m; auto.
Qed.

(** raising the flags *)
Definition raised (a b : nat * bool) : Prop := fst a = fst b /\ (snd a = true -> snd b = true).
Lemma ordp_raise l l' : Forall2 raised l l' -> forall p q, ordp p l q -> ordp p l' q.
Proof.
  induction 1 as [|[i f] [j g] l l' [H1 H2] H IH]; intros p q; cbn in *; auto.
  subst j. intros [H3 H4]. split; auto. apply IH. eapply ordp_weak; eauto.
  unfold nxt. destruct f, g; lia || (specialize (H2 eq_refl); discriminate).
Qed.
Lemma steps_raise l l' : Forall2 raised l l' -> steps l -> steps l'.
Proof.
  intros H. induction H as [|[i f] [j g] l l' [H1 H2] H IH]; intro Hs; [constructor|].
  cbn in *. subst j. inversion H as [|[i2 f2] [j2 g2] t t' [H3 H4] H5]; subst; [constructor|].
  cbn in *. subst j2. inversion Hs as [| |? ? ? ? ? Hc Hs']; subst. constructor.
  - destruct Hc as [->|[-> ->]]; auto.
  - apply IH. exact Hs'.
Qed.
Lemma last_cons_ne {A} (a b : A) l d : last (a :: b :: l) d = last (b :: l) d.
Proof. reflexivity. Qed.
Lemma last_default {A} (l : list A) d d' : l <> [] -> last l d = last l d'.
Proof. induction l as [|a [|b l] IH]; intro H; [congruence|reflexivity|]. rewrite !last_cons_ne. apply IH. discriminate. Qed.
Lemma span_raise l l' : Forall2 raised l l' -> span l = span l'.
Proof.
  intro H. destruct H as [|[i f] [j g] l l' [H1 H2] H]; [reflexivity|].
  cbn in H1. subst j. unfold span. f_equal. f_equal. f_equal.
  assert (K : forall l l', Forall2 raised l l' -> forall a b, raised a b -> forall d d',
     fst (last (a :: l) d) = fst (last (b :: l') d')).
  { clear. induction 1 as [|c d l l' Hc H IH]; intros a b [Ha _] e e'; [exact Ha|].
    rewrite !last_cons_ne. apply IH; auto. }
  apply K; auto. split; auto.
Qed.
Lemma raised_refl l : Forall2 raised l l.
Proof. induction l; constructor; auto. split; auto. Qed.
Lemma raised_app a a' b b' : Forall2 raised a a' -> Forall2 raised b b' -> Forall2 raised (a ++ b) (a' ++ b').
Proof. apply Forall2_app. Qed.
Lemma leaves_raise sh t : Forall2 raised (g_leaves false t) (g_leaves sh t).
Proof.
  destruct t as [g r [i|] kids]; cbn [g_leaves].
  - constructor; auto. split; cbn; auto. discriminate.
  - apply raised_refl.
Qed.
Lemma kleaves_raise g kids : Forall2 raised (kleaves kids) (leaves_of (PT g None None kids)).
Proof.
  unfold kleaves, leaves_of. cbn [g_leaves].
  induction kids as [|t kids IH]; cbn [flat_map]; [constructor|]. apply raised_app; auto. apply leaves_raise.
Qed.
Lemma kleaves_app a b : kleaves (a ++ b) = kleaves a ++ kleaves b.
Proof. apply flat_map_app. Qed.

(** steps and spans *)
Lemma steps_app_inv a : forall b, steps (a ++ b) -> steps a /\ steps b.
Proof.
  induction a as [|[i f] a IH]; intros b H; [split; [constructor|exact H]|].
  destruct a as [|[j g] a].
  - cbn in H. inversion H; subst; split; try constructor; auto.
  - cbn in H. inversion H as [| |? ? ? ? ? Hc Hs]; subst.
    destruct (IH b) as [Ha Hb]; [exact Hs|]. split; auto. constructor; auto.
Qed.
Lemma steps_app a : forall b i f j g,
  steps (a ++ [(i, f)]) -> steps ((j, g) :: b) -> (j = S i \/ (f = true /\ j = i)) ->
  steps ((a ++ [(i, f)]) ++ (j, g) :: b).
Proof.
  induction a as [|[i' f'] a IH]; intros b i f j g H1 H2 H3.
  - cbn. constructor; auto.
  - destruct a as [|[i2 f2] a].
    + cbn in *. inversion H1 as [| |? ? ? ? ? Hc Hs]; subst. constructor; auto.
    + cbn in H1 |- *. inversion H1 as [| |? ? ? ? ? Hc Hs]; subst. constructor; auto.
      apply (IH b i f j g); auto.
Qed.
Lemma steps_first_last l : forall i f, steps ((i, f) :: l) -> i <= fst (last ((i, f) :: l) (i, f)).
Proof.
  induction l as [|[j g] l IH]; intros i f H; [cbn; lia|].
  rewrite last_cons_ne. inversion H as [| |? ? ? ? ? Hc Hs]; subst.
  specialize (IH j g Hs). rewrite (last_default ((j, g) :: l) (i, f) (j, g)) by discriminate.
  destruct Hc as [->|[_ ->]]; lia.
Qed.
Lemma span_app_snoc a i f : exists b, span (a ++ [(i, f)]) = Some (b, S i).
Proof.
  destruct a as [|[b g] a]; cbn; [eauto|]. exists b. f_equal. f_equal. f_equal.
  change (fst (last ((b, g) :: a ++ [(i, f)]) (b, false)) = i).
  rewrite app_comm_cons, last_last. reflexivity.
Qed.

(** ** cover_branches *)
Lemma tiled_rng t : tiled t -> g_rng t = span (g_leaves false t).
Proof.
  destruct 1 as [tag i|tag kids H1 H2]; [reflexivity|].
  cbn [g_rng g_leaves]. reflexivity.
Qed.
Lemma tiled_steps t : tiled t -> steps (g_leaves false t).
Proof.
  destruct 1 as [tag i|tag kids H1 H2]; [constructor|]. exact H2.
Qed.
Lemma span_some l : l <> [] -> steps l -> exists b e, span l = Some (b, S e) /\ b <= e /\ hd_error (map fst l) = Some b
  /\ exists l' f, l = l' ++ [(e, f)].
Proof.
  intros Hn Hs. destruct l as [|[i f] l]; [congruence|].
  destruct (exists_last (l := (i, f) :: l)) as [l' [[e g] E]]; [discriminate|].
  exists i, e. pose proof (steps_first_last l i f Hs) as Hle. rewrite E in *.
  rewrite last_last in Hle. split; [|split; [exact Hle|split; [|eauto]]].
  - rewrite <- E. unfold span. rewrite E, last_last. reflexivity.
  - rewrite <- E. reflexivity.
Qed.
Lemma ordp_ge l : forall p q i f, ordp p l q -> In (i, f) l -> p <= i.
Proof.
  induction l as [|[j g] l IH]; intros p q i f Ho Hi; [destruct Hi|].
  cbn in Ho. destruct Ho as [H1 H2]. destruct Hi as [Hi|Hi]; [inversion Hi; subst; auto|].
  specialize (IH _ _ _ _ H2 Hi). unfold nxt in IH. destruct g; lia.
Qed.
Lemma rng_push_span a b : forall p q r,
  steps a -> steps b -> ordp p (a ++ b) q -> rng_push (span a) (span b) = Ok r ->
  steps (a ++ b) /\ r = span (a ++ b).
Proof.
  intros p q r Ha Hb Ho Hr.
  destruct b as [|[j g] b]; [rewrite app_nil_r; cbn in Hr; split; auto; congruence|].
  destruct (span_some ((j, g) :: b)) as [b0 [e0 [Hsb [Hle [Hhd [l' [h El]]]]]]]; [discriminate|exact Hb|].
  cbn in Hhd. injection Hhd as <-. rewrite Hsb in Hr.
  destruct a as [|a0 a].
  { cbn [app span] in *. unfold rng_push, rng_empty in Hr.
    destruct (j =? S e0) eqn:E1; [apply Nat.eqb_eq in E1; lia|]. split; auto. rewrite Hsb. congruence. }
  destruct (span_some (a0 :: a)) as [b1 [i [Hsa [Hle1 [Hhd1 [a' [f Ea]]]]]]]; [discriminate|exact Ha|].
  rewrite Hsa in Hr. unfold rng_push, rng_empty in Hr.
  destruct (j =? S e0) eqn:E1; [apply Nat.eqb_eq in E1; lia|].
  destruct (b1 =? S i) eqn:E2; [apply Nat.eqb_eq in E2; lia|].
  assert (Hspan : span ((a0 :: a) ++ (j, g) :: b) = Some (b1, S e0)).
  { rewrite El. rewrite app_assoc. destruct (span_app_snoc ((a0 :: a) ++ l') e0 h) as [b2 Hb2]. rewrite Hb2. f_equal. f_equal.
    destruct a0 as [x fx]. cbn in Hhd1. injection Hhd1 as <-. cbn in Hb2. congruence. }
  assert (Hnx : nxt i f <= j).
  { rewrite Ea, <- app_assoc in Ho. apply ordp_app in Ho. destruct Ho as [m [_ Ho]]. cbn in Ho. tauto. }
  rewrite Hspan, Ea in *.
  destruct (S e0 =? S i) eqn:E3.
  - apply Nat.eqb_eq in E3. assert (e0 = i) by lia. subst e0.
    assert (f = true /\ j = i) as [-> ->] by (unfold nxt in Hnx; destruct f; split; lia || (exfalso; lia)).
    split; [apply steps_app; auto|congruence].
  - cbn [bind assert_] in Hr. destruct (S i =? j) eqn:E4; cbn in Hr; [|discriminate].
    apply Nat.eqb_eq in E4. split; [apply steps_app; auto|congruence].
Qed.
Lemma push_all_span sh kids : forall acc p q r,
  Forall tiled kids -> steps acc -> ordp p (acc ++ flat_map (g_leaves sh) kids) q -> g_push_all (span acc) kids = Ok r ->
  steps (acc ++ flat_map (g_leaves sh) kids) /\ r = span (acc ++ flat_map (g_leaves sh) kids).
Proof.
  induction kids as [|t kids IH]; intros acc p q r Hk Hs Ho Hr.
  - cbn in *. rewrite app_nil_r. split; auto. congruence.
  - inversion Hk as [|? ? Ht Hk']; subst. cbn [g_push_all] in Hr.
    rewrite (tiled_rng t Ht), (span_raise _ _ (leaves_raise sh t)) in Hr.
    destruct (rng_push (span acc) (span (g_leaves sh t))) as [r1| |] eqn:E; cbn [bind] in Hr; try discriminate.
    change (flat_map (g_leaves sh) (t :: kids)) with (g_leaves sh t ++ flat_map (g_leaves sh) kids) in *.
    rewrite app_assoc in Ho. pose proof Ho as Ho'. apply ordp_app in Ho' as [m [Ho1 _]].
    destruct (rng_push_span acc (g_leaves sh t) p m r1) as [H1 H2]; auto.
    { eapply steps_raise; [apply leaves_raise|]. apply tiled_steps; auto. }
    subst r1. rewrite app_assoc. eapply IH; eauto.
Qed.

(** ** The invariant of the results *)
Definition kids_ok (p : nat) (kids : list ptree) (q : nat) : Prop := Forall tiled kids /\ ordp p (kleaves kids) q.
Definition tree_ok (p : nat) (t : option ptree) (q : nat) : Prop :=
  match t with Some t => tiled t /\ ordp p (g_leaves false t) q | None => p <= q end.

Lemma tree_ok_le p t q : tree_ok p t q -> p <= q.
Proof. destruct t; cbn; [|auto]. intros [_ H]. eapply ordp_le; eauto. Qed.
Lemma kids_ok_le p k q : kids_ok p k q -> p <= q.
Proof. intros [_ H]. eapply ordp_le; eauto. Qed.
Lemma kids_ok_nil p : kids_ok p [] p.
Proof. split; cbn; auto. Qed.
Lemma kids_ok_weak p p' q q' k : kids_ok p k q -> p' <= p -> q <= q' -> kids_ok p' k q'.
Proof. intros [H1 H2] ? ?. split; auto. eapply ordp_weak; eauto. Qed.
Lemma tree_ok_weak p p' q q' k : tree_ok p k q -> p' <= p -> q <= q' -> tree_ok p' k q'.
Proof. destruct k; cbn; [|lia]. intros [H1 H2] ? ?. split; auto. eapply ordp_weak; eauto. Qed.
Lemma g_hoist_ok p kids m d q : kids_ok p kids m -> tree_ok m (Some d) q -> kids_ok p (g_hoist kids d) q.
Proof.
  intros [H1 H2] [H3 H4]. unfold g_hoist. destruct (g_tag d =? HOIST)%Z eqn:E.
  - apply Z.eqb_eq in E. destruct H3 as [tag i|tag ks H5 H6]; cbn in E; subst tag.
    + cbn [g_kids stmt_leaf]. rewrite app_nil_r. eapply kids_ok_weak; [split; eauto|lia|]. eapply ordp_le; eauto.
    + cbn [g_kids]. split; [apply Forall_app; auto|]. rewrite kleaves_app. apply ordp_app. exists m. split; auto.
  - split; [apply Forall_app; auto|]. rewrite kleaves_app. apply ordp_app. exists m. split; auto.
    unfold kleaves. cbn [flat_map]. rewrite app_nil_r. exact H4.
Qed.
Lemma g_attach_ok p kids m d q : kids_ok p kids m -> tree_ok m d q -> kids_ok p (g_attach kids d) q.
Proof.
  destruct d as [d|]; cbn [g_attach]; [apply g_hoist_ok|]. intros H1 H2. cbn in H2. eapply kids_ok_weak; eauto.
Qed.
Lemma g_cover_node g r0 kids p q t :
  kids_ok p kids q -> g_cover (PT g r0 None kids) = Done t -> tree_ok p (Some t) q /\ exists r, t = PT g r None kids.
Proof.
  intros [H1 H2] Hc. cbn [g_cover] in Hc.
  destruct (lift _) as [r| |] eqn:E; cbn [obind] in Hc; try discriminate. injection Hc as <-.
  apply lift_done in E.
  destruct (push_all_span false kids [] p q r) as [H3 H4]; auto; [constructor|]. cbn [app] in *.
  change (flat_map (g_leaves false) kids) with (kleaves kids) in *.
  split; [|eauto]. rewrite (span_raise _ _ (kleaves_raise g kids)) in H4. rewrite H4. split.
  - constructor; auto. eapply steps_raise; eauto. apply kleaves_raise.
  - change (ordp p (leaves_of (PT g None None kids)) q). eapply ordp_raise; eauto. apply kleaves_raise.
Qed.
Lemma g_cover_again t p q t' : tree_ok p (Some t) q -> g_cover t = Done t' -> t' = t.
Proof.
  intros [H1 H2] Hc. destruct H1 as [tag i|tag kids H3 H4].
  - cbn in Hc. injection Hc as <-. reflexivity.
  - cbn [g_cover] in Hc. destruct (lift _) as [r| |] eqn:E; cbn [obind] in Hc; try discriminate. injection Hc as <-.
    apply lift_done in E. cbn [g_leaves] in H2.
    destruct (push_all_span (tag =? PG_DO_TERM_SHARED_STMT)%Z kids [] p q r) as [H5 H6]; auto; [constructor|].
    cbn [app] in H6. rewrite H6. reflexivity.
Qed.
Lemma leaf_ok tag i : tree_ok i (Some (stmt_leaf tag i)) (S i).
Proof. split; [constructor|]. cbn. lia. Qed.

(** ** Results of the parsers *)
Ltac ob H := match type of H with obind ?e _ = _ => let E := fresh "E" in destruct e as [?| |] eqn:E; cbn [obind] in H; try discriminate end.
Section Tiling.
Variable body : grule -> gbody.
Variable x : stmts.

Definition stays (s s' : pstate) : Prop := p_pos s <= p_pos s' /\ p_pos s' <= x_num x.
Definition res_ok (s : pstate) (m : bool) (t : option ptree) (s' : pstate) : Prop :=
  tree_ok (p_pos s) t (p_pos s') /\ p_pos s' <= x_num x /\ (m = false -> t = None).

Lemma cur_pos s i : cur x s = Done i -> i = p_pos s /\ p_pos s < x_num x.
Proof. unfold cur. destruct (p_pos s <? x_num x) eqn:E; intro H; [|discriminate]. apply Nat.ltb_lt in E. split; congruence. Qed.
Lemma advance_pos s : p_pos s < x_num x -> p_pos (advance x s) = S (p_pos s).
Proof. unfold advance. intro H. apply Nat.ltb_lt in H. rewrite H. reflexivity. Qed.

Section Step.
Variable R : gexp -> pstate -> out gresult.
Hypothesis HR : forall p s m t s', p_pos s <= x_num x -> R p s = Done (m, t, s') -> res_ok s m t s'.

Lemma g_seq_ok ps : forall kids s m kids' s' b,
  p_pos s <= x_num x -> kids_ok b kids (p_pos s) -> g_seq R ps kids s = Done (m, kids', s') ->
  kids_ok b kids' (p_pos s') /\ p_pos s' <= x_num x.
Proof using HR.
  induction ps as [|p ps IH]; intros kids s m kids' s' b Hn Hk H; cbn [g_seq] in H.
  - injection H as <- <- <-. auto.
  - destruct (R p s) as [[[m1 t1] s1]| |] eqn:E; cbn [obind] in H; try discriminate.
    apply HR in E as [H1 [H2 H3]]; auto.
    pose proof (g_attach_ok _ _ _ _ _ Hk H1) as Hk'.
    destruct m1; [eapply IH; eauto|]. injection H as <- <- <-. auto.
Qed.
Lemma g_alts_ok ps : forall s m t s',
  p_pos s <= x_num x -> g_alts R ps s = Done (m, t, s') -> res_ok s m t s'.
Proof using HR.
  induction ps as [|p ps IH]; intros s m t s' Hn H; cbn [g_alts] in H.
  - injection H as <- <- <-. repeat split; auto. cbn; lia.
  - destruct (R p s) as [[[m1 t1] s1]| |] eqn:E; cbn [obind] in H; try discriminate.
    apply HR in E as [H1 [H2 H3]]; auto.
    destruct m1; [injection H as <- <- <-; repeat split; auto; discriminate|].
    apply IH in H as [H4 [H5 H6]]; auto. repeat split; auto.
    eapply tree_ok_weak; eauto. eapply tree_ok_le; eauto.
Qed.
Lemma g_star_ok k p : forall kids s kids' s' b,
  p_pos s <= x_num x -> kids_ok b kids (p_pos s) -> g_star x R k p kids s = Done (kids', s') ->
  kids_ok b kids' (p_pos s') /\ p_pos s' <= x_num x.
Proof using HR.
  induction k as [|k IH]; intros kids s kids' s' b Hn Hk H; cbn [g_star] in H; [discriminate|].
  destruct (at_end x s); [injection H as <- <-; auto|].
  destruct (R p s) as [[[m1 t1] s1]| |] eqn:E; cbn [obind] in H; try discriminate.
  apply HR in E as [H1 [H2 H3]]; auto.
  pose proof (g_attach_ok _ _ _ _ _ Hk H1) as Hk'.
  destruct m1; [eapply IH; eauto|]. injection H as <- <-. auto.
Qed.
Lemma g_do_body_ok k : forall kids s kids' s' b,
  p_pos s <= x_num x -> kids_ok b kids (p_pos s) -> g_do_body R k kids s = Done (kids', s') ->
  kids_ok b kids' (p_pos s') /\ p_pos s' <= x_num x.
Proof using HR.
  induction k as [|k IH]; intros kids s kids' s' b Hn Hk H; cbn [g_do_body] in H; [discriminate|].
  destruct (R _ s) as [[[m1 t1] s1]| |] eqn:E; cbn [obind] in H; try discriminate.
  apply HR in E as [H1 [H2 H3]]; auto. destruct t1 as [t1|].
  - eapply IH; [| |exact H]; auto. eapply g_hoist_ok; eauto.
  - injection H as <- <-. split; auto. cbn in H1. eapply kids_ok_weak; eauto.
Qed.


Lemma g_do_end_ok s r s' : g_do_end x s = Done (r, s') ->
  p_pos s < x_num x /\
  match r with
  | None => p_pos s' = p_pos s
  | Some (c, pg, sg) =>
      (p_pos s' = S (p_pos s) \/ (p_pos s' = p_pos s /\ pg = PG_DO_TERM_SHARED_STMT /\ c = PG_INNER_SHARED_DO_CONSTRUCT))
      /\ (pg = HOIST \/ pg = PG_DO_TERM_SHARED_STMT \/ pg = PG_DO_TERM_ACTION_STMT)
  end.
Proof using.
  unfold g_do_end. intro H. ob H. apply cur_pos in E as [-> Hlt]. split; auto.
  destruct (negb _).
  { ob H. destruct a as [t|]; injection H as <- <-; [|reflexivity].
    split; auto. left. rewrite advance_pos; auto. }
  destruct (ls_level _ _) as [st level].
  ob H. ob H. destruct a0 as [r1 s1].
  assert (K : match r1 with
    | None => p_pos s1 = p_pos s
    | Some (c, pg, sg) =>
      (p_pos s1 = S (p_pos s) \/ (p_pos s1 = p_pos s /\ pg = PG_DO_TERM_SHARED_STMT /\ c = PG_INNER_SHARED_DO_CONSTRUCT))
      /\ (pg = HOIST \/ pg = PG_DO_TERM_SHARED_STMT \/ pg = PG_DO_TERM_ACTION_STMT)
    end).
  { destruct (0 <? level)%Z.
    - ob E0. destruct a0 as [t|]; [|injection E0 as <- <-; reflexivity].
      destruct (level =? 1)%Z; injection E0 as <- <-; split; auto. left. rewrite advance_pos; auto.
    - ob E0. destruct a0 as [t|]; [injection E0 as <- <-; split; auto; left; rewrite advance_pos; auto|].
      ob E0. destruct a0 as [t|]; injection E0 as <- <-; [|reflexivity].
      split; auto. left; rewrite advance_pos; auto. }
  destruct r1 as [[[c pg] sg]|].
  - ob H. injection H as <- <-. exact K.
  - injection H as <- <-. exact K.
Qed.
Lemma shared_term_ok tag j t : g_cover (PT PG_DO_TERM_SHARED_STMT None None (g_hoist [] (stmt_leaf tag j))) = Done t ->
  tree_ok j (Some t) j.
Proof using.
  intro H. assert (Hk : kids_ok j (g_hoist [] (stmt_leaf tag j)) (S j)).
  { eapply g_hoist_ok; [apply kids_ok_nil|apply leaf_ok]. }
  apply (g_cover_node _ _ _ _ _ _ Hk) in H as [[H1 H2] [r ->]]. split; auto.
  unfold g_hoist. cbn [g_tag g_kids stmt_leaf]. destruct (tag =? HOIST)%Z; cbn; lia.
Qed.
Lemma g_do_tree_ok c pg sg do_tag i kids j q t :
  kids_ok (S i) kids j ->
  (q = S j \/ (q = j /\ pg = PG_DO_TERM_SHARED_STMT)) ->
  g_do_tree (c, pg, sg) do_tag i kids j = Done t -> tree_ok i (Some t) q.
Proof using.
  intros Hk Hq H. unfold g_do_tree in H.
  set (sub_tag := if (c =? PG_DO_CONSTRUCT)%Z then HOIST else c) in *.
  set (ctag := if (c =? PG_DO_CONSTRUCT)%Z then c else PG_NONBLOCK_DO_CONSTRUCT) in *.
  ob H. ob H. ob H.
  apply (g_cover_node _ _ _ _ _ _ Hk) in E as [Hb _].
  assert (Ht : tree_ok j (Some a0) q).
  { destruct Hq as [->|[-> ->]]; [|eapply shared_term_ok; eauto].
    eapply g_cover_node in E0; [exact (proj1 E0)|]. eapply g_hoist_ok; [apply kids_ok_nil|apply leaf_ok]. }
  eapply g_cover_node with (p := i) (q := q) in E1 as [Hs _].
  2: { eapply g_hoist_ok; [|exact Ht]. eapply g_hoist_ok; [|exact Hb]. eapply g_hoist_ok; [apply kids_ok_nil|apply leaf_ok]. }
  eapply g_cover_node in H; [exact (proj1 H)|]. eapply g_hoist_ok; [apply kids_ok_nil|exact Hs].
Qed.
Lemma fail_ok s s' : p_pos s <= p_pos s' -> p_pos s' <= x_num x -> res_ok s false None s'.
Proof using. intros. repeat split; auto. Qed.
Lemma g_do_ok k s m t s' : p_pos s <= x_num x -> g_do x R k s = Done (m, t, s') -> res_ok s m t s'.
Proof using HR.
  intros Hn H. unfold g_do in H. ob H. apply cur_pos in E as [-> Hlt].
  ob H. destruct a as [t0|]; [|injection H as <- <- <-; apply fail_ok; auto].
  ob H.
  match type of H with obind (g_do_body _ _ _ ?st) _ = _ => set (s1 := st) in * end.
  assert (H1 : p_pos s1 = S (p_pos s)).
  { unfold s1. rewrite advance_pos; destruct (0 <? a)%Z; auto. }
  ob H. destruct a0 as [kids s2].
  apply g_do_body_ok with (b := p_pos s1) in E1 as [Hk Hk2]; [|lia|apply kids_ok_nil].
  ob H. destruct a0 as [r s3]. apply g_do_end_ok in E1 as [Hlt2 Hr].
  pose proof (kids_ok_le _ _ _ Hk).
  destruct r as [[[c pg] sg]|].
  - ob H. injection H as <- <- <-. destruct Hr as [Hr _].
    split; [|split; [destruct Hr as [->|[-> _]]; lia|discriminate]].
    eapply g_do_tree_ok; [|  |exact E1]; [rewrite H1 in Hk; exact Hk|]. tauto.
  - injection H as <- <- <-. apply fail_ok; cbn [p_pos give_up]; lia.
Qed.
Lemma g_call_ok k r s m t s' : p_pos s <= x_num x -> g_call body x R k r s = Done (m, t, s') -> res_ok s m t s'.
Proof using HR.
  intros Hn H. unfold g_call in H. destruct (body r) as [p|p|].
  - eapply HR; eauto.
  - ob H. destruct (ls_is_top _ _); [|eapply HR; eauto]. injection H as <- <- <-. apply fail_ok; auto.
  - eapply g_do_ok; eauto.
Qed.
End Step.

Lemma complain_ok s0 s m t s' : p_pos s0 <= p_pos s -> complain x s = Done (m, t, s') -> res_ok s0 m t s' /\ p_pos s' < x_num x.
Proof using.
  unfold complain. intros H0 H. ob H. injection H as <- <- <-. apply cur_pos in E as [-> H].
  split; auto. apply fail_ok; cbn; lia.
Qed.
Lemma true_ok s t s' : tree_ok (p_pos s) t (p_pos s') -> p_pos s' <= x_num x -> res_ok s true t s'.
Proof using. intros. repeat split; auto. discriminate. Qed.

(** Every tree that a program parser returns is tiled and lies between where the
    parser started and where it stopped. *)
Theorem grun_ok n : forall p s m t s', p_pos s <= x_num x -> grun body x n p s = Done (m, t, s') -> res_ok s m t s'.
Proof using.
  induction n as [|n IH]; intros p s m t s' Hn H; [discriminate|].
  cbn [grun] in H. destruct p as [tag ps| |q|tag ps|tag q|tag ps|tag p0 ps|q|r|tag q|r].
  - (* alts *) ob H. destruct a as [[m1 t1] s1]. apply g_alts_ok in E as [H1 [H2 H3]]; auto.
    destruct m1; [|injection H as <- <- <-; apply fail_ok; auto; eapply tree_ok_le; eauto].
    destruct t1 as [t1|]; [|discriminate]. ob H. injection H as <- <- <-.
    apply true_ok; auto. eapply g_cover_node in E; [exact (proj1 E)|]. eapply g_hoist_ok; eauto. apply kids_ok_nil.
  - (* end *) destruct (at_end x s); injection H as <- <- <-; repeat split; auto; cbn; lia.
  - (* opt *) ob H. destruct a as [[m1 t1] s1]. apply IH in E as [H1 [H2 H3]]; auto.
    destruct t1 as [t1|]; [|injection H as <- <- <-; apply true_ok; auto].
    ob H. injection H as <- <- <-. rewrite (g_cover_again _ _ _ _ H1 E). apply true_ok; auto.
  - (* opt_seq *) ob H. destruct a as [[m1 kids] s1]. eapply g_seq_ok in E as [H1 H2]; eauto; [|apply kids_ok_nil].
    ob H. injection H as <- <- <-. apply true_ok; auto. eapply g_cover_node in E; [exact (proj1 E)|exact H1].
  - (* plus *) destruct (at_end x s); [injection H as <- <- <-; apply fail_ok; auto|].
    ob H. destruct a as [[m1 t1] s1]. apply IH in E as [H1 [H2 H3]]; auto.
    destruct m1; [|injection H as <- <- <-; apply fail_ok; auto; eapply tree_ok_le; eauto].
    ob H. destruct a as [kids s2]. eapply g_star_ok in E as [H4 H5]; eauto.
    2: { eapply g_attach_ok; [apply kids_ok_nil|exact H1]. }
    ob H. injection H as <- <- <-. apply true_ok; auto. eapply g_cover_node in E; [exact (proj1 E)|exact H4].
  - (* seq *) ob H. destruct a as [[m1 kids] s1]. eapply g_seq_ok in E as [H1 H2]; eauto; [|apply kids_ok_nil].
    destruct m1; [|eapply complain_ok in H; [exact (proj1 H)|eapply kids_ok_le; eauto]].
    ob H. injection H as <- <- <-. apply true_ok; auto. eapply g_cover_node in E; [exact (proj1 E)|exact H1].
  - (* seq_if *) ob H. destruct a as [[m1 t1] s1]. apply IH in E as [H1 [H2 H3]]; auto.
    destruct m1; [|injection H as <- <- <-; apply fail_ok; auto; eapply tree_ok_le; eauto].
    ob H. destruct a as [[m2 kids] s2]. eapply g_seq_ok in E as [H4 H5]; eauto.
    2: { eapply g_attach_ok; [apply kids_ok_nil|exact H1]. }
    destruct m2; [|eapply complain_ok in H; [exact (proj1 H)|eapply kids_ok_le; eauto]].
    ob H. injection H as <- <- <-. apply true_ok; auto. eapply g_cover_node in E; [exact (proj1 E)|exact H4].
  - (* star *) ob H. destruct a as [kids s1]. eapply g_star_ok in E as [H1 H2]; eauto; [|apply kids_ok_nil].
    ob H. injection H as <- <- <-. apply true_ok; auto. eapply g_cover_node in E; [exact (proj1 E)|exact H1].
  - (* stmt *) ob H. apply cur_pos in E as [-> Hlt]. ob H.
    destruct a as [t0|]; injection H as <- <- <-; [|apply fail_ok; auto].
    apply true_ok; cbn [set_tree p_pos]; rewrite advance_pos; auto. apply leaf_ok.
  - (* tag *) ob H. destruct a as [[m1 t1] s1]. apply IH in E as [H1 [H2 H3]]; auto.
    destruct t1 as [t1|]; [|injection H as <- <- <-; repeat split; auto].
    ob H. injection H as <- <- <-. destruct m1; [|specialize (H3 eq_refl); discriminate].
    apply true_ok; auto. eapply g_cover_node in E; [exact (proj1 E)|]. eapply g_hoist_ok; eauto. apply kids_ok_nil.
  - (* call *) eapply g_call_ok; eauto.
Qed.
End Tiling.
