(** The program parsers return. *)
From Coq Require Import Lia.
From Verif Require Import Base Tags Token StmtRules Peg LabelStack Prgm Prgm_spec Prgm_proofs.
Local Open Scope nat_scope.

Section Static.
Variable N : grule -> bool.
Variable rank : grule -> nat.
(** matches consume *)
Fixpoint geats (p : gexp) : bool :=
  match p with
  | GStmt _ => true
  | GSeq _ ps => existsb geats ps
  | GSeqIf _ p0 ps => geats p0 || existsb geats ps
  | GAlts _ ps => forallb geats ps
  | GPlus _ q | GTag _ q => geats q
  | GCall r => N r
  | GOpt _ | GOptSeq _ _ | GStar _ | GEnd => false
  end.
Definition geats_body (b : gbody) : bool := match b with GBody p | GExec p => geats p | GDo => true end.
(** what is repeated consumes *)
Fixpoint gstars (p : gexp) : bool :=
  match p with
  | GStmt _ | GCall _ | GEnd => true
  | GSeq _ ps | GOptSeq _ ps | GAlts _ ps => forallb gstars ps
  | GSeqIf _ p0 ps => gstars p0 && forallb gstars ps
  | GPlus _ q | GStar q => geats q && gstars q
  | GTag _ q | GOpt q => gstars q
  end.
(** the rules called before anything has been consumed have rank below k *)
Fixpoint gleft (k : nat) (p : gexp) : bool :=
  match p with
  | GStmt _ | GEnd => true
  | GCall r => rank r <? k
  | GSeq _ ps | GOptSeq _ ps =>
      (fix go ps := match ps with [] => true | q :: r => gleft k q && (geats q || go r) end) ps
  | GSeqIf _ p0 ps =>
      gleft k p0 && (geats p0 || (fix go ps := match ps with [] => true | q :: r => gleft k q && (geats q || go r) end) ps)
  | GAlts _ ps => forallb (gleft k) ps
  | GPlus _ q | GStar q | GTag _ q | GOpt q => gleft k q
  end.
Definition gleft_list (k : nat) : list gexp -> bool :=
  fix go ps := match ps with [] => true | q :: r => gleft k q && (geats q || go r) end.
Fixpoint gheight (p : gexp) : nat :=
  match p with
  | GStmt _ | GEnd | GCall _ => 0
  | GSeq _ ps | GOptSeq _ ps | GAlts _ ps => S (fold_right (fun q a => Nat.max (gheight q) a) 0 ps)
  | GSeqIf _ p0 ps => S (Nat.max (gheight p0) (fold_right (fun q a => Nat.max (gheight q) a) 0 ps))
  | GPlus _ q | GStar q | GTag _ q | GOpt q => S (gheight q)
  end.
Definition body_gexp (b : gbody) : option gexp := match b with GBody p | GExec p => Some p | GDo => None end.
End Static.

Section Term.
Variable body : grule -> gbody.
Variable x : stmts.
Variable N : grule -> bool.
Variable rank : grule -> nat.
Variables H K : nat.
Hypothesis HN : forall r, N r = true -> geats_body N (body r) = true.
Hypothesis HX : N g_execution_part_construct = true.
Hypothesis Hst : forall r p, body_gexp (body r) = Some p -> gstars N p = true.
Hypothesis Hlf : forall r p, body_gexp (body r) = Some p -> gleft N rank (rank r) p = true.
Hypothesis Hht : forall r p, body_gexp (body r) = Some p -> gheight p <= H.
Hypothesis HK : forall r, rank r < K.
Hypothesis Hx : forall i r, x_parse x i r <> Fuel.

(** a match of a consuming parser moves on *)
Section Eat.
Variable R : gexp -> pstate -> out gresult.
Hypothesis HR : forall p s t s', geats N p = true -> p_pos s <= x_num x -> R p s = Done (true, t, s') -> p_pos s < p_pos s'.
Hypothesis HO : forall p s m t s', p_pos s <= x_num x -> R p s = Done (m, t, s') -> p_pos s <= p_pos s' <= x_num x.
Lemma seq_eat ps : forall kids s kids' s', existsb (geats N) ps = true -> p_pos s <= x_num x ->
  g_seq R ps kids s = Done (true, kids', s') -> p_pos s < p_pos s'.
Proof using HR HO.
  clear -HR HO. induction ps as [|p ps IH]; intros kids s kids' s' He Hn E; [discriminate|].
  cbn [g_seq existsb] in *. ob E. destruct a as [[m1 t1] s1]. destruct m1; [|discriminate].
  pose proof (HO _ _ _ _ _ Hn E0) as [O1 O2].
  destruct (geats N p) eqn:Ep; cbn in He.
  - pose proof (HR _ _ _ _ Ep Hn E0).
    assert (p_pos s1 <= p_pos s'); [|lia]. clear -E HO O2. revert s1 O2 E. generalize (g_attach kids t1).
    induction ps as [|q ps IH]; intros k s1 Hn E; cbn [g_seq] in E; [injection E as <- <-; auto|].
    ob E. destruct a as [[m2 t2] s2]. destruct m2; [|discriminate]. destruct (HO _ _ _ _ _ Hn E0).
    apply IH in E; lia.
  - apply IH in E; auto. lia.
Qed.
Lemma alts_eat ps : forall s t s', forallb (geats N) ps = true -> p_pos s <= x_num x ->
  g_alts R ps s = Done (true, t, s') -> p_pos s < p_pos s'.
Proof using HR HO.
  clear -HR HO. induction ps as [|p ps IH]; intros s t s' He Hn E; [discriminate|].
  cbn [g_alts forallb] in *. apply andb_true_iff in He as [H1 H2]. ob E. destruct a as [[m1 t1] s1].
  destruct m1; [injection E as <- <-; eapply HR; eauto|]. destruct (HO _ _ _ _ _ Hn E0). apply IH in E; auto. lia.
Qed.
End Eat.
Lemma grun_le n p s m t s' : p_pos s <= x_num x -> grun body x n p s = Done (m, t, s') -> p_pos s <= p_pos s' <= x_num x.
Proof using. intros Hn E. apply grun_ok in E as [E1 [E2 _]]; auto. apply tree_ok_le in E1. lia. Qed.
Lemma seq_le n ps kids s m kids' s' : p_pos s <= x_num x -> g_seq (grun body x n) ps kids s = Done (m, kids', s') -> p_pos s <= p_pos s' <= x_num x.
Proof using.
  revert kids s. induction ps as [|p ps IH]; intros kids s Hn E; cbn [g_seq] in E; [injection E as <- <- <-; lia|].
  ob E. destruct a as [[m1 t1] s1]. apply grun_le in E0; auto. destruct m1; [apply IH in E; lia|]. injection E as <- <- <-. lia.
Qed.
Lemma star_le n p k kids s kids' s' : p_pos s <= x_num x -> g_star x (grun body x n) k p kids s = Done (kids', s') -> p_pos s <= p_pos s' <= x_num x.
Proof using.
  revert kids s. induction k as [|k IH]; intros kids s Hn E; cbn [g_star] in E; [discriminate|].
  destruct (at_end x s); [injection E as <- <-; lia|].
  ob E. destruct a as [[m1 t1] s1]. apply grun_le in E0; auto. destruct m1; [apply IH in E; lia|]. injection E as <- <-. lia.
Qed.
Lemma body_le n k kids s kids' s' : p_pos s <= x_num x -> g_do_body (grun body x n) k kids s = Done (kids', s') -> p_pos s <= p_pos s' <= x_num x.
Proof using.
  revert kids s. induction k as [|k IH]; intros kids s Hn E; cbn [g_do_body] in E; [discriminate|].
  ob E. destruct a as [[m1 t1] s1]. apply grun_le in E0; auto. destruct t1; [apply IH in E; lia|]. injection E as <- <-. lia.
Qed.
Lemma grun_eats n : forall p s t s', geats N p = true -> p_pos s <= x_num x -> grun body x n p s = Done (true, t, s') -> p_pos s < p_pos s'.
Proof using HN.
  induction n as [|n IH]; intros p s t s' He Hn E; [discriminate|].
  cbn [grun] in E. destruct p as [tag ps| |q|tag ps|tag q|tag ps|tag p0 ps|q|r|tag q|r]; cbn [geats] in He; try discriminate He.
  - ob E. destruct a as [[m1 t1] s1]. destruct m1; [|discriminate]. destruct t1; [|discriminate]. ob E. injection E as <- <-.
    eapply alts_eat; eauto using grun_le.
  - destruct (at_end x s); [discriminate|]. ob E. destruct a as [[m1 t1] s1]. destruct m1; [|discriminate].
    pose proof (grun_le _ _ _ _ _ _ Hn E0). apply IH in E0; auto. ob E. destruct a as [kids s2]. apply star_le in E1; [|lia].
    ob E. injection E as <- <-. lia.
  - ob E. destruct a as [[m1 kids] s1]. destruct m1; [|unfold complain in E; ob E]. ob E. injection E as <- <-.
    eapply seq_eat; eauto using grun_le.
  - ob E. destruct a as [[m1 t1] s1]. destruct m1; [|discriminate]. pose proof (grun_le _ _ _ _ _ _ Hn E0).
    ob E. destruct a as [[m2 kids] s2]. destruct m2; [|unfold complain in E; ob E]. ob E. injection E as <- <-.
    pose proof (seq_le _ _ _ _ _ _ _ (proj2 H0) E1).
    destruct (geats N p0) eqn:Ep; [apply IH in E0; auto; lia|]. cbn in He.
    apply seq_eat in E1; eauto using grun_le; lia.
  - ob E. apply cur_pos in E0 as [-> Hlt]. ob E. destruct a as [t0|]; [|discriminate]. injection E as <- <-.
    cbn. rewrite advance_pos; auto.
  - ob E. destruct a as [[m1 t1] s1]. destruct t1; [ob E|]; injection E as -> <- <-; eapply IH; eauto.
  - unfold g_call in E. specialize (HN r He). destruct (body r) as [p|p|]; cbn in HN.
    + eapply IH; eauto.
    + ob E. destruct (ls_is_top _ _); [discriminate|eapply IH; eauto].
    + unfold g_do in E. ob E. apply cur_pos in E0 as [-> Hlt]. ob E. destruct a as [t0|]; [|discriminate]. ob E.
      match type of E with obind (g_do_body _ _ _ ?st) _ = _ => set (s1 := st) in * end.
      assert (H1 : p_pos s1 = S (p_pos s)) by (unfold s1; rewrite advance_pos; destruct (0 <? a)%Z; auto).
      ob E. destruct a0 as [kids s2]. apply body_le in E2; [|lia]. ob E. destruct a0 as [r0 s3].
      apply g_do_end_ok in E3 as [Hlt2 Hr]. destruct r0 as [[[c pg] sg]|]; [|discriminate]. ob E. injection E as <- <-.
      destruct Hr as [[Hr|[Hr _]] _]; lia.
Qed.

(** ** enough fuel *)
Definition W : nat := (K + 1) * (H + 2) + H + 3.
Definition enough (n : nat) (s : pstate) (k h : nat) : Prop := (x_num x - p_pos s) * W + k * (H + 2) + h + 2 <= n.
Section Fuel.
Variable n : nat.
Hypothesis IH : forall p s k, p_pos s <= x_num x -> gstars N p = true -> gleft N rank k p = true -> gheight p <= H ->
  k <= K -> enough n s k (gheight p) -> grun body x n p s <> Fuel.
Notation R := (grun body x n).

Lemma gleft_mono k k' : k <= k' -> forall p, gleft N rank k p = true -> gleft N rank k' p = true.
Proof using.
  clear. intro Hk. fix F 1. intros [tag ps| |q|tag ps|tag q|tag ps|tag p0 ps|q|r|tag q|r] E; cbn [gleft] in *; auto.
  - revert ps E. fix G 1. intros [|q ps] E; [reflexivity|]. cbn in *. apply andb_true_iff in E as [E1 E2]. rewrite (F q E1). apply G, E2.
  - revert ps E. fix G 1. intros [|q ps] E; [reflexivity|]. cbn in *. apply andb_true_iff in E as [E1 E2]. rewrite (F q E1). cbn.
    destruct (geats N q); [reflexivity|]. cbn in *. apply G, E2.
  - revert ps E. fix G 1. intros [|q ps] E; [reflexivity|]. cbn in *. apply andb_true_iff in E as [E1 E2]. rewrite (F q E1). cbn.
    destruct (geats N q); [reflexivity|]. cbn in *. apply G, E2.
  - apply andb_true_iff in E as [E1 E2]. rewrite (F p0 E1). cbn. destruct (geats N p0); [reflexivity|]. cbn in *.
    revert ps E2. fix G 1. intros [|q ps] E; [reflexivity|]. cbn in *. apply andb_true_iff in E as [E1' E2]. rewrite (F q E1'). cbn.
    destruct (geats N q); [reflexivity|]. cbn in *. apply G, E2.
  - apply Nat.ltb_lt in E. apply Nat.ltb_lt. lia.
Qed.
Lemma gleft_top : forall p, gleft N rank K p = true.
Proof using HK.
  clear -HK. fix F 1. intros [tag ps| |q|tag ps|tag q|tag ps|tag p0 ps|q|r|tag q|r]; cbn [gleft]; auto.
  - revert ps. fix G 1. intros [|q ps]; [reflexivity|]. cbn. rewrite (F q). apply G.
  - revert ps. fix G 1. intros [|q ps]; [reflexivity|]. rewrite (F q), G. destruct (geats N q); reflexivity.
  - revert ps. fix G 1. intros [|q ps]; [reflexivity|]. rewrite (F q), G. destruct (geats N q); reflexivity.
  - rewrite (F p0). replace ((fix go ps := match ps with [] => true | q :: r => gleft N rank K q && (geats N q || go r) end) ps) with true.
    { destruct (geats N p0); reflexivity. }
    symmetry. revert ps. fix G 1. intros [|q ps]; [reflexivity|]. rewrite (F q), G. destruct (geats N q); reflexivity.
  - apply Nat.ltb_lt. apply HK.
Qed.
(** after something has been consumed any parser has enough *)
Lemma enough_after s s' k h h' : p_pos s < p_pos s' -> p_pos s' <= x_num x -> h' <= H -> enough (S n) s k h -> enough n s' K h'.
Proof using.
  unfold enough, W. intros H1 H2 H3 H4.
  assert (E : x_num x - p_pos s = S (x_num x - p_pos s' + (p_pos s' - p_pos s - 1))) by lia. rewrite E in H4.
  set (a := x_num x - p_pos s') in *. set (b := p_pos s' - p_pos s - 1) in *.
  set (w := (K + 1) * (H + 2) + H + 3) in *.
  assert (a * w + w <= S (a + b) * w) by nia. assert (K * (H + 2) + H + 3 <= w) by (unfold w; nia). lia.
Qed.
Lemma enough_same s s' k h h' : p_pos s <= p_pos s' -> h' < h -> enough (S n) s k h -> enough n s' k h'.
Proof using.
  unfold enough. intros H1 H2 H3. assert ((x_num x - p_pos s') * W <= (x_num x - p_pos s) * W); [|lia].
  apply Nat.mul_le_mono_r. lia.
Qed.
Lemma enough_loop s k h : enough (S n) s k h -> x_num x - p_pos s < n.
Proof using.
  unfold enough. intro E. assert (x_num x - p_pos s <= (x_num x - p_pos s) * W); [|lia].
  assert (1 <= W) by (unfold W; lia). nia.
Qed.

Lemma max_in (q : gexp) ps : In q ps -> gheight q <= fold_right (fun q a => Nat.max (gheight q) a) 0 ps.
Proof using.
  clear. induction ps as [|p ps IHp]; intro Hq; [destruct Hq|]. cbn. destruct Hq as [->|Hq]; [lia|]. specialize (IHp Hq). lia.
Qed.
(** a sequence; [c]: something has been consumed since s0 *)
Lemma seq_term s0 k h : enough (S n) s0 k h -> forall ps kids s,
  p_pos s0 <= p_pos s -> p_pos s <= x_num x -> forallb (gstars N) ps = true -> (forall q, In q ps -> gheight q < h) -> h <= S H ->
  (p_pos s0 < p_pos s \/ gleft_list N rank k ps = true) -> k <= K ->
  g_seq R ps kids s <> Fuel.
Proof using IH HN HK.
  intros En ps. induction ps as [|q ps IHp]; intros kids s Hp Hn Hs Hh HH Hc Hk; cbn [g_seq]; [discriminate|].
  cbn [forallb] in Hs. apply andb_true_iff in Hs as [Hs1 Hs2].
  assert (Hq : gheight q < h) by (apply Hh; left; reflexivity).
  assert (Rq : R q s <> Fuel).
  { destruct Hc as [Hc|Hc].
    - apply (IH q s K); auto; [apply gleft_top|lia|]. eapply enough_after; eauto. lia.
    - cbn in Hc. apply andb_true_iff in Hc as [Hc1 _]. apply (IH q s k); auto; [lia|]. eapply enough_same; eauto. }
  destruct (R q s) as [[[m1 t1] s1]| |] eqn:E; cbn [obind]; try congruence.
  destruct m1; [|discriminate]. pose proof (grun_le _ _ _ _ _ _ Hn E).
  apply IHp; auto; try lia. { intros q' Hq'. apply Hh. right. exact Hq'. }
  destruct Hc as [Hc|Hc]; [left; lia|]. cbn in Hc. apply andb_true_iff in Hc as [_ Hc]. apply orb_true_iff in Hc as [Hc|Hc]; [|right; exact Hc].
  left. apply grun_eats in E; auto. lia.
Qed.
Lemma alts_term s0 k h : enough (S n) s0 k h -> forall ps s,
  p_pos s0 <= p_pos s -> p_pos s <= x_num x -> forallb (gstars N) ps = true -> (forall q, In q ps -> gheight q < h) -> h <= S H ->
  forallb (gleft N rank k) ps = true -> k <= K -> g_alts R ps s <> Fuel.
Proof using IH.
  intros En ps. induction ps as [|q ps IHp]; intros s Hp Hn Hs Hh HH Hc Hk; cbn [g_alts]; [discriminate|].
  cbn [forallb] in *. apply andb_true_iff in Hs as [Hs1 Hs2]. apply andb_true_iff in Hc as [Hc1 Hc2].
  assert (Hq : gheight q < h) by (apply Hh; left; reflexivity).
  assert (Rq : R q s <> Fuel). { apply (IH q s k); auto; [lia|]. eapply enough_same; eauto. }
  destruct (R q s) as [[[m1 t1] s1]| |] eqn:E; cbn [obind]; try congruence.
  destruct m1; [discriminate|]. pose proof (grun_le _ _ _ _ _ _ Hn E). apply IHp; auto; try lia.
  intros q' Hq'. apply Hh. right. exact Hq'.
Qed.
Lemma star_term s0 k h q : enough (S n) s0 k h -> geats N q = true -> gstars N q = true -> gheight q < h -> h <= S H ->
  gleft N rank k q = true -> k <= K ->
  forall j kids s, p_pos s0 <= p_pos s -> p_pos s <= x_num x -> x_num x - p_pos s < j -> g_star x R j q kids s <> Fuel.
Proof using IH HN.
  intros En He Hs Hh HH Hl Hk j. induction j as [|j IHj]; intros kids s Hp Hn Hj; [lia|]. cbn [g_star].
  destruct (at_end x s); [discriminate|].
  assert (Rq : R q s <> Fuel). { apply (IH q s k); auto; [lia|]. eapply enough_same; eauto. }
  destruct (R q s) as [[[m1 t1] s1]| |] eqn:E; cbn [obind]; try congruence.
  destruct m1; [|discriminate]. pose proof (grun_le _ _ _ _ _ _ Hn E). apply grun_eats in E; auto. apply IHj; lia.
Qed.
Lemma do_body_term s0 k h : enough (S n) s0 k h ->
  forall j kids s, p_pos s0 < p_pos s -> p_pos s <= x_num x -> x_num x - p_pos s < j -> g_do_body R j kids s <> Fuel.
Proof using IH HN HX HK.
  intros En j. induction j as [|j IHj]; intros kids s Hp Hn Hj; [lia|]. cbn [g_do_body].
  assert (Rq : R (GCall g_execution_part_construct) s <> Fuel).
  { apply (IH _ s K); auto; [apply gleft_top|cbn; lia|]. eapply enough_after; eauto. cbn; lia. }
  destruct (R _ s) as [[[m1 t1] s1]| |] eqn:E; cbn [obind]; try congruence.
  destruct t1; [|discriminate]. pose proof (grun_le _ _ _ _ _ _ Hn E).
  destruct m1; [|apply grun_ok in E as [_ [_ E]]; auto; discriminate (E eq_refl)].
  apply grun_eats in E; auto. apply IHj; lia.
Qed.
Lemma do_end_term s : g_do_end x s <> Fuel.
Proof using Hx.
  unfold g_do_end. destruct (cur x s) eqn:E; cbn [obind]; try discriminate; [|unfold cur in E; destruct (_ <? _); discriminate].
  destruct (negb _).
  - destruct (x_parse x a r_end_do_stmt) as [[t|]| |] eqn:E1; cbn [obind]; try discriminate. apply Hx in E1. auto.
  - destruct (ls_level _ _) as [st level].
    destruct (lift (assert_ _)) as [u| |] eqn:E0; cbn [obind]; try discriminate.
    2: { destruct (-1 <? level)%Z; cbn in E0; discriminate. }
    match goal with |- obind ?e _ <> _ => assert (Y : e <> Fuel); [|destruct e as [[[p|] s1]| |]; cbn [obind]; try congruence; try discriminate] end.
    + destruct (0 <? level)%Z.
      * destruct (x_parse x a r_action_stmt) as [[t|]| |] eqn:E1; cbn [obind]; try discriminate; [destruct (level =? 1)%Z; discriminate|].
        apply Hx in E1. auto.
      * destruct (x_parse x a r_end_do) as [[t|]| |] eqn:E1; cbn [obind]; try discriminate; [|apply Hx in E1; auto].
        destruct (x_parse x a r_action_stmt) as [[t|]| |] eqn:E2; cbn [obind]; try discriminate. apply Hx in E2. auto.
    + destruct (ls_pop _); cbn; discriminate.
Qed.
Lemma cover_fuel t : g_cover t <> Fuel.
Proof using. destruct t as [g r [i|] ks]; cbn [g_cover]; [discriminate|]. destruct (g_push_all None ks); cbn; discriminate. Qed.
Lemma do_tree_fuel a b c d e : g_do_tree a b c d e <> Fuel.
Proof using.
  unfold g_do_tree. destruct a as [[u v] w].
  repeat match goal with |- obind ?e _ <> _ =>
    let Z := fresh in pose proof (cover_fuel) as Z; let E := fresh in destruct e eqn:E; cbn [obind]; try discriminate; [|exfalso; revert E; apply Z] end.
  apply cover_fuel.
Qed.
Lemma do_term s k h : enough (S n) s k h -> p_pos s <= x_num x -> g_do x R n s <> Fuel.
Proof using IH HN HX HK Hx.
  intros En Hn. unfold g_do. destruct (cur x s) as [i| |] eqn:Ei; cbn [obind]; try discriminate; [|unfold cur in Ei; destruct (_ <? _); discriminate].
  apply cur_pos in Ei as [-> Hlt].
  destruct (x_parse x (p_pos s) r_do_stmt) as [[t|]| |] eqn:E1; cbn [obind]; try discriminate; [|apply Hx in E1; auto].
  destruct (lift _) as [l| |] eqn:E2; cbn [obind]; try discriminate; [|destruct (do_label _ _); discriminate].
  match goal with |- obind (g_do_body _ _ _ ?st) _ <> _ => set (s1 := st) in * end.
  assert (H1 : p_pos s1 = S (p_pos s)) by (unfold s1; rewrite advance_pos; destruct (0 <? l)%Z; auto).
  pose proof (enough_loop _ _ _ En).
  assert (Y : g_do_body R n [] s1 <> Fuel) by (eapply do_body_term; eauto; lia).
  destruct (g_do_body R n [] s1) as [[kids s2]| |]; cbn [obind]; try congruence.
  pose proof (do_end_term s2). destruct (g_do_end x s2) as [[[r|] s3]| |]; cbn [obind]; try congruence; try discriminate.
  pose proof (do_tree_fuel r (t_tag t) (p_pos s) kids (p_pos s2)). destruct (g_do_tree _ _ _ _ _); cbn [obind]; try congruence; discriminate.
Qed.
End Fuel.

Ltac noc := match goal with |- obind (g_cover ?t) _ <> _ => let Z := fresh in pose proof (cover_fuel t) as Z; destruct (g_cover t); cbn [obind]; try congruence; discriminate end.
Lemma complain_fuel s : complain x s <> Fuel.
Proof using. unfold complain, cur. destruct (_ <? _); discriminate. Qed.
Theorem grun_term n : forall p s k, p_pos s <= x_num x -> gstars N p = true -> gleft N rank k p = true -> gheight p <= H ->
  k <= K -> enough n s k (gheight p) -> grun body x n p s <> Fuel.
Proof using HN HX HK Hx Hst Hlf Hht.
  induction n as [|n IH]; intros p s k Hn Hs Hl Hh Hk En; [unfold enough in En; rewrite Nat.add_comm in En; inversion En|].
  cbn [grun]. destruct p as [tag ps| |q|tag ps|tag q|tag ps|tag p0 ps|q|r|tag q|r]; cbn [gstars gleft] in Hs, Hl.
  - assert (Y : g_alts (grun body x n) ps s <> Fuel).
    { eapply alts_term; eauto. intros q Hq. apply max_in in Hq. cbn. lia. }
    destruct (g_alts _ ps s) as [[[m1 t1] s1]| |]; cbn [obind]; try congruence. destruct m1; [|discriminate].
    destruct t1; [noc|discriminate].
  - destruct (at_end x s); discriminate.
  - assert (Y : grun body x n q s <> Fuel). { apply (IH q s k); auto; [cbn in Hh; lia|]. eapply enough_same; [reflexivity| |exact En]; cbn; lia. }
    destruct (grun body x n q s) as [[[m1 t1] s1]| |]; cbn [obind]; try congruence. destruct t1; [noc|discriminate].
  - assert (Y : g_seq (grun body x n) ps [] s <> Fuel).
    { eapply seq_term; eauto. intros q Hq. apply max_in in Hq. cbn. lia. }
    destruct (g_seq _ ps [] s) as [[[m1 t1] s1]| |]; cbn [obind]; try congruence. noc.
  - apply andb_true_iff in Hs as [Hs1 Hs2]. destruct (at_end x s); [discriminate|].
    assert (Y : grun body x n q s <> Fuel). { apply (IH q s k); auto; [cbn in Hh; lia|]. eapply enough_same; [reflexivity| |exact En]; cbn; lia. }
    destruct (grun body x n q s) as [[[m1 t1] s1]| |] eqn:E; cbn [obind]; try congruence. destruct m1; [|discriminate].
    pose proof (grun_le _ _ _ _ _ _ Hn E). pose proof (enough_loop _ _ _ _ En).
    assert (Y2 : g_star x (grun body x n) n q (g_attach [] t1) s1 <> Fuel).
    { eapply star_term; eauto; cbn; lia. }
    destruct (g_star _ _ _ _ _ s1) as [[kids s2]| |]; cbn [obind]; try congruence. noc.
  - assert (Y : g_seq (grun body x n) ps [] s <> Fuel).
    { eapply seq_term; eauto. intros q Hq. apply max_in in Hq. cbn. lia. }
    destruct (g_seq _ ps [] s) as [[[m1 t1] s1]| |]; cbn [obind]; try congruence. destruct m1; [noc|apply complain_fuel].
  - apply andb_true_iff in Hs as [Hs1 Hs2]. apply andb_true_iff in Hl as [Hl1 Hl2].
    assert (Y : grun body x n p0 s <> Fuel). { apply (IH p0 s k); auto; [cbn in Hh; lia|]. eapply enough_same; [reflexivity| |exact En]; cbn; lia. }
    destruct (grun body x n p0 s) as [[[m1 t1] s1]| |] eqn:E; cbn [obind]; try congruence. destruct m1; [|discriminate].
    pose proof (grun_le _ _ _ _ _ _ Hn E).
    assert (Y2 : g_seq (grun body x n) ps (g_attach [] t1) s1 <> Fuel).
    { eapply seq_term; eauto; try lia.
      - intros q Hq. apply max_in in Hq. cbn. lia.
      - apply orb_true_iff in Hl2 as [Hl2|Hl2]; [left; eapply grun_eats; eauto|right; exact Hl2]. }
    destruct (g_seq _ ps _ s1) as [[[m2 kids] s2]| |]; cbn [obind]; try congruence. destruct m2; [noc|apply complain_fuel].
  - apply andb_true_iff in Hs as [Hs1 Hs2]. pose proof (enough_loop _ _ _ _ En).
    assert (Y2 : g_star x (grun body x n) n q [] s <> Fuel).
    { eapply star_term; eauto; cbn; lia. }
    destruct (g_star _ _ _ _ _ s) as [[kids s2]| |]; cbn [obind]; try congruence. noc.
  - destruct (cur x s) as [i| |] eqn:Ei; cbn [obind]; try discriminate; [|unfold cur in Ei; destruct (_ <? _); discriminate].
    destruct (x_parse x i r) as [[t|]| |] eqn:E1; cbn [obind]; try discriminate. apply Hx in E1. auto.
  - assert (Y : grun body x n q s <> Fuel). { apply (IH q s k); auto; [cbn in Hh; lia|]. eapply enough_same; [reflexivity| |exact En]; cbn; lia. }
    destruct (grun body x n q s) as [[[m1 t1] s1]| |]; cbn [obind]; try congruence. destruct t1; [noc|discriminate].
  - apply Nat.ltb_lt in Hl.
    assert (Y : forall p, body_gexp (body r) = Some p -> grun body x n p s <> Fuel).
    { intros p Ep. apply (IH p s (rank r)); eauto; [lia|]. unfold enough in *. pose proof (Hht _ _ Ep). cbn in En. nia. }
    unfold g_call. destruct (body r) as [p|p|]; cbn in Y.
    + apply Y. reflexivity.
    + destruct (cur x s) as [i| |] eqn:Ei; cbn [obind]; try discriminate; [|unfold cur in Ei; destruct (_ <? _); discriminate].
      destruct (ls_is_top _ _); [discriminate|]. apply Y. reflexivity.
    + eapply do_term; eauto.
Qed.
End Term.

(** ** the rules of Prgm_Parsers_impl.hh *)
Definition prgm_eats (r : grule) : bool :=
  match r with
  | g_block | g_component_part | g_implicit_part | g_specification_part | g_block_specification_part => false
  | _ => true
  end.
Definition prgm_rank (r : grule) : nat :=
  match r with
  | g_where_body_construct | g_forall_body_construct | g_executable_construct | g_specification_construct
  | g_implicit_part | g_external_subprogram | g_internal_subprogram | g_module_subprogram | g_interface_specification => 1
  | g_execution_part_construct | g_execution_part | g_declaration_construct => 2
  | g_block | g_specification_part | g_block_specification_part => 3
  | g_main_program => 4
  | g_program_unit => 5
  | g_program => 6
  | _ => 0
  end.
Lemma prgm_eats_ok r : prgm_eats r = true -> geats_body prgm_eats (prgm_grammar r) = true.
Proof. destruct r; intro H; try discriminate H; reflexivity. Qed.
Lemma prgm_stars r p : body_gexp (prgm_grammar r) = Some p -> gstars prgm_eats p = true.
Proof. destruct r; cbn; intro H; try discriminate H; injection H as <-; reflexivity. Qed.
Lemma prgm_left r p : body_gexp (prgm_grammar r) = Some p -> gleft prgm_eats prgm_rank (prgm_rank r) p = true.
Proof. destruct r; cbn; intro H; try discriminate H; injection H as <-; reflexivity. Qed.
Lemma prgm_height r p : body_gexp (prgm_grammar r) = Some p -> gheight p <= 5.
Proof. destruct r; cbn; intro H; try discriminate H; injection H as <-; cbn; lia. Qed.
Lemma prgm_rank_lt r : prgm_rank r < 7.
Proof. destruct r; cbn; lia. Qed.
Lemma prgm_terminates x n r : (forall i q, x_parse x i q <> Fuel) ->
  x_num x * W 5 7 + 7 * 7 + 2 <= n -> parse_prgm x n r <> Fuel.
Proof.
  intros Hx Hn. unfold parse_prgm.
  apply (grun_term prgm_grammar x prgm_eats prgm_rank 5 7) with (k := 7);
    eauto using prgm_eats_ok, prgm_stars, prgm_left, prgm_height, prgm_rank_lt.
  - cbn. lia.
  - cbn [gleft]. apply Nat.ltb_lt, prgm_rank_lt.
  - cbn. lia.
  - unfold enough. cbn [p_pos p_init gheight]. rewrite Nat.sub_0_r. change (5 + 2) with 7. lia.
Qed.

(** ** more fuel changes nothing *)
Section Mono.
Variable body : grule -> gbody.
Variable x : stmts.
Definition same_unless_fuel {A} (a b : out A) : Prop := a = Fuel \/ a = b.
Section S2.
Variables R R' : gexp -> pstate -> out gresult.
Hypothesis HR : forall p s, same_unless_fuel (R p s) (R' p s).
Ltac use p s := destruct (HR p s) as [Z|Z]; rewrite Z; [left; reflexivity|].
Lemma seq_mono ps : forall kids s, same_unless_fuel (g_seq R ps kids s) (g_seq R' ps kids s).
Proof using HR.
  induction ps as [|p ps IH]; intros kids s; cbn [g_seq]; [right; reflexivity|]. use p s.
  destruct (R' p s) as [[[m1 t1] s1]| |]; cbn [obind]; [|right; reflexivity|right; reflexivity].
  destruct m1; [apply IH|right; reflexivity].
Qed.
Lemma alts_mono ps : forall s, same_unless_fuel (g_alts R ps s) (g_alts R' ps s).
Proof using HR.
  induction ps as [|p ps IH]; intros s; cbn [g_alts]; [right; reflexivity|]. use p s.
  destruct (R' p s) as [[[m1 t1] s1]| |]; cbn [obind]; [|right; reflexivity|right; reflexivity].
  destruct m1; [right; reflexivity|apply IH].
Qed.
Lemma star_mono p k : forall k' kids s, k <= k' -> same_unless_fuel (g_star x R k p kids s) (g_star x R' k' p kids s).
Proof using HR.
  induction k as [|k IH]; intros k' kids s Hk; [left; reflexivity|]. destruct k' as [|k']; [lia|]. cbn [g_star].
  destruct (at_end x s); [right; reflexivity|]. use p s.
  destruct (R' p s) as [[[m1 t1] s1]| |]; cbn [obind]; [|right; reflexivity|right; reflexivity].
  destruct m1; [apply IH; lia|right; reflexivity].
Qed.
Lemma do_body_mono k : forall k' kids s, k <= k' -> same_unless_fuel (g_do_body R k kids s) (g_do_body R' k' kids s).
Proof using HR.
  induction k as [|k IH]; intros k' kids s Hk; [left; reflexivity|]. destruct k' as [|k']; [lia|]. cbn [g_do_body].
  use (GCall g_execution_part_construct) s.
  destruct (R' _ s) as [[[m1 t1] s1]| |]; cbn [obind]; [|right; reflexivity|right; reflexivity].
  destruct t1; [apply IH; lia|right; reflexivity].
Qed.
Lemma obind_mono {A B} (a b : out A) (f : A -> out B) : same_unless_fuel a b -> same_unless_fuel (obind a f) (obind b f).
Proof using. intros [->| ->]; [left; reflexivity|right; reflexivity]. Qed.
Lemma obind_mono2 {A B} (a : out A) (f g : A -> out B) : (forall v, same_unless_fuel (f v) (g v)) -> same_unless_fuel (obind a f) (obind a g).
Proof using. intro Hf. destruct a; cbn [obind]; [apply Hf|right; reflexivity|right; reflexivity]. Qed.
Lemma do_mono k k' s : k <= k' -> same_unless_fuel (g_do x R k s) (g_do x R' k' s).
Proof using HR.
  intro Hk. unfold g_do. apply obind_mono2. intro i. apply obind_mono2. intros [t|]; [|right; reflexivity].
  apply obind_mono2. intro l. apply obind_mono. apply do_body_mono. exact Hk.
Qed.
Lemma call_mono k k' r s : k <= k' -> same_unless_fuel (g_call body x R k r s) (g_call body x R' k' r s).
Proof using HR.
  intro Hk. unfold g_call. destruct (body r); [apply HR| |apply do_mono; exact Hk].
  apply obind_mono2. intro i. destruct (ls_is_top _ _); [right; reflexivity|apply HR].
Qed.
End S2.
Lemma obind_mono3 {A B} (a b : out A) (f g : A -> out B) : same_unless_fuel a b -> (forall v, same_unless_fuel (f v) (g v)) ->
  same_unless_fuel (obind a f) (obind b g).
Proof. intros [->| ->] Hf; [left; reflexivity|]. destruct b; cbn [obind]; [apply Hf|right; reflexivity|right; reflexivity]. Qed.
Lemma grun_mono n : forall n' p s, n <= n' -> same_unless_fuel (grun body x n p s) (grun body x n' p s).
Proof using.
  induction n as [|n IH]; intros n' p s Hn; [left; reflexivity|]. destruct n' as [|n']; [lia|].
  assert (HR : forall p s, same_unless_fuel (grun body x n p s) (grun body x n' p s)) by (intros; apply IH; lia).
  assert (Hk : n <= n') by lia.
  cbn [grun]. destruct p as [tag ps| |q|tag ps|tag q|tag ps|tag p0 ps|q|r|tag q|r];
    try (right; reflexivity);
    try (apply obind_mono; first [apply HR | apply alts_mono; exact HR | apply seq_mono; exact HR | apply star_mono; [exact HR|exact Hk]]).
  - destruct (at_end x s); [right; reflexivity|]. apply obind_mono3; [apply HR|]. intros [[m1 t1] s1]. destruct m1; [|right; reflexivity].
    apply obind_mono. apply star_mono; auto.
  - apply obind_mono3; [apply HR|]. intros [[m1 t1] s1]. destruct m1; [|right; reflexivity].
    apply obind_mono. apply seq_mono; auto.
  - apply call_mono; auto.
Qed.
End Mono.
Lemma parse_prgm_mono x n n' r : n <= n' -> parse_prgm x n r <> Fuel -> parse_prgm x n' r = parse_prgm x n r.
Proof. intros Hn Hf. destruct (grun_mono prgm_grammar x n n' (GCall r) p_init Hn) as [E|E]; [contradiction|symmetry; exact E]. Qed.
