(** Statement parsing terminates. *)
From Verif Require Import Base Tags SyntaxTags Token TTStream StmtRules Peg Peg_spec Peg_proofs PegCover_proofs.
Local Open Scope nat_scope.

(** tokens ahead, counted to the end of the line *)
Definition ahead (s : stream) : nat := S (length (frags s)) - pos s.
Definition proper (s : stream) : Prop := s_end s <= length (frags s).
Lemma proper_same s s' : same s s' -> proper s -> proper s'.
Proof. unfold same, proper. intros (-> & _ & ->). auto. Qed.

(** s' is not before s, and if it is behind s it is still on the line *)
Definition onward (s s' : stream) : Prop :=
  same s s' /\ pos s <= pos s' /\ (pos s' = pos s \/ pos s' <= S (length (frags s))).
Lemma onward_refl s : onward s s.
Proof. repeat split; auto. Qed.
Lemma onward_trans a b c : onward a b -> onward b c -> onward a c.
Proof.
  intros (H1 & H2 & H3) (H4 & H5 & H6). split; [eapply same_trans; eauto|].
  destruct H1 as (HF & _). rewrite HF in *. split; [lia|]. destruct H3, H6; lia.
Qed.
Lemma onward_ahead a b : onward a b -> ahead b <= ahead a.
Proof. intros ((HF & _) & H & _). unfold ahead. rewrite HF. lia. Qed.
Lemma onward_eaten a b : onward a b -> pos a < pos b -> ahead b < ahead a.
Proof. intros ((HF & _) & H & [H1|H1]) Hp; unfold ahead; rewrite HF; lia. Qed.
Lemma leaf_onward g s x s' : leaf g s = Done (x, s') -> onward s s' /\ pos s < pos s'.
Proof.
  intro H. apply leaf_inv in H. destruct H as (_ & -> & H). cbn [pos set_pos].
  split; [|lia]. split; [apply same_set|]. cbn [pos set_pos]. lia.
Qed.

Lemma put_back_le s s' : put_back s = Ok s' -> pos s' <= pos s.
Proof.
  unfold put_back. destruct (negb _); [|intros [= <-]; auto]. unfold next_n.
  destruct (_ && _); cbn [bind]; try discriminate. intros [= <-]. cbn. lia.
Qed.
Lemma bwd_le k : forall s d s' d', bwd k s d = Ok (s', d') -> pos s' <= pos s.
Proof.
  induction k as [|k IH]; intros s d s' d'; cbn [bwd].
  - destruct (d <=? 0)%Z; [|discriminate]. intros [= <- <-]. auto.
  - destruct (d <=? 0)%Z; [intros [= <- <-]; auto|].
    destruct (put_back s) as [s1| |] eqn:E; cbn [bind]; try discriminate.
    apply put_back_le in E.
    destruct (curr s1); cbn [bind]; try discriminate.
    destruct (_ =? _)%Z. { intro H. apply IH in H. lia. }
    destruct (_ =? _)%Z. { intro H. apply IH in H. lia. }
    destruct (_ =? _)%Z. { intros [= <- <-]. lia. }
    intro H. apply IH in H. lia.
Qed.
Lemma to_open_le s s' b : move_to_open_paren s = Ok (s', b) -> pos s' <= pos s.
Proof.
  unfold move_to_open_paren. destruct (curr s); cbn [bind]; try discriminate.
  destruct (negb _); [intros [= <- <-]; auto|].
  destruct (bwd _ _ _) as [(s1 & d)| |] eqn:E; cbn [bind]; try discriminate.
  intros [= <- <-]. eapply bwd_le; eauto.
Qed.
(** a tree that covers something ends on the line *)
Lemma covers_end s : proper s -> (forall t b e, covers s t b e -> e = b \/ e <= S (length (frags s))) /\
  (forall l b e, covers_list s l b e -> e = b \/ e <= S (length (frags s))).
Proof.
  intro HP. apply covers_mut; intros.
  - right. destruct l as (x & Hx & _). unfold peek in Hx. cbn [pos s_end set_pos] in Hx.
    destruct (b =? s_end s) eqn:E; [apply Nat.eqb_eq in E; unfold proper in HP; lia|].
    unfold deref in Hx. cbn [frags set_pos] in Hx. destruct (nth_error (frags s) b) eqn:EN.
    + assert (b < length (frags s)) by (apply nth_error_Some; congruence). lia.
    + destruct (b =? length (frags s)) eqn:E2; [apply Nat.eqb_eq in E2; lia|discriminate].
  - exact H.
  - left. reflexivity.
  - destruct H as [->|H]; [exact H0|]. destruct H0 as [->|H0]; lia.
Qed.

Section Onward.
Variable body : rule -> rbody.
Variable exts : bool -> list ext.
Hypothesis Hclean : forall r, clean_body (body r) = true.
Hypothesis Hexts : forall a, Forall ext_ok (exts a).
Variable N : rule -> bool.
Hypothesis HN : forall r, N r = true -> eats_body N (body r) = true.

Lemma exts_same a : Forall ext_same (exts a).
Proof using Hexts. eapply Forall_impl; [|apply Hexts]. intros e H. apply H. Qed.

Definition moves (p : pexp) (s : stream) (x : presult) : Prop :=
  let '(m, t, s') := x in onward s s' /\ (m = true -> eats N p = true -> pos s < pos s').

Section Step.
Variable R : pexp -> stream -> out presult.
Hypothesis HR : forall p s x, sclean p = true -> proper s -> R p s = Done x -> moves p s x.
Hypothesis HRr : forall p s m t s', clean p = true -> R p s = Done (m, t, s') -> restores s (m, t, s').
Lemma seq_moves ps : forallb sclean ps = true -> forall kids s m kids' s', proper s ->
  seq_loop R ps kids s = Done (m, kids', s') ->
  onward s s' /\ (m = true -> existsb (eats N) ps = true -> pos s < pos s').
Proof using HR.
  induction ps as [|p ps IH]; intros Hc kids s m kids' s' HP H; cbn [seq_loop] in H.
  - injection H as <- <- <-. split; [apply onward_refl|discriminate].
  - cbn [forallb] in Hc. apply andb_true_iff in Hc. destruct Hc as (Hc1 & Hc2).
    step3 H m1 t1 s1. apply HR in E; auto. destruct E as (E1 & E2).
    destruct m1; [|injection H as <- <- <-; split; [exact E1|discriminate]].
    apply (IH Hc2) in H; [|eapply proper_same; [apply E1|exact HP]]. destruct H as (H1 & H2).
    split; [eapply onward_trans; eauto|]. intros -> HE. cbn [existsb] in HE. apply orb_true_iff in HE.
    destruct E1 as (_ & E1 & _), H1 as (_ & H1 & _).
    destruct HE as [HE|HE]; [specialize (E2 eq_refl HE)|specialize (H2 eq_refl HE)]; lia.
Qed.
Lemma alts_moves ps : forallb clean ps = true -> forall s m t s', proper s ->
  alts_loop R ps s = Done (m, t, s') ->
  onward s s' /\ (m = true -> forallb (eats N) ps = true -> pos s < pos s').
Proof using HR HRr.
  induction ps as [|p ps IH]; intros Hc s m t s' HP H; cbn [alts_loop] in H.
  - injection H as <- <- <-. split; [apply onward_refl|discriminate].
  - cbn [forallb] in Hc. apply andb_true_iff in Hc. destruct Hc as (Hc1 & Hc2).
    step3 H m1 t1 s1. pose proof (HRr _ _ _ _ _ Hc1 E) as (_ & Hr).
    apply HR in E; auto using clean_sclean. destruct E as (E1 & E2).
    destruct m1.
    + injection H as <- <- <-. split; [exact E1|]. intros _ HE. cbn [forallb] in HE. apply andb_true_iff in HE.
      apply E2; [reflexivity|apply HE].
    + destruct (Hr eq_refl) as (_ & ->). apply (IH Hc2) in H; [|exact HP]. destruct H as (H1 & H2).
      split; [exact H1|]. intros -> HE. cbn [forallb] in HE. apply andb_true_iff in HE. apply H2; [reflexivity|apply HE].
Qed.
Lemma star_moves k p : clean p = true -> forall kids s kids' s', proper s ->
  star_loop R k p kids s = Done (kids', s') -> onward s s'.
Proof using HR.
  intro Hc. induction k as [|k IH]; intros kids s kids' s' HP H; cbn [star_loop] in H; [discriminate|].
  step3 H m1 t1 s1. apply HR in E; auto using clean_sclean. destruct E as (E1 & _).
  destruct m1; [|injection H as <- <-; exact E1].
  eapply onward_trans; [exact E1|]. eapply IH; [|exact H]. eapply proper_same; [apply E1|exact HP].
Qed.
End Step.
Lemma break_moves lit k :
  (forall s t s', proper s -> lit s = Done (Some t, s') -> onward s s') ->
  forall kids d s o s', proper s -> break_loop lit k kids d s = Done (o, s') -> onward s s'.
Proof using.
  clear. intro HL. induction k as [|k IH]; intros kids d s o s' HP H; cbn [break_loop] in H; [discriminate|].
  destruct (d <=? 0)%Z; [injection H as <- <-; apply onward_refl|].
  step H. destruct (decide d a); try (injection H as <- <-; apply onward_refl).
  destruct (_ =? _)%Z.
  - step2 H o1 s1. destruct o1 as [t|]; [|discriminate]. apply HL in E0; [|exact HP].
    eapply onward_trans; [exact E0|]. eapply IH; [|exact H]. eapply proper_same; [apply E0|exact HP].
  - step2 H x s1. apply leaf_onward in E0. destruct E0 as (E0 & _).
    eapply onward_trans; [exact E0|]. eapply IH; [|exact H]. eapply proper_same; [apply E0|exact HP].
Qed.
(** a non-empty list of branches was consumed *)
Lemma break_eats lit k :
  (forall s t s', proper s -> lit s = Done (Some t, s') -> onward s s' /\ pos s < pos s') ->
  forall d s x kids s', proper s -> break_loop lit k [] d s = Done (Some (x :: kids), s') -> pos s < pos s'.
Proof using.
  clear. intros HL d s x kids s' HP H. destruct k as [|k]; cbn [break_loop] in H; [discriminate|].
  destruct (d <=? 0)%Z; [discriminate|]. step H. destruct (decide d a); try discriminate.
  assert (HL' : forall s t s', proper s -> lit s = Done (Some t, s') -> onward s s') by (intros; eapply HL; eauto).
  destruct (_ =? _)%Z.
  - step2 H o1 s1. destruct o1 as [t|]; [|discriminate]. apply HL in E0; [|exact HP]. destruct E0 as (E0 & E1).
    apply (break_moves _ _ HL') in H; [|eapply proper_same; [apply E0|exact HP]]. destruct H as (_ & H & _). lia.
  - step2 H y s1. apply leaf_onward in E0. destruct E0 as (E0 & E1).
    apply (break_moves _ _ HL') in H; [|eapply proper_same; [apply E0|exact HP]]. destruct H as (_ & H & _). lia.
Qed.
Lemma parens_moves k : forall kids d s kids' s', parens_loop k kids d s = Done (kids', s') -> onward s s'.
Proof using.
  clear. induction k as [|k IH]; intros kids d s kids' s' H; cbn [parens_loop] in H; [discriminate|].
  destruct (d <=? 0)%Z; [injection H as <- <-; apply onward_refl|].
  step H. step H. step2 H x s1. apply leaf_onward in E1. destruct E1 as (E1 & _).
  eapply onward_trans; [exact E1|]. eauto.
Qed.
Lemma ext_moves tag es : Forall ext_ok es -> forall s, proper s -> forall m t s',
  ext_loop tag (pos s) es s = Done (m, t, s') -> onward s s'.
Proof using.
  clear. induction 1 as [|e es He Hes IH]; intros s HP m t s' H; cbn [ext_loop] in H.
  - injection H as <- <- <-. apply onward_refl.
  - destruct He as (He1 & He2 & _). step2 H o s1. destruct o as [t0|].
    + step H. injection H as <- <- <-. split; [eapply He1; exact E|].
      apply He2 in E. destruct E as (E & _). destruct (covers_rng _ _ _ _ E) as (Hl & _).
      destruct (proj1 (covers_end s HP) _ _ _ E); lia.
    + pose proof (He1 _ _ _ E) as HS. replace (rewind s1 (pos s)) with s in H by (symmetry; exact (same_rewind _ _ HS)).
      eapply IH; eauto.
Qed.

Section CallStep.
Variable R : pexp -> stream -> out presult.
Hypothesis HR : forall p s x, sclean p = true -> proper s -> R p s = Done x -> moves p s x.
Hypothesis HRr : forall p s m t s', clean p = true -> R p s = Done (m, t, s') -> restores s (m, t, s').
Hypothesis HRl : forall s t s', R (PRule r_real_literal_constant) s = Done (false, Some t, s') -> False.
Lemma call_moves k r s t s' : proper s -> call_rule body exts R k r s = Done (Some t, s') ->
  onward s s' /\ (N r = true -> pos s < pos s').
Proof using Hclean Hexts HN HR HRr HRl.
  intros HP H. unfold call_rule in H. specialize (Hclean r) as Hc. specialize (HN r) as Hn.
  unfold clean_body, body_exp in *. destruct (body r); cbn [eats_body] in Hn.
  - step3 H m t1 s1. injection H as -> <-. pose proof (HRr _ _ _ _ _ Hc E) as (_ & Hr).
    apply HR in E; auto using clean_sclean. destruct E as (E1 & E2). split; [exact E1|].
    intro HNr. apply E2; auto. destruct m; [reflexivity|]. destruct (Hr eq_refl). discriminate.
  - step3 H m t1 s1. pose proof (HRr _ _ _ _ _ Hc E) as (_ & Hr).
    apply HR in E; auto using clean_sclean. destruct E as (E1 & E2).
    destruct m.
    + injection H as -> <-. split; [exact E1|]. intro HNr. specialize (Hn HNr). discriminate.
    + destruct (Hr eq_refl) as (-> & ->). step3 H m2 t2 s2. injection H as -> <-.
      split; [|intro HNr; specialize (Hn HNr); discriminate].
      eapply ext_moves; [apply Hexts|exact HP|exact E].
  - step H. destruct (existsb _ _); [discriminate|]. unfold until_break in H. step2 H o1 s1.
    assert (HL : forall s t s', proper s -> (' (m, t, s') <~ R (PRule r_real_literal_constant) s;; Done (t, s')) = Done (Some t, s') ->
       onward s s' /\ (N r_real_literal_constant = true -> pos s < pos s')).
    { intros s2 t2 s2' HP2 H2. step3 H2 m t3 s3. injection H2 as -> <-.
      pose proof E1 as E2. apply HR in E1; auto. destruct E1 as (E1 & E3). split; [exact E1|].
      intro HNl. apply E3; [|exact HNl]. destruct m; [reflexivity|]. exfalso. eapply HRl; exact E2. }
    destruct o1 as [[|x kids]|]; try discriminate. step H. injection H as <- <-. split.
    + eapply break_moves; [|exact HP|exact E0]. intros s2 t2 s2' HP2 H2. eapply HL in H2; [apply H2|exact HP2].
    + intro HNr. eapply break_eats; [|exact HP|exact E0]. intros s2 t2 s2' HP2 H2.
      eapply HL in H2; [|exact HP2]. split; [apply H2|apply H2; auto].
  - unfold consume_parens in H. step H. destruct (negb _); [discriminate|]. step2 H x s1.
    apply leaf_onward in E0. destruct E0 as (E0 & E1). step2 H kids s2. apply parens_moves in E2. step H.
    injection H as <- <-. split; [eapply onward_trans; eauto|]. intros _. destruct E2 as (_ & E2 & _). lia.
  - unfold list_name in H. step H. step H. destruct a0; [|discriminate]. step H.
    destruct (existsb _ _); [|discriminate]. step2 H x s1. injection H as <- <-. apply leaf_onward in E2.
    split; [apply E2|]. intros _. apply E2.
  - assert (HS : same s s') by (eapply designator_same; exact H).
    unfold designator in H. step2 H s1 ok. step H. destruct (_ <? _) eqn:EL; [discriminate|].
    step3 H m t1 s3. injection H as -> <-. split; [|intro HNr; specialize (Hn HNr); discriminate].
    apply Nat.ltb_ge in EL. split; [exact HS|]. split; [exact EL|]. right.
    apply to_open_le in E. cbn [pos consume_until_eol set_pos] in E.
    assert (pos a <= pos s1).
    { destruct ok; [apply lift_done in E0; apply put_back_le in E0; exact E0|injection E0 as <-; auto]. }
    unfold proper in HP. lia.
Qed.
End CallStep.

Lemma run_moves n : forall p s x, sclean p = true -> proper s -> run body exts n p s = Done x -> moves p s x.
Proof using Hclean Hexts HN.
  induction n as [|n IH]; intros p s x Hc HP H; [discriminate|].
  assert (IR : forall p s m t s', clean p = true -> run body exts n p s = Done (m, t, s') -> restores s (m, t, s')).
  { intros. eapply run_restores; eauto. apply exts_same. }
  assert (IL : forall s t s', run body exts n (PRule r_real_literal_constant) s = Done (false, Some t, s') -> False).
  { intros s0 t0 s0' H0. apply IR in H0; [|reflexivity]. destruct H0 as (_ & H0). destruct (H0 eq_refl). discriminate. }
  cbn [run] in H. destruct p; cbn [sclean clean] in *.
  - step3 H m t s1. apply (alts_moves _ IH IR) in E; auto. destruct m; [step H|]; injection H as <-; exact E.
  - step H. step H. destruct a0; cbn [negb] in H; [|injection H as <-; split; [apply onward_refl|discriminate]].
    step H. destruct (negb _); [injection H as <-; split; [apply onward_refl|discriminate]|].
    step2 H y s1. injection H as <-. apply leaf_onward in E2. split; [apply E2|intros; apply E2].
  - step H. step H. destruct a0; cbn [negb] in H; [|injection H as <-; split; [apply onward_refl|discriminate]].
    step H. destruct (negb _); [injection H as <-; split; [apply onward_refl|discriminate]|].
    step2 H y s1. injection H as <-. apply leaf_onward in E2. split; [apply E2|intros; apply E2].
  - step H. step H. destruct a0; cbn [negb] in H; [|injection H as <-; split; [apply onward_refl|discriminate]].
    step2 H y s1. injection H as <-. apply leaf_onward in E1. split; [apply E1|intros; apply E1].
  - step3 H m t s1. injection H as <-. apply IH in E; auto using clean_sclean. split; [apply E|discriminate].
  - step3 H m t s1. injection H as <-. apply IH in E; auto using clean_sclean. split; [apply E|discriminate].
  - step H. injection H as <-. split; [apply onward_refl|discriminate].
  - step2 H o s1. destruct o as [t|].
    + apply (call_moves _ IH IR IL) in E; auto. injection H as <-. split; [apply E|]. intros _. apply E.
    + injection H as <-.
      assert (HS : same s s1).
      { eapply (call_same body exts Hclean exts_same (run body exts n)); [|exact E].
        intros q s2 ((m2 & t2) & s2') Hq H2. eapply IR; eauto. }
      rewrite same_rewind by exact HS. split; [apply onward_refl|discriminate].
  - step3 H m kids s1. apply (seq_moves _ IH) in E; auto. destruct m; [step H|]; injection H as <-; [exact E|].
    rewrite same_rewind by apply E. split; [apply onward_refl|discriminate].
  - step2 H kids s1. step H. injection H as <-. apply (star_moves _ IH) in E; auto. split; [exact E|discriminate].
  - step3 H m t s1. apply IH in E; auto using clean_sclean. cbn [moves] in E.
    destruct t; [step H|]; injection H as <-; exact E.
  - step H. destruct (negb _); [injection H as <-; split; [apply onward_refl|discriminate]|].
    step2 H y s1. injection H as <-. apply leaf_onward in E0. split; [apply E0|intros; apply E0].
Qed.

(** ** Enough fuel *)
Variable rank : rule -> nat.
Variables K H0 : nat.
Hypothesis Hstars : forall r p, body_exp (body r) = Some p -> stars N p = true.
Hypothesis Hleft : forall r p, body_exp (body r) = Some p -> left N rank (rank r) p = true.
Hypothesis Hrank : forall r, rank r <= K.
Hypothesis Hheight : forall r p, body_exp (body r) = Some p -> height p <= H0.
Hypothesis Hbreak : forall r t l, body r = RBreak t l -> rank r_real_literal_constant < rank r.
Hypothesis HH0 : 1 <= H0.
Hypothesis HNlit : N r_real_literal_constant = true.

(** fuel for an expression whose leading rules have a rank below k *)
Definition need (m k : nat) : nat := (m * S K + k) * S (S H0) + m + 2.
Lemma need_rank m k k' : k' < k -> need m k' + S (S H0) <= need m k.
Proof using. clear. unfold need. intro. nia. Qed.
Lemma need_ahead m m' k : m' < m -> need m' (S K) <= need m k.
Proof using. clear. unfold need. intro. nia. Qed.
Lemma need_min m k : m + 2 <= need m k.
Proof using. clear. unfold need. nia. Qed.
Lemma left_all p : left N rank (S K) p = true.
Proof using Hrank HH0.
  assert (X : forall n p, height p <= n -> left N rank (S K) p = true).
  { induction n as [|n IH]; intros q Hq; [destruct q; cbn in Hq; lia|].
    assert (L : forall ps, height (PAlts 0 ps) <= S n -> Forall (fun q => height q <= n) ps).
    { intros ps Hps. cbn [height] in Hps. apply le_S_n in Hps.
      induction ps as [|q' ps IHp]; constructor; cbn in Hps; [lia|]. apply IHp. lia. }
    destruct q; cbn [left]; try reflexivity; try (apply IH; cbn in Hq; lia).
    - specialize (L ps Hq). apply forallb_forall. intros q Hin. rewrite Forall_forall in L. auto.
    - apply Nat.ltb_lt. specialize (Hrank r). lia.
    - specialize (L ps Hq). clear Hq. induction L as [|q ps Hq L IHp]; [reflexivity|].
      rewrite IH by exact Hq. destruct (eats N q); [reflexivity|exact IHp]. }
  eapply X. reflexivity.
Qed.
Lemma height_in ps q g : In q ps -> height q < height (PAlts g ps).
Proof using.
  clear. cbn [height]. induction ps as [|p ps IH]; intros []; cbn [fold_right]; [subst; lia|]. specialize (IH H). lia.
Qed.

Lemma obind_nf A B (x : out A) (f : A -> out B) :
  x <> Fuel -> (forall a, x = Done a -> f a <> Fuel) -> obind x f <> Fuel.
Proof using. clear. intros H1 H2. destruct x; cbn; [auto|discriminate|congruence]. Qed.
Lemma lift_nf A (x : res A) : lift x <> Fuel.
Proof using. clear. destruct x; discriminate. Qed.
Lemma leaf_nf g s : leaf g s <> Fuel.
Proof using. clear. unfold leaf. apply obind_nf; [apply lift_nf|]. intros (s1 & r) _. discriminate. Qed.
Ltac nf := first [apply lift_nf | apply leaf_nf | discriminate].

Section FStep.
Variable n : nat.
Notation R := (run body exts n).
Hypothesis IH : forall p s k, sclean p = true -> proper s -> stars N p = true -> left N rank k p = true ->
  height p + need (ahead s) k <= n -> R p s <> Fuel.
Lemma seq_nf ps k : forall kids s m, forallb sclean ps = true -> proper s -> forallb (stars N) ps = true ->
  (ahead s < m \/ (ahead s = m /\ left N rank k (PSeq 0 ps) = true)) ->
  (forall q, In q ps -> height q + need m k <= n) -> seq_loop R ps kids s <> Fuel.
Proof using Hclean Hexts HN Hrank HH0 IH.
  induction ps as [|p ps IHp]; intros kids s m Hc HP Hs Hl Hh; cbn [seq_loop]; [discriminate|].
  cbn [forallb] in Hc, Hs. apply andb_true_iff in Hc, Hs. destruct Hc as (Hc1 & Hc2), Hs as (Hs1 & Hs2).
  apply obind_nf.
  - destruct Hl as [Hl|(Hm & Hl)].
    + apply IH with (k := S K); auto using left_all.
      specialize (Hh p (or_introl eq_refl)). pose proof (need_ahead m (ahead s) k Hl). lia.
    + cbn [left] in Hl. apply andb_true_iff in Hl. apply IH with (k := k); [auto|auto|auto|apply Hl|].
      rewrite Hm. apply Hh. left. reflexivity.
  - intros ((m1 & t1) & s1) E. destruct m1; [|discriminate].
    apply run_moves in E; auto. destruct E as (E1 & E2). pose proof (onward_ahead _ _ E1) as Ha.
    apply IHp with (m := m); auto.
    + eapply proper_same; [apply E1|exact HP].
    + destruct Hl as [Hl|(Hm & Hl)]; [left; lia|]. cbn [left] in Hl. apply andb_true_iff in Hl. destruct Hl as (_ & Hl).
      destruct (eats N p) eqn:Ee.
      * left. specialize (E2 eq_refl eq_refl). pose proof (onward_eaten _ _ E1 E2). lia.
      * destruct (Nat.eq_dec (ahead s1) m) as [Hq|Hq]; [right|left; lia]. split; [exact Hq|exact Hl].
    + intros q Hq. apply Hh. right. exact Hq.
Qed.
Lemma alts_nf ps k : forall s, forallb clean ps = true -> proper s -> forallb (stars N) ps = true ->
  forallb (left N rank k) ps = true -> (forall q, In q ps -> height q + need (ahead s) k <= n) ->
  alts_loop R ps s <> Fuel.
Proof using Hclean Hexts IH.
  clear HN HNlit Hbreak.
  induction ps as [|p ps IHp]; intros s Hc HP Hs Hl Hh; cbn [alts_loop]; [discriminate|].
  cbn [forallb] in Hc, Hs, Hl. apply andb_true_iff in Hc, Hs, Hl.
  destruct Hc as (Hc1 & Hc2), Hs as (Hs1 & Hs2), Hl as (Hl1 & Hl2).
  apply obind_nf.
  - apply IH with (k := k); auto using clean_sclean. apply Hh. left. reflexivity.
  - intros ((m1 & t1) & s1) E. destruct m1; [discriminate|].
    apply run_restores in E; auto using exts_same. destruct E as (_ & E). destruct (E eq_refl) as (_ & ->).
    apply IHp; auto. intros q Hq. apply Hh. right. exact Hq.
Qed.
Lemma star_nf p k0 : clean p = true -> stars N p = true -> eats N p = true -> forall k kids s, proper s ->
  left N rank k0 p = true -> height p + need (ahead s) k0 <= n -> ahead s < k -> star_loop R k p kids s <> Fuel.
Proof using Hclean Hexts HN Hrank HH0 IH.
  intros Hc Hs He k. revert k0. induction k as [|k IHk]; intros k0 kids s HP Hl Hh Hk; [lia|]. cbn [star_loop].
  apply obind_nf.
  - apply IH with (k := k0); auto using clean_sclean.
  - intros ((m1 & t1) & s1) E. destruct m1; [|discriminate].
    apply run_moves in E; auto using clean_sclean. destruct E as (E1 & E2).
    specialize (E2 eq_refl He). pose proof (onward_eaten _ _ E1 E2) as Ha.
    apply IHk with (k0 := S K); auto using left_all.
    + eapply proper_same; [apply E1|exact HP].
    + pose proof (need_ahead (ahead s) (ahead s1) k0 Ha). lia.
    + lia.
Qed.
Lemma break_nf k0 : rank r_real_literal_constant < k0 -> forall k kids d s m, proper s ->
  (ahead s <= m) -> 1 + need m k0 <= n -> ahead s < k ->
  break_loop (fun s => '(m, t, s') <~ R (PRule r_real_literal_constant) s ;; Done (t, s')) k kids d s <> Fuel.
Proof using Hclean Hexts HN Hrank HH0 IH HNlit.
  intros Hr k. induction k as [|k IHk]; intros kids d s m HP Hm Hh Hk; [lia|]. cbn [break_loop].
  destruct (d <=? 0)%Z; [discriminate|].
  apply obind_nf; [nf|]. intros t _. destruct (decide d t); try discriminate.
  destruct (_ =? _)%Z.
  - apply obind_nf.
    + apply obind_nf; [|intros ((? & ?) & ?) _; discriminate].
      apply IH with (k := k0); auto.
      * cbn [left]. apply Nat.ltb_lt. exact Hr.
      * cbn [height]. destruct (Nat.eq_dec (ahead s) m) as [->|Hq]; [exact Hh|].
        assert (Hlt : ahead s < m) by lia. pose proof (need_ahead m (ahead s) k0 Hlt).
        assert (k0 <= S K \/ S K < k0) as [G|G] by lia.
        -- assert (need (ahead s) k0 <= need (ahead s) (S K)) by (unfold need; nia). lia.
        -- assert (need (ahead s) k0 <= need m k0) by (unfold need; nia). lia.
    + intros (o & s1) E. step3 E m1 t1 s2. injection E as -> ->. destruct o as [t1|]; [|discriminate].
      pose proof E0 as E1. apply run_moves in E0; auto. destruct E0 as (E0 & E2).
      assert (m1 = true).
      { destruct m1; [reflexivity|]. apply run_restores in E1; auto using exts_same. destruct E1 as (_ & E1).
        destruct (E1 eq_refl). discriminate. }
      specialize (E2 H HNlit). pose proof (onward_eaten _ _ E0 E2).
      apply IHk with (m := m); auto; try lia. eapply proper_same; [apply E0|exact HP].
  - apply obind_nf; [nf|]. intros (x & s1) E. apply leaf_onward in E. destruct E as (E1 & E2).
    pose proof (onward_eaten _ _ E1 E2). apply IHk with (m := m); auto; try lia. eapply proper_same; [apply E1|exact HP].
Qed.
Lemma parens_nf k : forall kids d s, ahead s < k -> parens_loop k kids d s <> Fuel.
Proof using.
  clear. induction k as [|k IHk]; intros kids d s Hk; [lia|]. cbn [parens_loop]. destruct (d <=? 0)%Z; [discriminate|].
  apply obind_nf; [nf|]. intros t _. apply obind_nf; [destruct (_ =? _)%Z; [|destruct (_ =? _)%Z; [|destruct (_ =? _)%Z]]; discriminate|].
  intros d' _. apply obind_nf; [nf|]. intros (x & s1) E. apply leaf_onward in E. destruct E as (E1 & E2).
  pose proof (onward_eaten _ _ E1 E2). apply IHk. lia.
Qed.
Lemma ext_nf tag m es : Forall ext_ok es -> forall s, ext_loop tag m es s <> Fuel.
Proof using.
  clear. induction 1 as [|e es He Hes IHe]; intros s; cbn [ext_loop]; [discriminate|].
  apply obind_nf; [apply He|]. intros (o & s1) _. destruct o; [|apply IHe].
  apply obind_nf; [nf|]. discriminate.
Qed.
Lemma call_nf r s k : proper s -> H0 + need (ahead s) (rank r) <= n -> need (ahead s) (rank r) <= k ->
  call_rule body exts R k r s <> Fuel.
Proof using Hclean Hexts HN Hrank IH HNlit Hstars Hleft Hheight Hbreak HH0.
  intros HP Hh Hk. unfold call_rule. pose proof (Hclean r) as Hc. pose proof (Hstars r) as Hs. pose proof (Hleft r) as Hl.
  pose proof (Hheight r) as Hg. pose proof (Hbreak r) as Hb. unfold clean_body in Hc.
  pose proof (need_min (ahead s) (rank r)) as Hmin.
  destruct (body r); cbn [body_exp] in *.
  - specialize (Hs _ eq_refl). specialize (Hl _ eq_refl). specialize (Hg _ eq_refl).
    apply obind_nf; [|intros ((? & ?) & ?) _; discriminate]. apply IH with (k := rank r); auto using clean_sclean. lia.
  - specialize (Hs _ eq_refl). specialize (Hl _ eq_refl). specialize (Hg _ eq_refl).
    apply obind_nf; [apply IH with (k := rank r); auto using clean_sclean; lia|].
    intros ((m & ?) & ?) _. destruct m; [discriminate|].
    apply obind_nf; [apply ext_nf; apply Hexts|]. intros ((? & ?) & ?) _. discriminate.
  - apply obind_nf; [nf|]. intros t _. destruct (existsb _ _); [discriminate|].
    unfold until_break. apply obind_nf.
    + eapply break_nf with (k0 := rank r) (m := ahead s); eauto; try lia.
    + intros (o & s1) _. destruct o as [[|]|]; try discriminate. apply obind_nf; [nf|discriminate].
  - unfold consume_parens. apply obind_nf; [nf|]. intros t _. destruct (negb _); [discriminate|].
    apply obind_nf; [nf|]. intros (x & s1) E. apply leaf_onward in E. destruct E as (E1 & E2).
    pose proof (onward_eaten _ _ E1 E2). apply obind_nf; [apply parens_nf; lia|].
    intros (kids & s2) _. apply obind_nf; [nf|discriminate].
  - unfold list_name. apply obind_nf; [nf|]. intros t _. apply obind_nf; [nf|]. intros b _. destruct b; [|discriminate].
    apply obind_nf; [nf|]. intros t2 _. destruct (existsb _ _); [|discriminate]. apply obind_nf; [nf|].
    intros (? & ?) _. discriminate.
  - specialize (Hs _ eq_refl). specialize (Hl _ eq_refl). specialize (Hg _ eq_refl).
    unfold designator. apply obind_nf; [nf|]. intros (s1 & ok) E. apply lift_done in E.
    pose proof (to_open_same _ _ _ E) as HS1. pose proof (to_open_le _ _ _ E) as HL1. cbn [pos consume_until_eol set_pos] in HL1.
    apply obind_nf; [destruct ok; nf|]. intros s2 E2.
    assert (HS2 : same s1 s2 /\ pos s2 <= pos s1).
    { destruct ok; [apply lift_done in E2; split; [apply put_back_same|apply put_back_le]; exact E2|injection E2 as <-; split; [apply same_refl|auto]]. }
    destruct HS2 as (HS2 & HL2).
    destruct (_ <? _); [discriminate|]. apply obind_nf; [|intros ((? & ?) & ?) _; discriminate].
    assert (HF : frags s2 = frags s).
    { destruct HS2 as (-> & _). destruct HS1 as (-> & _). reflexivity. }
    apply IH with (k := rank r); auto using clean_sclean.
    + unfold proper in *. cbn. rewrite HF. lia.
    + replace (ahead (stream_of (frags s2) (pos s) (pos s2))) with (ahead s); [lia|]. unfold ahead. cbn. rewrite HF. reflexivity.
Qed.
End FStep.
Lemma run_nf n : forall p s k, sclean p = true -> proper s -> stars N p = true -> left N rank k p = true ->
  height p + need (ahead s) k <= n -> run body exts n p s <> Fuel.
Proof using Hclean Hexts HN Hrank HNlit Hstars Hleft Hheight Hbreak HH0.
  induction n as [|n IH]; intros p s k Hc HP Hs Hl Hh; [pose proof (need_min (ahead s) k); lia|].
  pose proof (need_min (ahead s) k) as Hmin.
  cbn [run]. destruct p; cbn [sclean clean stars left] in *.
  - apply obind_nf.
    + eapply (alts_nf n IH); eauto. intros q Hq. apply (height_in _ _ tag) in Hq. lia.
    + intros ((m & t) & s1) _. destruct m; [|discriminate]. apply obind_nf; [nf|discriminate].
  - apply obind_nf; [nf|]. intros t _. apply obind_nf; [nf|]. intros b _. destruct (negb b); [discriminate|].
    apply obind_nf; [nf|]. intros x _. destruct (negb _); [discriminate|]. apply obind_nf; [nf|]. intros (? & ?) _. discriminate.
  - apply obind_nf; [nf|]. intros t _. apply obind_nf; [nf|]. intros b _. destruct (negb b); [discriminate|].
    apply obind_nf; [nf|]. intros x _. destruct (negb _); [discriminate|]. apply obind_nf; [nf|]. intros (? & ?) _. discriminate.
  - apply obind_nf; [nf|]. intros t _. apply obind_nf; [nf|]. intros b _. destruct (negb b); [discriminate|].
    apply obind_nf; [nf|]. intros (? & ?) _. discriminate.
  - apply obind_nf; [|intros ((? & ?) & ?) _; discriminate]. eapply IH; eauto using clean_sclean. cbn [height] in Hh. lia.
  - apply obind_nf; [|intros ((? & ?) & ?) _; discriminate]. eapply IH; eauto using clean_sclean. cbn [height] in Hh. lia.
  - apply obind_nf; [nf|discriminate].
  - apply Nat.ltb_lt in Hl. pose proof (need_rank (ahead s) k (rank r) Hl) as Hn. cbn [height] in Hh.
    apply obind_nf; [apply (call_nf n IH); auto; lia|]. intros (o & s1) _. destruct o; discriminate.
  - apply obind_nf.
    + eapply (seq_nf n IH) with (k := k) (m := ahead s); eauto.
      intros q Hq. apply (height_in _ _ tag) in Hq. change (height (PAlts tag ps)) with (height (PSeq tag ps)) in Hq. lia.
    + intros ((m & t) & s1) _. destruct m; [|discriminate]. apply obind_nf; [nf|discriminate].
  - apply andb_true_iff in Hs. cbn [height] in Hh. apply obind_nf.
    + eapply (star_nf n IH); eauto; try apply Hs; lia.
    + intros (kids & s1) _. apply obind_nf; [nf|discriminate].
  - apply obind_nf; [eapply IH; eauto using clean_sclean; cbn [height] in Hh; lia|]. intros ((m & t) & s1) _.
    destruct t; [|discriminate]. apply obind_nf; [nf|discriminate].
  - apply obind_nf; [nf|]. intros x _. destruct (negb _); [discriminate|]. apply obind_nf; [nf|]. intros (? & ?) _. discriminate.
Qed.
End Onward.
