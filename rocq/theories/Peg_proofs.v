From Verif Require Import Base Tags SyntaxTags Token TTStream StmtRules Peg Peg_spec.
Local Open Scope nat_scope.

(** ** Outcomes *)
Lemma obind_done A B (x : out A) (f : A -> out B) b :
  obind x f = Done b -> exists a, x = Done a /\ f a = Done b.
Proof. destruct x; cbn; intro H; try discriminate. eauto. Qed.
Lemma lift_done A (x : res A) a : lift x = Done a -> x = Ok a.
Proof. destruct x; cbn; congruence. Qed.

Ltac inv H := inversion H; subst; clear H.
(** take a computation known to be Done apart; pairs are split, a parser result
    into (m, t, s) *)
Ltac step H :=
  lazymatch type of H with
  | obind ?e _ = Done _ =>
      let a := fresh "a" in let E := fresh "E" in
      apply obind_done in H; destruct H as (a & E & H);
      try (unfold peek_o, covered in E);
      try (match type of E with lift _ = Done _ => apply lift_done in E end);
      try (match type of a with
           | presult => let m := fresh "m" in let t := fresh "t" in let s := fresh "s" in
                        destruct a as ((m & t) & s)
           | (_ * _ * _)%type => let m := fresh "m" in let t := fresh "t" in let s := fresh "s" in
                        destruct a as ((m & t) & s)
           | fresult => let o := fresh "o" in let s := fresh "s" in destruct a as (o & s)
           | (_ * _)%type => let o := fresh "o" in let s := fresh "s" in destruct a as (o & s)
           end)
  end.

Ltac step3_ H m t s :=
  lazymatch type of H with
  | obind ?e _ = Done _ =>
      let a := fresh "a" in let E := fresh "E" in
      apply obind_done in H; destruct H as (a & E & H); destruct a as ((m & t) & s)
  end.
Tactic Notation "step3" hyp(H) ident(m) ident(t) ident(s) := step3_ H m t s.
Ltac step2_ H o s :=
  lazymatch type of H with
  | obind ?e _ = Done _ =>
      let a := fresh "a" in let E := fresh "E" in
      apply obind_done in H; destruct H as (a & E & H);
      try (match type of E with lift _ = Done _ => apply lift_done in E end); destruct a as (o & s)
  end.
Tactic Notation "step2" hyp(H) ident(o) ident(s) := step2_ H o s.

(** ** The stream *)
Lemma same_refl s : same s s. Proof. firstorder. Qed.
Lemma same_trans a b c : same a b -> same b c -> same a c.
Proof. unfold same. intuition congruence. Qed.
Lemma same_sym a b : same a b -> same b a.
Proof. unfold same. intuition congruence. Qed.
Lemma same_set s p : same s (set_pos s p).
Proof. repeat split. Qed.
Lemma same_rewind s s' : same s s' -> rewind s' (mark s) = s.
Proof.
  unfold same, rewind, set_pos, mark. destruct s, s'; cbn. intros (-> & -> & ->). reflexivity.
Qed.
Lemma set_pos_same s s' p : same s s' -> set_pos s' p = set_pos s p.
Proof. unfold same, set_pos. destruct s, s'; cbn. intros (-> & -> & ->). reflexivity. Qed.
Lemma set_pos_pos s : set_pos s (pos s) = s.
Proof. destruct s; reflexivity. Qed.
Lemma same_as_set s s' : same s s' -> s' = set_pos s (pos s').
Proof. unfold same, set_pos. destruct s, s'; cbn. intros (-> & -> & ->). reflexivity. Qed.

Lemma next1 s p q : next_n s p 1 = Ok q -> q = S p /\ p <= length (frags s).
Proof.
  unfold next_n. intro H. destruct (_ && _) eqn:E; [|discriminate]. injection H as <-.
  apply andb_true_iff in E. destruct E as (E1 & E2).
  apply Z.leb_le in E1, E2. lia.
Qed.
Lemma leaf_inv g s x s' : leaf g s = Done (x, s') ->
  x = ST g (Some (pos s, S (pos s))) [] /\ s' = set_pos s (S (pos s)) /\ pos s <= length (frags s).
Proof.
  unfold leaf, digest. intro H. step H. injection H as <- <-.
  destruct (next_n s (pos s) 1) eqn:E2; cbn [bind] in E; try discriminate. injection E as <- <-.
  apply next1 in E2. destruct E2 as (-> & ?). auto.
Qed.
Lemma leaf_same g s x s' : leaf g s = Done (x, s') -> same s s'.
Proof. intro H. apply leaf_inv in H. destruct H as (_ & -> & _). apply same_set. Qed.
Lemma put_back_same s s' : put_back s = Ok s' -> same s s'.
Proof.
  unfold put_back. destruct (negb _); [|intros [= <-]; apply same_refl].
  destruct (next_n _ _ _); cbn [bind]; try discriminate. intros [= <-]. apply same_set.
Qed.
Lemma bwd_same k : forall s d s' d', bwd k s d = Ok (s', d') -> same s s'.
Proof.
  induction k as [|k IH]; intros s d s' d'; cbn [bwd].
  - destruct (d <=? 0)%Z; [|discriminate]. intros [= <- <-]. apply same_refl.
  - destruct (d <=? 0)%Z; [intros [= <- <-]; apply same_refl|].
    destruct (put_back s) as [s1| |] eqn:E; cbn [bind]; try discriminate.
    apply put_back_same in E.
    destruct (curr s1); cbn [bind]; try discriminate.
    destruct (_ =? _)%Z. { intro H. eapply same_trans; eauto. }
    destruct (_ =? _)%Z. { intro H. eapply same_trans; eauto. }
    destruct (_ =? _)%Z. { intros [= <- <-]. exact E. }
    intro H. eapply same_trans; eauto.
Qed.
Lemma to_open_same s s' b : move_to_open_paren s = Ok (s', b) -> same s s'.
Proof.
  unfold move_to_open_paren. destruct (curr s); cbn [bind]; try discriminate.
  destruct (negb _); [intros [= <- <-]; apply same_refl|].
  destruct (bwd _ _ _) as [(s1 & d)| |] eqn:E; cbn [bind]; try discriminate.
  intros [= <- <-]. eapply bwd_same; eauto.
Qed.

(** ** Failure restores the stream *)
Section Restore.
Variable body : rule -> rbody.
Variable exts : bool -> list ext.
Hypothesis Hbody : forall r, clean_body (body r) = true.
Hypothesis Hexts : forall a, Forall ext_same (exts a).

(** what an expression may do to the stream *)
Definition restores (s : stream) (x : presult) : Prop :=
  let '(m, t, s') := x in same s s' /\ (m = false -> t = None /\ s' = s).

Definition sclean (q : pexp) : bool := match q with PNeg q' => clean q' | _ => clean q end.

Section Step.
Variable R : pexp -> stream -> out presult.
Hypothesis HR : forall p s x, clean p = true -> R p s = Done x -> restores s x.
(** elements of a sequence *)
Hypothesis HRs : forall p s m t s', sclean p = true -> R p s = Done (m, t, s') -> same s s'.

Lemma seq_same ps : forall kids s m kids' s', forallb sclean ps = true ->
  seq_loop R ps kids s = Done (m, kids', s') -> same s s'.
Proof using HRs.
  induction ps as [|p ps IH]; intros kids s m kids' s' Hc H; cbn [seq_loop] in H.
  - injection H as <- <- <-. apply same_refl.
  - cbn [forallb] in Hc. apply andb_true_iff in Hc. destruct Hc as (Hc1 & Hc2).
    step3 H m1 t1 s1. apply HRs in E; [|exact Hc1].
    destruct m1; [|injection H as <- <- <-; exact E].
    eapply same_trans; eauto.
Qed.
Lemma alts_restores ps : forall s x, forallb clean ps = true -> alts_loop R ps s = Done x -> restores s x.
Proof using HR.
  induction ps as [|p ps IH]; intros s x Hc H; cbn [alts_loop] in H.
  - injection H as <-. split; [apply same_refl|auto].
  - cbn [forallb] in Hc. apply andb_true_iff in Hc. destruct Hc as (Hc1 & Hc2).
    step3 H m1 t1 s1. apply HR in E; [|exact Hc1]. destruct E as (E1 & E2).
    destruct m1.
    + injection H as <-. split; [exact E1|discriminate].
    + destruct (E2 eq_refl) as (-> & ->). eauto.
Qed.
Lemma star_same k p : clean p = true -> forall kids s kids' s',
  star_loop R k p kids s = Done (kids', s') -> same s s'.
Proof using HR.
  intro Hc. induction k as [|k IH]; intros kids s kids' s' H; cbn [star_loop] in H; [discriminate|].
  step3 H m1 t1 s1. apply HR in E; [|exact Hc]. destruct E as (E1 & E2).
  destruct m1.
  - eapply same_trans; eauto.
  - injection H as <- <-. exact E1.
Qed.
Lemma break_same lit k : (forall s o s', lit s = Done (o, s') -> same s s') ->
  forall kids d s o s', break_loop lit k kids d s = Done (o, s') -> same s s'.
Proof using.
  clear. intro HL. induction k as [|k IH]; intros kids d s o s' H; cbn [break_loop] in H; [discriminate|].
  destruct (d <=? 0)%Z; [injection H as <- <-; apply same_refl|].
  step H. destruct (decide d a).
  - injection H as <- <-. apply same_refl.
  - injection H as <- <-. apply same_refl.
  - destruct (_ =? _)%Z.
    + step H. destruct o0; [|discriminate]. eapply same_trans; eauto.
    + step H. apply leaf_same in E0. eapply same_trans; eauto.
Qed.
Lemma until_break_same lit k tag : (forall s o s', lit s = Done (o, s') -> same s s') ->
  forall s o s', until_break lit k tag s = Done (o, s') -> same s s' /\ (o = None -> s' = s).
Proof using.
  clear. intros HL s o s' H. unfold until_break in H. step H.
  assert (Hs := E). apply (break_same lit k HL) in Hs.
  destruct o0 as [[|x kids]|].
  - injection H as <- <-. split; [exact Hs|]. intros _.
    destruct k as [|k]; cbn [break_loop] in E; [discriminate|].
    destruct (1 <=? 0)%Z eqn:Z; [discriminate|]. clear Z.
    step E. destruct (decide 1 a); [injection E as <-; reflexivity|discriminate|].
    assert (X : forall k kids d s o s', kids <> [] -> break_loop lit k kids d s = Done (o, s') -> o <> Some []).
    { clear. induction k as [|k IH]; intros kids d s o s' Hk H; cbn [break_loop] in H; [discriminate|].
      destruct (d <=? 0)%Z; [injection H as <- <-; congruence|].
      step H. destruct (decide d a); try (injection H as <- <-; congruence).
      destruct (_ =? _)%Z; step H.
      - destruct o0; [|discriminate]. eapply IH; [|exact H]. destruct kids; discriminate.
      - eapply IH; [|exact H]. destruct kids; discriminate. }
    destruct (_ =? _)%Z; step E.
    + destruct o; [|discriminate]. eapply X in E; [congruence|discriminate].
    + eapply X in E; [congruence|discriminate].
  - step H. injection H as <- <-. split; [exact Hs|discriminate].
  - injection H as <- <-. rewrite same_rewind by exact Hs. split; [apply same_refl|auto].
Qed.
Lemma parens_same k : forall kids d s kids' s', parens_loop k kids d s = Done (kids', s') -> same s s'.
Proof using.
  clear. induction k as [|k IH]; intros kids d s kids' s' H; cbn [parens_loop] in H; [discriminate|].
  destruct (d <=? 0)%Z; [injection H as <- <-; apply same_refl|].
  step H. step H. step H. apply leaf_same in E1. eapply same_trans; eauto.
Qed.
Lemma consume_parens_same k s o s' : consume_parens k s = Done (o, s') -> same s s'.
Proof using.
  clear. unfold consume_parens. intro H. step H.
  destruct (negb _); [injection H as <- <-; apply same_refl|].
  step H. apply leaf_same in E0. step H. apply parens_same in E1. step H. injection H as <- <-.
  eapply same_trans; eauto.
Qed.
Lemma list_name_same s o s' : list_name s = Done (o, s') -> same s s'.
Proof using.
  clear. unfold list_name. intro H. step H. step H. destruct a0; [|injection H as <- <-; apply same_refl].
  step H. destruct (existsb _ _); [|injection H as <- <-; apply same_refl].
  step H. injection H as <- <-. apply leaf_same in E2. exact E2.
Qed.
Lemma ext_restores tag es : Forall ext_same es -> forall s m, m = pos s ->
  forall x, ext_loop tag m es s = Done x -> restores s x.
Proof using.
  clear. induction 1 as [|e es He Hes IH]; intros s m -> x H; cbn [ext_loop] in H.
  - injection H as <-. split; [apply same_refl|auto].
  - step H. apply He in E. destruct o.
    + step H. injection H as <-. split; [exact E|discriminate].
    + replace (rewind s0 (pos s)) with s in H by (symmetry; exact (same_rewind _ _ E)). eapply IH; eauto.
Qed.
Lemma designator_same p s o s' : designator R p s = Done (o, s') -> same s s'.
Proof using.
  clear. unfold designator. intro H. step H. step H.
  apply to_open_same in E. destruct (_ <? _); [discriminate|]. step H. injection H as <- <-.
  apply (same_trans s (consume_until_eol s)); [apply same_set|].
  eapply same_trans; [exact E|].
  destruct s0; [apply lift_done in E0; apply put_back_same in E0; exact E0|injection E0 as <-; apply same_refl].
Qed.
Lemma call_same k r s o s' : call_rule body exts R k r s = Done (o, s') -> same s s'.
Proof using HR Hbody Hexts.
  intro H. unfold call_rule in H. specialize (Hbody r). unfold clean_body, body_exp in Hbody.
  destruct (body r).
  - step H. injection H as <- <-. apply HR in E; [|assumption]. apply E.
  - step3 H m t s1. apply HR in E; [|assumption]. destruct E as (E & E').
    destruct m; [injection H as <- <-; exact E|].
    destruct (E' eq_refl) as (-> & ->). step3 H m2 t2 s1. injection H as <- <-.
    apply ext_restores in E0; [|apply Hexts|reflexivity]. apply E0.
  - step H. destruct (existsb _ _); [injection H as <- <-; apply same_refl|].
    eapply until_break_same in H; [apply H|].
    intros s1 o1 s1' H1. step H1. injection H1 as <- <-.
    apply HR in E0; [|reflexivity]. apply E0.
  - eapply consume_parens_same; eauto.
  - eapply list_name_same; eauto.
  - eapply designator_same; eauto.
Qed.
End Step.

Lemma run_restores n : forall p s x, clean p = true -> run body exts n p s = Done x -> restores s x.
Proof using Hbody Hexts.
  induction n as [|n IH]; intros p s x Hc H; [discriminate|].
  assert (HRs : forall p s m t s', sclean p = true -> run body exts n p s = Done (m, t, s') -> same s s').
  { intros q s0 m t s' Hq HH. destruct q; try (apply IH in HH; [apply HH|exact Hq]).
    destruct n as [|n]; [discriminate|]. cbn [run] in HH. cbn [sclean] in Hq.
    step3 HH m1 t1 s1. injection HH as <- <- <-.
    assert (E' : run body exts (S n) (POpt q) s0 = Done (true, t1, s1)).
    { cbn [run]. rewrite E. reflexivity. }
    apply IH in E'; [apply E'|exact Hq]. }
  cbn [run] in H. destruct p; cbn [clean] in Hc.
  - step3 H m t s1. apply (alts_restores _ IH) in E; [|exact Hc]. destruct E as (E & E').
    destruct m; [step H|]; injection H as <-; (split; [exact E|]); [discriminate|]. intros _.
    split; [reflexivity|apply E'; reflexivity].
  - step H. step H. destruct (negb a0); [injection H as <-; split; [apply same_refl|auto]|].
    step H. destruct (negb _); [injection H as <-; split; [apply same_refl|auto]|].
    step H. injection H as <-. apply leaf_same in E2. split; [exact E2|discriminate].
  - step H. step H. destruct (negb a0); [injection H as <-; split; [apply same_refl|auto]|].
    step H. destruct (negb _); [injection H as <-; split; [apply same_refl|auto]|].
    step H. injection H as <-. apply leaf_same in E2. split; [exact E2|discriminate].
  - step H. step H. destruct (negb a0); [injection H as <-; split; [apply same_refl|auto]|].
    step H. injection H as <-. apply leaf_same in E1. split; [exact E1|discriminate].
  - discriminate.
  - step3 H m t s1. injection H as <-. apply IH in E; [|exact Hc].
    split; [apply E|discriminate].
  - step H. injection H as <-. split; [apply same_refl|auto].
  - step H. apply (call_same _ IH) in E. destruct o; injection H as <-.
    + split; [exact E|discriminate].
    + rewrite same_rewind by exact E. split; [apply same_refl|auto].
  - step3 H m kids s1. apply (seq_same _ HRs) in E; [|exact Hc].
    destruct m; [step H|]; injection H as <-.
    + split; [exact E|discriminate].
    + rewrite same_rewind by exact E. split; [apply same_refl|auto].
  - step H. step H. injection H as <-. apply (star_same _ IH) in E; [|exact Hc].
    split; [exact E|discriminate].
  - step3 H m t s1. apply IH in E; [|exact Hc]. destruct E as (E & E').
    destruct t; [step H|]; injection H as <-; (split; [exact E|]); intro HM.
    + destruct (E' HM). discriminate.
    + apply E'; exact HM.
  - step H. destruct (negb _); [injection H as <-; split; [apply same_refl|auto]|].
    step H. injection H as <-. apply leaf_same in E0. split; [exact E0|discriminate].
Qed.
End Restore.

(** ** A match of a solid expression has a tree *)
Section Solid.
Variable body : rule -> rbody.
Variable exts : bool -> list ext.
Lemma run_solid n : forall p s t s', solid p = true -> run body exts n p s = Done (true, t, s') -> t <> None.
Proof using.
  induction n as [|n IH]; intros p s t s' Hs H; [discriminate|].
  cbn [run] in H. destruct p; cbn [solid] in Hs; try discriminate.
  - step3 H m t1 s1. destruct m; [step H|]; congruence.
  - step H. step H. destruct (negb a0); [congruence|]. step H. destruct (negb _); [congruence|]. step H. congruence.
  - step H. step H. destruct (negb a0); [congruence|]. step H. destruct (negb _); [congruence|]. step H. congruence.
  - step H. step H. destruct (negb a0); [congruence|]. step H. congruence.
  - step2 H o s1. destruct o; congruence.
  - step3 H m t1 s1. destruct m; [step H|]; congruence.
  - step H. step H. congruence.
  - step3 H m t1 s1. destruct t1; [step H; congruence|].
    injection H as -> <- <-. exfalso. exact (IH _ _ _ _ Hs E eq_refl).
  - step H. destruct (negb _); [congruence|]. step H. congruence.
Qed.
End Solid.

Lemma ext_solid tag m es : forall s t s', ext_loop tag m es s = Done (true, t, s') -> t <> None.
Proof.
  induction es as [|e es IH]; intros s t s' H; cbn [ext_loop] in H; [discriminate|].
  step2 H o s1. destruct o; [step H; congruence|]. eauto.
Qed.
Lemma parse_rule_restores body exts n r s o s' :
  (forall r, clean_body (body r) = true) -> (forall a, Forall ext_same (exts a)) ->
  solid_body (body r) = true -> not_designator (body r) = true ->
  parse_rule body exts n r s = Done (o, s') -> same s s' /\ (o = None -> s' = s).
Proof.
  intros Hb He Hs Hd H. unfold parse_rule, call_rule in H. pose proof (Hb r) as Hc.
  unfold clean_body, solid_body, body_exp in *. destruct (body r); try discriminate.
  - step3 H m t s1. injection H as <- <-. pose proof (run_restores _ _ Hb He _ _ _ _ Hc E) as (H1 & H2).
    split; [exact H1|]. intros ->. destruct m; [|apply H2; reflexivity].
    exfalso. exact (run_solid _ _ _ _ _ _ _ Hs E eq_refl).
  - step3 H m t s1. pose proof (run_restores _ _ Hb He _ _ _ _ Hc E) as (H1 & H2). destruct m.
    + injection H as <- <-. split; [exact H1|]. intros ->. exfalso. exact (run_solid _ _ _ _ _ _ _ Hs E eq_refl).
    + destruct (H2 eq_refl) as (-> & ->). step3 H m2 t2 s2. injection H as <- <-.
      pose proof E0 as E0'. apply ext_restores in E0'; [|apply He|reflexivity]. destruct E0' as (H3 & H4). split; [exact H3|].
      intros ->. destruct m2; [|apply H4; reflexivity]. exact (False_ind _ (ext_solid _ _ _ _ _ _ E0 eq_refl)).
  - step H. destruct (existsb _ _); [injection H as <- <-; split; [apply same_refl|auto]|].
    eapply until_break_same in H; [exact H|].
    intros s1 o1 s1' H1. step3 H1 m t s2. injection H1 as <- <-.
    apply (run_restores _ _ Hb He) in E0; [|reflexivity]. apply E0.
  - split; [eapply consume_parens_same; eauto|]. intros ->. unfold consume_parens in H. step H.
    destruct (negb _); [congruence|]. step2 H x s1. step H. step H. discriminate.
  - split; [eapply list_name_same; eauto|]. intros ->. unfold list_name in H. step H. step H.
    destruct a0; [|congruence]. step H. destruct (existsb _ _); [|congruence]. step H. discriminate.
Qed.

(** ** More fuel changes nothing *)
Section Mono.
Variable body : rule -> rbody.
Variable exts : bool -> list ext.
Section Step.
Variables R1 R2 : pexp -> stream -> out presult.
Hypothesis HR : forall p s, R1 p s <> Fuel -> R2 p s = R1 p s.
Lemma obind_mono A B (x1 x2 : out A) (f1 f2 : A -> out B) :
  (x1 <> Fuel -> x2 = x1) -> (forall a, f1 a <> Fuel -> f2 a = f1 a) ->
  obind x1 f1 <> Fuel -> obind x2 f2 = obind x1 f1.
Proof using.
  clear. intros H1 H2 H. destruct x1; cbn in *.
  - rewrite H1 by discriminate. cbn. auto.
  - rewrite H1 by discriminate. reflexivity.
  - congruence.
Qed.
Lemma seq_mono ps : forall kids s, seq_loop R1 ps kids s <> Fuel -> seq_loop R2 ps kids s = seq_loop R1 ps kids s.
Proof using HR.
  induction ps as [|p ps IH]; intros kids s H; [reflexivity|]. cbn [seq_loop] in *.
  apply obind_mono; [apply HR| |exact H]. intros ((m & t) & s1) H1. destruct m; auto.
Qed.
Lemma alts_mono ps : forall s, alts_loop R1 ps s <> Fuel -> alts_loop R2 ps s = alts_loop R1 ps s.
Proof using HR.
  induction ps as [|p ps IH]; intros s H; [reflexivity|]. cbn [alts_loop] in *.
  apply obind_mono; [apply HR| |exact H]. intros ((m & t) & s1) H1. destruct m; auto.
Qed.
Lemma star_mono k1 : forall k2 p kids s, k1 <= k2 -> star_loop R1 k1 p kids s <> Fuel ->
  star_loop R2 k2 p kids s = star_loop R1 k1 p kids s.
Proof using HR.
  induction k1 as [|k1 IH]; intros k2 p kids s Hk H; [cbn in H; congruence|].
  destruct k2 as [|k2]; [lia|]. cbn [star_loop] in *.
  apply obind_mono; [apply HR| |exact H]. intros ((m & t) & s1) H1. destruct m; auto. apply IH; [lia|auto].
Qed.
Lemma break_mono lit1 lit2 k1 : (forall s, lit1 s <> Fuel -> lit2 s = lit1 s) ->
  forall k2 kids d s, k1 <= k2 -> break_loop lit1 k1 kids d s <> Fuel ->
  break_loop lit2 k2 kids d s = break_loop lit1 k1 kids d s.
Proof using.
  clear. intro HL. induction k1 as [|k1 IH]; intros k2 kids d s Hk H; [cbn in H; congruence|].
  destruct k2 as [|k2]; [lia|]. cbn [break_loop] in *. destruct (d <=? 0)%Z; [reflexivity|].
  apply obind_mono; [reflexivity| |exact H]. intros t H1. destruct (decide d t); auto.
  destruct (_ =? _)%Z.
  - apply obind_mono; [apply HL| |exact H1]. intros (o & s1) H2. destruct o; [|reflexivity]. apply IH; [lia|auto].
  - apply obind_mono; [reflexivity| |exact H1]. intros (o & s1) H2. apply IH; [lia|auto].
Qed.
Lemma parens_mono k1 : forall k2 kids d s, k1 <= k2 -> parens_loop k1 kids d s <> Fuel ->
  parens_loop k2 kids d s = parens_loop k1 kids d s.
Proof using.
  clear. induction k1 as [|k1 IH]; intros k2 kids d s Hk H; [cbn in H; congruence|].
  destruct k2 as [|k2]; [lia|]. cbn [parens_loop] in *. destruct (d <=? 0)%Z; [reflexivity|].
  apply obind_mono; [reflexivity| |exact H]. intros t H1.
  apply obind_mono; [reflexivity| |exact H1]. intros d' H2.
  apply obind_mono; [reflexivity| |exact H2]. intros (o & s1) H3. apply IH; [lia|auto].
Qed.
Lemma call_mono k1 k2 r s : k1 <= k2 -> call_rule body exts R1 k1 r s <> Fuel ->
  call_rule body exts R2 k2 r s = call_rule body exts R1 k1 r s.
Proof using HR.
  intros Hk H. unfold call_rule in *. destruct (body r).
  - apply obind_mono; [apply HR|reflexivity|exact H].
  - apply obind_mono; [apply HR|reflexivity|exact H].
  - apply obind_mono; [reflexivity| |exact H]. intros t H1. destruct (existsb _ _); [reflexivity|].
    unfold until_break in *. apply obind_mono; [|reflexivity|exact H1].
    apply break_mono; [|exact Hk]. intros s1 H2. apply obind_mono; [apply HR|reflexivity|exact H2].
  - unfold consume_parens in *. apply obind_mono; [reflexivity| |exact H]. intros t H1.
    destruct (negb _); [reflexivity|]. apply obind_mono; [reflexivity| |exact H1].
    intros (x & s1) H2. apply obind_mono; [apply parens_mono; exact Hk|reflexivity|exact H2].
  - reflexivity.
  - unfold designator in *. apply obind_mono; [reflexivity| |exact H]. intros (s1 & b) H1.
    apply obind_mono; [reflexivity| |exact H1]. intros s2 H2. destruct (_ <? _); [reflexivity|].
    apply obind_mono; [apply HR|reflexivity|exact H2].
Qed.
End Step.
Lemma run_mono n1 : forall n2 p s, n1 <= n2 -> run body exts n1 p s <> Fuel ->
  run body exts n2 p s = run body exts n1 p s.
Proof using.
  induction n1 as [|n1 IH]; intros n2 p s Hn H; [cbn in H; congruence|].
  destruct n2 as [|n2]; [lia|]. assert (HR : forall p s, run body exts n1 p s <> Fuel -> run body exts n2 p s = run body exts n1 p s).
  { intros q s1 H1. apply IH; [lia|exact H1]. }
  assert (Hn' : n1 <= n2) by lia. clear IH Hn.
  cbn [run] in *. destruct p; try reflexivity.
  - apply obind_mono; [apply (alts_mono _ _ HR)|reflexivity|exact H].
  - apply obind_mono; [apply HR|reflexivity|exact H].
  - apply obind_mono; [apply HR|reflexivity|exact H].
  - apply obind_mono; [apply (call_mono _ _ HR); exact Hn'|reflexivity|exact H].
  - apply obind_mono; [apply (seq_mono _ _ HR)|reflexivity|exact H].
  - apply obind_mono; [apply (star_mono _ _ HR); exact Hn'|reflexivity|exact H].
  - apply obind_mono; [apply HR|reflexivity|exact H].
Qed.
Lemma parse_rule_mono n1 n2 r s : n1 <= n2 -> parse_rule body exts n1 r s <> Fuel ->
  parse_rule body exts n2 r s = parse_rule body exts n1 r s.
Proof using.
  intros Hn. apply call_mono; [|exact Hn]. intros p s1. apply run_mono. exact Hn.
Qed.
Lemma run_det n1 n2 p s x y : run body exts n1 p s = Done x -> run body exts n2 p s = Done y -> x = y.
Proof using.
  intros H1 H2. destruct (Nat.le_ge_cases n1 n2) as [L|L].
  - rewrite (run_mono _ _ p s L) in H2; congruence.
  - rewrite (run_mono _ _ p s L) in H1; congruence.
Qed.
End Mono.

(** ** The combinators are a parsing expression grammar *)
Section Agree.
Variable body : rule -> rbody.
Variable exts : bool -> list ext.
Hypothesis Hbody : forall r, clean_body (body r) = true.
Hypothesis Hsolid : forall r, solid_body (body r) = true.
Hypothesis Hexts : forall a, Forall ext_same (exts a).

(** the behaviour of a rule as a parser *)
Definition behaves (r : rule) (s : stream) (o : option stream) : Prop :=
  exists n m t s', run body exts n (PRule r) s = Done (m, t, s') /\ o = if m : bool then Some s' else None.
Notation pegx := (peg body behaves).
Definition oend (m : bool) (s' : stream) : option stream := if m then Some s' else None.

Lemma leaf_moved g s x s' : leaf g s = Done (x, s') -> moved s s'.
Proof using.
  clear. unfold leaf, digest, moved, consume. intro H. step H. injection H as <- <-.
  destruct (next_n s (pos s) 1); cbn [bind] in *; congruence.
Qed.
Section Step.
Variable R : pexp -> stream -> out presult.
Hypothesis HR : forall p s m t s', clean p = true -> R p s = Done (m, t, s') -> pegx p s (oend m s').
Hypothesis HRs : forall p s m t s', sclean p = true -> R p s = Done (m, t, s') -> pegx p s (oend m s').
Hypothesis HRr : forall p s x, clean p = true -> R p s = Done x -> restores s x.
Lemma seq_agree g ps : forall kids s m kids' s', forallb sclean ps = true ->
  seq_loop R ps kids s = Done (m, kids', s') -> pegx (PSeq g ps) s (oend m s').
Proof using HRs.
  induction ps as [|p ps IH]; intros kids s m kids' s' Hc H; cbn [seq_loop] in H.
  - injection H as <- <- <-. constructor.
  - cbn [forallb] in Hc. apply andb_true_iff in Hc. destruct Hc as (Hc1 & Hc2).
    step3 H m1 t1 s1. apply HRs in E; [|exact Hc1]. destruct m1.
    + eapply peg_seq_go; [exact E|]. eapply IH; eauto.
    + injection H as <- <- <-. apply peg_seq_stop. exact E.
Qed.
Lemma alts_agree g ps : forall s m t s', forallb clean ps = true ->
  alts_loop R ps s = Done (m, t, s') -> pegx (PAlts g ps) s (oend m s').
Proof using HR HRr.
  induction ps as [|p ps IH]; intros s m t s' Hc H; cbn [alts_loop] in H.
  - injection H as <- <- <-. constructor.
  - cbn [forallb] in Hc. apply andb_true_iff in Hc. destruct Hc as (Hc1 & Hc2).
    step3 H m1 t1 s1. pose proof (HRr _ _ _ Hc1 E) as (_ & Hr). apply HR in E; [|exact Hc1]. destruct m1.
    + injection H as <- <- <-. apply peg_alt_take. exact E.
    + destruct (Hr eq_refl) as (_ & ->). apply peg_alt_skip; [exact E|]. eapply IH; eauto.
Qed.
Lemma star_agree p : clean p = true -> forall k kids s kids' s',
  star_loop R k p kids s = Done (kids', s') -> pegx (PStar p) s (Some s').
Proof using HR HRr.
  intros Hc. induction k as [|k IH]; intros kids s kids' s' H; cbn [star_loop] in H; [discriminate|].
  step3 H m1 t1 s1. pose proof (HRr _ _ _ Hc E) as (_ & Hr). apply HR in E; [|exact Hc]. destruct m1.
  - eapply peg_star_go; [exact E|]. eapply IH; eauto.
  - destruct (Hr eq_refl) as (_ & ->). injection H as <- <-. apply peg_star_stop. exact E.
Qed.
End Step.
Lemma run_agrees n : forall p s m t s', clean p = true -> run body exts n p s = Done (m, t, s') -> pegx p s (oend m s').
Proof using Hbody Hsolid Hexts.
  induction n as [|n IH]; intros p s m t s' Hc H; [discriminate|].
  pose proof (run_restores body exts Hbody Hexts n) as IR.
  assert (HRs : forall p s m t s', sclean p = true -> run body exts n p s = Done (m, t, s') -> pegx p s (oend m s')).
  { clear p s m t s' Hc H. intros p s m t s' Hc H. destruct p; try (apply IH with (t := t); assumption).
    destruct n as [|n']; [discriminate|]. pose proof H as H0. cbn [run] in H. cbn [sclean] in Hc.
    step3 H m1 t1 s1. injection H as <- <- <-.
    assert (E2 : run body exts (S n') p s = Done (m1, t1, s1)).
    { rewrite (run_mono _ _ n' (S n') p s); [exact E|lia|rewrite E; discriminate]. }
    apply IH in E2; [|exact Hc]. pose proof (run_restores body exts Hbody Hexts n' _ _ _ Hc E) as (_ & Hr).
    destruct m1; cbn [negb oend].
    - eapply peg_neg_no. exact E2.
    - destruct (Hr eq_refl) as (_ & ->). apply peg_neg_yes. exact E2. }
  assert (H0 := H). cbn [run] in H. destruct p; cbn [clean] in Hc.
  - step3 H m1 t1 s1. apply (alts_agree _ IH IR tag) in E; [|exact Hc].
    destruct m1; [step H|]; injection H as <- <- <-; exact E.
  - step H. step H. assert (N : forall c, is_name_tag a = Ok c -> next_is s (fun t => is_name_tag t = Ok c)) by (exists a; auto).
    destruct a0; cbn [negb] in H; [|injection H as <- <- <-; apply peg_letter_no1; auto].
    step H. destruct (_ =? _) eqn:EQ; cbn [negb] in H.
    + step H. injection H as <- <- <-. apply peg_letter_yes; [|eapply leaf_moved; eauto].
      split; [auto|]. exists a0. split; [exact E1|]. apply Nat.eqb_eq. exact EQ.
    + injection H as <- <- <-. apply peg_letter_no2. split; [auto|]. exists a0. split; [exact E1|].
      apply Nat.eqb_neq. exact EQ.
  - step H. step H. assert (N : forall c, is_name_tag a = Ok c -> next_is s (fun t => is_name_tag t = Ok c)) by (exists a; auto).
    destruct a0; cbn [negb] in H; [|injection H as <- <- <-; apply peg_literal_no1; auto].
    step H. destruct (list_eq_dec _ _ _) as [EQ|NE] ; cbn [negb] in H.
    + step H. injection H as <- <- <-. apply peg_literal_yes; [|eapply leaf_moved; eauto].
      split; [auto|]. exists a0. auto.
    + injection H as <- <- <-. apply peg_literal_no2. split; [auto|]. exists a0. auto.
  - step H. step H. assert (N : forall c, is_name_tag a = Ok c -> next_is s (fun t => is_name_tag t = Ok c)) by (exists a; auto).
    destruct a0; cbn [negb] in H; [|injection H as <- <- <-; apply peg_name_no; auto].
    step H. injection H as <- <- <-. apply peg_name_yes; [auto|eapply leaf_moved; eauto].
  - discriminate.
  - step3 H m1 t1 s1. pose proof (IR _ _ _ Hc E) as (_ & Hr). apply IH in E; [|exact Hc]. injection H as <- <- <-.
    cbn [oend]. destruct m1; [apply peg_opt_take; exact E|].
    destruct (Hr eq_refl) as (_ & ->). apply peg_opt_skip. exact E.
  - step H. injection H as <- <- <-. destruct (t0 =? a)%Z eqn:EQ; cbn [oend].
    + apply peg_peek_yes. exists a. split; [exact E|]. apply Z.eqb_eq in EQ. congruence.
    + apply peg_peek_no. exists a. split; [exact E|]. apply Z.eqb_neq in EQ. congruence.
  - specialize (Hsolid r). specialize (Hbody r) as Hb. unfold solid_body, clean_body, body_exp in *.
    destruct (body r) eqn:EB; try (apply peg_prim; [congruence|]; exists (S n), m, t, s'; split; [exact H0|destruct m; reflexivity]).
    step2 H o s1. unfold call_rule in E. rewrite EB in E. step3 E m1 t1 s2. injection E as <- <-.
    eapply peg_rule; [exact EB|]. pose proof (IR _ _ _ Hb E0) as (_ & Hr).
    assert (G := E0). apply IH in G; [|exact Hb]. destruct t1 as [t1|].
    + injection H as <- <- <-. destruct m1; [exact G|]. destruct (Hr eq_refl). discriminate.
    + injection H as <- <- <-. destruct m1; [|exact G]. exfalso. exact (run_solid _ _ _ _ _ _ _ Hsolid E0 eq_refl).
  - step3 H m1 t1 s1. apply (seq_agree _ HRs tag) in E; [|exact Hc].
    destruct m1; [step H|]; injection H as <- <- <-; exact E.
  - step2 H kids s1. step H. injection H as <- <- <-. eapply (star_agree _ IH IR); eauto.
  - step3 H m1 t1 s1. apply IH in E; [|exact Hc]. destruct t1; [step H|]; injection H as <- <- <-; apply peg_tag; exact E.
  - step H. destruct (t0 =? a)%Z eqn:EQ; cbn [negb] in H.
    + step H. injection H as <- <- <-. apply peg_tok_yes; [|eapply leaf_moved; eauto].
      exists a. split; [exact E|]. apply Z.eqb_eq in EQ. congruence.
    + injection H as <- <- <-. apply peg_tok_no. exists a. split; [exact E|]. apply Z.eqb_neq in EQ. congruence.
Qed.
End Agree.

(** peg is a function as soon as [prim] is *)
Lemma next_clash s P Q : next_is s P -> next_is s Q -> (forall t, P t -> Q t -> False) -> False.
Proof. intros (t & H1 & H2) (t' & H3 & H4) H. assert (t' = t) by congruence. subst. eauto. Qed.
Lemma name_clash s P Q : name_with s P -> name_with s Q -> (forall w, P w -> Q w -> False) -> False.
Proof. intros (_ & t & H1 & H2) (_ & t' & H3 & H4) H. assert (t' = t) by congruence. subst. eauto. Qed.
Lemma moved_det s a b : moved s a -> moved s b -> a = b.
Proof. unfold moved. congruence. Qed.
Lemma peg_det body (prim : rule -> stream -> option stream -> Prop) : (forall r s o1 o2, prim r s o1 -> prim r s o2 -> o1 = o2) ->
  forall p s o1, peg body prim p s o1 -> forall o2, peg body prim p s o2 -> o1 = o2.
Proof.
  intros HP p s o1 H. induction H; intros o2 H2; inversion H2; subst;
    try reflexivity;
    try (match goal with E1 : ?b ?r = RExp ?p, E2 : ?b ?r = RExp ?q |- _ => assert (q = p) by congruence; subst q; solve [eauto] end);
    try (match goal with
         | IH : forall o, peg _ _ ?p ?s o -> _ = o, X : peg _ _ ?p ?s _ |- _ => specialize (IH _ X); (discriminate || (injection IH as <-) || idtac)
         end);
    try (f_equal; eapply moved_det; eassumption);
    try (exfalso; match goal with
         | A : next_is ?s _, B : next_is ?s _ |- _ => eapply (next_clash _ _ _ A B); cbn; intros; congruence
         | A : name_with ?s _, B : name_with ?s _ |- _ => eapply (name_clash _ _ _ A B); cbn; intros; congruence
         | A : name_with ?s _, B : next_is ?s _ |- _ => destruct A as (A & _); eapply (next_clash _ _ _ A B); cbn; intros; congruence
         end);
    eauto; try congruence;
    try (exfalso; match goal with
         | A : next_is ?s _, B : name_with ?s _ |- _ => destruct B as (B & _); eapply (next_clash _ _ _ A B); cbn; intros; congruence
         end).
  all: try (exfalso; eapply H; eassumption).
Qed.
