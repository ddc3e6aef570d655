(** Parsers of whole statements match only at the end; the expression scanner
    stops at the first separator. *)
From Verif Require Import Base Tags SyntaxTags Token TTStream TTStream_spec StmtRules Peg Peg_spec Peg_proofs PegCover_proofs PegSafe_proofs.
Local Open Scope nat_scope.

Section Ends.
Variable body : rule -> rbody.
Variable exts : bool -> list ext.
Variable W : rule -> bool.
Hypothesis Hclean : forall r, clean_body (body r) = true.
Hypothesis Hexts : forall a, Forall ext_same (exts a).
Hypothesis Hexte : forall a, Forall ext_ends (exts a).
Hypothesis HE : forall r, W r = true -> ends_body W (body r) = true.

Lemma ext_at_end tag m es : Forall ext_ends es -> forall s t s', ext_loop tag m es s = Done (true, t, s') -> at_end s'.
Proof using.
  clear. intro H. induction es as [|e es IH]; intros s t s' HH; cbn [ext_loop] in HH; [discriminate|].
  inversion H as [|? ? H1 H2]; subst. step2 HH o s1. destruct o as [x|].
  - step HH. injection HH as _ <-. eapply H1; eauto.
  - eapply IH; eauto.
Qed.
Lemma ext_none tag m es : forall s x s', ext_loop tag m es s = Done (false, Some x, s') -> False.
Proof using.
  clear. induction es as [|e es IH]; intros s x s' HH; cbn [ext_loop] in HH; [discriminate|].
  step2 HH o s1. destruct o as [y|]; [step HH; discriminate|eauto].
Qed.
Lemma alts_end R ps : (forall p s t s', In p ps -> R p s = Done (true, t, s') -> at_end s') ->
  forall s t s', alts_loop R ps s = Done (true, t, s') -> at_end s'.
Proof using.
  clear. induction ps as [|p ps IH]; intros HR s t s' H; cbn [alts_loop] in H; [discriminate|].
  step3 H m t1 s1. destruct m.
  - injection H as <- <-. eapply HR; [left; reflexivity|exact E].
  - eapply IH; [|exact H]. intros. eapply HR; [right; eassumption|eassumption].
Qed.
Lemma seq_end g R ps : (forall p s t s', In p ps -> ends W p = true -> R p s = Done (true, t, s') -> at_end s') ->
  ends W (PSeq g ps) = true -> forall kids s kids' s', seq_loop R ps kids s = Done (true, kids', s') -> at_end s'.
Proof using.
  clear. induction ps as [|p ps IH]; intros HR He kids s kids' s' H; [discriminate He|].
  cbn [seq_loop] in H. step3 H m t1 s1. destruct m; [|discriminate]. destruct ps as [|q ps].
  - cbn [seq_loop] in H. injection H as <- <-. eapply HR; [left; reflexivity|exact He|exact E].
  - eapply IH; [|exact He|exact H]. intros. eapply HR; [right; eassumption|eassumption|eassumption].
Qed.
Lemma run_ends n : forall p s t s', clean p = true -> ends W p = true -> run body exts n p s = Done (true, t, s') -> at_end s'.
Proof using Hclean Hexts Hexte HE.
  induction n as [|n IH]; intros p s t s' Hc He H; [discriminate|]. cbn [run] in H.
  destruct p; cbn [clean] in *; try discriminate He.
  - step3 H m t1 s1. destruct m; [step H; injection H as _ <-|discriminate]. eapply alts_end; [|exact E].
    cbn [ends] in He. rewrite forallb_forall in Hc, He. intros. eapply IH; eauto.
  - unfold peek_o in H. destruct (peek s) as [x| |] eqn:EP; cbn [lift obind] in H; try discriminate.
    cbn [ends] in He. apply Z.eqb_eq in He. subst t0. destruct (Z.eqb_spec BAD x) as [HB|]; [|discriminate].
    injection H as _ <-. unfold at_end. congruence.
  - cbn [ends] in He. step2 H o s1. destruct o as [x|]; [|discriminate]. injection H as <- <-.
    pose proof (HE _ He) as Hb. pose proof (Hclean r) as Hcl. unfold clean_body in Hcl. unfold call_rule in E.
    destruct (body r) eqn:EB; cbn [ends_body body_exp] in *; try discriminate Hb.
    + step3 E m t1 s2. injection E as -> ->. destruct m; [eapply IH; eauto|].
      apply run_restores in E0; auto. destruct E0 as (_ & E0). destruct (E0 eq_refl) as (E2 & _). discriminate.
    + step3 E m t1 s2. destruct m.
      * injection E as -> ->. eapply IH; eauto.
      * step3 E m t2 s3. injection E as -> ->. destruct m; [eapply ext_at_end; eauto|]. exfalso. eapply ext_none; eauto.
  - step3 H m kids s1. destruct m; [step H; injection H as _ <-|discriminate]. eapply (seq_end tag); [|exact He|exact E].
    rewrite forallb_forall in Hc. intros q s2 t2 s2' Hq Hq2 HR. apply Hc in Hq. destruct q; try discriminate Hq2; eapply IH; eauto.
  - cbn [ends] in He. step3 H m t1 s1. destruct t1 as [t1|].
    + step H. injection H as -> _ <-. eapply IH; eauto.
    + injection H as -> _ <-. eapply IH; eauto.
Qed.
Lemma parse_rule_ends n r s x s' : W r = true -> parse_rule body exts n r s = Done (Some x, s') -> at_end s'.
Proof using Hclean Hexts Hexte HE.
  intros Hr H. apply (run_ends (S n) (PRule r) s (Some x)); auto. cbn [run]. unfold parse_rule in H. rewrite H. reflexivity.
Qed.
End Ends.

(** ** xlen is the length of the expression *)
Lemma level2_firstn_S l j t : nth_error l j = Some t -> level2 (firstn (S j) l) =
  (level2 (firstn j l) + (if is_open (tok t) then 1 else if is_close (tok t) then -1 else 0))%Z.
Proof.
  revert j. induction l as [|u l IH]; intros [|j] H; try discriminate H.
  - injection H as ->. cbn [firstn]. rewrite level2_cons. change (level2 []) with 0%Z. lia.
  - cbn [nth_error] in H. change (firstn (S (S j)) (u :: l)) with (u :: firstn (S j) l). change (firstn (S j) (u :: l)) with (u :: firstn j l).
    rewrite !level2_cons, (IH _ H). lia.
Qed.
(** an expression that starts inside d - 1 parentheses *)
Definition stops_in (d : Z) (l : list Token) (j : nat) : Prop :=
  (level2 (firstn j l) = 1 - d)%Z /\ exists t, nth_error l j = Some t /\ expr_stop (tok t) = true.
Lemma decide_eat d t d' : (1 <= d)%Z -> t <> BAD -> decide d t = DEat d' ->
  (1 <= d')%Z /\ (d' = d + (if is_open t then 1 else if is_close t then -1 else 0))%Z /\
  (expr_stop t = true -> d <> 1%Z).
Proof.
  intros Hd Hb H. pose proof (decide_level d t) as HL. pose proof (decide_ge1 d t Hd) as HG. rewrite H in HL, HG.
  split; [exact HG|]. split; [exact HL|]. intros Hs ->. unfold decide in H. unfold expr_stop, is_close in Hs. cbn [existsb] in Hs.
  destruct (t =? TK_PARENL)%Z eqn:E1; [apply Z.eqb_eq in E1; subst; discriminate Hs|].
  destruct (t =? TK_BRACKETL)%Z eqn:E2; [apply Z.eqb_eq in E2; subst; discriminate Hs|].
  destruct (t =? TK_PARENR)%Z; [discriminate|]. destruct (t =? TK_BRACKETR)%Z; [discriminate|].
  change (1 =? 1)%Z with true in H. cbn iota in H. destruct (t =? BAD)%Z; [discriminate|].
  destruct (t =? TK_COMMA)%Z; [discriminate|]. destruct (t =? TK_COLON)%Z; [discriminate|]. destruct (t =? TK_EQUAL)%Z; [discriminate|].
  discriminate Hs.
Qed.
Lemma decide_stop d t : (1 <= d)%Z -> t <> BAD -> (forall d', decide d t <> DEat d') -> d = 1%Z /\ expr_stop t = true.
Proof.
  intros Hd Hb H. unfold decide in H. unfold expr_stop, is_close. cbn [existsb].
  destruct (t =? TK_PARENL)%Z; [exfalso; eapply H; reflexivity|].
  destruct (t =? TK_BRACKETL)%Z; [exfalso; eapply H; reflexivity|].
  destruct (t =? TK_PARENR)%Z. { destruct (Z.eqb_spec (d - 1) 0); [split; [lia|reflexivity]|exfalso; eapply H; reflexivity]. }
  destruct (t =? TK_BRACKETR)%Z. { destruct (Z.eqb_spec (d - 1) 0); [split; [lia|reflexivity]|exfalso; eapply H; reflexivity]. }
  destruct (Z.eqb_spec d 1); [|exfalso; eapply H; reflexivity]. destruct (Z.eqb_spec t BAD); [contradiction|].
  split; [assumption|]. destruct (t =? TK_COMMA)%Z; [reflexivity|]. destruct (t =? TK_COLON)%Z; [reflexivity|].
  destruct (t =? TK_EQUAL)%Z; [reflexivity|]. exfalso; eapply H; reflexivity.
Qed.
Lemma xlen_spec l : forall d, (1 <= d)%Z -> Forall (fun t => tok t <> BAD) l ->
  xlen d l <= length l /\ (forall j, j < xlen d l -> ~ stops_in d l j) /\ (xlen d l = length l \/ stops_in d l (xlen d l)).
Proof.
  induction l as [|t l IH]; intros d Hd HB; [cbn; split; [lia|]; split; [lia|auto]|].
  inversion HB as [|? ? Hb HB']; subst. cbn [xlen]. destruct (decide d (tok t)) as [| |d'] eqn:ED.
  - destruct (decide_stop d (tok t) Hd Hb) as (-> & Hs); [congruence|]. split; [cbn; lia|]. split; [lia|]. right. split; [reflexivity|]. exists t. auto.
  - destruct (decide_stop d (tok t) Hd Hb) as (-> & Hs); [congruence|]. split; [cbn; lia|]. split; [lia|]. right. split; [reflexivity|]. exists t. auto.
  - destruct (decide_eat d (tok t) d' Hd Hb ED) as (Hd' & HL & HS). destruct (IH d' Hd' HB') as (I1 & I2 & I3).
    assert (SH : forall j, stops_in d (t :: l) (S j) <-> stops_in d' l j).
    { intro j. unfold stops_in. cbn [firstn nth_error]. rewrite level2_cons. split; intros (X & Y); (split; [lia|exact Y]). }
    split; [cbn [length]; lia|]. split.
    + intros [|j] Hj; [|rewrite SH; apply I2; lia]. intros (X & t1 & [= <-] & Y). cbn [firstn] in X. apply HS in Y. change (level2 []) with 0%Z in X. lia.
    + destruct I3 as [I3|I3]; [left; cbn [length]; lia|right; apply SH; exact I3].
Qed.
Lemma xlen_length l : Forall (fun t => tok t <> BAD) l -> expr_length l (xlen 1 l).
Proof. intro H. apply (xlen_spec l 1 ltac:(lia) H). Qed.
Lemma expr_length_unique l j k : expr_length l j -> expr_length l k -> j = k.
Proof.
  intros (A1 & A2 & A3) (B1 & B2 & B3). destruct (lt_eq_lt_dec j k) as [[L|]|L]; [|assumption|]; exfalso.
  - destruct A3 as [->|A3]; [lia|]. eapply B2; eauto.
  - destruct B3 as [->|B3]; [lia|]. eapply A2; eauto.
Qed.
