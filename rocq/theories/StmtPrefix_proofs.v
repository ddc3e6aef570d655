(** The prefix analysis is right. *)
From Coq Require Import Lia.
From Verif Require Import Base Base_lemmas Tags SyntaxTags Token TTStream StmtRules Peg Peg_spec Peg_proofs StmtGrammar StmtPrefix.
Local Open Scope nat_scope.

(** a statement: a range of tokens that really are tokens *)
Definition real (s : stream) : Prop :=
  s_beg s <= s_end s /\ s_end s <= length (frags s) /\
  forall p t, s_beg s <= p -> p < s_end s -> nth_error (frags s) p = Some t -> tok t <> BAD.
Definition tok_at (s : stream) (p : nat) (a : atok) : Prop :=
  match a with
  | End => p = s_end s
  | Tag t => p < s_end s /\ exists k, nth_error (frags s) p = Some k /\ tok k = t
  | Other nm => p < s_end s /\ exists k, nth_error (frags s) p = Some k /\ ~ In (tok k) kinds /\ (forall b, is_name_tag (tok k) = Ok b -> b = nm)
  end.
Definition fits (pre : list atok) (s : stream) : Prop :=
  forall j a, nth_error pre j = Some a -> tok_at s (s_beg s + j) a.
Definition near (s0 s : stream) (q : option nat) : Prop :=
  same s0 s /\ match q with Some j => pos s = s_beg s0 + j | None => True end.
Definition isS {A} (o : option A) : bool := match o with Some _ => true | None => false end.

Lemma tok_at_same s s' p a : same s s' -> tok_at s p a -> tok_at s' p a.
Proof. intros (A & _ & B). unfold tok_at. rewrite <- A, <- B. auto. Qed.
Lemma peek_at s a t : tok_at s (pos s) a -> peek s = Ok t -> match kind_of a with Some z => t = z | None => ~ In t kinds end.
Proof.
  intros H P. unfold peek in P. destruct a as [z|nm|]; cbn [kind_of tok_at] in *.
  - destruct H as (L & k & E & <-). destruct (Nat.eqb_spec (pos s) (s_end s)); [lia|]. unfold deref in P. rewrite E in P. cbn in P. congruence.
  - destruct H as (L & k & E & N & _). destruct (Nat.eqb_spec (pos s) (s_end s)); [lia|]. unfold deref in P. rewrite E in P. cbn in P. congruence.
  - rewrite H, Nat.eqb_refl in P. congruence.
Qed.
Lemma off1 s t : peek_off s 1 = Ok t -> pos s <= length (frags s) -> peek s = Ok t.
Proof.
  unfold peek_off, peek_tt, peek, next_n. replace (Z.of_nat (pos s) + (1 - 1))%Z with (Z.of_nat (pos s)) by lia.
  destruct (_ && _); cbn [bind]; [|discriminate]. rewrite Nat2Z.id. intros H L.
  destruct (pos s =? s_end s); cbn [negb bind] in *; [exact H|]. exact H.
Qed.
Lemma off2 s t : peek_off s 2 = Ok t -> peek (set_pos s (S (pos s))) = Ok t.
Proof.
  unfold peek_off, peek_tt, peek, next_n. cbn [pos set_pos s_end frags].
  destruct (_ && _); cbn [bind]; [|discriminate]. replace (Z.to_nat (Z.of_nat (pos s) + (2 - 1))) with (S (pos s)) by lia. intros H.
  destruct (S (pos s) =? s_end s); cbn [negb bind] in *; [exact H|]. exact H.
Qed.
Lemma is_kind_ok s a t x b : tok_at s (pos s) a -> peek s = Ok t -> is_kind a x = Some b -> (x =? t)%Z = b.
Proof.
  intros H P K. pose proof (peek_at _ _ _ H P) as G. destruct a; cbn [is_kind kind_of] in *; try (injection K as <-; now subst).
  destruct (existsb _ _) eqn:E; [|discriminate]. injection K as <-. apply Z.eqb_neq. intros <-. apply G.
  apply existsb_exists in E as (y & I & Y). apply Z.eqb_eq in Y as <-. exact I.
Qed.
Lemma is_name_ok s a t b b' : tok_at s (pos s) a -> peek s = Ok t -> is_name a = Some b -> is_name_tag t = Ok b' -> b = b'.
Proof.
  intros H P K Q. pose proof (peek_at _ _ _ H P) as G. destruct a; cbn [is_name kind_of] in *; [subst t; rewrite Q in K; congruence| |subst t; rewrite Q in K; congruence].
  injection K as ->. cbn [tok_at] in H. destruct H as (L & k & E & _ & X). symmetry. apply X. unfold peek in P.
  destruct (Nat.eqb_spec (pos s) (s_end s)); [lia|]. unfold deref in P. rewrite E in P. cbn [bind] in P. congruence.
Qed.

Lemma nub_in A (eqb : A -> A -> bool) : (forall x y, eqb x y = true -> x = y) -> forall l x, In x l -> In x (nub eqb l).
Proof.
  intros E. induction l as [|a l IH]; intros x I; [exact I|]. cbn [nub]. destruct I as [<-|I].
  - destruct (existsb _ _) eqn:X; [|left; reflexivity]. apply existsb_exists in X as (y & Y & Z). apply E in Z as ->. exact Y.
  - destruct (existsb _ _); [|right]; auto.
Qed.
Lemma opt_eqb_ok x y : opt_eqb x y = true -> x = y.
Proof. destruct x, y; cbn; try congruence; try discriminate. intros H. apply Nat.eqb_eq in H. congruence. Qed.
Lemma aout_eqb_ok x y : aout_eqb x y = true -> x = y.
Proof.
  destruct x as ((a & b) & c), y as ((a' & b') & c'). cbn. rewrite !andb_true_iff. intros ((A & B) & C).
  apply Bool.eqb_prop in A, B. apply opt_eqb_ok in C. congruence.
Qed.
Lemma nubo_in l x : In x l -> In x (nubo l).
Proof. apply nub_in. exact aout_eqb_ok. Qed.
Lemma in_any m t : In (m, t, None) any.
Proof. destruct m, t; cbn; auto 6. Qed.

(** ** The stream is only moved *)
Section Frame.
Variable body : rule -> rbody.
Variable exts : bool -> list ext.
Hypothesis Hexts : forall a, Forall ext_same (exts a).
Section Step.
Variable R : pexp -> stream -> out presult.
Hypothesis HR : forall p s m t s', R p s = Done (m, t, s') -> same s s'.
Lemma seq_frame ps : forall kids s m kids' s', seq_loop R ps kids s = Done (m, kids', s') -> same s s'.
Proof using HR.
  induction ps as [|p ps IH]; intros kids s m kids' s' H; cbn [seq_loop] in H; [injection H as <- <- <-; apply same_refl|].
  step3 H m1 t1 s1. apply HR in E. destruct m1; [eapply same_trans; eauto|]. injection H as <- <- <-. exact E.
Qed.
Lemma alts_frame ps : forall s m t s', alts_loop R ps s = Done (m, t, s') -> same s s'.
Proof using HR.
  induction ps as [|p ps IH]; intros s m t s' H; cbn [alts_loop] in H; [injection H as <- <- <-; apply same_refl|].
  step3 H m1 t1 s1. apply HR in E. destruct m1; [injection H as <- <- <-; exact E|]. eapply same_trans; eauto.
Qed.
Lemma star_frame k p : forall kids s kids' s', star_loop R k p kids s = Done (kids', s') -> same s s'.
Proof using HR.
  induction k as [|k IH]; intros kids s kids' s' H; cbn [star_loop] in H; [discriminate|].
  step3 H m1 t1 s1. apply HR in E. destruct m1; [eapply same_trans; eauto|]. injection H as <- <-. exact E.
Qed.
Lemma ext_frame tag es : Forall ext_same es -> forall mk s m t s', ext_loop tag mk es s = Done (m, t, s') -> same s s'.
Proof using.
  induction 1 as [|e es He Hes IH]; intros mk s m t s' H; cbn [ext_loop] in H; [injection H as <- <- <-; apply same_refl|].
  step H. apply He in E. destruct o; [step H; injection H as <- <- <-; exact E|].
  apply IH in H. eapply same_trans; [|exact H]. eapply same_trans; [exact E|apply same_set].
Qed.
Lemma call_frame k r s o s' : call_rule body exts R k r s = Done (o, s') -> same s s'.
Proof using HR Hexts.
  intro H. unfold call_rule in H. destruct (body r).
  - step3 H m t s1. injection H as <- <-. eauto.
  - step3 H m t s1. apply HR in E. destruct m; [injection H as <- <-; exact E|].
    step3 H m2 t2 s2. injection H as <- <-. apply ext_frame in E0; [|apply Hexts]. eapply same_trans; eauto.
  - step H. destruct (existsb _ _); [injection H as <- <-; apply same_refl|].
    eapply until_break_same in H; [apply H|]. intros s1 o1 s1' H1. step3 H1 m1 t1 s2. injection H1 as <- <-. eauto.
  - eapply consume_parens_same; eauto.
  - eapply list_name_same; eauto.
  - eapply designator_same; eauto.
Qed.
End Step.
Lemma run_frame n : forall p s m t s', run body exts n p s = Done (m, t, s') -> same s s'.
Proof using Hexts.
  induction n as [|n IH]; intros p s m t s' H; [discriminate|]. cbn [run] in H. destruct p.
  - step3 H m1 t1 s1. apply (alts_frame _ IH) in E. destruct m1; [step H|]; injection H as <- <- <-; exact E.
  - step H. step H. destruct (negb a0); [injection H as <- <- <-; apply same_refl|].
    step H. destruct (negb _); [injection H as <- <- <-; apply same_refl|]. step H. injection H as <- <- <-. eapply leaf_same; eauto.
  - step H. step H. destruct (negb a0); [injection H as <- <- <-; apply same_refl|].
    step H. destruct (negb _); [injection H as <- <- <-; apply same_refl|]. step H. injection H as <- <- <-. eapply leaf_same; eauto.
  - step H. step H. destruct (negb a0); [injection H as <- <- <-; apply same_refl|]. step H. injection H as <- <- <-. eapply leaf_same; eauto.
  - step3 H m1 t1 s1. injection H as <- <- <-. eauto.
  - step3 H m1 t1 s1. injection H as <- <- <-. eauto.
  - step H. injection H as <- <- <-. apply same_refl.
  - step2 H o s1. apply (call_frame _ IH) in E. destruct o; injection H as <- <- <-; [exact E|]. eapply same_trans; [exact E|apply same_set].
  - step3 H m1 k1 s1. apply (seq_frame _ IH) in E. destruct m1; [step H|]; injection H as <- <- <-; [exact E|]. eapply same_trans; [exact E|apply same_set].
  - step2 H k1 s1. step H. injection H as <- <- <-. eapply star_frame; eauto.
  - step3 H m1 t1 s1. apply IH in E. destruct t1; [step H|]; injection H as <- <- <-; exact E.
  - step H. destruct (negb _); [injection H as <- <- <-; apply same_refl|]. step H. injection H as <- <- <-. eapply leaf_same; eauto.
Qed.
End Frame.

(** ** Where procedure_designator leaves the stream *)
Lemma real_same s s' : same s s' -> real s -> real s'.
Proof. intros (A & B & C). unfold real. rewrite <- A, <- B, <- C. auto. Qed.
Lemma bwd_where k : forall s d s' d', real s -> s_beg s <= pos s -> pos s <= s_end s -> (0 < d)%Z -> bwd k s d = Ok (s', d') ->
  same s s' /\ s_beg s <= pos s' <= s_end s /\
  ((0 < d')%Z /\ pos s' = s_beg s \/ d' = 0%Z /\ s_beg s < pos s' /\ (exists t, nth_error (frags s) (pred (pos s')) = Some t /\ tok t = TK_PARENL)).
Proof.
  induction k as [|k IH]; intros s d s' d' RS B E D H; cbn [bwd] in H; (destruct (Z.leb_spec d 0); [lia|]); [discriminate|].
  destruct (put_back s) as [s1| |] eqn:PB; cbn [bind] in H; try discriminate.
  pose proof (put_back_same _ _ PB) as S1. pose proof (real_same _ _ S1 RS) as RS1.
  assert (P1 : s_beg s <= pos s1 /\ pos s1 <= s_end s).
  { unfold put_back in PB. destruct (Nat.eqb_spec (pos s) (s_beg s)) as [X|X]; cbn [negb] in PB; [injection PB as <-; lia|].
    unfold next_n in PB. destruct (_ && _); cbn [bind] in PB; [|discriminate]. injection PB as <-. cbn [pos set_pos]. lia. }
  destruct (curr s1) as [t| |] eqn:CU; cbn [bind] in H; try discriminate.
  destruct S1 as (F1 & B1 & E1). 
  assert (NEXT : forall d1 s2 d2, (0 < d1)%Z -> bwd k s1 d1 = Ok (s2, d2) -> same s s2 /\ s_beg s <= pos s2 <= s_end s /\
     ((0 < d2)%Z /\ pos s2 = s_beg s \/ d2 = 0%Z /\ s_beg s < pos s2 /\ (exists t, nth_error (frags s) (pred (pos s2)) = Some t /\ tok t = TK_PARENL))).
  { intros d1 s2 d2 D1 HH. apply IH in HH; try assumption; try (rewrite ?B1, ?E1; lia).
    destruct HH as (S2 & R2 & O2). rewrite F1, ?B1, ?E1 in *. split; [|split; assumption]. apply (same_trans s s1); [|exact S2]. repeat split; congruence. }
  (* what curr saw *)
  assert (C : (pos s1 = s_beg s /\ t = BAD) \/ (s_beg s < pos s1 /\ exists tk, nth_error (frags s) (pred (pos s1)) = Some tk /\ tok tk = t)).
  { unfold curr, curr_tt in CU. rewrite B1 in CU. destruct (Nat.eqb_spec (pos s1) (s_beg s)) as [X|X]; cbn [negb bind] in CU.
    - injection CU as <-. left. split; [exact X|reflexivity].
    - right. split; [lia|]. unfold next_n in CU. destruct (_ && _); cbn [bind] in CU; [|discriminate].
      replace (Z.to_nat (Z.of_nat (pos s1) + -1)) with (pred (pos s1)) in CU by lia. unfold deref in CU. rewrite F1 in CU.
      destruct (nth_error (frags s) (pred (pos s1))) as [tk|] eqn:NE; cbn [bind] in CU; [injection CU as <-; eauto|].
      apply nth_error_None in NE. destruct RS as (_ & RE & _). lia. }
  destruct (Z.eqb_spec TK_PARENL t) as [L|L].
  - destruct (Z.leb_spec (d - 1) 0) as [Q|Q]; [|apply (NEXT (d - 1)%Z); [lia|exact H]].
    assert (K0 : bwd k s1 (d - 1) = Ok (s1, (d - 1)%Z)). { destruct k; cbn [bwd]; (destruct (Z.leb_spec (d - 1) 0); [reflexivity|lia]). }
    rewrite K0 in H. injection H as <- <-. split; [repeat split; congruence|]. split; [lia|].
    right. destruct C as [(_ & C)|(C & tk & N & T)]; [rewrite C in L; discriminate|]. split; [lia|]. split; [exact C|]. exists tk. split; [exact N|congruence].
  - destruct (Z.eqb_spec TK_PARENR t) as [M|M]; [apply (NEXT (d + 1)%Z); [lia|exact H]|].
    destruct (Z.eqb_spec BAD t) as [N|N]; [|apply (NEXT d); [lia|exact H]].
    injection H as <- <-. split; [repeat split; congruence|]. split; [lia|].
    destruct C as [(C & _)|(C & tk & NT & T)]; [left; split; [lia|exact C]|]. exfalso. destruct RS as (_ & _ & RS).
    apply (RS (pred (pos s1)) tk); [lia|lia|exact NT|congruence].
Qed.
Definition leaves (s : stream) (e : nat) : Prop :=
  e <= s_end s /\ (e = s_end s \/ e = s_beg s \/ exists t, nth_error (frags s) e = Some t /\ tok t = TK_PARENL).
Lemma designator_where R p s o s' : real s -> s_beg s <= pos s -> designator R p s = Done (o, s') ->
  same s s' /\ pos s <= pos s' /\ leaves s (pos s') /\
  exists m s2, R p (stream_of (frags s) (pos s) (pos s')) = Done (m, o, s2).
Proof.
  intros RS B H. unfold designator in H. pose proof RS as (BE & EL & NB).
  step2 H s1 ok. step H. rename a into s2.
  set (s0 := consume_until_eol s) in *.
  assert (S0 : same s s0) by apply same_set.
  assert (G : same s s2 /\ leaves s (pos s2)).
  { unfold move_to_open_paren in E. destruct (curr s0) as [t| |] eqn:CU; cbn [bind] in E; try discriminate.
    destruct (negb _) eqn:NE.
    - injection E as <- <-. injection E0 as <-. split; [exact S0|]. split; [cbn; lia|left; reflexivity].
    - destruct (bwd _ _ _) as [(sb & d)| |] eqn:BW; cbn [bind] in E; try discriminate. injection E as <- <-.
      apply bwd_where in BW; [|eapply real_same; eauto|cbn; lia|cbn; lia|lia]. destruct BW as (SB & PB & OR).
      cbn [s0 consume_until_eol set_pos s_beg s_end frags] in PB, OR.
      assert (SS : same s sb) by (eapply same_trans; eauto). destruct OR as [(D & X)|(-> & LT & OR)].
      + destruct (Z.eqb_spec d 0); [lia|]. injection E0 as <-. split; [exact SS|]. split; [lia|]. right; left; exact X.
      + apply lift_done in E0. pose proof (put_back_same _ _ E0) as S2. split; [eapply same_trans; eauto|].
        destruct SS as (F & BB & EE). unfold put_back in E0. rewrite BB in E0.
        destruct (Nat.eqb_spec (pos sb) (s_beg s)) as [X|X]; cbn [negb] in E0; [lia|].
        unfold next_n in E0. destruct (_ && _); cbn [bind] in E0; [|discriminate]. injection E0 as <-. cbn [pos set_pos].
        replace (Z.to_nat (Z.of_nat (pos sb) + -1)) with (pred (pos sb)) by lia. split; [lia|]. right; right. exact OR. }
  destruct G as (S2 & LV). destruct (Nat.ltb_spec (pos s2) (pos s)); [discriminate|]. step3 H m t s3. injection H as <- <-.
  split; [exact S2|]. split; [lia|]. split; [exact LV|]. exists m, s3. destruct S2 as (F & _). rewrite <- F. exact E1.
Qed.

Lemma cuts_from_ok s0 b e : leaves s0 e -> s_beg s0 <= b -> b < e -> forall l i seen,
  (forall k a, nth_error l k = Some a -> tok_at s0 (s_beg s0 + i + k) a) -> s_beg s0 + i = b + length seen -> s_beg s0 + i <= e ->
  fits seen (stream_of (frags s0) b e) ->
  exists sub q, In (sub, q) (cuts_from l i seen) /\ fits sub (stream_of (frags s0) b e) /\ match q with Some k => e = s_beg s0 + k | None => True end.
Proof.
  intros LV BB BE. induction l as [|a l IH]; intros i seen FL LEN LE FS.
  - exists seen, None. cbn. auto.
  - cbn [cuts_from]. pose proof (FL 0 a eq_refl) as A0. rewrite Nat.add_0_r in A0.
    destruct (Nat.eq_dec (s_beg s0 + i) e) as [EQ|NE].
    + exists (seen ++ [End]), (Some i). split; [|split; [|lia]].
      * assert (ST : stops a = true).
        { destruct LV as (LV1 & [LV|[LV|(t & N & T)]]); [|lia|].
          - destruct a as [z| |]; cbn [tok_at] in A0; [lia|lia|reflexivity].
          - rewrite EQ in A0. destruct a as [z| |]; cbn [tok_at] in A0; [|exfalso|reflexivity].
            + destruct A0 as (_ & k & N' & T'). rewrite N in N'. injection N' as <-. unfold stops, is_kind. rewrite <- T', T. reflexivity.
            + destruct A0 as (_ & k & N' & T' & _). rewrite N in N'. injection N' as <-. apply T'. rewrite T. unfold kinds. cbn. auto 200. }
        rewrite ST. left. reflexivity.
      * intros k c NK. cbn [s_beg stream_of]. destruct (Nat.lt_ge_cases k (length seen)) as [L|L].
        -- rewrite nth_error_app1 in NK by exact L. exact (FS k c NK).
        -- rewrite nth_error_app2 in NK by exact L. destruct (k - length seen) as [|n] eqn:KS; cbn in NK; [|destruct n; discriminate].
           injection NK as <-. cbn [tok_at s_end stream_of]. lia.
    + assert (NEnd : a <> End). { intros ->. cbn [tok_at] in A0. destruct LV. lia. }
      destruct (IH (S i) (seen ++ [a])) as (sub & q & I & F & Q).
      * intros k c NK. specialize (FL (S k) c NK). replace (s_beg s0 + S i + k) with (s_beg s0 + i + S k) by lia. exact FL.
      * rewrite app_length. cbn. lia.
      * lia.
      * intros k c NK. cbn [s_beg stream_of]. destruct (Nat.lt_ge_cases k (length seen)) as [L|L].
        -- rewrite nth_error_app1 in NK by exact L. exact (FS k c NK).
        -- rewrite nth_error_app2 in NK by exact L. destruct (k - length seen) as [|n] eqn:KS; cbn in NK; [|destruct n; discriminate].
           injection NK as <-. replace (b + k) with (s_beg s0 + i) by lia. destruct a as [z| |]; [| |now destruct NEnd]; cbn [tok_at s_end frags stream_of] in *; (split; [lia|apply A0]).
      * exists sub, q. split; [|auto]. apply in_or_app. right. destruct a; [exact I|exact I|now destruct NEnd].
Qed.
Lemma nth_error_skipn' A (l : list A) n : forall k, nth_error (skipn n l) k = nth_error l (n + k).
Proof. revert l. induction n as [|n IH]; intros l k; [reflexivity|]. destruct l as [|a l]; [now destruct k|apply IH]. Qed.
Lemma cuts_ok s0 pre j e : fits pre s0 -> leaves s0 e -> s_beg s0 + j <= e ->
  exists sub q, In (sub, q) (cuts pre j) /\ fits sub (stream_of (frags s0) (s_beg s0 + j) e) /\ match q with Some k => e = s_beg s0 + k | None => True end.
Proof.
  intros FP LV LE. unfold cuts. destruct (Nat.eq_dec (s_beg s0 + j) e) as [EQ|NE].
  - exists [End], (Some j). split; [left; reflexivity|]. split; [|lia]. intros k a NK. destruct k as [|[|k]]; cbn in NK; try discriminate.
    injection NK as <-. cbn. lia.
  - destruct (cuts_from_ok s0 (s_beg s0 + j) e LV ltac:(lia) ltac:(lia) (skipn j pre) j []) as (sub & q & I & F & Q).
    + intros k a NK. rewrite nth_error_skipn' in NK. specialize (FP _ _ NK). replace (s_beg s0 + j + k) with (s_beg s0 + (j + k)) by lia. exact FP.
    + cbn. lia.
    + lia.
    + intros k a NK. destruct k; discriminate.
    + exists sub, q. split; [right; exact I|]. auto.
Qed.

(** ** The analysis *)
Section Sound.
Variable exts : bool -> list ext.
Variable ab : bool.
Hypothesis Hexts : forall a, Forall ext_same (exts a).
Hypothesis Hab : ab = false -> forall a, exts a = [].

Section Step.
Variable R : pexp -> stream -> out presult.
Variable A : list atok -> pexp -> nat -> atok -> list aout.
Hypothesis HF : forall p s m t s', R p s = Done (m, t, s') -> same s s'.
Hypothesis HR : forall s0 pre p j a s m t s', real s0 -> fits pre s0 -> nth_error pre j = Some a -> near s0 s (Some j) -> R p s = Done (m, t, s') ->
  exists q', In (m, isS t, q') (A pre p j a) /\ near s0 s' q'.
Lemma at_ok s0 pre p q s m t s' : real s0 -> fits pre s0 -> near s0 s q -> R p s = Done (m, t, s') ->
  exists q', In (m, isS t, q') (at_ A pre p q) /\ near s0 s' q'.
Proof using HF HR.
  intros RS FP N H. assert (AN : exists q', In (m, isS t, q') any /\ near s0 s' q').
  { exists None. split; [apply in_any|]. split; [|exact I]. eapply same_trans; [apply N|]. eauto. }
  destruct q as [j|]; cbn [at_]; [|exact AN]. destruct (nth_error pre j) as [a|] eqn:E; [|exact AN]. eapply HR; eauto.
Qed.
Lemma aseq_ok s0 pre ps : real s0 -> fits pre s0 -> forall q kids s m kids' s', near s0 s q -> seq_loop R ps kids s = Done (m, kids', s') ->
  exists q', In (m, m, q') (aseq A pre ps q) /\ near s0 s' q'.
Proof using HF HR.
  intros RS FP. induction ps as [|p ps IH]; intros q kids s m kids' s' N H; cbn [seq_loop aseq] in *.
  - injection H as <- <- <-. exists q. split; [left; reflexivity|exact N].
  - step3 H m1 t1 s1. destruct (at_ok _ _ _ _ _ _ _ _ RS FP N E) as (q1 & I1 & N1). destruct m1.
    + destruct (IH _ _ _ _ _ _ N1 H) as (q2 & I2 & N2). exists q2. split; [|exact N2]. apply nubo_in, in_flat_map. eexists. split; [exact I1|]. exact I2.
    + injection H as <- <- <-. exists q1. split; [|exact N1]. apply nubo_in, in_flat_map. eexists. split; [exact I1|]. left. reflexivity.
Qed.
Lemma aalts_ok s0 pre ps : real s0 -> fits pre s0 -> forall q s m t s', near s0 s q -> alts_loop R ps s = Done (m, t, s') ->
  exists q', In (m, isS t, q') (aalts A pre ps q) /\ near s0 s' q'.
Proof using HF HR.
  intros RS FP. induction ps as [|p ps IH]; intros q s m t s' N H; cbn [alts_loop aalts] in *.
  - injection H as <- <- <-. exists q. split; [left; reflexivity|exact N].
  - step3 H m1 t1 s1. destruct (at_ok _ _ _ _ _ _ _ _ RS FP N E) as (q1 & I1 & N1). destruct m1.
    + injection H as <- <- <-. exists q1. split; [|exact N1]. apply nubo_in, in_flat_map. eexists. split; [exact I1|]. left. reflexivity.
    + destruct (IH _ _ _ _ _ N1 H) as (q2 & I2 & N2). exists q2. split; [|exact N2]. apply nubo_in, in_flat_map. eexists. split; [exact I1|]. exact I2.
Qed.
Lemma astar_ok s0 pre p : real s0 -> fits pre s0 -> forall k K q kids s kids' s', near s0 s q -> star_loop R k p kids s = Done (kids', s') ->
  exists q', In q' (astar A pre K p q) /\ near s0 s' q'.
Proof using HF HR.
  intros RS FP. induction k as [|k IH]; intros K q kids s kids' s' N H; [discriminate|].
  assert (AN : exists q', In q' [None] /\ near s0 s' q').
  { exists None. split; [left; reflexivity|]. split; [|exact I]. eapply same_trans; [apply N|]. apply (star_frame _ HF) in H. exact H. }
  destruct K as [|K]; [exact AN|]. destruct q as [j|]; [|exact AN]. clear AN. cbn [star_loop] in H. cbn [astar].
  step3 H m1 t1 s1. destruct (at_ok _ _ _ _ _ _ _ _ RS FP N E) as (q1 & I1 & N1). destruct m1.
  - destruct (IH K _ _ _ _ _ N1 H) as (q2 & I2 & N2). exists q2. split; [|exact N2]. apply (nub_in _ opt_eqb opt_eqb_ok), in_flat_map. eexists. split; [exact I1|]. exact I2.
  - injection H as <- <-. exists q1. split; [|exact N1]. apply (nub_in _ opt_eqb opt_eqb_ok), in_flat_map. eexists. split; [exact I1|]. left. reflexivity.
Qed.
Lemma near_self s0 s j : near s0 s (Some j) -> forall a pre, fits pre s0 -> nth_error pre j = Some a -> tok_at s (pos s) a.
Proof using. intros (S & P) a pre F E. rewrite P. eapply tok_at_same; [exact S|]. apply F. exact E. Qed.
Lemma break_start lit k tag s t o s' : peek s = Ok t -> until_break lit k tag s = Done (o, s') ->
  match decide 1 t with DEat _ => True | _ => o = None end.
Proof using.
  intros P H. unfold until_break in H. destruct k as [|k]; [discriminate|]. cbn [break_loop] in H. change (1 <=? 0)%Z with false in H.
  unfold peek_o in H. rewrite P in H. cbn [lift obind] in H. destruct (decide 1 t); cbn [obind] in H; [congruence|congruence|exact I].
Qed.
Lemma acall_ok s0 pre k r j a s o s' : real s0 -> fits pre s0 -> nth_error pre j = Some a -> near s0 s (Some j) ->
  call_rule grammar exts R k r s = Done (o, s') -> exists m q', In (m, isS o, q') (acall ab A pre r j a) /\ near s0 s' q'.
Proof using HF HR Hexts Hab.
  intros RS FP NA N H. pose proof (call_frame grammar exts Hexts R HF _ _ _ _ _ H) as FR.
  pose proof (near_self _ _ _ N _ _ FP NA) as TA.
  unfold call_rule in H. unfold acall. destruct (grammar r) as [p|act tag p|tag no| | |p].
  - step3 H m t s1. injection H as <- <-. destruct (HR _ _ _ _ _ _ _ _ _ RS FP NA N E) as (q' & I & N'). eauto.
  - step3 H m t s1. destruct (HR _ _ _ _ _ _ _ _ _ RS FP NA N E) as (q' & I & N'). destruct m.
    + injection H as <- <-. exists true, q'. split; [|exact N']. apply nubo_in, in_flat_map. eexists. split; [exact I|]. left. reflexivity.
    + step3 H m2 t2 s2. injection H as <- <-. destruct ab eqn:EA.
      * exists m2, None. split; [|split; [|exact Logic.I]]. { apply nubo_in, in_flat_map. eexists. split; [exact I|]. apply in_any. }
        eapply same_trans; [apply N|exact FR].
      * rewrite (Hab eq_refl) in E0. cbn [ext_loop] in E0. injection E0 as <- <- <-. exists false, q'. split; [|exact N'].
        apply nubo_in, in_flat_map. eexists. split; [exact I|]. left. reflexivity.
  - step H. rename a0 into t. pose proof (peek_at _ _ _ TA E) as PK.
    assert (NN : forall oo, near s0 s' oo <-> match oo with Some i => pos s' = s_beg s0 + i | None => True end).
    { intros oo. unfold near. split; [intros (_ & X); exact X|]. intros X. split; [|exact X]. eapply same_trans; [apply N|exact FR]. }
    assert (F0 : s' = s -> o = None -> exists m q', In (m, isS o, q') [(false, false, Some j)] /\ near s0 s' q').
    { intros -> ->. exists false, (Some j). split; [left; reflexivity|exact N]. }
    assert (F1 : (o = None -> s' = s) -> exists m q', In (m, isS o, q') [(false, false, Some j); (true, true, None)] /\ near s0 s' q').
    { intros X. destruct o as [o|]; [exists true, None|exists false, (Some j)].
      - split; [right; left; reflexivity|]. apply NN. exact I.
      - split; [left; reflexivity|]. rewrite (X eq_refl). exact N. }
    assert (U : existsb (Z.eqb t) no = false -> (o = None -> s' = s) /\ (match decide 1 t with DEat _ => True | _ => o = None end)).
    { intros X. rewrite X in H. split; [|eapply break_start; eauto].
      eapply until_break_same in H; [apply H|]. intros s1 o1 s1' H1. step3 H1 m1 t1 s2. injection H1 as <- <-. eauto. }
    assert (V : existsb (Z.eqb t) no = true -> s' = s /\ o = None).
    { intros X. rewrite X in H. injection H as <- <-. auto. }
    destruct (kind_of a) as [z|].
    + subst z. destruct (existsb (Z.eqb t) no); [destruct (V eq_refl); auto|]. destruct (U eq_refl) as (U1 & U2).
      destruct (decide 1 t); [subst o; auto|subst o; auto|auto].
    + apply F1. intros X. destruct (existsb (Z.eqb t) no); [apply (V eq_refl)|]. destruct (U eq_refl) as (U1 & _). auto.
  - destruct (is_kind a TK_PARENL) as [b|] eqn:K.
    + unfold consume_parens in H. step H. pose proof (is_kind_ok _ _ _ _ _ TA E K) as X. rewrite Z.eqb_sym in X. rewrite X in H. destruct b; cbn [negb] in H.
      * destruct o as [o|]; [exists true, None|].
        -- split; [right; left; reflexivity|]. split; [|exact Logic.I]. eapply same_trans; [apply N|exact FR].
        -- step H. step H. step H. discriminate.
      * injection H as <- <-. exists false, (Some j). split; [left; reflexivity|exact N].
    + unfold consume_parens in H. step H. destruct (negb _).
      * injection H as <- <-. exists false, (Some j). split; [left; reflexivity|exact N].
      * step H. step H. step H. injection H as <- <-. exists true, None. split; [right; left; reflexivity|].
        split; [|exact Logic.I]. eapply same_trans; [apply N|exact FR].
  - unfold list_name in H. step H. rename a0 into t. step H. rename a0 into b.
    assert (PL : pos s <= length (frags s)).
    { destruct N as ((F & B & E') & P). rewrite P, F. destruct RS as (R1 & R2 & _). specialize (FP _ _ NA). destruct a; cbn [tok_at] in FP; lia. }
    apply off1 in E; [|exact PL].
    assert (F0 : s' = s -> o = None -> In (false, isS o, Some j) [(false, false, Some j)] /\ near s0 s' (Some j)).
    { intros -> ->. split; [left; reflexivity|exact N]. }
    destruct (is_name a) as [nb|] eqn:NM.
    + pose proof (is_name_ok _ _ _ _ _ TA E NM E0) as <-. destruct nb.
      * step H. rename a0 into t2. apply off2 in E1. destruct (existsb (Z.eqb t2) name_ends) eqn:X.
        -- step H. injection H as <- <-. apply leaf_inv in E2 as (-> & -> & _).
           exists true, (Some (S j)). split.
           ++ destruct (nth_error pre (S j)) as [c|] eqn:NC; cbn [option_map]; [|right; left; reflexivity].
              assert (TC : tok_at (set_pos s (S (pos s))) (pos (set_pos s (S (pos s)))) c).
              { cbn [pos set_pos]. apply (tok_at_same s); [apply same_set|]. apply (tok_at_same s0); [apply N|]. destruct N as (_ & ->). replace (S (s_beg s0 + j)) with (s_beg s0 + S j) by lia. apply FP. exact NC. }
              pose proof (peek_at _ _ _ TC E1) as PC. destruct (kind_of c) as [z|]; [subst z; rewrite X|]; right; left; reflexivity.
           ++ split; [eapply same_trans; [apply N|apply same_set]|]. cbn [pos set_pos]. destruct N as (_ & ->). lia.
        -- injection H as <- <-. exists false, (Some j). split; [|exact N]. destruct (option_map _ _) as [[z|]|]; [destruct (existsb (Z.eqb z) name_ends)| |]; left; reflexivity.
      * injection H as <- <-. exists false, (Some j). split; [left; reflexivity|exact N].
    + destruct b.
      * step H. rename a0 into t2. apply off2 in E1. destruct (existsb (Z.eqb t2) name_ends) eqn:X.
        -- step H. injection H as <- <-. apply leaf_inv in E2 as (-> & -> & _).
           exists true, (Some (S j)). split.
           ++ destruct (nth_error pre (S j)) as [c|] eqn:NC; cbn [option_map]; [|right; left; reflexivity].
              assert (TC : tok_at (set_pos s (S (pos s))) (pos (set_pos s (S (pos s)))) c).
              { cbn [pos set_pos]. apply (tok_at_same s); [apply same_set|]. apply (tok_at_same s0); [apply N|]. destruct N as (_ & ->). replace (S (s_beg s0 + j)) with (s_beg s0 + S j) by lia. apply FP. exact NC. }
              pose proof (peek_at _ _ _ TC E1) as PC. destruct (kind_of c) as [z|]; [subst z; rewrite X|]; right; left; reflexivity.
           ++ split; [eapply same_trans; [apply N|apply same_set]|]. cbn [pos set_pos]. destruct N as (_ & ->). lia.
        -- injection H as <- <-. exists false, (Some j). split; [|exact N]. destruct (option_map _ _) as [[z|]|]; [destruct (existsb (Z.eqb z) name_ends)| |]; left; reflexivity.
      * injection H as <- <-. exists false, (Some j). split; [|exact N]. destruct (option_map _ _) as [[z|]|]; [destruct (existsb (Z.eqb z) name_ends)| |]; left; reflexivity.
  - assert (RS' : real s) by (eapply real_same; [apply N|exact RS]).
    apply designator_where in H; [|exact RS'|destruct N as ((F & B & E') & P); rewrite P, B; lia].
    destruct H as (_ & LE & LV & m & s2 & H).
    pose proof N as ((NF & NB & NE) & NP).
    assert (LV0 : leaves s0 (pos s')). { unfold leaves in *. rewrite NF, NB, NE in LV. exact LV. }
    rewrite NP in LE, H. rewrite NF in H.
    destruct (cuts_ok s0 pre j (pos s') FP LV0 LE) as (sub & q & I & FS & Q).
    assert (NQ : near s0 s' q). { split; [eapply same_trans; [apply N|exact FR]|]. destruct q; auto. }
    destruct o as [o|].
    + exists true, q. split; [|exact NQ]. apply in_flat_map. eexists. split; [exact I|]. right. destruct sub as [|b sub]; [left; reflexivity|].
      set (s3 := stream_of (frags s0) (s_beg s0 + j) (pos s')) in *.
      assert (R3 : real s3). { destruct RS as (R1 & R2 & R3). destruct LV0. split; [cbn; lia|]. split; [cbn; lia|]. cbn. intros p0 t0 L1 L2. apply R3; lia. }
      destruct (HR s3 (b :: sub) p 0 b s3 m (Some o) s2 R3 FS eq_refl) as (q2 & I2 & _); [|exact H|].
      { split; [apply same_refl|]. cbn. lia. }
      assert (X : existsb with_tree (A (b :: sub) p 0 b) = true). { apply existsb_exists. eexists. split; [exact I2|]. reflexivity. }
      rewrite X. left. reflexivity.
    + exists false, q. split; [|exact NQ]. apply in_flat_map. eexists. split; [exact I|]. left. reflexivity.
Qed.
End Step.

Lemma arun_ok n : forall N s0 pre p j a s m t s', real s0 -> fits pre s0 -> nth_error pre j = Some a -> near s0 s (Some j) ->
  run grammar exts n p s = Done (m, t, s') -> exists q', In (m, isS t, q') (arun ab N pre p j a) /\ near s0 s' q'.
Proof using Hexts Hab.
  induction n as [|n IH]; intros N s0 pre p j a s m t s' RS FP NA NS H; [discriminate|].
  pose proof (run_frame grammar exts Hexts _ _ _ _ _ _ H) as FR.
  destruct N as [|N].
  { exists None. split; [apply in_any|]. split; [|exact I]. eapply same_trans; [apply NS|exact FR]. }
  pose proof (near_self _ _ _ NS _ _ FP NA) as TA.
  specialize (IH N). pose proof (run_frame grammar exts Hexts n) as HF.
  assert (ONE : forall g x s1, leaf g s = Done (x, s1) -> near s0 s1 (Some (S j))).
  { intros g x s1 L. apply leaf_inv in L as (_ & -> & _). split; [eapply same_trans; [apply NS|apply same_set]|]. cbn [pos set_pos]. destruct NS as (_ & ->). lia. }
  cbn [run] in H. cbn [arun]. destruct p.
  - step3 H m1 t1 s1. destruct (aalts_ok _ _ HF IH s0 pre ps RS FP (Some j) _ _ _ _ NS E) as (q & I & NQ). exists q.
    destruct m1; [step H|]; injection H as <- <- <-; (split; [|exact NQ]); apply nubo_in, in_map_iff; eexists; (split; [|exact I]); reflexivity.
  - step H. step H. destruct (is_name a) as [b|] eqn:NM.
    + pose proof (is_name_ok _ _ _ _ _ TA E NM E0) as ->. destruct a1; cbn [negb] in H.
      * step H. destruct (negb _); [injection H as <- <- <-; exists (Some j); split; [left; reflexivity|exact NS]|].
        step H. injection H as <- <- <-. exists (Some (S j)). split; [right; left; reflexivity|eauto].
      * injection H as <- <- <-. exists (Some j). split; [left; reflexivity|exact NS].
    + destruct (negb a1); [injection H as <- <- <-; exists (Some j); split; [left; reflexivity|exact NS]|].
      step H. destruct (negb _); [injection H as <- <- <-; exists (Some j); split; [left; reflexivity|exact NS]|].
      step H. injection H as <- <- <-. exists (Some (S j)). split; [right; left; reflexivity|eauto].
  - step H. step H. destruct (is_name a) as [b|] eqn:NM.
    + pose proof (is_name_ok _ _ _ _ _ TA E NM E0) as ->. destruct a1; cbn [negb] in H.
      * step H. destruct (negb _); [injection H as <- <- <-; exists (Some j); split; [left; reflexivity|exact NS]|].
        step H. injection H as <- <- <-. exists (Some (S j)). split; [right; left; reflexivity|eauto].
      * injection H as <- <- <-. exists (Some j). split; [left; reflexivity|exact NS].
    + destruct (negb a1); [injection H as <- <- <-; exists (Some j); split; [left; reflexivity|exact NS]|].
      step H. destruct (negb _); [injection H as <- <- <-; exists (Some j); split; [left; reflexivity|exact NS]|].
      step H. injection H as <- <- <-. exists (Some (S j)). split; [right; left; reflexivity|eauto].
  - step H. step H. destruct (is_name a) as [b|] eqn:NM.
    + pose proof (is_name_ok _ _ _ _ _ TA E NM E0) as ->. destruct a1; cbn [negb] in H.
      * step H. injection H as <- <- <-. exists (Some (S j)). split; [left; reflexivity|eauto].
      * injection H as <- <- <-. exists (Some j). split; [left; reflexivity|exact NS].
    + destruct (negb a1); [injection H as <- <- <-; exists (Some j); split; [left; reflexivity|exact NS]|].
      step H. injection H as <- <- <-. exists (Some (S j)). split; [right; left; reflexivity|eauto].
  - step3 H m1 t1 s1. injection H as <- <- <-. destruct (IH _ _ _ _ _ _ _ _ _ RS FP NA NS E) as (q & I & NQ). exists q. split; [|exact NQ].
    apply in_map_iff. eexists. split; [|exact I]. reflexivity.
  - step3 H m1 t1 s1. injection H as <- <- <-. destruct (IH _ _ _ _ _ _ _ _ _ RS FP NA NS E) as (q & I & NQ). exists q. split; [|exact NQ].
    apply nubo_in, in_map_iff. eexists. split; [|exact I]. reflexivity.
  - step H. injection H as <- <- <-. exists (Some j). split; [|exact NS]. destruct (is_kind a t0) as [b|] eqn:K.
    + rewrite (is_kind_ok _ _ _ _ _ TA E K). left. reflexivity.
    + destruct (_ =? _)%Z; [left|right; left]; reflexivity.
  - step2 H o s1. destruct (acall_ok _ _ HF IH _ _ _ _ _ _ _ _ _ RS FP NA NS E) as (m1 & q & I & NQ). destruct o as [o|].
    + injection H as <- <- <-. exists q. split; [|exact NQ]. apply nubo_in, in_map_iff. eexists. split; [|exact I]. reflexivity.
    + injection H as <- <- <-. exists (Some j). split; [|].
      * apply nubo_in, in_map_iff. eexists. split; [|exact I]. reflexivity.
      * split; [eapply same_trans; [apply NS|exact FR]|]. cbn. apply NS.
  - step3 H m1 k1 s1. destruct (aseq_ok _ _ HF IH s0 pre ps RS FP (Some j) _ _ _ _ _ NS E) as (q & I & NQ). destruct m1.
    + step H. injection H as <- <- <-. exists q. split; [|exact NQ]. apply nubo_in, in_map_iff. eexists. split; [|exact I]. reflexivity.
    + injection H as <- <- <-. exists (Some j). split; [|].
      * apply nubo_in, in_map_iff. eexists. split; [|exact I]. reflexivity.
      * split; [eapply same_trans; [apply NS|exact FR]|]. cbn. apply NS.
  - step2 H k1 s1. step H. injection H as <- <- <-. destruct (astar_ok _ _ HF IH s0 pre p RS FP n N (Some j) _ _ _ _ NS E) as (q & I & NQ).
    exists q. split; [|exact NQ]. apply in_map_iff. eexists. split; [|exact I]. reflexivity.
  - step3 H m1 t1 s1. destruct (IH _ _ _ _ _ _ _ _ _ RS FP NA NS E) as (q & I & NQ). exists q.
    destruct t1; [step H|]; injection H as <- <- <-; (split; [exact I|exact NQ]).
  - step H. destruct (is_kind a t0) as [b|] eqn:K.
    + rewrite (is_kind_ok _ _ _ _ _ TA E K) in H. destruct b; cbn [negb] in H.
      * step H. injection H as <- <- <-. exists (Some (S j)). split; [left; reflexivity|eauto].
      * injection H as <- <- <-. exists (Some j). split; [left; reflexivity|exact NS].
    + destruct (negb _); [injection H as <- <- <-; exists (Some j); split; [left; reflexivity|exact NS]|].
      step H. injection H as <- <- <-. exists (Some (S j)). split; [right; left; reflexivity|eauto].
Qed.
Lemma can_ok n N r s t s' pre : real s -> pos s = s_beg s -> fits pre s -> parse_rule grammar exts n r s = Done (Some t, s') -> can ab pre N r = true.
Proof using Hexts Hab.
  intros RS P FP H. unfold can. destruct pre as [|a pre]; [reflexivity|].
  destruct (acall_ok (run grammar exts n) (arun ab N) (run_frame grammar exts Hexts n) (arun_ok n N) s (a :: pre) n r 0 a s (Some t) s' RS FP eq_refl) as (m & q & I & _).
  - split; [apply same_refl|]. lia.
  - exact H.
  - apply existsb_exists. eexists. split; [exact I|reflexivity].
Qed.

(** ** Two parsers *)
Lemma fits_next s pre : real s -> fits pre s -> the_end pre = None -> exists a, In a next_toks /\ fits (pre ++ [a]) s.
Proof using.
  intros RS FP NE. assert (L : s_beg s + length pre <= s_end s).
  { clear - RS FP NE. destruct RS as (R & _). assert (X : forall k, k <= length pre -> s_beg s + k <= s_end s).
    { induction k as [|k IH]; intros LK; [lia|]. destruct (nth_error pre k) as [a|] eqn:E; [|apply nth_error_None in E; lia].
      specialize (FP _ _ E). assert (a <> End).
      { intros ->. clear - NE E. revert k E. induction pre as [|b l IH]; intros k E; [destruct k; discriminate|].
        destruct b; cbn [the_end] in NE; try discriminate; (destruct k as [|k]; [discriminate|]; cbn in E; destruct (the_end l); [discriminate|eauto]). }
      destruct a; cbn [tok_at] in FP; [lia|lia|congruence]. }
    apply X. reflexivity. }
  assert (EX : forall a, tok_at s (s_beg s + length pre) a -> fits (pre ++ [a]) s).
  { intros a TA k c NK. destruct (Nat.lt_ge_cases k (length pre)) as [LK|LK].
    - rewrite nth_error_app1 in NK by exact LK. exact (FP _ _ NK).
    - rewrite nth_error_app2 in NK by exact LK. destruct (k - length pre) as [|n] eqn:KS; cbn in NK; [|destruct n; discriminate].
      injection NK as <-. replace k with (length pre) by lia. exact TA. }
  destruct (Nat.eq_dec (s_beg s + length pre) (s_end s)) as [EQ|NQ].
  - exists End. split; [left; reflexivity|]. apply EX. exact EQ.
  - destruct (nth_error (frags s) (s_beg s + length pre)) as [tk|] eqn:E; [|apply nth_error_None in E; destruct RS as (_ & R & _); lia].
    destruct (in_dec Z.eq_dec (tok tk) kinds) as [I|NI].
    + exists (Tag (tok tk)). split; [|apply EX; cbn [tok_at]; split; [lia|eauto]].
      assert (NB : tok tk <> BAD). { destruct RS as (_ & _ & RS). apply (RS (s_beg s + length pre)); [lia|lia|exact E]. }
      clear - I NB. generalize dependent (tok tk). intros z I NB. right. right. right.
      assert (X : In (Tag z) (map Tag (filter (fun t => negb (t =? BAD)%Z) kinds))).
      { apply in_map, filter_In. split; [exact I|]. apply negb_true_iff, Z.eqb_neq. exact NB. }
      exact X.
    + exists (Other (match is_name_tag (tok tk) with Ok b => b | _ => false end)). split; [destruct (is_name_tag (tok tk)) as [[]| |]; unfold next_toks; cbn [In]; auto|].
      apply EX. cbn [tok_at]. split; [lia|]. exists tk. split; [exact E|]. split; [exact NI|]. intros b ->. reflexivity.
Qed.
Lemma clash_ok k : forall N pre r1 r2 n1 n2 s t1 s1 t2 s2, real s -> pos s = s_beg s -> fits pre s -> clash ab N k pre r1 r2 = [] ->
  parse_rule grammar exts n1 r1 s = Done (Some t1, s1) -> parse_rule grammar exts n2 r2 s = Done (Some t2, s2) -> False.
Proof using Hexts Hab.
  induction k as [|k IH]; intros N pre r1 r2 n1 n2 s t1 s1 t2 s2 RS P FP C H1 H2; cbn [clash] in C;
    rewrite (can_ok _ N _ _ _ _ _ RS P FP H1), (can_ok _ N _ _ _ _ _ RS P FP H2) in C; (destruct (the_end pre) eqn:TE; [discriminate|]); [discriminate|].
  destruct (fits_next _ _ RS FP TE) as (a & I & FA). apply (IH N (pre ++ [a]) r1 r2 n1 n2 s t1 s1 t2 s2 RS P FA); [|exact H1|exact H2].
  destruct (clash ab N k (pre ++ [a]) r1 r2) as [|x l] eqn:E; [reflexivity|]. exfalso.
  assert (X : In x (flat_map (fun a => clash ab N k (pre ++ [a]) r1 r2) next_toks)). { apply in_flat_map. exists a. split; [exact I|]. rewrite E. left. reflexivity. }
  rewrite C in X. exact X.
Qed.
Lemma all_pre_ok k : forall N pre r n s t s' test, real s -> pos s = s_beg s -> fits pre s -> all_pre ab N k r test pre = true ->
  parse_rule grammar exts n r s = Done (Some t, s') -> exists pre', fits pre' s /\ test pre' = true /\ (the_end pre' <> None \/ length pre' = length pre + k).
Proof using Hexts Hab.
  induction k as [|k IH]; intros N pre r n s t s' test RS P FP C H; cbn [all_pre] in C; rewrite (can_ok _ N _ _ _ _ _ RS P FP H) in C.
  - exists pre. split; [exact FP|]. destruct (the_end pre); (split; [exact C|]); right; lia.
  - destruct (the_end pre) eqn:TE.
    + exists pre. split; [exact FP|]. split; [exact C|]. left. congruence.
    + destruct (fits_next _ _ RS FP TE) as (a & I & FA). rewrite forallb_forall in C. specialize (C a I).
      destruct (IH _ _ _ _ _ _ _ _ RS P FA C H) as (pre' & F' & T' & L'). exists pre'. split; [exact F'|]. split; [exact T'|].
      destruct L' as [L'|L']; [left; exact L'|right]. rewrite L', app_length. cbn. lia.
Qed.
End Sound.
