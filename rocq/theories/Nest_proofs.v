(** Properly nested parentheses. *)
From Verif Require Import Base Base_lemmas Tags Token TTStream TTStream_spec TTStream_proofs StmtRules Peg Peg_spec PegSafe_proofs.
Local Open Scope nat_scope.

Lemma level_app o c l1 l2 : level o c (l1 ++ l2) = (level o c l1 + level o c l2)%Z.
Proof. induction l1 as [|t l1 IH]; cbn [app level]; [lia|]. rewrite IH. lia. Qed.
Lemma level2_app l1 l2 : level2 (l1 ++ l2) = (level2 l1 + level2 l2)%Z.
Proof. unfold level2. rewrite !level_app. lia. Qed.
Lemma level_rev o c l : level o c (rev l) = level o c l.
Proof. induction l as [|t l IH]; [reflexivity|]. cbn [rev]. rewrite level_app, IH. cbn [level]. lia. Qed.
Lemma level_swap o c l : o <> c -> level o c l = (- level c o l)%Z.
Proof.
  intro H. induction l as [|t l IH]; [reflexivity|]. cbn [level]. rewrite IH.
  destruct (Z.eqb_spec (tok t) o), (Z.eqb_spec (tok t) c); try lia.
Qed.
Lemma plevel_tok t : is_open (tok t) = false -> is_close (tok t) = false -> forall l, level TK_PARENL TK_PARENR (t :: l) = level TK_PARENL TK_PARENR l.
Proof.
  unfold is_open, is_close. intros H1 H2 l. apply orb_false_iff in H1, H2. cbn [level].
  destruct H1 as (-> & _). destruct H2 as (-> & _). lia.
Qed.
Lemma plevel_paren a l b r : tok a = TK_PARENL -> tok b = TK_PARENR ->
  level TK_PARENL TK_PARENR (a :: l ++ b :: r) = (level TK_PARENL TK_PARENR l + level TK_PARENL TK_PARENR r)%Z.
Proof.
  intros Ha Hb. cbn [level]. rewrite level_app. cbn [level]. rewrite Ha, Hb. rewrite !Z.eqb_refl.
  change (TK_PARENR =? TK_PARENL)%Z with false. cbn iota. lia.
Qed.
Lemma plevel_bracket a l b r : tok a = TK_BRACKETL -> tok b = TK_BRACKETR ->
  level TK_PARENL TK_PARENR (a :: l ++ b :: r) = (level TK_PARENL TK_PARENR l + level TK_PARENL TK_PARENR r)%Z.
Proof.
  intros Ha Hb. cbn [level]. rewrite level_app. cbn [level]. rewrite Ha, Hb.
  change (TK_BRACKETR =? TK_PARENL)%Z with false. change (TK_BRACKETL =? TK_PARENL)%Z with false.
  change (TK_BRACKETR =? TK_PARENR)%Z with false. change (TK_BRACKETL =? TK_PARENR)%Z with false. cbn iota. lia.
Qed.
Lemma level2_pair a l b r : is_open (tok a) = true -> is_open (tok b) = false -> is_close (tok b) = true ->
  level2 (a :: l ++ b :: r) = (level2 l + level2 r)%Z.
Proof. intros H1 H2 H3. rewrite level2_cons, level2_app, level2_cons, H1, H2, H3. lia. Qed.
Lemma nested_level l : nested l -> level TK_PARENL TK_PARENR l = 0%Z /\ level2 l = 0%Z.
Proof.
  induction 1 as [|t l H1 H2 H (I1 & I2)|a l b r Ha Hb Hl (I1 & I2) Hr (J1 & J2)|a l b r Ha Hb Hl (I1 & I2) Hr (J1 & J2)].
  - split; reflexivity.
  - rewrite plevel_tok, level2_cons, H1, H2 by assumption. split; lia.
  - rewrite plevel_paren by assumption. rewrite level2_pair by (rewrite ?Ha, ?Hb; reflexivity). split; lia.
  - rewrite plevel_bracket by assumption. rewrite level2_pair by (rewrite ?Ha, ?Hb; reflexivity). split; lia.
Qed.
(** cutting a :: l ++ b :: r *)
Lemma cut3 (A : Type) (a b : A) l r u v : a :: l ++ b :: r = u ++ v ->
  (u = [] /\ v = a :: l ++ b :: r) \/
  (exists u1 v1, u = a :: u1 /\ l = u1 ++ v1 /\ v = v1 ++ b :: r) \/
  (exists u1, u = a :: l ++ b :: u1 /\ r = u1 ++ v).
Proof.
  destruct u as [|x u]; cbn [app]; intro H; [left; auto|]. right. injection H as <- H.
  apply app_eq_app in H. destruct H as (w & [(H1 & H2)|(H1 & H2)]).
  - left. exists u, w. subst. auto.
  - destruct w as [|y w].
    + cbn in H2. subst. left. exists l, []. rewrite !app_nil_r. auto.
    + injection H2 as <- ->. right. exists w. subst. auto.
Qed.
Lemma nested_closed l : nested l -> closed l.
Proof.
  induction 1 as [|t l H1 H2 H IH|a l b r Ha Hb Hl IHl Hr IHr|a l b r Ha Hb Hl IHl Hr IHr]; intros u v E.
  - symmetry in E. apply app_eq_nil in E. destruct E as (-> & ->). cbn. lia.
  - destruct u as [|x u]; cbn [app] in E.
    + subst v. destruct (nested_level _ (nest_tok t l H1 H2 H)) as (-> & ->). lia.
    + injection E as <- E. eauto.
  - apply cut3 in E. destruct E as [(-> & ->)|[(u1 & v1 & -> & -> & ->)|(u1 & -> & ->)]].
    + destruct (nested_level _ (nest_paren _ _ _ _ Ha Hb Hl Hr)) as (-> & ->). lia.
    + destruct (IHl _ _ eq_refl) as (I1 & I2). destruct (nested_level _ Hr) as (J1 & J2).
      rewrite level_app, level2_app, level2_cons. cbn [level]. rewrite Hb. change (TK_PARENR =? TK_PARENL)%Z with false.
      rewrite Z.eqb_refl. change (is_open TK_PARENR) with false. change (is_close TK_PARENR) with true. cbn iota. lia.
    + eapply IHr. reflexivity.
  - apply cut3 in E. destruct E as [(-> & ->)|[(u1 & v1 & -> & -> & ->)|(u1 & -> & ->)]].
    + destruct (nested_level _ (nest_bracket _ _ _ _ Ha Hb Hl Hr)) as (-> & ->). lia.
    + destruct (IHl _ _ eq_refl) as (I1 & I2). destruct (nested_level _ Hr) as (J1 & J2).
      rewrite level_app, level2_app, level2_cons. cbn [level]. rewrite Hb. change (TK_BRACKETR =? TK_PARENL)%Z with false.
      change (TK_BRACKETR =? TK_PARENR)%Z with false. change (is_open TK_BRACKETR) with false. change (is_close TK_BRACKETR) with true. cbn iota. lia.
    + eapply IHr. reflexivity.
Qed.
Lemma closed_suffix u l : closed (u ++ l) -> closed l.
Proof. intros H x y ->. apply (H (u ++ x) y). rewrite app_assoc. reflexivity. Qed.
(** the last token and its partner *)
Lemma nested_snoc l : nested l -> l = [] \/
  (exists x t, l = x ++ [t] /\ is_open (tok t) = false /\ is_close (tok t) = false /\ nested x) \/
  (exists y a w c, l = y ++ a :: w ++ [c] /\ tok a = TK_PARENL /\ tok c = TK_PARENR /\ nested y /\ nested w) \/
  (exists y a w c, l = y ++ a :: w ++ [c] /\ tok a = TK_BRACKETL /\ tok c = TK_BRACKETR /\ nested y /\ nested w).
Proof.
  induction 1 as [|t l H1 H2 H IH|a l b r Ha Hb Hl IHl Hr IHr|a l b r Ha Hb Hl IHl Hr IHr]; [auto| | |]; right.
  - destruct IH as [->|[(x & t1 & -> & T1 & T2 & T3)|[(y & a & w & c & -> & Y1 & Y2 & Y3 & Y4)|(y & a & w & c & -> & Y1 & Y2 & Y3 & Y4)]]].
    + left. exists [], t. auto using nest_nil.
    + left. exists (t :: x), t1. repeat split; auto. constructor; auto.
    + right; left. exists (t :: y), a, w, c. repeat split; auto. constructor; auto.
    + right; right. exists (t :: y), a, w, c. repeat split; auto. constructor; auto.
  - destruct IHr as [->|[(x & t1 & -> & T1 & T2 & T3)|[(y & a1 & w & c & -> & Y1 & Y2 & Y3 & Y4)|(y & a1 & w & c & -> & Y1 & Y2 & Y3 & Y4)]]].
    + right; left. exists [], a, l, b. repeat split; auto using nest_nil.
    + left. exists (a :: l ++ b :: x), t1. repeat split; auto; [cbn; rewrite <- app_assoc; reflexivity|]. apply nest_paren; auto.
    + right; left. exists (a :: l ++ b :: y), a1, w, c. repeat split; auto; [cbn; rewrite <- app_assoc; reflexivity|]. apply nest_paren; auto.
    + right; right. exists (a :: l ++ b :: y), a1, w, c. repeat split; auto; [cbn; rewrite <- app_assoc; reflexivity|]. apply nest_paren; auto.
  - destruct IHr as [->|[(x & t1 & -> & T1 & T2 & T3)|[(y & a1 & w & c & -> & Y1 & Y2 & Y3 & Y4)|(y & a1 & w & c & -> & Y1 & Y2 & Y3 & Y4)]]].
    + right; right. exists [], a, l, b. repeat split; auto using nest_nil.
    + left. exists (a :: l ++ b :: x), t1. repeat split; auto; [cbn; rewrite <- app_assoc; reflexivity|]. apply nest_bracket; auto.
    + right; left. exists (a :: l ++ b :: y), a1, w, c. repeat split; auto; [cbn; rewrite <- app_assoc; reflexivity|]. apply nest_bracket; auto.
    + right; right. exists (a :: l ++ b :: y), a1, w, c. repeat split; auto; [cbn; rewrite <- app_assoc; reflexivity|]. apply nest_bracket; auto.
Qed.
(** going back from the last ")" to its partner leaves something nested *)
Lemma nested_matched_group a w c : tok a = TK_PARENL -> tok c = TK_PARENR -> nested w ->
  forall j, 0 < j < S (S (length w)) -> (0 < level TK_PARENR TK_PARENL (firstn j (c :: rev w ++ [a])))%Z.
Proof.
  intros Ha Hc Hw j Hj. destruct j as [|j]; [lia|]. cbn [firstn level]. rewrite Hc, Z.eqb_refl.
  change (TK_PARENR =? TK_PARENL)%Z with false. rewrite firstn_app. replace (j - length (rev w)) with 0 by (rewrite rev_length; lia).
  cbn [firstn]. rewrite app_nil_r. rewrite firstn_rev, level_rev, level_swap by discriminate.
  destruct (nested_closed _ Hw (firstn (length w - j) w) (skipn (length w - j) w)) as (X & _); [symmetry; apply firstn_skipn|]. lia.
Qed.
Lemma nested_back l k : nested l -> matched TK_PARENR TK_PARENL (rev l) k -> tok (last l default_token) = TK_PARENR ->
  nested (firstn (length l - k) l).
Proof.
  intros Hn (Hk & Hz & Hj) Hl. apply nested_snoc in Hn.
  destruct Hn as [->|[(x & t & -> & T1 & T2 & T3)|[(y & a & w & c & -> & Y1 & Y2 & Y3 & Y4)|(y & a & w & c & -> & Y1 & Y2 & Y3 & Y4)]]].
  - cbn in Hk. lia.
  - rewrite last_last in Hl. rewrite Hl in T2. discriminate.
  - assert (HR : rev (y ++ a :: w ++ [c]) = (c :: rev w ++ [a]) ++ rev y).
    { rewrite rev_app_distr. cbn [rev]. rewrite rev_app_distr. cbn [rev app]. rewrite <- !app_assoc. reflexivity. }
    rewrite HR in *.
    assert (HK : k = S (S (length w))).
    { destruct (lt_eq_lt_dec k (S (S (length w)))) as [[L|]|L]; [|assumption|]; exfalso.
      - pose proof (nested_matched_group a w c Y1 Y2 Y4 k ltac:(lia)) as X. rewrite firstn_app in Hz.
        replace (k - length (c :: rev w ++ [a])) with 0 in Hz by (cbn [length]; rewrite app_length, rev_length; cbn [length]; lia).
        cbn [firstn] in Hz. rewrite app_nil_r in Hz. cbn [firstn] in X, Hz. lia.
      - specialize (Hj (S (S (length w))) ltac:(lia)). rewrite firstn_app in Hj.
        replace (S (S (length w)) - length (c :: rev w ++ [a])) with 0 in Hj by (cbn [length]; rewrite app_length, rev_length; cbn [length]; lia).
        rewrite firstn_O, app_nil_r in Hj.
        rewrite firstn_all2 in Hj by (cbn [length]; rewrite app_length, rev_length; cbn [length]; lia).
        cbn [level] in Hj. rewrite level_app, level_rev, level_swap in Hj by discriminate.
        destruct (nested_level _ Y4) as (Z1 & _). rewrite Z1 in Hj. cbn [level] in Hj. rewrite Y1, Y2 in Hj. cbn in Hj. lia. }
    subst k. rewrite app_length. cbn [length]. rewrite app_length. cbn [length].
    replace (length y + S (length w + 1) - S (S (length w))) with (length y) by lia.
    rewrite firstn_app, firstn_all, Nat.sub_diag. cbn [firstn]. rewrite app_nil_r. exact Y3.
  - change (y ++ a :: w ++ [c]) with (y ++ (a :: w) ++ [c]) in Hl. rewrite app_assoc, last_last in Hl. rewrite Y2 in Hl. vm_compute in Hl. discriminate Hl.
Qed.
