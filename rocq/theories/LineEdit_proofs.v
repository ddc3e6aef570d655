From Verif Require Import Base Tags FileLine LogicalFile Peg Lexer Token LogicalLine Stmts Stmts_spec Stmts_proofs LineAccum_spec LineAccum_proofs Smash_spec Lexer_spec LexPos_spec LexPos_proofs FileEdit2_proofs LineEdit LineEdit_spec.
Local Open Scope nat_scope.

(** * Lists *)
Lemma slice_ext : forall A (l1 l2 : list A) k a, (forall j, a <= j < a + k -> nth_error l1 j = nth_error l2 j) ->
  firstn k (skipn a l1) = firstn k (skipn a l2).
Proof.
  intros A l1 l2 k. revert l1 l2. induction k as [|k IH]; intros l1 l2 a H; [reflexivity|].
  assert (D : forall l : list A, skipn a l = match nth_error l a with Some x => x :: skipn (S a) l | None => [] end).
  { clear. induction a as [|a IH]; intros [|x l]; try reflexivity. cbn [skipn nth_error]. rewrite IH. destruct (nth_error l a); reflexivity. }
  rewrite (D l1), (D l2), (H a) by lia. destruct (nth_error l2 a); [|reflexivity]. cbn [firstn]. f_equal. apply IH. intros. apply H. lia.
Qed.
Lemma skip_ext : forall A (l1 l2 : list A) a, length l1 = length l2 -> (forall j, a <= j -> nth_error l1 j = nth_error l2 j) ->
  skipn a l1 = skipn a l2.
Proof.
  intros A l1 l2 a E H. rewrite <- (firstn_all (skipn a l1)), <- (firstn_all (skipn a l2)), !skipn_length, E.
  apply slice_ext. intros. apply H. lia.
Qed.

Lemma skip_skip : forall A (l : list A) a b, skipn a (skipn b l) = skipn (b + a) l.
Proof. intros A l a b. revert l. induction b as [|b IH]; intros [|x l]; cbn; auto. destruct a; reflexivity. Qed.

Lemma get_fl_ok : forall l i f, nth_error l i = Some f -> get_fl l (Z.of_nat i) = Ok f.
Proof. intros l i f H. unfold get_fl. destruct (Z.ltb_spec (Z.of_nat i) 0); [lia|]. rewrite Nat2Z.id, H. reflexivity. Qed.
Lemma set_fl_mid : forall p f q g i, length p = i -> set_fl (p ++ f :: q) (Z.of_nat i) g = p ++ g :: q.
Proof.
  intros p f q g i <-. unfold set_fl. rewrite Nat2Z.id. rewrite firstn_app, firstn_all, Nat.sub_diag. cbn [firstn]. rewrite app_nil_r.
  f_equal. f_equal. change (p ++ f :: q) with (p ++ [f] ++ q). rewrite app_assoc, skipn_app, app_length. cbn [length].
  rewrite (Nat.add_1_r (length p)), Nat.sub_diag, skipn_all2; [reflexivity|]. rewrite app_length. cbn [length]. lia.
Qed.
Lemma nth_error_mid : forall A (p : list A) f q, nth_error (p ++ f :: q) (length p) = Some f.
Proof. intros. rewrite nth_error_app2, Nat.sub_diag by lia. reflexivity. Qed.

Lemma splice_ok : forall l i c n t, inside l (i, c + n) ->
  exists l2, upd_main l (Z.of_nat i) (str_replace (Z.of_nat c) n t) = Ok l2 /\ spliced l l2 i c n t.
Proof.
  intros l i c n t [H1 H2]. cbn [fst snd] in *. destruct (nth_error l i) as [f|] eqn:E; [|apply nth_error_None in E; lia].
  destruct (nth_error_split _ _ E) as (p & q & -> & Hp).
  assert (M : main_of (p ++ f :: q) i = main_txt f).
  { unfold main_of. rewrite <- Hp, map_app, app_nth2; rewrite map_length; [|lia]. rewrite Nat.sub_diag. reflexivity. }
  rewrite M in H2. unfold upd_main. rewrite (get_fl_ok _ _ _ E). cbn [bind]. unfold str_replace.
  destruct (Z.ltb_spec (Z.of_nat c) 0); [lia|]. rewrite Nat2Z.id. destruct (Nat.leb_spec c (length (main_txt f))); [|lia].
  cbn [bind]. eexists. split; [reflexivity|]. rewrite (set_fl_mid _ _ _ _ _ Hp).
  eexists p, f, q, _. split; [reflexivity|]. split; [reflexivity|]. split; [exact Hp|]. cbn. auto 10.
Qed.

(** * The text after a splice *)
Section Splice.
  Variables (l1 l2 : list File_Line) (i c n : nat) (t : str).
  Hypothesis Sp : spliced l1 l2 i c n t.
  Hypothesis In1 : c + n <= length (main_of l1 i).

  Lemma sp_len : length l2 = length l1.
  Proof using Sp. clear In1. destruct Sp as (p & f & q & g & -> & -> & _). rewrite !app_length. reflexivity. Qed.
  Lemma sp_other : forall j, j <> i -> nth_error (map main_txt l2) j = nth_error (map main_txt l1) j.
  Proof using Sp. clear In1.
    intros j H. destruct Sp as (p & f & q & g & -> & -> & Hp & _). rewrite !map_app. cbn [map].
    destruct (Nat.lt_ge_cases j i).
    - rewrite !nth_error_app1 by (rewrite map_length; lia). reflexivity.
    - rewrite !nth_error_app2 by (rewrite map_length; lia). rewrite map_length. replace (j - length p) with (S (j - length p - 1)) by lia. reflexivity.
  Qed.
  Lemma sp_main_other : forall j, j <> i -> main_of l2 j = main_of l1 j.
  Proof using Sp. clear In1.
    intros j H. unfold main_of. pose proof (sp_other j H) as X.
    destruct (nth_error (map main_txt l1) j) eqn:E.
    - erewrite !nth_error_nth; eauto.
    - rewrite !nth_overflow; auto; apply nth_error_None; auto.
  Qed.
  Lemma sp_main : main_of l2 i = firstn c (main_of l1 i) ++ t ++ skipn (c + n) (main_of l1 i).
  Proof using Sp. clear In1.
    destruct Sp as (p & f & q & g & -> & -> & Hp & M & _).
    assert (X : forall h, main_of (p ++ h :: q) i = main_txt h).
    { intros h. unfold main_of. rewrite map_app, app_nth2; rewrite map_length; [|lia]. rewrite Hp, Nat.sub_diag. reflexivity. }
    rewrite !X. exact M.
  Qed.
  Lemma sp_main_len : length (main_of l2 i) + n = length (main_of l1 i) + length t.
  Proof using Sp In1. rewrite sp_main, !app_length, firstn_length, skipn_length. lia. Qed.

  (* up to column c nothing changes *)
  Lemma sp_first : forall k, k <= c -> firstn k (main_of l2 i) = firstn k (main_of l1 i).
  Proof using Sp In1.
    intros k H. rewrite sp_main, firstn_app, firstn_length, firstn_firstn, (Nat.min_l c) by lia.
    rewrite (Nat.min_l k c) by lia. replace (k - c) with 0 by lia. cbn [firstn]. apply app_nil_r.
  Qed.
  Lemma sp_rest : forall k, c + n <= k -> skipn (k + length t - n) (main_of l2 i) = skipn k (main_of l1 i).
  Proof using Sp In1.
    intros k H. rewrite sp_main, skipn_app, firstn_length, skipn_all2 by (rewrite firstn_length; lia).
    rewrite Nat.min_l by lia. cbn [app]. rewrite skipn_app, skipn_all2 by lia. cbn [app].
    rewrite skip_skip. f_equal. lia.
  Qed.

  Lemma before_text : forall a b, before a b -> before b (i, c) -> between l2 a b = between l1 a b.
  Proof using Sp In1.
    intros [ai ac] [bi bc] A B. unfold between, before in *. cbn [fst snd] in *.
    destruct (Nat.eqb_spec ai bi) as [->|N].
    - destruct (Nat.eq_dec bi i) as [->|N'].
      + rewrite <- !skipn_firstn_comm. f_equal. apply sp_first. lia.
      + rewrite !sp_main_other by auto. reflexivity.
    - rewrite (sp_main_other ai) by lia. f_equal. f_equal.
      + f_equal. apply slice_ext. intros j Hj. apply sp_other. lia.
      + destruct (Nat.eq_dec bi i) as [->|N']; [apply sp_first; lia|rewrite sp_main_other; auto].
  Qed.
  Lemma after_text : forall a b, i < fst a -> before a b -> between l2 a b = between l1 a b.
  Proof using Sp. clear In1.
    intros [ai ac] [bi bc] A B. unfold between, before in *. cbn [fst snd] in *.
    rewrite !sp_main_other by lia. destruct (Nat.eqb ai bi); [reflexivity|]. f_equal. f_equal. f_equal.
    apply slice_ext. intros j Hj. apply sp_other. lia.
  Qed.
  (* a place on the edited line, after the edit *)
  Definition moved (k : nat) : nat := k + length t - n.
  Lemma line_text : forall k m, c + n <= k -> k <= m -> between l2 (i, moved k) (i, moved m) = between l1 (i, k) (i, m).
  Proof using Sp In1.
    intros k m H1 H2. unfold between. cbn [fst snd]. rewrite Nat.eqb_refl. unfold moved. rewrite sp_rest by lia. f_equal. lia.
  Qed.
  Lemma line_on_text : forall k b, c + n <= k -> i < fst b -> between l2 (i, moved k) b = between l1 (i, k) b.
  Proof using Sp In1.
    intros k [bi bc] H1 H2. unfold between. cbn [fst snd] in *. destruct (Nat.eqb_spec i bi); [lia|].
    unfold moved. rewrite sp_rest by lia. rewrite sp_main_other by lia. f_equal. f_equal. f_equal.
    apply slice_ext. intros j Hj. apply sp_other. lia.
  Qed.
  Lemma new_text : between l2 (i, c) (i, c + length t) = t.
  Proof using Sp In1.
    unfold between. cbn [fst snd]. rewrite Nat.eqb_refl, sp_main, skipn_app, firstn_length, Nat.min_l by lia.
    rewrite skipn_all2 by (rewrite firstn_length; lia). rewrite Nat.sub_diag. cbn [app skipn].
    replace (c + length t - c) with (length t) by lia. rewrite firstn_app, firstn_all, Nat.sub_diag. cbn [firstn]. apply app_nil_r.
  Qed.

  Lemma inside_other : forall a, fst a <> i -> inside l1 a -> inside l2 a.
  Proof using Sp. clear In1. intros a N [H1 H2]. split; [rewrite sp_len; exact H1|]. rewrite sp_main_other; auto. Qed.
  Lemma inside_first : forall a, before a (i, c) -> inside l1 a -> inside l2 a.
  Proof using Sp In1.
    intros a [N|[N1 N2]] [H1 H2]; cbn [fst snd] in *; [apply inside_other; [lia|split; auto]|].
    split; [rewrite sp_len; exact H1|]. rewrite N1 in *. pose proof sp_main_len. lia.
  Qed.
  Lemma inside_moved : forall k, c + n <= k -> inside l1 (i, k) -> inside l2 (i, moved k).
  Proof using Sp In1.
    intros k H [H1 H2]. cbn [fst snd] in *. split; cbn [fst snd]; [rewrite sp_len; exact H1|]. pose proof sp_main_len. unfold moved. lia.
  Qed.

  Lemma stands_before : forall x a b, stands l1 x a b -> before b (i, c) -> stands l2 x a b.
  Proof using Sp In1.
    intros x a b (A1 & A2 & A3 & A4 & A5 & A6 & A7 & A8 & A9) B.
    assert (before a (i, c)) by (unfold before in *; cbn [fst snd] in *; lia).
    repeat (split; [first [assumption|apply inside_first; assumption]|]). assumption.
  Qed.
  Lemma stands_after : forall x a b, stands l1 x a b -> i < fst a -> stands l2 x a b.
  Proof using Sp. clear In1.
    intros x a b (A1 & A2 & A3 & A4 & A5 & A6 & A7 & A8 & A9) B.
    assert (i < fst b) by (unfold before in *; lia).
    repeat (split; [first [assumption|apply inside_other; [lia|assumption]]|]). assumption.
  Qed.

  (* the place of a token after the edit *)
  Definition move_spot (a : spot) : spot := if fst a =? i then (i, moved (snd a)) else a.
  Definition d : Z := (zlen t - Z.of_nat n)%Z.
  Lemma laid_before : forall l a sp e, laid l1 a l sp -> (forall u, In u sp -> before (snd u) e) -> before e (i, c) -> laid l2 a l sp.
  Proof using Sp In1.
    induction l as [|x l IH]; intros a [|[b q] sp] e H B E; cbn [laid] in *; auto.
    destruct H as (H1 & H2 & H3). split; [exact H1|]. split.
    - apply stands_before; [exact H2|]. specialize (B _ (or_introl eq_refl)). unfold before in *. cbn [fst snd] in *. lia.
    - eapply IH; eauto. intros u Hu. apply B. right. exact Hu.
  Qed.
  Lemma laid_after : forall l a sp, laid l1 a l sp -> i < fst a -> laid l2 a l sp /\ (forall u, In u sp -> i < fst (fst u) /\ i < fst (snd u) /\ before (fst u) (snd u)).
  Proof using Sp. clear In1.
    induction l as [|x l IH]; intros a [|[b q] sp] H E; cbn [laid] in *; try tauto; [split; auto; intros u []|].
    destruct H as (H1 & H2 & H3). assert (i < fst b) by (unfold before in *; lia).
    assert (X : before b q) by apply H2. assert (i < fst q) by (unfold before in *; lia).
    destruct (IH _ _ H3 ltac:(assumption)) as [J1 J2]. split.
    - split; [exact H1|]. split; [apply stands_after; auto|exact J1].
    - intros u [<-|Hu]; [cbn [fst snd]; auto|auto].
  Qed.

  Lemma stands_moved : forall x k b, stands l1 x (i, k) b -> c + n <= k ->
    exists x', stands l2 x' (i, moved k) (move_spot b) /\ same_but_cols x' x /\ (end_right x b -> end_right x' (move_spot b)) /\
      between l2 (i, moved k) (move_spot b) = between l1 (i, k) b /\
      (forall r r', shift_line (Z.of_nat i) d r = Ok r' -> shift_line (Z.of_nat i) d (x :: r) = Ok (x' :: r')).
  Proof using Sp In1.
    intros x k [bi bc] (A1 & A2 & A3 & A4 & A5 & A6 & A7 & A8 & A9) Hk. cbn [fst snd] in *.
    destruct (mt_ec x) as [ec|] eqn:EC; [|congruence].
    assert (DE : (Z.of_nat k + d = Z.of_nat (moved k))%Z).
    { unfold moved, d, zlen. destruct A6. cbn [fst snd] in *. lia. }
    unfold move_spot. cbn [fst snd]. destruct (Nat.eqb_spec bi i) as [->|N].
    - assert (DE2 : (Z.of_nat bc + d = Z.of_nat (moved bc))%Z).
      { specialize (A8 eq_refl). unfold moved, d, zlen. lia. }
      exists (move_cols x (Some (Z.of_nat (moved k))) (Some (ec + d)%Z)).
      assert (KB : k <= bc) by (rewrite (A8 eq_refl); lia).
      split; [|split; [|split; [|split]]].
      + unfold stands. cbn [mt_bl mt_bc mt_el mt_ec move_cols fst snd tk_text]. do 4 (split; [first [assumption|reflexivity|discriminate]|]). split; [|split; [|split; [|split]]].
        * right. cbn. split; [reflexivity|]. unfold moved. lia.
        * apply inside_moved; auto.
        * apply inside_moved; [lia|exact A7].
        * intros _. specialize (A8 eq_refl). unfold moved. lia.
        * congruence.
      + repeat split.
      + intros H. unfold end_right in *. cbn [mt_ec move_cols snd] in *. rewrite EC in H. injection H as ->. f_equal. exact DE2.
      + apply line_text; auto.
      + intros r r' Hr. cbn [shift_line]. rewrite A1. cbn [rd bind]. rewrite Z.eqb_refl, A2. cbn [rd bind].
        unfold is_split_token. rewrite A1, A3. cbn [rd bind]. rewrite Z.eqb_refl. cbn [negb]. rewrite EC. cbn [rd bind]. rewrite Hr. cbn [bind].
        rewrite DE. reflexivity.
    - assert (LT : i < bi) by (unfold before in A5; cbn [fst snd] in A5; lia).
      exists (move_cols x (Some (Z.of_nat (moved k))) (mt_ec x)).
      split; [|split; [|split; [|split]]].
      + unfold stands. cbn [mt_bl mt_bc mt_el mt_ec move_cols fst snd tk_text]. rewrite EC. do 4 (split; [first [assumption|reflexivity|discriminate]|]). split; [|split; [|split; [|split]]].
        * left. exact LT.
        * apply inside_moved; auto.
        * apply inside_other; cbn; auto.
        * congruence.
        * auto.
      + repeat split.
      + intros H. exact H.
      + apply line_on_text; auto.
      + intros r r' Hr. cbn [shift_line]. rewrite A1. cbn [rd bind]. rewrite Z.eqb_refl, A2. cbn [rd bind].
        unfold is_split_token. rewrite A1, A3. cbn [rd bind]. destruct (Z.eqb_spec (Z.of_nat i) (Z.of_nat bi)); [lia|]. cbn [negb bind]. rewrite Hr. cbn [bind].
        rewrite DE. reflexivity.
  Qed.

  Lemma same_refl : forall x, same_but_cols x x.
  Proof using. repeat split. Qed.
  Lemma kept_after : forall l a sp, laid l1 a l sp -> i < fst a -> kept_all l1 l2 l l sp sp.
  Proof using Sp. clear In1.
    intros l a sp H E. destruct (laid_after _ _ _ H E) as [_ X]. revert a sp H E X.
    induction l as [|x l IH]; intros a [|[b q] sp] H E X; cbn [laid] in *; try tauto; [constructor|].
    destruct H as (H1 & H2 & H3). constructor.
    - split; [apply same_refl|]. split; [|auto]. cbn [fst snd]. destruct (X _ (or_introl eq_refl)) as (X1 & X2 & X3). apply after_text; auto.
    - apply (IH q); auto; [|intros; apply X; right; auto]. destruct (X _ (or_introl eq_refl)) as (_ & X2 & _). exact X2.
  Qed.
  Lemma kept_before : forall l a sp, laid l1 a l sp -> (forall u, In u sp -> before (snd u) (i, c)) -> kept_all l1 l2 l l sp sp.
  Proof using Sp In1.
    induction l as [|x l IH]; intros a [|[b q] sp] H E; cbn [laid] in *; try tauto; [constructor|].
    destruct H as (H1 & H2 & H3). constructor.
    - split; [apply same_refl|]. split; [|auto]. cbn [fst snd]. apply before_text; [apply H2|]. apply (E _ (or_introl eq_refl)).
    - eapply IH; eauto. intros. apply E. right. auto.
  Qed.

  (* the tokens after the edit *)
  Lemma shift_ok : forall l k sp, laid l1 (i, k) l sp -> c + n <= k ->
    exists l' sp', shift_line (Z.of_nat i) d l = Ok l' /\ laid l2 (i, moved k) l' sp' /\ kept_all l1 l2 l l' sp sp'.
  Proof using Sp In1.
    induction l as [|x l IH]; intros k [|[b q] sp] H Hk; cbn [laid] in H; try tauto.
    - exists [], []. cbn. split; [reflexivity|]. split; [exact I|constructor].
    - destruct H as (H1 & H2 & H3). destruct (Nat.eq_dec (fst b) i) as [Eb|Nb].
      + destruct b as [bi bc]. cbn [fst] in Eb. subst bi.
        assert (Kb : c + n <= bc) by (unfold before in H1; cbn [fst snd] in H1; lia).
        destruct (stands_moved _ _ _ H2 Kb) as (x' & S1 & S2 & S3 & S4 & S5).
        assert (Mo : before (i, moved k) (i, moved bc)).
        { right. cbn. split; [reflexivity|]. unfold before in H1. cbn [fst snd] in H1. unfold moved. lia. }
        destruct q as [qi qc]. destruct (Nat.eq_dec qi i) as [->|Nq].
        * assert (Kq : c + n <= qc). { destruct H2 as (_ & _ & _ & _ & B & _). unfold before in B. cbn [fst snd] in B. lia. }
          destruct (IH qc sp H3 Kq) as (l' & sp' & E1 & E2 & E3).
          exists (x' :: l'), (((i, moved bc), (i, moved qc)) :: sp'). split; [apply S5; exact E1|].
          unfold move_spot in *. cbn [fst snd] in *. rewrite Nat.eqb_refl in *.
          split; [cbn [laid]; auto|]. constructor; [|exact E3]. split; [exact S2|]. split; [exact S4|exact S3].
        * assert (LT : i < qi). { destruct H2 as (_ & _ & _ & _ & B & _). unfold before in B. cbn [fst snd] in B. lia. }
          destruct (laid_after _ _ _ H3 LT) as [E2 _]. pose proof (kept_after _ _ _ H3 LT) as E3.
          exists (x' :: l), (((i, moved bc), (qi, qc)) :: sp).
          unfold move_spot in *. cbn [fst snd] in *. destruct (Nat.eqb_spec qi i); [lia|].
          split; [apply S5|split; [cbn [laid]; auto|constructor; [split; [exact S2|split; [exact S4|exact S3]]|exact E3]]].
          destruct l as [|y l]; [reflexivity|]. destruct sp as [|[u v] sp]; [destruct H3|]. cbn [laid] in H3.
          destruct H3 as (B & (Y1 & _) & _). cbn [shift_line]. rewrite Y1. cbn [rd bind].
          destruct (Z.eqb_spec (Z.of_nat (fst u)) (Z.of_nat i)); [|reflexivity]. unfold before in B. cbn [fst snd] in B. lia.
      + assert (LT : i < fst b) by (unfold before in H1; cbn [fst snd] in H1; lia).
        exists (x :: l), ((b, q) :: sp).
        assert (Hl : laid l1 b (x :: l) ((b, q) :: sp)). { cbn [laid]. split; [right; auto|]. auto. }
        destruct (laid_after _ _ _ Hl LT) as [E2 _]. split; [|split; [|apply (kept_after _ _ _ Hl LT)]].
        * destruct H2 as (Y1 & _). cbn [shift_line]. rewrite Y1. cbn [rd bind].
          destruct (Z.eqb_spec (Z.of_nat (fst b)) (Z.of_nat i)); [lia|reflexivity].
        * cbn [laid] in *. destruct E2 as (_ & E2 & E3). split; [left; cbn; lia|]. auto.
  Qed.
End Splice.

Lemma laid_app : forall layout l1 l2 a sp, laid layout a (l1 ++ l2) sp ->
  exists s1 s2 e, sp = s1 ++ s2 /\ length s1 = length l1 /\ laid layout a l1 s1 /\ laid layout e l2 s2 /\
    (forall u, In u s1 -> before (snd u) e) /\ before a e /\ (forall s3 b, laid layout e b s3 -> laid layout a (l1 ++ b) (s1 ++ s3)).
Proof.
  intros layout l1. induction l1 as [|x l1 IH]; intros l2 a sp H.
  - exists [], sp, a. repeat split; auto; [intros u []|right; auto].
  - destruct sp as [|[b q] sp]; [destruct H|]. cbn [app laid] in H. destruct H as (H1 & H2 & H3).
    destruct (IH _ _ _ H3) as (s1 & s2 & e & -> & L1 & L2 & L3 & L4 & L5 & L6).
    exists ((b, q) :: s1), s2, e. split; [reflexivity|]. split; [cbn; lia|]. cbn [app laid]. split; [auto|]. split; [exact L3|]. split; [|split; [|auto]].
    + intros u [<-|Hu]; auto.
    + assert (before b q) by apply H2. unfold before in *. lia.
Qed.

Lemma rest_before : forall layout l a sp u, laid layout a l sp -> In u sp -> before a (fst u).
Proof.
  intros layout. induction l as [|x l IH]; intros a [|[b q] sp] u H I; cbn [laid] in H; try tauto; [destruct I|].
  destruct H as (H1 & H2 & H3). destruct I as [<-|I]; [exact H1|]. specialize (IH _ _ _ H3 I).
  assert (before b q) by apply H2. unfold before in *. lia.
Qed.

(** What an edit of token [n] leaves. *)
Lemma edit_ok : forall layout fr1 x fr2 a sp u t, laid layout a (fr1 ++ x :: fr2) sp -> nth_error sp (length fr1) = Some u ->
  fst (fst u) = fst (snd u) ->
  exists l2 fr2' s1 s2 s2' e, sp = s1 ++ u :: s2 /\ length s1 = length fr1 /\
    upd_main layout (Z.of_nat (fst (fst u))) (str_replace (Z.of_nat (snd (fst u))) (length (tk_text x)) t) = Ok l2 /\
    spliced layout l2 (fst (fst u)) (snd (fst u)) (length (tk_text x)) t /\
    shift_line (Z.of_nat (fst (fst u))) (zlen t - zlen (tk_text x)) fr2 = Ok fr2' /\
    kept_all layout l2 fr1 fr1 s1 s1 /\ kept_all layout l2 fr2 fr2' s2 s2' /\
    laid l2 (fst (fst u), snd (fst u) + length t) fr2' s2' /\
    (forall b s3, laid l2 e b s3 -> laid l2 a (fr1 ++ b) (s1 ++ s3)) /\
    laid l2 a fr1 s1 /\ before e (fst u) /\
    inside l2 (fst u) /\ inside l2 (fst (fst u), snd (fst u) + length t) /\
    between l2 (fst u) (fst (fst u), snd (fst u) + length t) = t.
Proof.
  intros layout fr1 x fr2 a sp [[i c] [i' ce]] t H N E. cbn [fst snd] in *. subst i'.
  destruct (laid_app _ _ _ _ _ H) as (s1 & s2 & e & -> & L1 & L2 & L3 & L4 & L5 & L6).
  rewrite nth_error_app2 in N by lia. rewrite L1, Nat.sub_diag in N. destruct s2 as [|w s2]; [discriminate|]. cbn in N. injection N as ->.
  cbn [laid] in L3. destruct L3 as (M1 & M2 & M3). destruct M2 as (A1 & A2 & A3 & A4 & A5 & A6 & A7 & A8 & A9). cbn [fst snd] in *.
  specialize (A8 eq_refl). subst ce.
  destruct (splice_ok layout i c (length (tk_text x)) t A7) as (l2 & U & Sp).
  assert (In1 : c + length (tk_text x) <= length (main_of layout i)) by apply A7.
  destruct (shift_ok _ _ _ _ _ _ Sp In1 _ _ _ M3 ltac:(lia)) as (fr2' & s2' & X1 & X2 & X3).
  exists l2, fr2', s1, s2, s2', e. split; [reflexivity|]. split; [exact L1|]. split; [exact U|]. split; [exact Sp|]. split; [exact X1|].
  assert (B1 : forall u, In u s1 -> before (snd u) (i, c)).
  { intros u Hu. specialize (L4 u Hu). unfold before in *. cbn [fst snd] in *. lia. }
  assert (La : laid l2 a fr1 s1) by (eapply laid_before; [exact Sp|exact In1|exact L2|exact B1|right; auto]).
  split; [eapply kept_before; eauto|]. split; [exact X3|].
  assert (EQ : moved (length (tk_text x)) t (c + length (tk_text x)) = c + length t) by (unfold moved; lia).
  split; [rewrite <- EQ; exact X2|]. split; [|split; [exact La|split; [exact M1|split; [|split]]]].
  - intros b s3 Hb. pose proof La as Hl. clear -Hl Hb L4 L5. revert a s1 Hl L4 L5. induction fr1 as [|y fr1 IH]; intros a [|[p q] s1] Hl L4 L5; cbn [laid app] in *; try tauto.
    + destruct b as [|z b]; destruct s3 as [|[p q] s3]; cbn [laid] in *; auto. destruct Hb as (B1 & B2 & B3). split; auto. unfold before in *. lia.
    + destruct Hl as (H1 & H2 & H3). split; [exact H1|]. split; [exact H2|]. apply IH; [exact H3|intros u Hu; apply L4; right; exact Hu|].
      apply (L4 (p, q)). left. reflexivity.
  - eapply inside_first; eauto. right. auto.
  - rewrite <- EQ. eapply inside_moved; eauto.
  - eapply new_text; eauto.
Qed.

Lemma redo_right : forall ll, stmts_right (redo_stmts ll) /\ l_frags (redo_stmts ll) = l_frags ll /\ l_layout (redo_stmts ll) = l_layout ll /\
  same_rest (redo_stmts ll) ll.
Proof.
  intros ll. unfold redo_stmts, stmts_right. pose proof (init_stmts_main (l_frags ll)) as H.
  destruct (init_stmts (l_frags ll)) as [st n]. destruct H as (H1 & H2 & _). cbn. rewrite H1, H2. repeat split.
Qed.

(** * The tokenizer's positions *)
Lemma place_order : forall ls o i l k o' i' l' k', place ls o i l k -> place ls o' i' l' k' -> o < o' -> before (i, S k) (i', k').
Proof.
  intros ls o i l k o' i' l' k' (A & B & ->) (A' & B' & ->) H.
  assert (I : i < length ls) by (apply nth_error_Some; congruence).
  destruct (Nat.lt_trichotomy i i') as [X|[X|X]].
  - left. exact X.
  - subst i'. right. cbn. split; [reflexivity|lia].
  - exfalso. assert (I' : S i' < length ls) by lia.
    destruct (nth_error ls (S i')) as [l2|] eqn:E2; [|apply nth_error_None in E2; lia].
    pose proof (main_start_S _ _ _ _ A' E2). pose proof (main_start_mono ls (S i') i ltac:(lia) I). lia.
Qed.

Lemma lines_all : forall layout, Forall (fun f => is_trivial f = false) layout -> lines_of layout = map line_of layout.
Proof.
  intros layout NT. unfold lines_of. f_equal. induction NT as [|f r Hf _ IH]; [reflexivity|]. cbn [filter]. rewrite Hf. cbn. congruence.
Qed.
Lemma place_main : forall layout o i l k, place (map line_of layout) o i l k -> i < length layout /\ main_of layout i = l_main l.
Proof.
  intros layout o i l k (A & _). rewrite nth_error_map in A. destruct (nth_error layout i) as [f|] eqn:E; [|discriminate].
  cbn in A. injection A as <-. split; [apply nth_error_Some; congruence|]. unfold main_of.
  erewrite nth_error_nth; [reflexivity|]. rewrite nth_error_map, E. reflexivity.
Qed.

Section Link.
  Variable layout : list File_Line.
  Let ls := map line_of layout.

  Definition good (x : Token) (u : spot * spot) : Prop := reads layout x (fst u) (snd u) /\ end_right x (snd u).

  Lemma link : forall p s l, lexed p s l -> (0 <= p)%Z -> forall fss a, Forall2 (fragments_of ls) l fss ->
    (forall x, In x (concat fss) -> mt_bl x <> None) ->
    (forall o i l k, place ls o i l k -> Z.to_nat p <= o -> before a (i, k)) ->
    exists sp, laid layout a (concat fss) sp /\ Forall2 good (concat fss) sp.
  Proof.
    intros p s l H. induction H as [p g G|p g t w r l G W F Lo H IH]; intros P fss a F2 MT Af.
    - inversion F2; subst. exists []. split; [exact I|constructor].
    - inversion F2 as [|? fs ? fss' Fo F2']; subst. cbn [concat] in MT.
      unfold fragments_of in Fo. destruct Fo as [T [(x & -> & Ht & Hw & (Lo1 & Lb & Le & _) & _)|(_ & w1 & t1 & w2 & t2 & x1 & x2 & _ & -> & _ & _ & _ & _ & _ & _ & M & _)]].
      2: { exfalso. apply (MT x1); [left; reflexivity|exact M]. }
      set (e := Z.to_nat (p + zlen g + zlen w)) in *. set (b := e - length w) in *.
      destruct Lb as (i1 & l1 & k & P1 & A1 & B1). destruct Le as (i2 & l2 & m & P2 & A2 & B2).
      destruct (place_main _ _ _ _ _ P1) as [I1 M1]. destruct (place_main _ _ _ _ _ P2) as [I2 M2].
      assert (Zw : (0 < zlen w)%Z) by (unfold zlen; destruct w; [congruence|cbn [length]; lia]).
      assert (Zg : (0 <= zlen g)%Z) by (unfold zlen; lia).
      assert (Eb : b = Z.to_nat (p + zlen g)) by (unfold b, e, zlen in *; lia).
      assert (Ebe : b + length w = e) by (unfold b, e, zlen in *; lia).
      assert (Lw : length w <> 0) by (destruct w; [congruence|discriminate]).
      assert (Bt : before (i1, k) (i2, m + 1)).
      { destruct (Nat.eq_dec b (e - 1)) as [E|N].
        - rewrite <- E in P2. destruct P1 as (X1 & X2 & X3). destruct P2 as (Y1 & Y2 & Y3).
          destruct (Nat.lt_trichotomy i1 i2) as [X|[X|X]]; [left; exact X|right; subst; cbn; split; [reflexivity|]|].
          + assert (l2 = l1) by congruence. lia.
          + exfalso. assert (IS : S i2 < length ls) by (unfold ls; rewrite map_length; lia).
            destruct (nth_error ls (S i2)) as [l3|] eqn:E3; [|apply nth_error_None in E3; lia].
            pose proof (main_start_S _ _ _ _ Y1 E3). assert (i1 < length ls) by (unfold ls; rewrite map_length; lia).
            pose proof (main_start_mono ls (S i2) i1 ltac:(lia) ltac:(assumption)). lia.
        - assert (X : before (i1, S k) (i2, m)) by (eapply place_order; eauto; lia). unfold before in *. cbn [fst snd] in *. lia. }
      assert (T1 : i1 = i2 -> l1 = l2 /\ w = firstn (m + 1 - k) (skipn k (l_main l1))).
      { intros <-. assert (l2 = l1) by (destruct P1 as (X & _); destruct P2 as (Y & _); congruence). subst l2. split; [reflexivity|].
        eapply one_line; eauto. }
      assert (K1 : k < length (l_main l1)) by apply P1. assert (K2 : m < length (l_main l2)) by apply P2.
      assert (T2 : i1 = i2 -> m + 1 = k + length w).
      { intros E. destruct (T1 E) as [<- Ew]. rewrite Ew, firstn_length, skipn_length. subst i2. unfold before in Bt. cbn [fst snd] in Bt. lia. }
      destruct (IH ltac:(lia) fss' (i2, m + 1) F2') as (sp & IH1 & IH2).
      + intros y Hy. apply MT. right. exact Hy.
      + intros o i l0 k0 Pl Ho. fold e in Ho. rewrite Nat.add_1_r. eapply place_order; eauto. lia.
      + exists (((i1, k), (i2, m + 1)) :: sp). cbn [app concat laid]. split; [split; [|split; [|exact IH1]]|constructor; [|exact IH2]].
        * eapply Af; eauto. lia.
        * unfold stands. cbn [fst snd]. rewrite A1, B1, A2, B2, Hw.
          split; [reflexivity|]. split; [reflexivity|]. split; [reflexivity|]. split; [discriminate|]. split; [exact Bt|].
          split; [split; cbn [fst snd]; [exact I1|rewrite M1; lia]|]. split; [split; cbn [fst snd]; [exact I2|rewrite M2; lia]|].
          split; [exact T2|]. intros _. f_equal. lia.
        * split; unfold reads, end_right; cbn [fst snd].
          -- intros E. unfold between. cbn [fst snd]. rewrite E, Nat.eqb_refl, <- E, M1, Hw. symmetry. apply T1. exact E.
          -- rewrite B2. f_equal. lia.
  Qed.
End Link.

Lemma app_inv_len : forall A (a b c d : list A), a ++ b = c ++ d -> length a = length c -> a = c /\ b = d.
Proof.
  intros A a. induction a as [|x a IH]; intros b [|y c] d H E; try discriminate E; [auto|].
  cbn in H, E. injection H as -> H. destruct (IH _ _ _ H ltac:(lia)) as [-> ->]. auto.
Qed.
Lemma stands_mid : forall layout f1 x f2 p s1 u s2, laid layout p (f1 ++ x :: f2) (s1 ++ u :: s2) -> length s1 = length f1 ->
  stands layout x (fst u) (snd u).
Proof.
  intros layout f1 x f2 p s1 u s2 H Ls. destruct (laid_app _ _ _ _ _ H) as (t1 & t2 & e' & Et & Lt & _ & Y & _).
  destruct (app_inv_len _ _ _ _ _ Et) as [_ <-]; [lia|]. destruct u as [a b]. cbn [laid] in Y. apply Y.
Qed.

(** * The joined text of an edited layout *)
Lemma joined_snoc_app : forall a b, a <> [] -> joined (a ++ b) = joined a ++ concat (map contrib b).
Proof. intros [|l a] b H; [congruence|]. cbn [app joined]. rewrite map_app, concat_app, <- !app_assoc. reflexivity. Qed.
Lemma joined_mid : forall a l b, exists pre, joined (a ++ l :: b) = pre ++ l_main l ++ blank_if (l_right l) ++ concat (map contrib b) /\
  length pre = main_start (a ++ l :: b) (length a) /\
  (forall l', l_left l' = l_left l -> joined (a ++ l' :: b) = pre ++ l_main l' ++ blank_if (l_right l') ++ concat (map contrib b)).
Proof.
  intros a l b. destruct a as [|l0 a].
  - exists []. split; [reflexivity|]. split; [reflexivity|]. intros; reflexivity.
  - exists (joined (l0 :: a) ++ blank_if (l_left l)). split; [|split].
    + rewrite joined_snoc_app by discriminate. cbn [map concat]. unfold contrib at 1. rewrite <- !app_assoc. reflexivity.
    + unfold main_start. cbn [length Nat.eqb]. change (S (length a)) with (length (l0 :: a)).
      rewrite firstn_app, firstn_all, Nat.sub_diag, nth_error_mid. cbn [firstn]. rewrite app_nil_r, app_length. reflexivity.
    + intros l' E. rewrite joined_snoc_app by discriminate. cbn [map concat]. unfold contrib at 1. rewrite E, <- !app_assoc. reflexivity.
Qed.

Lemma splice_joined : forall l1 l2 i c n t, spliced l1 l2 i c n t -> c + n <= length (main_of l1 i) ->
  let o := main_start (map line_of l1) i + c in
  joined (map line_of l2) = firstn o (joined (map line_of l1)) ++ t ++ skipn (o + n) (joined (map line_of l1)).
Proof.
  intros l1 l2 i c n t (p & f & q & g & -> & -> & Hp & M & _ & Hlt & Hls & Hrs & _ & Hb & _) I o. subst o.
  assert (Mf : main_of (p ++ f :: q) i = main_txt f).
  { unfold main_of. rewrite map_app, app_nth2; rewrite map_length; [|lia]. rewrite Hp, Nat.sub_diag. reflexivity. }
  rewrite Mf in I. rewrite !map_app. cbn [map].
  destruct (joined_mid (map line_of p) (line_of f) (map line_of q)) as (pre & E1 & E2 & E3).
  rewrite map_length, Hp in E2. rewrite <- E2, E1.
  rewrite (E3 (line_of g)) by (cbn; rewrite Hls; reflexivity).
  cbn [line_of l_main l_right]. rewrite Hrs, M.
  rewrite <- Nat.add_assoc, firstn_app_2, (firstn_app c), (skipn_app _ pre).
  rewrite (skipn_all2 pre) by lia. replace (c - length (main_txt f)) with 0 by lia. cbn [firstn app].
  replace (length pre + (c + n) - length pre) with (c + n) by lia. rewrite skipn_app.
  replace (c + n - length (main_txt f)) with 0 by lia. cbn [skipn]. rewrite <- !app_assoc. cbn [app]. reflexivity.
Qed.

Lemma splice_trivial : forall l1 l2 i c n t, spliced l1 l2 i c n t -> map is_trivial l2 = map is_trivial l1.
Proof.
  intros l1 l2 i c n t (p & f & q & g & -> & -> & _ & _ & _ & _ & _ & _ & _ & Hb & _). rewrite !map_app. cbn [map].
  unfold is_trivial, is_comment, is_blank. rewrite Hb. reflexivity.
Qed.
Lemma splice_nontrivial : forall l1 l2 i c n t, spliced l1 l2 i c n t -> Forall (fun f => is_trivial f = false) l1 ->
  Forall (fun f => is_trivial f = false) l2.
Proof.
  intros l1 l2 i c n t H F. apply splice_trivial in H.
  rewrite Forall_forall in *. intros f Hf. destruct (In_nth_error _ _ Hf) as [k Hk].
  assert (X : nth_error (map is_trivial l2) k = Some (is_trivial f)) by (rewrite nth_error_map, Hk; reflexivity).
  rewrite H, nth_error_map in X. destruct (nth_error l1 k) as [h|] eqn:E; [|discriminate]. cbn in X. injection X as <-.
  apply F. eapply nth_error_In; eauto.
Qed.
Lemma splice_label : forall l1 l2 i c n t, spliced l1 l2 i c n t -> init_label l2 = init_label l1.
Proof.
  intros l1 l2 i c n t (p & f & q & g & -> & -> & _ & _ & _ & Hlt & _ & _ & _ & Hb & _).
  destruct p as [|x p]; [|reflexivity]. cbn [app init_label]. unfold has_label. rewrite Hb, Hlt. reflexivity.
Qed.

Lemma insert_ok : forall l a t, inside l a -> exists l2, insert_text_at l (Z.of_nat (fst a), Z.of_nat (snd a)) t = Ok l2 /\
  spliced l l2 (fst a) (snd a) 0 t.
Proof.
  intros l [i c] t I. cbn [fst snd]. destruct (splice_ok l i c 0 t) as (l2 & U & Sp); [rewrite Nat.add_0_r; exact I|].
  exists l2. split; [|exact Sp]. destruct I as [I1 I2]. cbn [fst snd] in *.
  destruct (nth_error l i) as [f|] eqn:E; [|apply nth_error_None in E; lia].
  assert (M : main_of l i = main_txt f) by (unfold main_of; erewrite nth_error_nth; [reflexivity|rewrite nth_error_map, E; reflexivity]).
  rewrite M in I2. unfold insert_text_at. destruct (Z.ltb_spec (Z.of_nat i) (zlen l)); [|unfold zlen in *; lia]. cbn [assert_ bind].
  rewrite (get_fl_ok _ _ _ E). cbn [bind]. destruct (Z.leb_spec (Z.of_nat c) (zlen (main_txt f))); [|unfold zlen in *; lia]. cbn [assert_ bind].
  exact U.
Qed.

(** After an edit of the layout everything is derived again. *)
Lemma rederive : forall st ll layout lab, st = ls_init \/ st = mkLS real_parse [] ->
  init_label layout = Ok lab -> Forall plain (joined (lines_of layout)) -> not_first white (joined (lines_of layout)) ->
  exists ll' st', init_from_layout st ll layout = Done (ll', st') /\ l_layout ll' = layout /\ l_label ll' = lab /\ stmts_right ll' /\
    exists lx fss, scan_string st (joined (lines_of layout)) = Done (lx, st') /\ l_frags ll' = concat fss /\
      Forall2 (fragments_of (lines_of layout)) lx fss.
Proof.
  intros st ll layout lab Hst Hl P NF. unfold init_from_layout. rewrite Hl. cbn [lift obind]. unfold tokenize_layout. rewrite accum_layout_lines.
  destruct (tokenize_ok st (lines_of layout) Hst (line_cols _) P NF) as (l & st2 & fss & E1 & E2 & E3).
  unfold lines_of in E2. rewrite E2. cbn [obind].
  match goal with |- exists ll' st', Done (redo_stmts ?L, _) = _ /\ _ => destruct (redo_right L) as (R1 & R2 & R3 & R4); exists (redo_stmts L), st2 end.
  split; [reflexivity|]. split; [exact R3|]. split; [apply R4|]. split; [exact R1|].
  exists l, fss. split; [exact E1|]. split; [exact R2|exact E3].
Qed.
Lemma laid_nth : forall layout l a sp n x u, laid layout a l sp -> nth_error l n = Some x -> nth_error sp n = Some u -> stands layout x (fst u) (snd u).
Proof.
  intros layout. induction l as [|y l IH]; intros a [|[b q] sp] [|n] x u H Hx Hu; cbn [laid nth_error] in *; try discriminate; try tauto.
  - injection Hx as ->. injection Hu as <-. apply H.
  - eapply IH; [apply H| |]; eauto.
Qed.
Lemma laid_length : forall layout l a sp, laid layout a l sp -> length sp = length l.
Proof. intros layout. induction l as [|y l IH]; intros a [|[b q] sp] H; cbn [laid length] in *; try tauto. destruct H as (_ & _ & H). f_equal. eauto. Qed.

(** * replace_stmt_substr within one line *)
Lemma set_mid : forall p f q i g, length p = i -> set_fl (p ++ f :: q) (Z.of_nat i) g = p ++ g :: q.
Proof. intros. apply set_fl_mid. assumption. Qed.
Lemma count_one : forall p g q i, length p = i -> is_fortran g = true -> count_fortran (p ++ g :: q) (Z.of_nat i) (Z.of_nat i) = 1.
Proof.
  intros p g q i H Hf. unfold count_fortran. rewrite Nat2Z.id. replace (Z.to_nat (Z.of_nat i - Z.of_nat i + 1)) with 1 by lia.
  rewrite skipn_app, skipn_all2, H, Nat.sub_diag by lia. cbn. rewrite Hf. reflexivity.
Qed.
Lemma str_insert_ok : forall c t m, c <= length m -> str_insert (Z.of_nat c) t m = Ok (firstn c m ++ t ++ skipn c m).
Proof.
  intros c t m H. unfold str_insert, str_replace. destruct (Z.ltb_spec (Z.of_nat c) 0); [lia|]. rewrite Nat2Z.id, Nat.add_0_r.
  destruct (Nat.leb_spec c (length m)); [reflexivity|lia].
Qed.
Lemma uncont_main : forall f m, make_uncontinued (with_main f m) = with_main (make_uncontinued f) m.
Proof.
  intros f m. unfold make_uncontinued, with_main, with_text. cbn [linenum left_txt left_space main_txt right_space right_txt open_delim bits].
  destruct (right_txt f) as [|c r]; [reflexivity|].
  repeat match goal with |- context [find_first_not_of ?a ?b] => destruct (find_first_not_of a b) end; reflexivity.
Qed.
Lemma uncont_text : forall f, main_txt (make_uncontinued f) = main_txt f /\ left_txt (make_uncontinued f) = left_txt f /\
  left_space (make_uncontinued f) = left_space f /\ linenum (make_uncontinued f) = linenum f.
Proof.
  intros f. unfold make_uncontinued. destruct (right_txt f) as [|c r]; [repeat split|].
  cbv zeta. repeat match goal with |- context [find_first_not_of ?a ?b] => destruct (find_first_not_of a b) end; repeat split.
Qed.

Lemma one_line_replace : forall p f q i sc ec t, length p = i -> is_fortran f = true -> sc <= ec -> ec <= length (main_txt f) ->
  let m := firstn sc (main_txt f) ++ skipn ec (main_txt f) in
  (find_first_not_of [c_sp] m = None -> sc = 0) ->
  exists l2, erase_stmt_text (p ++ f :: q) (Z.of_nat i) (Z.of_nat sc) (Z.of_nat i) (Z.of_nat ec) = Ok l2 /\
    upd_main l2 (Z.of_nat i) (str_insert (Z.of_nat sc) t) =
      Ok (p ++ with_main (make_uncontinued f)
                 (if find_first_not_of [c_sp] m then firstn sc (main_txt f) ++ t ++ skipn ec (main_txt f) else t) :: q).
Proof.
  intros p f q i sc ec t Hp Hf H1 H2 m Hm.
  assert (N : nth_error (p ++ f :: q) i = Some f) by (rewrite <- Hp; apply nth_error_mid).
  assert (Lm : length m = sc + (length (main_txt f) - ec)) by (unfold m; rewrite app_length, firstn_length, skipn_length; lia).
  set (m' := if find_first_not_of [c_sp] m then m else []).
  exists (p ++ make_uncontinued (with_main f m') :: q). split.
  - unfold erase_stmt_text. destruct (Z.leb_spec (Z.of_nat i) (Z.of_nat i)); [|lia]. destruct (Z.leb_spec 0 (Z.of_nat i)); [|lia].
    destruct (Z.leb_spec (Z.of_nat i) (zlen (p ++ f :: q))); [|unfold zlen in *; rewrite app_length in *; lia]. cbn [assert_ bind].
    rewrite (get_fl_ok _ _ _ N). cbn [bind]. rewrite Hf. cbn [assert_ bind].
    destruct (Z.ltb_spec (Z.of_nat i) (Z.of_nat i)); [lia|]. cbn [bind].
    destruct (Z.leb_spec (Z.of_nat sc) (Z.of_nat ec)); [|lia]. destruct (Z.leb_spec 0 (Z.of_nat sc)); [|lia]. cbn [assert_ bind].
    rewrite (get_fl_ok _ _ _ N). cbn [bind]. destruct (Z.leb_spec (Z.of_nat ec) (zlen (main_txt f))); [|unfold zlen in *; lia]. cbn [assert_ bind].
    unfold str_erase, str_replace. destruct (Z.ltb_spec (Z.of_nat sc) 0); [lia|]. rewrite Nat2Z.id.
    destruct (Nat.leb_spec sc (length (main_txt f))); [|lia]. cbn [bind app].
    replace (sc + Z.to_nat (Z.of_nat ec - Z.of_nat sc)) with ec by lia. fold m.
    assert (E : (if is_none (find_first_not_of [c_sp] m) then Ok (with_main f []) else Ok (with_main f m)) = Ok (with_main f m')).
    { unfold m'. destruct (find_first_not_of [c_sp] m); reflexivity. }
    rewrite E. cbn [bind]. rewrite (set_mid _ _ _ _ _ Hp). rewrite count_one by auto. cbn [Nat.eqb].
    rewrite (get_fl_ok _ _ (with_main f m')) by (rewrite <- Hp; apply nth_error_mid). cbn [bind]. rewrite (set_mid _ _ _ _ _ Hp). reflexivity.
  - unfold upd_main. rewrite (get_fl_ok _ _ (make_uncontinued (with_main f m'))) by (rewrite <- Hp; apply nth_error_mid). cbn [bind].
    rewrite (proj1 (uncont_text _)). cbn [with_main with_text main_txt].
    rewrite str_insert_ok. cbn [bind]. 2: { unfold m'. destruct (find_first_not_of [c_sp] m); [lia|]. rewrite Hm by reflexivity. cbn. lia. }
    rewrite (set_mid _ _ _ _ _ Hp). rewrite uncont_main. do 3 f_equal. unfold with_main, with_text. cbn. f_equal.
    unfold m'. destruct (find_first_not_of [c_sp] m) eqn:F.
    + unfold m. rewrite firstn_app, skipn_app, !firstn_firstn, !firstn_length, (Nat.min_l sc (length _)), Nat.min_id by lia.
      rewrite Nat.sub_diag. cbn [firstn skipn]. rewrite app_nil_r. rewrite (skipn_all2 (firstn sc _)) by (rewrite firstn_length; lia). reflexivity.
    + rewrite (Hm eq_refl). cbn. apply app_nil_r.
Qed.

Lemma laid_range : forall layout l s sp j k a a' q' q, laid layout s l sp -> nth_error sp j = Some (a, a') -> nth_error sp k = Some (q', q) ->
  j <= k -> before a q.
Proof.
  intros layout l. induction l as [|x l IH]; intros s [|[b e] sp] j k a a' q' q H Hj Hk Le; cbn [laid] in H; try tauto.
  - destruct j; discriminate.
  - destruct H as (H1 & H2 & H3). destruct j as [|j].
    + cbn in Hj. injection Hj as -> ->. assert (Baa : before a a') by apply H2. destruct k as [|k]; cbn [nth_error] in Hk.
      * injection Hk as <- <-. exact Baa.
      * assert (before a' q').
        { clear IH. pose proof (rest_before _ _ _ _ _ H3 (nth_error_In _ _ Hk)) as X. exact X. }
        assert (before q' q).
        { destruct (nth_error l k) as [z|] eqn:Ez.
          - pose proof (laid_nth _ _ _ _ _ _ _ H3 Ez Hk) as Y. apply Y.
          - apply nth_error_None in Ez. pose proof (laid_length _ _ _ _ H3). assert (k < length sp) by (apply nth_error_Some; congruence). lia. }
        unfold before in *. lia.
    + destruct k as [|k]; [lia|]. eapply IH; eauto. lia.
Qed.
Lemma not_blank : forall m, Exists (fun c => c <> " "%char) m -> exists k, find_first_not_of [c_sp] m = Some k.
Proof.
  intros m H. destruct (find_first_not_of [c_sp] m) as [k|] eqn:E; [eauto|]. apply find_sp_None in E. exfalso.
  apply Exists_exists in H as (c & I & N). rewrite E in I. unfold spaces in I. apply repeat_spec in I. exact (N I).
Qed.
Lemma uncont_plain : forall f, is_continued f = false -> right_txt f = [] \/ (exists r, right_txt f = "!"%char :: r) ->
  right_txt (make_uncontinued f) = right_txt f /\ (right_txt f <> [] -> right_space (make_uncontinued f) = right_space f) /\
  bits (make_uncontinued f) = bits f /\ open_delim (make_uncontinued f) = open_delim f.
Proof.
  intros f Hc Hr.
  assert (B : put_continued false (bits f) = bits f).
  { unfold is_continued in Hc. destruct (bits f). cbn in *. subst. reflexivity. }
  unfold make_uncontinued. rewrite B. destruct Hr as [->|[r ->]]; [repeat split; congruence|]. cbn.
  repeat split; try reflexivity. intros _. change (spaces 0) with (@nil ascii). apply app_nil_r.
Qed.
