From Verif Require Import Base Base_lemmas LineAccum LineAccum_spec.

Lemma joined_app ls ms : ls <> [] -> joined (ls ++ ms) = joined ls ++ concat (map contrib ms).
Proof.
  destruct ls as [|l r]; [congruence|]. intros _. cbn [joined app].
  now rewrite map_app, concat_app, !app_assoc.
Qed.

Lemma accum_snoc ls l : accum_of (ls ++ [l]) = add (accum_of ls) l.
Proof. unfold accum_of. now rewrite fold_left_app. Qed.

Lemma accum_lengths ls :
  length (la_offset (accum_of ls)) = length ls /\
  la_line (accum_of ls) = map l_no ls /\ la_col (accum_of ls) = map l_col ls.
Proof.
  induction ls as [|l ls IH] using rev_ind; auto.
  rewrite accum_snoc. destruct IH as (A & B & C). unfold add, add_line. cbn [la_offset la_line la_col].
  rewrite !app_length, !map_app, B, C, A. auto.
Qed.

Lemma accum_text ls : la_accum (accum_of ls) = joined ls.
Proof.
  induction ls as [|l ls IH] using rev_ind; auto.
  rewrite accum_snoc. unfold add, add_line. cbn [la_accum]. rewrite IH.
  destruct (accum_lengths ls) as (A & _).
  destruct ls as [|l0 ls].
  - cbn. unfold blank_if. destruct (0 <? l_right l)%Z; now rewrite ?app_nil_r.
  - rewrite joined_app by discriminate. cbn [map concat]. rewrite app_nil_r. unfold contrib, blank_if.
    destruct (la_offset (accum_of (l0 :: ls))); [discriminate|]. cbn [is_empty negb andb].
    destruct (0 <? l_left l)%Z, (0 <? l_right l)%Z; rewrite ?app_nil_r, <- ?app_assoc; auto.
Qed.

Lemma accum_offsets ls i : i < length ls ->
  nth_error (la_offset (accum_of ls)) i = Some (Z.of_nat (main_start ls i)).
Proof.
  induction ls as [|l ls IH] using rev_ind; [simpl; lia|].
  rewrite app_length. cbn [length]. intros LT.
  rewrite accum_snoc. unfold add, add_line. cbn [la_offset].
  destruct (accum_lengths ls) as (A & _).
  destruct (Nat.eq_dec i (length ls)) as [->|NE].
  - rewrite nth_error_app2 by lia. rewrite A, Nat.sub_diag. cbn [nth_error]. f_equal.
    unfold main_start. rewrite nth_error_app_mid.
    rewrite firstn_app_len. rewrite accum_text.
    destruct ls as [|l0 ls]; [reflexivity|]. cbn [length Nat.eqb].
    destruct (la_offset (accum_of (l0 :: ls))); [discriminate|]. cbn [is_empty negb andb length].
    unfold blank_if, zlen. destruct (0 <? l_left l)%Z; rewrite ?app_length; cbn [length]; lia.
  - rewrite nth_error_app1 by lia. rewrite IH by lia. f_equal. f_equal.
    unfold main_start. rewrite nth_error_app1 by lia. destruct i as [|i]; auto. cbn [Nat.eqb].
    rewrite firstn_app. replace (S i - length ls) with 0 by lia. cbn [firstn]. now rewrite app_nil_r.
Qed.

(** positions of line i and the next one *)
Lemma joined_firstn_S ls i l : nth_error ls i = Some l ->
  length (joined (firstn (S i) ls)) = main_start ls i + length (l_main l) + length (blank_if (l_right l)).
Proof.
  intros H. pose proof H as H0. apply nth_error_split in H as (a & b & -> & <-).
  replace (S (length a)) with (length (a ++ [l])) by (rewrite app_length; simpl; lia).
  replace (a ++ l :: b) with ((a ++ [l]) ++ b) at 1 by (now rewrite <- app_assoc).
  rewrite firstn_app_len. unfold main_start. rewrite H0, firstn_app_len.
  destruct a as [|l0 a].
  - cbn. rewrite !app_length. simpl. lia.
  - rewrite joined_app by discriminate. cbn [map concat length]. rewrite app_nil_r. unfold contrib.
    rewrite !app_length. cbn [Nat.eqb]. lia.
Qed.

Lemma main_start_S ls i l l' : nth_error ls i = Some l -> nth_error ls (S i) = Some l' ->
  main_start ls (S i) = main_start ls i + length (l_main l) + length (blank_if (l_right l)) + length (blank_if (l_left l')).
Proof.
  intros H H'. unfold main_start at 1. cbn [Nat.eqb]. rewrite H'. now rewrite (joined_firstn_S _ _ _ H).
Qed.

Lemma main_start_char ls i l k c : nth_error ls i = Some l -> nth_error (l_main l) k = Some c ->
  nth_error (joined ls) (main_start ls i + k) = Some c.
Proof.
  intros H HC. pose proof H as H0. apply nth_error_split in H as (a & b & -> & <-).
  assert (k < length (l_main l)) as LK by (apply nth_error_Some; congruence).
  unfold main_start. rewrite H0, firstn_app_len. destruct a as [|l0 a].
  - cbn [length Nat.add app joined]. rewrite nth_error_app1; auto.
  - rewrite joined_app by discriminate. cbn [length map concat Nat.eqb]. unfold contrib.
    rewrite nth_error_app2 by lia.
    match goal with |- nth_error _ ?x = _ => replace x with (length (blank_if (l_left l)) + k) by lia end.
    rewrite <- !app_assoc. rewrite nth_error_app2 by lia.
    match goal with |- nth_error _ ?x = _ => replace x with k by lia end.
    rewrite nth_error_app1 by lia. auto.
Qed.

Lemma find_lli_spec offs : forall lli o i,
  i <= length offs ->
  (forall j, j < i -> exists x, nth_error offs j = Some x /\ (x <= o)%Z) ->
  (forall x, nth_error offs i = Some x -> (o < x)%Z) ->
  find_lli offs lli o = lli + i.
Proof.
  induction offs as [|x r IH]; intros lli o i LE B A; cbn [find_lli].
  - simpl in LE. lia.
  - destruct i as [|i].
    + specialize (A x eq_refl). destruct (Z.leb_spec x o); lia.
    + destruct (B 0 ltac:(lia)) as (y & Y & LEy). injection Y as ->.
      destruct (Z.leb_spec y o); [|lia].
      rewrite (IH (S lli) o i).
      * lia.
      * simpl in LE. lia.
      * intros j J. apply (B (S j)). lia.
      * intros z Z. apply A. exact Z.
Qed.

Lemma main_start_mono ls j i : j <= i -> i < length ls -> main_start ls j <= main_start ls i.
Proof.
  intros LE LT. induction i as [|i IH].
  - replace j with 0 by lia. auto.
  - destruct (Nat.eq_dec j (S i)) as [->|NE]; auto.
    destruct (nth_error ls i) as [l|] eqn:E; [|apply nth_error_None in E; lia].
    destruct (nth_error ls (S i)) as [l'|] eqn:E'; [|apply nth_error_None in E'; lia].
    rewrite (main_start_S _ _ _ _ E E'). specialize (IH ltac:(lia) ltac:(lia)). lia.
Qed.

(** the lookup: offset at or after the main text of line i and before that of
    line i+1 *)
Lemma linecolno_line ls i l o : nth_error ls i = Some l ->
  main_start ls i <= o ->
  (S i < length ls -> o < main_start ls (S i)) ->
  (0 < l_col l + Z.of_nat (o - main_start ls i))%Z ->
  linecolno (accum_of ls) (Z.of_nat o) =
    Ok (Some (l_no l, l_col l + Z.of_nat (o - main_start ls i), Z.of_nat i, Z.of_nat (o - main_start ls i)))%Z.
Proof.
  intros E LE LT POS.
  assert (LI : i < length ls) by (apply nth_error_Some; congruence).
  destruct (accum_lengths ls) as (A & B & C). unfold linecolno.
  destruct (la_offset (accum_of ls)) as [|x0 r] eqn:EO; [simpl in A; lia|].
  assert (NTH : forall j, j < length ls -> nth_error (x0 :: r) j = Some (Z.of_nat (main_start ls j))).
  { intros j J. rewrite <- EO. now apply accum_offsets. }
  assert (find_lli r 0 (Z.of_nat o) = i) as ->.
  { rewrite (find_lli_spec r 0 _ i); auto.
    - simpl in A. lia.
    - intros j J. exists (Z.of_nat (main_start ls (S j))). split.
      + rewrite <- (NTH (S j)) by lia. reflexivity.
      + pose proof (main_start_mono ls (S j) i ltac:(lia) LI). lia.
    - intros x X. assert (S i < length ls) as LS.
      { assert (i < length r) by (apply nth_error_Some; congruence). simpl in A. lia. }
      pose proof (NTH (S i) LS) as N. cbn [nth_error] in N. rewrite X in N. injection N as ->.
      specialize (LT LS). lia. }
  rewrite NTH by auto. rewrite A, (proj2 (Nat.ltb_lt _ _) LI). rewrite B, C, map_length.
  rewrite !nth_error_map, E. cbn [option_map assert_ bind].
  rewrite (proj2 (Nat.ltb_lt _ _) LI).
  replace (Z.of_nat o - Z.of_nat (main_start ls i))%Z with (Z.of_nat (o - main_start ls i)) by lia.
  rewrite (proj2 (Z.leb_le (Z.of_nat (main_start ls i)) (Z.of_nat o))) by lia. cbn [assert_ bind].
  rewrite (proj2 (Z.ltb_lt _ _) POS). cbn [assert_ bind].
  rewrite (proj2 (Z.leb_le 0 _)) by lia. reflexivity.
Qed.

Lemma linecolno_char ls i l k c :
  nth_error ls i = Some l -> nth_error (l_main l) k = Some c -> (0 < l_col l)%Z ->
  let o := main_start ls i + k in
  nth_error (la_accum (accum_of ls)) o = Some c /\
  linecolno (accum_of ls) (Z.of_nat o) =
    Ok (Some (l_no l, l_col l + Z.of_nat k, Z.of_nat i, Z.of_nat k))%Z.
Proof.
  intros E HC POS o. split.
  - rewrite accum_text. eapply main_start_char; eauto.
  - assert (k < length (l_main l)) as LK by (apply nth_error_Some; congruence).
    rewrite (linecolno_line ls i l o); auto.
    + replace (o - main_start ls i) with k by (unfold o; lia). reflexivity.
    + unfold o; lia.
    + intros LS. destruct (nth_error ls (S i)) as [l'|] eqn:E'; [|apply nth_error_None in E'; lia].
      rewrite (main_start_S _ _ _ _ E E'). unfold o. lia.
    + lia.
Qed.

Lemma linecolno_same ls o :
  linecolno2 (accum_of ls) o =
  match linecolno (accum_of ls) o with
  | Ok (Some (a, b, _, _)) => Ok (Some (a, b))
  | Ok None => Ok None
  | Throw => Throw
  | UB => UB
  end.
Proof.
  unfold linecolno2, linecolno. destruct (accum_lengths ls) as (A & B & C).
  destruct (la_offset (accum_of ls)) as [|x r] eqn:E; auto. rewrite B, C.
  set (i := find_lli r 0 o).
  destruct (Nat.ltb_spec i (length (x :: r))) as [LI|]; cbn [assert_ bind]; auto.
  rewrite A in LI.
  destruct (nth_error (x :: r) i), (nth_error (map l_no ls) i), (nth_error (map l_col ls) i); auto.
  destruct (Z.leb_spec z o); cbn [assert_ bind]; auto.
  destruct (Z.ltb_spec 0 (z1 + (o - z))); cbn [assert_ bind]; auto.
  rewrite map_length, (proj2 (Nat.ltb_lt _ _) LI), (proj2 (Z.leb_le 0 (o - z))) by lia. reflexivity.
Qed.

(** every offset is in a main text or is a separating blank *)
Lemma joined_cover ls o : o < length (joined ls) ->
  (exists i l k, nth_error ls i = Some l /\ k < length (l_main l) /\ o = main_start ls i + k) \/
  nth_error (joined ls) o = Some c_sp.
Proof.
  induction ls as [|l ls IH] using rev_ind; [simpl; lia|]. intros LT.
  destruct ls as [|l0 ls].
  - cbn [app joined map concat] in *. rewrite app_nil_r in *.
    destruct (Nat.lt_ge_cases o (length (l_main l))) as [K|K].
    + left. exists 0, l, o. auto.
    + right. rewrite nth_error_app2 by lia. rewrite app_length in LT. unfold blank_if in *.
      destruct (0 <? l_right l)%Z; cbn [length] in *; [|lia].
      replace (o - length (l_main l)) with 0 by lia. auto.
  - rewrite joined_app in * by discriminate. cbn [map concat] in *. rewrite app_nil_r in *.
    destruct (Nat.lt_ge_cases o (length (joined (l0 :: ls)))) as [K|K].
    + destruct (IH K) as [(i & m & k & E & LK & ->)|E].
      * left. exists i, m, k. assert (i < length (l0 :: ls)) as LI by (apply nth_error_Some; congruence).
        rewrite nth_error_app1 by auto. conjs; auto. f_equal.
        unfold main_start. rewrite nth_error_app1 by auto. destruct i as [|i]; auto. cbn [Nat.eqb].
        rewrite firstn_app. replace (S i - length (l0 :: ls)) with 0 by lia. cbn [firstn]. now rewrite app_nil_r.
      * right. rewrite nth_error_app1; auto.
    + set (J := joined (l0 :: ls)) in *. rewrite app_length in LT. unfold contrib in *.
      rewrite !app_length in LT.
      destruct (Nat.lt_ge_cases (o - length J) (length (blank_if (l_left l)))) as [K1|K1].
      * right. rewrite nth_error_app2 by lia. rewrite nth_error_app1 by lia. unfold blank_if in *.
        destruct (0 <? l_left l)%Z; cbn [length] in *; [|lia]. replace (o - length J) with 0 by lia. auto.
      * destruct (Nat.lt_ge_cases (o - length J) (length (blank_if (l_left l)) + length (l_main l))) as [K2|K2].
        -- left. exists (length (l0 :: ls)), l, (o - length J - length (blank_if (l_left l))).
           rewrite nth_error_app_mid. conjs; auto; [lia|].
           unfold main_start. rewrite nth_error_app_mid, firstn_app_len. cbn [length Nat.eqb]. fold J. lia.
        -- right. rewrite nth_error_app2 by lia. rewrite app_assoc, nth_error_app2 by (rewrite app_length; lia).
           rewrite app_length. unfold blank_if in K1, K2, LT |- *.
           destruct (0 <? l_right l)%Z; cbn [length] in *; [|destruct (0 <? l_left l)%Z; cbn [length] in *; lia].
           match goal with |- nth_error _ ?x = _ => replace x with 0 by (destruct (0 <? l_left l)%Z; cbn [length] in *; lia) end. auto.
Qed.

Lemma linecolno_empty o : linecolno (accum_of []) o = Ok None.
Proof. reflexivity. Qed.
