(** Proofs about continuation marks, comment conversion and labels. *)
From Coq Require Import NArith Nnat.
From Verif Require Import Base Base_lemmas FileLine FileLine_spec FileLine_proofs FileEdit_spec FileEdit_proofs.

(** ** make_continued / make_uncontinued *)
Ltac flproj := cbn [linenum left_txt left_space main_txt right_space right_txt open_delim bits].
Definition keeps_left_main (f f' : File_Line) : Prop :=
  linenum f' = linenum f /\ left_txt f' = left_txt f /\ left_space f' = left_space f /\
  main_txt f' = main_txt f /\ open_delim f' = open_delim f.

Lemma bits_put_continued v b : b_continued (put_continued v b) = v /\
  put_continued (b_continued b) (put_continued v b) = b.
Proof. destruct b; auto. Qed.

Lemma make_continued_spec f :
  keeps_left_main f (make_continued f) /\
  bits (make_continued f) = put_continued true (bits f) /\
  ((right_txt f = [] /\ right_txt (make_continued f) = [c_amp]) \/
   (exists r, right_txt f = c_amp :: r /\ right_txt (make_continued f) = c_amp :: r) \/
   (exists c r, right_txt f = c :: r /\ c <> c_amp /\
      right_txt (make_continued f) = c_amp :: c_sp :: c :: r)) /\
  right_space (make_continued f) <> [] /\
  (all_white (right_space f) -> all_white (right_space (make_continued f))) /\
  (2 < length (right_space f) -> forall c r, right_txt f = c :: r -> c <> c_amp ->
     length (right_space (make_continued f)) + 2 = length (right_space f)).
Proof.
  unfold make_continued, keeps_left_main.
  set (rs := if is_empty (right_space f) then spaces 1 else right_space f).
  assert (rs <> []) as RN.
  { unfold rs. destruct (right_space f); discriminate. }
  assert (all_white (right_space f) -> all_white rs) as RW.
  { unfold rs. destruct (right_space f); auto. intros _. apply white_spaces. }
  assert (2 < length (right_space f) -> rs = right_space f) as RE.
  { unfold rs. destruct (right_space f); simpl; auto. lia. }
  destruct (right_txt f) as [|c r] eqn:E; flproj.
  - conjs; auto; congruence.
  - destruct (ceq c c_amp) eqn:C; flproj.
    + apply ceq_true in C. subst c. conjs; auto.
      * right. left. eauto.
      * intros _ c r0 X. injection X as <- _. congruence.
    + apply ceq_false in C. conjs; auto.
      * right. right. exists c, r. auto.
      * destruct (Nat.ltb_spec 2 (length rs)); auto.
        intros X. apply (f_equal (@length _)) in X. rewrite skipn_length in X. simpl in X. lia.
      * intros W. apply RW in W. destruct (2 <? length rs); auto.
        rewrite <- (firstn_skipn 2 rs) in W. now apply Forall_app in W.
      * intros L2 c' r' X NX. rewrite (RE L2).
        destruct (Nat.ltb_spec 2 (length (right_space f))); [|lia].
        rewrite skipn_length. lia.
Qed.

(** What is left of a right text once the mark and the blanks after it are
    gone. *)
Lemma find_sp_None rt : find_first_not_of [c_sp] rt = None -> rt = spaces (length rt).
Proof.
  unfold find_first_not_of. rewrite find_from_None. induction rt as [|x r IH]; auto.
  simpl. intros H. apply andb_prop in H as [H1 H2]. rewrite negb_involutive in H1.
  apply mem_In in H1. destruct H1 as [<-|[]]. cbn [length spaces repeat]. f_equal. now apply IH.
Qed.

Lemma find_sp_head r : find_first_not_of [c_sp] (c_sp :: r) <> Some 0.
Proof.
  unfold find_first_not_of. intros H. apply find_from_Some in H as (p & c & q & E & L0 & Hc & _).
  destruct p; [|discriminate]. injection E as <- <-. discriminate.
Qed.

Lemma make_uncontinued_spec f :
  keeps_left_main f (make_uncontinued f) /\
  bits (make_uncontinued f) = put_continued false (bits f) /\
  (exists n, right_txt f = spaces n ++ right_txt (make_uncontinued f) \/
             right_txt f = c_amp :: spaces n ++ right_txt (make_uncontinued f)) /\
  (forall r, right_txt (make_uncontinued f) <> c_sp :: r) /\
  (right_txt (make_uncontinued f) = [] -> right_space (make_uncontinued f) = []) /\
  (right_txt (make_uncontinued f) <> [] ->
     length (right_space (make_uncontinued f)) + length (right_txt (make_uncontinued f)) =
     length (right_space f) + length (right_txt f)) /\
  (all_white (right_space f) -> all_white (right_space (make_uncontinued f))).
Proof.
  unfold make_uncontinued, keeps_left_main.
  destruct (right_txt f) as [|c r] eqn:E; flproj.
  { conjs; auto; try discriminate.
    - exists 0. auto.
    - congruence.
    - constructor. }
  set (rt := if ceq c c_amp then c_sp :: r else c :: r).
  assert (RT : (c = c_amp /\ rt = c_sp :: r) \/ (c <> c_amp /\ rt = c :: r)).
  { unfold rt. destruct (ceq c c_amp) eqn:C; [left; apply ceq_true in C|right; apply ceq_false in C]; auto. }
  destruct (find_first_not_of [c_sp] rt) as [pos|] eqn:F; flproj.
  - apply find_sp_split in F as (core & EC & CN & FC).
    assert (skipn pos rt = core) as ES.
    { rewrite EC. rewrite <- (spaces_length pos) at 1. apply skipn_app_len. }
    rewrite ES. conjs; auto.
    + destruct RT as [[-> RT]|[NC RT]].
      * rewrite RT in EC. destruct pos as [|pos].
        -- exfalso. simpl in EC. subst core. now apply find_sp_head in FC.
        -- injection EC as EC. exists pos. right. now rewrite EC.
      * exists pos. left. now rewrite <- RT.
    + intros x X. rewrite X in FC. now apply find_sp_head in FC.
    + congruence.
    + intros _. rewrite app_length, spaces_length.
      assert (length rt = S (length r)) as L1 by (destruct RT as [[_ ->]|[_ ->]]; auto).
      apply (f_equal (@length _)) in EC. rewrite app_length, spaces_length in EC. cbn [length]. lia.
    + intros W. apply Forall_app. split; auto. apply white_spaces.
  - apply find_sp_None in F. conjs; auto; try discriminate.
    + destruct RT as [[-> RT]|[NC RT]]; rewrite RT in F.
      * cbn [length spaces repeat] in F. injection F as F. exists (length r). right.
        rewrite app_nil_r. now rewrite F at 1.
      * exists (length (c :: r)). left. rewrite app_nil_r. auto.
    + congruence.
    + constructor.
Qed.

Lemma cont_roundtrip f :
  is_continued f = false ->
  (right_txt f = [] \/ exists c r, right_txt f = c :: r /\ c <> c_amp /\ c <> c_sp) ->
  let f' := make_uncontinued (make_continued f) in
  keeps_left_main f f' /\ bits f' = bits f /\ right_txt f' = right_txt f /\
  (all_white (right_space f) -> all_white (right_space f')) /\
  (2 < length (right_space f) -> right_txt f <> [] ->
     length (right_space f') = length (right_space f)).
Proof.
  intros NC RT f'. pose proof (make_continued_spec f) as (K1 & B1 & R1 & N1 & W1 & L1).
  pose proof (make_uncontinued_spec (make_continued f)) as (K2 & B2 & R2 & N2 & E2 & L2 & W2).
  fold f' in K2, B2, R2, N2, E2, L2, W2.
  assert (RR : right_txt f' = right_txt f).
  { unfold f', make_uncontinued, make_continued.
    destruct RT as [->|(c & r & -> & C1 & C2)]; [reflexivity|].
    apply ceq_false in C1. rewrite C1. cbn.
    assert (mem c [c_sp] = false) as M.
    { destruct (mem c [c_sp]) eqn:M; auto. apply mem_In in M. destruct M as [M|[]]. congruence. }
    unfold find_first_not_of. simpl. rewrite M. reflexivity. }
  conjs; auto.
  - unfold keeps_left_main in *. intuition congruence.
  - rewrite B2, B1. unfold is_continued in NC. destruct (bits f). cbn in *. now subst.
  - intros G2 NN. rewrite RR in L2. specialize (L2 NN).
    destruct RT as [RT|(c & r & RT & C1 & C2)]; [congruence|].
    specialize (L1 G2 _ _ RT C1).
    destruct R1 as [[R1 _]|[(x & R1 & _)|(x & y & R1 & NX & R1')]]; try congruence.
    rewrite R1' in L2. rewrite RT in L2. rewrite RT in R1. injection R1 as <- <-.
    cbn [length] in L2. lia.
Qed.

(** ** make_comment_or_blank *)
Lemma mcb_loses_comment f f' :
  is_comment f = false -> make_comment_or_blank f = Ok f' -> ~ In c_bang (right_txt f').
Proof.
  intros C H. unfold make_comment_or_blank in H. rewrite C in H.
  destruct (is_blank f); [injection H as <-; simpl; auto|].
  apply bind_Ok in H as (rt & _ & H).
  destruct (find_char c_bang rt) as [cs|]; [|injection H as <-; simpl; auto].
  destruct (0 <? cs); injection H as <-; [|simpl; auto]. cbn [right_txt].
  intros I. apply repeat_spec in I. discriminate.
Qed.

Lemma mcb_class f f' : make_comment_or_blank f = Ok f' -> is_comment f' = true \/ is_blank f' = true.
Proof.
  unfold make_comment_or_blank. destruct (is_comment f) eqn:C; [intros [= <-]; auto|].
  destruct (is_blank f); [intros [= <-]; auto|].
  intros H. apply bind_Ok in H as (rt & _ & H).
  destruct (find_char c_bang rt) as [cs|]; [|injection H as <-; auto].
  destruct (0 <? cs); injection H as <-; auto.
Qed.

Lemma mcb_no_comment f :
  is_comment f = false -> ~ In c_bang (right_txt f) ->
  (is_continued f = true -> exists r, right_txt f = c_amp :: r) ->
  make_comment_or_blank f = Ok (make_blank f).
Proof.
  intros C NB CO. unfold make_comment_or_blank. rewrite C. destruct (is_blank f); auto.
  assert (G : forall rt, ~ In c_bang rt -> find_char c_bang rt = None).
  { intros rt NI. apply find_from_None. apply forallb_forall. intros x Hx.
    apply negb_true_iff, ceq_false. congruence. }
  destruct (is_continued f).
  - destruct CO as (r & E); auto. rewrite E in *. cbn [at_ nth_error bind ceq]. rewrite ceq_refl. cbn [assert_ bind set_first]. rewrite G; auto.
    simpl in *. intuition discriminate.
  - cbn [bind]. now rewrite G.
Qed.

(** ** Decimal numerals *)
Definition digit_value (c : ascii) : Z := (Z.of_nat (code c) - 48)%Z.

Lemma digit_of_spec k : k < 10 -> is_digit_b (digit_of k) = true /\ code (digit_of k) = 48 + k.
Proof.
  intros H. do 10 (destruct k as [|k]; [split; reflexivity|]). lia.
Qed.

Lemma dec_value_app s t acc : dec_value acc (s ++ t) = dec_value (dec_value acc s) t.
Proof. revert acc; induction s; intros; simpl; auto. Qed.

Lemma dec_loop_spec fuel : forall n acc, (n < 10 ^ N.of_nat fuel)%N -> fuel <> 0 ->
  exists ds, dec_loop fuel n acc = ds ++ acc /\ all_digits ds /\ ds <> [] /\
    dec_value 0 ds = Z.of_N n /\
    (forall k, k <> 0 -> (n < 10 ^ N.of_nat k)%N -> length ds <= k) /\
    (n <> 0%N -> hd c_nul ds <> "0"%char).
Proof.
  induction fuel as [|fuel IH]; intros n acc HN FN; [congruence|].
  cbn [dec_loop]. pose proof (N.mod_lt n 10 ltac:(lia)) as ML.
  assert (N.to_nat (n mod 10) < 10) as LD by lia.
  destruct (digit_of_spec _ LD) as [DD DC].
  pose proof (N.div_mod' n 10) as DM.
  destruct (N.eqb_spec (n / 10) 0) as [Q0|QN].
  - exists [digit_of (N.to_nat (n mod 10))]. conjs; auto; try discriminate.
    + constructor; auto.
    + cbn [dec_value]. rewrite DC. lia.
    + intros k KN _. simpl. lia.
    + intros NZ. cbn [hd]. intros X. rewrite X in DC. change (code "0"%char) with 48 in DC. lia.
  - assert (fuel <> 0) as FN2.
    { intros ->. change (10 ^ N.of_nat 1)%N with 10%N in HN.
      apply QN. apply N.div_small. lia. }
    assert (n / 10 < 10 ^ N.of_nat fuel)%N as HQ.
    { apply N.div_lt_upper_bound; [lia|]. rewrite Nat2N.inj_succ, N.pow_succ_r' in HN. lia. }
    destruct (IH (n / 10)%N (digit_of (N.to_nat (n mod 10)) :: acc) HQ FN2)
      as (ds & E & AD & NN & DV & LE & HZ).
    exists (ds ++ [digit_of (N.to_nat (n mod 10))]). conjs.
    + rewrite E, <- app_assoc. reflexivity.
    + apply Forall_app. split; auto.
    + intros X. apply app_eq_nil in X as [_ X]. discriminate.
    + rewrite dec_value_app, DV. cbn [dec_value]. rewrite DC. lia.
    + intros k KN HK. rewrite app_length. simpl.
      destruct k as [|k]; [congruence|].
      assert (n / 10 < 10 ^ N.of_nat k)%N as HQ2.
      { apply N.div_lt_upper_bound; [lia|]. rewrite Nat2N.inj_succ, N.pow_succ_r' in HK. lia. }
      destruct k as [|k].
      { change (10 ^ N.of_nat 0)%N with 1%N in HQ2. lia. }
      specialize (LE (S k) ltac:(lia) HQ2). lia.
    + intros _. destruct ds; [congruence|]. cbn [hd app] in *. auto.
Qed.

Lemma size_bound n : (n < 2 ^ N.of_nat (N.size_nat n))%N.
Proof.
  destruct n as [|p]; [reflexivity|]. cbn [N.size_nat].
  induction p as [p IH|p IH|]; cbn [Pos.size_nat]; try reflexivity;
    rewrite Nat2N.inj_succ, N.pow_succ_r'; lia.
Qed.

Lemma to_dec_spec n :
  all_digits (to_dec n) /\ to_dec n <> [] /\ dec_value 0 (to_dec n) = Z.of_N n /\
  (forall k, k <> 0 -> (n < 10 ^ N.of_nat k)%N -> length (to_dec n) <= k) /\
  (n <> 0%N -> hd c_nul (to_dec n) <> "0"%char).
Proof.
  unfold to_dec.
  assert (n < 10 ^ N.of_nat (S (N.size_nat n)))%N as B.
  { eapply N.lt_le_trans; [apply size_bound|].
    rewrite Nat2N.inj_succ, N.pow_succ_r'.
    pose proof (N.pow_le_mono_l 2 10 (N.of_nat (N.size_nat n)) ltac:(lia)). lia. }
  destruct (dec_loop_spec _ _ [] B ltac:(lia)) as (ds & E & R). rewrite E, app_nil_r. auto.
Qed.

Lemma digits_val_spec ds : forall acc rest, all_digits ds ->
  (match rest with [] => True | c :: _ => is_digit_b c = false end) ->
  Z.of_N (digits_val (ds ++ rest) acc) = dec_value (Z.of_N acc) ds.
Proof.
  induction ds as [|c ds IH]; intros acc rest AD R; cbn [app digits_val dec_value].
  - destruct rest as [|c r]; simpl; auto. now rewrite R.
  - inversion AD; subst. rewrite H1.
    assert (48 <= code c) as LB.
    { unfold is_digit_b in H1. apply andb_prop in H1 as [H1 _]. now apply Nat.leb_le. }
    rewrite IH by auto. f_equal. lia.
Qed.

Lemma digit_not_space c : is_digit_b c = true ->
  is_space_b c = false /\ ceq c "+"%char = false /\ ceq c "-"%char = false.
Proof.
  unfold is_digit_b, is_space_b. intros H. apply andb_prop in H as [H1 H2].
  apply Nat.leb_le in H1, H2. conjs.
  - apply orb_false_iff. split; [apply andb_false_iff; right; apply Nat.leb_gt; lia|].
    apply Nat.eqb_neq. lia.
  - apply ceq_false. intros ->. change (code "+"%char) with 43 in H1. lia.
  - apply ceq_false. intros ->. change (code "-"%char) with 45 in H1. lia.
Qed.

Lemma stoi_numeral ds rest n : numeral ds n -> (n <= 2147483647)%Z ->
  (match rest with [] => True | c :: _ => is_digit_b c = false end) ->
  stoi (ds ++ rest) = Ok n.
Proof.
  intros (AD & NN & DV) LE R. pose proof (digits_val_spec ds 0 rest AD R) as E.
  change (Z.of_N 0) with 0%Z in E. rewrite DV in E.
  destruct ds as [|c ds]; [congruence|]. inversion AD; subst.
  destruct (digit_not_space _ H1) as (S1 & S2 & S3).
  unfold stoi. cbn [app skip_while]. rewrite S1, S2, S3. unfold stoi_unsigned. rewrite H1.
  cbn [app] in E.
  destruct (N.leb_spec (digits_val (c :: ds ++ rest) 0) int_max).
  - now rewrite E.
  - unfold int_max in *. lia.
Qed.

(** ** set_label *)
Lemma set_label_Ok f n f' ch :
  set_label f n = Ok (f', ch) -> (n <> 0)%Z \/ has_label f = true ->
  ch = true /\ (0 <= n <= 99999)%Z /\
  main_txt f' = main_txt f /\ right_space f' = right_space f /\ right_txt f' = right_txt f /\
  linenum f' = linenum f /\ open_delim f' = open_delim f /\
  bits f' = put_label true (bits f) /\
  (exists d, numeral d n /\ length d <= 5 /\ (n <> 0%Z -> hd c_nul d <> "0"%char) /\
     left_txt f' = (if is_fixed_format f then d ++ spaces (6 - length d) else d)) /\
  (all_white (left_space f) -> all_white (left_space f')) /\
  (is_fixed_format f = false -> length (left_txt f') + 1 < length (left_txt f) + length (left_space f) ->
     length (left_txt f') + length (left_space f') = length (left_txt f) + length (left_space f)) /\
  (is_fixed_format f = false -> left_space f <> [] -> left_space f' <> []).
Proof.
  intros H NZ. unfold set_label in H.
  apply bind_Ok in H as (u1 & A1 & H). apply assert_Ok in A1.
  apply bind_Ok in H as (u2 & A2 & H). apply assert_Ok in A2.
  apply bind_Ok in H as (u3 & A3 & H). apply assert_Ok in A3.
  apply negb_true_iff, orb_false_iff in A1 as [R1 R2].
  apply Z.ltb_ge in R1, R2.
  assert ((n =? 0)%Z && negb (has_label f) = false) as NF.
  { destruct NZ as [NZ|NZ]; [apply Z.eqb_neq in NZ; now rewrite NZ|rewrite NZ; apply andb_false_r]. }
  rewrite NF in H. cbv zeta in H. set (d := to_dec (Z.to_N n)) in *.
  destruct (to_dec_spec (Z.to_N n)) as (AD & NN & DV & LE & HZ). fold d in AD, NN, DV, LE, HZ.
  rewrite Z2N.id in DV by lia.
  assert (length d <= 5) as L5.
  { apply LE; [lia|]. change (10 ^ N.of_nat 5)%N with 100000%N. lia. }
  apply bind_Ok in H as ([lt ls] & HL & H). injection H as <- <-. flproj.
  assert (LL : lt = (if is_fixed_format f then d ++ spaces (6 - length d) else d) /\
    (all_white (left_space f) -> all_white ls) /\
    (is_fixed_format f = false -> length lt + 1 < length (left_txt f) + length (left_space f) ->
     length lt + length ls = length (left_txt f) + length (left_space f)) /\
    (is_fixed_format f = false -> left_space f <> [] -> ls <> [])).
  { assert (SK : forall k s, all_white s -> all_white (skipn k s)).
    { intros k s W. rewrite <- (firstn_skipn k s) in W. now apply Forall_app in W. }
    destruct (is_fixed_format f).
    - destruct (is_empty (left_txt f)).
      + injection HL as <- <-. conjs; auto; try discriminate.
        destruct (6 <? length (left_space f)); auto. exact (SK 6 (left_space f)).
      + apply bind_Ok in HL as (u4 & _ & HL). injection HL as <- <-. conjs; auto; discriminate.
    - destruct (Nat.ltb_spec (length d) (length (left_txt f))).
      + injection HL as <- <-. conjs; auto.
        * intros W. apply Forall_app. split; auto. apply white_spaces.
        * intros _ _. rewrite app_length, spaces_length. lia.
        * intros _ NE X. apply app_eq_nil in X as [X _]. auto.
      + destruct (Nat.ltb_spec (length (left_txt f)) (length d)).
        * destruct (Nat.ltb_spec (length d - length (left_txt f) + 1) (length (left_space f)));
            injection HL as <- <-; conjs; auto.
          -- intros _ _. rewrite skipn_length. lia.
          -- intros _ _ X. apply (f_equal (@length _)) in X. rewrite skipn_length in X. simpl in X. lia.
          -- intros _. apply white_spaces.
          -- intros _ X. lia.
          -- intros _ _. discriminate.
        * injection HL as <- <-. conjs; auto. intros _ _. lia. }
  destruct LL as (L1 & L2 & L3 & L4).
  assert (n <> 0%Z -> hd c_nul d <> "0"%char) as HD.
  { intros X. apply HZ. lia. }
  conjs; auto.
  exists d. unfold numeral. conjs; auto.
Qed.

Lemma set_label_defined f n :
  (0 <= n <= 99999)%Z -> is_fortran f = true -> is_continuation f = false ->
  (is_fixed_format f = true -> left_txt f = [] \/ has_label f = true) ->
  exists f' ch, set_label f n = Ok (f', ch).
Proof.
  intros R F C FX. unfold set_label.
  assert ((n <? 0)%Z || (99999 <? n)%Z = false) as ->.
  { apply orb_false_iff. split; apply Z.ltb_ge; lia. }
  rewrite F, C. cbn [negb assert_ bind].
  destruct (_ && _); eauto.
  destruct (is_fixed_format f).
  - destruct (is_empty (left_txt f)) eqn:E; cbn [bind]; eauto.
    apply is_empty_false in E. destruct FX as [FX|FX]; auto; [congruence|].
    rewrite FX. cbn [bind assert_]. eauto.
  - destruct (_ <? length (left_txt f)); cbn [bind]; eauto.
    destruct (length (left_txt f) <? _); cbn [bind]; eauto.
    destruct (_ <? length (left_space f)); cbn [bind]; eauto.
Qed.
