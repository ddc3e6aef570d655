From Verif Require Import Base Base_lemmas FileLine Utils Utils_spec.
Local Open Scope nat_scope.

Lemma ascii7_ok c : ascii7 c -> ctype_ok c = true.
Proof. intros H. unfold ctype_ok, code. now apply Nat.ltb_lt. Qed.
Lemma map_res_ok {A B} (f : A -> res B) g l : (forall x, In x l -> f x = Ok (g x)) -> map_res f l = Ok (map g l).
Proof.
  induction l as [|x l IH]; intros H; [reflexivity|]. cbn. rewrite H by now left. cbn. rewrite IH; [reflexivity|]. intros; apply H. now right.
Qed.
Lemma lower_ok s : Forall ascii7 s -> tolower_s s = Ok (map lower_b s) /\ toupper_s s = Ok (map upper_b s).
Proof.
  intros H. rewrite Forall_forall in H. split; apply map_res_ok; intros x I; unfold c_tolower, c_toupper; now rewrite ascii7_ok by auto.
Qed.
Lemma white_b c : is_space_b c = true <-> white c.
Proof.
  unfold is_space_b, white, code. split.
  - intros H. assert (K : In (nat_of_ascii c) [32; 9; 10; 11; 12; 13]).
    { apply orb_true_iff in H as [H|H]; [apply andb_true_iff in H as [H1 H2]; apply Nat.leb_le in H1, H2|apply Nat.eqb_eq in H]; cbn; lia. }
    rewrite <- (ascii_nat_embedding c). cbn in K. repeat destruct K as [K|K]; try (rewrite <- K; cbn; tauto). contradiction.
  - cbn. intros H. repeat destruct H as [H|H]; try (subst c; reflexivity). contradiction.
Qed.
Lemma skip_ws_ok s : Forall ascii7 s -> exists a t, skip_ws s = Ok t /\ s = a ++ t /\ Forall white a /\ (forall c r, t = c :: r -> ~ white c).
Proof.
  induction 1 as [|c s H _ IH]; cbn.
  - exists [], []. repeat split; auto. discriminate.
  - unfold c_isspace. rewrite (ascii7_ok c H). cbn [bind]. destruct (is_space_b c) eqn:E.
    + destruct IH as (a & t & -> & -> & A & B). exists (c :: a), t. repeat split; auto. constructor; [now apply white_b|assumption].
    + exists [], (c :: s). repeat split; auto. intros c' r [= <- <-] W. apply white_b in W. congruence.
Qed.
Lemma trim_ok s : Forall ascii7 s -> exists t, trim s = Ok t /\ stripped white s t.
Proof.
  intros H. unfold trim. destruct (skip_ws_ok s H) as (a & t & -> & E & A & B). cbn [bind].
  assert (Ht : Forall ascii7 t) by (subst s; apply Forall_app in H; tauto).
  destruct (skip_ws_ok (rev t)) as (b & u & -> & E2 & A2 & B2); [now apply Forall_rev|]. cbn [bind]. eexists. split; [reflexivity|].
  assert (ET : t = rev u ++ rev b) by (rewrite <- (rev_involutive t), E2, rev_app_distr; reflexivity).
  exists a, (rev b). repeat split; [now rewrite E, ET|assumption|now apply Forall_rev| |].
  - intros c r EC. apply (B c (r ++ rev b)). rewrite ET, EC. reflexivity.
  - intros c r EC. apply (B2 c (rev r)). rewrite <- (rev_involutive u), EC, rev_app_distr. reflexivity.
Qed.
Lemma blank_mem c : mem c set_st = true <-> blank c.
Proof. rewrite mem_In. unfold blank, set_st, c_sp, c_tab. tauto. Qed.
Lemma last_split s : match find_last_not_of set_st s with
  | None => Forall blank s
  | Some i => exists c, s = firstn i s ++ c :: skipn (S i) s /\ nth_error s i = Some c /\ ~ blank c /\ Forall blank (skipn (S i) s)
  end.
Proof.
  induction s as [|c s IH]; cbn [find_last_not_of]; [constructor|].
  destruct (find_last_not_of set_st s) as [i|].
  - destruct IH as (x & E & N & B & F). exists x. split; [exact (f_equal (cons c) E)|]. split; [exact N|]. split; [exact B|exact F].
  - destruct (mem c set_st) eqn:M.
    + constructor; [now apply blank_mem|assumption].
    + exists c. cbn. repeat split; auto. intros B. apply blank_mem in B. congruence.
Qed.
Lemma trim_back_ok s : exists t, trim_back s = Ok t /\ trim_back_copy s = t /\ stripped_back blank s t /\
  last_non_blank_char s = Ok (last t c_nul).
Proof.
  unfold trim_back, trim_back_copy, last_non_blank_char. pose proof (last_split s) as H. destruct (find_last_not_of set_st s) as [i|].
  - destruct H as (c & E & N & B & F). assert (LI : i < length s) by (apply nth_error_Some; congruence).
    exists (firstn (i + 1) s). unfold erase_from. destruct (Nat.leb_spec (i + 1) (length s)); [|lia].
    assert (FE : firstn (i + 1) s = firstn i s ++ [c]). { rewrite Nat.add_1_r. now apply firstn_S_nth. }
    split; [reflexivity|]. split; [reflexivity|]. split.
    + exists (skipn (i + 1) s). split; [now rewrite firstn_skipn|]. rewrite Nat.add_1_r at 1. split; [assumption|].
      intros c' r EC. rewrite FE in EC. apply app_inj_tail in EC as [_ <-]. exact B.
    + rewrite FE, last_last. unfold at_. now rewrite N.
  - exists []. repeat split; auto. exists s. repeat split; auto. intros c [|] X; discriminate.
Qed.

(** ** simple_tokenize *)
Lemma word_cut (d : ascii) (s : str) : exists w : str, ~ In d w /\ (s = w \/ exists r, s = w ++ d :: r).
Proof.
  induction s as [|c s (w & N & H)]; [exists []; split; [auto|now left]|].
  destruct (ascii_dec c d) as [->|NE]; [exists []; split; [auto|right; now exists s]|].
  exists (c :: w). split; [intros [<-|I]; auto|]. destruct H as [->|(r & ->)]; [now left|right; now exists r].
Qed.
Lemma scan_tok_ok w : forall fuel pre d s tl, s = pre ++ w ++ tl -> ~ In d w -> (tl = [] \/ exists r, tl = d :: r) -> length w < fuel ->
  scan_tok fuel s d (length pre) = Ok (length pre + length w).
Proof.
  induction w as [|c w IH]; intros fuel pre d s tl E N T F; (destruct fuel as [|fuel]; [cbn in F; lia|]); cbn [scan_tok].
  - cbn in *. rewrite Nat.add_0_r. destruct T as [->|(r & ->)].
    + rewrite app_nil_r in E. subst. now rewrite Nat.eqb_refl.
    + subst s. rewrite app_length. cbn. destruct (Nat.eqb_spec (length pre) (length pre + S (length r))); [lia|].
      rewrite nth_error_app_mid, ceq_refl. reflexivity.
  - subst s. cbn [app]. rewrite app_length. cbn [length]. rewrite app_length. destruct (Nat.eqb_spec (length pre) (length pre + S (length w + length tl))); [lia|].
    rewrite nth_error_app_mid. destruct (ceq d c) eqn:EC; [apply ceq_true in EC; subst; exfalso; apply N; now left|].
    replace (S (length pre)) with (length (pre ++ [c])) by (rewrite app_length; cbn; lia).
    rewrite (IH fuel (pre ++ [c]) d _ tl); [|now rewrite <- app_assoc|intros I; apply N; now right|exact T|cbn in F; lia].
    rewrite app_length. cbn. f_equal. lia.
Qed.
Lemma tok_loop_ok fuel : forall s d pre rest t, s = pre ++ rest -> length rest < fuel ->
  exists ts, tok_loop fuel s d (length pre) t = Ok (t ++ ts) /\ words d rest ts.
Proof.
  induction fuel as [|fuel IH]; intros s d pre rest t E F; [lia|]. cbn [tok_loop].
  destruct (word_cut d rest) as (w & N & H).
  assert (S1 : exists tl, rest = w ++ tl /\ (tl = [] \/ exists r, tl = d :: r)).
  { destruct H as [->|(r & ->)]; [exists []; rewrite app_nil_r; auto|exists (d :: r); eauto]. }
  destruct S1 as (tl & ER & T).
  rewrite (scan_tok_ok w _ pre d s tl); [|now rewrite E, ER|exact N|exact T|rewrite E, ER, !app_length; lia]. cbn [bind].
  replace (length pre + length w - length pre) with (length w) by lia.
  assert (EW : firstn (length w) (skipn (length pre) s) = w) by (rewrite E, ER, skipn_app_len, firstn_app_len; reflexivity).
  rewrite EW.
  set (ts0 := if negb (length pre =? length pre + length w) then [w] else []).
  assert (ETS : (if negb (length pre =? length pre + length w) then t ++ [w] else t) = t ++ ts0).
  { unfold ts0. destruct (negb _); [reflexivity|now rewrite app_nil_r]. }
  unfold str in *. rewrite ETS. assert (W0 : w = [] /\ ts0 = [] \/ w <> [] /\ ts0 = [w]).
  { unfold ts0. destruct w; cbn; [rewrite Nat.add_0_r, Nat.eqb_refl; auto|].
    destruct (Nat.eqb_spec (length pre) (length pre + S (length w))); [lia|]. right. split; [discriminate|reflexivity]. }
  destruct T as [->|(r & ->)].
  - rewrite app_nil_r in ER. subst w. rewrite E, app_length, Nat.eqb_refl. cbn [negb]. exists ts0. split; [reflexivity|].
    destruct W0 as [(-> & ->)|(W & ->)]; [constructor|now constructor].
  - assert (NE : negb (length s =? length pre + length w) = true).
    { apply negb_true_iff, Nat.eqb_neq. rewrite E, ER, !app_length. cbn. lia. }
    rewrite NE. replace (S (length pre + length w)) with (length (pre ++ w ++ [d])) by (rewrite !app_length; cbn; lia).
    destruct (IH s d (pre ++ w ++ [d]) r (t ++ ts0)) as (ts & R & WS).
    + rewrite E, ER, <- !app_assoc. reflexivity.
    + rewrite ER, app_length in F. cbn in F. lia.
    + exists (ts0 ++ ts). split; [now rewrite R, app_assoc|]. rewrite ER.
      destruct W0 as [(-> & ->)|(W & ->)]; cbn; now constructor.
Qed.
Lemma cut_unique (d : ascii) w s w' s' : ~ In d w -> ~ In d w' -> w ++ d :: s = w' ++ d :: s' -> w = w' /\ s = s'.
Proof.
  revert w'. induction w as [|c w IH]; intros [|c' w'] N N' E; cbn in E.
  - injection E as ->. auto.
  - injection E as -> _. exfalso. apply N'. now left.
  - injection E as -> _. exfalso. apply N. now left.
  - injection E as -> E. destruct (IH w') as (-> & ->); auto; intros I; [apply N|apply N']; now right.
Qed.
Lemma words_unique d s ts : words d s ts -> forall ts', words d s ts' -> ts = ts'.
Proof.
  induction 1 as [|s ts H IH|w W N|w s ts W N H IH]; intros ts' H'.
  - inversion H'; subst; auto; [congruence|]. destruct w; discriminate.
  - inversion H'; subst; auto.
    + exfalso. apply H1. now left.
    + destruct w; [congruence|]. cbn in *. injection H0 as -> _. exfalso. apply H2. now left.
  - inversion H'; subst; auto.
    + congruence.
    + exfalso. apply N. now left.
    + exfalso. apply N. apply in_or_app. right. now left.
  - inversion H'; subst.
    + destruct w; discriminate.
    + destruct w; [congruence|]. cbn in *. injection H0 as -> _. exfalso. apply N. now left.
    + exfalso. apply H1. apply in_or_app. right. now left.
    + destruct (cut_unique d w s w0 s0) as (-> & ->); auto. f_equal. auto.
Qed.

(** ** file types *)
Lemma str_eqb_eq a b : Utils.str_eqb a b = true <-> a = b.
Proof.
  revert b. induction a as [|x a IH]; intros [|y b]; cbn; try (split; congruence).
  rewrite andb_true_iff, IH, ceq_true. split; [intros [-> ->]; reflexivity|intros [= -> ->]; auto].
Qed.
Lemma find_last_ok c s : match find_last c s with
  | None => ~ In c s
  | Some i => s = firstn i s ++ c :: skipn (i + 1) s /\ ~ In c (skipn (i + 1) s) /\ i + 1 <= length s
  end.
Proof.
  induction s as [|x s IH]; cbn [find_last]; [auto|]. destruct (find_last c s) as [i|].
  - destruct IH as (E & N & L). split; [exact (f_equal (cons x) E)|]. split; [exact N|cbn; lia].
  - destruct (ceq c x) eqn:EC.
    + apply ceq_true in EC. subst. cbn. repeat split; auto. lia.
    + apply ceq_false in EC. intros [->|I]; auto.
Qed.
Lemma ends_in_ext s p ext c : s = firstn p s ++ c :: skipn (p + 1) s -> ~ In c (skipn (p + 1) s) -> ~ In c ext ->
  (ends_in s (c :: ext) <-> skipn (p + 1) s = ext).
Proof.
  intros E N NX. split.
  - intros (a & EA). rewrite EA in E at 1.
    assert (R : rev (a ++ c :: ext) = rev (firstn p s ++ c :: skipn (p + 1) s)) by congruence.
    rewrite !rev_app_distr in R. cbn [rev] in R. rewrite <- !app_assoc in R. cbn in R.
    apply cut_unique in R as (R & _); [|rewrite <- in_rev; auto|rewrite <- in_rev; auto].
    rewrite <- (rev_involutive ext), R, rev_involutive. reflexivity.
  - intros <-. exists (firstn p s). exact E.
Qed.
Lemma no_dot e : In e [L "f"; L "F"; L "F90"; L "f90"] -> ~ In "."%char e.
Proof. cbn. intros H I. repeat destruct H as [H|H]; try (subst e; cbn in I; repeat destruct I as [I|I]; try discriminate; contradiction). contradiction. Qed.
Lemma file_type_ok s : exists t, file_type_from_extension s = Ok t /\
  (t = FT_FREE <-> ends_in s (L ".f90")) /\
  (t = FT_FIXED <-> ends_in s (L ".f") \/ ends_in s (L ".F") \/ ends_in s (L ".F90")).
Proof.
  unfold file_type_from_extension. pose proof (find_last_ok "."%char s) as H. destruct (find_last "." s) as [p|].
  - destruct H as (E & N & LE). rewrite substr_le by lia. cbn [bind].
    pose proof (fun ext X => ends_in_ext s p ext "."%char E N X) as EX.
    change (L ".f90") with ("."%char :: L "f90"). change (L ".f") with ("."%char :: L "f"). change (L ".F") with ("."%char :: L "F"). change (L ".F90") with ("."%char :: L "F90").
    assert (X1 := EX (L "f90") (no_dot (L "f90") ltac:(cbn; tauto))). assert (X2 := EX (L "f") (no_dot (L "f") ltac:(cbn; tauto))).
    assert (X3 := EX (L "F") (no_dot (L "F") ltac:(cbn; tauto))). assert (X4 := EX (L "F90") (no_dot (L "F90") ltac:(cbn; tauto))).
    clear EX E N LE. set (e := skipn (p + 1) s) in *. clearbody e.
    assert (NN : forall x, Utils.str_eqb e x = false -> e <> x).
    { intros x F X. apply str_eqb_eq in X. congruence. }
    destruct (Utils.str_eqb e (L "f")) eqn:E1.
    { apply str_eqb_eq in E1. subst e. eexists. split; [reflexivity|]. rewrite X1, X2, X3, X4. split; split; try discriminate; tauto. }
    destruct (Utils.str_eqb e (L "F")) eqn:E2.
    { apply str_eqb_eq in E2. subst e. eexists. split; [reflexivity|]. rewrite X1, X2, X3, X4. split; split; try discriminate; tauto. }
    destruct (Utils.str_eqb e (L "F90")) eqn:E3.
    { apply str_eqb_eq in E3. subst e. eexists. split; [reflexivity|]. rewrite X1, X2, X3, X4. split; split; try discriminate; tauto. }
    apply NN in E1, E2, E3. cbn [orb].
    destruct (Utils.str_eqb e (L "f90")) eqn:E4.
    + apply str_eqb_eq in E4. eexists. split; [reflexivity|]. rewrite X1, X2, X3, X4. split; split; try discriminate; tauto.
    + apply NN in E4. eexists. split; [reflexivity|]. rewrite X1, X2, X3, X4. split; split; try discriminate; tauto.
  - eexists. split; [reflexivity|].
    assert (X : forall e, ~ ends_in s ("."%char :: e)).
    { intros e (a & ->). apply H. apply in_or_app. right. now left. }
    split; (split; [discriminate|]); [intros Y; destruct (X _ Y)|intros [Y|[Y|Y]]; destruct (X _ Y)].
Qed.
