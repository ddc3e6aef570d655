(** Proofs about the fixed to free conversion: reading the converted lines. *)
From Verif Require Import Base Tags FileLine FileLine_spec FixedLine_spec LogicalFile LogicalFile_spec
  LogicalLine Token LineEdit Convert Convert_spec Base_lemmas FileLine_proofs FixedLine_proofs
  LogicalFile_proofs Convert_proofs.
Local Open Scope nat_scope.

(** ** Characters *)
Lemma source_ascii c : source_char c -> ctype_ok c = true.
Proof.
  intros [H| ->]; [|reflexivity]. unfold ctype_ok. apply Nat.ltb_lt. lia.
Qed.
Lemma source_bound c : source_char c -> (32 <= code c < 127) \/ c = c_tab.
Proof. auto. Qed.
Definition source_b (c : ascii) : bool := ((32 <=? code c) && (code c <? 127)) || ceq c c_tab.
Lemma source_bb c : source_char c <-> source_b c = true.
Proof.
  unfold source_char, source_b. rewrite orb_true_iff, andb_true_iff, Nat.leb_le, Nat.ltb_lt.
  rewrite ceq_true. tauto.
Qed.
Lemma source_space c : source_char c -> is_space_b c = true -> mem c set_str = true.
Proof.
  rewrite source_bb. destruct c as [[] [] [] [] [] [] [] []]; vm_compute; congruence.
Qed.
Lemma st_char c : mem c set_st = true -> c = c_sp \/ c = c_tab.
Proof.
  rewrite mem_In. cbn. intuition.
Qed.
Lemma str_char c : mem c set_str = true -> c = c_sp \/ c = c_tab \/ c = c_cr.
Proof. rewrite mem_In. cbn. intuition. Qed.
Lemma source_not_cr c : source_char c -> c <> c_cr.
Proof. rewrite source_bb. intros H ->. revert H. vm_compute. discriminate. Qed.

(** ** Blanks and the context of character literals *)
Lemma ctx_blank d c : c = c_sp \/ c = c_tab -> delim_ok d = true -> ctx_step d c = d.
Proof.
  intros H D. unfold delim_ok in D. unfold ctx_step.
  destruct (ceq d c_nul) eqn:E.
  - apply ceq_true in E. subst. destruct H as [-> | ->]; reflexivity.
  - destruct (ceq c d) eqn:F; auto. apply ceq_true in F. subst d.
    destruct H as [-> | ->]; vm_compute in D; discriminate.
Qed.
Lemma ctx_blanks s : forall d, Forall (fun c => mem c set_st = true) s -> delim_ok d = true ->
  ctx_after d s = d.
Proof.
  induction s as [|c s IH]; intros d F D; auto. inversion F; subst. cbn [ctx_after fold_left].
  rewrite ctx_blank; auto; [now apply IH|]. now apply st_char.
Qed.

Lemma nth_firstn {A} (l : list A) : forall k j, j < k -> nth_error (firstn k l) j = nth_error l j.
Proof.
  induction l as [|x l IH]; intros [|k] [|j] H; cbn; auto; try lia. apply IH. lia.
Qed.
Lemma no_bang_prefix d s k : (forall j, j < k -> ~ bang_at d s j) -> no_bang d (firstn k s).
Proof.
  intros H j (N & C).
  assert (j < length (firstn k s)) as LT by (apply nth_error_Some; congruence).
  rewrite firstn_length in LT. apply (H j); [lia|]. split.
  - rewrite nth_firstn in N by lia. exact N.
  - rewrite firstn_firstn, Nat.min_l in C by lia. exact C.
Qed.
Lemma no_bang_app d a b : no_bang d (a ++ b) -> no_bang d a.
Proof.
  intros H j (N & C). assert (j < length a) as LT by (apply nth_error_Some; congruence).
  apply (H j). split.
  - rewrite nth_error_app1; auto.
  - rewrite firstn_app. replace (j - length a) with 0 by lia. cbn. now rewrite app_nil_r.
Qed.

(** ** Where a converted line is cut *)
Lemma break_in_main pod m rs t j : Forall (fun c => mem c set_st = true) rs ->
  no_bang pod m -> no_amp pod m -> j < length (m ++ rs) -> breaks pod (m ++ rs ++ t) j ->
  j < length m /\ nth_error m j = Some c_amp /\ ctx_after pod (firstn j m) <> c_nul /\
  all_white (skipn (S j) m ++ rs ++ t).
Proof.
  intros ST NB NA LT (c & N & B).
  assert (j < length m) as LM.
  { destruct (Nat.lt_ge_cases j (length m)) as [|GE]; auto. exfalso.
    rewrite nth_error_app2 in N by auto. rewrite app_length in LT.
    rewrite nth_error_app1 in N by lia. apply nth_error_In in N.
    rewrite Forall_forall in ST. apply ST, st_char in N.
    destruct B as [(_ & [-> | ->])|(_ & -> & _)]; destruct N; discriminate. }
  rewrite nth_error_app1 in N by auto.
  assert (firstn j (m ++ rs ++ t) = firstn j m) as FJ.
  { rewrite firstn_app. replace (j - length m) with 0 by lia. cbn. now rewrite app_nil_r. }
  rewrite FJ in B. destruct B as [(CN & [-> | ->])|(CN & -> & W)].
  - exfalso. apply (NB j). split; auto.
  - exfalso. now apply (NA j).
  - conjs; auto. rewrite skipn_app in W. replace (S j - length m) with 0 in W by lia. exact W.
Qed.

Lemma right_more pod g t od :
  Forall (fun c => mem c set_st = true) (right_space g) ->
  no_bang pod (main_txt g) -> no_amp pod (main_txt g) -> delim_ok pod = true ->
  od = ctx_after pod (main_txt g) -> open_delim g = od ->
  (od = c_nul -> no_trailing_st (main_txt g)) -> (od <> c_nul -> right_space g = []) ->
  right_txt g = c_amp :: t -> (od <> c_nul -> t = []) ->
  right_part pod (main_txt g ++ right_space g ++ right_txt g) g.
Proof.
  intros ST NB NA D OD OG TR RS RT T.
  assert (CX : ctx_after pod (main_txt g ++ right_space g) = od).
  { rewrite ctx_after_app, <- OD. apply ctx_blanks; auto. rewrite OD. now apply delim_ok_after. }
  split; auto. split; [|rewrite OG; auto].
  right. split; [rewrite RT; discriminate|]. split; [|congruence]. split.
  - exists c_amp. rewrite app_assoc, RT, nth_error_app_mid, firstn_app_len, CX. split; auto.
    destruct (Ascii.ascii_dec od c_nul) as [->|NN]; [left; auto|]. right. conjs; auto.
    replace (S (length (main_txt g ++ right_space g))) with (length ((main_txt g ++ right_space g) ++ [c_amp]))
      by (rewrite app_length; cbn; lia).
    rewrite T by auto. rewrite skipn_all. constructor.
  - intros j LT B. apply break_in_main in B as (_ & _ & _ & W); auto.
    unfold all_white in W. rewrite !Forall_app in W. destruct W as (_ & _ & W). rewrite RT in W.
    inversion W as [|? ? X]; subst. discriminate.
Qed.

Lemma right_last pod g :
  Forall (fun c => mem c set_st = true) (right_space g) ->
  no_bang pod (main_txt g) -> no_amp pod (main_txt g) -> delim_ok pod = true ->
  ctx_after pod (main_txt g) = c_nul -> open_delim g = c_nul -> no_trailing_st (main_txt g) ->
  (right_txt g = [] \/ exists r, right_txt g = c_bang :: r) ->
  right_part pod (main_txt g ++ right_space g ++ right_txt g) g.
Proof.
  intros ST NB NA D OD OG TR RT.
  assert (CX : ctx_after pod (main_txt g ++ right_space g) = c_nul).
  { rewrite ctx_after_app, OD. apply ctx_blanks; auto. }
  split; auto. split; [|split; auto; split; auto; congruence].
  destruct RT as [RT|(r & RT)].
  - left. rewrite RT. rewrite app_nil_r. conjs; auto.
    intros j B. assert (j < length (main_txt g ++ right_space g)) as LT.
    { destruct B as (c & N & _). apply nth_error_Some. congruence. }
    rewrite <- (app_nil_r (right_space g)) in B.
    apply break_in_main in B as (LM & N & CN & W); auto.
    rewrite app_nil_r in W.
    (* the literal could not end *)
    assert (main_txt g = firstn j (main_txt g) ++ c_amp :: skipn (S j) (main_txt g)) as EM.
    { rewrite <- (firstn_skipn j (main_txt g)) at 1. f_equal. now apply skipn_cons_nth. }
    rewrite EM in OD. rewrite ctx_after_app in OD. cbn [ctx_after fold_left] in OD.
    assert (delim_ok (ctx_after pod (firstn j (main_txt g))) = true) as DD by now apply delim_ok_after.
    set (d := ctx_after pod (firstn j (main_txt g))) in *.
    assert (KEEP : forall s, all_white s -> ctx_after d s = d).
    { intros s. induction s as [|c s IH]; intros Ws; auto. inversion Ws; subst.
      cbn [ctx_after fold_left]. replace (ctx_step d c) with d; [now apply IH|].
      symmetry. unfold ctx_step. destruct (ceq d c_nul) eqn:E; [apply ceq_true in E; congruence|].
      destruct (ceq c d) eqn:F; auto. apply ceq_true in F. subst c. exfalso.
      revert H1 DD. destruct d as [[] [] [] [] [] [] [] []]; vm_compute; congruence. }
    assert (ctx_step d c_amp = d) as KA.
    { unfold ctx_step. destruct (ceq d c_nul) eqn:E; [apply ceq_true in E; congruence|].
      destruct (ceq c_amp d) eqn:F; auto. apply ceq_true in F. rewrite <- F in DD. discriminate. }
    fold (ctx_after (ctx_step d c_amp) (skipn (S j) (main_txt g))) in OD.
    rewrite KA, KEEP in OD; [congruence|]. apply Forall_app in W. apply W.
  - right. split; [rewrite RT; discriminate|]. split; [|congruence]. split.
    + exists c_bang. rewrite app_assoc, RT, nth_error_app_mid, firstn_app_len, CX. auto.
    + intros j LT B. apply break_in_main in B as (_ & _ & _ & W); auto.
      unfold all_white in W. rewrite !Forall_app in W. destruct W as (_ & _ & W). rewrite RT in W.
      inversion W as [|? ? X]; subst. discriminate.
Qed.

(** ** What is read is determined by its parts *)
Lemma first_break_eq d s i j : first_break d s i -> first_break d s j -> i = j.
Proof.
  intros (B1 & N1) (B2 & N2). destruct (Nat.lt_trichotomy i j) as [L|[->|L]]; auto; exfalso.
  - exact (N2 i L B1).
  - exact (N1 j L B2).
Qed.
Lemma trailing_split m rs m' rs' : m ++ rs = m' ++ rs' ->
  Forall (fun c => mem c set_st = true) rs -> Forall (fun c => mem c set_st = true) rs' ->
  no_trailing_st m -> no_trailing_st m' -> m = m' /\ rs = rs'.
Proof.
  assert (H : forall m m' rs rs', m ++ rs = m' ++ rs' -> length m <= length m' ->
    Forall (fun c => mem c set_st = true) rs -> no_trailing_st m' -> m = m' /\ rs = rs').
  { intros a a' b b' E LE F N.
    assert (a' = a ++ skipn (length a) a') as EA.
    { rewrite <- (firstn_skipn (length a) a') at 1. f_equal.
      apply (f_equal (firstn (length a))) in E. rewrite firstn_app_len in E.
      rewrite firstn_app in E. replace (length a - length a') with 0 in E by lia.
      cbn in E. now rewrite app_nil_r in E. }
    rewrite EA in E. rewrite <- app_assoc in E. apply app_inv_head in E.
    destruct (skipn (length a) a') as [|x q] eqn:Q.
    - rewrite app_nil_r in EA. auto.
    - exfalso. destruct (@exists_last _ (x :: q)) as (p & y & EP); [discriminate|].
      rewrite EP in EA, E. assert (mem y set_st = false) as NY.
      { apply (N (a ++ p)). now rewrite <- app_assoc. }
      rewrite E in F. rewrite <- app_assoc in F. apply Forall_app in F as [_ F]. inversion F; congruence. }
  intros E F F' N N'. destruct (Nat.le_ge_cases (length m) (length m')).
  - now apply H.
  - symmetry in E. apply H in E as [-> ->]; auto.
Qed.

Lemma left_bits_det lt b b' : left_bits lt b -> left_bits lt b' -> b = b'.
Proof.
  assert (AE : forall (p : str) c, p ++ [c] <> []) by (intros [|] ?; discriminate).
  intros [(E & ->)|[((p & E) & ->)|((p & d & E & AD & DN) & ->)]]
         [(E' & ->)|[((p' & E') & ->)|((p' & d' & E' & AD' & DN') & ->)]]; auto; exfalso; subst lt.
  - symmetry in E'. now apply AE in E'.
  - symmetry in E'. apply app_eq_nil in E' as [_ ->]. auto.
  - now apply AE in E'.
  - eapply ends_amp_not_digits; eauto.
  - apply app_eq_nil in E' as [_ ->]. auto.
  - symmetry in E'. eapply ends_amp_not_digits; eauto.
Qed.

Lemma File_Line_eq (f g : File_Line) : linenum f = linenum g -> left_txt f = left_txt g ->
  left_space f = left_space g -> main_txt f = main_txt g -> right_space f = right_space g ->
  right_txt f = right_txt g -> open_delim f = open_delim g -> bits f = bits g -> f = g.
Proof. destruct f, g; cbn. intros. congruence. Qed.

Lemma read_back g pod plc b1 :
  ascii7 (line_text g) -> delim_ok pod = true -> code_line (line_text g) ->
  left_part plc (line_text g) (left_txt g) (left_space g) (main_txt g ++ right_space g ++ right_txt g) ->
  left_bits (left_txt g) b1 ->
  right_part pod (main_txt g ++ right_space g ++ right_txt g) g ->
  bits g = (if starts_amp (right_txt g) then put_continued true b1 else b1) ->
  analyze_free (linenum g) (line_text g) pod plc false = Ok (g, false).
Proof.
  intros A D C LP LB RP BG.
  destruct (analyze_free (linenum g) (line_text g) pod plc false) as [[f l]| |] eqn:E.
  - pose proof (analyze_free_spec (linenum g) (line_text g) pod plc false) as SP. rewrite E in SP.
    pose proof (code_line_Ok _ _ _ _ _ _ E C) as (-> & body & b & LP' & LB' & RP' & BF).
    destruct (left_part_det _ _ _ _ _ _ _ _ LP LP') as (E1 & E2 & E3). subst body.
    assert (linenum f = linenum g) as EN.
    { destruct SP as [((? & _) & _)|(_ & _ & ? & _)]; auto. }
    rewrite <- E1 in LB'. pose proof (left_bits_det _ _ _ LB LB') as <-.
    destruct RP as (_ & R1 & R2 & R3 & R4). destruct RP' as (BE & R1' & R2' & R3' & R4').
    assert (right_txt f = right_txt g /\ main_txt f ++ right_space f = main_txt g ++ right_space g /\
            open_delim f = open_delim g) as (ER & EM & EO).
    { rewrite !app_assoc in BE.
      destruct R1 as [(T & NB & CX & O)|(T & FB & O)], R1' as [(T' & NB' & CX' & O')|(T' & FB' & O')].
      - rewrite T, T', !app_nil_r in BE. rewrite T, T', O, O'. auto.
      - exfalso. exact (NB _ (proj1 FB')).
      - exfalso. exact (NB' _ (proj1 FB)).
      - pose proof (first_break_eq _ _ _ _ FB FB') as LE.
        assert (main_txt g ++ right_space g = main_txt f ++ right_space f) as EM.
        { apply (f_equal (firstn (length (main_txt g ++ right_space g)))) in BE.
          rewrite firstn_app_len in BE. rewrite LE in BE at 1. now rewrite firstn_app_len in BE. }
        rewrite EM in BE. apply app_inv_head in BE. rewrite O, O', EM. auto. }
    assert (main_txt f = main_txt g /\ right_space f = right_space g) as [EM1 EM2].
    { destruct (Ascii.ascii_dec (open_delim g) c_nul) as [ON|ON].
      - rewrite EO in *. apply trailing_split; auto.
      - rewrite EO in *. rewrite (R4 ON), (R4' ON), !app_nil_r in EM. rewrite (R4 ON), (R4' ON). auto. }
    f_equal. f_equal. apply File_Line_eq; auto. rewrite BF, BG, ER. reflexivity.
  - exfalso. apply analyze_free_throw_iff in E as (_ & _ & lt & ls & body & LP' & NB & CX); auto.
    destruct (left_part_det _ _ _ _ _ _ _ _ LP LP') as (_ & _ & <-).
    destruct RP as (_ & [(_ & _ & X & _)|(_ & [X _] & _)] & _); auto. now apply (NB _ X).
  - exfalso. now apply analyze_free_total in E.
Qed.

(** ** Facts about the lines that were read as fixed format *)
Lemma expand_source raw : Forall source_char raw -> Forall source_char (expand_tabs raw).
Proof.
  intros H. unfold expand_tabs. destruct (find_first_of [c_tab] raw) as [tb|]; auto.
  destruct (tb <? 6); auto. cbv zeta. rewrite !Forall_app. split; [|split].
  - apply Forall_forall. intros x I. rewrite Forall_forall in H. apply H. eapply In_firstn; eauto.
  - unfold spaces. apply Forall_forall. intros x I. apply repeat_spec in I. subst. left. vm_compute. lia.
  - apply Forall_forall. intros x I. rewrite Forall_forall in H. apply H.
    rewrite <- (firstn_skipn (tb + count_tabs (skipn tb raw)) raw). apply in_or_app. auto.
Qed.
Lemma expand_no_tab raw : ~ In c_tab (firstn 6 (expand_tabs raw)).
Proof.
  unfold expand_tabs. destruct (find_first_of [c_tab] raw) as [tb|] eqn:E.
  - unfold find_first_of in E. apply find_from_Some in E as (pre & c & post & -> & -> & Hc & NP).
    assert (NT : ~ In c_tab pre).
    { intros I. rewrite forallb_forall in NP. apply NP in I. discriminate. }
    apply mem_In in Hc. destruct Hc as [<-|[]]. cbn [Nat.add].
    destruct (Nat.ltb_spec (length pre) 6) as [L|G]; cbv zeta.
    + rewrite firstn_app_len, skipn_app_len. cbn [count_tabs]. rewrite ceq_refl.
      set (n := count_tabs post). rewrite app_assoc. rewrite firstn_app.
      replace (6 - length (pre ++ spaces (S n + 5 * S n))) with 0
        by (rewrite app_length, spaces_length; lia).
      rewrite firstn_O, app_nil_r. intros I. apply In_firstn, in_app_or in I as [I|I]; auto.
      unfold spaces in I. apply repeat_spec in I. discriminate.
    + rewrite firstn_app. replace (6 - length pre) with 0 by lia. rewrite firstn_O. rewrite app_nil_r.
      intros I. apply In_firstn in I. auto.
  - unfold find_first_of in E. apply find_from_None in E. intros I. apply In_firstn in I.
    rewrite forallb_forall in E. apply E in I. discriminate.
Qed.
Lemma all_blank_spaces b : all_blank b -> Forall source_char b -> ~ In c_tab b -> b = spaces (length b).
Proof.
  induction b as [|c b IH]; intros A S NT; auto. inversion A; inversion S; subst.
  unfold spaces in *. cbn [length repeat]. f_equal.
  - apply str_char in H1 as [-> |[-> | ->]]; auto.
    + exfalso. apply NT. now left.
    + exfalso. now apply (source_not_cr c_cr).
  - apply IH; auto. intros I. apply NT. now right.
Qed.

Record code_facts (ln : Z) (pod : ascii) (f : File_Line) : Prop := {
  cf_num : linenum f = ln;
  cf_bang : no_bang pod (main_txt f);
  cf_ctx : open_delim f = ctx_after pod (main_txt f);
  cf_rs : Forall (fun c => mem c set_st = true) (right_space f);
  cf_trail : open_delim f = c_nul -> no_trailing_st (main_txt f);
  cf_norm : open_delim f <> c_nul -> right_space f = [];
  cf_pod : delim_ok pod = true;
  cf_ascii : ascii7 (line_text f);
  cf_head : pod = c_nul -> exists c r, main_txt f = c :: r /\ mem c set_str = false /\ is_space_b c = false;
  cf_ls : all_blank (left_space f);
  cf_left :
    (left_txt f = [] /\ bits f = b_fx) \/
    (exists c, left_txt f = spaces 5 ++ [c] /\
       bits f = if ceq c "0"%char then b_fx else set_continuation b_fx) \/
    (exists b d, left_txt f = b ++ d /\ all_blank b /\ all_digits d /\ d <> [] /\ length d <= 6 /\
       bits f = put_label true b_fx)
}.

Lemma ascii7_source s : Forall source_char s -> ascii7 s.
Proof. apply Forall_impl. apply source_ascii. Qed.

Lemma fixed_left_head raw lt w c r : fixed_left c_nul raw lt w (c :: r) -> mem c set_str = false.
Proof.
  intros FL.
  assert (SK : forall w body, skip_ok c_nul w body -> body = c :: r -> mem c set_str = false).
  { intros w' body [(_ & _ & NS)|(X & _)] ->; [|congruence].
    destruct (mem c set_str) eqn:M; auto. exfalso. apply NS. exists c, r. split; auto.
    now apply blank_is_space. }
  inversion FL; subst; eauto.
Qed.
Lemma fixed_left_white pod raw lt w body : fixed_left pod raw lt w body -> Forall source_char w -> all_blank w.
Proof.
  intros FL S.
  assert (SK : skip_ok pod w body -> all_blank w).
  { intros [(_ & AW & _)|(_ & ->)]; [|constructor].
    unfold all_blank, all_white in *. rewrite Forall_forall in *. intros c I. apply source_space; auto. }
  inversion FL; subst; auto.
Qed.
Lemma fixed_code_facts ln raw0 pod lc f :
  analyze_fixed ln raw0 pod lc = Ok f -> is_fortran f = true -> Forall source_char raw0 ->
  delim_ok pod = true -> (0 < lc -> 6 <= lc)%Z ->
  ((lc <= 0)%Z \/ (6 + Z.of_nat (length (left_space f)) <= lc)%Z) ->
  code_facts ln pod f.
Proof.
  intros H F S D L6 LC. apply expand_source in S. pose proof (expand_no_tab raw0) as NT.
  apply analyze_fixed_Ok in H. cbv zeta in H. set (raw := expand_tabs raw0) in *.
  destruct H as [(F' & _)|(_ & _ & lt & w & body & FL & FB & E1 & E2 & E3 & FR)]; [congruence|].
  assert (LT6 : length lt <= 6) by (eapply fixed_left_len; eauto).
  assert (RAW : raw = lt ++ w ++ body) by (eapply fixed_left_app; eauto).
  assert (FR' : fixed_right pod lc (length (lt ++ w)) body f).
  { apply FR. destruct LC as [|LC]; auto. right. rewrite app_length. rewrite E3, skipn_length in LC. lia. }
  destruct FR' as (NE & R1 & R2 & R3 & R4). clear FR.
  set (win := window lc (length (lt ++ w)) body) in *.
  assert (WP : exists t, body = win ++ t).
  { pose proof (window_prefix lc (length (lt ++ w)) body) as WP. fold win in WP.
    exists (skipn (length win) body). rewrite WP at 1. now rewrite firstn_skipn. }
  destruct WP as (wt & WP).
  assert (MP : exists t, body = (main_txt f ++ right_space f) ++ t).
  { destruct R1 as [(k & _ & -> & _)|(_ & -> & _)]; [|eauto].
    exists (skipn k win ++ wt). rewrite app_assoc, firstn_skipn. exact WP. }
  destruct MP as (mt & MP).
  rewrite RAW in S. apply Forall_app in S as [S1 S]. apply Forall_app in S as [S2 S3].
  assert (S4 := S3). rewrite MP in S4. apply Forall_app in S4 as [S4 _]. apply Forall_app in S4 as [S4 S5].
  assert (CX : ctx_after pod (main_txt f) = ctx_after pod (main_txt f ++ right_space f)).
  { rewrite ctx_after_app. symmetry. apply ctx_blanks; auto. now apply delim_ok_after. }
  constructor; auto.
  - apply (no_bang_app _ _ (right_space f)).
    destruct R1 as [(k & (_ & NB) & -> & _)|(NB & -> & _)]; auto. now apply no_bang_prefix.
  - rewrite CX. destruct R1 as [(k & (( _ & C) & _) & -> & _ & ->)|(_ & -> & -> & _)]; auto.
  - unfold line_text. rewrite E2, E3. unfold ascii7. rewrite !Forall_app. conjs.
    + now apply ascii7_source.
    + apply ascii7_source. rewrite <- (firstn_skipn (6 - length lt) w) in S2.
      now apply Forall_app in S2 as [_ S2].
    + now apply ascii7_source.
    + now apply ascii7_source.
    + assert (TL : forall n, Forall source_char (skipn n body)).
      { intros n. rewrite <- (firstn_skipn n body) in S3. now apply Forall_app in S3 as [_ S3]. }
      destruct R1 as [(k & _ & _ & -> & _)|(_ & _ & _ & BY)]; [now apply ascii7_source|].
      destruct BY as [(_ & ->)|(b & c & r & EB & _ & _ & ->)]; [constructor|].
      pose proof (TL (length win)) as T. apply ascii7_source in T.
      destruct (ceq c c_amp || ceq c c_bang); auto.
      apply Forall_app. split; auto. repeat constructor.
  - intros ->.
    assert (HB : forall c r, body = c :: r -> mem c set_str = false).
    { intros c r EB. rewrite EB in FL. eapply fixed_left_head; eauto. }
    destruct (main_txt f) as [|c r] eqn:EM.
    + exfalso. cbn [app] in *. destruct (right_space f) as [|c r]; [congruence|].
      apply Forall_inv in R2. assert (mem c set_str = false) as X by (eapply HB; rewrite MP; reflexivity).
      apply st_char in R2 as [-> | ->]; discriminate.
    + exists c, r. split; auto.
      assert (mem c set_str = false) as M by (eapply HB; rewrite MP; reflexivity). split; auto.
      destruct (is_space_b c) eqn:SP; auto. apply Forall_inv in S4. apply source_space in SP; auto. congruence.
  - rewrite E3. 
    assert (all_blank w) as BW by (eapply fixed_left_white; eauto).
    rewrite <- (firstn_skipn (6 - length lt) w) in BW. now apply Forall_app in BW as [_ BW].
  - rewrite E2. inversion FB as [EL EBits|b c L5 AB M EL EBits|b d L5 AB AD DN LD EL EBits].
    + left. auto.
    + right; left. exists c. split; auto. f_equal. rewrite <- L5. apply all_blank_spaces; auto.
      * rewrite <- EL in S1. now apply Forall_app in S1.
      * intros I. apply NT. rewrite RAW, <- EL. rewrite <- app_assoc, firstn_app.
        apply in_or_app. left. rewrite firstn_all2; auto. lia.
    + right; right. exists b, d. auto 10.
Qed.

(** ** A converted Fortran line read again *)
Lemma app_split_le {A} (a b c d : list A) : a ++ b = c ++ d -> length a <= length c ->
  exists u, c = a ++ u /\ b = u ++ d.
Proof.
  revert c; induction a as [|x a IH]; intros c E LE; cbn [app] in *.
  - exists c. auto.
  - destruct c as [|y c]; [cbn in LE; lia|]. cbn [app length] in *. injection E as <- E.
    destruct (IH c E) as (u & -> & ->); [lia|]. exists u. auto.
Qed.

Lemma include_in_main b0 c r rs rt : all_blank b0 -> mem c set_str = false ->
  Forall (fun c => mem c set_st = true) rs ->
  (rt = [] \/ exists x t, rt = x :: t /\ (x = c_amp \/ x = c_bang)) ->
  include_line (b0 ++ (c :: r) ++ rs ++ rt) -> include_line (c :: r).
Proof.
  intros B0 MC ST RT (b & kw & sp & q & r' & E & Hb & Hk & Hsp & Hq).
  assert (exists k kw', kw = k :: kw' /\ lower_b k = "i"%char) as (k & kw' & EK & HK).
  { destruct kw as [|k kw']; [discriminate|]. injection Hk as HK _. eauto. }
  assert (b0 = b /\ (c :: r) ++ rs ++ rt = kw ++ sp ++ q :: r') as [_ E'].
  { rewrite EK in E. cbn [app] in E.
    apply (first_split_unique (fun c => mem c set_str)) in E as (E1 & E2 & E3); auto using i_not_blank.
    split; auto. rewrite EK. cbn [app]. congruence. }
  exists [], kw, sp, q.
  rewrite (app_assoc kw) in E'.
  destruct (Nat.le_gt_cases (length (c :: r)) (length (kw ++ sp))) as [LE|GT].
  - exfalso. destruct (app_split_le _ _ _ _ E' LE) as (u & EU & ER).
    assert (NQ : ~ In q rs).
    { intros I. rewrite Forall_forall in ST. apply ST, st_char in I.
      destruct Hq as [-> | ->]; destruct I; discriminate. }
    destruct (Nat.le_gt_cases (length rs) (length u)) as [LU|GU].
    + destruct (app_split_le _ _ _ _ ER LU) as (u' & -> & ->).
      destruct RT as [RT|(x & t & RT & HX)].
      { destruct u'; discriminate. }
      destruct u' as [|y u'].
      { cbn [app] in RT. injection RT as <- _. destruct Hq as [-> | ->], HX; discriminate. }
      cbn [app] in RT. injection RT as -> _.
      assert (In x (kw ++ sp)) as IX.
      { rewrite EU. apply in_or_app. right. apply in_or_app. right. now left. }
      apply in_app_or in IX as [IX|IX].
      * apply (in_map lower_b) in IX. rewrite Hk in IX.
        assert (lower_b x = x) as LX by (destruct HX as [-> | ->]; reflexivity).
        rewrite LX in IX. cbn in IX. destruct HX as [-> | ->]; intuition discriminate.
      * rewrite Forall_forall in Hsp. apply Hsp in IX. subst x. destruct HX; discriminate.
    + apply NQ. symmetry in ER.
      destruct (app_split_le (u ++ [q]) r' rs rt) as (v & -> & _).
      * now rewrite <- app_assoc.
      * rewrite app_length. cbn [length]. lia.
      * apply in_or_app. left. apply in_or_app. right. now left.
  - symmetry in E'. replace ((kw ++ sp) ++ q :: r') with (((kw ++ sp) ++ [q]) ++ r') in E'
      by (now rewrite <- app_assoc).
    destruct (app_split_le _ _ _ _ E') as (u & EU & _).
    { rewrite app_length. cbn [length] in *. lia. }
    exists u. rewrite EU. rewrite <- !app_assoc. cbn [app]. conjs; auto. constructor.
Qed.

Lemma code_line_head b c r : all_blank b -> mem c set_str = false -> c <> c_bang ->
  (b = [] -> c <> c_hash) -> ~ include_line (b ++ c :: r) -> code_line (b ++ c :: r).
Proof.
  intros B M NB NH NI. split; [|split; [|split; auto]].
  - intros X. unfold blank_line, all_blank in X. apply Forall_app in X as [_ X]. inversion X; congruence.
  - intros (b' & r' & B' & E).
    apply (first_split_unique (fun c => mem c set_str)) in E as (_ & E & _); auto.
  - intros (r' & E). destruct b as [|x b]; cbn [app] in E; injection E as E _; subst.
    + now apply NH.
    + inversion B; subst. discriminate.
Qed.
Lemma include_head b c r : all_blank b -> mem c set_str = false -> include_line (b ++ c :: r) ->
  lower_b c = "i"%char.
Proof.
  intros B M (b' & kw & sp & q & r' & E & Hb & Hk & _).
  destruct kw as [|k kw]; [discriminate|]. injection Hk as HK _. cbn [app] in E.
  apply (first_split_unique (fun c => mem c set_str)) in E as (_ & -> & _); auto using i_not_blank.
Qed.

Lemma Bits_eq a b : b_blank a = b_blank b -> b_comment a = b_comment b -> b_continued a = b_continued b ->
  b_continuation a = b_continuation b -> b_label a = b_label b -> b_preprocessor a = b_preprocessor b ->
  b_include a = b_include b -> b_flpr_pp a = b_flpr_pp b -> b_flpr_lit a = b_flpr_lit b ->
  b_fixed a = b_fixed b -> a = b.
Proof. destruct a, b; cbn. intros. congruence. Qed.

Lemma spaces_blank n : all_blank (spaces n).
Proof. unfold spaces. apply Forall_forall. intros x I. apply repeat_spec in I. now subst. Qed.
Lemma spaces_ascii n : ascii7 (spaces n).
Proof. unfold spaces. apply Forall_forall. intros x I. apply repeat_spec in I. now subst. Qed.

Lemma starts_not_head p c r : ~ starts_with p (c :: r) <-> p c = false.
Proof.
  split.
  - intros H. destruct (p c) eqn:E; auto. exfalso. apply H. exists c, r. auto.
  - intros H (x & t & E & P). injection E as <- _. congruence.
Qed.
Lemma no_bang_head c r : no_bang c_nul (c :: r) -> c <> c_bang.
Proof. intros H ->. apply (H 0). split; reflexivity. Qed.
Lemma no_amp_head c r : no_amp c_nul (c :: r) -> c <> c_amp.
Proof. intros H ->. now apply (H 0). Qed.

Lemma reread_code ln pod lc f g plc (more cut : Prop) fb :
  code_facts ln pod f -> is_fortran f = true ->
  standard_line lc fb pod cut f ->
  code_converted (fb = true) more cut f g ->
  (more \/ ~ more) -> (cut \/ ~ cut) ->
  (fb = true -> pod = c_nul /\ plc = false) ->
  (fb = false -> is_continuation f = true /\ plc = true) ->
  (~ more -> open_delim f = c_nul) ->
  analyze_free ln (line_text g) pod plc false = Ok (g, false).
Proof.
  intros CF F ST (SC & CC1 & CC2 & CC3 & CE1 & CE2) DM DC FI LA OL.
  destruct CF as [c_num c_bg c_ctx c_rs c_tr c_no c_pod c_as c_hd c_ls c_lf].
  destruct SC as (S1 & S2 & S3 & S4 & S5 & S6 & S7 & S8 & S9 & S10 & S11).
  rewrite <- c_num, <- S1.
  (* the end of the line *)
  assert (RS : Forall (fun c => mem c set_st = true) (right_space g) /\
               (open_delim g <> c_nul -> right_space g = [])).
  { destruct DM as [M|M].
    - destruct (CE1 M) as (_ & [(_ & -> & _)|(_ & _ & [->|(a & b & E & _)])]); rewrite ?S3; auto.
      rewrite E in c_rs. inversion c_rs as [|? ? ? H2]; subst. inversion H2; subst. split; auto.
      intros O. apply c_no in O. rewrite E in O. discriminate.
    - destruct (CE2 M) as (-> & _). rewrite S3. auto. }
  destruct RS as [RS RS'].
  assert (RT : (more /\ exists t, right_txt g = c_amp :: t /\ (open_delim f <> c_nul -> t = [])) \/
               (~ more /\ right_txt g = right_txt f)).
  { destruct DM as [M|M].
    - left. split; auto. destruct (CE1 M) as (_ & [(_ & _ & ->)|(NE & -> & _)]).
      + exists []. auto.
      + eexists. split; [reflexivity|]. intros O. apply (st_beyond _ _ _ _ _ ST) in O. congruence.
    - right. split; auto. apply CE2; auto. }
  assert (RP : right_part pod (main_txt g ++ right_space g ++ right_txt g) g).
  { destruct RT as [(M & t & E & T)|(M & E)].
    - eapply (right_more pod g t (open_delim f)); auto; rewrite ?S2, ?S3 in *; auto.
      apply (st_amp _ _ _ _ _ ST).
    - specialize (OL M). rewrite OL in *. apply right_last; rewrite ?S2, ?S3, ?E; auto.
      + apply (st_amp _ _ _ _ _ ST).
      + apply (st_right _ _ _ _ _ ST). }
  assert (RX : right_txt g = [] \/ exists x t, right_txt g = x :: t /\ (x = c_amp \/ x = c_bang)).
  { destruct RT as [(M & t & E & _)|(M & E)].
    - right. exists c_amp, t. auto.
    - rewrite E. destruct (st_right _ _ _ _ _ ST) as [->|(r & ->)]; [auto|]. right. exists c_bang, r. auto. }
  assert (CONT : is_continued g = starts_amp (right_txt g)).
  { destruct RT as [(M & t & E & _)|(M & E)].
    - destruct (CE1 M) as (-> & _). rewrite E. reflexivity.
    - destruct (CE2 M) as (_ & _ & ->).
      assert (is_continued f = false) as ->.
      { unfold is_continued. destruct c_lf as [(_ & ->)|[(c & _ & ->)|(b & d & _ & _ & _ & _ & _ & ->)]]; auto.
        destruct (ceq c "0"%char); reflexivity. }
      rewrite E. destruct (st_right _ _ _ _ _ ST) as [->|(r & ->)]; reflexivity. }
  assert (ARIGHT : ascii7 (main_txt g ++ right_space g ++ right_txt g)).
  { unfold line_text, ascii7 in *. rewrite !Forall_app in *. destruct c_as as (_ & _ & A3 & A4 & A5).
    rewrite S2. conjs; auto.
    - apply Forall_impl with (2 := RS). intros c H. apply st_char in H as [-> | ->]; reflexivity.
    - destruct DM as [M|M].
      + destruct (CE1 M) as (_ & [(_ & _ & ->)|(_ & -> & _)]); repeat constructor; auto.
      + destruct (CE2 M) as (_ & -> & _). auto. }
  (* the plain start, shared by the first line and by later ones *)
  assert (PLAIN : pod = c_nul -> left_txt g = [] -> left_space g = spaces 6 ++ left_space f ->
            (plc = false -> ~ starts_with is_digit_b (main_txt g)) ->
            ascii7 (line_text g) /\ code_line (line_text g) /\
            left_part plc (line_text g) (left_txt g) (left_space g)
              (main_txt g ++ right_space g ++ right_txt g)).
  { intros -> EL ES DG. destruct (c_hd eq_refl) as (c & r & EM & MC & _). rewrite <- S2 in EM.
    assert (all_blank (left_space g)) as BL by (rewrite ES; apply Forall_app; split; [apply spaces_blank|auto]).
    assert (NB : c <> c_bang) by (rewrite <- S2, EM in c_bg; eapply no_bang_head; eauto).
    assert (NA : c <> c_amp).
    { pose proof (st_amp _ _ _ _ _ ST) as NA. rewrite <- S2, EM in NA. eapply no_amp_head; eauto. }
    assert (LTX : line_text g = left_space g ++ c :: (r ++ right_space g ++ right_txt g)).
    { unfold line_text. rewrite EL, EM. reflexivity. }
    split; [|split].
    - unfold line_text. rewrite EL. cbn [app]. apply Forall_app. split; auto.
      rewrite ES. apply Forall_app. split; [apply spaces_ascii|].
      unfold line_text, ascii7 in c_as. rewrite !Forall_app in c_as. apply c_as.
    - rewrite LTX. apply code_line_head; auto.
      + rewrite ES. intros X. apply app_eq_nil in X as [X _]. discriminate.
      + intros IL. pose proof (st_include _ _ _ _ _ ST) as NI. rewrite <- S2, EM in NI. apply NI.
        eapply (include_in_main (left_space g) c r (right_space g) (right_txt g)); auto.
    - rewrite EL. unfold line_text. rewrite EL. cbn [app].
      apply LP_plain; auto; rewrite EM in *; cbn [app].
      + discriminate.
      + now apply starts_not_head.
      + apply starts_not_head. apply ceq_false. auto.
      + intros P. apply DG in P. apply starts_not_head in P. now apply starts_not_head. }
  (* the bits *)
  assert (FLAGS : forall b1 b0, bits f = b0 -> b_fixed b1 = false -> b_continued b1 = false ->
      (b_label b1 = b_label b0) -> (b_comment b1 = b_comment b0) -> b_blank b1 = b_blank b0 ->
      b_preprocessor b1 = b_preprocessor b0 -> b_include b1 = b_include b0 -> b_flpr_pp b1 = b_flpr_pp b0 ->
      b_flpr_lit b1 = b_flpr_lit b0 -> is_continuation g = b_continuation b1 ->
      bits g = (if starts_amp (right_txt g) then put_continued true b1 else b1)).
  { intros b1 b0 E0 F1 F2 F3 F4 F5 F6 F7 F8 F9 F10.
    unfold has_label, is_comment, is_blank, is_preprocessor, is_include, is_flpr_pp, is_flpr_lit,
      is_fixed_format, is_continued, is_continuation in *. rewrite E0 in *.
    apply Bits_eq; destruct (starts_amp (right_txt g)); cbn [put_continued b_blank b_comment b_continued
      b_continuation b_label b_preprocessor b_include b_flpr_pp b_flpr_lit b_fixed]; congruence. }
  destruct fb.
  - (* the first line *)
    destruct (FI eq_refl) as [EP EPL]. destruct (CC1 eq_refl) as (CN & FP & FS).
    pose proof (st_digit _ _ _ _ _ ST eq_refl) as DG. rewrite <- S2 in DG.
    destruct c_lf as [(EL & EB)|[(c & EL & EB)|(b & d & EL & AB & AD & DN & LD & EB)]].
    + destruct (FP EL) as [GL GS]. destruct PLAIN as (A & C & LP); auto.
      apply read_back with (b1 := bits0); try assumption.
      * left. auto.
      * apply FLAGS with (1 := EB); try reflexivity. rewrite CN. unfold is_continuation. rewrite EB. reflexivity.
    + exfalso. destruct (st_mark _ _ _ _ _ ST eq_refl) as [X|X].
      * rewrite EL in X. discriminate.
      * unfold has_label in X. rewrite EB in X. destruct (ceq c "0"%char); discriminate.
    + destruct FS as [GL GS].
      { rewrite EL. intros X. apply app_eq_nil in X as [_ X]. auto. }
      rewrite EL in GL.
      assert (exists x d', d = x :: d') as (x & d' & ED) by (destruct d; [congruence|eauto]).
      assert (is_digit_b x = true) as DX by (rewrite ED in AD; now inversion AD).
      pose proof (digit_not_blank _ DX) as MX.
      assert (LTX : line_text g = b ++ x :: (d' ++ left_space g ++ main_txt g ++ right_space g ++ right_txt g)).
      { unfold line_text. rewrite GL, ED. rewrite <- !app_assoc. reflexivity. }
      destruct (c_hd EP) as (c & r & EM & MC & SPC). rewrite <- S2 in EM.
      apply read_back with (b1 := put_label true bits0); try assumption.
      * unfold line_text, ascii7 in *. rewrite GL, GS. rewrite EL in c_as. rewrite !Forall_app in *. tauto.
      * rewrite LTX. apply code_line_head; auto.
        -- intros ->. discriminate.
        -- intros _ ->. discriminate.
        -- intros IL. apply include_head in IL; auto. apply lower_i in IL.
           destruct IL as [-> | ->]; discriminate.
      * unfold line_text at 1. rewrite GL, GS. rewrite <- app_assoc. apply LP_label; auto.
        -- destruct d; [congruence|cbn [length] in *; lia].
        -- now apply blank_white.
        -- intros _. rewrite EM in *. destruct (left_space f) as [|y l]; cbn [app].
           ++ apply starts_not_head. now apply starts_not_head in DG.
           ++ apply starts_not_head. inversion c_ls; subst. now apply white_not_digit, blank_is_space.
        -- rewrite EM. cbn [app]. apply starts_not_head.
           exact SPC.
      * right; right. split; auto. exists b, d. auto.
      * apply FLAGS with (1 := EB); try reflexivity. rewrite CN. unfold is_continuation. rewrite EB. reflexivity.
  - (* a later line *)
    destruct (LA eq_refl) as [CNF EPL]. assert (false <> true) as NF by discriminate.
    destruct c_lf as [(EL & EB)|[(c & EL & EB)|(b & d & EL & AB & AD & DN & LD & EB)]].
    1,3: exfalso; unfold is_continuation in CNF; rewrite EB in CNF; discriminate.
    assert (bits f = set_continuation b_fx) as EB'.
    { rewrite EB. destruct (ceq c "0"%char) eqn:C0; auto.
      unfold is_continuation in CNF. rewrite EB in CNF. discriminate. }
    destruct DC as [CT|CT].
    + destruct (CC2 NF CT) as (CN & GL & GS). rewrite (st_cut _ _ _ _ _ ST CT) in GS.
      assert (firstn 5 (left_txt f) = spaces 5) as F5 by (rewrite EL; reflexivity).
      rewrite F5 in GL.
      apply read_back with (b1 := set_continuation bits0); try assumption.
      * unfold line_text. rewrite GL, GS. apply Forall_app. split; auto. repeat constructor.
      * unfold line_text. rewrite GL, GS. rewrite <- app_assoc. cbn [app].
        apply code_line_head; auto using spaces_blank; try discriminate.
        intros IL. apply include_head in IL; auto using spaces_blank. discriminate.
      * unfold line_text. rewrite GL, GS. rewrite <- app_assoc. cbn [app]. apply LP_amp. apply spaces_blank.
      * right; left. split; auto. exists (spaces 5). auto.
      * apply FLAGS with (1 := EB'); try reflexivity. rewrite CN. unfold is_continuation. rewrite EB'. reflexivity.
    + destruct (CC3 NF CT) as (CN & GL & GS).
      assert (pod = c_nul) as EP.
      { destruct (Ascii.ascii_dec pod c_nul) as [|NP]; auto. exfalso. apply CT, (st_open _ _ _ _ _ ST NP). }
      destruct PLAIN as (A & C & LP); auto.
      { intros. congruence. }
      apply read_back with (b1 := bits0); try assumption.
      * left. auto.
      * apply FLAGS with (1 := EB'); try reflexivity. exact CN.
Qed.
