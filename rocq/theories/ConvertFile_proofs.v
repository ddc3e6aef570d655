(** Reading a converted file again: comment lines and the like, then whole files. *)
From Verif Require Import Base Base_lemmas Tags FileLine FileLine_spec FileLine_proofs FixedLine_spec
  FixedLine_proofs LogicalFile LogicalFile_spec LogicalFile_proofs LogicalLine Token
  LineEdit Convert Convert_spec Convert_proofs ConvertRead_proofs.
Local Open Scope nat_scope.

Lemma fixed_other ln raw0 pod lc f : analyze_fixed ln raw0 pod lc = Ok f -> is_fortran f = false ->
  let raw := expand_tabs raw0 in
  plain_left f ln raw /\
  ((blank_line raw /\ bits f = set_blank b_fx) \/
   (~ blank_line raw /\ is_blank f = true /\ is_comment f = false) \/
   (hash_line raw /\ bits f = set_preprocessor b_fx) \/
   (include_line raw /\ bits f = set_include b_fx) \/
   (exists b c r, raw = b ++ c :: r /\ all_blank b /\ mem c set_str = false /\ (c = c_bang \/ b = []) /\
      ((prefixb (L "#flpr") r = true /\ prefixb (L " literal") (skipn 8 r) = false /\
        bits f = set_flpr_pp b_fx) \/
       (prefixb (L "#flpr") r = false /\ bits f = set_comment b_fx)))).
Proof.
  intros H F raw.
  destruct (analyze_fixed_Ok _ _ _ _ _ H) as [(_ & P & _)|(F' & _)]; [|congruence].
  split; auto. clear P.
  unfold analyze_fixed in H. fold raw in H. fold b_fx in H.
  destruct (is_empty raw0) eqn:E0.
  { apply is_empty_true in E0. left. injection H as <-. subst raw raw0. split; [constructor|reflexivity]. }
  destruct (find_first_not_of set_str raw) as [ri|] eqn:FF.
  2:{ left. injection H as <-. split; [now apply find_blank_None|reflexivity]. }
  apply find_blank in FF as (b & c0 & post & E & -> & Hb & Hc).
  assert (NBL : ~ blank_line raw).
  { rewrite E. intros X. apply Forall_app in X as [_ X]. inversion X; congruence. }
  apply bind_Ok in H as (c0' & Hc0 & H).
  assert (c0' = c0) as ->.
  { rewrite E in Hc0. apply at_Ok in Hc0 as [X|[X _]].
    - rewrite nth_error_app_mid in X. congruence.
    - rewrite app_length in X. simpl in X. lia. }
  apply bind_Ok in H as (c & HC & H). apply c_toupper_Ok in HC as [_ ->].
  assert (FX : fixed_fortran ln raw pod lc (length b) (upper_b c0) = Ok f -> is_blank f = true /\ is_comment f = false).
  { intros HF. rewrite E in HF. apply fixed_fortran_spec in HF; auto.
    destruct HF as [(lt & w & b1 & EE & NE & W & FB & P & B)|(lt & w & body & FL & FB & R)].
    - unfold is_blank, is_comment. rewrite B. split; auto. inversion FB; try destruct (ceq c "0"%char); reflexivity.
    - exfalso. revert F. unfold is_fortran, is_trivial, is_comment, is_blank, is_preprocessor, is_flpr_pp,
        is_flpr_lit, is_include.
      inversion FB; try destruct (ceq c "0"%char); discriminate. }
  destruct (Nat.eqb_spec (length b) 5) as [E5|N5]; [right; left; auto|].
  destruct ((length b =? 0) && ceq (upper_b c0) c_hash) eqn:HH.
  { right; right; left. injection H as <-. split; auto. apply andb_prop in HH as [H1 H2].
    apply Nat.eqb_eq in H1. destruct b; [|discriminate]. exists post. rewrite E. cbn [app]. f_equal.
    apply ceq_true in H2. clear - H2.
    destruct c0 as [[] [] [] [] [] [] [] []]; vm_compute in H2; try discriminate; reflexivity. }
  apply bind_Ok in H as (inc & HI & H). destruct inc.
  { right; right; right; left. injection H as <-. split; auto.
    pose proof (include_spec b c0 post Hb Hc) as IS. rewrite <- E, HI in IS. now apply IS. }
  destruct (ceq (upper_b c0) c_bang || _) eqn:CC; [|right; left; auto].
  apply bind_Ok in H as (lit & HL & H). destruct lit; [discriminate|].
  apply bind_Ok in H as (dir & HD & H).
  rewrite E, flpr_literal_spec in HL. rewrite E, flpr_directive_spec in HD.
  right; right; right; right. exists b, c0, post. conjs; auto.
  - apply orb_prop in CC as [CC|CC].
    + left. apply ceq_true in CC. clear - CC.
      destruct c0 as [[] [] [] [] [] [] [] []]; vm_compute in CC; try discriminate; reflexivity.
    + right. apply andb_prop in CC as [CC _]. apply Nat.eqb_eq in CC. now destruct b.
  - injection HL as HL. injection HD as HD. destruct dir; injection H as <-.
    + left. rewrite HD in HL. auto.
    + right. auto.
Qed.

Lemma print_free_line g : is_fixed_format g = false -> print_line g = line_text g.
Proof. intros E. unfold print_line. now rewrite E, andb_false_r. Qed.

Lemma plain_text f ln raw : plain_left f ln raw -> line_text f = raw.
Proof. intros (_ & E1 & E2 & E3 & E4 & E5 & _). unfold line_text. rewrite E1, E2, E3, E4, E5. now rewrite !app_nil_r. Qed.

Lemma free_plain g raw pod plc b : plain_left g (linenum g) raw -> ascii7 raw -> delim_ok pod = true ->
  ((blank_line raw /\ b = set_blank bits0) \/
   (hash_line raw /\ b = set_preprocessor bits0) \/
   (include_line raw /\ b = set_include bits0) \/
   (flpr_dir_line raw /\ ~ flpr_lit_line raw /\ b = set_flpr_pp bits0) \/
   (bang_line raw /\ ~ flpr_dir_line raw /\ b = set_comment (put_continued plc bits0))) ->
  analyze_free (linenum g) raw pod plc false = Ok (with_bits g b, false).
Proof.
  intros (_ & P1 & P2 & P3 & P4 & P5 & P6) A D CL.
  pose proof (class_blank_others raw) as X1. pose proof (class_bang_others raw) as X2.
  pose proof (class_hash_others raw) as X3. pose proof (dir_bang raw) as X4. pose proof (lit_dir raw) as X5.
  pose proof (analyze_free_spec (linenum g) raw pod plc false) as S.
  destruct (analyze_free (linenum g) raw pod plc false) as [[f l]| |].
  - assert (NC : ~ code_line raw) by (unfold code_line; tauto).
    destruct S as [((Q0 & Q1 & Q2 & Q3 & Q4 & Q5 & Q6) & S)|(C & _)]; [|tauto].
    assert (bits f = b /\ l = false) as [EB ->].
    { destruct CL as [(?&->)|[(?&->)|[(?&->)|[(?&?&->)|(?&?&->)]]]];
      destruct S as [(?&?&->)|[(?&?&->)|[(?&?&->)|[(?&?&->)|[(?&?&?&->)|(?&?&?&->)]]]]]; split; auto; exfalso; tauto. }
    f_equal. f_equal. apply File_Line_eq; cbn [with_bits linenum left_txt left_space main_txt right_space right_txt open_delim bits]; congruence.
  - exfalso. assert (~ code_line raw) by (unfold code_line; tauto). tauto.
  - exfalso. destruct S; [congruence|auto].
Qed.

Definition reread (plc : bool) (g : File_Line) : File_Line :=
  if is_comment g then with_bits g (put_continued plc (bits g)) else g.

Lemma dir_prefix b r : all_blank b -> (flpr_dir_line (b ++ c_bang :: r) <-> prefixb (L "#flpr") r = true).
Proof.
  intros B. rewrite prefixb_true. split.
  - intros (b' & r' & B' & E). exists r'.
    apply (first_split_unique (fun c => mem c set_str)) in E as (_ & _ & E); auto.
  - intros (r' & ->). exists b, r'. auto.
Qed.
Lemma lit_prefix b r : all_blank b -> flpr_lit_line (b ++ c_bang :: r) ->
  prefixb (L " literal") (skipn 8 r) = true.
Proof.
  intros B (b' & x & r' & B' & X & E). apply prefixb_true. exists r'.
  apply (first_split_unique (fun c => mem c set_str)) in E as (_ & _ & E); auto.
  rewrite E. destruct x as [|? [|? [|? [|]]]]; try discriminate. reflexivity.
Qed.

Lemma reread_other ln raw0 pod lc f g plc :
  analyze_fixed ln raw0 pod lc = Ok f -> is_fortran f = false ->
  Forall source_char raw0 -> delim_ok pod = true ->
  (is_blank f = true -> blank_line (left_txt f)) ->
  (is_flpr_pp f = true -> bang_line (left_txt f)) ->
  (is_comment f = true -> comment_converted f g) ->
  (is_comment f = false -> other_converted f g) ->
  analyze_free ln (line_text g) pod plc false = Ok (reread plc g, false).
Proof.
  intros H F SRC D SB SP CC OC.
  pose proof (expand_no_tab raw0) as NT. apply expand_source in SRC.
  apply fixed_other in H as [P H]; auto. cbv zeta in *. set (raw := expand_tabs raw0) in *.
  assert (ET : left_txt f = raw) by apply P.
  assert (FLAGS : forall h, same_content f h -> is_continued h = is_continued f ->
     is_continuation h = is_continuation f -> bits h = put_fixed false (bits f)).
  { intros h (_ & _ & _ & S4 & S5 & S6 & S7 & S8 & S9 & S10 & S11) S12 S13.
    unfold has_label, is_comment, is_blank, is_preprocessor, is_include, is_flpr_pp, is_flpr_lit,
      is_fixed_format, is_continued, is_continuation in *.
    apply Bits_eq; cbn [put_fixed b_blank b_comment b_continued
      b_continuation b_label b_preprocessor b_include b_flpr_pp b_flpr_lit b_fixed]; congruence. }
  destruct (is_comment f) eqn:CM.
  - destruct (CC eq_refl) as (SC & S12 & S13 & S14 & S15 & S16 & c & r & EL & EG). clear CC OC.
    pose proof (FLAGS g SC S12 S13) as BG. destruct SC as (S1 & S2 & S3 & S4 & S5 & S6 & _).
    destruct H as [(_ & HB)|[(NB & HB & _)|[(_ & HB)|[(_ & HB)|(b & x & t & ER & BB & MX & XB & HB)]]]].
    1,3,4: exfalso; unfold is_comment in CM; rewrite HB in CM; discriminate.
    { exfalso. apply SB in HB. rewrite ET in HB. auto. }
    destruct HB as [(_ & _ & HB)|(ND & HB)].
    { exfalso; unfold is_comment in CM; rewrite HB in CM; discriminate. }
    assert (exists b', all_blank b' /\ left_txt g = b' ++ c_bang :: t) as (b' & BB' & EGT).
    { rewrite ET, ER in EL. destruct EG as [(-> & EG)|(NC & EG)].
      - exists b. split; auto. rewrite EG, ET, ER. destruct XB as [-> | ->]; auto.
        exfalso. cbn [app] in EL. injection EL as -> _. discriminate.
      - exists []. split; [constructor|]. cbn [app]. rewrite EG. f_equal.
        destruct b as [|y b]; cbn [app] in EL; injection EL as -> EL; [auto|]. exfalso.
        apply Forall_inv in BB. assert (source_char c) as SCc by (rewrite ER in SRC; now apply Forall_inv in SRC).
        apply str_char in BB as [-> |[-> | ->]]; auto.
        + apply NT. rewrite ER. left. reflexivity.
        + revert SCc. rewrite source_bb. vm_compute. discriminate. }
    assert (PG : plain_left g (linenum g) (b' ++ c_bang :: t)).
    { destruct P as (P0 & P1 & P2 & P3 & P4 & P5 & P6). unfold plain_left. conjs; congruence. }
    rewrite (plain_text _ _ _ PG).
    assert (ln = linenum g) as -> by (destruct P; congruence).
    unfold reread. rewrite S6, CM.
    apply free_plain; auto.
    + rewrite ER in SRC. apply ascii7_source in SRC. unfold ascii7 in *.
      rewrite Forall_app in *. destruct SRC as [SR1 SR2]. split.
      * apply Forall_impl with (2 := BB'). intros y Y. apply str_char in Y as [-> |[-> | ->]]; reflexivity.
      * constructor; [reflexivity|]. now inversion SR2.
    + right; right; right; right. conjs.
      * exists b', t. auto.
      * intros X. apply dir_prefix in X; auto. congruence.
      * rewrite BG, HB. reflexivity.
  - destruct (OC eq_refl) as (SC & S12 & S13 & S14 & S15 & S16 & S17). clear CC OC.
    pose proof (FLAGS g SC S12 S13) as BG. destruct SC as (S1 & S2 & S3 & S4 & S5 & S6 & _).
    assert (PG : plain_left g (linenum g) raw).
    { destruct P as (P0 & P1 & P2 & P3 & P4 & P5 & P6). unfold plain_left. conjs; congruence. }
    rewrite (plain_text _ _ _ PG).
    assert (ln = linenum g) as -> by (destruct P; congruence).
    unfold reread. rewrite S6, CM.
    rewrite (free_plain g raw pod plc (bits g)); auto.
    + f_equal. f_equal. now destruct g.
    + now apply ascii7_source.
    + rewrite BG.
      destruct H as [(B & HB)|[(NB & HB & _)|[(HH & HB)|[(HI & HB)|(b & x & t & ER & BB & MX & XB & HB)]]]].
      * left. rewrite HB. auto.
      * exfalso. apply SB in HB. rewrite ET in HB. auto.
      * right; left. rewrite HB. auto.
      * right; right; left. rewrite HB. auto.
      * destruct HB as [(DR & NL & HB)|(ND & HB)].
        2:{ exfalso; unfold is_comment in CM; rewrite HB in CM; discriminate. }
        right; right; right; left.
        assert (bang_line raw) as (b' & r' & B' & E').
        { rewrite <- ET. apply SP. unfold is_flpr_pp. now rewrite HB. }
        assert (r' = t) as ->.
        { rewrite ER in E'. apply (first_split_unique (fun c => mem c set_str)) in E' as (_ & _ & E'); auto. }
        rewrite E'. conjs.
        -- now apply dir_prefix.
        -- intros X. apply lit_prefix in X; auto. congruence.
        -- rewrite HB. reflexivity.
Qed.

(** ** Runs of lines *)
Inductive reads : Z -> ascii -> bool -> list str -> list File_Line -> Z -> ascii -> bool -> Prop :=
| R_nil i pod plc : reads i pod plc [] [] i pod plc
| R_cons i pod plc r f rs fs i' pod' plc' :
    analyze_free i r pod plc false = Ok (f, false) ->
    reads (i + 1) (open_delim f) (is_continued f) rs fs i' pod' plc' ->
    reads i pod plc (r :: rs) (f :: fs) i' pod' plc'.
Lemma reads_Ok i pod plc rs fs i' pod' plc' : reads i pod plc rs fs i' pod' plc' ->
  analyze_all_free i rs pod plc false = Ok fs.
Proof.
  induction 1 as [|i pod plc r f rs fs i' pod' plc' A R IH]; cbn [analyze_all_free]; auto.
  rewrite A. cbn [bind]. rewrite IH. reflexivity.
Qed.
Lemma reads_app i pod plc r1 f1 i' pod' plc' r2 f2 i'' pod'' plc'' :
  reads i pod plc r1 f1 i' pod' plc' -> reads i' pod' plc' r2 f2 i'' pod'' plc'' ->
  reads i pod plc (r1 ++ r2) (f1 ++ f2) i'' pod'' plc''.
Proof. induction 1; cbn [app]; auto. intros. econstructor; eauto. Qed.

Inductive xreads (lc : Z) : Z -> ascii -> list str -> list File_Line -> Z -> ascii -> Prop :=
| X_nil i pod : xreads lc i pod [] [] i pod
| X_cons i pod r f rs fs i' pod' :
    analyze_fixed i r pod lc = Ok f ->
    xreads lc (i + 1) (open_delim f) rs fs i' pod' ->
    xreads lc i pod (r :: rs) (f :: fs) i' pod'.
Lemma xreads_of lc raws : forall i pod fls, analyze_all_fixed i raws pod lc = Ok fls ->
  exists i' pod', xreads lc i pod raws fls i' pod'.
Proof.
  induction raws as [|r rs IH]; intros i pod fls H; cbn [analyze_all_fixed] in H.
  - injection H as <-. eexists _, _. constructor.
  - apply bind_Ok in H as (f & A & H). apply bind_Ok in H as (fs & B & H). injection H as <-.
    destruct (IH _ _ _ B) as (i' & pod' & X). eexists _, _. econstructor; eauto.
Qed.
Lemma xreads_split lc b : forall i pod raws rest i' pod', xreads lc i pod raws (b ++ rest) i' pod' ->
  exists r1 r2 i1 pod1, raws = r1 ++ r2 /\ xreads lc i pod r1 b i1 pod1 /\ xreads lc i1 pod1 r2 rest i' pod'.
Proof.
  induction b as [|f b IH]; intros i pod raws rest i' pod' H; cbn [app] in H.
  - exists [], raws, i, pod. conjs; auto. constructor.
  - inversion H as [|? ? r ? rs ? ? ? A X]; subst.
    destruct (IH _ _ _ _ _ _ X) as (r1 & r2 & i1 & pod1 & -> & X1 & X2).
    exists (r :: r1), r2, i1, pod1. conjs; auto. econstructor; eauto.
Qed.
Lemma xreads_nth lc l : forall i pod raws i' pod', xreads lc i pod raws l i' pod' ->
  Forall (Forall source_char) raws ->
  forall k f, nth_error l k = Some f -> exists ln r p, analyze_fixed ln r p lc = Ok f /\ Forall source_char r.
Proof.
  intros i pod raws i' pod'; induction 1 as [|i pod r f rs fs i' pod' A X IH]; intros S k g N.
  - destruct k; discriminate.
  - inversion S; subst. destruct k as [|k]; cbn [nth_error] in N; [injection N as <-; eauto|eauto].
Qed.

Lemma xreads_delim lc l : forall i pod raws i' pod', xreads lc i pod raws l i' pod' ->
  Forall (Forall source_char) raws -> delim_ok pod = true ->
  forall k f, nth_error l k = Some f ->
  exists ln r p, analyze_fixed ln r p lc = Ok f /\ Forall source_char r /\ delim_ok p = true.
Proof.
  intros i pod raws i' pod'; induction 1 as [|i pod r f rs fs i' pod' A X IH]; intros S D k g N.
  - destruct k; discriminate.
  - inversion S; subst. destruct k as [|k]; cbn [nth_error] in N; [injection N as <-; exists i, r, pod; auto|].
    eapply IH; eauto. apply fixed_facts_of in A. apply A.
Qed.

(** ** The grouping of the lines read *)
Lemma not_trivial_head (l : list File_Line) f r : l = f :: r -> is_trivial f = false -> span is_trivial l = ([], l).
Proof. intros -> T. cbn [span]. now rewrite T. Qed.
Lemma span_app p b : forall rest, Forall (fun f => p f = true) b -> ~ starts_line (fun f => p f = true) rest ->
  span p (b ++ rest) = (b, rest).
Proof.
  induction b as [|f b IH]; intros rest F N; cbn [app span].
  - destruct rest as [|f r]; auto. cbn [span]. destruct (p f) eqn:P; auto. exfalso. apply N. exists f, r. auto.
  - inversion F as [|? ? P F']; subst. rewrite P. rewrite IH; auto.
Qed.
Lemma fortran_parts f : is_fortran f = true -> is_trivial f = false /\ is_flpr_lit f = false /\ is_comment f = false.
Proof.
  unfold is_fortran, is_trivial, is_comment, is_blank, is_preprocessor, is_flpr_pp, is_flpr_lit, is_include.
  destruct (b_comment (bits f)), (b_blank (bits f)), (b_preprocessor (bits f)), (b_flpr_pp (bits f)),
    (b_flpr_lit (bits f)), (b_include (bits f)); cbn; auto; discriminate.
Qed.

Lemma free_end_at pre g rest : forall k, Forall (fun x => is_trivial x = true \/ is_continued x = true) pre ->
  is_trivial g = false -> is_continued g = false -> free_end (pre ++ g :: rest) k = Some (k + length pre).
Proof.
  induction pre as [|f pre IH]; intros k F T C; cbn [app free_end length].
  - rewrite T, C. cbn. f_equal. lia.
  - inversion F as [|? ? P F']; subst.
    assert (negb (is_trivial f) && negb (is_continued f) = false) as ->.
    { destruct P as [-> | ->]; cbn; auto using andb_false_r. }
    rewrite IH; auto. f_equal. lia.
Qed.

Lemma step_stmt pre g rest f z : hd_error (pre ++ [g]) = Some f -> is_fortran f = true ->
  Forall (fun x => is_trivial x = true \/ is_continued x = true) pre ->
  is_trivial g = false -> is_continued g = false -> init_label (pre ++ [g]) = Ok z ->
  step_free ((pre ++ [g]) ++ rest) = Ok (mkLL (pre ++ [g]) z CAT_UNKNOWN false, rest).
Proof.
  intros HD F P T C Z. destruct (fortran_parts _ F) as (T' & L' & _).
  assert (exists r, pre ++ [g] = f :: r) as (r & E).
  { destruct (pre ++ [g]) as [|x r]; [discriminate|]. injection HD as ->. eauto. }
  unfold step_free. rewrite (not_trivial_head _ f (r ++ rest)); [|now rewrite E|auto].
  cbn [is_empty negb]. rewrite E at 1. cbn [app span]. rewrite L'. cbn [is_empty negb].
  rewrite E at 1. cbn [app]. rewrite F. cbn [negb].
  rewrite <- app_assoc. cbn [app]. rewrite (free_end_at pre g rest 0); auto. cbn [Nat.add].
  replace (S (length pre)) with (length (pre ++ [g])) by (rewrite app_length; cbn [length]; lia).
  replace (pre ++ g :: rest) with ((pre ++ [g]) ++ rest) by (now rewrite <- app_assoc).
  rewrite firstn_app_len, skipn_app_len. unfold make_ll. rewrite Z. reflexivity.
Qed.
Lemma step_triv b rest z : b <> [] -> Forall (fun x => is_trivial x = true) b ->
  ~ starts_line (fun x => is_trivial x = true) rest -> init_label b = Ok z ->
  step_free (b ++ rest) = Ok (mkLL b z CAT_UNKNOWN false, rest).
Proof.
  intros N F R Z. unfold step_free. rewrite span_app; auto.
  destruct b as [|f b]; [congruence|]. cbn [is_empty negb]. unfold make_ll. rewrite Z. reflexivity.
Qed.
Lemma step_other f rest z : is_trivial f = false -> is_flpr_lit f = false -> is_fortran f = false ->
  ~ ends_backslash (left_txt f) -> init_label [f] = Ok z ->
  step_free ([f] ++ rest) = Ok (mkLL [f] z (other_cat f) false, rest).
Proof.
  intros T L F B Z. unfold step_free. cbn [app].
  rewrite (not_trivial_head _ f rest); auto. cbn [is_empty negb].
  cbn [span]. rewrite L. cbn [is_empty negb]. rewrite F. cbn [negb].
  rewrite not_fortran_class; auto; [|now apply trivial_nb]. cbn [assert_ bind].
  assert (absorb (left_txt f) rest = ([], rest)) as ->.
  { destruct rest as [|x r]; auto. cbn [absorb].
    destruct (ceq (last_non_blank_char (left_txt f)) c_bslash) eqn:E; auto.
    apply last_non_blank_bslash in E. tauto. }
  unfold make_ll. rewrite Z. reflexivity.
Qed.

(** ** The lines of a statement *)
Lemma fixed_comment ln raw0 pod lc f : analyze_fixed ln raw0 pod lc = Ok f -> is_comment f = true ->
  is_blank f = false /\ is_flpr_pp f = false /\ is_fortran f = false /\ left_txt f <> [] /\
  open_delim f = c_nul /\ is_continuation f = false /\ has_label f = false.
Proof.
  intros H C.
  assert (F : is_fortran f = false).
  { destruct (is_fortran f) eqn:F; auto. apply fortran_parts in F. destruct F as (_ & _ & F). congruence. }
  apply fixed_other in H as [P H]; auto. cbv zeta in *.
  destruct H as [(_ & HB)|[(_ & _ & HB)|[(_ & HB)|[(_ & HB)|(b & x & t & ER & _ & _ & _ & HB)]]]].
  1,3,4: exfalso; unfold is_comment in C; rewrite HB in C; discriminate.
  - congruence.
  - destruct HB as [(_ & _ & HB)|(_ & HB)].
    { exfalso; unfold is_comment in C; rewrite HB in C; discriminate. }
    unfold is_blank, is_flpr_pp, is_continuation, has_label. rewrite HB. destruct P as (_ & -> & _ & _ & _ & _ & P).
    rewrite ER. conjs; auto. intros X. apply app_eq_nil in X as [_ X]. discriminate.
Qed.

Lemma cuts_dec l i : cuts l i \/ ~ cuts l i.
Proof.
  unfold cuts. induction l as [|x l [IH|IH]].
  - right. intros (x & b & e & [] & _).
  - left. destruct IH as (y & b & e & I & H). exists y, b, e. split; [now right|auto].
  - assert (D : (exists b e, mt_bl x = Some b /\ mt_el x = Some e /\ (b < Z.of_nat i <= e)%Z) \/
                ~ exists b e, mt_bl x = Some b /\ mt_el x = Some e /\ (b < Z.of_nat i <= e)%Z).
    { destruct (mt_bl x) as [b|]; [|right; intros (b & e & E & _); discriminate].
      destruct (mt_el x) as [e|]; [|right; intros (b' & e & _ & E & _); discriminate].
      destruct (Z_lt_dec b (Z.of_nat i)) as [A|A]; [|right; intros (b' & e' & [= <-] & [= <-] & ?); lia].
      destruct (Z_le_dec (Z.of_nat i) e) as [B|B]; [|right; intros (b' & e' & [= <-] & [= <-] & ?); lia].
      left. exists b, e. auto. }
    destruct D as [(b & e & D)|D].
    + left. exists x, b, e. split; [now left|auto].
    + right. intros (y & b & e & [<-|I] & H); [apply D; eauto|apply IH; exists y, b, e; auto].
Qed.

Lemma reread_same p g : is_comment g = false -> reread p g = g.
Proof. unfold reread. now intros ->. Qed.

Lemma code_continued ln pod f : code_facts ln pod f -> is_continued f = false.
Proof.
  intros C. unfold is_continued. destruct (cf_left _ _ _ C) as [(_ & ->)|[(c & _ & ->)|(b & d & _ & _ & _ & _ & _ & ->)]]; auto.
  destruct (ceq c "0"%char); reflexivity.
Qed.

Lemma xreads_cons lc i pod raws f fs i' pod' : xreads lc i pod raws (f :: fs) i' pod' ->
  exists r rs, raws = r :: rs /\ analyze_fixed i r pod lc = Ok f /\ xreads lc (i + 1) (open_delim f) rs fs i' pod'.
Proof. inversion 1; subst; eauto. Qed.
Lemma xreads_end lc i pod raws i' pod' : xreads lc i pod raws [] i' pod' -> i' = i /\ pod' = pod /\ raws = [].
Proof. inversion 1; subst; auto. Qed.

Section Stmt.
Variables (lc : Z) (toks : list Token) (l l' : list File_Line).
Hypothesis ST : standard_stmt lc toks l.
Hypothesis LC : layout_converted toks l l'.
Hypothesis L6 : (0 < lc -> 6 <= lc)%Z.
Hypothesis HD : exists f r, l = f :: r /\ is_fortran f = true /\
  Forall (fun x => is_continuation x = true \/ trivial x) r.
Hypothesis LAST : exists p z, l = p ++ [z] /\ is_fortran z = true.

Lemma stmt_reads r : forall r' dn dn' i pod raws i' pod' plc,
  l = dn ++ r -> l' = dn' ++ r' -> length dn' = length dn ->
  xreads lc i pod raws r i' pod' -> Forall (Forall source_char) raws ->
  pod = entry l (length dn) -> plc = negb (length dn =? 0) -> delim_ok pod = true -> r <> [] ->
  reads i pod plc (map print_line r') (map (reread true) r') i' c_nul false /\ pod' = c_nul.
Proof using ST LC L6 HD LAST.
  induction r as [|f r IH]; intros r' dn dn' i pod raws i' pod' plc EL EL' LD X SRC EP EPL D NE; [congruence|]. clear NE.
  set (k := length dn) in *.
  apply xreads_cons in X as (raw & raws1 & -> & A & X1). rewrite EP in *. rewrite EPL. clear EP EPL pod plc.
  assert (NF : nth_error l k = Some f) by (rewrite EL; apply nth_error_app_mid).
  destruct (proj2 LC k f NF) as (g & NG & CV).
  assert (exists r1', r' = g :: r1') as (r1' & ->).
  { rewrite EL' in NG. rewrite nth_error_app2 in NG by lia. replace (k - length dn') with 0 in NG by lia.
    destruct r' as [|g' r1']; [discriminate|]. injection NG as ->. eauto. }
  assert (SRC1 : Forall source_char raw /\ Forall (Forall source_char) raws1) by (inversion SRC; auto).
  destruct SRC1 as [SRC1 SRC2].
  assert (D' : delim_ok (open_delim f) = true) by (apply fixed_facts_of in A; apply A).
  assert (NEXT : entry l (S k) = open_delim f) by (unfold entry; now rewrite NF).
  assert (IHX : r <> [] -> reads (i + 1) (open_delim f) true (map print_line r1') (map (reread true) r1') i' c_nul false /\ pod' = c_nul).
  { intros NE. apply (IH r1' (dn ++ [f]) (dn' ++ [g]) (i + 1)%Z (open_delim f) raws1 i' pod' true); auto.
    - now rewrite <- app_assoc.
    - now rewrite <- app_assoc.
    - rewrite !app_length. cbn [length]. lia.
    - rewrite app_length. cbn [length]. fold k. rewrite Nat.add_1_r. auto.
    - rewrite app_length. cbn [length]. rewrite Nat.add_1_r. reflexivity. }
  destruct LAST as (p & z & EZ & FZ).
  assert (MORE : more_code l k <-> r <> []).
  { unfold more_code. rewrite EL. replace (skipn (S k) (dn ++ f :: r)) with r.
    2:{ rewrite skipn_app_ge by (unfold k; lia). replace (S k - length dn) with 1 by (unfold k; lia). reflexivity. }
    split; [intros E ->; inversion E|]. intros N. apply Exists_exists. exists z. split; auto.
    rewrite EL in EZ. destruct (exists_last N) as (q & y & ->).
    rewrite app_comm_cons, app_assoc in EZ. apply app_inj_tail in EZ as [_ ->].
    apply in_or_app. right. now left. }
  assert (KF : k <> 0 -> ~ first_code l k).
  { intros K. destruct HD as (f0 & r0 & E0 & F0 & _). unfold first_code. rewrite E0.
    destruct k; [congruence|]. cbn [firstn]. intros Y. inversion Y; congruence. }
  assert (K0 : k = 0 -> first_code l k) by (intros ->; constructor).
  destruct (proj1 ST k f NF) as [CM|[FO SL]].
  - (* a comment *)
    destruct (fixed_comment _ _ _ _ _ A CM) as (B1 & B2 & B3 & B4 & B5 & B6 & _).
    assert (KN : k <> 0).
    { intros K. destruct HD as (f0 & r0 & E0 & F0 & _). rewrite K, E0 in NF. injection NF as ->. congruence. }
    assert (CC : comment_converted f g) by (apply CV; auto).
    assert (RN : r <> []).
    { intros ->. rewrite EL in EZ. apply app_inj_tail in EZ as [_ ->]. congruence. }
    destruct (IHX RN) as [R ->]. split; auto. cbn [map].
    assert (CC' := CC). destruct CC' as ((S1 & S2 & S3 & S4 & S5 & S6 & SR) & _).
    assert (CG : is_comment g = true) by congruence.
    econstructor.
    + rewrite print_free_line; auto.
      assert (negb (k =? 0) = true) as -> by (apply negb_true_iff, Nat.eqb_neq; auto).
      eapply reread_other; eauto; congruence.
    + unfold reread. rewrite CG. cbn [with_bits open_delim is_continued bits put_continued b_continued].
      rewrite S3. exact R.
  - (* a Fortran line *)
    assert (CF : code_facts i (entry l k) f).
    { eapply fixed_code_facts; eauto. apply (st_col _ _ _ _ _ SL). }
    assert (CC : code_converted ((k =? 0) = true) (r <> []) (cuts toks k) f g).
    { destruct CV as (CV & _). specialize (CV FO). unfold code_converted in *.
      assert ((k =? 0) = true <-> first_code l k) as ->; [|rewrite <- MORE; exact CV].
      rewrite Nat.eqb_eq. split; auto. intros Y. destruct (Nat.eq_dec k 0); auto. now apply KF in Y. }
    assert (NL : ~ r <> [] -> open_delim f = c_nul).
    { intros N. assert (r = []) as -> by (destruct r; auto; exfalso; apply N; discriminate).
      apply (proj2 ST dn f). exact EL. }
    assert (RD : analyze_free i (line_text g) (entry l k) (negb (k =? 0)) false = Ok (g, false)).
    { eapply (reread_code i (entry l k) lc f g _ (r <> []) (cuts toks k) (k =? 0)); eauto.
      - destruct r; [right; congruence|left; discriminate].
      - apply cuts_dec.
      - intros K. rewrite K. apply Nat.eqb_eq in K. rewrite K. auto.
      - intros K. rewrite K. split; auto. apply Nat.eqb_neq in K.
        destruct HD as (f0 & r0 & E0 & F0 & T). rewrite E0 in NF. destruct k as [|k']; [congruence|].
        cbn [nth_error] in NF. apply nth_error_In in NF. rewrite Forall_forall in T.
        apply T in NF as [|NF]; auto. apply trivial_b in NF. destruct (fortran_parts _ FO) as (Y & _). congruence. }
    destruct CC as ((S1 & S2 & S3 & S4 & S5 & S6 & SR) & _ & _ & _ & EM & ES).
    assert (CG : is_comment g = false) by (destruct (fortran_parts _ FO) as (_ & _ & Y); congruence).
    cbn [map]. rewrite (reread_same _ _ CG), (print_free_line g S4).
    destruct r as [|f2 r2].
    + (* the last one *)
      apply xreads_end in X1 as (-> & -> & ->). rewrite NL by congruence. split; auto.
      econstructor; [exact RD|].
      assert (r1' = []) as ->.
      { pose proof (proj1 LC) as LE. rewrite EL, EL' in LE. rewrite !app_length in LE. cbn [length] in LE.
        destruct r1'; auto. cbn [length] in LE. lia. }
      destruct ES as (_ & _ & ->); [congruence|]. rewrite (code_continued _ _ _ CF), S3, NL by congruence. constructor.
    + destruct IHX as [R ->]; [discriminate|]. split; auto.
      econstructor; [exact RD|]. destruct EM as (-> & _); [discriminate|]. rewrite S3. exact R.
Qed.
End Stmt.

(** ** The other lines *)
Definition some_converted (f g : File_Line) : Prop := exists P Q R, line_converted P Q R f g.
Lemma layout_pairs toks l l' : layout_converted toks l l' -> Forall2 some_converted l l'.
Proof.
  intros (LE & H).
  assert (G : forall i f, nth_error l i = Some f -> exists g, nth_error l' i = Some g /\ some_converted f g).
  { intros i f N. destruct (H i f N) as (g & NG & C). exists g. split; auto. unfold some_converted. eauto. }
  clear H. revert l' LE G. induction l as [|f l IH]; intros l' LE G; destruct l' as [|g l']; try discriminate; constructor.
  - destruct (G 0 f eq_refl) as (g' & [= <-] & C). auto.
  - apply IH; [cbn [length] in LE; congruence|]. intros i x N. apply (G (S i) x N).
Qed.
Lemma some_other f g : some_converted f g -> is_fortran f = false ->
  (is_comment f = true -> comment_converted f g) /\ (is_comment f = false -> other_converted f g).
Proof. intros (P & Q & R & _ & C & O) F. split; auto. Qed.
Lemma some_same f g : some_converted f g -> same_content f g.
Proof.
  intros (P & Q & R & F & C & O). destruct (is_fortran f) eqn:E1; [apply F; auto|].
  destruct (is_comment f) eqn:E2; [apply C; auto|apply O; auto].
Qed.

Lemma other_continued ln raw0 pod lc f : analyze_fixed ln raw0 pod lc = Ok f -> is_fortran f = false ->
  (is_blank f = true -> blank_line (left_txt f)) ->
  is_continued f = false /\ open_delim f = c_nul /\ has_label f = false /\ is_continuation f = false.
Proof.
  intros H F SB. apply fixed_other in H as [P H]; auto. cbv zeta in *.
  assert (ET : left_txt f = expand_tabs raw0) by apply P.
  assert (open_delim f = c_nul) as -> by apply P.
  unfold is_continued, has_label, is_continuation.
  destruct H as [(_ & ->)|[(NB & HB & _)|[(_ & ->)|[(_ & ->)|(b & x & t & _ & _ & _ & _ & [(_ & _ & ->)|(_ & ->)])]]]]; auto.
  exfalso. apply SB in HB. rewrite ET in HB. auto.
Qed.

Lemma others_reads lc l : forall l' i raws i' pod',
  Forall2 some_converted l l' -> Forall (fun f => is_fortran f = false) l -> Forall standard_other l ->
  Forall (Forall source_char) raws ->
  xreads lc i c_nul raws l i' pod' ->
  reads i c_nul false (map print_line l') (map (reread false) l') i' c_nul false /\ pod' = c_nul.
Proof.
  induction l as [|f l IH]; intros l' i raws i' pod' C F ST SRC X.
  - inversion C; subst. apply xreads_end in X as (-> & -> & ->). split; [constructor|auto].
  - inversion C as [|? g ? r' CV CR]; subst. apply xreads_cons in X as (raw & rs & -> & A & X).
    inversion F as [|? ? F0 F1]; inversion ST as [|? ? (SB & SP & _) ST1]; inversion SRC as [|? ? SR0 SR1]; subst.
    destruct (other_continued _ _ _ _ _ A F0 SB) as (C0 & O0 & _).
    rewrite O0 in X. destruct (IH _ _ _ _ _ CR F1 ST1 SR1 X) as [R ->]. split; auto.
    destruct (some_other _ _ CV F0) as [CC OC]. pose proof (some_same _ _ CV) as (S1 & S2 & S3 & S4 & S5 & S6 & _).
    cbn [map]. econstructor.
    + rewrite print_free_line; auto. eapply reread_other; eauto.
    + assert (open_delim (reread false g) = c_nul) as ->.
      { unfold reread. destruct (is_comment g); cbn [with_bits open_delim]; congruence. }
      assert (is_continued (reread false g) = false) as ->; [|exact R].
      unfold reread. destruct (is_comment g) eqn:CG.
      * unfold is_continued. cbn [with_bits bits put_continued b_continued]. reflexivity.
      * destruct OC as (_ & -> & _); congruence.
Qed.

(** ** One logical line *)
Lemma reread_bits p g : is_trivial (reread p g) = is_trivial g /\ is_fortran (reread p g) = is_fortran g /\
  is_flpr_lit (reread p g) = is_flpr_lit g /\ has_label (reread p g) = has_label g /\
  left_txt (reread p g) = left_txt g /\ is_flpr_pp (reread p g) = is_flpr_pp g /\
  is_include (reread p g) = is_include g /\ is_comment (reread p g) = is_comment g.
Proof. unfold reread. destruct (is_comment g) eqn:E; conjs; auto. Qed.
Lemma same_class f g : same_content f g -> is_trivial g = is_trivial f /\ is_fortran g = is_fortran f /\
  is_flpr_lit g = is_flpr_lit f /\ has_label g = has_label f /\ is_flpr_pp g = is_flpr_pp f /\
  is_include g = is_include f.
Proof.
  intros (S1 & S2 & S3 & S4 & S5 & S6 & S7 & S8 & S9 & S10 & S11).
  unfold is_fortran, is_trivial. rewrite S6, S7, S8, S9, S10, S11. auto 10.
Qed.
Lemma read_again_reread p g : (p = true \/ is_comment g = false \/ is_continued g = false) -> read_again g (reread p g).
Proof.
  intros H. unfold reread. destruct (is_comment g) eqn:C; unfold read_again; cbn [with_bits linenum left_txt
    left_space main_txt right_space right_txt open_delim bits]; conjs; auto.
  destruct H as [->|[H|H]]; [right; auto|congruence|]. destruct p; [auto|]. left.
  unfold is_continued in H. destruct (bits g); cbn in *. now rewrite H.
Qed.
Lemma init_label_head f r h s z : init_label (f :: r) = Ok z -> has_label h = has_label f ->
  (has_label f = true -> left_txt h = left_txt f) -> init_label (h :: s) = Ok z.
Proof. unfold init_label. intros Z -> L. destruct (has_label f); [rewrite L; auto|auto]. Qed.
Lemma Forall2_map_r {A B} (R : A -> B -> Prop) (h : A -> B) l : (forall x, In x l -> R x (h x)) -> Forall2 R l (map h l).
Proof. induction l; intros H; cbn [map]; constructor; [apply H; now left|apply IHl; intros; apply H; now right]. Qed.

Lemma block_reread lc ln i raws i' pod' cat b new rest z :
  (0 < lc -> 6 <= lc)%Z -> Forall (Forall source_char) raws ->
  fixed_block cat b new rest -> l_layout ln = new -> standard lc ln -> tokens_fit ln ->
  xreads lc i c_nul raws b i' pod' -> init_label new = Ok z ->
  exists l' hs, convert_ll ln = Ok (with_layout ln l', true) /\
    layout_converted (l_frags ln) new l' /\ Forall2 read_again l' hs /\
    reads i c_nul false (map print_line l') hs i' c_nul false /\ pod' = c_nul /\
    hs <> [] /\ (starts_line trivial hs -> starts_line trivial b) /\
    forall rest', (starts_line trivial rest' -> starts_line trivial rest) ->
      exists ll', step_free (hs ++ rest') = Ok (ll', rest') /\ ll_layout ll' = hs /\ ll_cat ll' = cat /\ ll_label ll' = z.
Proof.
  intros L6 SRC B EL ST TF X Z.
  assert (FXF : forall f, In f b -> is_fixed_format f = true).
  { intros f I. apply In_nth_error in I as (k & N). destruct (xreads_nth _ _ _ _ _ _ _ X SRC k f N) as (n & r & p & A & _).
    destruct (analyze_fixed_Ok _ _ _ _ _ A) as [(_ & _ & Y)|(_ & Y & _)]; auto. }
  unfold standard in ST. rewrite EL in ST.
  destruct B as [b rest NE TR NT|f fls fls' rest NTF NF PC|f mid t rest FO MD LS TT NS].
  - (* comments and blank lines *)
    assert (NFO : Forall (fun f => is_fortran f = false) b).
    { apply Forall_impl with (2 := TR). intros f T. apply trivial_b in T.
      destruct (is_fortran f) eqn:F; auto. apply fortran_parts in F as (F & _). congruence. }
    destruct b as [|f b1] eqn:EB; [congruence|]. rewrite <- EB in *.
    assert (starts_code b = false) as E0 by (rewrite EB in *; cbn; now inversion NFO). rewrite E0 in ST.
    assert (CO : convertible b).
    { intros k x N. destruct (xreads_nth _ _ _ _ _ _ _ X SRC k x N) as (n & r & p & A & _). split.
      - intros C. eapply fixed_comment; eauto.
      - intros F. apply nth_error_In in N. rewrite Forall_forall in NFO. apply NFO in N. congruence. }
    destruct (convert_other_ok ln f) as (l' & CV & LC); rewrite ?EL; auto.
    { now rewrite EB. } { apply FXF. rewrite EB. now left. }
    rewrite EL in LC. pose proof (layout_pairs _ _ _ LC) as PR.
    destruct (others_reads _ _ _ _ _ _ _ PR NFO ST SRC X) as [R ->].
    assert (exists g l1', l' = g :: l1' /\ some_converted f g) as (g & l1' & EG & SCG).
    { rewrite EB in PR. inversion PR; subst; eauto. }
    assert (HLF : has_label f = false).
    { pose proof ST as ST'. rewrite EB in ST'. apply Forall_inv in ST' as (SB & _).
      pose proof NFO as NFO'. rewrite EB in NFO'. apply Forall_inv in NFO'.
      destruct (xreads_nth _ _ _ _ _ _ _ X SRC 0 f) as (n & r & p & A & _); [now rewrite EB|].
      eapply other_continued; eauto. }
    exists l', (map (reread false) l'). conjs; auto.
    + apply Forall2_map_r. intros x I. apply read_again_reread.
      destruct (is_comment x) eqn:CX; auto. right; right.
      apply In_nth_error in I as (k & N). destruct (nth_error b k) as [y|] eqn:NY.
      2:{ apply nth_error_None in NY. assert (k < length l') by (apply nth_error_Some; congruence).
          destruct LC as [LC _]. lia. }
      destruct (proj2 LC k y NY) as (x' & NX & CXY). rewrite N in NX. injection NX as <-.
      destruct (xreads_nth _ _ _ _ _ _ _ X SRC k y NY) as (n & r & p & A & _).
      pose proof (nth_error_In _ _ NY) as IY. rewrite Forall_forall in NFO, ST.
      pose proof (NFO _ IY) as F0. destruct (ST _ IY) as (SB & _).
      destruct (other_continued _ _ _ _ _ A F0 SB) as (C0 & _).
      assert (is_comment y = true) as CY.
      { assert (some_converted y x) as SC by (unfold some_converted; eauto). apply some_same in SC.
        destruct SC as (_ & _ & _ & _ & _ & <- & _). auto. }
      destruct CXY as (_ & CXY & _). destruct (CXY CY) as (_ & -> & _). auto.
    + rewrite EG. discriminate.
    + intros _. exists f, b1. split; auto. rewrite EB in TR. now inversion TR.
    + intros rest' IMP. exists (mkLL (map (reread false) l') z CAT_UNKNOWN false). conjs; auto.
      apply step_triv.
      * rewrite EG. discriminate.
      * apply Forall_map. clear - PR TR. revert TR. induction PR as [|x y l l' C _ IH]; intros TR; constructor.
        -- destruct (reread_bits false y) as (-> & _). apply some_same, same_class in C as (-> & _).
           inversion TR; subst. now apply trivial_b.
        -- apply IH. now inversion TR.
      * intros (x & y & -> & TX). apply NT, IMP. exists x, y. split; auto. now apply trivial_b.
      * rewrite EG, EB in *. cbn [map]. apply init_label_head with (1 := Z).
        -- destruct (reread_bits false g) as (_ & _ & _ & -> & _). apply some_same, same_class in SCG. apply SCG.
        -- congruence.
  - (* another line *)
    cbn [starts_code] in ST. rewrite NF in ST. inversion ST as [|? ? (SB & SP & SBS) _]; subst.
    assert (CF : is_comment f = false /\ is_blank f = false).
    { unfold trivial in NTF. split; destruct (is_comment f), (is_blank f); auto; exfalso; auto. }
    destruct CF as [CF BF].
    assert (NBS : ~ ends_backslash (left_txt f)) by auto.
    assert (fls = [] /\ fls' = []) as [-> ->] by (inversion PC; subst; auto; tauto).
    assert (A : exists n r p, analyze_fixed n r p lc = Ok f).
    { destruct (xreads_nth _ _ _ _ _ _ _ X SRC 0 f) as (n & r & p & A & _); [reflexivity|eauto]. }
    destruct A as (n & r & p & A).
    assert (CO : convertible [f]).
    { intros k x N. destruct k as [|[|k]]; try discriminate. injection N as <-. split; [congruence|].
      intros F. congruence. }
    destruct (convert_other_ok ln f) as (l' & CV & LC); rewrite ?EL; auto.
    { apply FXF. now left. }
    rewrite EL in LC. pose proof (layout_pairs _ _ _ LC) as PR.
    assert (NFO : Forall (fun f => is_fortran f = false) [f]) by auto.
    destruct (others_reads _ _ _ _ _ _ _ PR NFO ST SRC X) as [R ->].
    assert (exists g, l' = [g] /\ some_converted f g) as (g & EG & SCG).
    { inversion PR as [|? g ? r' C1 C2]; subst. inversion C2; subst. eauto. }
    destruct (some_other _ _ SCG NF) as [_ OC]. specialize (OC CF).
    destruct (same_class _ _ (some_same _ _ SCG)) as (T1 & T2 & T3 & T4 & T5 & T6).
    assert (CG : is_comment g = false) by (pose proof (some_same _ _ SCG) as (_ & _ & _ & _ & _ & -> & _); auto).
    assert (TF' : is_trivial f = false) by now apply trivial_nb.
    destruct (other_continued _ _ _ _ _ A NF SB) as (_ & _ & LF & _).
    subst l'. cbn [map] in *. rewrite (reread_same false g CG) in *.
    exists [g], [g]. conjs; auto.
    + constructor; [|constructor]. rewrite <- (reread_same true g CG) at 2. apply read_again_reread. auto.
    + discriminate.
    + intros (x & y & [= <- <-] & TX). exfalso. apply trivial_b in TX. congruence.
    + intros rest' _. exists (mkLL [g] z (other_cat g) false). conjs; auto.
      * apply step_other; try congruence.
        -- rewrite T3. apply fixed_facts_of in A. apply A.
        -- destruct OC as (_ & _ & _ & -> & _). auto.
        -- apply init_label_head with (1 := Z); [auto|congruence].
      * unfold other_cat. cbn [ll_cat]. now rewrite T5, T6.
  - (* a statement *)
    cbn [starts_code] in ST. rewrite FO in ST. set (l := f :: mid) in *.
    assert (LAST : exists p x, l = p ++ [x] /\ is_fortran x = true).
    { destruct LS as [->|(m & x & -> & CX)].
      - exists [], f. auto.
      - exists (f :: m), x. split; auto.
        assert (NX : nth_error l (length (f :: m)) = Some x).
        { unfold l. rewrite app_comm_cons. apply nth_error_app_mid. }
        destruct (proj1 ST _ _ NX) as [CM|[FX _]]; auto.
        destruct (xreads_nth _ _ _ _ _ _ _ X SRC _ _ NX) as (n & r & p & A & _).
        destruct (fixed_comment _ _ _ _ _ A CM) as (_ & _ & _ & _ & _ & Y & _). congruence. }
    assert (SLN : forall k x, nth_error l k = Some x -> is_fortran x = true ->
       exists n p, code_facts n p x).
    { intros k x N FX. destruct (proj1 ST _ _ N) as [CM|[_ SL]].
      - destruct (fortran_parts _ FX) as (_ & _ & Y). congruence.
      - destruct (xreads_delim _ _ _ _ _ _ _ X SRC eq_refl _ _ N) as (n & r & p & A & SR & DP).
        exists n, p. eapply fixed_code_facts; eauto. apply (st_col _ _ _ _ _ SL). }
    assert (TL : forall k x, nth_error l k = Some x -> is_fortran x = true -> k <> 0 -> is_continuation x = true).
    { intros k x N FX K. destruct k as [|k]; [congruence|]. unfold l in N. cbn [nth_error] in N.
      apply nth_error_In in N. rewrite Forall_forall in MD. apply MD in N as [|N]; auto.
      apply trivial_b in N. destruct (fortran_parts _ FX) as (Y & _). congruence. }
    assert (CO : convertible l).
    { intros k x N. split.
      - intros C. destruct (xreads_nth _ _ _ _ _ _ _ X SRC k x N) as (n & r & p & A & _).
        eapply fixed_comment; eauto.
      - intros FX NFC. assert (k <> 0) as K by (intros ->; apply NFC; constructor).
        destruct (SLN _ _ N FX) as (n & p & CF). specialize (TL _ _ N FX K).
        destruct (cf_left _ _ _ CF) as [(_ & EB)|[(c & ELT & _)|(b & d & _ & _ & _ & _ & _ & EB)]]; eauto;
        unfold is_continuation in TL; rewrite EB in TL; discriminate. }
    destruct (convert_stmt_ok ln f) as (l' & CV & LC); rewrite ?EL; auto.
    { apply FXF. now left. }
    rewrite EL in LC. pose proof (layout_pairs _ _ _ LC) as PR.
    destruct (stmt_reads lc (l_frags ln) l l' ST LC L6) with (r := l) (r' := l') (dn := @nil File_Line)
      (dn' := @nil File_Line) (i := i) (pod := c_nul) (raws := raws) (i' := i') (pod' := pod') (plc := false)
      as [R ->]; auto.
    { exists f, mid. auto. } { discriminate. }
    assert (exists g l1', l' = g :: l1' /\ line_converted (first_code l 0) (more_code l 0) (cuts (l_frags ln) 0) f g)
      as (g & l1' & EG & CVG).
    { destruct (proj2 LC 0 f eq_refl) as (g & NG & C). destruct l' as [|g' l1']; [discriminate|].
      injection NG as ->. eauto. }
    assert (SCG : some_converted f g) by (unfold some_converted; eauto).
    destruct (same_class _ _ (some_same _ _ SCG)) as (T1 & T2 & T3 & T4 & T5 & T6).
    exists l', (map (reread true) l'). conjs; auto.
    + apply Forall2_map_r. intros x _. apply read_again_reread. auto.
    + rewrite EG. discriminate.
    + intros (x & y & E & TX). exfalso. rewrite EG in E. cbn [map] in E. injection E as <- _.
      apply trivial_b in TX. destruct (reread_bits true g) as (Y & _). destruct (fortran_parts _ FO). congruence.
    + intros rest' _. exists (mkLL (map (reread true) l') z CAT_UNKNOWN false). conjs; auto.
      destruct LAST as (p & x & EZ & FX).
      assert (exists p' x', l' = p' ++ [x'] /\ length p' = length p) as (p' & x' & EZ' & LP).
      { assert (l' <> []) as N by (rewrite EG; discriminate). destruct (exists_last N) as (p' & x' & E).
        exists p', x'. split; auto. destruct LC as [LE _]. rewrite E, EZ in LE. rewrite !app_length in LE.
        cbn [length] in LE. lia. }
      assert (NX : nth_error l (length p) = Some x) by (rewrite EZ; apply nth_error_app_mid).
      destruct (proj2 LC _ _ NX) as (x2 & NX2 & CX).
      rewrite EZ', <- LP, nth_error_app_mid in NX2. injection NX2 as <-.
      assert (SX : some_converted x x') by (unfold some_converted; eauto).
      destruct (same_class _ _ (some_same _ _ SX)) as (X1 & X2 & _).
      destruct (fortran_parts _ FX) as (X3 & _ & X4).
      assert (CX' : is_comment x' = false) by (pose proof (some_same _ _ SX) as (_ & _ & _ & _ & _ & -> & _); auto).
      rewrite EZ', map_app. cbn [map]. rewrite (reread_same true x' CX').
      apply step_stmt with (f := g).
      * replace [x'] with (map (reread true) [x']) by (cbn [map]; now rewrite reread_same).
        rewrite <- map_app, <- EZ', EG. cbn [map hd_error]. f_equal. apply reread_same.
        destruct (fortran_parts _ FO) as (_ & _ & Y). pose proof (some_same _ _ SCG) as (_ & _ & _ & _ & _ & -> & _). auto.
      * congruence.
      * apply Forall_map. apply Forall_forall. intros y IY. apply In_nth_error in IY as (k & NK).
        assert (KL : k < length p') by (apply nth_error_Some; congruence).
        assert (NK' : nth_error l' k = Some y) by (rewrite EZ', nth_error_app1; auto).
        destruct (nth_error l k) as [w|] eqn:NW.
        2:{ apply nth_error_None in NW. destruct LC as [LE _]. assert (k < length l') by (apply nth_error_Some; congruence). lia. }
        destruct (proj2 LC _ _ NW) as (y2 & NY2 & CY). rewrite NK' in NY2. injection NY2 as <-.
        assert (SY : some_converted w y) by (unfold some_converted; eauto).
        destruct (same_class _ _ (some_same _ _ SY)) as (Y1 & Y2 & _).
        destruct (reread_bits true y) as (RY & _).
        destruct (proj1 ST _ _ NW) as [CM|[FW _]].
        -- left. rewrite RY, Y1. unfold is_trivial. now rewrite CM.
        -- right. destruct CY as (CY & _). destruct (CY FW) as (SCY & _ & _ & _ & EM & _).
           rewrite reread_same.
           ++ apply EM. unfold more_code. rewrite EZ, skipn_app. apply Exists_app. right.
              replace (S k - length p) with 0 by lia. cbn [skipn]. constructor. auto.
           ++ destruct SCY as (_ & _ & _ & _ & _ & -> & _). apply fortran_parts. auto.
      * congruence.
      * destruct CX as (CX & _). destruct (CX FX) as (_ & _ & _ & _ & _ & ES).
        destruct ES as (_ & _ & ->).
        { unfold more_code. rewrite EZ, skipn_app_ge by lia. replace (S (length p) - length p) with 1 by lia.
          cbn [skipn]. intros Y. inversion Y. }
        destruct (SLN _ _ NX FX) as (n & q & CF). eapply code_continued; eauto.
      * replace [x'] with (map (reread true) [x']) by (cbn [map]; now rewrite reread_same).
        rewrite <- map_app, <- EZ', EG. cbn [map]. apply init_label_head with (1 := Z).
        -- destruct (reread_bits true g) as (_ & _ & _ & -> & _). auto.
        -- intros LF. destruct (reread_bits true g) as (_ & _ & _ & _ & -> & _).
           destruct CVG as (CVG & _). destruct (CVG FO) as (_ & C1 & _).
           destruct C1 as (_ & C1 & C2); [constructor|].
           destruct (left_txt f) as [|c q] eqn:ELT.
           ++ exfalso. destruct (SLN 0 f eq_refl FO) as (n & q & CF).
              destruct (cf_left _ _ _ CF) as [(_ & EB)|[(c & E5 & _)|(b & d & E5 & _ & _ & DN & _)]].
              ** unfold has_label in LF. rewrite EB in LF. discriminate.
              ** rewrite ELT in E5. discriminate.
              ** rewrite ELT in E5. symmetry in E5. apply app_eq_nil in E5 as [_ E5]. auto.
           ++ destruct C2 as [-> _]; [discriminate|]. auto.
Qed.

(** ** Whole files *)
Lemma file_reread lc n : (0 < lc -> 6 <= lc)%Z -> forall fls lls lns i raws i' pod',
  group step_fixed n fls = Some (Ok lls) -> tokenized lls lns ->
  Forall (standard lc) lns -> Forall tokens_fit lns ->
  Forall (Forall source_char) raws -> xreads lc i c_nul raws fls i' pod' ->
  exists lns' hs lls',
    convert_file lns = Ok (lns', negb (is_empty lns)) /\ Forall2 ll_converted lns lns' /\
    reads i c_nul false (printed lns') hs i' c_nul false /\
    (starts_line trivial hs -> starts_line trivial fls) /\
    group step_free n hs = Some (Ok lls') /\ Forall2 ll_again lns' lls'.
Proof.
  intros L6. induction n as [|n IH]; intros fls lls lns i raws i' pod' G TK ST TF SRC X.
  - destruct fls as [|f fls]; [|discriminate]. injection G as <-. inversion TK; subst.
    apply xreads_end in X as (-> & -> & ->). exists [], [], []. cbn. conjs; auto; constructor.
  - destruct fls as [|f fls].
    { injection G as <-. inversion TK; subst.
      apply xreads_end in X as (-> & -> & ->). exists [], [], []. cbn. conjs; auto; constructor. }
    cbn [group] in G. destruct (step_fixed (f :: fls)) as [[ll rest]| |] eqn:S; try discriminate.
    destruct (group step_fixed n rest) as [[lls1| |]|] eqn:G1; try discriminate.
    injection G as <-. inversion TK as [|? ln ? lns1 (TK1 & TK2 & TK3) TKR]; subst.
    apply step_fixed_spec in S as (b & new & E & B & L & _ & Z).
    rewrite E in X. apply xreads_split in X as (r1 & r2 & i1 & pod1 & -> & X1 & X2).
    apply Forall_app in SRC as [SRC1 SRC2].
    inversion ST as [|? ? ST0 ST1]; subst. inversion TF as [|? ? TF0 TF1]; subst.
    destruct (block_reread lc ln i r1 i1 pod1 (ll_cat ll) b (ll_layout ll) rest (ll_label ll))
      as (l' & hs & CV & LC & RA & R & -> & NE & TRV & STEP); auto.
    destruct (IH rest lls1 lns1 i1 r2 i' pod') as (lns' & hs1 & lls' & CV1 & LC1 & R1 & TRV1 & G2 & LA); auto.
    destruct (STEP hs1 TRV1) as (ll' & S2 & LL1 & LL2 & LL3).
    exists (with_layout ln l' :: lns'), (hs ++ hs1), (ll' :: lls').
    conjs.
    + cbn [convert_file]. rewrite CV. cbn [bind]. rewrite CV1. reflexivity.
    + constructor; auto. unfold ll_converted, with_layout, set_frags. cbn [l_layout l_label l_cat l_frags l_stmts
        l_nsemi l_suppress l_reformat]. rewrite TK1. conjs; auto.
    + unfold printed. cbn [map concat]. eapply reads_app; [|exact R1]. exact R.
    + intros SL. rewrite E. destruct hs as [|h hs]; [congruence|].
      assert (starts_line trivial b) as (x & y & -> & TX).
      { apply TRV. destruct SL as (x & y & [= <- <-] & TX). exists h, hs. auto. }
      exists x, (y ++ rest). auto.
    + destruct hs as [|h hs]; [congruence|]. cbn [app group] in *. rewrite S2, G2. reflexivity.
    + constructor; auto. unfold ll_again, with_layout, set_frags. cbn [l_layout l_label l_cat]. conjs; congruence.
Qed.

Theorem convert_reread raws lc n lls lns :
  scan_fixed n raws lc = Some (Ok lls) -> tokenized lls lns ->
  Forall (Forall source_char) raws -> (0 < lc -> 6 <= lc)%Z ->
  Forall (standard lc) lns -> Forall tokens_fit lns ->
  exists lns', convert_file lns = Ok (lns', negb (is_empty lns)) /\ Forall2 ll_converted lns lns' /\
    exists lls', scan_free n (printed lns') = Some (Ok lls') /\ Forall2 ll_again lns' lls'.
Proof.
  intros SC TK SRC L6 ST TF. unfold scan_fixed in SC.
  destruct (analyze_all_fixed 1 raws c_nul lc) as [fls| |] eqn:A; try discriminate.
  apply xreads_of in A as (i' & pod' & X).
  destruct (file_reread lc n L6 fls lls lns 1%Z raws i' pod') as (lns' & hs & lls' & CV & LC & R & _ & G & LA); auto.
  exists lns'. conjs; auto. exists lls'. split; auto.
  unfold scan_free. rewrite (reads_Ok _ _ _ _ _ _ _ _ R). exact G.
Qed.
