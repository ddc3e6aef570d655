(** A fixed-format file converted to free format has the same tokens. *)
From Verif Require Import Base Base_lemmas Tags Token FileLine FileLine_spec FixedLine_spec FileLine_proofs FixedLine_proofs LineAccum LineAccum_spec LineAccum_proofs
  Peg Lexer Lexer_spec Lexer_proofs LexLongest_proofs LexPos_spec LexPos_proofs LexBlank_proofs LexJoin_proofs
  LogicalFile LogicalFile_spec LogicalFile_proofs LogicalLine Stmts LineEdit ReadFile ReadFixed FormatMain FormatMain_spec FormatMain_proofs
  Convert Convert_spec Convert_proofs ConvertRead_proofs ConvertFile_proofs ConvertSame_spec.
Local Open Scope nat_scope.

(** * What was read *)
Lemma xreads_entry lc l : forall i pod raws i' pod', xreads lc i pod raws l i' pod' ->
  Forall (Forall source_char) raws -> delim_ok pod = true ->
  forall k f, nth_error l k = Some f ->
  exists ln r p, analyze_fixed ln r p lc = Ok f /\ Forall source_char r /\ delim_ok p = true /\
    p = match k with 0 => pod | S j => match nth_error l j with Some q => open_delim q | None => c_nul end end.
Proof.
  intros i pod raws i' pod'; induction 1 as [|i pod r f rs fs i' pod' A X IH]; intros Sr D k g N.
  - destruct k; discriminate.
  - inversion Sr; subst. destruct k as [|k]; cbn [nth_error] in N; [injection N as <-; exists i, r, pod; auto|].
    destruct (IH H2) with (k := k) (f := g) as (n & r0 & p & A1 & A2 & A3 & A4); auto.
    { apply fixed_facts_of in A. apply A. }
    exists n, r0, p. conjs; auto. rewrite A4. destruct k; reflexivity.
Qed.
Lemma fixed_text_source ln raw0 pod lc f :
  analyze_fixed ln raw0 pod lc = Ok f -> is_fortran f = true -> Forall source_char raw0 ->
  ((lc <= 0)%Z \/ (6 + Z.of_nat (length (left_space f)) <= lc)%Z) -> Forall source_char (line_text f).
Proof.
  intros H F S LC. apply expand_source in S.
  apply analyze_fixed_Ok in H. cbv zeta in H. set (raw := expand_tabs raw0) in *.
  destruct H as [(F' & _)|(_ & _ & lt & w & body & FL & FB & E1 & E2 & E3 & FR)]; [congruence|].
  assert (LT6 : length lt <= 6) by (eapply fixed_left_len; eauto).
  assert (RAW : raw = lt ++ w ++ body) by (eapply fixed_left_app; eauto).
  assert (FR' : fixed_right pod lc (length (lt ++ w)) body f).
  { apply FR. destruct LC as [|LC]; auto. right. rewrite app_length. rewrite E3, skipn_length in LC. lia. }
  destruct FR' as (NE & R1 & _). clear FR.
  set (win := window lc (length (lt ++ w)) body) in *.
  assert (WP : exists t, body = win ++ t).
  { pose proof (window_prefix lc (length (lt ++ w)) body) as WP. fold win in WP.
    exists (skipn (length win) body). rewrite WP at 1. now rewrite firstn_skipn. }
  destruct WP as (wt & WP).
  assert (MP : exists t, body = (main_txt f ++ right_space f) ++ t).
  { destruct R1 as [(k & _ & -> & _)|(_ & -> & _)]; [|eauto].
    exists (skipn k win ++ wt). rewrite app_assoc, firstn_skipn. exact WP. }
  destruct MP as (mt & MP).
  rewrite RAW in S. apply Forall_app in S as [S1 S]. apply Forall_app in S as [S2 S3].
  assert (S4 := S3). rewrite MP in S4. apply Forall_app in S4 as [S4 _]. apply Forall_app in S4 as [S4 S5].
  unfold line_text. rewrite E2, E3. rewrite !Forall_app. conjs; auto.
  - rewrite <- (firstn_skipn (6 - length lt) w) in S2. now apply Forall_app in S2 as [_ S2].
  - assert (TL : forall n, Forall source_char (skipn n body)).
    { intros n. rewrite <- (firstn_skipn n body) in S3. now apply Forall_app in S3 as [_ S3]. }
    destruct R1 as [(k & _ & _ & -> & _)|(_ & _ & _ & BY)]; [apply TL|].
    destruct BY as [(_ & ->)|(b & c & r & EB & _ & _ & ->)]; [constructor|].
    pose proof (TL (length win)) as T.
    destruct (ceq c c_amp || ceq c c_bang); auto.
    apply Forall_app. split; auto. repeat constructor; left; vm_compute; lia.
Qed.
Lemma source_plain c : source_char c -> plain c.
Proof.
  intros [H| ->].
  - split; [lia|]. intro X. cbn [In] in X. repeat (destruct X as [X|X]; [subst c; vm_compute in H; lia|]). exact X.
  - split; [vm_compute; lia|]. intro X. cbn [In] in X. repeat (destruct X as [X|X]; [discriminate X|]). exact X.
Qed.
Lemma str_white c : mem c set_str = false -> ~ white c.
Proof. intros H W. unfold white in W. cbn [In] in W. destruct W as [<-|[<-|[<-|[]]]]; discriminate H. Qed.

Definition code_ok (l : list File_Line) : Prop :=
  forall k f, nth_error l k = Some f -> is_fortran f = true ->
    Forall plain (main_txt f) /\ (entry l k = c_nul -> exists c r, main_txt f = c :: r /\ ~ white c).
Definition no_code (f : File_Line) : Prop :=
  is_fortran f = false /\ left_space f = [] /\ main_txt f = [] /\ right_space f = [].
Definition lay_ok (ln : LLn) : Prop :=
  if starts_code (l_layout ln) then code_ok (l_layout ln) else Forall no_code (l_layout ln).

Lemma block_ok lc ln i raws i' pod' cat b new rest :
  (0 < lc -> 6 <= lc)%Z -> Forall (Forall source_char) raws ->
  fixed_block cat b new rest -> l_layout ln = new -> standard lc ln ->
  xreads lc i c_nul raws b i' pod' -> lay_ok ln.
Proof.
  intros L6 SRC B EL ST X. unfold lay_ok, standard in *. rewrite EL in *.
  assert (NC : forall f, In f b -> is_fortran f = false -> no_code f).
  { intros f I F. apply In_nth_error in I as (k & N). destruct (xreads_nth _ _ _ _ _ _ _ X SRC k f N) as (n & r & p & A & _).
    apply fixed_other in A as [P _]; auto. destruct P as (_ & _ & P1 & P2 & P3 & _). unfold no_code. auto. }
  destruct B as [b rest NE TR NT|f fls fls' rest NTF NF PC|f mid t rest FO MD LS TT NS].
  - assert (NFO : forall f, In f b -> is_fortran f = false).
    { intros f I. rewrite Forall_forall in TR. apply TR in I. apply trivial_b in I.
      destruct (is_fortran f) eqn:F; auto. apply fortran_parts in F as (F & _). congruence. }
    destruct b as [|f b1]; [congruence|]. cbn [starts_code]. rewrite (NFO f) by now left.
    apply Forall_forall. intros x I. apply NC; auto.
  - cbn [starts_code] in *. rewrite NF in *. inversion ST as [|? ? (SB & SP & SBS) _]; subst.
    assert (CF : is_comment f = false /\ is_blank f = false).
    { unfold trivial in NTF. split; destruct (is_comment f), (is_blank f); auto; exfalso; auto. }
    assert (NBS : ~ ends_backslash (left_txt f)) by (destruct CF; auto).
    assert (fls = [] /\ fls' = []) as [-> ->] by (inversion PC; subst; auto; tauto).
    constructor; [|constructor]. apply NC; auto. now left.
  - cbn [starts_code] in *. rewrite FO in *. intros k x N FX.
    destruct (proj1 ST _ _ N) as [CM|[_ SL]].
    { destruct (fortran_parts _ FX) as (_ & _ & Y). congruence. }
    destruct (xreads_entry _ _ _ _ _ _ _ X SRC eq_refl _ _ N) as (n & r & p & A & SR & DP & EP).
    pose proof (st_col _ _ _ _ _ SL) as COL. split.
    + apply Forall_impl with (1 := source_plain). pose proof (fixed_text_source _ _ _ _ _ A FX SR COL) as TX.
      unfold line_text in TX. rewrite !Forall_app in TX. apply TX.
    + intros EN. assert (p = c_nul) as -> by (rewrite EP; destruct k; [reflexivity|exact EN]).
      destruct (cf_head _ _ _ (fixed_code_facts _ _ _ _ _ A FX SR DP L6 COL) eq_refl) as (c & r0 & E & M & _).
      exists c, r0. split; auto. now apply str_white.
Qed.

Definition lay_src (ln : LLn) : Prop := Forall (fun f => Forall source_char (line_text f)) (l_layout ln).
Lemma block_src lc ln i raws i' pod' cat b new rest :
  Forall (Forall source_char) raws ->
  fixed_block cat b new rest -> l_layout ln = new -> standard lc ln ->
  xreads lc i c_nul raws b i' pod' -> lay_src ln.
Proof.
  intros SRC B EL ST X. unfold lay_src, standard in *. rewrite EL in *.
  assert (NC : forall f, In f b -> is_fortran f = false -> Forall source_char (line_text f)).
  { intros f I F. apply In_nth_error in I as (k & N). destruct (xreads_nth _ _ _ _ _ _ _ X SRC k f N) as (n & r & p & A & SR).
    apply fixed_other in A as [P _]; auto. destruct P as (_ & P0 & P1 & P2 & P3 & P4 & _). unfold line_text. rewrite P0, P1, P2, P3, P4, !app_nil_r.
    now apply expand_source. }
  destruct B as [b rest NE TR NT|f fls fls' rest NTF NF PC|f mid t rest FO MD LS TT NS].
  - apply Forall_forall. intros f I. apply NC; [exact I|]. rewrite Forall_forall in TR. apply TR in I. apply trivial_b in I.
    destruct (is_fortran f) eqn:F; auto. apply fortran_parts in F as (F & _). congruence.
  - cbn [starts_code] in *. rewrite NF in *. inversion ST as [|? ? (SB & SP & SBS) _]; subst.
    assert (CF : is_comment f = false /\ is_blank f = false).
    { unfold trivial in NTF. split; destruct (is_comment f), (is_blank f); auto; exfalso; auto. }
    assert (NBS : ~ ends_backslash (left_txt f)) by (destruct CF; auto).
    assert (fls = [] /\ fls' = []) as [-> ->] by (inversion PC; subst; auto; tauto).
    constructor; [|constructor]. apply NC; auto. now left.
  - cbn [starts_code] in *. rewrite FO in *. apply Forall_forall. intros x I. destruct (is_fortran x) eqn:FX; [|auto].
    apply In_nth_error in I as (k & N). destruct (proj1 ST _ _ N) as [CM|[_ SL]].
    { destruct (fortran_parts _ FX) as (_ & _ & Y). congruence. }
    destruct (xreads_nth _ _ _ _ _ _ _ X SRC k x N) as (n & r & p & A & SR).
    exact (fixed_text_source _ _ _ _ _ A FX SR (st_col _ _ _ _ _ SL)).
Qed.

Lemma file_ok lc n : (0 < lc -> 6 <= lc)%Z -> forall fls lls lns i raws i' pod',
  group step_fixed n fls = Some (Ok lls) -> tokenized lls lns ->
  Forall (standard lc) lns -> Forall tokens_fit lns ->
  Forall (Forall source_char) raws -> xreads lc i c_nul raws fls i' pod' -> Forall (fun ln => lay_ok ln /\ lay_src ln) lns.
Proof.
  intros L6. induction n as [|n IH]; intros fls lls lns i raws i' pod' G TK ST TF SRC X.
  - destruct fls as [|f fls]; [|discriminate]. injection G as <-. inversion TK; subst. constructor.
  - destruct fls as [|f fls].
    { injection G as <-. inversion TK; subst. constructor. }
    cbn [group] in G. destruct (step_fixed (f :: fls)) as [[ll rest]| |] eqn:S; try discriminate.
    destruct (group step_fixed n rest) as [[lls1| |]|] eqn:G1; try discriminate.
    injection G as <-. inversion TK as [|? ln ? lns1 (TK1 & TK2 & TK3) TKR]; subst.
    apply step_fixed_spec in S as (b & new & E & B & L & _ & Z).
    rewrite E in X. apply xreads_split in X as (r1 & r2 & i1 & pod1 & -> & X1 & X2).
    apply Forall_app in SRC as [SRC1 SRC2].
    inversion ST as [|? ? ST0 ST1]; subst. inversion TF as [|? ? TF0 TF1]; subst.
    destruct (block_reread lc ln i r1 i1 pod1 (ll_cat ll) b (ll_layout ll) rest (ll_label ll))
      as (l' & hs & _ & _ & _ & _ & -> & _); auto.
    constructor.
    + split; [exact (block_ok lc ln i r1 i1 c_nul (ll_cat ll) b (ll_layout ll) rest L6 SRC1 B TK1 ST0 X1)|].
      exact (block_src lc ln i r1 i1 c_nul (ll_cat ll) b (ll_layout ll) rest SRC1 B TK1 ST0 X1).
    + exact (IH rest lls1 lns1 i1 r2 i' pod' G1 TKR ST1 TF1 SRC2 X2).
Qed.

(** * Layouts *)
Section Lay.
Variable N : nat -> Prop.
Definition prel (k : nat) (f h : File_Line) : Prop :=
  is_trivial h = is_trivial f /\
  (is_trivial f = false -> more_blank (line_of f) (line_of h) /\
    (fresh (line_of f) (line_of h) -> main_txt f <> [] /\ N k)).
Fixpoint irel (k : nat) (l hs : list File_Line) : Prop :=
  match l, hs with
  | [], [] => True
  | f :: l, h :: hs => prel k f h /\ irel (S k) l hs
  | _, _ => False
  end.
Lemma irel_nth : forall l hs k, length hs = length l ->
  (forall i f, nth_error l i = Some f -> exists h, nth_error hs i = Some h /\ prel (k + i) f h) -> irel k l hs.
Proof using.
  induction l as [|f l IH]; intros [|h hs] k E H; try discriminate E; [exact I|]. split.
  - destruct (H 0 f eq_refl) as (x & E1 & X). cbn in E1. injection E1 as <-. rewrite Nat.add_0_r in X. exact X.
  - apply IH; [now injection E|]. intros i g Hi. destruct (H (S i) g Hi) as (x & E1 & X). exists x. split; [exact E1|].
    replace (S k + i) with (k + S i) by lia. exact X.
Qed.
Definition code (f : File_Line) : bool := negb (is_trivial f).
Lemma lines_cons f l : lines_of (f :: l) = if is_trivial f then lines_of l else line_of f :: lines_of l.
Proof using. unfold lines_of. cbn [filter]. destruct (is_trivial f); reflexivity. Qed.
Lemma irel_lines : forall l hs k, irel k l hs -> Forall2 more_blank (lines_of l) (lines_of hs) /\
  forall j q q', nth_error (lines_of l) j = Some q -> nth_error (lines_of hs) j = Some q' -> fresh q q' ->
    l_main q <> [] /\ exists i, i < length l /\ length (filter code (firstn i l)) = j /\ N (k + i).
Proof using.
  induction l as [|f l IH]; intros [|h hs] k H; try destruct H as [].
  - split; [constructor|]. intros j q q' Hq. destruct j; discriminate Hq.
  - destruct (IH _ _ H0) as [F G]. destruct H as [T P].
    assert (K : forall j q q', nth_error (lines_of l) j = Some q -> nth_error (lines_of hs) j = Some q' -> fresh q q' ->
      l_main q <> [] /\ exists i, i < length (f :: l) /\ length (filter code (firstn i (f :: l))) = (if is_trivial f then j else S j) /\ N (k + i)).
    { intros j q q' H1 H2 H3. destruct (G j q q' H1 H2 H3) as (M & i & A & B & C). split; [exact M|]. exists (S i). cbn [length firstn filter].
      split; [lia|]. split; [|replace (k + S i) with (S k + i) by lia; exact C]. unfold code at 1. destruct (is_trivial f); cbn [negb length]; lia. }
    rewrite !lines_cons, T. destruct (is_trivial f) eqn:E.
    + split; [exact F|exact K].
    + destruct (P eq_refl) as [P1 P2]. split; [constructor; auto|]. intros [|j] q q' H1 H2 H3; cbn [nth_error] in *; [|eauto].
      injection H1 as <-. injection H2 as <-. destruct (P2 H3) as [A B]. split; [exact A|]. exists 0. cbn. split; [lia|]. split; [reflexivity|].
      rewrite Nat.add_0_r. exact B.
Qed.
End Lay.

Lemma read_trivial g h : read_again g h -> is_trivial h = is_trivial g.
Proof.
  intros (_ & _ & _ & _ & _ & _ & _ & [E|[_ E]]); unfold is_trivial, is_comment, is_blank; rewrite E; reflexivity.
Qed.
Lemma blank_same (s t : str) : (s = [] <-> t = []) -> blank_if (zlen s) = blank_if (zlen t).
Proof.
  intros H. destruct s, t; try reflexivity.
  - destruct H as [H _]. discriminate (H eq_refl).
  - destruct H as [_ H]. discriminate (H eq_refl).
Qed.
Lemma F2_nth' {A B} (R : A -> B -> Prop) a b : Forall2 R a b -> forall i x, nth_error a i = Some x -> exists y, nth_error b i = Some y /\ R x y.
Proof. induction 1; intros [|i] z E; cbn in *; try discriminate; [injection E as <-; eauto|eauto]. Qed.
Lemma F2_len {A B} (R : A -> B -> Prop) a b : Forall2 R a b -> length b = length a.
Proof. induction 1; cbn; congruence. Qed.

Lemma stmt_pair lc toks l l' hs : standard_stmt lc toks l -> starts_code l = true -> code_ok l ->
  layout_converted toks l l' -> Forall2 read_again l' hs ->
  length hs = length l /\
  forall i f, nth_error l i = Some f -> exists h, nth_error hs i = Some h /\ is_trivial h = is_trivial f /\
    (is_trivial f = false -> is_fortran f = true /\ main_txt h = main_txt f /\
      blank_if (zlen (right_space h)) = blank_if (zlen (right_space f)) /\
      (i <> 0 -> prel (fun k => ~ cuts toks k) i f h)).
Proof.
  intros ST SC CO [LL LC] RA. split; [rewrite (F2_len _ _ _ RA); exact LL|].
  intros i f Hf. destruct (LC i f Hf) as (g & Hg & CV). destruct (F2_nth' _ _ _ RA _ _ Hg) as (h & Hh & RH).
  exists h. split; [exact Hh|].
  assert (TG : is_trivial g = is_trivial f).
  { assert (some_converted f g) as X by (unfold some_converted; eauto). apply some_same, same_class in X. apply X. }
  assert (TH : is_trivial h = is_trivial f) by (rewrite (read_trivial _ _ RH); exact TG).
  split; [exact TH|]. intros TF.
  destruct (proj1 ST i f Hf) as [CM|[FO SL]].
  { exfalso. unfold is_trivial in TF. rewrite CM in TF. discriminate TF. }
  destruct CV as (CV & _). destruct (CV FO) as (SCo & C1 & C2 & C3 & C4 & C5).
  destruct RH as (_ & R1 & R2 & R3 & R4 & R5 & _). destruct SCo as (_ & SM & _).
  assert (MH : main_txt h = main_txt f) by congruence.
  assert (BR : blank_if (zlen (right_space h)) = blank_if (zlen (right_space f))).
  { rewrite R4. assert (D : more_code l i \/ ~ more_code l i).
    { unfold more_code. generalize (skipn (S i) l). intro z. induction z as [|x z [IH|IH]].
      - right. intro X. inversion X.
      - left. now right.
      - destruct (is_fortran x) eqn:E; [left; now left|]. right. intro X. inversion X; subst; [congruence|contradiction]. }
    destruct D as [D|D].
    - destruct (C4 D) as (_ & [(_ & -> & _)|(_ & _ & [-> |(a & b & E & NE)])]); [reflexivity|reflexivity|].
      apply blank_same. rewrite E. split; [intro; contradiction|discriminate].
    - destruct (C5 D) as (-> & _). reflexivity. }
  split; [exact FO|]. split; [exact MH|]. split; [exact BR|]. intros Hi. split; [exact TH|]. intros _.
  assert (NF : ~ first_code l i).
  { intro X. unfold first_code in X. destruct l as [|f0 l]; [discriminate SC|]. destruct i; [congruence|]. cbn [firstn] in X. inversion X; subst. cbn in SC. congruence. }
  destruct (cuts_dec toks i) as [CT|CT].
  - destruct (C2 NF CT) as (_ & _ & E). unfold more_blank, fresh. cbn [line_of l_main l_left l_right]. rewrite R2, E.
    split; [auto|]. intros [X Y]. rewrite X in Y. discriminate Y.
  - destruct (C3 NF CT) as (_ & _ & E). unfold more_blank, fresh. cbn [line_of l_main l_left l_right]. rewrite R2, E.
    assert (BL : blank_if (zlen (spaces 6 ++ left_space f)) = [c_sp]) by reflexivity. rewrite BL.
    split.
    + split; [exact MH|]. split; [exact BR|]. unfold blank_if. destruct (0 <? zlen (left_space f))%Z; auto.
    + intros _. split; [|exact CT]. destruct (CO i f Hf FO) as [_ HD].
      assert (EN : entry l i = c_nul).
      { destruct (Ascii.ascii_dec (entry l i) c_nul) as [|Z]; auto. exfalso. apply CT. exact (st_open _ _ _ _ _ SL Z). }
      destruct (HD EN) as (c & r & -> & _). discriminate.
Qed.

Lemma count_code l i : length (filter code (firstn i l)) <= i.
Proof. revert l. induction i as [|i IH]; intros [|x l]; cbn [firstn filter length]; try lia. specialize (IH l). destruct (code x); cbn [length]; lia. Qed.
Lemma count_all : forall n l i, Forall (fun f => is_fortran f = true) (firstn n l) -> i < length l ->
  (i <= n -> length (filter code (firstn i l)) = i) /\ (n <= i -> n <= length (filter code (firstn i l))).
Proof.
  induction n as [|n IH]; intros l i F L.
  - split; [|lia]. intros X. assert (i = 0) by lia. subst. reflexivity.
  - destruct l as [|x l]; [cbn in L; lia|]. cbn [firstn] in F. inversion F; subst. destruct i as [|i]; [cbn; split; lia|].
    cbn [firstn filter length] in *. assert (code x = true) as E by (unfold code; apply fortran_parts in H1 as (-> & _); reflexivity). rewrite E. cbn [length].
    destruct (IH l i H2) as [A B]; [lia|]. split; intro; [rewrite A by lia; reflexivity|]. assert (n <= length (filter code (firstn i l))) by (apply B; lia). lia.
Qed.
Lemma cuts_index toks f0 r j i : fortran_upto (f0 :: r) (S j) -> i < length r -> length (filter code (firstn i r)) = j -> ~ cuts toks (1 + i) -> ~ cuts toks (S j).
Proof.
  intros F L E NC. unfold fortran_upto in F. cbn [firstn] in F. inversion F as [|? ? _ F']; subst x l.
  destruct (count_all (S j) r i F' L) as [A B]. destruct (le_lt_dec i j) as [H|H].
  - rewrite A in E by lia. subst j. exact NC.
  - assert (S j <= length (filter code (firstn i r))) by (apply B; lia). lia.
Qed.

Lemma stmt_tokens lc st ln l' hs st' : idle st -> standard_stmt lc (l_frags ln) (l_layout ln) -> starts_code (l_layout ln) = true -> code_ok (l_layout ln) ->
  tokens_fit ln -> reals_whole ln -> layout_converted (l_frags ln) (l_layout ln) l' -> Forall2 read_again l' hs ->
  tokenize_layout st (l_layout ln) = Done (l_frags ln, st') ->
  idle st' /\ exists fr', tokenize_layout st hs = Done (fr', st') /\ Forall2 same_tok (l_frags ln) fr'.
Proof.
  intros Hst ST SC CO [TO TF] RW LC RA T.
  destruct (stmt_pair _ _ _ _ _ ST SC CO LC RA) as [EL PR].
  set (l := l_layout ln) in *. destruct l as [|f0 r] eqn:El; [discriminate SC|]. cbn [starts_code] in SC.
  destruct hs as [|h0 s]; [discriminate EL|]. injection EL as EL.
  destruct (PR 0 f0 eq_refl) as (x & E0 & T0 & P0). cbn in E0. injection E0 as <-.
  assert (TR0 : is_trivial f0 = false) by (apply fortran_parts in SC; apply SC).
  destruct (P0 TR0) as (_ & M0 & B0 & _).
  assert (IR : irel (fun k => ~ cuts (l_frags ln) k) 1 r s).
  { apply irel_nth; [exact EL|]. intros i f Hf. destruct (PR (S i) f Hf) as (h & Hh & TH & P). exists h. split; [exact Hh|].
    destruct (is_trivial f) eqn:TFf.
    - split; [congruence|]. rewrite TFf. discriminate.
    - destruct (P eq_refl) as (_ & _ & _ & Q). apply Q. discriminate. }
  apply irel_lines in IR as [MB FR].
  unfold tokenize_layout in *. rewrite accum_layout_lines in *. fold (lines_of (f0 :: r)) in T. fold (lines_of (h0 :: s)).
  rewrite lines_cons, TR0 in T. rewrite lines_cons, T0, TR0.
  apply (lines_tokens st (line_of f0) (lines_of r) (line_of h0) (lines_of s) (l_frags ln) st'); auto.
  - replace (line_of f0 :: lines_of r) with (lines_of (f0 :: r)) by (rewrite lines_cons, TR0; reflexivity). apply line_cols.
  - replace (line_of h0 :: lines_of s) with (lines_of (h0 :: s)) by (rewrite lines_cons, T0, TR0; reflexivity). apply line_cols.
  - replace (line_of f0 :: lines_of r) with (lines_of (f0 :: r)) by (rewrite lines_cons, TR0; reflexivity).
    unfold lines_of. apply Forall_map. apply Forall_forall. intros f I. apply filter_In in I as [I NT]. apply In_nth_error in I as (k & Hk).
    destruct (PR k f Hk) as (h & _ & _ & P). apply Bool.negb_true_iff in NT. destruct (P NT) as (FO & _). apply (CO k f Hk FO).
  - destruct (CO 0 f0 eq_refl SC) as [_ HD]. apply HD. reflexivity.
  - intros j q q' H1 H2 H3. destruct (FR j q q' H1 H2 H3) as (A & i & B & C & D). split; [exact A|].
    intro CT. exact (cuts_index _ f0 r j i (TF (S j) CT) B C D CT).
Qed.

Lemma empty_tokens st ls : idle st -> Forall (fun l => l_main l <> [] -> 0 < l_col l)%Z ls -> joined ls = [] ->
  exists st', idle st' /\ scan_string st [] = Done ([], st') /\ tokenize st (accum_of ls) = Done ([], st').
Proof.
  intros Hst C E. destruct (tokenize_ok st ls Hst C) as (L & st' & fss & ES & ET & F).
  - rewrite E. constructor.
  - rewrite E. exact I.
  - destruct (scan_string_ok st (joined ls) Hst) as (L0 & s0 & ES0 & _ & I0). rewrite ES in ES0. inversion ES0; subst L0 s0.
    rewrite E in *. exists st'. split; [exact I0|].
    assert (L = []) as ->.
    { destruct F as [|[[t w] e] fs L fss ((T1 & T2 & _) & _) _]; [reflexivity|]. rewrite E in T2. cbn in T2. lia. }
    inversion F; subst. auto.
Qed.
Lemma other_tokens st ln l' hs fr st' : idle st -> Forall no_code (l_layout ln) ->
  layout_converted (l_frags ln) (l_layout ln) l' -> Forall2 read_again l' hs ->
  tokenize_layout st (l_layout ln) = Done (fr, st') ->
  idle st' /\ exists fr', tokenize_layout st hs = Done (fr', st') /\ Forall2 same_tok fr fr'.
Proof.
  intros Hst NC LC RA T. apply layout_pairs in LC.
  assert (J : forall l, Forall (fun f => left_space f = [] /\ main_txt f = [] /\ right_space f = []) l -> joined (lines_of l) = [] /\ concat (map contrib (lines_of l)) = []).
  { intros l H. assert (K : concat (map contrib (lines_of l)) = []).
    { induction H as [|f l (A & B & C) _ IH]; [reflexivity|]. rewrite lines_cons. destruct (is_trivial f); [exact IH|]. cbn [map concat]. rewrite IH.
      unfold contrib, line_of. cbn. rewrite A, B, C. reflexivity. }
    split; [|exact K]. induction H as [|f l (A & B & C) H IH]; [reflexivity|]. rewrite lines_cons in *. destruct (is_trivial f); [auto|].
    cbn [map concat] in K. apply app_eq_nil in K as [_ K]. cbn [joined]. rewrite K. unfold line_of. cbn. rewrite B, C. reflexivity. }
  assert (N1 : Forall (fun f => left_space f = [] /\ main_txt f = [] /\ right_space f = []) (l_layout ln)) by (revert NC; apply Forall_impl; unfold no_code; intuition).
  assert (N2 : Forall (fun f => left_space f = [] /\ main_txt f = [] /\ right_space f = []) hs).
  { clear - NC LC RA. revert hs RA NC. induction LC as [|f g l l' CV _ IH]; intros hs RA NC; inversion RA as [|? h ? ? RH RA']; subst; [constructor|].
    inversion NC as [|? ? (F & A & B & C) NC']; subst. constructor; [|auto].
    destruct RH as (_ & _ & R2 & R3 & R4 & _). rewrite R2, R3, R4.
    destruct (some_other _ _ CV F) as [X Y]. destruct (some_same _ _ CV) as (_ & M & _). rewrite M. destruct (is_comment f).
    - destruct (X eq_refl) as (_ & _ & _ & -> & -> & _). auto.
    - destruct (Y eq_refl) as (_ & _ & _ & _ & -> & -> & _). auto. }
  unfold tokenize_layout in *. rewrite accum_layout_lines in *. fold (lines_of (l_layout ln)) in T. fold (lines_of hs).
  destruct (empty_tokens st (lines_of (l_layout ln)) Hst (line_cols _) (proj1 (J _ N1))) as (s1 & I1 & E1 & T1).
  destruct (empty_tokens st (lines_of hs) Hst (line_cols _) (proj1 (J _ N2))) as (s2 & I2 & E2 & T2).
  rewrite T in T1. inversion T1; subst fr s1. rewrite E1 in E2. inversion E2; subst s2. split; [exact I1|]. exists []. auto.
Qed.

(** * Files *)
Lemma obind_Done {A B} (e : out A) (k : A -> out B) r : obind e k = Done r -> exists a, e = Done a /\ k a = Done r.
Proof. destruct e; cbn; intro H; try discriminate H. eauto. Qed.
Lemma stmts_same a b : Forall2 same_tok a b -> init_stmts b = init_stmts a.
Proof.
  unfold init_stmts. intros H. generalize 0, (@None nat). induction H as [|x y a b (X & _) _ IH]; intros i sb; auto. cbn [init_stmts_loop]. assert (E : is_semi y = is_semi x) by (unfold is_semi; now rewrite X).
  rewrite E. destruct (is_semi x); now rewrite IH.
Qed.
Definition found (lc : Z) (ln : LLn) (ll : LLine) : Prop :=
  standard lc ln /\ tokens_fit ln /\ reals_whole ln /\ lay_ok ln /\
  ll_label ll = l_label ln /\ ll_cat ll = l_cat ln /\ init_label (ll_layout ll) = Ok (ll_label ll) /\
  exists l', layout_converted (l_frags ln) (l_layout ln) l' /\ Forall2 read_again l' (ll_layout ll).
Lemma read_same lc : forall lns lls', Forall2 (found lc) lns lls' -> forall lls st, idle st ->
  read_lines st lls = Done lns -> exists ls2, read_lines st lls' = Done ls2 /\ Forall2 same_code lns ls2.
Proof.
  induction 1 as [|ln ll lns lls' (ST & TF & RW & LO & F1 & F2 & F3 & l' & LC & RA) _ IH]; intros lls st Hst H.
  - exists []. auto.
  - destruct lls as [|x lls]; [discriminate H|]. cbn [read_lines] in H.
    apply obind_Done in H as ([ln0 s] & H0 & H). cbn [obind] in H. apply obind_Done in H as (r & HR & H). injection H as -> ->.
    unfold init_from_layout in H0. apply obind_Done in H0 as (lab & HL & H0). apply obind_Done in H0 as ([fr s'] & HT & H0). injection H0 as H0 ->.
    unfold redo_stmts in H0. cbn [l_frags] in H0. destruct (init_stmts fr) as [sts n] eqn:IS. cbn in H0.
    assert (EF : l_frags ln = fr) by (rewrite <- H0; reflexivity).
    assert (EY : l_layout ln = ll_layout x) by (rewrite <- H0; reflexivity).
    assert (ES : l_stmts ln = sts) by (rewrite <- H0; reflexivity).
    assert (EU : l_suppress ln = false) by (rewrite <- H0; reflexivity).
    rewrite <- EY, <- EF in HT.
    assert (K : idle s /\ exists fr', tokenize_layout st (ll_layout ll) = Done (fr', s) /\ Forall2 same_tok (l_frags ln) fr').
    { unfold lay_ok, standard in *. destruct (starts_code (l_layout ln)) eqn:SC.
      - eapply stmt_tokens; eauto.
      - eapply other_tokens; eauto. }
    destruct K as (Hs & fr' & HT' & SF). destruct (IH lls s Hs HR) as (ls2 & HR2 & SC2).
    cbn [read_lines]. unfold init_from_layout. rewrite F3. cbn [lift obind]. rewrite HT'. cbn [obind]. rewrite HR2. cbn [obind].
    eexists. split; [reflexivity|]. constructor; [|exact SC2].
    unfold redo_stmts. cbn [l_frags]. rewrite (stmts_same _ _ SF), EF, IS. unfold same_code. cbn. rewrite EF in SF. rewrite ES, EU, F1, F2, EF. auto 10.
Qed.

Lemma group_label n : forall fls lls, group step_free n fls = Some (Ok lls) -> Forall (fun ll => init_label (ll_layout ll) = Ok (ll_label ll)) lls.
Proof.
  induction n as [|n IH]; intros fls lls H; destruct fls as [|f r]; cbn [group] in H; try discriminate; try (injection H as <-; constructor).
  destruct (step_free (f :: r)) as [[ll rest]| |] eqn:S; try discriminate.
  destruct (group step_free n rest) as [[lls1| |]|] eqn:G; try discriminate. injection H as <-. constructor; [|eauto].
  apply step_free_spec in S as (b & new & _ & _ & -> & _ & X). exact X.
Qed.
Lemma fixed_label n : forall fls lls, group step_fixed n fls = Some (Ok lls) -> Forall (fun ll => init_label (ll_layout ll) = Ok (ll_label ll)) lls.
Proof.
  induction n as [|n IH]; intros fls lls H; destruct fls as [|f r]; cbn [group] in H; try discriminate; try (injection H as <-; constructor).
  destruct (step_fixed (f :: r)) as [[ll rest]| |] eqn:S; try discriminate.
  destruct (group step_fixed n rest) as [[lls1| |]|] eqn:G; try discriminate. injection H as <-. constructor; [|eauto].
  apply step_fixed_spec in S as (b & new & _ & _ & -> & _ & X). exact X.
Qed.
Lemma read_tokenized : forall lls, Forall (fun ll => init_label (ll_layout ll) = Ok (ll_label ll)) lls -> forall st lns, read_lines st lls = Done lns -> tokenized lls lns.
Proof.
  induction 1 as [|x lls Hx _ IH]; intros st lns H; cbn [read_lines] in H.
  - injection H as <-. constructor.
  - apply obind_Done in H as ([ln0 s] & H0 & H). apply obind_Done in H as (r & HR & H). injection H as <-.
    unfold init_from_layout in H0. apply obind_Done in H0 as (lab & HL & H0). apply obind_Done in H0 as ([fr s'] & HT & H0). injection H0 as <- <-.
    rewrite Hx in HL. injection HL as <-.
    constructor; [|eapply IH; eauto]. unfold redo_stmts. cbn [l_frags]. destruct (init_stmts fr). cbn. auto.
Qed.

(** * The text that is written *)
Lemma converted_source toks l l' : layout_converted toks l l' -> Forall (fun f => Forall source_char (line_text f)) l ->
  Forall (fun g => is_fixed_format g = false /\ Forall source_char (line_text g)) l'.
Proof.
  intros [LL LC] S. apply Forall_forall. intros g I. apply In_nth_error in I as (i & Hg).
  destruct (nth_error l i) as [f|] eqn:Hf.
  2:{ apply nth_error_None in Hf. assert (i < length l') by (apply nth_error_Some; congruence). lia. }
  destruct (LC i f Hf) as (g' & Hg' & CV). rewrite Hg in Hg'. injection Hg' as <-.
  assert (SC : some_converted f g) by (unfold some_converted; eauto). destruct (some_same _ _ SC) as (_ & M & _ & FX & _). split; [exact FX|].
  rewrite Forall_forall in S. apply nth_error_In in Hf. specialize (S f Hf). unfold line_text in *. rewrite !Forall_app in *. destruct S as (S1 & S2 & S3 & S4 & S5).
  assert (AMP : source_char c_amp) by (left; vm_compute; lia). assert (SP : source_char c_sp) by (left; vm_compute; lia). assert (BG : source_char c_bang) by (left; vm_compute; lia).
  rewrite M. destruct (is_fortran f) eqn:FO.
  - destruct CV as (CV & _). destruct (CV FO) as (_ & C1 & C2 & C3 & C4 & C5).
    assert (D1 : first_code l i \/ ~ first_code l i).
    { unfold first_code. generalize (firstn i l). intro z. induction z as [|x z [IH|IH]]; [left; constructor| |right; intro X; inversion X; contradiction].
      destruct (is_fortran x) eqn:E; [right; intro X; inversion X; congruence|left; constructor; auto]. }
    assert (D2 : more_code l i \/ ~ more_code l i).
    { unfold more_code. generalize (skipn (S i) l). intro z. induction z as [|x z [IH|IH]].
      - right. intro X. inversion X.
      - left. now right.
      - destruct (is_fortran x) eqn:E; [left; now left|]. right. intro X. inversion X; subst; [congruence|contradiction]. }
    assert (LS : Forall source_char (left_txt g) /\ Forall source_char (left_space g)).
    { assert (PL : front_plain f g -> Forall source_char (left_txt g) /\ Forall source_char (left_space g)).
      { intros [-> ->]. split; [constructor|]. apply Forall_app. split; [|exact S2]. repeat constructor; exact SP. }
      destruct D1 as [D1|D1].
      - destruct (C1 D1) as (_ & X & Y). destruct (left_txt f) as [|c r] eqn:EE; [apply PL; auto|]. destruct Y as [-> ->]; [discriminate|]. rewrite EE. auto.
      - destruct (cuts_dec toks i) as [CT|CT]; [|apply PL; apply C3; auto]. destruct (C2 D1 CT) as (_ & -> & ->). split; [|exact S2].
        apply Forall_app. split; [|constructor; auto]. rewrite <- (firstn_skipn 5 (left_txt f)) in S1. apply Forall_app in S1. apply S1. }
    destruct LS as [LS1 LS2]. conjs; auto.
    + destruct D2 as [D2|D2]; [|destruct (C5 D2) as (-> & _); exact S4].
      destruct (C4 D2) as (_ & [(_ & -> & _)|(_ & _ & [-> |(a & b & E & NE)])]); auto. rewrite E in S4. inversion S4 as [|? ? _ S4']; subst. inversion S4'; auto.
    + destruct D2 as [D2|D2]; [|destruct (C5 D2) as (_ & -> & _); exact S5].
      destruct (C4 D2) as (_ & [(_ & _ & ->)|(_ & -> & _)]); auto.
  - destruct (some_other _ _ SC FO) as [X Y]. destruct (is_comment f).
    + destruct (X eq_refl) as (_ & _ & _ & -> & -> & -> & c & r & E & H). conjs; auto. destruct H as [(_ & ->)|(_ & ->)]; auto. rewrite E in S1. inversion S1; subst. constructor; auto.
    + destruct (Y eq_refl) as (_ & _ & _ & -> & -> & -> & ->). auto.
Qed.
Lemma read_suppress : forall lls st lns, read_lines st lls = Done lns -> Forall (fun ln => l_suppress ln = false) lns.
Proof.
  induction lls as [|x lls IH]; intros st lns H; cbn [read_lines] in H.
  - injection H as <-. constructor.
  - apply obind_Done in H as ([ln0 s] & H0 & H). apply obind_Done in H as (r & HR & H). injection H as <-.
    unfold init_from_layout in H0. apply obind_Done in H0 as (lab & HL & H0). apply obind_Done in H0 as ([fr s'] & HT & H0). injection H0 as <- <-.
    constructor; [|eapply IH; eauto]. unfold redo_stmts. cbn [l_frags]. destruct (init_stmts fr). reflexivity.
Qed.
Lemma write_printed lns : Forall (fun ln => l_suppress ln = false) lns -> write_file lns = text_of (printed lns).
Proof.
  unfold write_file, printed, text_of. induction 1 as [|ln lns E _ IH]; [reflexivity|]. cbn [flat_map map concat]. rewrite IH, flat_map_app. f_equal.
  unfold print_lln. rewrite E. clear. induction (l_layout ln) as [|f l IH]; [reflexivity|]. cbn [flat_map map]. now rewrite IH.
Qed.

Theorem convert_same lc raws lns : read_fixed lc raws = Done lns ->
  Forall (Forall source_char) raws -> (0 < lc -> 6 <= lc)%Z ->
  Forall (standard lc) lns -> Forall tokens_fit lns -> Forall reals_whole lns ->
  exists lns', convert_file lns = Ok (lns', negb (is_empty lns)) /\ Forall2 ll_converted lns lns' /\
    exists ls2, read_free (printed lns') = Done ls2 /\ Forall2 same_code lns ls2 /\
      Forall2 (fun l l2 => Forall2 read_again (l_layout l) (l_layout l2)) lns' ls2 /\ getlines [] (write_file lns') = printed lns'.
Proof.
  intros H SRC L6 ST TF RW. unfold read_fixed in H. destruct (scan_fixed (length raws) raws lc) as [[lls| |]|] eqn:SC; try discriminate H.
  cbn [lift obind] in H.
  assert (SC' := SC). unfold scan_fixed in SC. destruct (analyze_all_fixed 1 raws c_nul lc) as [fls| |] eqn:A; try discriminate.
  assert (TK := read_tokenized _ (fixed_label _ _ _ SC) _ _ H).
  apply xreads_of in A as (i' & pod' & X).
  assert (LO := file_ok lc _ L6 _ _ _ _ _ _ _ SC TK ST TF SRC X).
  destruct (file_reread lc _ L6 fls lls lns 1%Z raws i' pod' SC TK ST TF SRC X) as (lns' & hs & lls' & CV & LC & R & _ & G & LA).
  exists lns'. split; [exact CV|]. split; [exact LC|].
  assert (LB := group_label _ _ _ G).
  assert (FD : Forall2 (found lc) lns lls').
  { clear - ST TF RW LO LC LA LB. revert lls' LA LB. induction LC as [|ln ln' lns lns' (C1 & C2 & C3 & C4 & _) _ IH]; intros lls' LA LB;
      inversion LA as [|? ll ? lls1 (A1 & A2 & A3) LA']; subst; [constructor|].
    inversion ST; inversion TF; inversion RW; inversion LO as [|? ? [? ?] ?]; inversion LB; subst. constructor; [|auto].
    unfold found. conjs; auto; try congruence. eauto. }
  destruct (read_same lc _ _ FD lls ls_init) as (ls2 & R2 & S2); [left; reflexivity|exact H|].
  exists ls2. assert (RF : read_free (printed lns') = Done ls2).
  { unfold read_free. assert (SF : scan_free (length raws) (printed lns') = Some (Ok lls')) by (unfold scan_free; rewrite (reads_Ok _ _ _ _ _ _ _ _ R); exact G).
    destruct (scan_free (length (printed lns')) (printed lns')) as [o|] eqn:E.
    - assert (o = Ok lls') as ->; [|exact R2].
      unfold scan_free in *. destruct (analyze_all_free 1 (printed lns') c_nul false false) as [z| |]; try discriminate SF.
      apply group_mono with (fuel' := length raws + length (printed lns')) in SF; [|lia].
      apply group_mono with (fuel' := length raws + length (printed lns')) in E; [|lia]. congruence.
    - exfalso. revert E. apply scan_free_terminates. lia. }
  split; [exact RF|]. split; [exact S2|].
  assert (SU := read_suppress _ _ _ H). split.
  2:{ rewrite write_printed, getlines_text; auto.
      - clear - LC LO. unfold printed. induction LC as [|ln ln' lns lns' (C1 & _) _ IH]; [constructor|]. inversion LO as [|? ? [_ SR] LO']; subst. cbn [map concat]. apply Forall_app. split; [|auto].
        apply Forall_map. apply (converted_source _ _ _ C1) in SR. revert SR. apply Forall_impl. intros g [FX SG] X. rewrite (print_text _ FX) in X.
        rewrite Forall_forall in SG. apply SG in X as [X|X]; [vm_compute in X; lia|discriminate X].
      - clear - LC SU. induction LC as [|ln ln' lns lns' (_ & _ & _ & _ & _ & _ & C & _) _ IH]; [constructor|]. inversion SU; subst. constructor; [congruence|auto]. }
  clear - LA R2. generalize ls_init as st, R2. clear R2. intro st. revert st ls2. induction LA as [|ln ll lns' lls' (A1 & _) _ IH]; intros st ls2 H; cbn [read_lines] in H.
  - injection H as <-. constructor.
  - apply obind_Done in H as ([ln0 s] & H0 & H). apply obind_Done in H as (r & HR & H). injection H as <-.
    unfold init_from_layout in H0. apply obind_Done in H0 as (lab & HL & H0). apply obind_Done in H0 as ([fr s'] & HT & H0). injection H0 as <- <-.
    constructor; [|eapply IH; eauto]. unfold redo_stmts. cbn [l_frags]. destruct (init_stmts fr). cbn. exact A1.
Qed.
