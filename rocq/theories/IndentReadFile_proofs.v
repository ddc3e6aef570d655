(** Reading again what was indented: logical lines, tokens, files. *)
From Verif Require Import Base Base_lemmas Tags FileLine FileLine_spec FileLine_proofs FileEdit_spec FileEdit_proofs LogicalFile LogicalFile_spec LogicalFile_proofs
  Token Smash Stmts LogicalLine LineAccum Peg Prgm_proofs Lexer LineEdit Convert Convert_proofs ConvertRead_proofs ConvertFile_proofs ReadFile ReadFile_proofs StmtSrc Prgm PrgmSource FormatMain_spec FormatMain FormatMain_proofs
  Indent Indent_spec Indent_proofs IndentRead_spec IndentRead_proofs.
From Coq Require Import Lia.
Local Open Scope nat_scope.

(** ** Grouping *)
Lemma D_dr f f' : D f f' -> dr f f'. Proof. right. auto. Qed.
Lemma F2_D_dr a b : Forall2 D a b -> Forall2 dr a b.
Proof. induction 1; constructor; auto using D_dr. Qed.
Lemma F2_dr_refl l : Forall2 dr l l. Proof. induction l; constructor; auto. left. reflexivity. Qed.
Lemma dr_same f f' : dr f f' -> is_trivial f' = is_trivial f /\ is_flpr_lit f' = is_flpr_lit f /\ is_fortran f' = is_fortran f /\ is_continued f' = is_continued f /\ has_label f' = has_label f.
Proof.
  intros H. apply dr_bits in H as (E & _). unfold is_fortran, is_trivial, is_comment, is_blank, is_preprocessor, is_flpr_pp, is_flpr_lit, is_include, is_continued, has_label.
  rewrite E. auto.
Qed.
Lemma D_other f f' : D f f' -> is_trivial f = false -> is_fortran f = false -> f' = f.
Proof.
  intros (_ & k & DR) T F. eapply drift_other; eauto. unfold is_trivial in T. now apply orb_false_iff in T.
Qed.
Lemma D_all_other a b : Forall2 D a b -> Forall (fun f => is_trivial f = false /\ is_fortran f = false) a -> b = a.
Proof.
  induction 1 as [|f f' a b X _ IH]; intros H; auto. inversion H as [|? ? (T & F) H']; subst. f_equal; [eapply D_other; eauto|auto].
Qed.
Lemma Forall2_len {A B} (R : A -> B -> Prop) a b : Forall2 R a b -> length a = length b.
Proof. induction 1; cbn; auto. Qed.
Lemma F2_Forall {A} (R : A -> A -> Prop) (P Q : A -> Prop) a b : (forall x y, R x y -> P x -> Q y) -> Forall2 R a b -> Forall P a -> Forall Q b.
Proof. intros H. induction 1; intros F; constructor; inversion F; subst; eauto. Qed.
Lemma dr_starts (p : File_Line -> bool) a b : (forall f f', dr f f' -> p f' = p f) -> Forall2 dr a b -> starts_line (fun f => p f = true) b -> starts_line (fun f => p f = true) a.
Proof. intros H F2 (x & y & -> & X). inversion F2 as [|f ? r ? E1 E2]; subst. exists f, r. split; auto. rewrite <- (H _ _ E1). exact X. Qed.
Lemma free_end_dr a b : Forall2 dr a b -> forall k, free_end b k = free_end a k.
Proof.
  induction 1 as [|f f' a b X _ IH]; intros k; auto. cbn [free_end]. destruct (dr_same _ _ X) as (-> & _ & _ & -> & _). now rewrite IH.
Qed.
Lemma absorb_rest l : forall prev a b, absorb prev l = (a, b) ->
  exists c, l = c ++ b /\ map line_text a = map line_text c /\ Forall (fun f => is_trivial f = false /\ is_fortran f = false) a /\
    forall b', (b = [] -> b' = []) -> absorb prev (c ++ b') = (a, b').
Proof.
  induction l as [|f r IH]; intros prev a b H; cbn [absorb] in H.
  - injection H as <- <-. exists []. conjs; auto. intros b' E. rewrite E; auto.
  - destruct (ceq (last_non_blank_char prev) c_bslash) eqn:E.
    + destruct (absorb _ r) as [a' b'] eqn:A. injection H as <- <-. destruct (IH _ _ _ A) as (c & -> & T & F & G). exists (f :: c).
      cbn [map app absorb]. conjs; auto.
      * rewrite T. f_equal. unfold make_preprocessor, line_text. cbn. now rewrite !app_nil_r.
      * intros b2 X. rewrite E, G; auto.
    + injection H as <- <-. exists []. conjs; auto. intros b' X. cbn [app]. destruct b' as [|g q]; auto. cbn [absorb]. now rewrite E.
Qed.
Lemma init_label_dr f f' r r' : dr f f' -> (has_label f = true -> left_txt f' = left_txt f) -> init_label (f' :: r') = init_label (f :: r).
Proof. intros X H. cbn [init_label]. destruct (dr_same _ _ X) as (_ & _ & _ & _ & ->). destruct (has_label f); auto. now rewrite H. Qed.
Lemma D_label f f' : D f f' -> has_label f = true -> is_fortran f = true -> left_txt f' = left_txt f.
Proof. intros (_ & k & ((_ & _ & _ & _ & FF & _) & _)) HL F. apply FF; auto. Qed.

(** comments have no label, and a line is of one kind *)
Definition unlabelled (f : File_Line) : Prop := (has_label f = true -> is_fortran f = true) /\ (is_flpr_lit f = true -> is_trivial f = false /\ is_fortran f = false).
Lemma init_label_D f f' r r' : D f f' -> unlabelled f -> init_label (f' :: r') = init_label (f :: r).
Proof. intros X (U & _). apply init_label_dr; [now apply D_dr|]. intros H. apply D_label; auto. Qed.

Definition relay (y : list File_Line) (ll : LLine) : LLine := mkLL y (ll_label ll) (ll_cat ll) (ll_needs_reformat ll).
Lemma step_rel fls ll rest y : step_free fls = Ok (ll, rest) -> Forall unlabelled fls -> Forall2 D (ll_layout ll) y ->
  exists b b', fls = b ++ rest /\ Forall2 dr b b' /\ map line_text b' = map line_text y /\
    forall rest', Forall2 dr rest rest' -> step_free (b' ++ rest') = Ok (relay y ll, rest').
Proof.
  unfold step_free at 1. intros H U FY. destruct (span is_trivial fls) as [triv r1] eqn:S1.
  apply span_spec in S1 as (E1 & F1 & N1). destruct (negb (is_empty triv)) eqn:T1.
  { apply bind_Ok in H as (l & H1 & H). injection H as <- <-. apply make_ll_Ok in H1 as (L1 & L2 & L3 & L4). rewrite L1 in FY.
    exists triv, y. conjs; auto using F2_D_dr. intros rest' R. unfold relay. rewrite L2, L3.
    destruct triv as [|f t]; [discriminate|]. inversion FY as [|? f' ? t' X Y]; subst. apply step_triv.
    - discriminate.
    - eapply F2_Forall; [|exact FY|exact F1]. cbn beta. intros a b Z P. destruct (dr_same _ _ (D_dr _ _ Z)) as (-> & _). exact P.
    - intros ST. apply N1. eapply dr_starts; [|exact R|exact ST]. intros a b Z. now destruct (dr_same _ _ Z).
    - rewrite <- L4. apply init_label_D; auto. now inversion U. }
  apply negb_false_iff, is_empty_true in T1. subst triv. cbn [app] in E1. subst r1.
  destruct (span is_flpr_lit fls) as [lit r2] eqn:S2. apply span_spec in S2 as (E2 & F2 & N2). destruct (negb (is_empty lit)) eqn:T2.
  { apply bind_Ok in H as (l & H1 & H). injection H as <- <-. apply make_ll_Ok in H1 as (L1 & L2 & L3 & L4). rewrite L1 in FY.
    assert (OT : Forall (fun f => is_trivial f = false /\ is_fortran f = false) lit).
    { rewrite E2 in U. apply Forall_app in U as [U _]. rewrite Forall_forall in *. intros f I. apply (U f I), F2, I. }
    rewrite (D_all_other _ _ FY OT) in *. clear y FY.
    exists lit, lit. conjs; auto using F2_dr_refl. intros rest' R. unfold relay. rewrite L2, L3. unfold step_free.
    destruct lit as [|f t]; [discriminate|].
    assert (TF : is_trivial f = false) by now inversion OT. cbn [app span]. rewrite TF. cbn [is_empty negb].
    change (f :: t ++ rest') with ((f :: t) ++ rest'). change (if is_flpr_lit f then _ else _) with (span is_flpr_lit ((f :: t) ++ rest')).
    rewrite span_app; auto.
    - cbn [is_empty negb]. unfold make_ll. rewrite L4. reflexivity.
    - intros ST. apply N2. eapply dr_starts; [|exact R|exact ST]. intros a b Z. now destruct (dr_same _ _ Z) as (_ & -> & _). }
  apply negb_false_iff, is_empty_true in T2. subst lit. cbn [app] in E2. subst r2.
  destruct fls as [|f r]; [discriminate|].
  assert (TF : is_trivial f = false). { destruct (is_trivial f) eqn:X; auto. exfalso. apply N1. exists f, r. auto. }
  assert (LF : is_flpr_lit f = false). { destruct (is_flpr_lit f) eqn:X; auto. exfalso. apply N2. exists f, r. auto. }
  destruct (negb (is_fortran f)) eqn:FO.
  { apply bind_Ok in H as (u & AS & H). destruct (absorb (left_txt f) r) as [a b] eqn:AB.
    apply bind_Ok in H as (l & H1 & H). injection H as <- <-. apply make_ll_Ok in H1 as (L1 & L2 & L3 & L4). rewrite L1 in FY.
    apply absorb_rest in AB as (c & -> & TX & OT & G).
    assert (FN : is_fortran f = false) by now apply negb_true_iff.
    rewrite (D_all_other _ _ FY) in * by (constructor; auto). clear y FY.
    exists (f :: c), (f :: c). conjs; auto using F2_dr_refl; [cbn [map]; now rewrite TX|].
    intros rest' R. unfold relay. rewrite L2, L3. unfold step_free. cbn [app span]. rewrite TF. cbn [is_empty negb]. rewrite LF. cbn [is_empty negb].
    rewrite FN, AS. cbn [negb bind]. rewrite G by (intros ->; now inversion R). unfold make_ll. rewrite L4. reflexivity. }
  apply negb_false_iff in FO. cbv zeta in H. apply bind_Ok in H as (l & H1 & H). apply Ok_pair in H as [-> <-].
  apply make_ll_Ok in H1 as (L1 & L2 & L3 & L4). rewrite L1 in FY.
  set (n := match free_end (f :: r) 0 with Some k => S k | None => 1 end) in *.
  exists (firstn n (f :: r)), y. conjs; auto using F2_D_dr; [now rewrite firstn_skipn|].
  intros rest' R. unfold relay. rewrite L2, L3.
  assert (F2A : Forall2 dr (f :: r) (y ++ rest')).
  { rewrite <- (firstn_skipn n (f :: r)). apply Forall2_app; auto using F2_D_dr. }
  assert (LEN : length y = n).
  { rewrite <- (Forall2_len _ _ _ FY). rewrite firstn_length. apply Nat.min_l. unfold n. pose proof (free_end_spec (f :: r) 0) as FE.
    destruct (free_end (f :: r) 0) as [k|]; [|cbn; lia]. destruct FE as (pre & g & rs & E & -> & _). rewrite E, app_length. cbn. lia. }
  destruct n as [|n'] eqn:EN; [unfold n in EN; destruct (free_end _ _); discriminate|]. cbn [firstn] in FY. inversion FY as [|? f' ? y' X Y]; subst.
  destruct (dr_same _ _ (D_dr _ _ X)) as (T' & L' & F' & _).
  unfold step_free. cbn [app span]. rewrite T', TF. cbn [is_empty negb]. rewrite L', LF. cbn [is_empty negb]. rewrite F', FO. cbn [negb]. cbv zeta.
  cbn [app] in F2A. rewrite (free_end_dr _ _ F2A). fold n. rewrite EN.
  change (f' :: y' ++ rest') with ((f' :: y') ++ rest'). rewrite <- LEN, firstn_app_len, skipn_app_len. unfold make_ll.
  cbn [firstn] in L4. rewrite (init_label_D f f' (firstn n' r) y'), L4; auto. now inversion U.
Qed.

Definition relaid (ll ll' : LLine) : Prop :=
  ll_label ll' = ll_label ll /\ ll_cat ll' = ll_cat ll /\ ll_needs_reformat ll' = ll_needs_reformat ll /\ Forall2 D (ll_layout ll) (ll_layout ll').
Lemma regroup n : forall fls lls lls', group step_free n fls = Some (Ok lls) -> Forall unlabelled fls -> Forall2 relaid lls lls' ->
  exists fls', Forall2 dr fls fls' /\ map line_text fls' = map line_text (concat (map ll_layout lls')) /\ group step_free n fls' = Some (Ok lls').
Proof.
  induction n as [|n IH]; intros fls lls lls' H U F2; destruct fls as [|f r]; cbn [group] in H; try discriminate.
  - injection H as <-. inversion F2; subst. exists []. auto.
  - injection H as <-. inversion F2; subst. exists []. auto.
  - destruct (step_free (f :: r)) as [[ll rest]| |] eqn:S; try discriminate.
    destruct (group step_free n rest) as [[lls1| |]|] eqn:G; try discriminate. injection H as <-.
    inversion F2 as [|? ll' ? lls2 X Y]; subst. destruct X as (R1 & R2 & R3 & R4).
    destruct (step_rel _ _ _ _ S U R4) as (b & b' & E & B1 & B2 & B3).
    assert (U' : Forall unlabelled rest). { rewrite E in U. apply Forall_app in U. apply U. }
    destruct (IH _ _ _ G U' Y) as (rest' & C1 & C2 & C3). exists (b' ++ rest'). split; [rewrite E; now apply Forall2_app|].
    split; [cbn [map concat]; now rewrite !map_app, B2, C2|].
    specialize (B3 rest' C1). assert (NE : b <> []). { intros ->. cbn [app] in E. subst rest. apply step_free_less in S. lia. }
    destruct B1 as [|x x' b b' X1 X2]; [congruence|]. cbn [app] in *. cbn [group]. rewrite B3, C3. unfold relay. destruct ll'. cbn in *. subst. reflexivity.
Qed.
Lemma group_labels n : forall fls lls, group step_free n fls = Some (Ok lls) -> Forall (fun ll => init_label (ll_layout ll) = Ok (ll_label ll)) lls.
Proof.
  induction n as [|n IH]; intros fls lls H; destruct fls as [|f r]; cbn [group] in H; try discriminate; try (injection H as <-; constructor).
  destruct (step_free (f :: r)) as [[ll rest]| |] eqn:S; try discriminate.
  destruct (group step_free n rest) as [[lls1| |]|] eqn:G; try discriminate. injection H as <-. constructor; [|eauto].
  apply step_free_spec in S as (b & new & _ & _ & -> & _ & X). exact X.
Qed.

(** ** Tokens *)
Definition col_rel (c c' : Z) : Prop := c' = c \/ (1 <= c /\ 1 <= c')%Z.
Definition la_rel (la la' : Line_Accum) : Prop :=
  la_accum la' = la_accum la /\ la_offset la' = la_offset la /\ la_line la' = la_line la /\ Forall2 col_rel (la_col la) (la_col la').
Lemma F2_nth {A} (R : A -> A -> Prop) a b : Forall2 R a b -> forall i x, nth_error a i = Some x -> exists y, nth_error b i = Some y /\ R x y.
Proof. induction 1; intros [|i] z E; cbn in *; try discriminate; [injection E as <-; eauto|eauto]. Qed.
Lemma linecolno_rel la la' o x : la_rel la la' -> linecolno la o = Ok x ->
  match x with None => linecolno la' o = Ok None | Some (l, c, a, b) => exists c', linecolno la' o = Ok (Some (l, c', a, b)) end.
Proof.
  intros (_ & EO & EL & EC) H. unfold linecolno in *. rewrite EO, EL. destruct (la_offset la) as [|z r] eqn:OF; [injection H as <-; reflexivity|].
  apply bind_Ok in H as (u & A1 & H). rewrite A1. cbn [bind].
  destruct (nth_error (z :: r) (find_lli r 0 o)) as [off|]; [|discriminate]. destruct (nth_error (la_line la) (find_lli r 0 o)) as [ln|]; [|discriminate].
  destruct (nth_error (la_col la) (find_lli r 0 o)) as [col|] eqn:NC; [|discriminate]. destruct (F2_nth _ _ _ EC _ _ NC) as (col' & -> & CR).
  apply bind_Ok in H as (u2 & A2 & H). apply bind_Ok in H as (u3 & A3 & H). apply bind_Ok in H as (u4 & A4 & H). apply bind_Ok in H as (u5 & A5 & H). injection H as <-.
  rewrite A2. cbn [bind]. apply assert_Ok in A2. apply Z.leb_le in A2. apply assert_Ok in A3. apply Z.ltb_lt in A3.
  replace (0 <? col' + (o - off))%Z with true by (symmetry; apply Z.ltb_lt; destruct CR; lia). cbn [assert_ bind]. rewrite A4. cbn [bind]. rewrite A5. cbn [bind]. eauto.
Qed.

Lemma same_token_refl x : same_token x x. Proof. unfold same_token. conjs; auto. Qed.
Lemma F2_rev {A} (R : A -> A -> Prop) a b : Forall2 R a b -> Forall2 R (rev a) (rev b).
Proof. induction 1; cbn; [constructor|]. apply Forall2_app; auto. Qed.
Lemma set_back_rel fr fr' f x : (forall a b, same_token a b -> same_token (f a) (f b)) -> Forall2 same_token fr fr' -> set_back fr f = Ok x ->
  exists x', set_back fr' f = Ok x' /\ Forall2 same_token x x'.
Proof.
  intros HF F2 H. unfold set_back in *. apply F2_rev in F2. destruct F2 as [|a b l l' X Y]; [discriminate|]. injection H as <-.
  eexists. split; [reflexivity|]. apply (F2_rev _ (f a :: l) (f b :: l')). constructor; auto.
Qed.
Lemma unsmash_rel fr fr' w t li ci ci' x : Forall2 same_token fr fr' -> (if (t =? TK_NAME)%Z then unsmash (fr ++ [new_token w t li ci]) else Ok (fr ++ [new_token w t li ci])) = Ok x ->
  exists x', (if (t =? TK_NAME)%Z then unsmash (fr' ++ [new_token w t li ci']) else Ok (fr' ++ [new_token w t li ci'])) = Ok x' /\ Forall2 same_token x x'.
Proof.
  intros F2 H. assert (NT : same_token (new_token w t li ci) (new_token w t li ci')) by (unfold same_token; conjs; auto).
  destruct (Z.eqb_spec t TK_NAME) as [->|_].
  2:{ injection H as <-. eexists. split; [reflexivity|]. apply Forall2_app; auto. }
  unfold unsmash in *. rewrite !rev_app_distr in *. cbn [rev app tok new_token tk_text] in *. change (negb (TK_NAME =? TK_NAME)%Z) with false in *. cbn iota in *.
  apply bind_Ok in H as (o & E & H). rewrite E. cbn [bind]. destruct o as [v|].
  - apply bind_Ok in H as (t1 & E1 & H). apply bind_Ok in H as (t2 & E2 & H). injection H as <-. rewrite E1. cbn [bind]. rewrite E2. cbn [bind].
    eexists. split; [reflexivity|]. rewrite !rev_involutive. apply Forall2_app; auto.
    constructor; [unfold same_token; conjs; auto|]. constructor; [unfold same_token; conjs; auto|]. constructor.
  - injection H as <-. eexists. split; [reflexivity|]. apply Forall2_app; auto.
Qed.

Lemma tok_loop_rel la la' : la_rel la la' -> forall l ts pre fr fr' x, Forall2 same_token fr fr' -> tok_loop la l ts pre fr = Ok x ->
  exists x', tok_loop la' l ts pre fr' = Ok x' /\ Forall2 same_token x x'.
Proof.
  intros LR. pose proof LR as (EA & _). induction l as [|[[t txt] pos] l IH]; intros ts pre fr fr' x F2 H; cbn [tok_loop] in *.
  - injection H as <-. eauto.
  - apply bind_Ok in H as (o & H1 & H). pose proof (linecolno_rel _ _ _ _ LR H1) as L1. destruct o as [[[[li ci] tli] tci]|]; [|discriminate].
    destruct L1 as (ci' & L1). rewrite L1. cbn [bind]. apply bind_Ok in H as (fr2 & H2 & H).
    destruct (unsmash_rel _ _ txt t li ci ci' _ F2 H2) as (fr2' & H2' & F2'). rewrite H2'. cbn [bind].
    apply bind_Ok in H as (e & H3 & H). pose proof (linecolno_rel _ _ _ _ LR H3) as L3. destruct e as [[[[le ce] eli] eci]|]; [|discriminate].
    destruct L3 as (ce' & L3). rewrite L3. cbn [bind]. rewrite EA. apply bind_Ok in H as (sp & H4 & H). rewrite H4. cbn [bind].
    apply bind_Ok in H as (fr3 & H5 & H).
    destruct (set_back_rel fr2 fr2' (with_mt tli tci eli (eci + 1)%Z pre (Z.of_nat sp)) fr3) with (2 := F2') (3 := H5) as (fr3' & H5' & F3); [|rewrite H5'; cbn [bind]; eauto].
    intros a b (A1 & A2 & A3 & _). unfold same_token, with_mt. cbn. auto 10.
Qed.
Lemma tokenize_rel st la la' fr st' : la_rel la la' -> tokenize st la = Done (fr, st') -> exists fr', tokenize st la' = Done (fr', st') /\ Forall2 same_token fr fr'.
Proof.
  intros LR H. unfold tokenize in *. pose proof LR as (-> & _). ob H. destruct a as [l s]. cbn [obind] in *. ob H. injection H as <- <-.
  destruct (tok_loop la l 0 0 []) as [x| |] eqn:E1; cbn [lift] in E0; try discriminate. injection E0 as ->.
  destruct (tok_loop_rel _ _ LR _ _ _ _ [] _ (Forall2_nil _) E1) as (x' & -> & F). cbn [lift obind]. eauto.
Qed.

(** one more line *)
Definition apart (f : File_Line) : Prop := is_fortran f = true -> amp_line f \/ left_space f <> [].
Lemma zlen_pos {A} (s : list A) : (0 <? zlen s)%Z = negb (is_empty s).
Proof. destruct s; [reflexivity|]. unfold zlen. cbn [length is_empty negb]. apply Z.ltb_lt. lia. Qed.
Definition add_fl (la : Line_Accum) (fl : File_Line) : Line_Accum :=
  if is_trivial fl then la
  else add_line la (linenum fl) (zlen (left_space fl)) (main_first_col fl) (main_txt fl) (zlen (right_space fl)).
Lemma add_rel k la la' f f' : la_rel la la' -> drift k f f' -> tidy_line f -> (k = false -> la_offset la = []) -> (k = true -> apart f) -> la_rel (add_fl la f) (add_fl la' f').
Proof.
  intros (A1 & A2 & A3 & A4) DR TI K0 K1. pose proof DR as ((EB & _ & EN & _ & FF & _) & CD). unfold add_fl.
  assert (T : is_trivial f' = is_trivial f) by (unfold is_trivial, is_comment, is_blank; now rewrite EB). rewrite T.
  destruct (is_trivial f) eqn:TR; [unfold la_rel; auto|].
  assert (COM : is_comment f = false) by (unfold is_trivial in TR; now apply orb_false_iff in TR).
  destruct (is_fortran f) eqn:F.
  2:{ rewrite (drift_other _ _ _ DR COM F). unfold add_line, la_rel. cbn [la_accum la_offset la_line la_col]. rewrite A1, A2, A3. conjs; auto.
      apply Forall2_app; auto. constructor; auto. left. reflexivity. }
  destruct (FF eq_refl) as (EM & _). destruct (CD eq_refl) as (_ & (RE & _) & LE). destruct TI as (_ & TI). destruct (TI F) as (TE & _). specialize (RE TE).
  unfold add_line, la_rel. cbn [la_accum la_offset la_line la_col]. rewrite !zlen_pos, A1, A2, A3, EN, EM, RE.
  assert (X : (negb (is_empty (la_offset la)) && negb (is_empty (left_space f')))%bool = (negb (is_empty (la_offset la)) && negb (is_empty (left_space f)))%bool).
  { destruct k; [|rewrite K0; auto]. rewrite LE; auto. now apply K1. }
  rewrite X. conjs; auto. apply Forall2_app; auto. constructor; auto. unfold col_rel, main_first_col. rewrite EM.
  destruct (is_empty (main_txt f)); [now left|right].
  assert (forall s : str, (0 <= zlen s)%Z) as Z0 by (intros; unfold zlen; lia). pose proof (Z0 (left_txt f)). pose proof (Z0 (left_space f)). pose proof (Z0 (left_txt f')). pose proof (Z0 (left_space f')).
  destruct (is_fixed_format f), (is_fixed_format f'); lia.
Qed.
Definition more (f f' : File_Line) : Prop := drift true f f' /\ tidy_line f /\ apart f.
Lemma fold_rel r r' : Forall2 more r r' -> forall la la', la_rel la la' -> la_rel (fold_left add_fl r la) (fold_left add_fl r' la').
Proof. induction 1 as [|f f' r r' (D1 & D2 & D3) _ IH]; intros la la' L; cbn [fold_left]; auto. apply IH. eapply add_rel; eauto. discriminate. Qed.
(** the physical lines of one logical line before and after *)
Inductive drifted : list File_Line -> list File_Line -> Prop :=
| drifted_nil : drifted [] []
| drifted_lines f r f' r' : drift false f f' -> Forall2 (drift true) r r' -> drifted (f :: r) (f' :: r').
Definition lay_tidy (y : list File_Line) : Prop := Forall tidy_line y /\ Forall apart (tl y).
Lemma accum_rel y y' : drifted y y' -> lay_tidy y -> la_rel (accum_layout y) (accum_layout y').
Proof.
  intros H (T1 & T2). assert (L0 : la_rel la_empty la_empty) by (unfold la_rel; conjs; auto; constructor). unfold accum_layout.
  change (la_rel (fold_left add_fl y la_empty) (fold_left add_fl y' la_empty)). destruct H as [|f r f' r' X Y]; auto.
  cbn [fold_left tl] in *. apply Forall_cons_iff in T1 as [T0 T1]. apply fold_rel.
  - clear - Y T1 T2. revert T1 T2. induction Y as [|g g' r r' X _ IH]; intros T1 T2; constructor; inversion T1; inversion T2; subst; auto. unfold more. auto.
  - eapply add_rel; eauto. discriminate.
Qed.
Lemma stmts_rel a b : Forall2 same_token a b -> forall i sb, init_stmts_loop b i sb = init_stmts_loop a i sb.
Proof.
  induction 1 as [|x y a b (X & _) _ IH]; intros i sb; auto. cbn [init_stmts_loop]. assert (E : is_semi y = is_semi x) by (unfold is_semi; now rewrite X).
  rewrite E. destruct (is_semi x); now rewrite IH.
Qed.
Definition relined (ll ll' : LLine) : Prop :=
  ll_label ll' = ll_label ll /\ ll_cat ll' = ll_cat ll /\ ll_needs_reformat ll' = ll_needs_reformat ll /\
  drifted (ll_layout ll) (ll_layout ll') /\ lay_tidy (ll_layout ll) /\ init_label (ll_layout ll') = init_label (ll_layout ll).
Lemma read_lines_rel lls lls' : Forall2 relined lls lls' -> forall st lns, read_lines st lls = Done lns ->
  exists lns', read_lines st lls' = Done lns' /\ Forall2 same_content lns lns' /\ map l_layout lns' = map ll_layout lls'.
Proof.
  induction 1 as [|x x' r r' (R1 & R2 & R3 & R4 & R5 & R6) _ IH]; intros st lns H; cbn [read_lines] in *.
  - injection H as <-. exists []. auto.
  - ob H. destruct a as [ll s]. cbn [obind] in *. ob H. injection H as <-. unfold init_from_layout in *. ob E. ob E. destruct a1 as [fr s']. cbn [obind] in *. injection E as <- <-.
    rewrite R6, E1. cbn [obind]. unfold tokenize_layout in *. destruct (tokenize_rel _ _ _ _ _ (accum_rel _ _ R4 R5) E2) as (fr' & -> & F). cbn [obind].
    destruct (IH _ _ E0) as (lns' & -> & F' & M). cbn [obind]. eexists. split; [reflexivity|]. split.
    + constructor; auto. unfold same_content, redo_stmts. cbn [l_frags l_label l_cat l_suppress l_reformat]. unfold init_stmts. rewrite (stmts_rel _ _ F). destruct (init_stmts_loop fr 0 None).
      cbn. conjs; auto.
    + cbn [map]. f_equal; auto. unfold redo_stmts. cbn [l_frags]. destruct (init_stmts fr'). reflexivity.
Qed.

(** ** What was read *)
Definition lookup_ok (f : File_Line) : Prop :=
  unlabelled f /\ is_fixed_format f = false /\ (is_fortran f = true -> is_continuation f = true -> amp_line f).
Lemma read_lookup ln raw pod plc lit f l : analyze_free ln raw pod plc lit = Ok (f, l) -> lookup_ok f.
Proof.
  intros H. pose proof (analyze_free_spec ln raw pod plc lit) as SP. rewrite H in SP. cbv beta iota in SP.
  assert (OTH : forall b, bits f = b -> (b_fixed b = false /\ b_label b = false /\
     (b_comment b || b_blank b || b_preprocessor b || b_flpr_pp b || b_flpr_lit b || b_include b) = true /\
     (b_flpr_lit b = true -> b_comment b = false /\ b_blank b = false)) -> lookup_ok f).
  { intros b E (B1 & B2 & B3 & B4). assert (F : is_fortran f = false).
    { unfold is_fortran, is_trivial, is_comment, is_blank, is_preprocessor, is_flpr_pp, is_flpr_lit, is_include. rewrite E.
      destruct (b_comment b), (b_blank b), (b_preprocessor b), (b_flpr_pp b), (b_flpr_lit b), (b_include b); auto; discriminate. }
    unfold lookup_ok, unlabelled. rewrite F. unfold has_label, is_flpr_lit, is_trivial, is_comment, is_blank, is_fixed_format. rewrite E, B1, B2. conjs; auto; try discriminate.
    intros X. destruct (B4 X) as [-> ->]. auto. }
  destruct lit.
  - destruct SP as (P & B & _). eapply OTH; [exact B|]. repeat split; reflexivity.
  - destruct SP as [(P & SP)|(C & _ & _ & _ & body & b1 & LP & _ & LB & RP & B)].
    + destruct SP as [(_ & B & _)|[(_ & B & _)|[(_ & B & _)|[(_ & B & _)|[(_ & _ & B & _)|(BL & _ & B & _)]]]]]; (eapply OTH; [exact B|]; repeat split; try reflexivity; discriminate).
    + pose proof (free_shape _ _ _ _ _ _ H C) as (F & _ & _ & _ & _ & _ & _ & HL & HC).
      assert (BF : b_fixed b1 = false /\ b_flpr_lit b1 = false) by (clear - LB; unfold left_bits in LB; intuition; subst; reflexivity). destruct BF as [BF BL].
      unfold lookup_ok, unlabelled. conjs; auto.
      * intros X. exfalso. unfold is_flpr_lit in X. rewrite B in X. destruct (starts_amp _); cbn in X; congruence.
      * unfold is_fixed_format. rewrite B. destruct (starts_amp _); auto.
      * intros _ IC. apply HC in IC as IC'. destruct IC' as (p & EL). unfold amp_line. conjs; auto.
        -- rewrite EL. destruct p; discriminate.
        -- destruct (has_label f); auto. destruct HL as [HL _]. destruct (HL eq_refl) as (p' & d & E2 & AD & ND). exfalso. rewrite EL in E2.
           destruct (exists_last ND) as (d' & x & ->). rewrite app_assoc in E2. apply app_inj_tail in E2 as [_ <-].
           unfold all_digits in AD. apply Forall_app in AD as [_ AD]. inversion AD; discriminate.
Qed.
Lemma read_lookup_all raws : forall i pod plc lit fls, analyze_all_free i raws pod plc lit = Ok fls -> Forall lookup_ok fls.
Proof.
  induction raws as [|r rs IH]; intros i pod plc lit fls H; cbn [analyze_all_free] in H; [injection H as <-; constructor|].
  apply bind_Ok in H as ([f lit'] & H1 & H). apply bind_Ok in H as (fs & H2 & H). injection H as <-.
  constructor; [eapply read_lookup; eauto|eapply IH; eauto].
Qed.
Lemma pp_cont_lookup prev a b rest : pp_cont prev a b rest -> Forall (fun f => is_fixed_format f = false) a -> Forall (fun f => is_fixed_format f = false /\ is_fortran f = false) b.
Proof.
  induction 1 as [| |prev f f' a b rest E P _ IH]; intros F; constructor; inversion F; subst; auto.
  destruct P as (_ & _ & _ & _ & _ & _ & _ & P & P6). split; congruence.
Qed.
Definition laid_ok (f : File_Line) : Prop := is_fixed_format f = false /\ (is_fortran f = true -> is_continuation f = true -> amp_line f).
Lemma block_laid c b new rest : free_block c b new rest -> Forall lookup_ok b -> Forall laid_ok new.
Proof.
  assert (LL : forall l, Forall lookup_ok l -> Forall laid_ok l) by (intros l; apply Forall_impl; intros f (_ & X); exact X).
  destruct 1 as [b rest|b rest|f a b rest N1 N2 N3 P|pre g rest|f rest]; intros F; auto.
  inversion F as [|? ? F1 F2]; subst. constructor; [apply F1|].
  apply pp_cont_lookup in P. 2:{ eapply Forall_impl; [|exact F2]. intros x X. apply X. }
  eapply Forall_impl; [|exact P]. intros x (X & Y). split; auto. congruence.
Qed.
Lemma group_laid n : forall fls lls, group step_free n fls = Some (Ok lls) -> Forall lookup_ok fls -> Forall (fun ll => Forall laid_ok (ll_layout ll)) lls.
Proof.
  induction n as [|n IH]; intros fls lls H F; destruct fls as [|f r]; cbn [group] in H; try discriminate; try (injection H as <-; constructor).
  destruct (step_free (f :: r)) as [[ll rest]| |] eqn:S; try discriminate.
  destruct (group step_free n rest) as [[lls1| |]|] eqn:G; try discriminate. injection H as <-.
  apply step_free_spec in S as (b & new & E & B & L & _). rewrite E in F. apply Forall_app in F as [F1 F2]. constructor; [|eauto].
  rewrite L. eapply block_laid; eauto.
Qed.

(** ** Indenting *)
Definition ldrift (l l' : LLn) : Prop :=
  l_label l' = l_label l /\ l_cat l' = l_cat l /\ l_suppress l' = l_suppress l /\ l_reformat l' = l_reformat l /\
  l_nsemi l' = l_nsemi l /\ l_frags l' = l_frags l /\ l_stmts l' = l_stmts l /\ drifted (l_layout l) (l_layout l').
Definition fine (l : LLn) : Prop := line_ok l /\ l_suppress l = false.
Lemma drifted_refl y : Forall free_line y -> drifted y y.
Proof.
  destruct 1 as [|f r F1 F2]; constructor; [now apply drift_refl|]. induction F2; constructor; auto using drift_refl.
Qed.
Lemma drifted_trans a b c : drifted a b -> drifted b c -> drifted a c.
Proof.
  destruct 1 as [|f r f' r' X Y]; auto. intros H. inversion H as [|? ? g q X' Y']; subst. constructor; [eapply drift_trans; eauto|].
  clear - Y Y'. revert q Y'. induction Y as [|x y r r' X _ IH]; intros q Y'; inversion Y'; subst; constructor; auto. eapply drift_trans; eauto.
Qed.
Lemma ldrift_refl l : fine l -> ldrift l l.
Proof. intros ((_ & F) & _). unfold ldrift. conjs; auto. now apply drifted_refl. Qed.
Lemma ldrift_trans a b c : ldrift a b -> ldrift b c -> ldrift a c.
Proof.
  intros (A1 & A2 & A3 & A4 & A5 & A6 & A7 & A8) (B1 & B2 & B3 & B4 & B5 & B6 & B7 & B8). unfold ldrift. conjs; try congruence. eapply drifted_trans; eauto.
Qed.
Lemma indent_all_drift k sp r : forall r' c, Forall free_line r -> (0 <= sp)%Z -> (k = true -> existsb is_fortran r = true -> (0 < sp)%Z) -> indent_all r sp = Ok (r', c) -> Forall2 (drift k) r r'.
Proof.
  induction r as [|f r IH]; intros r' c F SP K H; cbn [indent_all] in H; [injection H as <- <-; constructor|].
  apply bind_Ok in H as ([f' c1] & H1 & H). apply bind_Ok in H as ([r1 c2] & H2 & H). injection H as <- <-. inversion F; subst. cbn [existsb] in K. constructor.
  - eapply sls_drift; eauto. intros K1 K2. apply K; auto. now rewrite K2.
  - eapply IH; eauto. intros K1 K2. apply K; auto. rewrite K2. apply orb_true_r.
Qed.
Lemma ll_drift l sp off l' c : fine l -> (0 <= sp)%Z -> (0 < off)%Z -> ll_set_leading_spaces l sp off = Ok (l', c) -> ldrift l l' /\ fine l'.
Proof.
  intros (LO & SU) SP OF H. assert (OF' : (0 <= off)%Z) by lia. pose proof (ll_moved _ _ _ _ _ LO SP OF' H) as (_ & LO' & _). destruct LO as (NE & FL).
  unfold ll_set_leading_spaces in H. destruct (l_layout l) as [|f r] eqn:EL; [congruence|].
  apply bind_Ok in H as ([f' c1] & H1 & H). apply bind_Ok in H as ([r' c2] & H2 & H). injection H as <- <-. inversion FL; subst. split; [|split; auto].
  unfold ldrift. rewrite EL. unfold set_frags. cbn [l_label l_cat l_suppress l_reformat l_nsemi l_frags l_stmts l_layout]. conjs; auto.
  constructor; [apply (sls_drift false f sp f' c1); auto; discriminate|]. assert (S2 : (0 <= sp + (if has_fortran l then off else 0))%Z) by (destruct (has_fortran l); lia). apply (indent_all_drift true _ r r' c2 H4 S2); auto.
  intros _ X. unfold has_fortran. rewrite SU, EL. cbn [negb andb existsb]. rewrite X, orb_true_r. cbn. lia.
Qed.
Lemma F2_ldrift_refl ls : Forall fine ls -> Forall2 ldrift ls ls.
Proof. induction 1; constructor; auto using ldrift_refl. Qed.
Lemma F2_ldrift_trans a b c : Forall2 ldrift a b -> Forall2 ldrift b c -> Forall2 ldrift a c.
Proof. intros X. revert c. induction X; intros c Y; inversion Y; subst; constructor; eauto using ldrift_trans. Qed.
Lemma put_drift ls : forall j l l', Forall fine ls -> nth_error ls j = Some l -> ldrift l l' -> fine l' -> Forall2 ldrift ls (put_line ls j l') /\ Forall fine (put_line ls j l').
Proof.
  unfold put_line. induction ls as [|a ls IH]; intros j l l' F H K K'; [destruct j; discriminate|]. inversion F; subst. destruct j as [|j]; cbn in H |- *.
  - injection H as ->. split; constructor; auto using F2_ldrift_refl.
  - destruct (IH j l l') as (A & B); auto. split; constructor; auto using ldrift_refl.
Qed.
Lemma line_indent_drift ls j sp off ls' c : Forall fine ls -> (0 <= sp)%Z -> (0 < off)%Z -> line_indent ls j sp off = Ok (ls', c) -> Forall2 ldrift ls ls' /\ Forall fine ls'.
Proof.
  intros F SP OF. unfold line_indent. destruct (nth_error ls j) as [l|] eqn:E; [|discriminate]. intros H. apply bind_Ok in H as ([l' d] & H1 & H). injection H as <- <-.
  assert (FI : fine l) by (rewrite Forall_forall in F; apply F; eapply nth_error_In; eauto). apply ll_drift in H1 as (A & B); auto. eapply put_drift; eauto.
Qed.
Lemma lines_indent_drift sp off js : forall ls ls' c, Forall fine ls -> (0 <= sp)%Z -> (0 < off)%Z -> lines_indent ls js sp off = Ok (ls', c) -> Forall2 ldrift ls ls' /\ Forall fine ls'.
Proof.
  induction js as [|j js IH]; intros ls ls' c F SP OF H; cbn [lines_indent] in H; [injection H as <- <-; auto using F2_ldrift_refl|].
  apply bind_Ok in H as ([l1 d] & H1 & H). apply bind_Ok in H as ([l2 e] & H2 & H). injection H as <- <-.
  apply line_indent_drift in H1 as (A & B); auto. apply IH in H2 as (A' & B'); auto. split; auto. eapply F2_ldrift_trans; eauto.
Qed.
Lemma stmt_indent_drift ls q sp off ls' c : Forall fine ls -> (0 < off)%Z -> stmt_indent ls q sp off = Ok (ls', c) -> Forall2 ldrift ls ls' /\ Forall fine ls'.
Proof.
  intros F OF H. unfold stmt_indent in H. apply bind_Ok in H as (u & A & H). apply assert_Ok in A. apply Z.leb_le in A.
  destruct (s_compound q <? 2)%Z; [|injection H as <- <-; auto using F2_ldrift_refl]. apply bind_Ok in H as ([l1 d] & H1 & H). destruct (s_line q) as [j|]; [|discriminate].
  apply bind_Ok in H as ([l2 e] & H2 & H). injection H as <- <-. apply lines_indent_drift in H1 as (A1 & B1); auto. apply line_indent_drift in H2 as (A2 & B2); auto.
  split; auto. eapply F2_ldrift_trans; eauto.
Qed.
Lemma run_drift it sts l : (0 < it_cont it)%Z -> forall ls ls' c, Forall fine ls -> run it sts l ls = Ok (ls', c) -> Forall2 ldrift ls ls' /\ Forall fine ls'.
Proof.
  intros OF. induction l as [|p l IH]; intros ls ls' c F H; cbn [run] in H; [injection H as <- <-; auto using F2_ldrift_refl|].
  apply bind_Ok in H as ([l1 d] & H1 & H). apply bind_Ok in H as ([l2 e] & H2 & H). injection H as <- <-.
  assert (X : Forall2 ldrift ls l1 /\ Forall fine l1).
  { unfold call in H1. destruct (nth_error sts (fst p)) as [q|]; [|discriminate]. destruct (s_compound q <? 2)%Z; [|injection H1 as <- <-; auto using F2_ldrift_refl].
    eapply stmt_indent_drift; eauto. }
  destruct X as (A1 & B1). apply IH in H2 as (A2 & B2); auto. split; auto. eapply F2_ldrift_trans; eauto.
Qed.

(** ** The file *)
Lemma read_suppress lls : forall st lns, read_lines st lls = Done lns -> Forall (fun l => l_suppress l = false) lns.
Proof.
  induction lls as [|x r IH]; intros st lns H; cbn [read_lines] in H; [injection H as <-; constructor|].
  ob H. destruct a as [ll st']. ob H. injection H as <-. constructor; [|eauto]. unfold init_from_layout in E. ob E. ob E. destruct a1 as [fr st2]. injection E as <- <-.
  unfold redo_stmts. cbn [l_frags]. destruct (init_stmts fr). reflexivity.
Qed.
Definition relayed (ll ll' : LLine) : Prop :=
  ll_label ll' = ll_label ll /\ ll_cat ll' = ll_cat ll /\ ll_needs_reformat ll' = ll_needs_reformat ll /\ drifted (ll_layout ll) (ll_layout ll') /\ lay_tidy (ll_layout ll).
Lemma build lls lns : Forall2 (fun ll ln => l_layout ln = ll_layout ll /\ l_cat ln = ll_cat ll) lls lns -> Forall (fun ll => Forall laid_ok (ll_layout ll)) lls -> tidy lns ->
  forall lns1, Forall2 ldrift lns lns1 -> exists lls', map ll_layout lls' = map l_layout lns1 /\ Forall2 relayed lls lls'.
Proof.
  induction 1 as [|ll ln lls lns (EL & _) _ IH]; intros LO TI lns1 F; inversion F as [|? l1 ? lns2 X Y]; subst.
  - exists []. auto.
  - inversion LO as [|? ? L1 L2]; subst. inversion TI as [|? ? (T1 & T2) T3]; subst. destruct (IH L2 T3 _ Y) as (lls' & M & R).
    exists (relay (l_layout l1) ll :: lls'). cbn [map relay ll_layout]. split; [now rewrite M|]. constructor; auto. unfold relayed, relay. cbn. conjs; auto.
    + rewrite <- EL. apply X.
    + rewrite <- EL. split; auto. rewrite <- EL in L1. assert (L3 : Forall laid_ok (tl (l_layout ln))) by (destruct (l_layout ln); [constructor|now inversion L1]).
      clear - T2 L3. induction T2 as [|f r X _ IH]; constructor; inversion L3 as [|? ? (_ & A)]; subst; auto.
      intros FO. destruct (X FO) as [IC|NE]; auto.
Qed.
Lemma relayed_relaid a b : relayed a b -> relaid a b.
Proof.
  intros (R1 & R2 & R3 & R4 & (T1 & _)). unfold relaid. conjs; auto. destruct R4 as [|f r f' r' X Y]; constructor.
  - split; [now inversion T1|eauto].
  - inversion T1 as [|? ? _ T2]; subst. clear - Y T2. induction Y; inversion T2; subst; constructor; auto. split; eauto.
Qed.
(** no newline comes in *)
Definition one_line (s : str) : Prop := ~ In c_nl s.
Lemma one_app a b : one_line (a ++ b) <-> one_line a /\ one_line b.
Proof. unfold one_line. rewrite in_app_iff. tauto. Qed.
Lemma blank_one s : all_blank s -> one_line s.
Proof. intros H I. unfold all_blank in H. rewrite Forall_forall in H. apply H in I. discriminate. Qed.
Lemma st_one s : Forall st s -> one_line s.
Proof. intros H I. rewrite Forall_forall in H. apply H in I. discriminate. Qed.
Lemma spaces_one n : one_line (spaces n).
Proof. apply st_one, spaces_st. Qed.
Lemma drift_one ln raw pod plc lit f l k f' : analyze_free ln raw pod plc lit = Ok (f, l) -> drift k f f' -> one_line raw -> one_line (line_text f').
Proof.
  intros H DR O. rewrite <- (line_text_read _ _ _ _ _ _ _ H) in O. pose proof (read_free_line _ _ _ _ _ _ _ H) as (_ & RO).
  destruct (is_fortran f) eqn:F.
  - assert (LF : lit = false).
    { destruct lit; auto. exfalso. pose proof (analyze_free_spec ln raw pod plc true) as SP. rewrite H in SP. destruct SP as (_ & B & _).
      unfold is_fortran, is_trivial, is_comment, is_blank, is_preprocessor, is_flpr_pp, is_flpr_lit, is_include in F. rewrite B in F. discriminate. }
    subst lit. pose proof (free_classes _ _ _ _ _ _ H) as (CL & _). pose proof (proj1 CL F) as C.
    pose proof (analyze_free_spec ln raw pod plc false) as SP. rewrite H in SP. cbv beta iota in SP.
    destruct SP as [(_ & SP)|(_ & _ & _ & _ & body & b1 & LP & RAW & LB & RP & BF)].
    { exfalso. destruct C as (C1 & C2 & C3 & C4). pose proof (dir_bang raw) as X4. pose proof (lit_dir raw) as X5. tauto. }
    destruct DR as (SB & CD). destruct SB as (_ & _ & _ & _ & FF & _). destruct (FF F) as (EM & ER & _). destruct (CD F) as (LD & (_ & R2 & _) & _).
    destruct RP as (_ & _ & ST & _). specialize (R2 ST).
    unfold line_text in *. rewrite EM, ER. rewrite !one_app in *. destruct O as (O1 & O2 & O3 & O4 & O5). conjs; auto using st_one.
    + destruct LD as [(_ & -> & _)|[(_ & _ & -> & _)|(_ & _ & _ & _ & n & m & core & E1 & -> & _)]]; auto; [intros []|]. rewrite E1 in O1. apply one_app in O1 as [_ O1]. apply one_app. split; auto using spaces_one.
    + destruct LD as [(E0 & _ & AB)|[(_ & _ & _ & [->|(n & ->)])|(_ & _ & _ & -> & _)]]; auto using spaces_one. apply blank_one, AB.
      inversion LP as [b body' A1 A2 A3 A4 A5 Q1 Q2|b body' A1 Q1 Q2|b d w body' A0 A1 A2 A3 A4 A5 A6 Q1 Q2]; auto.
      * exfalso. rewrite E0 in *. destruct b; discriminate.
      * exfalso. rewrite E0 in *. destruct b; [|discriminate]. destruct d; [cbn in A3; lia|discriminate].
  - destruct (is_comment f) eqn:CM; [|rewrite (drift_other _ _ _ DR CM F); auto]. destruct DR as ((_ & _ & _ & CC & _) & _).
    destruct (CC CM) as (b & b' & q & r & (E1 & B1 & E2 & E3 & E4 & E5) & (E1' & B1' & E2' & E3' & E4' & E5') & _).
    unfold line_text in *. rewrite E1, E2, E3, E4, E5 in O. rewrite E1', E2', E3', E4', E5'. rewrite !app_nil_r in *. rewrite !one_app in *. destruct O as (O1 & O2). split; [now apply blank_one|].
    intros [X|X]; [discriminate|]. apply O2. right. rewrite in_app_iff. auto.
Qed.
Lemma dr_one raws : forall i pod plc lit fls fls', analyze_all_free i raws pod plc lit = Ok fls -> Forall2 dr fls fls' -> Forall one_line raws -> Forall one_line (map line_text fls').
Proof.
  induction raws as [|r raws IH]; intros i pod plc lit fls fls' H F2 O; cbn [analyze_all_free] in H; [injection H as <-; inversion F2; constructor|].
  apply bind_Ok in H as ([f l] & H1 & H). apply bind_Ok in H as (fs & H2 & H). injection H as <-. inversion F2 as [|? f' ? fs' X Y]; subst. inversion O; subst. cbn [map].
  constructor; [|eapply IH; eauto]. destruct X as [->|(_ & k & X)]; [now rewrite (line_text_read _ _ _ _ _ _ _ H1)|eapply drift_one; eauto].
Qed.
Lemma drifted_free a b : drifted a b -> Forall laid_ok a -> Forall (fun f => is_fixed_format f = false) b.
Proof.
  assert (K : forall k f f', drift k f f' -> laid_ok f -> is_fixed_format f' = false).
  { intros k f f' ((E & _) & _) (X & _). unfold is_fixed_format in *. now rewrite E. }
  destruct 1 as [|f r f' r' X Y]; intros L; constructor; inversion L; subst; eauto. clear - Y H2 K. induction Y; inversion H2; subst; constructor; eauto.
Qed.
Lemma write_text ls : Forall (fun l => l_suppress l = false /\ Forall (fun f => is_fixed_format f = false) (l_layout l)) ls -> write_file ls = text_of (map line_text (concat (map l_layout ls))).
Proof.
  induction 1 as [|l ls (A & B) _ IH]; [reflexivity|]. unfold write_file. cbn [flat_map map concat]. fold (write_file ls). rewrite IH, map_app, text_of_app. f_equal.
  unfold print_lln. rewrite A, flat_nl. f_equal. clear - B. induction B; cbn [map]; auto. now rewrite print_text, IHB.
Qed.
Theorem reread_file it p raws lns lns1 c : read_free raws = Done lns -> Forall ascii7 raws -> tidy lns -> (0 < it_cont it)%Z -> indent_file it p lns = Done (lns1, c) ->
  exists lns2, read_free (map line_text (concat (map l_layout lns1))) = Done lns2 /\ Forall2 same_reading lns1 lns2 /\ Forall2 same_content lns lns2 /\
    (Forall one_line raws -> Forall one_line (map line_text (concat (map l_layout lns1)))) /\
    Forall (fun l => l_suppress l = false /\ Forall (fun f => is_fixed_format f = false) (l_layout l)) lns1.
Proof.
  intros H A TI OF HI. pose proof (read_free_ok _ _ H) as (FO & _). unfold read_free in H.
  destruct (scan_free (length raws) raws) as [r|] eqn:SC; [|discriminate]. ob H. destruct r as [lls| |]; cbn [lift] in E; try discriminate. injection E as <-. rename H into RL.
  pose proof (scan_ok _ _ _ SC) as MO. destruct (read_lines_ok _ _ _ RL MO) as (_ & _ & LAY).
  unfold scan_free in SC. destruct (analyze_all_free 1 raws c_nul false false) as [fls| |] eqn:AN; try discriminate.
  pose proof (read_lookup_all _ _ _ _ _ _ AN) as LK. pose proof (group_laid _ _ _ SC LK) as LD.
  assert (FI : Forall fine lns).
  { pose proof (read_suppress _ _ _ RL) as S. unfold file_ok in FO. clear - FO S. induction FO; inversion S; subst; constructor; auto. split; auto. }
  assert (F2 : Forall2 ldrift lns lns1).
  { unfold indent_file in HI. destruct (snd p) as [t|]; [|injection HI as <- <-; now apply F2_ldrift_refl].
    destruct (indent_recurse it (fst p) t 0 lns) as [x| |] eqn:E; cbn [lift] in HI; try discriminate. injection HI as ->. apply indent_calls in E. eapply run_drift; eauto. }
  destruct (build _ _ LAY LD TI _ F2) as (lls' & ML & R).
  assert (R' : Forall2 relaid lls lls') by (clear - R; induction R; constructor; auto using relayed_relaid).
  assert (UN : Forall unlabelled fls) by (eapply Forall_impl; [|exact LK]; intros f (X & _); exact X).
  destruct (regroup _ _ _ _ SC UN R') as (fls' & G1 & G2 & G3).
  assert (LEN : length (map line_text fls') = length raws).
  { rewrite map_length, <- (Forall2_len _ _ _ G1). apply analyze_all_free_spec in AN as (_ & <- & _). now rewrite map_length. }
  assert (AN' : analyze_all_free 1 (map line_text fls') c_nul false false = Ok fls') by (eapply reread_all; eauto).
  rewrite <- ML, <- G2. unfold read_free, scan_free. rewrite AN', LEN, G3. cbn [lift obind].
  assert (RR : Forall2 relined lls lls').
  { pose proof (group_labels _ _ _ SC) as Q1. pose proof (group_labels _ _ _ G3) as Q2. clear - R Q1 Q2.
    induction R as [|x y lls lls' (R1 & R2 & R3 & R4 & R5) _ IH]; inversion Q1; inversion Q2; subst; constructor; auto. unfold relined. conjs; auto. congruence. }
  destruct (read_lines_rel _ _ RR _ _ RL) as (lns2 & -> & RD & ML2). exists lns2. split; auto. rewrite ML in ML2.
  split; [|split; [exact RD|split; [intros O; exact (dr_one _ _ _ _ _ _ _ AN G1 O)|]]].
  2:{ clear - F2 FI LAY LD. revert lls LAY LD. induction F2 as [|l l1 lns lns1 (_ & _ & A3 & _ & _ & _ & _ & A8) _ IH]; intros lls LAY LD; constructor; inversion LAY as [|ll ? lls' ? (E & _)]; subst; inversion LD; subst; inversion FI as [|? ? (_ & X)]; subst; eauto.
      split; [congruence|]. eapply drifted_free; eauto. now rewrite E. }
  clear - F2 RD ML2. revert lns2 RD ML2. induction F2 as [|l l1 lns lns1 (A1 & A2 & A3 & A4 & A5 & A6 & A7 & _) _ IH]; intros lns2 RD ML2; inversion RD as [|? l2 ? lns3 (B1 & B2 & B3 & B4 & B5 & B6 & B7) RD']; subst; [constructor|].
  cbn [map] in ML2. injection ML2 as M1 M2. constructor; auto. unfold same_reading. rewrite A6. conjs; auto; congruence.
Qed.

Theorem reread_text it p s lns lns1 c : read_free (getlines [] s) = Done lns -> Forall ascii7 (getlines [] s) -> tidy lns -> (0 < it_cont it)%Z -> indent_file it p lns = Done (lns1, c) ->
  exists lns2, read_free (getlines [] (write_file lns1)) = Done lns2 /\ Forall2 same_reading lns1 lns2 /\ Forall2 same_content lns lns2.
Proof.
  intros H A TI OF HI. destruct (reread_file _ _ _ _ _ _ H A TI OF HI) as (lns2 & R & SR & SC & O & W). exists lns2. split; auto.
  rewrite (write_text _ W), getlines_text; auto. apply O. apply (getlines_spec s []). intros [].
Qed.
