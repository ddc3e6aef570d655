(** C37, C57, C58: editing the text of a logical line. *)
From Verif Require Import Base Tags FileLine LogicalFile Token LogicalLine Stmts Stmts_spec Peg Lexer Lexer_spec Lexer_proofs LineAccum_spec
  LexPos_spec LexPos_proofs LineEdit LineEdit_spec LineEdit_proofs Props_Lexer.
Local Open Scope nat_scope.

(** C37.  What tokenizing a layout gives: each token stands at the text it reads,
    the tokens are in order, and their ends are right.  (Without comment or blank
    lines and smashed keywords, which C36 refutes.) *)
Theorem C37_tokens_stand_partial : forall st layout fr st', between_lines st ->
  Forall (fun f => is_trivial f = false) layout ->
  Forall plain (joined (lines_of layout)) -> not_first white (joined (lines_of layout)) ->
  tokenize_layout st layout = Done (fr, st') ->
  (forall x, In x fr -> mt_bl x <> None) ->
  exists sp, laid layout (0, 0) fr sp /\
    Forall2 (fun x u => reads layout x (fst u) (snd u) /\ end_right x (snd u)) fr sp.
Proof.
  intros st layout fr st' Hst NT P NF T MT.
  unfold tokenize_layout in T. rewrite accum_layout_lines in T.
  destruct (tokenize_ok st (lines_of layout) Hst (line_cols _) P NF) as (l & st2 & fss & E1 & E2 & E3).
  unfold lines_of in E2. rewrite E2 in T. injection T as <- <-.
  destruct (C35_tiles st (joined (lines_of layout)) Hst) as (l' & st3 & X1 & X2 & _).
  rewrite E1 in X1. injection X1 as <- <-. rewrite c_str_plain in X2 by exact P.
  rewrite (lines_all _ NT) in *. eapply link; [exact X2|lia|exact E3|exact MT|].
  intros. unfold before. cbn. lia.
Qed.
Print Assumptions C37_tokens_stand_partial.

(** C37.  replace_fragment changes that token's columns of that line to the new
    text and nothing else in the layout; the token has the new tag and text; all
    tokens stand in order again; every other token keeps everything but its
    columns, and stands at the same text as before.  Partial: the token's own
    mt_end_col_ is not updated. *)
Theorem C37_replace_partial : forall ll n tag text sp x a b,
  laid (l_layout ll) (0, 0) (l_frags ll) sp ->
  nth_error (l_frags ll) n = Some x -> nth_error sp n = Some (a, b) -> fst a = fst b ->
  exists ll' f1 f2 f2' x' s1 s2 s2',
    replace_fragment ll n tag text = Ok ll' /\
    spliced (l_layout ll) (l_layout ll') (fst a) (snd a) (length (tk_text x)) text /\
    l_frags ll = f1 ++ x :: f2 /\ l_frags ll' = f1 ++ x' :: f2' /\ length f1 = n /\
    sp = s1 ++ (a, b) :: s2 /\ length s1 = n /\
    laid (l_layout ll') (0, 0) (l_frags ll') (s1 ++ (a, (fst a, snd a + length text)) :: s2') /\
    kept_all (l_layout ll) (l_layout ll') f1 f1 s1 s1 /\
    kept_all (l_layout ll) (l_layout ll') f2 f2' s2 s2' /\
    tok x' = tag /\ tk_text x' = text /\ between (l_layout ll') a (fst a, snd a + length text) = text /\
    tk_line x' = tk_line x /\ tk_pos x' = tk_pos x /\ mt_ec x' = mt_ec x /\
    same_rest ll' ll /\ l_stmts ll' = l_stmts ll /\ l_nsemi ll' = l_nsemi ll.
Proof.
  intros ll n tag text sp x a b H Hx Hu E. destruct (nth_error_split _ _ Hx) as (f1 & f2 & Ef & Hn).
  rewrite Ef in H. rewrite <- Hn in Hu.
  destruct (edit_ok _ _ _ _ _ _ _ text H Hu E) as (l2 & f2' & s1 & s2 & s2' & e & -> & Ls & U & Sp & Sh & K1 & K2 & La & Ap & Lb & Be & I1 & I2 & Bt).
  cbn [fst snd] in *.
  assert (St : stands (l_layout ll) x a b).
  { exact (stands_mid _ _ _ _ _ _ _ _ H Ls). }
  destruct St as (A1 & A2 & A3 & A4 & A5 & A6 & A7 & A8 & A9).
  exists (set_frags ll l2 (f1 ++ set_text (set_tok x tag) text :: f2')), f1, f2, f2', (set_text (set_tok x tag) text), s1, s2, s2'.
  split.
  { unfold replace_fragment. rewrite Hx. unfold is_split_token. rewrite A1, A3, <- E. cbn [rd bind]. rewrite Z.eqb_refl. cbn [negb assert_ bind].
    rewrite A2. cbn [rd bind]. rewrite U. cbn [bind]. rewrite Ef, <- Hn.
    replace (skipn (S (length f1)) (f1 ++ x :: f2)) with f2.
    2: { clear. induction f1; [reflexivity|exact IHf1]. }
    rewrite Sh. cbn [bind]. rewrite firstn_app, firstn_all, Nat.sub_diag. cbn [firstn]. rewrite app_nil_r. reflexivity. }
  cbn [l_layout l_frags set_frags]. split; [exact Sp|]. split; [exact Ef|]. split; [reflexivity|]. split; [exact Hn|].
  split; [reflexivity|]. split; [lia|]. split; [|split; [exact K1|split; [exact K2|]]].
  - apply Ap. cbn [laid]. split; [exact Be|]. split; [|exact La]. unfold stands. cbn [set_text set_tok mt_bl mt_bc mt_el mt_ec tk_text fst snd].
    rewrite A1, A2, A3, <- E. do 3 (split; [reflexivity|]). split; [exact A4|]. split; [right; cbn; split; [reflexivity|lia]|].
    split; [exact I1|]. split; [exact I2|]. split; [reflexivity|congruence].
  - cbn. split; [reflexivity|]. split; [reflexivity|]. split; [exact Bt|]. repeat split.
Qed.
Print Assumptions C37_replace_partial.

(** C37.  remove_fragment likewise; the statements are those of the remaining
    fragments. *)
Theorem C37_remove_partial : forall ll n sp x a b,
  laid (l_layout ll) (0, 0) (l_frags ll) sp ->
  nth_error (l_frags ll) n = Some x -> nth_error sp n = Some (a, b) -> fst a = fst b ->
  exists ll' f1 f2 f2' s1 s2 s2',
    remove_fragment ll n = Ok ll' /\
    spliced (l_layout ll) (l_layout ll') (fst a) (snd a) (length (tk_text x)) [] /\
    l_frags ll = f1 ++ x :: f2 /\ l_frags ll' = f1 ++ f2' /\ length f1 = n /\
    sp = s1 ++ (a, b) :: s2 /\ length s1 = n /\
    laid (l_layout ll') (0, 0) (l_frags ll') (s1 ++ s2') /\
    kept_all (l_layout ll) (l_layout ll') f1 f1 s1 s1 /\
    kept_all (l_layout ll) (l_layout ll') f2 f2' s2 s2' /\
    same_rest ll' ll /\ stmts_right ll'.
Proof.
  intros ll n sp x a b H Hx Hu E. destruct (nth_error_split _ _ Hx) as (f1 & f2 & Ef & Hn).
  rewrite Ef in H. rewrite <- Hn in Hu.
  destruct (edit_ok _ _ _ _ _ _ _ [] H Hu E) as (l2 & f2' & s1 & s2 & s2' & e & -> & Ls & U & Sp & Sh & K1 & K2 & La & Ap & Lb & Be & I1 & I2 & Bt).
  cbn [fst snd] in *.
  assert (St : stands (l_layout ll) x a b).
  { exact (stands_mid _ _ _ _ _ _ _ _ H Ls). }
  destruct St as (A1 & A2 & A3 & A4 & A5 & A6 & A7 & A8 & A9).
  exists (redo_stmts (set_frags ll l2 (f1 ++ f2'))), f1, f2, f2', s1, s2, s2'.
  destruct (redo_right (set_frags ll l2 (f1 ++ f2'))) as (R1 & R2 & R3 & R4). rewrite R2, R3. cbn [l_layout l_frags set_frags].
  split.
  { unfold remove_fragment. rewrite Hx. unfold is_split_token. rewrite A1, A3, <- E. cbn [rd bind]. rewrite Z.eqb_refl. cbn [negb assert_ bind].
    rewrite A2. cbn [rd bind]. change (str_erase (Z.of_nat (snd a)) (length (tk_text x))) with (str_replace (Z.of_nat (snd a)) (length (tk_text x)) []). rewrite U. cbn [bind]. rewrite Ef, <- Hn.
    replace (skipn (S (length f1)) (f1 ++ x :: f2)) with f2.
    2: { clear. induction f1; [reflexivity|exact IHf1]. }
    unfold zlen in Sh at 1. cbn [length Z.of_nat] in Sh. rewrite Z.sub_0_l in Sh.
    rewrite Sh. cbn [bind]. rewrite firstn_app, firstn_all, Nat.sub_diag. cbn [firstn]. rewrite app_nil_r. reflexivity. }
  split; [exact Sp|]. split; [exact Ef|]. split; [reflexivity|]. split; [exact Hn|].
  split; [reflexivity|]. split; [lia|]. split; [|split; [exact K1|split; [exact K2|split; [exact R4|exact R1]]]].
  apply Ap. clear -La Be. destruct f2' as [|y f2']; destruct s2' as [|[p q] s2']; cbn [laid] in *; auto.
  destruct La as (B1 & B2 & B3). split; [|auto]. unfold before in *. cbn [fst snd length] in *. lia.
Qed.
Print Assumptions C37_remove_partial.

(** C57.  insert_text_after puts the text into the main text right after the
    token, leaves the rest of the layout alone, and derives label, tokens and
    statements from the result; in the text of the statement it stands right
    after the token.  Partial: no comment or blank line inside the statement,
    white space and ASCII as in C36. *)
Theorem C57_insert_after_partial : forall st ll n text sp x a b lab, between_lines st ->
  Forall (fun f => is_trivial f = false) (l_layout ll) -> init_label (l_layout ll) = Ok lab ->
  laid (l_layout ll) (0, 0) (l_frags ll) sp -> nth_error (l_frags ll) n = Some x -> nth_error sp n = Some (a, b) -> end_right x b ->
  let J := joined (lines_of (l_layout ll)) in
  let o := offset (l_layout ll) b in
  let J' := firstn o J ++ text ++ skipn o J in
  Forall plain J' -> not_first white J' ->
  exists ll' st', insert_text_after st ll n text = Done (ll', st') /\
    spliced (l_layout ll) (l_layout ll') (fst b) (snd b) 0 text /\ joined (lines_of (l_layout ll')) = J' /\
    l_label ll' = lab /\ stmts_right ll' /\
    exists lx fss, scan_string st J' = Done (lx, st') /\ l_frags ll' = concat fss /\
      Forall2 (fragments_of (lines_of (l_layout ll'))) lx fss.
Proof.
  intros st ll n text sp x a b lab Hst NT Hl La Hx Hu Er J o J' P NF.
  pose proof (laid_nth _ _ _ _ _ _ _ La Hx Hu) as (A1 & A2 & A3 & A4 & A5 & A6 & A7 & A8 & A9). cbn [fst snd] in *.
  destruct (insert_ok _ _ text A7) as (l2 & U & Sp).
  assert (Ej : joined (lines_of l2) = J').
  { pose proof (splice_joined _ _ _ _ _ _ Sp) as X. rewrite Nat.add_0_r in X. specialize (X (proj2 A7)).
    cbv zeta in X. rewrite Nat.add_0_r in X. rewrite (lines_all _ (splice_nontrivial _ _ _ _ _ _ Sp NT)), X.
    unfold J', J, o, offset. rewrite (lines_all _ NT). reflexivity. }
  rewrite <- Ej in P, NF.
  destruct (rederive st ll l2 lab Hst) as (ll' & st' & E1 & E2 & E3 & E4 & E5); [rewrite (splice_label _ _ _ _ _ _ Sp); exact Hl|exact P|exact NF|].
  exists ll', st'. unfold insert_text_after. rewrite Hx, A3, Er. cbn [rd bind]. rewrite U. cbn [lift obind].
  split; [exact E1|]. rewrite E2. split; [exact Sp|]. split; [exact Ej|]. split; [exact E3|]. split; [exact E4|]. rewrite <- Ej. exact E5.
Qed.
Print Assumptions C57_insert_after_partial.

(** C57.  insert_text_before likewise, before the token, or at the end of the
    last token for the end iterator. *)
Theorem C57_insert_before_partial : forall st ll n text sp p lab, between_lines st ->
  Forall (fun f => is_trivial f = false) (l_layout ll) -> init_label (l_layout ll) = Ok lab ->
  laid (l_layout ll) (0, 0) (l_frags ll) sp ->
  ((exists b, nth_error sp n = Some (p, b)) \/
   (n = length (l_frags ll) /\ exists y a, nth_error (l_frags ll) (n - 1) = Some y /\ nth_error sp (n - 1) = Some (a, p) /\ end_right y p)) ->
  let J := joined (lines_of (l_layout ll)) in
  let o := offset (l_layout ll) p in
  let J' := firstn o J ++ text ++ skipn o J in
  Forall plain J' -> not_first white J' ->
  exists ll' st', insert_text_before st ll n text = Done (ll', st') /\
    spliced (l_layout ll) (l_layout ll') (fst p) (snd p) 0 text /\ joined (lines_of (l_layout ll')) = J' /\
    l_label ll' = lab /\ stmts_right ll' /\
    exists lx fss, scan_string st J' = Done (lx, st') /\ l_frags ll' = concat fss /\
      Forall2 (fragments_of (lines_of (l_layout ll'))) lx fss.
Proof.
  intros st ll n text sp p lab Hst NT Hl La Hp J o J' P NF.
  assert (Pl : insert_place (l_frags ll) n = Ok (Z.of_nat (fst p), Z.of_nat (snd p)) /\ inside (l_layout ll) p).
  { unfold insert_place. destruct Hp as [(b & Hu)|(En & y & a & Hy & Hu & Er)].
    - pose proof (laid_length _ _ _ _ La) as Le. assert (n < length sp) by (apply nth_error_Some; congruence).
      destruct (Nat.eqb_spec n (length (l_frags ll))); [lia|].
      destruct (nth_error (l_frags ll) n) as [x|] eqn:Ex; [|apply nth_error_None in Ex; lia].
      pose proof (laid_nth _ _ _ _ _ _ _ La Ex Hu) as (A1 & A2 & A3 & A4 & A5 & A6 & _). cbn [fst snd] in *.
      rewrite A1, A2. cbn [rd bind]. auto.
    - pose proof (laid_nth _ _ _ _ _ _ _ La Hy Hu) as (A1 & A2 & A3 & A4 & A5 & A6 & A7 & _). cbn [fst snd] in *.
      rewrite En, Nat.eqb_refl. rewrite En in Hy.
      assert (Hr : exists r, rev (l_frags ll) = y :: r).
      { destruct (nth_error_split _ _ Hy) as (f1 & f2 & E & Ln). rewrite E, app_length in Ln. cbn [length] in Ln.
        destruct f2 as [|z f2]; [|cbn [length] in Ln; lia]. exists (rev f1). rewrite E, rev_app_distr. reflexivity. }
      destruct Hr as [r Hr]. rewrite Hr, A3, Er. cbn [rd bind]. auto. }
  destruct Pl as [Pl In1]. destruct (insert_ok _ _ text In1) as (l2 & U & Sp).
  assert (Ej : joined (lines_of l2) = J').
  { pose proof (splice_joined _ _ _ _ _ _ Sp) as X. rewrite Nat.add_0_r in X. specialize (X (proj2 In1)).
    cbv zeta in X. rewrite Nat.add_0_r in X. rewrite (lines_all _ (splice_nontrivial _ _ _ _ _ _ Sp NT)), X.
    unfold J', J, o, offset. rewrite (lines_all _ NT). reflexivity. }
  rewrite <- Ej in P, NF.
  destruct (rederive st ll l2 lab Hst) as (ll' & st' & E1 & E2 & E3 & E4 & E5); [rewrite (splice_label _ _ _ _ _ _ Sp); exact Hl|exact P|exact NF|].
  exists ll', st'. unfold insert_text_before. rewrite Pl. cbn [bind]. rewrite U. cbn [lift obind].
  split; [exact E1|]. rewrite E2. split; [exact Sp|]. split; [exact Ej|]. split; [exact E3|]. split; [exact E4|]. rewrite <- Ej. exact E5.
Qed.
Print Assumptions C57_insert_before_partial.

(** C58.  replace_stmt_substr of a range of tokens on one line, the last of its
    statement, something else being on that line: the columns from the first to
    the last token become the new text and nothing else changes, except trailing
    blanks of the line.  Everything is derived again from the result.  Ranges
    over several lines: Props_LineRange.  Missing: the cases refuted below. *)
Theorem C58_replace_partial : forall st ll b e text sp x y a a' q' q f, between_lines st ->
  laid (l_layout ll) (0, 0) (l_frags ll) sp -> b < e ->
  nth_error (l_frags ll) b = Some x -> nth_error sp b = Some (a, a') ->
  nth_error (l_frags ll) (e - 1) = Some y -> nth_error sp (e - 1) = Some (q', q) -> end_right y q ->
  fst a = fst q -> nth_error (l_layout ll) (fst a) = Some f -> is_fortran f = true ->
  is_continued f = false -> right_txt f = [] \/ (exists r, right_txt f = "!"%char :: r) ->
  Exists (fun c => c <> " "%char) (firstn (snd a) (main_txt f) ++ skipn (snd q) (main_txt f)) ->
  exists l1 l2 g, l_layout ll = l1 ++ f :: l2 /\ length l1 = fst a /\
    main_txt g = firstn (snd a) (main_txt f) ++ text ++ skipn (snd q) (main_txt f) /\
    linenum g = linenum f /\ left_txt g = left_txt f /\ left_space g = left_space f /\ right_txt g = right_txt f /\
    (right_txt f <> [] -> right_space g = right_space f) /\ bits g = bits f /\ open_delim g = open_delim f /\
    (forall lab, init_label (l1 ++ g :: l2) = Ok lab -> Forall plain (joined (lines_of (l1 ++ g :: l2))) ->
       not_first white (joined (lines_of (l1 ++ g :: l2))) ->
       exists ll' st', replace_stmt_substr st ll b e text = Done (ll', st') /\
         l_layout ll' = l1 ++ g :: l2 /\ l_label ll' = lab /\ stmts_right ll' /\
         exists lx fss, scan_string st (joined (lines_of (l1 ++ g :: l2))) = Done (lx, st') /\ l_frags ll' = concat fss /\
           Forall2 (fragments_of (lines_of (l1 ++ g :: l2))) lx fss).
Proof.
  intros st ll b e text sp x y a a' q' q f Hst La Be Hx Hu Hy Hv Er E Nf Ff Cf Rf Ex.
  pose proof (laid_nth _ _ _ _ _ _ _ La Hx Hu) as (A1 & A2 & _ & _ & _ & A6 & _). cbn [fst snd] in *.
  pose proof (laid_nth _ _ _ _ _ _ _ La Hy Hv) as (_ & _ & B3 & _ & _ & _ & B7 & _). cbn [fst snd] in *.
  assert (O : before a q) by (eapply laid_range; eauto; lia).
  destruct (nth_error_split _ _ Nf) as (l1 & l2 & El & Hp).
  assert (M : main_of (l_layout ll) (fst a) = main_txt f) by (unfold main_of; erewrite nth_error_nth; [reflexivity|rewrite nth_error_map, Nf; reflexivity]).
  destruct B7 as [_ B7]. rewrite <- E, M in B7.
  assert (Sc : snd a <= snd q) by (unfold before in O; lia).
  destruct (not_blank _ Ex) as [k Hk].
  destruct (one_line_replace l1 f l2 (fst a) (snd a) (snd q) text Hp Ff Sc B7) as (l3 & U1 & U2); [rewrite Hk; discriminate|].
  rewrite Hk in U2. destruct (uncont_plain f Cf Rf) as (R1 & R2 & R3 & R4). destruct (uncont_text f) as (_ & T2 & T3 & T4).
  exists l1, l2, (with_main (make_uncontinued f) (firstn (snd a) (main_txt f) ++ text ++ skipn (snd q) (main_txt f))).
  split; [exact El|]. split; [exact Hp|].
  unfold with_main at 1 2 3 4 5 6 7 8, with_text. cbn [main_txt linenum left_txt left_space right_txt right_space bits open_delim].
  do 8 (split; [first [reflexivity|assumption]|]).
  intros lab Hl P NF. destruct (rederive st ll _ lab Hst Hl P NF) as (ll' & st' & E1 & E2 & E3 & E4 & E5).
  exists ll', st'. unfold replace_stmt_substr. rewrite Hx, Hy, A1, A2, B3, Er. cbn [rd bind]. rewrite <- E, El, U1. cbn [bind]. rewrite U2. cbn [lift obind].
  split; [exact E1|]. split; [exact E2|]. split; [exact E3|]. split; [exact E4|exact E5].
Qed.
Print Assumptions C58_replace_partial.

(** Lines to edit. *)
Definition line_from (raws : list str) : out LLn :=
  layout <~ lift (analyze_all_free 1 raws c_nul false false) ;;
  ' (ll, _) <~ init_from_layout ls_init (mkLLn 0 CAT_UNKNOWN false false (-1) layout [] []) layout ;;
  Done ll.
Definition shown (ll : LLn) : list str := map main_txt (l_layout ll).

(** C37 refuted: the end of the replaced token stays where it was, so that text
    inserted after it goes into its middle. *)
Theorem C37_end_refuted : exists ll ll' ll'' st,
  line_from [L "a = b"] = Done ll /\
  replace_fragment ll 2 TK_NAME (L "bcd") = Ok ll' /\ shown ll' = [L "a = bcd"] /\
  insert_text_after ls_init ll' 2 (L "+1") = Done (ll'', st) /\ shown ll'' = [L "a = b+1cd"].
Proof.
  eexists. eexists. eexists. eexists. split; [vm_compute; reflexivity|]. split; [vm_compute; reflexivity|].
  split; [vm_compute; reflexivity|]. split; vm_compute; reflexivity.
Qed.
Print Assumptions C37_end_refuted.
(** C37 refuted after a comment line inside the statement: the comment's main text
    is edited. *)
Theorem C37_comment_refuted : exists ll ll',
  line_from [L "x = y + &"; L "! why"; L "  z"] = Done ll /\ map tk_text (l_frags ll) = [L "x"; L "="; L "y"; L "+"; L "z"] /\
  replace_fragment ll 4 TK_NAME (L "w") = Ok ll' /\ map is_comment (l_layout ll') = [false; true; false] /\
  shown ll' = [L "x = y +"; L "w"; L "z"].
Proof.
  eexists. eexists. split; [vm_compute; reflexivity|]. split; [vm_compute; reflexivity|]. split; [vm_compute; reflexivity|].
  split; vm_compute; reflexivity.
Qed.
Print Assumptions C37_comment_refuted.
(** C37 refuted for smashed keywords: the position of the first half is read
    uninitialised. *)
Theorem C37_smashed_refuted : exists ll,
  line_from [L "enddo"] = Done ll /\ map tk_text (l_frags ll) = [L "end"; L "do"] /\
  replace_fragment ll 0 KW_END (L "END") = UB /\ remove_fragment ll 0 = UB.
Proof. eexists. split; [vm_compute; reflexivity|]. split; [vm_compute; reflexivity|]. split; vm_compute; reflexivity. Qed.
Print Assumptions C37_smashed_refuted.

(** C36 refuted for main text that begins with white space, which the parser of files never makes but editing does: the first
    token is said to begin in column 0.  A replacement then overwrites the blank. *)
Theorem C36_leading_refuted : exists ll ll1 st x ll2,
  line_from [L "a = b"] = Done ll /\ insert_text_before ls_init ll 0 (L "  ") = Done (ll1, st) /\ shown ll1 = [L "  a = b"] /\
  nth_error (l_frags ll1) 0 = Some x /\ tk_text x = L "a" /\ mt_bc x = Some 0%Z /\ mt_ec x = Some 3%Z /\
  replace_fragment ll1 0 TK_NAME (L "x") = Ok ll2 /\ shown ll2 = [L "x a = b"].
Proof.
  do 5 eexists. split; [vm_compute; reflexivity|]. split; [vm_compute; reflexivity|]. split; [vm_compute; reflexivity|]. split; [vm_compute; reflexivity|].
  split; [reflexivity|]. split; [reflexivity|]. split; [reflexivity|]. split; vm_compute; reflexivity.
Qed.
Print Assumptions C36_leading_refuted.

(** C57 refuted with a comment line inside the statement: the comment line is
    taken for the line of the token, and the assertion on the column fails. *)
Theorem C57_comment_refuted : exists ll,
  line_from [L "x = y + &"; L "! why"; L "  z"] = Done ll /\ map tk_text (l_frags ll) = [L "x"; L "="; L "y"; L "+"; L "z"] /\
  insert_text_after ls_init ll 4 (L "+1") = Bad.
Proof. eexists. split; [vm_compute; reflexivity|]. split; vm_compute; reflexivity. Qed.
Print Assumptions C57_comment_refuted.

(** C58 refuted for a line that is continued: its ampersand is removed, and the
    statement ends there. *)
Theorem C58_continued_refuted : exists ll ll' st,
  line_from [L "call f(a, &"; L "  b)"] = Done ll /\ nth_error (map tk_text (l_frags ll)) 3 = Some (L "a") /\
  replace_stmt_substr ls_init ll 3 4 (L "c") = Done (ll', st) /\
  map print_line (l_layout ll') = [L "call f(c,"; L "  b)"].
Proof. eexists. eexists. eexists. split; [vm_compute; reflexivity|]. split; [vm_compute; reflexivity|]. split; vm_compute; reflexivity. Qed.
Print Assumptions C58_continued_refuted.
(** C58 refuted for the only token of a line whose main text starts with a blank:
    std::string::insert throws. *)
Theorem C58_alone_refuted : exists ll,
  line_from [L "a = &"; L "  & b"] = Done ll /\ nth_error (map tk_text (l_frags ll)) 2 = Some (L "b") /\
  replace_stmt_substr ls_init ll 2 3 (L "c") = Bad.
Proof. eexists. split; [vm_compute; reflexivity|]. split; vm_compute; reflexivity. Qed.
Print Assumptions C58_alone_refuted.
(** C58 refuted for a range over lines with comments: a comment is erased and the
    replaced text of its line comes back. *)
Theorem C58_lines_refuted : exists ll ll' st,
  line_from [L "a = (x + & ! u"; L "  b + & ! t"; L " z)"] = Done ll /\ length (l_frags ll) = 9 /\
  replace_stmt_substr ls_init ll 2 9 (L "c") = Done (ll', st) /\
  map print_line (l_layout ll') = [L "a = c   ! u"; L "  b +      "; []].
Proof. eexists. eexists. eexists. split; [vm_compute; reflexivity|]. split; [vm_compute; reflexivity|]. split; vm_compute; reflexivity. Qed.
Print Assumptions C58_lines_refuted.

(** * Cases *)
Definition ex_ll : LLn := match line_from [L "call f(ab, &"; L "   & c%d, ab)"] with Done ll => ll | _ => mkLLn 0 CAT_UNKNOWN false false 0 [] [] [] end.
Definition ex_sp : list (spot * spot) :=
  [((0, 0), (0, 4)); ((0, 5), (0, 6)); ((0, 6), (0, 7)); ((0, 7), (0, 9)); ((0, 9), (0, 10));
   ((1, 1), (1, 2)); ((1, 2), (1, 3)); ((1, 3), (1, 4)); ((1, 4), (1, 5)); ((1, 6), (1, 8)); ((1, 8), (1, 9))].
Lemma before_le : forall i a b, a <= b -> before (i, a) (i, b).
Proof. intros. right. cbn. auto. Qed.
Example C37_case_laid : laid (l_layout ex_ll) (0, 0) (l_frags ex_ll) ex_sp.
Proof.
  vm_compute l_frags. vm_compute l_layout. cbn [laid ex_sp].
  repeat match goal with
  | |- _ /\ _ => split
  | |- True => exact I
  | |- before (?i, _) (?i, _) => apply before_le; lia
  | |- before _ _ => left; cbn; lia
  | |- stands _ _ _ _ => unfold stands
  | |- inside _ _ => unfold inside
  | |- _ -> _ => intro
  | |- _ <= _ => vm_compute; lia
  | |- _ < _ => vm_compute; lia
  | |- _ => first [reflexivity|discriminate|congruence]
  end.
Qed.
Example C37_case_replace : exists ll', replace_fragment ex_ll 5 TK_NAME (L "longer") = Ok ll' /\
  shown ll' = [L "call f(ab,"; L " longer%d, ab)"] /\
  map mt_bc (l_frags ll') = map Some [0; 5; 6; 7; 9; 1; 7; 8; 9; 11; 13]%Z.
Proof. eexists. split; [vm_compute; reflexivity|]. split; vm_compute; reflexivity. Qed.
Example C37_case_remove : exists ll', remove_fragment ex_ll 5 = Ok ll' /\
  shown ll' = [L "call f(ab,"; L " %d, ab)"] /\ map mt_bc (l_frags ll') = map Some [0; 5; 6; 7; 9; 1; 2; 3; 5; 7]%Z.
Proof. eexists. split; [vm_compute; reflexivity|]. split; vm_compute; reflexivity. Qed.
Example C57_case : exists ll' st', insert_text_after ls_init ex_ll 5 (L "(1)") = Done (ll', st') /\
  map print_line (l_layout ll') = [L "call f(ab, &"; L "   & c(1)%d, ab)"] /\ length (l_frags ll') = 14.
Proof. eexists. eexists. split; [vm_compute; reflexivity|]. split; vm_compute; reflexivity. Qed.
Example C57_case_end : exists ll' st', insert_text_before ls_init ex_ll 11 (L "; a = b") = Done (ll', st') /\
  map print_line (l_layout ll') = [L "call f(ab, &"; L "   & c%d, ab); a = b"] /\ l_stmts ll' = [(0, 11); (12, 15)].
Proof. eexists. eexists. split; [vm_compute; reflexivity|]. split; vm_compute; reflexivity. Qed.
Example C58_case : exists ll' st', replace_stmt_substr ls_init ex_ll 5 8 (L "new") = Done (ll', st') /\
  map print_line (l_layout ll') = [L "call f(ab, &"; L "   & new, ab)"] /\
  map tk_text (l_frags ll') = [L "call"; L "f"; L "("; L "ab"; L ","; L "new"; L ","; L "ab"; L ")"].
Proof. eexists. eexists. split; [vm_compute; reflexivity|]. split; vm_compute; reflexivity. Qed.
