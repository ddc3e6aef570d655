(** A file that flpr-format comes through with does not end in a real literal. *)
From Verif Require Import Base Base_lemmas Tags SyntaxTags FileLine FileLine_spec FixedLine_spec FixedLine_proofs LineAccum Token LogicalFile LogicalLine Stmts Stmts_spec StmtSrc StmtRules Peg TTStream LabelStack Prgm PrgmSource Prgm_proofs Utils Lexer LineEdit
  Lexer_spec Lexer_proofs Smash_spec LexLongest_proofs LexPos_proofs ReadFile ReadFile_proofs ReadFixed Convert Indent FormatApp FormatApp_spec FormatApp_proofs FormatMain FormatMain_proofs FormatFiles FormatFiles_spec EndStmt_proofs.
From Coq Require Import Lia.
Local Open Scope nat_scope.

(** ** The tokens that are no semicolons *)
Definition words (l : list Token) : list Token := filter (fun x => negb (is_semi x)) l.
Definition all_words (ls : list LLn) : list Token := flat_map (fun l => words (l_frags l)) ls.
Lemma words_app a b : words (a ++ b) = words a ++ words b.
Proof. apply filter_app. Qed.
Lemma words_semis l : Forall (fun x => is_semi x = true) l -> words l = [].
Proof. unfold words. induction 1 as [|x l X _ IH]; [reflexivity|]. cbn [filter]. rewrite X. exact IH. Qed.
Lemma words_run l : Forall (fun x => is_semi x = false) l -> words l = l.
Proof. unfold words. induction 1 as [|x l X _ IH]; [reflexivity|]. cbn [filter]. rewrite X. cbn [negb]. now rewrite IH. Qed.
Lemma words_rev l : words (rev l) = rev (words l).
Proof. induction l as [|x l IH]; [reflexivity|]. cbn [rev]. rewrite words_app, IH. cbn [words filter]. destruct (is_semi x); cbn [negb rev]; [apply app_nil_r|reflexivity]. Qed.
Lemma words_drop l : words (drop_semis l) = words l.
Proof. unfold words. induction l as [|x l IH]; [reflexivity|]. cbn [drop_semis filter]. destruct (is_semi x) eqn:X; cbn [negb]; [exact IH|]. cbn [filter]. rewrite X. reflexivity. Qed.
Lemma words_back l : words (drop_semis_back l) = words l.
Proof. unfold drop_semis_back. rewrite words_rev, words_drop, words_rev. apply rev_involutive. Qed.
Lemma semi_set_text x t : is_semi (set_text x t) = is_semi x.
Proof. reflexivity. Qed.
Lemma words_clear l : forall p, words (fst (clear_second p l)) = words l /\ (snd (clear_second p l) = false -> fst (clear_second p l) = l).
Proof.
  induction l as [|x l IH]; intros p; [split; reflexivity|]. cbn [clear_second]. destruct (IH (is_semi x)) as (A & B). destruct (clear_second (is_semi x) l) as [r c]. cbn [fst snd] in *.
  destruct (is_semi x) eqn:X; destruct p; cbn [andb fst snd]; unfold words in *; cbn [filter]; rewrite ?semi_set_text, ?X; cbn [negb]; (split; [congruence|]); intros E; try discriminate; f_equal; auto.
Qed.
Lemma words_filter l p : words (filter (fun x => negb (is_semi x && p x)) l) = words l.
Proof. unfold words. induction l as [|x l IH]; [reflexivity|]. cbn [filter]. destruct (is_semi x) eqn:X; cbn [andb negb]; [destruct (p x); cbn [negb filter]; rewrite ?X; exact IH|]. cbn [filter]. rewrite X. cbn [negb]. now rewrite IH. Qed.
Lemma drop_same l : length (drop_semis l) = length l -> drop_semis l = l.
Proof.
  assert (LE : forall m, length (drop_semis m) <= length m) by (induction m as [|y m IH]; cbn [drop_semis]; [auto|destruct (is_semi y); cbn [length]; lia]).
  destruct l as [|x l]; [reflexivity|]. cbn [drop_semis]. destruct (is_semi x); [|reflexivity]. cbn [length]. intros E. specialize (LE l). lia.
Qed.
Lemma back_same l : length (drop_semis_back l) = length l -> drop_semis_back l = l.
Proof. unfold drop_semis_back. rewrite rev_length. intros E. rewrite drop_same, rev_involutive; auto. now rewrite rev_length. Qed.
Lemma remove_words fr n fr' c : remove_empty_frags fr n = Ok (fr', c) -> words fr' = words fr /\ (c = false -> fr' = fr).
Proof.
  unfold remove_empty_frags. set (f1 := drop_semis fr). set (f2 := drop_semis_back f1).
  assert (W2 : words f2 = words fr) by (unfold f2, f1; now rewrite words_back, words_drop).
  assert (S2 : negb (length f1 =? length fr) || negb (length f2 =? length f1) = false -> f2 = fr).
  { intros E. apply orb_false_iff in E as (E1 & E2). apply negb_false_iff, Nat.eqb_eq in E1. apply negb_false_iff, Nat.eqb_eq in E2.
    unfold f2 in *. rewrite back_same by exact E2. apply drop_same, E1. }
  destruct (1 <? n).
  - destruct (words_clear f2 false) as (A & B). destruct (clear_second false f2) as [g i]. cbn [fst snd] in *. destruct i.
    + destruct (assert_ _); cbn [bind]; try discriminate. intros H. injection H as <- <-. split; [rewrite words_filter; congruence|discriminate].
    + destruct (assert_ _); cbn [bind]; try discriminate. intros H. injection H as <- <-. split; [congruence|]. intros E. rewrite B by reflexivity. auto.
  - destruct (assert_ _); cbn [bind]; try discriminate. intros H. injection H as <- <-. split; auto.
Qed.

(** ** Lines *)
Definition fresh (l : LLn) : Prop := l_stmts l = fst (init_stmts (l_frags l)).
Definition headed (l : LLn) : Prop := l_frags l = [] \/ exists f r, l_layout l = f :: r /\ is_fortran f = true.
Definition good (l : LLn) : Prop := fresh l /\ headed l.
Lemma redo_fresh l : fresh (redo_stmts l).
Proof. unfold fresh, redo_stmts. destruct (init_stmts (l_frags l)) eqn:E. cbn [l_stmts l_frags]. now rewrite E. Qed.
Lemma text_frags ll ll' : text_from_frags ll = Ok ll' -> l_frags ll' = l_frags ll.
Proof.
  unfold text_from_frags. destruct (l_layout ll) as [|f r]; [congruence|]. destruct (negb (is_fortran f)); [congruence|].
  destruct (max_main_txt_len _); cbn [bind]; try discriminate. destruct (place_all _ _ _ _); cbn [bind]; try discriminate. destruct (if is_empty _ then _ else _) as [d rest].
  intros H. injection H as <-. match goal with |- l_frags (redo_stmts ?m) = _ => destruct (redo_keeps m) as (_ & -> & _) end. reflexivity.
Qed.
Lemma text_fresh ll ll' f r : l_layout ll = f :: r -> is_fortran f = true -> text_from_frags ll = Ok ll' -> fresh ll'.
Proof.
  intros EL F. unfold text_from_frags. rewrite EL, F. cbn [negb].
  destruct (max_main_txt_len _); cbn [bind]; try discriminate. destruct (place_all _ _ _ _); cbn [bind]; try discriminate. destruct (if is_empty _ then _ else _) as [d rest].
  intros H. injection H as <-. apply redo_fresh.
Qed.
Lemma remove_good ll ll' c : good ll -> ll_remove_empty ll = Ok (ll', c) -> fresh ll' /\ words (l_frags ll') = words (l_frags ll).
Proof.
  intros (FR & HD) H. unfold ll_remove_empty in H. apply bind_Ok in H as ([fr d] & E & H). destruct (remove_words _ _ _ _ E) as (W & S1).
  destruct d.
  - apply bind_Ok in H as (l2 & T & H). injection H as <- <-. pose proof (text_frags _ _ T) as TF. cbn [set_frags l_frags] in TF. split; [|congruence].
    destruct HD as [HD|(f & r & EL & F)].
    + exfalso. rewrite HD in E. unfold fresh in FR. rewrite HD in FR. cbn in FR. rewrite FR in E. discriminate E.
    + eapply text_fresh; [| |exact T]; [exact EL|exact F].
  - injection H as <- <-. rewrite (S1 eq_refl). split; [exact FR|reflexivity].
Qed.
Lemma remove_file ls : forall ls' c, Forall good ls -> remove_empty_stmts ls = Ok (ls', c) -> Forall fresh ls' /\ all_words ls' = all_words ls.
Proof.
  induction ls as [|l r IH]; intros ls' c F H; cbn [remove_empty_stmts] in H; [injection H as <- <-; split; [constructor|reflexivity]|].
  inversion F as [|? ? G F']; subst. apply bind_Ok in H as ([l' d] & E & H). apply bind_Ok in H as ([r' d'] & E2 & H). injection H as <- <-.
  destruct (IH _ _ F' E2) as (A & B). assert (K : fresh l' /\ words (l_frags l') = words (l_frags l)).
  { destruct (has_fortran l); [injection E as <- <-; split; [apply G|reflexivity]|]. apply bind_Ok in E as (e & _ & E). destruct e; [eapply remove_good; eauto|injection E as <- <-; split; [apply G|reflexivity]]. }
  destruct K as (K1 & K2). split; [now constructor|]. unfold all_words in *. cbn [flat_map]. congruence.
Qed.
Lemma first_of l b e r : fst (init_stmts l) = (b, e) :: r -> exists p s t, l = p ++ s ++ t /\ Forall (fun x => is_semi x = true) p /\ s <> [] /\ Forall (fun x => is_semi x = false) s /\
  b = length p /\ e = length p + length s /\ r = map (shift e) (fst (init_stmts t)).
Proof.
  intros H. destruct (init_first l) as [(_ & E & _)|(p & s & t & -> & P & N & Q & _ & E & _)]; [congruence|]. rewrite E in H. injection H as <- <- <-. exists p, s, t. auto 10.
Qed.
Lemma none_of l : fst (init_stmts l) = [] -> words l = [].
Proof. intros H. destruct (init_first l) as [(F & _)|(p & s & t & -> & P & N & Q & _ & E & _)]; [now apply words_semis|congruence]. Qed.
Lemma split_good n : forall cl ll out c cl', good ll -> split_line n cl ll = Ok (out, c, cl') -> Forall fresh out /\ all_words out = words (l_frags ll).
Proof.
  assert (ONE : forall ll, fresh ll -> Forall fresh [ll] /\ all_words [ll] = words (l_frags ll)).
  { intros ll FR. split; [now repeat constructor|]. unfold all_words. cbn [flat_map]. apply app_nil_r. }
  assert (LAST : forall (cl : bool) (ll : LLn) (out : list LLn) (c cl' : bool), good ll -> length (l_stmts ll) <= 1 ->
    (if cl then match l_stmts ll with [] => UB | (_, e) :: _ => bind (text_from_frags (set_frags ll (l_layout ll) (firstn e (l_frags ll)))) (fun ll' => Ok ([ll'], false, false)) end
     else bind (ll_has_empty ll) (fun em => if em : bool then bind (ll_remove_empty ll) (fun '(ll', c) => Ok ([ll'], c, false)) else Ok ([ll], false, false))) = Ok (out, c, cl') ->
    Forall fresh out /\ all_words out = words (l_frags ll)).
  { intros cl ll out c cl' G L1 H. destruct cl.
    - destruct (l_stmts ll) as [|[b e] r] eqn:ES; [discriminate|]. destruct r; [|cbn in L1; lia]. apply bind_Ok in H as (ll' & T & H). injection H as <- <- <-.
      destruct G as (FR & HD). unfold fresh in FR. rewrite ES in FR. symmetry in FR. apply first_of in FR as (p & s & t & EF & P & N & Q & -> & -> & R).
      pose proof (text_frags _ _ T) as TF. cbn [set_frags l_frags] in TF.
      assert (FH : fresh ll').
      { destruct HD as [HD|(f & q & EL & F)]; [rewrite HD in EF; destruct p, s; try discriminate EF; congruence|]. eapply text_fresh; [| |exact T]; [exact EL|exact F]. }
      destruct (ONE ll' FH) as (A & B). split; [exact A|]. rewrite B, TF, EF. rewrite app_assoc, <- app_length, firstn_app, firstn_all, Nat.sub_diag. cbn [firstn]. rewrite app_nil_r.
      rewrite (words_app (p ++ s) t). rewrite (none_of t), app_nil_r; [reflexivity|]. destruct (fst (init_stmts t)); [reflexivity|discriminate].
    - apply bind_Ok in H as (em & _ & H). destruct em; [|injection H as <- <- <-; apply ONE, G]. apply bind_Ok in H as ([ll' d] & E & H). injection H as <- <- <-.
      destruct (remove_good _ _ _ G E) as (A & B). destruct (ONE ll' A) as (C & D). split; [exact C|congruence]. }
  induction n as [|n IH]; intros cl ll out c cl' G H; cbn [split_line] in H; destruct (negb (has_fortran ll)) eqn:HF; try (injection H as <- <- <-; apply ONE, G).
  - destruct (l_stmts ll) as [|[b e] [|[b2 e2] r]] eqn:ES; try discriminate; apply (LAST cl ll out c cl' G); rewrite ES; auto.
  - destruct (l_stmts ll) as [|[b e] [|[b2 e2] r]] eqn:ES; try (apply (LAST cl ll out c cl' G); rewrite ES; auto; fail).
    apply bind_Ok in H as (new & T & H). apply bind_Ok in H as ([[r1 d1] cl1] & E & H). injection H as <- <- <-.
    destruct G as (FR & HD). unfold fresh in FR. rewrite ES in FR. symmetry in FR. apply first_of in FR as (p & s & t & EF & P & N & Q & -> & -> & R).
    destruct (fst (init_stmts t)) as [|[b3 e3] r3] eqn:ET; [discriminate|]. cbn [map shift fst snd] in R. injection R as -> -> _.
    apply first_of in ET as (p2 & s2 & t2 & -> & P2 & N2 & Q2 & -> & -> & _).
    set (old := set_frags ll (l_layout ll) (skipn (length p + length s + length p2) (l_frags ll))) in *.
    assert (OF : l_frags old = s2 ++ t2).
    { unfold old. cbn [set_frags l_frags]. rewrite EF, !app_assoc. rewrite <- !app_length. rewrite <- (app_assoc ((p ++ s) ++ p2) s2 t2). rewrite skipn_app, skipn_all, Nat.sub_diag. reflexivity. }
    destruct (redo_keeps old) as (K1 & K2 & _).
    apply IH in E as (A & B).
    + split; [constructor; [apply redo_fresh|exact A]|]. unfold all_words in *. cbn [flat_map]. rewrite B, K2, OF. destruct (redo_keeps new) as (_ & -> & _). rewrite (text_frags _ _ T). cbn [set_frags l_frags].
      rewrite EF, !words_app, (words_semis p P), (words_semis p2 P2). cbn [app]. f_equal.
      rewrite (app_assoc p s), <- app_length, firstn_app, firstn_all, Nat.sub_diag. cbn [firstn]. rewrite app_nil_r, skipn_app, skipn_all, Nat.sub_diag. reflexivity.
    + split; [apply redo_fresh|]. unfold headed. rewrite K1, K2. right. destruct HD as [HD|HD]; [rewrite HD in EF; destruct p, s; try discriminate EF; congruence|exact HD].
Qed.
Lemma split_file ls : forall cl ls' c, Forall good ls -> split_lines cl ls = Ok (ls', c) -> Forall fresh ls' /\ all_words ls' = all_words ls.
Proof.
  induction ls as [|l r IH]; intros cl ls' c F H; cbn [split_lines] in H; [injection H as <- <-; split; [constructor|reflexivity]|].
  inversion F as [|? ? G F']; subst. apply bind_Ok in H as ([[o d] cl1] & E & H). apply bind_Ok in H as ([r' d'] & E2 & H). injection H as <- <-.
  destruct (IH _ _ _ F' E2) as (A & B). destruct (split_good _ _ _ _ _ _ G E) as (C & D). split; [apply Forall_app; auto|]. unfold all_words in *. rewrite flat_map_app. cbn [flat_map]. congruence.
Qed.
Lemma mark_end_f f : is_fortran (mark_end f) = is_fortran f.
Proof. unfold mark_end. destruct (is_empty (right_txt f)); reflexivity. Qed.
Lemma shift_first_f f : is_fortran (shift_first f) = is_fortran f.
Proof. unfold shift_first. destruct (is_empty (left_txt f)); reflexivity. Qed.
Lemma convert_good l l' c : good l -> convert_ll l = Ok (l', c) -> good l' /\ l_frags l' = l_frags l.
Proof.
  intros (FR & HD) H. unfold convert_ll in H. destruct (l_layout l) as [|f r] eqn:EL; [injection H as <- <-; split; [now split|reflexivity]|].
  destruct (is_fixed_format f); [|injection H as <- <-; split; [now split|reflexivity]]. apply bind_Ok in H as (lay & E & H). injection H as <- <-.
  split; [|reflexivity]. split; [exact FR|]. destruct HD as [HD|(f' & r' & EL' & F)]; [left; exact HD|]. right. rewrite EL in EL'. injection EL' as <- <-. rewrite F in E.
  apply bind_Ok in E as (needs & _ & E). cbn [map free_stmt] in E. change (is_fortran (unset_fixed f)) with (is_fortran f) in E. rewrite F in E. cbn [Nat.eqb bind] in E.
  apply bind_Ok in E as (r'' & _ & E). injection E as <-. do 2 eexists. split; [reflexivity|]. rewrite shift_first_f.
  destruct (_ <? _); rewrite ?mark_end_f; exact F.
Qed.
Lemma convert_file_good ls : forall ls' c, Forall good ls -> convert_file ls = Ok (ls', c) -> Forall good ls' /\ all_words ls' = all_words ls.
Proof.
  induction ls as [|l r IH]; intros ls' c F H; cbn [convert_file] in H; [injection H as <- <-; split; [constructor|reflexivity]|].
  inversion F as [|? ? G F']; subst. apply bind_Ok in H as ([l' d] & E & H). apply bind_Ok in H as ([r' d'] & E2 & H). injection H as <- <-.
  destruct (IH _ _ F' E2) as (A & B). destruct (convert_good _ _ _ G E) as (C & D). split; [now constructor|]. unfold all_words in *. cbn [flat_map]. congruence.
Qed.

(** ** The statements of a file *)
Definition last_ok (i : nat) (ln : LLn) (x : LL_Stmt) : Prop :=
  s_line x = None /\ s_range x = (0, 0) \/ s_line x = Some i /\ exists rs, l_stmts ln = rs ++ [s_range x].
Definition no_stmts_in (ls : list LLn) : Prop := Forall (fun l => l_stmts l = []) ls.
Lemma skip_none ls : no_stmts_in ls -> forall i pre, exists pre' j, skip_prefix ls i pre = (pre', [], j).
Proof. induction 1 as [|l r E _ IH]; intros i pre; cbn [skip_prefix]; [eauto|]. rewrite E. cbn [is_empty]. apply IH. Qed.
Lemma skip_some ls : forall i pre, no_stmts_in ls \/ exists a l r pre', ls = a ++ l :: r /\ l_stmts l <> [] /\ skip_prefix ls i pre = (pre', l :: r, i + length a).
Proof.
  induction ls as [|l r IH]; intros i pre; [left; constructor|]. cbn [skip_prefix]. destruct (l_stmts l) as [|x xs] eqn:E; cbn [is_empty].
  - destruct (IH (S i) (if l_suppress l then pre else pre ++ [i])) as [N|(a & l' & r' & pre' & -> & NE & ->)]; [left; constructor; auto|].
    right. exists (l :: a), l', r', pre'. cbn [app length]. split; [reflexivity|]. split; [exact NE|]. f_equal. lia.
  - right. exists [], l, r, pre. rewrite Nat.add_0_r. cbn [app length]. split; [reflexivity|]. split; [congruence|reflexivity].
Qed.
Lemma line_last i ln rs : forall lab c pre done, rs <> [] -> l_stmts ln = done ++ rs -> exists l0 x, line_stmts i rs lab c pre = l0 ++ [x] /\ last_ok i ln x.
Proof.
  induction rs as [|r rs IH]; intros lab c pre done NE E; [congruence|]. cbn [line_stmts]. destruct rs as [|r2 rs].
  - cbn [line_stmts]. exists [], (mkStmt (Some i) r lab c pre). split; [reflexivity|]. right. cbn [s_line s_range]. eauto.
  - destruct (IH 0%Z (c + 1)%Z [] (done ++ [r])) as (l0 & x & E2 & O); [discriminate|rewrite <- app_assoc; exact E|]. rewrite E2. exists (mkStmt (Some i) r lab c pre :: l0), x. auto.
Qed.
Lemma refill_last ls i b r j : refill ls i = Ok (b, r, j) -> no_stmts_in ls /\ b = [] /\ r = [] \/
  exists a l, ls = a ++ l :: r /\ l_stmts l <> [] /\ j = S (i + length a) /\ exists b0 x, b = b0 ++ [x] /\ last_ok (i + length a) l x.
Proof.
  unfold refill. destruct (skip_some ls i []) as [N|(a & l & r' & pre' & -> & NE & ->)].
  - destruct (skip_none ls N i []) as (pre' & j' & ->). intros H. injection H as <- <- <-. left. auto.
  - destruct (assert_ _); cbn [bind]; try discriminate. intros H. injection H as <- <- <-. right. exists a, l. split; [reflexivity|]. split; [exact NE|]. split; [reflexivity|].
    destruct (is_macro (l_cat l)); [|eapply line_last with (done := []); [exact NE|reflexivity]]. exists []. eexists. split; [reflexivity|]. left. split; reflexivity.
Qed.
Lemma stmts_last f : forall s l, make_stmts_loop f s = Some (Ok l) ->
  no_stmts_in (src_rest s) /\ l = tl (src_buf s) \/
  exists a ln b, src_rest s = a ++ ln :: b /\ l_stmts ln <> [] /\ no_stmts_in b /\ exists l0 x, l = l0 ++ [x] /\ last_ok (src_i s + length a) ln x.
Proof.
  induction f as [|f IH]; intros s l H; [discriminate|]. cbn [make_stmts_loop] in H.
  assert (STEP : forall s', match src_buf s' with [] => Some UB | x :: _ => match make_stmts_loop f s' with Some (Ok l) => Some (Ok (x :: l)) | o => o end end = Some (Ok l) ->
    no_stmts_in (src_rest s') /\ l = src_buf s' \/
    exists a ln b, src_rest s' = a ++ ln :: b /\ l_stmts ln <> [] /\ no_stmts_in b /\ exists l0 x, l = l0 ++ [x] /\ last_ok (src_i s' + length a) ln x).
  { intros s' K. destruct (src_buf s') as [|x xs] eqn:EB; [discriminate|]. destruct (make_stmts_loop f s') as [[l'| |]|] eqn:E; try discriminate. injection K as <-.
    destruct (IH _ _ E) as [(A & B)|(a & ln & b & A & B & C & l0 & y & D & O)].
    - left. rewrite EB in B. cbn [tl] in B. subst l'. auto.
    - right. exists a, ln, b. split; [exact A|]. split; [exact B|]. split; [exact C|]. exists (x :: l0), y. rewrite D. auto. }
  unfold src_advance in H. cbn [src_buf] in H. destruct (tl (src_buf s)) as [|y ys] eqn:ET.
  2:{ apply STEP in H. exact H. }
  cbn [more_avail src_buf src_rest src_i] in H. destruct (src_rest s) as [|l1 ls] eqn:ER.
  { cbn [is_empty negb] in H. injection H as <-. left. split; [constructor|reflexivity]. }
  destruct (refill (l1 :: ls) (src_i s)) as [[[b r] j]| |] eqn:E; try discriminate.
  destruct (refill_last _ _ _ _ _ E) as [(N & -> & ->)|(a & ln & EA & NE & -> & b0 & x & -> & O)].
  - left. split; [exact N|]. destruct f as [|f]; cbn [more_avail src_buf src_rest is_empty negb] in H; [discriminate|]. congruence.
  - assert (NB : b0 ++ [x] <> []) by (destruct b0; discriminate).
    destruct f as [|f]; [discriminate|]. remember (S f) as f1. rewrite Heqf1 in H at 1. cbn [more_avail src_buf src_rest] in H.
    destruct (b0 ++ [x]) as [|z zs] eqn:EZ; [congruence|]. cbn [is_empty negb] in H. apply STEP in H. cbn [src_rest src_buf src_i] in H. rewrite EA.
    right. destruct H as [(A & B)|(a2 & ln2 & b2 & A & B & C & l0 & w & D & O2)].
    + exists a, ln, r. split; [reflexivity|]. split; [exact NE|]. split; [exact A|]. exists b0, x. split; [congruence|exact O].
    + exists (a ++ ln :: a2), ln2, b2. split; [rewrite A, <- app_assoc; reflexivity|]. split; [exact B|]. split; [exact C|]. exists l0, w. split; [exact D|].
      rewrite app_length. cbn [length]. replace (src_i s + (length a + S (length a2))) with (S (src_i s + length a) + length a2) by lia. exact O2.
Qed.
(** the last statement of the tokens of a line *)
Lemma last_of k : forall l rs b e, length l <= k -> fst (init_stmts l) = rs ++ [(b, e)] -> b < e /\ e <= length l /\ exists w x, words l = w ++ [x] /\ nth_error l (e - 1) = Some x.
Proof.
  induction k as [|k IH]; intros l rs b e LE H.
  - destruct l; [|cbn in LE; lia]. destruct rs; discriminate.
  - destruct (fst (init_stmts l)) as [|[b1 e1] r] eqn:E; [destruct rs; discriminate|]. apply first_of in E as (p & s & t & -> & P & N & Q & -> & -> & ->).
    destruct rs as [|r0 rs].
    + cbn [app] in H. injection H as <- <- H. destruct (fst (init_stmts t)) eqn:ET; [|discriminate]. destruct (exists_last N) as (s0 & x & ->). rewrite !app_length in *. cbn [length] in *.
      split; [lia|]. split; [lia|]. exists s0, x. rewrite !words_app, (words_semis p P), (none_of t ET), app_nil_r. split; [rewrite <- words_app; cbn [app]; now apply words_run|].
      rewrite nth_error_app2 by lia. rewrite <- app_assoc. rewrite nth_error_app2 by lia. replace (length p + (length s0 + 1) - 1 - length p - length s0) with 0 by lia. reflexivity.
    + cbn [app] in H. injection H as _ H. assert (SL : 1 <= length s) by (destruct s; [congruence|cbn; lia]). rewrite !app_length in *.
      destruct (map_eq_app _ _ _ _ H) as (u & v & ET & M1 & M2). destruct v as [|[b2 e2] [|]]; try discriminate. injection M2 as <- <-. cbn [fst snd] in *.
      destruct (IH t u b2 e2) as (A & B & w & x & C & D); [lia|exact ET|]. split; [lia|]. split; [lia|]. exists (words (p ++ s) ++ w), x. rewrite (app_assoc p s t), words_app, C, app_assoc. split; [reflexivity|].
      rewrite nth_error_app2; rewrite app_length; [|lia]. replace (length p + length s + e2 - 1 - (length p + length s)) with (e2 - 1) by lia. exact D.
Qed.
Lemma no_stmts_words ls : Forall fresh ls -> no_stmts_in ls -> all_words ls = [].
Proof.
  intros F N. induction N as [|l r E N IH]; [reflexivity|]. inversion F as [|? ? FR F']; subst. unfold all_words in *. cbn [flat_map]. rewrite IH by exact F'. rewrite app_nil_r. apply none_of. unfold fresh in FR. congruence.
Qed.
Theorem prefetch_last exts m n ls p : Forall fresh ls -> Forall (fun x => tok x <> BAD) (all_words ls) -> prefetch exts m n ls = Done p ->
  all_words ls = [] \/ exists w x, all_words ls = w ++ [x] /\ ~ real_part (tok x).
Proof.
  intros F NB H. unfold prefetch in H. destruct (make_stmts _ ls) as [r|] eqn:E; [|discriminate]. ob H. apply lift_done in E0. subst r. apply stmts_last in E. cbn [src_rest src_buf src_i tl] in E.
  destruct E as [(N & ->)|(a0 & ln & b & -> & NE & N & l0 & x & -> & O)]; [left; now apply no_stmts_words|]. right.
  destruct (is_empty (l0 ++ [x])) eqn:IE; [destruct l0; discriminate|]. ob H. destruct a as [[m1 t] s]. destruct t as [t|]; [|discriminate]. injection H as <-.
  apply program_closes in E as (i & r & u & EN & _ & I & X). cbn [of_source x_num x_parse] in *. rewrite map_length, app_length in EN. cbn [length] in EN.
  rewrite map_app, nth_error_app2 in X; rewrite map_length in *; [|lia]. replace (i - length l0) with 0 in X by lia. cbn [map nth_error] in X. ob X. destruct a as [t2 s2]. injection X as ->.
  apply Forall_app in F as (F1 & F2). inversion F2 as [|? ? FR F3]; subst.
  assert (NBL : no_bad (l_frags ln)).
  { unfold no_bad. apply Forall_forall. intros y Y B. destruct (is_semi y) eqn:SY; [unfold is_semi in SY; rewrite B in SY; discriminate|].
    rewrite Forall_forall in NB. refine (NB y _ B). unfold all_words. rewrite flat_map_app. apply in_or_app. right. cbn [flat_map]. apply in_or_app. left. unfold words. apply filter_In. rewrite SY. auto. }
  unfold src_of in E. cbn [ss_frags ss_beg ss_end] in E. destruct O as [(O1 & O2)|(O1 & rs & O2)]; rewrite O1 in E.
  - rewrite O2 in E. cbn [fst snd] in E. exfalso. assert (NB0 : no_bad []) by constructor. eapply end_last in E; [destruct E as (E & _); lia|exact I|exact NB0|lia|cbn; lia].
  - rewrite nth_error_app2 in E by lia. replace (0 + length a0 - length a0) with 0 in E by lia. cbn [nth_error] in E. unfold fresh in FR. rewrite FR in O2. destruct (s_range x) as [bb ee]. cbn [fst snd] in E.
    destruct (last_of _ _ _ _ _ (le_n _) O2) as (L1 & L2 & w & y & W & NY). eapply end_last in E; [|exact I|exact NBL|lia|exact L2]. destruct E as (_ & z & NZ & NR). rewrite NY in NZ. injection NZ as <-.
    exists (all_words a0 ++ w), y. split; [|exact NR]. unfold all_words. rewrite flat_map_app. cbn [flat_map]. rewrite W. fold (all_words b). rewrite (no_stmts_words b F3 N), app_nil_r, app_assoc. reflexivity.
Qed.

(** ** Reading *)
Lemma form_bad t w : lexeme_form t w -> t <> BAD.
Proof.
  intros H ->. inversion H as [t s K|t s K| | | | | | | | | | | | ]; subst.
  - destruct K as (_ & K). vm_compute in K. discriminate.
  - destruct K as [(K & _)|K]; [unfold symbol_tags in K; cbn [In] in K; intuition discriminate|]. unfold dotted in K. cbn [In] in K. repeat (destruct K as [K|K]; [apply (f_equal snd) in K; discriminate K|]). destruct K.
Qed.
Lemma smashed_bad w w1 t1 w2 t2 : is_smashed w w1 t1 w2 t2 -> t1 <> BAD /\ t2 <> BAD.
Proof.
  intros (a & b & I & _). unfold adjacent_keywords in I. repeat (destruct I as [I|I]; [injection I as <- <- <- <-; split; discriminate|]). destruct I.
Qed.
Definition tok_fine (x : Token) : Prop := tok x <> BAD.
Lemma set_back_fine fr f fr' : (forall x, tok_fine x -> tok_fine (f x)) -> Forall tok_fine fr -> set_back fr f = Ok fr' -> Forall tok_fine fr'.
Proof.
  intros HF F H. unfold set_back in H. destruct (rev fr) as [|x b] eqn:E; [discriminate|]. injection H as <-. cbn [rev].
  assert (G : Forall tok_fine (x :: b)) by (rewrite <- E; apply Forall_rev; exact F). inversion G; subst. apply Forall_app. split; [apply Forall_rev; assumption|]. constructor; auto.
Qed.
Lemma tok_loop_fine la l : forall ts pre fr fr', Forall (fun x => fst (fst x) <> BAD) l -> Forall tok_fine fr -> tok_loop la l ts pre fr = Ok fr' -> Forall tok_fine fr'.
Proof.
  induction l as [|[[t w] pos] l IH]; intros ts pre fr fr' F FR H; cbn [tok_loop] in H; [congruence|]. inversion F as [|? ? W F']; subst. cbn [fst snd] in W.
  apply bind_Ok in H as (o & _ & H). destruct o as [[[[li ci] tli] tci]|]; [|discriminate].
  assert (F1 : Forall tok_fine (fr ++ [new_token w t li ci])) by (apply Forall_app; split; [exact FR|constructor; [exact W|constructor]]).
  apply bind_Ok in H as (fr2 & H2 & H). apply bind_Ok in H as (e & _ & H). destruct e as [[[[a b] eli] eci]|]; [|discriminate].
  apply bind_Ok in H as (sp & _ & H). apply bind_Ok in H as (fr3 & H3 & H).
  apply (IH _ _ _ _ F') in H; [exact H|]. refine (set_back_fine _ _ _ _ _ H3); [intros x X; exact X|].
  destruct (Z.eqb_spec t TK_NAME) as [->|]; [|congruence].
  destruct (unsmash_fresh fr w li ci) as [(U & _)|(w1 & t1 & w2 & t2 & x & y & S & _ & X & Y & U)]; rewrite U in H2; injection H2 as <-; [exact F1|].
  apply smashed_bad in S as (S1 & S2). apply Forall_app. split; [exact FR|]. constructor; [exact S1|constructor; [exact S2|constructor]].
Qed.
Lemma lexed_fine p s l : lexed p s l -> Forall (fun x => fst (fst x) <> BAD) l.
Proof. induction 1; constructor; auto. cbn [fst]. eapply form_bad; eauto. Qed.
Lemma tokenize_fine st la fr st' : idle st -> tokenize st la = Done (fr, st') -> idle st' /\ Forall tok_fine fr.
Proof.
  intros B H. unfold tokenize in H. destruct (scan_string_ok st (la_accum la) B) as (l & st2 & E & LX & B2). rewrite E in H. cbn [obind] in H. ob H. injection H as <- <-. split; [exact B2|].
  destruct (tok_loop la l 0 0 []) as [x| |] eqn:Q; cbn [lift] in E0; try discriminate. injection E0 as ->. eapply tok_loop_fine; [|constructor|exact Q]. eapply lexed_fine; eauto.
Qed.
Lemma read_good lls : forall st ls st', idle st -> read_lines_st st lls = Done (ls, st') -> Forall made_head lls -> Forall good ls /\ Forall (fun l => Forall tok_fine (l_frags l)) ls.
Proof.
  induction lls as [|x r IH]; intros st ls st' B H F; cbn [read_lines_st] in H; [injection H as <- <-; auto|].
  ob H. destruct a as [ll st1]. ob H. destruct a as [r' st2]. injection H as <- <-. inversion F as [|? ? F1 F2]; subst.
  unfold init_from_layout in E. ob E. ob E. destruct a0 as [fr st3]. injection E as <- <-. destruct (tokenize_fine _ _ _ _ B E2) as (B2 & SM).
  destruct (IH _ _ _ B2 E0 F2) as (I1 & I2). match goal with |- Forall good (redo_stmts ?m :: _) /\ _ => set (ll := m) end. destruct (redo_keeps ll) as (K1 & K2 & _).
  split; constructor; auto.
  - split; [apply redo_fresh|]. unfold headed. rewrite K1, K2. cbn [ll l_frags l_layout]. destruct F1 as [F1|T]; [right; exact F1|left]. eapply textless_tokens; eauto.
  - rewrite K2. exact SM.
Qed.
(** fixed format *)
Definition fixed_ok (f : File_Line) : Prop := is_fortran f = false -> textless f.
Lemma fixed_all lc raws : forall i pod fls, analyze_all_fixed i raws pod lc = Ok fls -> Forall fixed_ok fls.
Proof.
  induction raws as [|r rs IH]; intros i pod fls H; cbn [analyze_all_fixed] in H; [injection H as <-; constructor|].
  apply bind_Ok in H as (f & E & H). apply bind_Ok in H as (fs & E2 & H). injection H as <-. constructor; [|eauto].
  intros F. destruct (analyze_fixed_Ok _ _ _ _ _ E) as [(_ & P & _)|(F' & _)]; [|congruence]. destruct P as (_ & _ & A & C & D & _). split; auto.
Qed.
Lemma absorb_fixed fls : forall prev a b, absorb prev fls = (a, b) -> Forall fixed_ok fls -> Forall textless a /\ Forall fixed_ok b.
Proof.
  induction fls as [|f r IH]; intros prev a b H F; cbn [absorb] in H; [injection H as <- <-; auto|].
  destruct (ceq _ _); [|injection H as <- <-; auto]. destruct (absorb _ r) as [a' b'] eqn:E. injection H as <- <-.
  apply Forall_cons_iff in F as [F1 F2]. apply IH in E as [E1 E2]; auto. split; auto. constructor; auto. repeat split.
Qed.
Lemma step_fixed_head fls ll rest : Forall fixed_ok fls -> step_fixed fls = Ok (ll, rest) -> made_head ll /\ Forall fixed_ok rest.
Proof.
  intros F H. unfold step_fixed in H. unfold made_head.
  assert (MK : forall lay cat b l, make_ll lay cat b = Ok l -> ll_layout l = lay).
  { intros lay cat b l E. unfold make_ll in E. apply bind_Ok in E as (lab & _ & E). now injection E as <-. }
  destruct (span is_trivial fls) as [tr r1] eqn:S1. destruct (is_empty tr) eqn:E1; cbn [negb] in H.
  2:{ apply bind_Ok in H as (l & H1 & H). injection H as <- <-. rewrite (MK _ _ _ _ H1). pose proof (span_all _ _ _ _ S1) as A. apply span_split in S1. subst fls. apply Forall_app in F as [F F2]. split; [right|exact F2].
      rewrite Forall_forall in *. intros f I. apply (F f I). unfold is_fortran. rewrite (A f I). reflexivity. }
  destruct fls as [|f r]; [discriminate|]. destruct (is_fortran f) eqn:FF; cbn [negb] in H.
  - apply bind_Ok in H as (l & H1 & H). injection H as <- <-. rewrite (MK _ _ _ _ H1). cbn [firstn skipn]. apply Forall_cons_iff in F as [_ F]. split; [eauto|].
    rewrite <- (firstn_skipn (fixed_end r 1 0) r) in F. apply Forall_app in F. apply F.
  - apply bind_Ok in H as (? & _ & H). destruct (absorb (left_txt f) r) as [a b] eqn:A. apply bind_Ok in H as (l & H1 & H). injection H as <- <-. rewrite (MK _ _ _ _ H1).
    apply Forall_cons_iff in F as [F1 F2]. apply absorb_fixed in A as [A1 A2]; [|exact F2]. split ; [right; constructor; auto|exact A2].
Qed.
Lemma group_fixed_head n : forall fls lls, group step_fixed n fls = Some (Ok lls) -> Forall fixed_ok fls -> Forall made_head lls.
Proof.
  induction n as [|n IH]; intros fls lls H F; destruct fls as [|f r]; cbn [group] in H; try discriminate; try (injection H as <-; constructor).
  destruct (step_fixed (f :: r)) as [[ll rest]| |] eqn:E; try discriminate. destruct (group step_fixed n rest) as [[l| |]|] eqn:G; try discriminate.
  injection H as <-. apply step_fixed_head in E as [E1 E2]; auto. constructor; [exact E1|]. eapply IH; eauto.
Qed.
Lemma read_and_scan_good st lc f ls ft st' : idle st -> read_and_scan st lc f = Done (Some ls, ft, st') -> Forall good ls /\ Forall (fun l => Forall tok_fine (l_frags l)) ls.
Proof.
  intros B H. unfold read_and_scan in H. destruct (n_text f) as [s|]; [|discriminate]. ob H. destruct a; try discriminate; ob H; destruct a as [r st1]; injection H as -> _ _; unfold scanned in E0.
  - destruct (scan_fixed _ _ _) as [[lls| |]|] eqn:SC; try discriminate. ob E0. destruct a as [ls0 st2]. injection E0 as -> ->. eapply read_good; [exact B|exact E1|].
    unfold scan_fixed in SC. destruct (analyze_all_fixed _ _ _ _) as [fls| |] eqn:A; try discriminate. eapply group_fixed_head; [exact SC|]. eapply fixed_all; eauto.
  - destruct (scan_free _ _) as [[lls| |]|] eqn:SC; try discriminate. ob E0. destruct a as [ls0 st2]. injection E0 as -> ->. eapply read_good; [exact B|exact E1|].
    unfold scan_free in SC. destruct (analyze_all_free _ _ _ _ _) as [fls| |] eqn:A; try discriminate. eapply group_head; [exact SC|]. eapply read_all; eauto.
Qed.

(** ** The program *)
Theorem format_last exts m n it o ls w : Forall good ls -> Forall (fun l => Forall tok_fine (l_frags l)) ls -> format_file exts m n it o ls = Done w -> ~ ends_in_real ls.
Proof.
  intros G B H (p & x & E & RP). unfold format_file, format_lines in H. ob H. destruct a as [ls' d]. clear H. ob E0. destruct a as [ls1 c1].
  assert (G1 : Forall good ls1 /\ all_words ls1 = all_words ls).
  { unfold optionally in E1. destruct (o_fixed_to_free o); [apply lift_done in E1; eapply convert_file_good; eauto|injection E1 as <- <-; auto]. }
  destruct G1 as (G1 & W1). ob E0. destruct a as [ls2 c2]. ob E0. destruct a as [ls3 c3]. ob E0. clear E0.
  assert (G3 : Forall fresh ls3 /\ all_words ls3 = all_words ls1).
  { unfold optionally in E2, E3. destruct (o_split o); cbn [negb] in E2.
    - rewrite andb_false_r in E2. injection E2 as <- <-. apply lift_done in E3. eapply split_file; eauto.
    - injection E3 as <- <-. destruct (o_remove_empty o); cbn [andb] in E2; [apply lift_done in E2; eapply remove_file; eauto|]. injection E2 as <- <-. split; [|reflexivity]. eapply Forall_impl; [|exact G1]. intros l GL. apply GL. }
  destruct G3 as (G3 & W3). rewrite W1 in W3.
  assert (WF : all_words ls = words (flat_map l_frags ls)).
  { clear. induction ls as [|l r IH]; [reflexivity|]. unfold all_words in *. cbn [flat_map]. now rewrite words_app, IH. }
  assert (NX : is_semi x = false) by (unfold is_semi; destruct (Z.eqb_spec (tok x) TK_SEMICOLON) as [T|]; [exfalso; rewrite T in RP; unfold real_part in RP; cbn [In] in RP; intuition discriminate|reflexivity]).
  assert (WX : all_words ls = words p ++ [x]) by (rewrite WF, E, words_app; cbn [words filter]; rewrite NX; reflexivity).
  eapply prefetch_last in E4; [|exact G3|].
  - rewrite W3, WX in E4. destruct E4 as [E4|(w0 & y & E4 & NR)]; [destruct (words p); discriminate|]. apply app_inj_tail in E4 as (_ & <-). contradiction.
  - rewrite W3, WF. apply Forall_forall. intros y Y. apply filter_In in Y as (Y & _). apply in_flat_map in Y as (l & L1 & L2). rewrite Forall_forall in B. specialize (B l L1). rewrite Forall_forall in B. apply (B y L2).
Qed.
