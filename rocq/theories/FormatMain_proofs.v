From Verif Require Import Base Base_lemmas Tags FileLine LineAccum Token LogicalFile LogicalFile_proofs LogicalLine Smash_spec Lexer Lexer_spec Lexer_proofs LexPos_proofs LexLongest_proofs LineEdit Stmts StmtSrc Peg Peg_proofs Prgm Prgm_proofs PrgmSource Convert ReadFile ReadFile_proofs
  LineFlow_spec FormatApp FormatApp_spec FormatApp_proofs Indent Indent_spec Indent_proofs IndentFile_proofs FormatMain FormatMain_spec.
From Coq Require Import Lia.
Local Open Scope nat_scope.

(** ** lines *)
Lemma getlines_line l : ~ In c_nl l -> forall cur s, getlines cur (l ++ c_nl :: s) = (cur ++ l) :: getlines [] s.
Proof.
  induction l as [|c l IH]; intros N cur s; cbn [app getlines].
  - rewrite app_nil_r. reflexivity.
  - destruct (ceq c c_nl) eqn:E; [apply ceq_true in E; subst c; contradiction N; left; reflexivity|].
    rewrite IH by (intros K; apply N; right; exact K). rewrite <- app_assoc. reflexivity.
Qed.
Lemma getlines_text ls : Forall (fun l => ~ In c_nl l) ls -> getlines [] (text_of ls) = ls.
Proof.
  induction 1 as [|l ls N F IH]; [reflexivity|]. unfold text_of. cbn [flat_map]. rewrite <- app_assoc. cbn [app]. rewrite getlines_line by exact N. fold (text_of ls). rewrite IH. reflexivity.
Qed.
Lemma getlines_spec s : forall cur, ~ In c_nl cur -> Forall (fun l => ~ In c_nl l) (getlines cur s) /\ with_newline (cur ++ s) (text_of (getlines cur s)).
Proof.
  induction s as [|c s IH]; intros cur N; cbn [getlines].
  - destruct cur as [|a cur]; cbn [is_empty].
    + split; [constructor|]. left. split; [left; reflexivity|reflexivity].
    + split; [constructor; [exact N|constructor]|]. right. rewrite app_nil_r. split.
      * intros [E|(t & E)]; [discriminate|]. apply N. rewrite E. apply in_or_app. right. left. reflexivity.
      * unfold text_of. cbn [flat_map]. rewrite app_nil_r. reflexivity.
  - destruct (ceq c c_nl) eqn:E.
    + apply ceq_true in E. subst c. destruct (IH [] (fun x => x)) as (A & B). split; [constructor; assumption|].
      unfold text_of. cbn [flat_map]. fold (text_of (getlines [] s)). cbn [app] in B. rewrite <- app_assoc. cbn [app]. destruct B as [(B1 & B2)|(B1 & B2)]; rewrite B2.
      * left. split; [|reflexivity]. right. destruct B1 as [->|(t & ->)]; [exists cur; reflexivity|]. exists (cur ++ c_nl :: t). rewrite <- app_assoc. reflexivity.
      * right. split; [|rewrite <- app_assoc; reflexivity]. intros [K|(t & K)]; [destruct cur; discriminate|]. apply B1.
        destruct s as [|x s'] using rev_ind; [left; reflexivity|]. right.
        rewrite app_comm_cons, app_assoc in K. apply app_inj_tail in K. destruct K as [_ ->]. eexists; reflexivity.
    + assert (N' : ~ In c_nl (cur ++ [c])).
      { intros K. apply in_app_or in K. destruct K as [K|[K|[]]]; [contradiction|]. subst c. rewrite ceq_refl in E. discriminate. }
      destruct (IH _ N') as (A & B). rewrite <- app_assoc in B. split; assumption.
Qed.

(** ** printing what was read *)
Lemma flat_nl l : flat_map (fun f => print_line f ++ [c_nl]) l = text_of (map print_line l).
Proof. induction l as [|f l IH]; [reflexivity|]. cbn [flat_map map]. rewrite IH. reflexivity. Qed.
Lemma text_of_app a b : text_of (a ++ b) = text_of a ++ text_of b.
Proof. unfold text_of. apply flat_map_app. Qed.
Lemma read_lines_layout lls : forall st lns, read_lines st lls = Done lns -> write_file lns = text_of (concat (map print_ll lls)).
Proof.
  induction lls as [|x r IH]; intros st lns H; cbn [read_lines] in H; [injection H as <-; reflexivity|].
  ob H. destruct a as [ll st']. ob H. injection H as <-. cbn [map concat]. rewrite text_of_app, <- (IH _ _ E0).
  unfold write_file at 1. cbn [flat_map]. fold (write_file a). f_equal.
  unfold init_from_layout in E. ob E. ob E. destruct a1 as [fr st2]. injection E as <- <-. unfold redo_stmts. cbn [l_frags].
  destruct (init_stmts fr). unfold print_lln. cbn [l_suppress l_layout]. apply flat_nl.
Qed.
Lemma read_free_print raws lns : read_free raws = Done lns -> write_file lns = text_of raws.
Proof.
  unfold read_free. destruct (scan_free (length raws) raws) as [r|] eqn:E; [|discriminate]. intros H. ob H.
  destruct r as [lls| |]; cbn [lift] in E0; try discriminate. injection E0 as ->. rewrite (read_lines_layout _ _ _ H). f_equal. exact (scan_free_identity _ _ _ E).
Qed.

(** ** nothing reported, nothing changed *)
Lemma convert_none ls : forall ls', convert_file ls = Ok (ls', false) -> ls' = ls.
Proof.
  induction ls as [|l r IH]; intros ls' H; cbn [convert_file] in H; [injection H as <-; reflexivity|].
  destruct (convert_ll l) as [[l' b]| |] eqn:E; cbn [bind] in H; try discriminate.
  destruct (convert_file r) as [[r' b']| |]; cbn [bind] in H; try discriminate. injection H as <- K. apply orb_false_iff in K. destruct K as [-> ->].
  rewrite (IH r' eq_refl). f_equal. unfold convert_ll in E. destruct (l_layout l) as [|f fr]; [congruence|]. destruct (is_fixed_format f); [|congruence].
  destruct (if is_fortran f then _ else _); cbn [bind] in E; discriminate.
Qed.
Lemma drop_semis_len l : length (drop_semis l) = length l -> drop_semis l = l.
Proof.
  assert (G : forall x, length (drop_semis x) <= length x). { induction x as [|y x IH]; cbn [drop_semis]; [lia|]. destruct (is_semi y); cbn [length]; lia. }
  destruct l as [|x l]; [reflexivity|]. cbn [drop_semis]. destruct (is_semi x); [|reflexivity]. intros E. cbn [length] in E. pose proof (G l). lia.
Qed.
Lemma clear_none l : forall p g, clear_second p l = (g, false) -> g = l.
Proof.
  induction l as [|x r IH]; intros p g H; cbn [clear_second] in H; [congruence|]. destruct (clear_second (is_semi x) r) as [r' c] eqn:E.
  destruct (p && is_semi x); [discriminate|]. injection H as <- ->. rewrite (IH _ _ E). reflexivity.
Qed.
Lemma remove_frags_none l k fr : remove_empty_frags l k = Ok (fr, false) -> fr = l.
Proof.
  unfold remove_empty_frags. set (f1 := drop_semis l). set (f2 := drop_semis_back f1).
  destruct (Nat.eqb_spec (length f1) (length l)) as [E1|E1]; destruct (Nat.eqb_spec (length f2) (length f1)) as [E2|E2]; cbn [negb].
  2,4: destruct (1 <? k); [destruct (clear_second false f2) as [g c]; destruct c|]; destruct (assert_ _); cbn [bind]; intros H; try discriminate; injection H as _ K; rewrite orb_true_r in K; discriminate.
  2:{ destruct (1 <? k); [destruct (clear_second false f2) as [g c]; destruct c|]; destruct (assert_ _); cbn [bind]; intros H; try discriminate; injection H as _ K; discriminate. }
  assert (F1 : f1 = l) by (apply drop_semis_len; exact E1).
  assert (F2 : f2 = f1).
  { unfold f2, drop_semis_back in *. rewrite rev_length in E2. rewrite drop_semis_len; [apply rev_involutive|]. rewrite rev_length. exact E2. }
  destruct (1 <? k).
  - destruct (clear_second false f2) as [g c] eqn:C; destruct c; destruct (assert_ _); cbn [bind]; intros H; try discriminate. injection H as <-. rewrite (clear_none _ _ _ C). congruence.
  - destruct (assert_ _); cbn [bind]; intros H; try discriminate. injection H as <-. congruence.
Qed.
Lemma set_frags_same ll : set_frags ll (l_layout ll) (l_frags ll) = ll.
Proof. destruct ll; reflexivity. Qed.
Lemma ll_remove_none ll ll' : ll_remove_empty ll = Ok (ll', false) -> ll' = ll.
Proof.
  unfold ll_remove_empty. destruct (remove_empty_frags (l_frags ll) (length (l_stmts ll))) as [[fr c]| |] eqn:E; cbn [bind]; try discriminate.
  destruct c; [destruct (text_from_frags _); cbn [bind]; discriminate|]. intros H. injection H as <-. rewrite (remove_frags_none _ _ _ E). apply set_frags_same.
Qed.
Lemma remove_none ls : forall ls', remove_empty_stmts ls = Ok (ls', false) -> ls' = ls.
Proof.
  induction ls as [|l r IH]; intros ls' H; cbn [remove_empty_stmts] in H; [congruence|].
  destruct (if has_fortran l then _ else _) as [[l' c]| |] eqn:E; cbn [bind] in H; try discriminate.
  destruct (remove_empty_stmts r) as [[r' c']| |]; cbn [bind] in H; try discriminate. injection H as <- K. apply orb_false_iff in K. destruct K as [-> ->].
  rewrite (IH r' eq_refl). f_equal. destruct (has_fortran l); [congruence|]. destruct (ll_has_empty l) as [[]| |]; cbn [bind] in E; try discriminate; [apply ll_remove_none; exact E|congruence].
Qed.
Lemma split_line_none n ll : forall out cl, split_line n false ll = Ok (out, false, cl) -> out = [ll] /\ cl = false.
Proof.
  intros out cl H. destruct n; cbn [split_line] in H; (destruct (has_fortran ll); cbn [negb] in H; [|injection H as <- <-; auto]);
    destruct (l_stmts ll) as [|[b e] [|[b2 e2] st]]; try discriminate;
    try (destruct (ll_has_empty ll) as [[]| |]; cbn [bind] in H; try discriminate; [|injection H as <- <-; auto];
         destruct (ll_remove_empty ll) as [[ll' c]| |] eqn:E; cbn [bind] in H; try discriminate; injection H as <- -> <-; rewrite (ll_remove_none _ _ E); auto).
  destruct (text_from_frags _); cbn [bind] in H; try discriminate. destruct (split_line n true _) as [[[? ?] ?]| |]; cbn [bind] in H; discriminate.
Qed.
Lemma split_none ls : forall ls', split_lines false ls = Ok (ls', false) -> ls' = ls.
Proof.
  induction ls as [|l r IH]; intros ls' H; cbn [split_lines] in H; [congruence|].
  destruct (split_line _ false l) as [[[out c] cl]| |] eqn:E; cbn [bind] in H; try discriminate.
  destruct (split_lines cl r) as [[r' c']| |] eqn:E2; cbn [bind] in H; try discriminate. injection H as <- K. apply orb_false_iff in K. destruct K as [-> ->].
  destruct (split_line_none _ _ _ _ E) as [-> ->]. rewrite (IH _ E2). reflexivity.
Qed.
Lemma indent_file_eq exts m n it ls : file_indent exts m n it ls = (p <~ prefetch exts m n ls ;; indent_file it p ls).
Proof.
  unfold file_indent, prefetch. destruct (make_stmts _ ls) as [[sts| |]|]; cbn [lift obind]; auto.
  destruct (is_empty sts); cbn [obind]; [reflexivity|]. destruct (parse_prgm _ n g_program) as [[[b t] s]| |]; cbn [obind]; auto. destruct t; reflexivity.
Qed.

(** ** indentation keeps the code *)
Lemma same_code_refl f : same_code f f. Proof. unfold same_code. auto. Qed.
Lemma F2_refl l : Forall2 same_code l l. Proof. induction l; constructor; auto using same_code_refl. Qed.
Lemma same_line_refl l : same_line l l. Proof. unfold same_line. repeat (split; [reflexivity|]). apply F2_refl. Qed.
Lemma F2l_refl l : Forall2 same_line l l. Proof. induction l; constructor; auto using same_line_refl. Qed.
Lemma is_fortran_bits f g : bits g = bits f -> is_fortran g = is_fortran f.
Proof. intros E. unfold is_fortran, is_trivial, is_comment, is_blank, is_preprocessor, is_flpr_pp, is_flpr_lit, is_include. rewrite E. reflexivity. Qed.
Lemma same_code_trans a b c : same_code a b -> same_code b c -> same_code a c.
Proof.
  intros (A1 & A2 & A3 & A4) (B1 & B2 & B3 & B4). unfold same_code. split; [congruence|]. split; [congruence|]. split; [congruence|]. intros F.
  destruct (A4 F) as [C D]. destruct B4 as [G H]; [rewrite (is_fortran_bits _ _ A1); exact F|]. split; congruence.
Qed.
Lemma F2_trans {A} (R : A -> A -> Prop) : (forall a b c, R a b -> R b c -> R a c) -> forall a b c, Forall2 R a b -> Forall2 R b c -> Forall2 R a c.
Proof.
  intros T. induction a as [|x a IH]; intros b c H K; inversion H; subst; inversion K; subst; constructor; eauto.
Qed.
Lemma same_line_trans a b c : same_line a b -> same_line b c -> same_line a c.
Proof.
  intros (A1 & A2 & A3 & A4 & A5 & A6) (B1 & B2 & B3 & B4 & B5 & B6). unfold same_line. repeat (split; [congruence|]).
  eapply F2_trans; eauto using same_code_trans.
Qed.
Lemma sls_same f sp f' c : set_leading_spaces f sp = Ok (f', c) -> same_code f f'.
Proof.
  unfold set_leading_spaces. destruct (is_comment f) eqn:C.
  - assert (NF : is_fortran f = true -> False). { unfold is_fortran, is_trivial. rewrite C. cbn. discriminate. }
    assert (W : forall a b d e g, same_code f (with_text f a b d e g)). { intros. unfold same_code. destruct f; cbn. repeat (split; [reflexivity|]). intros F. contradiction (NF F). }
    unfold sls_comment. destruct (find_char c_bang (left_txt f)) as [pos|].
    + destruct (_ =? sp)%Z; [intros H; injection H as <- <-; apply W|]. destruct (if pos =? 0 then _ else _); cbn [bind]; try discriminate.
      destruct (blanks_z sp); cbn [bind]; try discriminate. intros H. injection H as <- <-. apply W.
    + destruct (find_char c_bang (main_txt f)) as [pos|]; [|intros H; injection H as <- <-; apply same_code_refl].
      destruct (_ =? sp)%Z; [intros H; injection H as <- <-; apply W|]. destruct (_ <? sp)%Z; [|intros H; injection H as <- <-; apply W].
      destruct (blanks_z _); cbn [bind]; try discriminate. intros H. injection H as <- <-. apply W.
  - destruct (is_fortran f) eqn:F.
    + destruct (sls_left f sp) as [[[[lt ls] off]|]| |]; cbn [bind]; try discriminate; [|intros H; injection H as <- <-; apply same_code_refl].
      destruct (sls_right _ _ off); cbn [bind]; try discriminate. intros H. injection H as <- <-. unfold same_code. destruct f; cbn. auto.
    + intros H. injection H as <- <-. apply same_code_refl.
Qed.

Lemma indent_all_same l sp : forall l' c, indent_all l sp = Ok (l', c) -> Forall2 same_code l l'.
Proof.
  induction l as [|f r IH]; intros l' c H; cbn [indent_all] in H; [injection H as <- <-; constructor|].
  destruct (set_leading_spaces f sp) as [[f' d]| |] eqn:E; cbn [bind] in H; try discriminate.
  destruct (indent_all r sp) as [[r' e]| |]; cbn [bind] in H; try discriminate. injection H as <- <-. constructor; [eapply sls_same; eauto|eapply IH; eauto].
Qed.
Lemma ll_indent_same ll sp off ll' c : ll_set_leading_spaces ll sp off = Ok (ll', c) -> same_line ll ll'.
Proof.
  unfold ll_set_leading_spaces. destruct (l_layout ll) as [|f r] eqn:El; [discriminate|].
  destruct (set_leading_spaces f sp) as [[f' d]| |] eqn:E; cbn [bind]; try discriminate.
  destruct (indent_all r _) as [[r' e]| |] eqn:E2; cbn [bind]; try discriminate. intros H. injection H as <- <-.
  unfold same_line, set_frags. cbn. repeat (split; [reflexivity|]). rewrite El. constructor; [eapply sls_same; eauto|eapply indent_all_same; eauto].
Qed.
Lemma put_same ls : forall j l l', nth_error ls j = Some l -> same_line l l' -> Forall2 same_line ls (put_line ls j l').
Proof.
  unfold put_line. induction ls as [|a ls IH]; intros j l l' H K; [destruct j; discriminate|]. destruct j as [|j]; cbn in H |- *.
  - injection H as ->. constructor; [exact K|apply F2l_refl].
  - constructor; [apply same_line_refl|]. exact (IH _ _ _ H K).
Qed.
Lemma line_indent_same ls j sp off ls' c : line_indent ls j sp off = Ok (ls', c) -> Forall2 same_line ls ls'.
Proof.
  unfold line_indent. destruct (nth_error ls j) as [l|] eqn:E; [|discriminate]. destruct (ll_set_leading_spaces l sp off) as [[l' d]| |] eqn:E2; cbn [bind]; try discriminate.
  intros H. injection H as <- <-. eapply put_same; eauto using ll_indent_same.
Qed.
Lemma lines_indent_same sp off js : forall ls ls' c, lines_indent ls js sp off = Ok (ls', c) -> Forall2 same_line ls ls'.
Proof.
  induction js as [|j js IH]; intros ls ls' c H; cbn [lines_indent] in H; [injection H as <- <-; apply F2l_refl|].
  destruct (line_indent ls j sp off) as [[l1 d]| |] eqn:E; cbn [bind] in H; try discriminate. destruct (lines_indent l1 js sp off) as [[l2 e]| |] eqn:E2; cbn [bind] in H; try discriminate.
  injection H as <- <-. eapply F2_trans; [exact same_line_trans|eapply line_indent_same; eauto|eapply IH; eauto].
Qed.
Lemma stmt_indent_same ls q sp off ls' c : stmt_indent ls q sp off = Ok (ls', c) -> Forall2 same_line ls ls'.
Proof.
  unfold stmt_indent. destruct (0 <=? sp)%Z; cbn [assert_ bind]; try discriminate. destruct (s_compound q <? 2)%Z; [|intros H; injection H as <- <-; apply F2l_refl].
  destruct (lines_indent ls (s_prefix q) sp off) as [[l1 d]| |] eqn:E; cbn [bind]; try discriminate. destruct (s_line q) as [j|]; [|discriminate].
  destruct (line_indent l1 j sp off) as [[l2 e]| |] eqn:E2; cbn [bind]; try discriminate. intros H. injection H as <- <-.
  eapply F2_trans; [exact same_line_trans|eapply lines_indent_same; eauto|eapply line_indent_same; eauto].
Qed.
Lemma run_same it sts l : forall ls ls' c, run it sts l ls = Ok (ls', c) -> Forall2 same_line ls ls'.
Proof.
  induction l as [|p l IH]; intros ls ls' c H; cbn [run] in H; [injection H as <- <-; apply F2l_refl|].
  destruct (call it sts ls p) as [[l1 d]| |] eqn:E; cbn [bind] in H; try discriminate. destruct (run it sts l l1) as [[l2 e]| |] eqn:E2; cbn [bind] in H; try discriminate.
  injection H as <- <-. eapply F2_trans; [exact same_line_trans| |eapply IH; eauto].
  unfold call in E. destruct (nth_error sts (fst p)) as [q|]; [|discriminate]. destruct (s_compound q <? 2)%Z; [|injection E as <- <-; apply F2l_refl].
  eapply stmt_indent_same; eauto.
Qed.
Lemma indent_same it p ls ls' c : indent_file it p ls = Done (ls', c) -> Forall2 same_line ls ls'.
Proof.
  unfold indent_file. destruct (snd p) as [t|]; [|intros H; injection H as <- <-; apply F2l_refl].
  destruct (indent_recurse it (fst p) t 0 ls) as [x| |] eqn:E; cbn [lift]; try discriminate. intros H. injection H as ->. apply indent_calls in E. eapply run_same; eauto.
Qed.
Lemma same_layout_fortran a b : Forall2 same_code a b -> existsb is_fortran b = existsb is_fortran a /\ map main_txt (fortran_lines b) = map main_txt (fortran_lines a).
Proof.
  unfold fortran_lines. induction 1 as [|f g a b (S1 & S2 & S3 & S4) F (I1 & I2)]; [split; reflexivity|]. cbn [existsb filter]. rewrite (is_fortran_bits _ _ S1), I1. split; [reflexivity|].
  destruct (is_fortran f); [|exact I2]. cbn [map]. rewrite I2. destruct (S4 eq_refl) as [-> _]. reflexivity.
Qed.
Lemma same_program a b : Forall2 same_line a b -> program_of b = program_of a.
Proof.
  unfold program_of. induction 1 as [|x y a b (S1 & S2 & S3 & S4 & S5 & S6) F IH]; [reflexivity|]. cbn [flat_map]. rewrite IH. f_equal.
  unfold has_fortran, statements_of. rewrite S3, S4. destruct (same_layout_fortran _ _ S6) as [-> _]. reflexivity.
Qed.
Lemma redo_suppress ll : l_suppress (redo_stmts ll) = l_suppress ll.
Proof. unfold redo_stmts. destruct (init_stmts (l_frags ll)). reflexivity. Qed.
Lemma remove_no_fortran l l' c : has_fortran l = false -> ll_remove_empty l = Ok (l', c) -> has_fortran l' = false.
Proof.
  intros H. unfold ll_remove_empty. destruct (remove_empty_frags (l_frags l) (length (l_stmts l))) as [[fr d]| |]; cbn [bind]; try discriminate. set (l1 := set_frags l (l_layout l) fr).
  assert (H1 : has_fortran l1 = false) by exact H. destruct d; [|intros K; injection K as <- <-; exact H1].
  destruct (text_from_frags l1) as [l2| |] eqn:E; cbn [bind]; try discriminate. intros K. injection K as <- <-.
  unfold text_from_frags in E. destruct (l_layout l1) as [|f r] eqn:El; [injection E as <-; exact H1|]. destruct (is_fortran f) eqn:F; cbn [negb] in E; [|injection E as <-; exact H1].
  unfold has_fortran in H1. rewrite El in H1. cbn [existsb] in H1. rewrite F in H1. cbn [orb] in H1. rewrite andb_true_r in H1. apply negb_false_iff in H1.
  destruct (max_main_txt_len _); cbn [bind] in E; try discriminate. destruct (place_all _ _ _ _); cbn [bind] in E; try discriminate. destruct (if is_empty _ then _ else _) as [d1 d2].
  injection E as <-. unfold has_fortran. rewrite redo_suppress. cbn [l_suppress]. change (l_suppress l = true) in H1. subst l1. cbn [l_suppress set_frags]. rewrite ?H1. reflexivity.
Qed.
Lemma remove_program ls : forall ls' c, remove_empty_stmts ls = Ok (ls', c) -> program_of ls' = program_of ls.
Proof.
  induction ls as [|l r IH]; intros ls' c H; cbn [remove_empty_stmts] in H; [injection H as <- <-; reflexivity|].
  destruct (if has_fortran l then _ else _) as [[l' c1]| |] eqn:E; cbn [bind] in H; try discriminate.
  destruct (remove_empty_stmts r) as [[r' c2]| |]; cbn [bind] in H; try discriminate. injection H as <- <-. pose proof (IH _ _ eq_refl) as A.
  unfold program_of in *. cbn [flat_map]. rewrite A. f_equal. destruct (has_fortran l) eqn:F; [injection E as <- <-; rewrite F; reflexivity|].
  assert (N : has_fortran l' = false); [|rewrite N; reflexivity].
  destruct (ll_has_empty l) as [[]| |]; cbn [bind] in E; try discriminate; [eapply remove_no_fortran; eauto|injection E as <- <-; exact F].
Qed.

(** ** what was read can be written again *)
Definition semi_ok (x : Token) : Prop := is_semi x = true -> tk_text x <> [].
Lemma smashed_words w w1 t1 w2 t2 : is_smashed w w1 t1 w2 t2 -> w1 <> [] /\ w2 <> [].
Proof.
  intros (a & b & I & -> & -> & _). unfold adjacent_keywords in I.
  repeat (destruct I as [I|I]; [injection I as <- <- <- <-; split; discriminate|]). destruct I.
Qed.
Lemma set_back_semis fr f fr' : (forall x, semi_ok x -> semi_ok (f x)) -> Forall semi_ok fr -> set_back fr f = Ok fr' -> Forall semi_ok fr'.
Proof.
  intros HF F H. unfold set_back in H. destruct (rev fr) as [|x b] eqn:E; [discriminate|]. injection H as <-. cbn [rev].
  assert (G : Forall semi_ok (x :: b)) by (rewrite <- E; apply Forall_rev; exact F). inversion G; subst. apply Forall_app. split; [apply Forall_rev; assumption|]. constructor; auto.
Qed.
Lemma tok_loop_semis la l : forall ts pre fr fr', Forall (fun x => snd (fst x) <> []) l -> Forall semi_ok fr -> tok_loop la l ts pre fr = Ok fr' -> Forall semi_ok fr'.
Proof.
  induction l as [|[[t w] pos] l IH]; intros ts pre fr fr' F FR H; cbn [tok_loop] in H; [congruence|]. inversion F as [|? ? W F']; subst. cbn [fst snd] in W.
  apply bind_Ok in H as (o & _ & H). destruct o as [[[[li ci] tli] tci]|]; [|discriminate].
  assert (F1 : Forall semi_ok (fr ++ [new_token w t li ci])) by (apply Forall_app; split; [exact FR|constructor; [intros _; exact W|constructor]]).
  apply bind_Ok in H as (fr2 & H2 & H). apply bind_Ok in H as (e & _ & H). destruct e as [[[[a b] eli] eci]|]; [|discriminate].
  apply bind_Ok in H as (sp & _ & H). apply bind_Ok in H as (fr3 & H3 & H).
  apply (IH _ _ _ _ F') in H; [exact H|]. refine (set_back_semis _ _ _ _ _ H3); [intros x X; exact X|].
  destruct (Z.eqb_spec t TK_NAME) as [->|]; [|congruence].
  destruct (unsmash_fresh fr w li ci) as [(U & _)|(w1 & t1 & w2 & t2 & x & y & S & _ & X & Y & U)]; rewrite U in H2; injection H2 as <-; [exact F1|].
  apply smashed_words in S as (S1 & S2). apply Forall_app. split; [exact FR|]. constructor; [|constructor; [|constructor]]; intros _; cbn [tk_text]; intros ->; cbn in *; congruence.
Qed.
Lemma lexed_words p s l : lexed p s l -> Forall (fun x => snd (fst x) <> []) l.
Proof. induction 1; constructor; auto. Qed.
Lemma tokenize_semis st la fr st' : idle st -> tokenize st la = Done (fr, st') -> idle st' /\ Forall semi_ok fr.
Proof.
  intros B H. unfold tokenize in H. destruct (scan_string_ok st (la_accum la) B) as (l & st2 & E & LX & B2). rewrite E in H. cbn [obind] in H. ob H. injection H as <- <-. split; [exact B2|].
  destruct (tok_loop la l 0 0 []) as [x| |] eqn:Q; cbn [lift] in E0; try discriminate. injection E0 as ->. eapply tok_loop_semis; [|constructor|exact Q]. eapply lexed_words; eauto.
Qed.
Definition made_head (ll : LLine) : Prop := (exists f r, ll_layout ll = f :: r /\ is_fortran f = true) \/ Forall textless (ll_layout ll).
Lemma span_all p fls : forall a b, span p fls = (a, b) -> Forall (fun f => p f = true) a.
Proof.
  induction fls as [|f r IH]; intros a b H; cbn [span] in H; [injection H as <- <-; constructor|].
  destruct (p f) eqn:P; [|injection H as <- <-; constructor]. destruct (span p r) as [a' b'] eqn:E. injection H as <- <-. constructor; eauto.
Qed.
Lemma step_head fls ll rest : Forall read_ok fls -> step_free fls = Ok (ll, rest) -> made_head ll.
Proof.
  intros F H. unfold step_free in H. unfold made_head.
  assert (MK : forall lay cat b l, make_ll lay cat b = Ok l -> ll_layout l = lay).
  { intros lay cat b l E. unfold make_ll in E. apply bind_Ok in E as (lab & _ & E). now injection E as <-. }
  assert (ALL : forall p a b, span p fls = (a, b) -> (forall f, p f = true -> is_fortran f = false) -> Forall textless a).
  { intros p a b S N. pose proof (span_all _ _ _ _ S) as A. apply span_split in S. subst fls. apply Forall_app in F as [F _]. rewrite Forall_forall in *. intros f I. apply (F f I). apply N, A, I. }
  destruct (span is_trivial fls) as [tr r1] eqn:S1. destruct (is_empty tr) eqn:E1; cbn [negb] in H.
  2:{ apply bind_Ok in H as (l & H1 & H). injection H as <- <-. rewrite (MK _ _ _ _ H1). right. apply (ALL _ _ _ S1). intros f T. unfold is_fortran. rewrite T. reflexivity. }
  destruct (span is_flpr_lit fls) as [lt r2] eqn:S2. destruct (is_empty lt) eqn:E2; cbn [negb] in H.
  2:{ apply bind_Ok in H as (l & H1 & H). injection H as <- <-. rewrite (MK _ _ _ _ H1). right. apply (ALL _ _ _ S2). intros f T. unfold is_fortran, is_flpr_lit in *. rewrite T. destruct (is_trivial f), (is_preprocessor f), (is_flpr_pp f), (is_include f); reflexivity. }
  destruct fls as [|f r]; [discriminate|]. destruct (is_fortran f) eqn:FF; cbn [negb] in H.
  - apply bind_Ok in H as (l & H1 & H). injection H as <- <-. rewrite (MK _ _ _ _ H1). left. destruct (free_end (f :: r) 0) as [k|]; cbn [firstn]; eauto.
  - apply bind_Ok in H as (? & _ & H). destruct (absorb (left_txt f) r) as [a b] eqn:A. apply bind_Ok in H as (l & H1 & H). injection H as <- <-. rewrite (MK _ _ _ _ H1). right.
    apply Forall_cons_iff in F as [F1 F2]. constructor; [apply F1; exact FF|]. apply absorb_ok in A as [A _]; auto. eapply Forall_impl; [|exact A]. intros g [_ X]. exact X.
Qed.
Lemma group_head n : forall fls lls, group step_free n fls = Some (Ok lls) -> Forall read_ok fls -> Forall made_head lls.
Proof.
  induction n as [|n IH]; intros fls lls H F; destruct fls as [|f r]; cbn [group] in H; try discriminate; try (injection H as <-; constructor).
  destruct (step_free (f :: r)) as [[ll rest]| |] eqn:E; try discriminate. destruct (group step_free n rest) as [[l| |]|] eqn:G; try discriminate.
  injection H as <-. constructor; [eapply step_head; eauto|]. apply step_ok in E as [E1 E2]; auto; [|discriminate]. eapply IH; eauto.
Qed.
Lemma read_lines_ready lls : forall st lns, idle st -> read_lines st lls = Done lns -> Forall made_head lls -> Forall (fun l => writable l -> line_ready l) lns.
Proof.
  induction lls as [|x r IH]; intros st lns B H F; cbn [read_lines] in H; [injection H as <-; constructor|].
  ob H. destruct a as [ll st']. ob H. injection H as <-. inversion F as [|? ? F1 F2]; subst.
  unfold init_from_layout in E. ob E. ob E. destruct a1 as [fr st2]. injection E as <- <-. destruct (tokenize_semis _ _ _ _ B E2) as (B2 & SM).
  constructor; [|eapply IH; eauto]. match goal with |- writable (redo_stmts ?m) -> _ => set (ll := m) end. intros W. split; [apply redo_idem|]. intros HF HS.
  destruct (redo_keeps ll) as (K1 & K2 & _). unfold has_semi in HS. rewrite K2 in *. cbn [l_frags ll] in HS.
  destruct (W HF) as (W1 & W2 & W3); [unfold has_semi; rewrite K2; exact HS|]. rewrite K1, K2 in *. cbn [l_layout l_frags ll] in *. destruct F1 as [(f & q & EL & FF)|T].
  - rewrite EL in *. cbn [hd tl] in *. exists f, q. split; [reflexivity|]. auto.
  - exfalso. unfold tokenize_layout in E2. apply (textless_tokens _ _ _ _ T) in E2. subst fr. discriminate.
Qed.
Lemma read_free_ready raws lns : read_free raws = Done lns -> Forall (fun l => writable l -> line_ready l) lns.
Proof.
  unfold read_free. destruct (scan_free (length raws) raws) as [r|] eqn:E; [|discriminate]. intros H. ob H.
  destruct r as [lls| |]; cbn [lift] in E0; try discriminate. injection E0 as ->. eapply read_lines_ready; [left; reflexivity|exact H|].
  unfold scan_free in E. destruct (analyze_all_free 1 raws c_nul false false) as [fls| |] eqn:EA; try discriminate. eapply group_head; eauto. eapply read_all; eauto.
Qed.
