(** What the free-format reader makes is fit for indentation. *)
From Coq Require Import Lia.
From Verif Require Import Base Base_lemmas Tags FileLine FileLine_spec FileLine_proofs FileEdit_spec LineAccum LogicalFile LogicalFile_spec LogicalFile_proofs LogicalLine Token Stmts
  Peg Lexer LineEdit ReadFile Prgm_proofs Indent_spec.
Local Open Scope nat_scope.

Lemma blanks_amp b : exists n core, b ++ [c_amp] = spaces n ++ core /\ find_first_not_of [c_sp] core = Some 0.
Proof.
  induction b as [|c b (n & core & E & F)].
  - exists 0, [c_amp]. auto.
  - destruct (mem c [c_sp]) eqn:C.
    + apply mem_In in C as [<-|[]]. exists (S n), core. cbn [spaces repeat app]. split; auto. rewrite E. reflexivity.
    + exists 0, ((c :: b) ++ [c_amp]). split; auto. cbn [app]. unfold find_first_not_of. cbn [find_from]. rewrite C. reflexivity.
Qed.
Definition textless (f : File_Line) : Prop := left_space f = [] /\ main_txt f = [] /\ right_space f = [].
Definition read_ok (f : File_Line) : Prop := free_line f /\ (is_fortran f = false -> textless f).
Lemma read_free_line ln raw pod plc lit f lit' : analyze_free ln raw pod plc lit = Ok (f, lit') -> read_ok f.
Proof.
  intros H. pose proof (analyze_free_spec ln raw pod plc lit) as SP. rewrite H in SP. cbv beta iota in SP.
  assert (PL : plain_left f ln raw -> textless f) by (intros (_ & _ & A & B & C & _); split; auto).
  assert (OTH : forall b, bits f = b -> (b_comment b = false /\ b_fixed b = false /\
     (b_blank b || b_preprocessor b || b_flpr_pp b || b_flpr_lit b || b_include b) = true) -> free_line f).
  { intros b E (B1 & B2 & B3). right. left. unfold is_comment, is_fortran, is_trivial, is_comment, is_blank, is_preprocessor, is_flpr_pp, is_flpr_lit, is_include.
    rewrite E, B1. split; auto. destruct (b_blank b), (b_preprocessor b), (b_flpr_pp b), (b_flpr_lit b), (b_include b); auto. }
  destruct lit.
  - destruct SP as (P & B & _). split; auto. eapply OTH; eauto.
  - destruct SP as [(P & SP)|(C & _ & _ & _ & body & b1 & LP & _ & LB & RP & B)].
    + split; auto. destruct SP as [(_ & B & _)|[(_ & B & _)|[(_ & B & _)|[(_ & B & _)|[(_ & _ & B & _)|(BL & _ & B & _)]]]]];
        try (eapply OTH; [exact B|]; repeat split; reflexivity).
      left. split; [unfold is_comment; rewrite B; reflexivity|].
      destruct BL as (b & r & AB & ->). destruct P as (_ & P1 & P2 & P3 & P4 & P5 & _). exists b, r. unfold comment_at. conjs; auto.
    + pose proof (free_shape _ _ _ _ _ _ H C) as (F & _ & _ & _ & _ & _ & _ & HL & HC). split; [|congruence].
      right. right. split; auto. split.
      * unfold is_fixed_format. rewrite B. unfold left_bits in LB.
        assert (b_fixed b1 = false) as E by (clear - LB; intuition; subst; reflexivity). destruct (starts_amp _); auto.
      * inversion LP as [b body' A1 A2 A3 A4 A5 Q1 Q2|b body' A1 Q1 Q2|b d w body' A0 A1 A2 A3 A4 A5 A6 Q1 Q2].
        -- now left.
        -- right. right. split; [apply HC; eauto|apply blanks_amp].
        -- right. left. apply HL. exists b, d. conjs; auto. intros ->. cbn in A3. lia.
Qed.
Lemma read_all i raws : forall pod plc lit fls, analyze_all_free i raws pod plc lit = Ok fls -> Forall read_ok fls.
Proof.
  revert i. induction raws as [|r rs IH]; intros i pod plc lit fls H; cbn [analyze_all_free] in H; [injection H as <-; constructor|].
  apply bind_Ok in H as ([f lit'] & H1 & H). apply bind_Ok in H as (fs & H2 & H). injection H as <-.
  constructor; [eapply read_free_line; eauto|eapply IH; eauto].
Qed.
Definition made_ok (ll : LLine) : Prop :=
  ll_layout ll <> [] /\ Forall read_ok (ll_layout ll) /\ (ll_cat ll = CAT_MACRO -> Forall textless (ll_layout ll)).
Lemma span_split p fls : forall a b, span p fls = (a, b) -> fls = a ++ b.
Proof.
  induction fls as [|f r IH]; intros a b H; cbn [span] in H; [now injection H as <- <-|].
  destruct (p f); [|now injection H as <- <-]. destruct (span p r) as [a' b'] eqn:E. injection H as <- <-. cbn [app]. f_equal. now apply IH.
Qed.
Lemma absorb_ok fls : forall prev a b, absorb prev fls = (a, b) -> Forall read_ok fls ->
  Forall (fun f => read_ok f /\ textless f) a /\ Forall read_ok b.
Proof.
  induction fls as [|f r IH]; intros prev a b H F; cbn [absorb] in H; [injection H as <- <-; auto|].
  destruct (ceq _ _); [|injection H as <- <-; auto]. destruct (absorb _ r) as [a' b'] eqn:E. injection H as <- <-.
  apply Forall_cons_iff in F as [F1 F2]. apply IH in E as [E1 E2]; auto. split; auto. constructor; auto.
  assert (T : textless (make_preprocessor f)) by (repeat split). split; auto. split; auto. right. left. split; reflexivity.
Qed.
Lemma step_ok fls ll rest : fls <> [] -> Forall read_ok fls -> step_free fls = Ok (ll, rest) -> made_ok ll /\ Forall read_ok rest.
Proof.
  intros NE F H. unfold step_free in H.
  assert (MK : forall lay cat b l, make_ll lay cat b = Ok l -> ll_layout l = lay /\ ll_cat l = cat).
  { intros lay cat b l E. unfold make_ll in E. apply bind_Ok in E as (lab & _ & E). now injection E as <-. }
  destruct (span is_trivial fls) as [tr r1] eqn:S1. destruct (is_empty tr) eqn:E1; cbn [negb] in H.
  2:{ apply bind_Ok in H as (l & H1 & H). injection H as <- <-. apply MK in H1 as [L C]. apply span_split in S1. subst fls.
      apply Forall_app in F as [F1 F2]. split; auto. unfold made_ok. rewrite L, C. conjs; auto; [intros ->; discriminate|discriminate]. }
  destruct (span is_flpr_lit fls) as [lt r2] eqn:S2. destruct (is_empty lt) eqn:E2; cbn [negb] in H.
  2:{ apply bind_Ok in H as (l & H1 & H). injection H as <- <-. apply MK in H1 as [L C]. apply span_split in S2. subst fls.
      apply Forall_app in F as [F1 F2]. split; auto. unfold made_ok. rewrite L, C. conjs; auto; [intros ->; discriminate|discriminate]. }
  destruct fls as [|f r]; [discriminate|]. destruct (is_fortran f) eqn:FT; cbn [negb] in H.
  - set (n := match free_end (f :: r) 0 with Some k => S k | None => 1 end) in *.
    assert (N : exists n', n = S n') by (unfold n; destruct (free_end _ _); eauto). clearbody n. destruct N as [n' ->].
    apply bind_Ok in H as (l & H1 & H). injection H as <- <-. apply MK in H1 as [L C].
    rewrite <- (firstn_skipn (S n') (f :: r)) in F. apply Forall_app in F as [F1 F2]. split; auto.
    unfold made_ok. rewrite L, C. conjs; auto; discriminate.
  - apply bind_Ok in H as ([] & _ & H). destruct (absorb (left_txt f) r) as [a b] eqn:AB.
    apply bind_Ok in H as (l & H1 & H). injection H as <- <-. apply MK in H1 as [L C].
    apply Forall_cons_iff in F as [F1 F2]. apply absorb_ok in AB as [A1 A2]; auto. split; auto. unfold made_ok. rewrite L, C. conjs.
    + discriminate.
    + constructor; auto. eapply Forall_impl; [|exact A1]. intros ? [X _]. exact X.
    + intros _. constructor; [now apply F1|]. eapply Forall_impl; [|exact A1]. intros ? [_ X]. exact X.
Qed.
Lemma group_ok n : forall fls lls, group step_free n fls = Some (Ok lls) -> Forall read_ok fls -> Forall made_ok lls.
Proof.
  induction n as [|n IH]; intros fls lls H F; destruct fls as [|f r]; cbn [group] in H; try discriminate; try (injection H as <-; constructor).
  destruct (step_free (f :: r)) as [[ll rest]| |] eqn:E; try discriminate. destruct (group step_free n rest) as [[l| |]|] eqn:G; try discriminate.
  injection H as <-. apply step_ok in E as [E1 E2]; auto; [|discriminate]. constructor; auto. eapply IH; eauto.
Qed.
Lemma scan_ok n raws lls : scan_free n raws = Some (Ok lls) -> Forall made_ok lls.
Proof.
  unfold scan_free. destruct (analyze_all_free 1 raws c_nul false false) as [fls| |] eqn:E; try discriminate.
  intros H. eapply group_ok; eauto. eapply read_all; eauto.
Qed.

(** no text, no tokens *)
Lemma textless_accum lay : Forall textless lay -> forall la, la_accum la = [] ->
  la_accum (fold_left (fun la fl => if is_trivial fl then la
    else add_line la (linenum fl) (zlen (left_space fl)) (main_first_col fl) (main_txt fl) (zlen (right_space fl))) lay la) = [].
Proof.
  induction 1 as [|f lay (T1 & T2 & T3) _ IH]; intros la E; cbn [fold_left]; auto. apply IH. destruct (is_trivial f); auto.
  unfold add_line. rewrite T1, T2, T3. cbn. rewrite E, app_nil_r, andb_false_r. reflexivity.
Qed.
Lemma textless_tokens st lay fr st' : Forall textless lay -> tokenize_layout st lay = Done (fr, st') -> fr = [].
Proof.
  intros T H. unfold tokenize_layout, tokenize, scan_string, accum_layout in H. rewrite (textless_accum lay T la_empty eq_refl) in H.
  destruct st; vm_compute in H; congruence.
Qed.
Lemma no_stmts : init_stmts [] = ([], 0).
Proof. reflexivity. Qed.
Lemma read_lines_ok lls : forall st lns, read_lines st lls = Done lns -> Forall made_ok lls ->
  file_ok lns /\ lines_sane lns /\ Forall2 (fun ll ln => l_layout ln = ll_layout ll /\ l_cat ln = ll_cat ll) lls lns.
Proof.
  induction lls as [|x r IH]; intros st lns H F; cbn [read_lines] in H.
  - injection H as <-. split; [constructor|split; [intros l []|constructor]].
  - ob H. destruct a as [ll st']. ob H. injection H as <-. apply Forall_cons_iff in F as [(F1 & F2 & F3) F].
    destruct (IH _ _ E0 F) as (A & B & C). unfold init_from_layout in E. ob E. ob E. destruct a1 as [fr st2]. injection E as <- <-.
    unfold redo_stmts. cbn [l_frags l_label l_cat l_suppress l_reformat l_layout].
    destruct (init_stmts fr) as [sts k] eqn:IS. conjs.
    + constructor; auto. split; cbn [l_layout]; auto. eapply Forall_impl; [|exact F2]. intros f [X _]. exact X.
    + intros l [<-|I]; [|now apply B]. cbn [l_stmts l_suppress l_cat]. intros NE. split; auto. intros M. apply NE.
      apply (textless_tokens _ _ _ _ (F3 M)) in E2 as ->. rewrite no_stmts in IS. now injection IS as <- <-.
    + constructor; auto.
Qed.
Theorem read_free_ok raws lns : read_free raws = Done lns -> file_ok lns /\ lines_sane lns.
Proof.
  unfold read_free. destruct (scan_free (length raws) raws) as [r|] eqn:E; [|discriminate]. intros H. ob H. 
  destruct r as [lls| |]; cbn [lift] in E0; try discriminate. injection E0 as ->.
  apply scan_ok in E. destruct (read_lines_ok _ _ _ H E) as (A & B & _). auto.
Qed.
