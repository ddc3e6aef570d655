(** C74: the program flpr-format on a free-format file. *)
From Verif Require Import Base Base_lemmas FileLine Token LogicalFile LogicalLine Lexer LineEdit StmtSrc StmtSrc_spec Peg Peg_proofs Prgm Prgm_proofs PrgmSource Convert ReadFile ReadFile_proofs
  LineFlow_spec FormatApp FormatApp_spec FormatApp_proofs Indent Indent_spec Indent_proofs IndentFile_proofs FormatMain FormatMain_spec FormatMain_proofs Props_Stmt Props_FormatApp.
From Coq Require Import Lia.
Local Open Scope nat_scope.

(** C74.  The lines of a stream are what stands between its newlines. *)
Theorem C74_lines : forall s, Forall (fun l => ~ In c_nl l) (getlines [] s) /\ with_newline s (text_of (getlines [] s)).
Proof. intros s. exact (getlines_spec s [] (fun x => x)). Qed.
Theorem C74_lines_unique : forall ls, Forall (fun l => ~ In c_nl l) ls -> getlines [] (text_of ls) = ls.
Proof. exact getlines_text. Qed.

(** C74.  If no change is reported the lines are as they were. *)
Theorem C74_unchanged : forall exts m n it o ls ls', (0 <= it_cont it)%Z -> lines_sane ls -> file_ok ls ->
  format_lines exts m n it o ls = Done (ls', false) -> ls' = ls.
Proof.
  intros exts m n it o ls ls' IC LS FO H. unfold format_lines in H. ob H. destruct a as [ls1 c1]. ob H. destruct a as [ls2 c2]. ob H. destruct a as [ls3 c3]. ob H. rename a into p. ob H. destruct a as [ls4 c4].
  injection H as <- K. apply orb_false_iff in K. destruct K as [K ->]. apply orb_false_iff in K. destruct K as [K ->]. apply orb_false_iff in K. destruct K as [-> ->].
  assert (X1 : ls1 = ls). { unfold optionally in E. destruct (o_fixed_to_free o); [|congruence]. destruct (convert_file ls) as [x| |] eqn:Q; cbn [lift] in E; try discriminate. injection E as ->. exact (convert_none _ _ Q). } subst ls1.
  assert (X2 : ls2 = ls). { unfold optionally in E0. destruct (o_remove_empty o && negb (o_split o)); [|congruence]. destruct (remove_empty_stmts ls) as [x| |] eqn:Q; cbn [lift] in E0; try discriminate. injection E0 as ->. exact (remove_none _ _ Q). } subst ls2.
  assert (X3 : ls3 = ls). { unfold optionally in E1. destruct (o_split o); [|congruence]. destruct (split_compound_stmts ls) as [x| |] eqn:Q; cbn [lift] in E1; try discriminate. injection E1 as ->. exact (split_none _ _ Q). } subst ls3.
  unfold optionally in E3. destruct (o_reindent o); [|congruence].
  assert (G : file_indent exts m n it ls = Done (ls4, false)) by (rewrite indent_file_eq, E2; exact E3).
  rewrite file_indent_eq in G by exact LS. destruct (is_empty (stmts_of_file ls)); [congruence|]. ob G. destruct a as [[b t] s']. destruct t as [t|]; [|discriminate].
  destruct (indent_recurse it (stmts_of_file ls) t 0 ls) as [x| |] eqn:Q; cbn [lift] in G; try discriminate. injection G as ->.
  destruct (indent_effect _ _ _ _ _ FO IC Q) as (_ & _ & _ & U). apply U. reflexivity.
Qed.
(** C74.  If there is nothing to change the output, if one is asked for, is the input; a newline missing at the end is added.
    If none is asked for there is none. *)
Theorem C74_identity : forall exts m n o s ls ls', read_free (getlines [] s) = Done ls ->
  format_lines exts m n (apply_emacs_indent it_init) o ls = Done (ls', false) ->
  (o_output o = Some false -> format_main_free exts m n o s = Done None) /\
  (o_output o = Some true -> exists out, format_main_free exts m n o s = Done (Some out) /\ with_newline s out).
Proof.
  intros exts m n o s ls ls' R F. destruct (read_free_ok _ _ R) as [FO LS]. assert (EL : ls' = ls) by (eapply C74_unchanged; eauto; vm_compute; discriminate). subst ls'.
  unfold format_main_free. rewrite R. unfold format_file. rewrite F. cbn [obind]. split; intros ->.
  - reflexivity.
  - cbn [orb]. exists (write_file ls). split; [reflexivity|]. rewrite (read_free_print _ _ R). apply C74_lines.
Qed.
(** C74.  If a file was read and nothing is written, though it is not said to be quiet, there was nothing to change. *)
Theorem C74_silent : forall exts m n o s ls, read_free (getlines [] s) = Done ls -> o_quiet o = false ->
  format_main_free exts m n o s = Done None -> format_lines exts m n (apply_emacs_indent it_init) o ls = Done (ls, false).
Proof.
  intros exts m n o s ls R Q H. unfold format_main_free in H. rewrite R in H. unfold format_file in H. ob H. destruct a as [ls' c]. rewrite Q in H. cbn [negb] in H. rewrite andb_true_r in H.
  destruct (o_output o) as [[]|]; try discriminate. destruct c; [discriminate|]. destruct (read_free_ok _ _ R) as [FO LS].
  assert (EL : ls' = ls) by (eapply C74_unchanged; eauto; vm_compute; discriminate). rewrite EL in *. exact E || reflexivity.
Qed.
(** C74.  Without conversion from fixed format the statements of the program stay the same, in the same order, whatever else
    is done; each line of the output has the code of a line that splitting makes (C71), with blanks in front.  (As in C71 this
    is for lines whose text can be made again.) *)
Theorem C74_statements_partial : forall exts m n it o ls ls' c, o_fixed_to_free o = false -> (o_split o = true -> Forall line_ready ls) ->
  format_lines exts m n it o ls = Done (ls', c) ->
  program_of ls' = program_of ls /\
  (o_split o = true -> exists groups, Forall2 split_into ls groups /\ Forall2 same_line (concat groups) ls' /\
     Forall (fun l => has_fortran l = true -> has_semi l = false) ls').
Proof.
  intros exts m n it o ls ls' c NF RD H. unfold format_lines in H. rewrite NF in H. cbn [optionally obind] in H. ob H. destruct a as [ls2 c2]. ob H. destruct a as [ls3 c3]. ob H. rename a into p. ob H. destruct a as [ls4 c4]. injection H as <- _.
  assert (SL : Forall2 same_line ls3 ls4). { unfold optionally in E2. destruct (o_reindent o); [eapply indent_same; eauto|injection E2 as <- <-; apply F2l_refl]. }
  rewrite (same_program _ _ SL). destruct (o_split o) eqn:OS.
  - rewrite andb_false_r in E. cbn [optionally] in E. injection E as <- <-. cbn [optionally] in E0.
    destruct (C71_split_partial ls (RD eq_refl)) as (groups & ch & Q & F & P & NS & _). rewrite Q in E0. cbn [lift] in E0. injection E0 as <- <-.
    split; [exact P|]. intros _. exists groups. split; [exact F|]. split; [exact SL|].
    clear - NS SL. induction SL as [|x y a b (S1 & S2 & S3 & S4 & S5 & S6) SL IH]; [constructor|]. inversion NS as [|? ? N1 N2]; subst. constructor; [|apply IH; exact N2].
    unfold has_fortran, has_semi in *. rewrite S3, S4. destruct (same_layout_fortran _ _ S6) as [-> _]. intros K. apply (N1 K).
  - cbn [optionally] in E0. injection E0 as <- <-. split; [|discriminate]. unfold optionally in E. destruct (o_remove_empty o && negb false); [|injection E as <- <-; reflexivity].
    destruct (remove_empty_stmts ls) as [x| |] eqn:Q; cbn [lift] in E; try discriminate. injection E as ->. exact (remove_program _ _ _ Q).
Qed.

(** C74.  The same for the text of a file: if every compound line of it is [writable], the program of the output has the
    statements of the input, none two on a line. *)
Theorem C74_program_partial : forall exts m n o s ls ls' c, read_free (getlines [] s) = Done ls -> o_fixed_to_free o = false -> (o_split o = true -> Forall writable ls) ->
  format_lines exts m n (apply_emacs_indent it_init) o ls = Done (ls', c) ->
  program_of ls' = program_of ls /\ (o_split o = true -> Forall (fun l => has_fortran l = true -> has_semi l = false) ls').
Proof.
  intros exts m n o s ls ls' c R NF W H. destruct (C74_statements_partial exts m n (apply_emacs_indent it_init) o ls ls' c NF) with (2 := H) as (P & Q).
  - intros S. specialize (W S). pose proof (read_free_ready _ _ R) as RD. rewrite Forall_forall in *. auto.
  - split; [exact P|]. intros S. destruct (Q S) as (_ & _ & _ & X). exact X.
Qed.
(** Not so where a keyword made of two is inside a statement: its blanks are not initialised. *)
Theorem C74_goto_refuted : exists o s ls, cmd_options main_options (L "o") = Some o /\ read_free (getlines [] s) = Done ls /\
  format_main_free no_exts 60 60 o s = Bad /\ format_main_free no_exts 60 60 (mkOpt false false false false false false (Some true)) s = Done (Some s).
Proof. eexists. exists (text_of [L "if (a) goto 10; b = 1"; L "10 end"]). eexists. split; [reflexivity|]. split; [vm_compute; reflexivity|]. split; vm_compute; reflexivity. Qed.

(** C74, what is not so.  Without -o and -q it is undefined whether there is output. *)
Theorem C74_output_refuted : forall letters o exts m n it ls x, cmd_options main_options letters = Some o -> ~ In "o"%char letters -> ~ In "q"%char letters ->
  format_file exts m n it o ls <> Done x.
Proof.
  assert (G : forall letters o0 o, cmd_options o0 letters = Some o -> ~ In "o"%char letters -> ~ In "q"%char letters -> o_output o0 = None -> o_output o = None).
  { induction letters as [|c r IH]; intros o0 o H NO NQ E; cbn [cmd_options] in H; [congruence|]. destruct (cmd_option o0 c) as [o1|] eqn:C; [|discriminate].
    apply (IH _ _ H); [intros K; apply NO; right; exact K|intros K; apply NQ; right; exact K|].
    unfold cmd_option in C. destruct o0 as [f k i rr s q w]. cbn [o_output] in E. subst w.
    repeat match type of C with (if ceq ?a ?b then _ else _) = _ => destruct (ceq a b) eqn:?; [try (injection C as <-; reflexivity)|] end.
    - apply ceq_true in Heqb3. subst c. exfalso. apply NO. left. reflexivity.
    - apply ceq_true in Heqb4. subst c. exfalso. apply NQ. left. reflexivity.
    - discriminate. }
  intros letters o exts m n it ls x H NO NQ K. unfold format_file in K. ob K. destruct a as [ls' c]. rewrite (G _ _ _ H NO NQ eq_refl) in K. discriminate.
Qed.
(** A file that is read but is not a program aborts, though only its lines are asked for. *)
Theorem C74_abort_refuted : exists o s ls, cmd_options main_options (L "o") = Some o /\ read_free (getlines [] s) = Done ls /\ format_main_free no_exts 60 60 o s = Bad.
Proof. eexists. exists (L "end if" ++ [c_nl]). eexists. split; [reflexivity|]. split; vm_compute; reflexivity. Qed.
(** read_file says true when the file was not read. *)
Theorem C74_read_refuted : forall ok, fst (read_file ok) = negb (snd (read_file ok)).
Proof. destruct ok; reflexivity. Qed.

Definition file1 : str := text_of [L "program p"; L "! add"; L "x = 1; y = 2"; L "if (x > y) then"; L "10 z = 3"; L "end if"] ++ L "end".
Example C74_case : exists ls o, read_free (getlines [] file1) = Done ls /\ cmd_options main_options (L "io") = Some o /\ Forall line_ready ls /\
  format_main_free no_exts 60 60 o file1 = Done (Some (text_of [L "program p"; L "  ! add"; L "  x = 1"; L "  y = 2"; L "  if (x > y) then"; L "10   z = 3"; L "  end if"; L "end"])).
Proof.
  do 2 eexists. split; [vm_compute; reflexivity|]. split; [reflexivity|]. split; [|vm_compute; reflexivity].
  repeat (apply Forall_cons; [split; [reflexivity|intros F S; vm_compute in F, S; first [discriminate|idtac]]|]); [|apply Forall_nil].
  do 2 eexists. split; [reflexivity|]. split; [reflexivity|]. split; [constructor|]. split; [vm_compute; lia|]. split; [apply spacedb_ok; vm_compute; reflexivity|]. repeat (apply Forall_cons; [vm_compute; try discriminate; congruence|]); apply Forall_nil.
Qed.
Definition file3 : str := text_of [L "do i = 1, n; x(i) = 0; enddo"; L "end"].
Example C74_case_program : exists ls o, read_free (getlines [] file3) = Done ls /\ cmd_options main_options (L "o") = Some o /\ Forall writable ls /\
  format_main_free no_exts 60 60 o file3 = Done (Some (text_of [L "do i = 1, n"; L "x(i) = 0"; L "end do"; L "end"])).
Proof.
  do 2 eexists. split; [vm_compute; reflexivity|]. split; [reflexivity|]. split; [|vm_compute; reflexivity].
  apply Forall_cons; [|apply Forall_cons; [|apply Forall_nil]]; intros F S; vm_compute in F, S; try discriminate. split; [vm_compute; lia|]. split; [constructor|]. apply spacedb_ok. vm_compute. reflexivity.
Qed.
Definition file2 : str := text_of [L "program p"; L "x = 1 ! one"; L ""; L "end"].
Example C74_case_identity : exists ls o, read_free (getlines [] file2) = Done ls /\ cmd_options main_options (L "o") = Some o /\
  format_lines no_exts 60 60 (apply_emacs_indent it_init) o ls = Done (ls, false).
Proof. do 2 eexists. split; [vm_compute; reflexivity|]. split; [reflexivity|]. vm_compute. reflexivity. Qed.
Definition C74_all := (C74_lines, C74_lines_unique, C74_unchanged, C74_identity, C74_silent, C74_statements_partial, C74_program_partial, C74_goto_refuted, C74_output_refuted, C74_abort_refuted, C74_read_refuted).
Print Assumptions C74_all.
