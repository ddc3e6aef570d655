(** C81: flpr-format on all the files of its command line. *)
From Verif Require Import Base Base_lemmas Tags SyntaxTags FileLine Token LogicalFile LogicalLine StmtRules Peg StmtGrammar LabelStack Prgm PrgmSource Prgm_proofs Utils Lexer LineEdit StmtSrc
  Lexer_spec ReadFile ReadFixed Convert Convert_spec Indent FormatMain FormatMain_spec ParseSame_spec ParseSame_proofs ParseSameFile_proofs Props_Stmt Props_Convert Props_ParseSame ConvertSame_spec ConvertSame_proofs
  Props_ConvertSame FormatFiles FormatFiles_spec EndFile_proofs FormatFiles_proofs.
Local Open Scope nat_scope.

(** C81.  What is written for several files is what separate runs of the program write, one after the other, up to the first
    run that does not come to its end: neither the table of indents nor the scanner carries anything over. *)
Theorem C81_files : forall exts m n o fs, files_run exts m n o fs = in_turn (map (fun f => files_run exts m n o [f]) fs).
Proof. intros exts m n o fs. apply each_alone. intros g _. reflexivity. Qed.
(** C81.  Why: a file that ends in the middle of a real literal, which would leave the scanner in another state, is not
    parsed. *)
Theorem C81_ends : forall exts m n o it f ls ft st t,
  read_and_scan ls_init (if o_col72 o then 72%Z else 0%Z) f = Done (Some ls, ft, st) -> one_file exts m n o it ls_init f = Done t -> ~ ends_in_real ls.
Proof.
  intros exts m n o it f ls ft st [[t it'] st'] R H. unfold one_file in H. rewrite R in H. cbn [obind] in H. ob H. destruct (read_and_scan_good _ _ _ _ _ _ (or_introl eq_refl) R) as (G & B). eapply format_last; eauto.
Qed.
(** C81.  A file that cannot be opened, or whose name does not tell what it is, makes no difference, wherever it stands. *)
Theorem C81_passed_over : forall exts m n o a f b, no_use f -> files_run exts m n o (a ++ f :: b) = files_run exts m n o (a ++ b).
Proof. intros exts m n o a f b H. unfold files_run. now apply skip_file. Qed.
(** C81.  On a free-format file alone the program does what C74 is about. *)
Theorem C81_free : forall exts m n o name s ls, file_type_from_extension name = Ok FT_FREE -> read_free (getlines [] s) = Done ls ->
  files_run exts m n o [mkNamed name (Some s)] = obind (format_main_free exts m n o s) (fun w => Done (match w with Some t => t | None => [] end)).
Proof.
  intros exts m n o name s ls T R. unfold files_run. cbn [each_file]. unfold one_file.
  destruct (read_free_file (if o_col72 o then 72 else 0)%Z name s ls T R) as (st' & E). rewrite E. cbn [obind fixed_kept].
  unfold format_main_free. rewrite R. destruct (format_file _ _ _ _ _ ls) as [w| |]; cbn [obind]; auto. now rewrite app_nil_r.
Qed.
(** C80 (partial).  With -f and -o, without -i, a standard fixed-format file (C80) that the parsers accept is written as a
    free-format file with the same labels, statements and tokens.  Missing: lines with several statements or with empty ones, -i. *)
Theorem C80_flpr_format_partial : forall exts m n o name s lns p, (forall a, Forall fair_ext (exts a)) ->
  o_fixed_to_free o = true -> o_reindent o = false -> o_output o = Some true ->
  file_type_from_extension name = Ok FT_FIXED -> read_fixed (if o_col72 o then 72 else 0)%Z (getlines [] s) = Done lns ->
  Forall (Forall source_char) (getlines [] s) ->
  Forall (standard (if o_col72 o then 72 else 0)%Z) lns -> Forall tokens_fit lns -> Forall reals_whole lns -> Forall single lns ->
  prefetch exts m n lns = Done p ->
  exists t ls2, files_run exts m n o [mkNamed name (Some s)] = Done t /\ read_free (getlines [] t) = Done ls2 /\ Forall2 same_code lns ls2.
Proof.
  intros exts m n o name s lns p FE OF OR OO T R SRC ST TF RW SI PF. set (lc := if o_col72 o then 72%Z else 0%Z) in *.
  destruct (convert_same lc _ lns R SRC) as (lns' & CV & LC & ls2 & RF & SC & _ & GL); auto. { unfold lc. destruct (o_col72 o); intros; [discriminate|]. exfalso. now apply (Z.lt_irrefl 0). }
  exists (write_file lns'), ls2. split; [|rewrite GL; auto].
  assert (SI' : Forall single lns').
  { clear - LC SI. induction LC as [|l l' r r' (_ & _ & _ & _ & A & B & _) _ IH]; [constructor|]. inversion SI as [|? ? (C & D) F]; subst. constructor; [split; congruence|auto]. }
  assert (PF' : prefetch exts m n lns' = Done p).
  { rewrite <- PF. apply C76_file; auto. clear - LC. induction LC as [|l l' r r' (_ & A & B & C & D & _ & E & _) _ IH]; constructor; auto.
    unfold alike_line. repeat (split; [assumption|]). rewrite C. clear. induction (l_frags l); constructor; auto. split; auto. }
  unfold files_run. cbn [each_file]. unfold one_file. fold lc. destruct (read_fixed_file lc name s lns T R) as (st' & E). rewrite E. cbn [obind].
  unfold format_file, format_lines. rewrite OF, OR, OO. cbn [optionally]. rewrite CV. cbn [lift obind].
  unfold optionally. rewrite (remove_single lns' SI'). cbn [lift].
  destruct (o_remove_empty o && negb (o_split o)); cbn [obind]; rewrite (split_single lns' SI'); destruct (o_split o); cbn [obind lift]; rewrite PF'; cbn [obind orb]; now rewrite app_nil_r.
Qed.
(** C81.  The exit status is 1 for an unknown option and for a command line without files, and 0 for everything else. *)
Theorem C81_status : forall exts m n letters fs code t, flpr_main exts m n letters fs = Done (code, t) ->
  (code = 1%Z /\ t = [] /\ (fs = [] \/ exists c, In c letters /\ ~ In c (L "cefioqtv"))) \/
  (code = 0%Z /\ fs <> [] /\ Forall (fun c => In c (L "cefioqtv")) letters).
Proof.
  intros exts m n letters fs code t H. unfold flpr_main in H.
  assert (K : forall l o, match cmd_options o l with None => exists c, In c l /\ ~ In c (L "cefioqtv") | Some _ => Forall (fun c => In c (L "cefioqtv")) l end).
  { induction l as [|c l IH]; intros o; cbn [cmd_options]; [constructor|]. unfold cmd_option. destruct o as [f k i r s q w].
    assert (J : forall o', In c (L "cefioqtv") -> match cmd_options o' l with None => exists c', In c' (c :: l) /\ ~ In c' (L "cefioqtv") | Some _ => Forall (fun c => In c (L "cefioqtv")) (c :: l) end).
    { intros o' I. specialize (IH o'). destruct (cmd_options o' l); [now constructor|]. destruct IH as (c' & I1 & I2). exists c'. split; [now right|exact I2]. }
    do 8 match goal with |- context [ceq c ?x] => change (ceq c x) with (Ascii.eqb c x); destruct (Ascii.eqb_spec c x) as [->|]; [apply J; unfold L; cbn [String.list_ascii_of_string In]; tauto|] end.
    change (exists c', In c' (c :: l) /\ ~ In c' (L "cefioqtv")). exists c. split; [now left|]. unfold L. cbn [String.list_ascii_of_string In]. intuition congruence. }
  specialize (K letters main_options). destruct (cmd_options main_options letters) as [o|].
  - destruct fs as [|f fs]; cbn [is_empty] in H; [injection H as <- <-; auto|]. destruct (files_run exts m n o (f :: fs)); cbn [obind] in H; try discriminate.
    injection H as <- <-. right. split; [reflexivity|]. split; [discriminate|exact K].
  - injection H as <- <-. left. auto.
Qed.

(** ** A command line *)
Definition fmt_o : Options := match cmd_options main_options (L "fo") with Some o => o | None => main_options end.
Definition one : named := mkNamed (L "a.f90") (Some (text_of [L "program a"; L "x = 1; y = 2.5"; L "end program a"])).
Definition two : named := mkNamed (L "b.f") (Some (text_of [L "      program b"; L "      z = 1 +"; L "     & 2"; L "      end program b"])).
Definition gone : named := mkNamed (L "c.f90") None.
Definition odd : named := mkNamed (L "d.txt") (Some (text_of [L "d"])).
Example C81_case : files_run no_exts 60 60 fmt_o [one; gone; two; odd; one] =
    in_turn (map (fun f => files_run no_exts 60 60 fmt_o [f]) [one; gone; two; odd; one]) /\ no_use gone /\ no_use odd /\
  files_run no_exts 60 60 fmt_o [one; two] = Done (text_of [L "program a"; L "x = 1"; L "y = 2.5"; L "end program a"; L "      program b"; L "      z = 1 +&"; L "       2"; L "      end program b"]).
Proof.
  split; [apply C81_files|split; [left; reflexivity|split; [right; reflexivity|]]]. vm_compute. reflexivity.
Qed.
(** The scanner does carry something over from a file that ends in a real literal; such a file is where the run ends. *)
Definition three : named := mkNamed (L "a.f90") (Some (text_of [L "end"; L "x = 1."])).
Example C81_real_case : (exists ls st, read_and_scan ls_init 0 three = Done (Some ls, FT_FREE, st) /\ st <> ls_init) /\ files_run no_exts 60 60 fmt_o [three; one] = Bad.
Proof. split; [do 2 eexists; split; [vm_compute; reflexivity|discriminate]|vm_compute; reflexivity]. Qed.
(** The exit status does not tell that a file was not read. *)
Theorem C81_status_refuted : exists f, n_text f = None /\ flpr_main no_exts 60 60 (L "o") [f] = Done (0%Z, []).
Proof. exists gone. split; reflexivity. Qed.
Definition C81_all := (C81_files, C81_ends, C81_passed_over, C81_free, C80_flpr_format_partial, C81_status, C81_status_refuted).
Print Assumptions C81_all.
