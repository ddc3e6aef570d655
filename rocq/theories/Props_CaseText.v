(** C78: upper and lower case. *)
From Verif Require Import Base FileLine FileLine_spec Token LogicalFile LogicalLine StmtRules Peg StmtGrammar LabelStack Prgm PrgmSource Lexer LineEdit StmtSrc Convert ReadFile ReadFixed FormatApp Indent FormatMain
  FormatMain_spec ParseSame_spec ParseSame_proofs ParseSameFile_proofs CaseText_spec CaseText_proofs CaseFormat_proofs Props_Stmt.
Local Open Scope nat_scope.

(** C78.  A line in other case is taken apart at the same columns, free and fixed format. *)
Theorem C78_line : forall ln a b pod plc lit, recased_line a b ->
  both_res (fun x y => recased_fl (fst x) (fst y) /\ snd y = snd x) (analyze_free ln a pod plc lit) (analyze_free ln b pod plc lit).
Proof.
  intros ln a b pod plc lit H. pose proof (line_same (fun s => analyze_free ln s pod plc lit) lo_fst a b (fun s N => analyze_free_lower ln s pod plc lit N) H) as E. apply rmap_same in E.
  destruct (analyze_free ln a pod plc lit) as [[f x]| |], (analyze_free ln b pod plc lit) as [[g y]| |]; cbn [both_res] in E |- *; auto. unfold lo_fst in E. cbn [fst snd] in *.
  assert (E1 : lo_fl g = lo_fl f) by congruence. split; [now apply fl_rel|congruence].
Qed.
Theorem C78_line_fixed : forall ln a b pod lc, recased_line a b -> both_res recased_fl (analyze_fixed ln a pod lc) (analyze_fixed ln b pod lc).
Proof.
  intros ln a b pod lc H. pose proof (line_same (fun s => analyze_fixed ln s pod lc) lo_fl a b (fun s N => analyze_fixed_lower ln s pod lc N) H) as E. apply rmap_same in E.
  destruct (analyze_fixed ln a pod lc) as [f| |], (analyze_fixed ln b pod lc) as [g| |]; cbn [both_res] in E |- *; auto. now apply fl_rel.
Qed.
(** C78.  A file in other case gives the same logical lines with the same statements and tokens, up to case. *)
Theorem C78_read : forall raws raws', Forall2 recased_line raws raws' -> both (Forall2 recased_ll) (read_free raws) (read_free raws').
Proof. intros raws raws' H. apply (both_map (map lo_ln)). { apply lns_rel. } now apply read_free_same. Qed.
Theorem C78_read_fixed : forall lc raws raws', Forall2 recased_line raws raws' -> both (Forall2 recased_ll) (read_fixed lc raws) (read_fixed lc raws').
Proof. intros lc raws raws' H. apply (both_map (map lo_ln)). { apply lns_rel. } now apply read_fixed_same. Qed.
(** C78.  The statements and the parse tree are the same. *)
Theorem C78_tree : forall exts m n ls ls', (forall a, Forall fair_ext (exts a)) -> Forall2 recased_ll ls ls' -> prefetch exts m n ls' = prefetch exts m n ls.
Proof. intros exts m n ls ls' FE H. apply lns_rel in H. now rewrite <- (prefetch_lower exts m n ls'), H, prefetch_lower. Qed.
(** C78.  Indenting, and everything else flpr-format does to the lines of a file, gives the same lines up to case. *)
Theorem C78_indent : forall exts m n it ls ls', (forall a, Forall fair_ext (exts a)) -> Forall2 recased_ll ls ls' ->
  both (fun x y => Forall2 recased_ll (fst x) (fst y) /\ snd y = snd x) (file_indent exts m n it ls) (file_indent exts m n it ls').
Proof.
  intros exts m n it ls ls' FE H. apply lns_rel in H. assert (E : omap lo_lsc (file_indent exts m n it ls') = omap lo_lsc (file_indent exts m n it ls)) by (now rewrite <- !file_indent_lower, H).
  revert E. apply both_map. intros [a c] [b d]. unfold lo_lsc. cbn [fst snd]. rewrite <- lns_rel. split; [intros X; injection X; auto|intros [-> ->]; auto].
Qed.
Theorem C78_format_lines : forall exts m n it o ls ls', (forall a, Forall fair_ext (exts a)) -> Forall2 recased_ll ls ls' ->
  both (fun x y => Forall2 recased_ll (fst x) (fst y) /\ snd y = snd x) (format_lines exts m n it o ls) (format_lines exts m n it o ls').
Proof.
  intros exts m n it o ls ls' FE H. apply lns_rel in H. assert (E : omap lo_lsc (format_lines exts m n it o ls') = omap lo_lsc (format_lines exts m n it o ls)) by (now rewrite <- !format_lines_lower, H).
  revert E. apply both_map. intros [a c] [b d]. unfold lo_lsc. cbn [fst snd]. rewrite <- lns_rel. split; [intros X; injection X; auto|intros [-> ->]; auto].
Qed.
(** C78.  What flpr-format writes: nothing in both cases, or the same text up to case. *)
Definition same_output (a b : option str) : Prop := match a, b with Some x, Some y => recased x y | None, None => True | _, _ => False end.
Lemma output_rel a b : option_map (map lower_b) b = option_map (map lower_b) a <-> same_output a b.
Proof. unfold same_output, recased. destruct a, b; cbn; split; intros H; try discriminate; try contradiction; auto; congruence. Qed.
Theorem C78_format_file : forall exts m n it o ls ls', (forall a, Forall fair_ext (exts a)) -> Forall2 recased_ll ls ls' ->
  both same_output (format_file exts m n it o ls) (format_file exts m n it o ls').
Proof.
  intros exts m n it o ls ls' FE H. apply lns_rel in H. apply (both_map (option_map (map lower_b))). { apply output_rel. } now rewrite <- !format_file_lower, H.
Qed.
Theorem C78_format : forall exts m n o s s', (forall a, Forall fair_ext (exts a)) -> Forall2 recased_line (getlines [] s) (getlines [] s') ->
  both same_output (format_main_free exts m n o s) (format_main_free exts m n o s').
Proof.
  intros exts m n o s s' FE H. apply C78_read in H. unfold format_main_free. destruct (read_free (getlines [] s)), (read_free (getlines [] s')); cbn [both] in H |- *; try contradiction; auto. now apply C78_format_file.
Qed.
(** C78.  The directives !#flpr are not found in other case. *)
Theorem C78_flpr_refuted : exists a b ls ls', recased a b /\ read_free [a; L "x = 1"] = Done ls /\ read_free [b; L "x = 1"] = Done ls' /\ map l_cat ls <> map l_cat ls'.
Proof.
  exists (L "!#flpr literal"), (L "!#FLPR LITERAL"). do 2 eexists. split; [vm_compute; reflexivity|]. split; [vm_compute; reflexivity|]. split; [vm_compute; reflexivity|]. discriminate.
Qed.

(** A case: keywords run together, an exponent, a character constant over two lines, a fixed-format comment and an include line. *)
Definition low_a : list str := [L "enddo = 1.0e3_rk ; if (x) print *, 'Ab&"; L "  &c' ! note"; L "include 'F.h'"].
Definition low_b : list str := [L "ENDDO = 1.0E3_RK ; IF (X) PRINT *, 'aB&"; L "  &C' ! NOTE"; L "InClude 'f.H'"].
Lemma holdsb w s : (if holds_dec w s then true else false) = false -> ~ holds w s. Proof. destruct (holds_dec w s); [discriminate|auto]. Qed.
Ltac lines_differ := repeat (apply Forall2_cons; [split; [vm_compute; reflexivity|intros H; exfalso; revert H; apply holdsb; vm_compute; reflexivity]|]); apply Forall2_nil.
Example C78_case : Forall2 recased_line low_a low_b /\ exists ls ls', read_free low_a = Done ls /\ read_free low_b = Done ls' /\ length ls = 2 /\ ls <> ls'.
Proof.
  split.
  - match goal with |- Forall2 _ ?a ?b => let x := eval vm_compute in a in let y := eval vm_compute in b in change (Forall2 recased_line x y) end. lines_differ.
  - do 2 eexists. split; [vm_compute; reflexivity|]. split; [vm_compute; reflexivity|]. split; [reflexivity|discriminate].
Qed.
Example C78_case_fixed : Forall2 recased_line [L "c note"; L "      x = y"] [L "C NOTE"; L "      X = Y"] /\
  exists ls ls', read_fixed 72 [L "c note"; L "      x = y"] = Done ls /\ read_fixed 72 [L "C NOTE"; L "      X = Y"] = Done ls' /\ length ls = 2.
Proof.
  split.
  - match goal with |- Forall2 _ ?a ?b => let x := eval vm_compute in a in let y := eval vm_compute in b in change (Forall2 recased_line x y) end. lines_differ.
  - do 2 eexists. split; [vm_compute; reflexivity|]. split; [vm_compute; reflexivity|]. reflexivity.
Qed.
Definition fmt_a : str := L "program p" ++ [c_nl] ++ L "if (a) then; x = 1" ++ [c_nl] ++ L "endif" ++ [c_nl] ++ L "end" ++ [c_nl].
Definition fmt_b : str := L "PROGRAM P" ++ [c_nl] ++ L "IF (A) THEN; X = 1" ++ [c_nl] ++ L "ENDIF" ++ [c_nl] ++ L "END" ++ [c_nl].
Example C78_case_format : Forall2 recased_line (getlines [] fmt_a) (getlines [] fmt_b) /\ exists x y o, cmd_options main_options (L "io") = Some o /\
  format_main_free no_exts 200 200 o fmt_a = Done (Some x) /\ format_main_free no_exts 200 200 o fmt_b = Done (Some y) /\ recased x y /\ x <> fmt_a.
Proof.
  split.
  - match goal with |- Forall2 _ ?a ?b => let x := eval vm_compute in a in let y := eval vm_compute in b in change (Forall2 recased_line x y) end. lines_differ.
  - do 3 eexists. split; [vm_compute; reflexivity|]. split; [vm_compute; reflexivity|]. split; [vm_compute; reflexivity|]. split; [vm_compute; reflexivity|]. discriminate.
Qed.
Definition C78_all := (C78_line, C78_line_fixed, C78_read, C78_read_fixed, C78_tree, C78_indent, C78_format_lines, C78_format_file, C78_format, C78_flpr_refuted).
Print Assumptions C78_all.
