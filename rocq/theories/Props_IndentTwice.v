(** C77: indenting twice. *)
From Verif Require Import Base Tags FileLine FileLine_spec Token LogicalFile LogicalLine Lexer LineEdit StmtSrc StmtSrc_spec Peg Prgm Prgm_spec Prgm_proofs PrgmSource Convert_proofs ReadFile Indent Indent_spec Indent_proofs IndentFile_proofs
  FormatMain FormatMain_spec FormatMain_proofs IndentRead_spec IndentRead_proofs IndentReadFile_proofs ParseSame_spec ParseSame_proofs ParseSameFile_proofs IndentTwice_spec IndentTwice_proofs
  Props_Stmt Props_Indent Props_Prgm Props_IndentRead Props_ParseSame.
Local Open Scope nat_scope.

(** C77.  Where every statement hangs at one level of the tree, a second indentation of a file that was read leaves every line as it is. *)
Theorem C77_memory : forall exts m n it raws ls ls1 c, (forall a, Forall fair_ext (exts a)) -> read_free raws = Done ls -> (0 <= it_cont it)%Z ->
  (forall sts t, prefetch exts m n ls = Done (sts, Some t) -> one_level (it_off it) t) ->
  file_indent exts m n it ls = Done (ls1, c) -> exists c', file_indent exts m n it ls1 = Done (ls1, c').
Proof.
  intros exts m n it raws ls ls1 c FE R OF OL H. destruct (C31_read _ _ R) as (FO & LS).
  assert (AL : Forall2 alike_line ls ls1).
  { rewrite indent_file_eq in H. ob H. apply indent_same in H. clear - H. induction H as [|l l' r r' SL F IH]; constructor; auto. destruct SL as (S1 & S2 & S3 & S4 & S5 & _). unfold alike_line. rewrite S4. repeat (split; [congruence|]). apply F2_alike_refl. }
  apply (indent_again exts m n it ls ls1 c ls1); auto; [now apply prefetch_same|]. clear. induction ls1; constructor; auto.
Qed.
(** C77.  The same through the text: a tidy file is indented and written; what is written is read and indented again.  Nothing changes, and
    the same text is written. *)
Theorem C77_twice : forall exts m n it s ls ls1 c, (forall a, Forall fair_ext (exts a)) -> read_free (getlines [] s) = Done ls -> Forall ascii7 (getlines [] s) -> tidy ls -> (0 < it_cont it)%Z ->
  (forall sts t, prefetch exts m n ls = Done (sts, Some t) -> one_level (it_off it) t) ->
  file_indent exts m n it ls = Done (ls1, c) ->
  exists ls2 c', read_free (getlines [] (write_file ls1)) = Done ls2 /\ file_indent exts m n it ls2 = Done (ls2, c') /\ write_file ls2 = write_file ls1.
Proof.
  intros exts m n it s ls ls1 c FE R A T OF OL H. destruct (C75_reread _ _ _ _ _ _ _ _ R A T OF H) as (ls2 & R2 & SR & SC). destruct (C31_read _ _ R) as (FO & LS).
  assert (LY : Forall2 (fun l l' => l_layout l' = l_layout l /\ l_suppress l' = l_suppress l) ls1 ls2).
  { clear - SR. induction SR as [|l l' r r' SL F IH]; constructor; auto. destruct SL as (_ & _ & S3 & _ & _ & S6 & _). auto. }
  destruct (indent_again exts m n it ls ls1 c ls2) as (c' & I); auto; [lia|apply prefetch_same; auto; now apply content_alike|]. exists ls2, c'. split; auto. split; auto.
  clear - LY. induction LY as [|l l' r r' (S1 & S2) F IH]; auto. unfold write_file in *. cbn [flat_map]. rewrite IH. f_equal. unfold print_lln. now rewrite S1, S2.
Qed.
(** C77.  So for the program: flpr-format, asked to indent and for nothing else, run on what it has written writes the same text or nothing. *)
Theorem C77_format : forall exts m n q w s ls s1, (forall a, Forall fair_ext (exts a)) -> read_free (getlines [] s) = Done ls -> Forall ascii7 (getlines [] s) -> tidy ls ->
  (forall sts t, prefetch exts m n ls = Done (sts, Some t) -> one_level (it_off (apply_emacs_indent it_init)) t) ->
  let o := mkOpt false false true false false q (Some w) in
  format_main_free exts m n o s = Done (Some s1) ->
  exists r, format_main_free exts m n o s1 = Done r /\ (r = None \/ r = Some s1) /\ (w = true -> r = Some s1).
Proof.
  intros exts m n q w s ls s1 FE R A T OL o H. pose proof (fun lx dx => C77_twice exts m n (apply_emacs_indent it_init) s ls lx dx FE R A T eq_refl OL) as TW. clear OL. unfold format_main_free in *. rewrite R in H. unfold format_file, format_lines in H. cbn [o o_fixed_to_free o_remove_empty o_split o_reindent o_output o_quiet optionally andb negb obind] in H.
  ob H. destruct a as [lx dx]. assert (HI : file_indent exts m n (apply_emacs_indent it_init) ls = Done (lx, dx)).
  { rewrite indent_file_eq. ob E. cbn [obind]. ob E. destruct a0 as [l4 c4]. injection E as <- <-. reflexivity. }
  destruct (w || dx && negb q) eqn:W; [|discriminate]. injection H as <-.
  destruct (TW _ _ HI) as (ls2 & c' & R2 & I2 & W2). rewrite R2. unfold format_file, format_lines. cbn [o o_fixed_to_free o_remove_empty o_split o_reindent o_output o_quiet optionally andb negb obind].
  rewrite indent_file_eq in I2. ob I2. cbn [obind]. rewrite I2. cbn [obind orb]. rewrite W2. eexists. split; [reflexivity|]. split; [destruct (w || c' && negb q); auto|]. intros ->. reflexivity.
Qed.
(** C77.  A file where no statement hangs in the tree twice is at one level in every table. *)
Theorem C77_once : forall exts m n l t b s' it, parse_prgm (of_source exts m l) n g_program = Done (b, Some t, s') -> NoDup (map fst (leaves_of t)) -> one_level (it_off it) t.
Proof. intros exts m n l t b s' it H N. destruct (C28_tiled _ _ _ _ _ _ H) as (T & _). now apply once_level. Qed.

(** What is not so.  If the table indents the bodies of old DO loops, the statement that ends two of them is moved twice, and the blanks behind
    it are not the same the second time. *)
Definition tab : str := [ascii_of_nat 9].
Theorem C77_shared_refuted : exists it s ls ls1 c ls2 ls3 c', it = set_indent (apply_emacs_indent it_init) PG_DO_BODY 3 /\ read_free (getlines [] s) = Done ls /\ file_indent no_exts 100 100 it ls = Done (ls1, c) /\
  read_free (getlines [] (write_file ls1)) = Done ls2 /\ file_indent no_exts 100 100 it ls2 = Done (ls3, c') /\
  write_file ls1 = FormatMain_spec.text_of [L "program p"; L "  do 10 i = 1, 3"; L "     do 10 j = 1, 3"; L "        x = 1"; L "10 y = 2  " ++ tab ++ L "! c"; L "end"] /\
  write_file ls3 = FormatMain_spec.text_of [L "program p"; L "  do 10 i = 1, 3"; L "     do 10 j = 1, 3"; L "        x = 1"; L "10 y = 2   ! c"; L "end"].
Proof.
  eexists _, (FormatMain_spec.text_of [L "program p"; L "do 10 i = 1, 3"; L "do 10 j = 1, 3";  L "      x = 1"; L "10 y = 2" ++ tab ++ L "! c"; L "end"]). do 6 eexists. split; [reflexivity|]. split; [vm_compute; reflexivity|]. split; [vm_compute; reflexivity|].
  split; [vm_compute; reflexivity|]. split; [vm_compute; reflexivity|]. split; vm_compute; reflexivity.
Qed.
(** The flag is no sign of a change: it is set for a line with many tabs before its '&', which stays where it is. *)
Theorem C77_flag_refuted : exists s ls, read_free (getlines [] s) = Done ls /\ file_indent no_exts 100 100 (apply_emacs_indent it_init) ls = Done (ls, true).
Proof.
  exists (FormatMain_spec.text_of [L "program p"; L "  x = 1 + &"; repeat (ascii_of_nat 9) 9 ++ L "&2"; L "end"]). eexists. split; [vm_compute; reflexivity|]. vm_compute. reflexivity.
Qed.

(** a file with loops that share their last statement *)
Definition shared1 : str := FormatMain_spec.text_of [L "program p"; L "do 10 i = 1, 3 ! a"; L "do 10 j = 1, 3"; L "x = a + &"; L "      b   ! c"; L "! d"; L "10      y = 2   ! c"; L "end"].
Example C77_case : exists ls ls1, read_free (getlines [] shared1) = Done ls /\ Forall ascii7 (getlines [] shared1) /\ tidy ls /\
  (forall sts t, prefetch no_exts 100 100 ls = Done (sts, Some t) -> one_level (it_off (apply_emacs_indent it_init)) t /\ ~ NoDup (map fst (leaves_of t))) /\
  file_indent no_exts 100 100 (apply_emacs_indent it_init) ls = Done (ls1, true) /\
  write_file ls1 = FormatMain_spec.text_of [L "program p"; L "  do 10 i = 1, 3 ! a"; L "  do 10 j = 1, 3"; L "  x = a + &"; L "       b  ! c"; L "  ! d"; L "10 y = 2        ! c"; L "end"].
Proof.
  do 2 eexists. split; [vm_compute; reflexivity|]. split; [|split; [|split; [|split; [vm_compute; reflexivity|reflexivity]]]].
  - repeat (constructor; [unfold ascii7; repeat (constructor; [reflexivity|]); constructor|]); constructor.
  - unfold tidy. repeat (apply Forall_cons; [split|]); try (apply Forall_nil); cbn [tl l_layout]; repeat (apply Forall_cons || apply Forall_nil).
    all: try (intros F; vm_compute in F; first [discriminate|left; reflexivity|right; discriminate]).
    all: first [intros F; split; [intros r E; first [discriminate E|discriminate]|intros E r; first [discriminate E|discriminate]]|
                intros C b q r E _ _; revert E; apply not_dir; cbn; repeat (constructor; [discriminate|]); constructor].
  - intros sts t P. vm_compute in P. injection P as <- <-. split.
    + intros i a b HA HB. apply (hang_calls (apply_emacs_indent it_init)) with (sp := 0%Z) in HA, HB. rewrite Z.add_0_l in *. vm_compute in HA, HB.
      repeat match goal with X : _ \/ _ |- _ => destruct X as [X|X] end; congruence || contradiction.
    + vm_compute. intros N. repeat match goal with X : NoDup (_ :: _) |- _ => apply NoDup_cons_iff in X as [? ?] end. cbn in *. tauto.
Qed.
Definition C77_all := (C77_memory, C77_twice, C77_format, C77_once, C77_shared_refuted, C77_flag_refuted).
Print Assumptions C77_all.
