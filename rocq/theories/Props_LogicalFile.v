(** C04-C06, C48: from physical lines to logical lines. *)
From Verif Require Import Base FileLine FileLine_spec FixedLine_spec FileEdit_spec LogicalFile LogicalFile_spec
  LogicalFile_proofs.

(** C04: a successful free-format scan prints back exactly the lines read. *)
Theorem C04_free_scan_print_identity : forall fuel raws lls,
  scan_free fuel raws = Some (Ok lls) -> concat (map print_ll lls) = raws.
Proof. exact scan_free_identity. Qed.
Print Assumptions C04_free_scan_print_identity.

Definition ex_free : list str :=
  [L "! head"; L ""; L "#define A \"; L "  b + c \"; L "  d"; L "100 x = 1 + & ! one";
   L "  ! note"; L "  & 2"; L "!#flpr>>> literal"; L " raw & text '"; L "!#flpr<<< literal";
   L "include 'f.h'"; L "s = 'abc&"; L "  &def'; t = 2"].

(* the scan succeeds on this file and gives six logical lines *)
Example C04_case : exists lls, scan_free 20 ex_free = Some (Ok lls) /\
  map (fun l => length (ll_layout l)) lls = [2; 3; 3; 3; 1; 2] /\
  map ll_cat lls = [CAT_UNKNOWN; CAT_MACRO; CAT_UNKNOWN; CAT_LITERAL; CAT_INCLUDE; CAT_UNKNOWN] /\
  concat (map print_ll lls) = ex_free.
Proof. eexists; split; [vm_compute; reflexivity|]. vm_compute. auto 10. Qed.

(** C05: logical lines are non-empty, hold the physical lines 1..N in order,
    and abut. *)
Theorem C05_partition_free : forall fuel raws lls,
  scan_free fuel raws = Some (Ok lls) ->
  map linenum (concat (map ll_layout lls)) = numbered 1 (length raws) /\
  Forall (fun ll => ll_layout ll <> []) lls.
Proof. exact scan_free_partition. Qed.
Print Assumptions C05_partition_free.
Theorem C05_partition_fixed : forall fuel raws last_col lls,
  scan_fixed fuel raws last_col = Some (Ok lls) ->
  map linenum (concat (map ll_layout lls)) = numbered 1 (length raws) /\
  Forall (fun ll => ll_layout ll <> []) lls.
Proof. exact scan_fixed_partition. Qed.
Print Assumptions C05_partition_fixed.
Theorem C05_abut_free : forall fuel raws lls a l1 l2 b,
  scan_free fuel raws = Some (Ok lls) -> lls = a ++ l1 :: l2 :: b -> end_line l1 = start_line l2.
Proof. intros fuel raws lls a l1 l2 b H E. apply scan_free_partition in H as [A B]. exact (consecutive _ _ _ _ _ _ _ A B E). Qed.
Print Assumptions C05_abut_free.
Theorem C05_abut_fixed : forall fuel raws last_col lls a l1 l2 b,
  scan_fixed fuel raws last_col = Some (Ok lls) -> lls = a ++ l1 :: l2 :: b -> end_line l1 = start_line l2.
Proof. intros fuel raws lc lls a l1 l2 b H E. apply scan_fixed_partition in H as [A B]. exact (consecutive _ _ _ _ _ _ _ A B E). Qed.
Print Assumptions C05_abut_fixed.

(** The scan terminates: as many rounds as there are lines suffice. *)
Theorem C05_terminates_free : forall raws fuel, length raws <= fuel -> scan_free fuel raws <> None.
Proof. exact scan_free_terminates. Qed.
Print Assumptions C05_terminates_free.
Theorem C05_terminates_fixed : forall raws fuel last_col,
  length raws <= fuel -> scan_fixed fuel raws last_col <> None.
Proof. exact scan_fixed_terminates. Qed.
Print Assumptions C05_terminates_fixed.

(** and on 7-bit text it is never undefined: it succeeds or reports an
    error. *)
Theorem C05_defined_free : forall raws fuel,
  Forall ascii7 raws -> length raws <= fuel ->
  (exists lls, scan_free fuel raws = Some (Ok lls)) \/ scan_free fuel raws = Some Throw.
Proof. exact scan_free_defined. Qed.
Print Assumptions C05_defined_free.
Theorem C05_defined_fixed : forall raws fuel last_col,
  Forall ascii7 raws -> length raws <= fuel ->
  (exists lls, scan_fixed fuel raws last_col = Some (Ok lls)) \/ scan_fixed fuel raws last_col = Some Throw.
Proof. exact scan_fixed_defined. Qed.
Print Assumptions C05_defined_fixed.

Definition ex_fixed : list str :=
  [L "C head"; L "  100 x = 1"; L "! note"; L "     & + 2"; L "* tail"; L "#if A \"; L "      b"; L "      end"].
Example C05_case_fixed : exists lls, scan_fixed 20 ex_fixed 72 = Some (Ok lls) /\
  map (fun l => (start_line l, end_line l, ll_label l)) lls =
    [(1,2,0); (2,5,100); (5,6,0); (6,8,0); (8,9,0)]%Z.
Proof. eexists; split; [vm_compute; reflexivity|]. vm_compute. auto 10. Qed.
Example C05_case_free : exists lls, scan_free 20 ex_free = Some (Ok lls) /\
  map (fun l => (start_line l, end_line l, ll_label l)) lls =
    [(1,3,0); (3,6,0); (6,9,100); (9,12,0); (12,13,0); (13,15,0)]%Z.
Proof. eexists; split; [vm_compute; reflexivity|]. vm_compute. auto 10. Qed.
(* an error is reported, not undefined behaviour *)
Example C05_case_error : scan_free 20 [L "x = 'abc"] = Some Throw.
Proof. reflexivity. Qed.

(** C06: each logical line is one block of the analysed lines (free_block,
    fixed_block of LogicalFile_spec). *)
Theorem C06_free_blocks_partial : forall fuel raws lls,
  scan_free fuel raws = Some (Ok lls) ->
  exists fls, analyze_all_free 1 raws c_nul false false = Ok fls /\ blocks free_block fls lls.
Proof. intros fuel raws lls H. apply scan_free_Ok in H as (fls & A & B & _). exact (ex_intro _ fls (conj A B)). Qed.
Print Assumptions C06_free_blocks_partial.
Theorem C06_fixed_blocks_partial : forall fuel raws last_col lls,
  scan_fixed fuel raws last_col = Some (Ok lls) ->
  exists fls, analyze_all_fixed 1 raws c_nul last_col = Ok fls /\ blocks fixed_block fls lls.
Proof. intros fuel raws lc lls H. apply scan_fixed_Ok in H as (fls & A & B & _). exact (ex_intro _ fls (conj A B)). Qed.
Print Assumptions C06_fixed_blocks_partial.

(** Exactly the statements of a fixed-format file are marked for
    reformatting. *)
Theorem C06_reformat_free : forall fuel raws lls,
  scan_free fuel raws = Some (Ok lls) -> Forall (fun ll => ll_needs_reformat ll = false) lls.
Proof. exact scan_reformat_free. Qed.
Print Assumptions C06_reformat_free.
Theorem C06_reformat_fixed : forall fuel raws last_col lls,
  scan_fixed fuel raws last_col = Some (Ok lls) ->
  Forall (fun ll => ll_needs_reformat ll = true <->
                    starts_line (fun f => is_fortran f = true) (ll_layout ll)) lls.
Proof. exact scan_reformat_fixed. Qed.
Print Assumptions C06_reformat_fixed.

(** The missing parts of C06 are false.  (1) A preprocessor line between the
    lines of a continued statement ends its logical line: the rest of the
    statement lands in another one. *)
Theorem C06_never_split_refuted : exists lls,
  scan_free 9 [L "x = 1 + &"; L "#endif"; L "  2"] = Some (Ok lls) /\
  map (fun l => length (ll_layout l)) lls = [2; 1].
Proof. eexists; split; [vm_compute; reflexivity|]. reflexivity. Qed.
Print Assumptions C06_never_split_refuted.
(** (2) When the file ends in the middle of a continued statement every line
    becomes a logical line of its own. *)
Theorem C06_open_end_refuted : exists lls,
  scan_free 9 [L "x = 1 + &"; L "  2 + &"; L "! 3"] = Some (Ok lls) /\
  map (fun l => length (ll_layout l)) lls = [1; 1; 1].
Proof. eexists; split; [vm_compute; reflexivity|]. reflexivity. Qed.
Print Assumptions C06_open_end_refuted.
(** (3) A fixed-format statement may end in a trivial line: a line with only a
    continuation character is both blank and a continuation. *)
Theorem C06_fixed_trivial_end_refuted : exists ll f g,
  scan_fixed 9 [L "      x = 1"; L "     &"] 72 = Some (Ok [ll]) /\
  ll_layout ll = [f; g] /\ is_trivial g = true /\ is_continuation g = true.
Proof. do 3 eexists; split; [vm_compute; reflexivity|]. vm_compute. auto 10. Qed.
Print Assumptions C06_fixed_trivial_end_refuted.

(** C48: the label of every logical line is the number written in the control
    text of its first physical line, 0 when there is none. *)
Theorem C48_label_free : forall fuel raws lls,
  scan_free fuel raws = Some (Ok lls) -> Forall label_of lls.
Proof. intros fuel raws lls H. apply scan_free_Ok in H as (fls & _ & _ & F). exact F. Qed.
Print Assumptions C48_label_free.
Theorem C48_label_fixed : forall fuel raws last_col lls,
  scan_fixed fuel raws last_col = Some (Ok lls) -> Forall label_of lls.
Proof. intros fuel raws lc lls H. apply scan_fixed_Ok in H as (fls & _ & _ & F). exact F. Qed.
Print Assumptions C48_label_fixed.
(* cases: C05_case_free and C05_case_fixed above contain label 100 *)

(** C49: reading and printing a fixed-format file.  False in general: a
    preprocessor line continued by a backslash loses the blank control columns
    of the continuing line. *)
Theorem C49_fixed_print_refuted : exists lls,
  scan_fixed 9 [L "#define A \"; L "      b"] 72 = Some (Ok lls) /\
  concat (map print_ll lls) = [L "#define A \"; L "b"].
Proof. eexists; split; [vm_compute; reflexivity|]. reflexivity. Qed.
Print Assumptions C49_fixed_print_refuted.

(** True for tidy files in which no labelled line follows a line with an open
    character literal. *)
Theorem C49_fixed_print_partial : forall fuel raws last_col lls,
  scan_fixed fuel raws last_col = Some (Ok lls) ->
  Forall (tidy_fixed last_col) raws ->
  (forall a f g b, concat (map ll_layout lls) = a ++ f :: g :: b ->
     has_label g = true -> open_delim f = c_nul) ->
  concat (map print_ll lls) = raws.
Proof. exact scan_fixed_identity. Qed.
Print Assumptions C49_fixed_print_partial.
Definition ex_tidy : list str :=
  [L "C head"; L "  100 x = 1"; L "! note"; L "     & + 2"; L "#endif"].
Example C49_case : exists lls, scan_fixed 9 ex_tidy 72 = Some (Ok lls) /\
  Forall (tidy_fixed 72) ex_tidy /\ concat (map print_ll lls) = ex_tidy /\
  Forall (fun f => open_delim f = c_nul) (concat (map ll_layout lls)).
Proof.
  eexists; split; [vm_compute; reflexivity|]. split; [|split].
  - assert (NT : forall s, forallb (fun c => negb (ceq c c_tab)) (firstn 6 s) = true -> ~ In c_tab (firstn 6 s)).
    { intros s H I. rewrite forallb_forall in H. apply H in I. discriminate. }
    assert (NB : forall s, forallb (fun c => negb (ceq c c_bslash)) s = true -> ~ ends_backslash s).
    { intros s H (a & b & -> & _). rewrite forallb_forall in H.
      assert (In c_bslash (a ++ c_bslash :: b)) as I by (apply in_or_app; right; left; auto). apply H in I. discriminate. }
    repeat apply Forall_cons; try apply Forall_nil;
      (split; [apply NT; reflexivity|split; [apply NB; reflexivity|split; [right; vm_compute; discriminate|]]]).
    + intros (_ & [(b & c & r & E & L5 & B & _)|(_ & S & _)]); exfalso.
      * destruct b as [|x b]; [discriminate|]. injection E as <- _. inversion B; subst. discriminate.
      * apply S. exists "C"%char, (L " head"). split; auto. simpl. auto.
    + intros _. exists (L "  100 "), (L "x = 1"). split; auto. right; right.
      exists (L "  "), (L "100"), 1. repeat split; try discriminate; repeat constructor.
    + intros (_ & [(b & c & r & E & L5 & B & _)|(S & _)]); exfalso.
      * destruct b as [|x b]; [discriminate|]. injection E as <- _. inversion B; subst. discriminate.
      * apply S. exists [], (L " note"). repeat split. constructor.
    + intros _. exists (L "     &"), (L " + 2"). split; auto. right; left.
      exists (L "     "), "&"%char. repeat split; repeat constructor.
    + intros (_ & [(b & c & r & E & L5 & B & _)|(_ & _ & S & _)]); exfalso.
      * destruct b as [|x b]; [discriminate|]. injection E as <- _. inversion B; subst. discriminate.
      * apply S. exists (L "endif"). reflexivity.
  - reflexivity.
  - repeat constructor.
Qed.
