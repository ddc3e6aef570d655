(** Final theorems about editing a File_Line (C30, C32, C33, C34, C47). *)
From Verif Require Import Base Base_lemmas FileLine FileLine_spec FileLine_proofs FileEdit_spec
  FileEdit_proofs FileEdit2_proofs.

(** Helper for the concrete cases: analyse a free-format line. *)
Definition fl (s : string) : File_Line :=
  match analyze_free 1 (L s) c_nul false false with
  | Ok (f, _) => f | _ => mkFL 0%Z [] [] [] [] [] c_nul bits0 end.
Definition fl_cont (s : string) : File_Line :=
  match analyze_free 1 (L s) c_nul true false with
  | Ok (f, _) => f | _ => mkFL 0%Z [] [] [] [] [] c_nul bits0 end.
Definition fl_fixed (s : string) : File_Line :=
  match analyze_fixed 1 (L s) c_nul 72 with
  | Ok f => f | _ => mkFL 0%Z [] [] [] [] [] c_nul bits0 end.

(** C30, Fortran lines: a set_leading_spaces that returns leaves main_txt, the
    right text (comment and continuation mark), the classification and the
    open delimiter alone; the left text (label or '&') changes at most in its
    leading blanks, and not at all unless it is a free-format continuation
    mark; the space fields stay white; the flag is true if anything changed. *)
Theorem C30_fortran_only_blanks : forall f sp f' ch,
  is_fortran f = true -> set_leading_spaces f sp = Ok (f', ch) ->
  main_txt f' = main_txt f /\ right_txt f' = right_txt f /\ bits f' = bits f /\
  open_delim f' = open_delim f /\ linenum f' = linenum f /\
  same_upto_leading_blanks (left_txt f) (left_txt f') /\
  (has_label f = true \/ is_continuation f = false \/ is_fixed_format f = true ->
     left_txt f' = left_txt f) /\
  (all_white (left_space f) -> all_white (left_space f')) /\
  (all_white (right_space f) -> all_white (right_space f')) /\
  (ch = false -> f' = f).
Proof. exact sls_fortran. Qed.
Print Assumptions C30_fortran_only_blanks.

Example C30_ex1 :
  is_fortran (fl "10 x = 1 ! c") = true /\
  exists f', set_leading_spaces (fl "10 x = 1 ! c") 6 = Ok (f', true) /\
    print_line f' = L "10    x = 1 ! c".
Proof. split; [reflexivity|]. eexists. split; vm_compute; reflexivity. Qed.

(** C30, column reached on a free-format statement line: the requested one, or
    one blank after a label that does not fit, or as far left as the
    continuation mark allows. *)
Theorem C30_free_column : forall f sp f' ch,
  is_fortran f = true -> is_fixed_format f = false -> (0 <= sp)%Z ->
  main_txt f <> [] ->
  (left_txt f = [] \/ has_label f = true \/ is_continuation f = true) ->
  set_leading_spaces f sp = Ok (f', ch) ->
  (left_txt f = [] -> get_leading_spaces f' = sp) /\
  (left_txt f <> [] -> has_label f = true ->
     get_leading_spaces f' = Z.max sp (zlen (left_txt f) + 1)%Z) /\
  (left_txt f <> [] -> has_label f = false ->
     forall n core, left_txt f = spaces n ++ core -> find_first_not_of [c_sp] core = Some 0 ->
       get_leading_spaces f' = Z.max sp (zlen core + zlen (left_space f))%Z).
Proof. exact sls_column. Qed.
Print Assumptions C30_free_column.

Example C30_ex2 :
  (exists f', set_leading_spaces (fl_cont "    &  y") 0 = Ok (f', true) /\
     print_line f' = L "&  y" /\ get_leading_spaces f' = 1%Z) /\
  (exists f', set_leading_spaces (fl "12345   y") 2 = Ok (f', true) /\
     print_line f' = L "12345 y" /\ get_leading_spaces f' = 6%Z).
Proof. split; eexists; conjs; vm_compute; reflexivity. Qed.

(** C30, second call: same line again; the flag is false except possibly on a
    continuation line. *)
Theorem C30_free_idempotent : forall f sp f' ch,
  is_fortran f = true -> is_fixed_format f = false -> (0 <= sp)%Z ->
  (left_txt f = [] \/ has_label f = true \/ is_continuation f = true) ->
  set_leading_spaces f sp = Ok (f', ch) ->
  exists ch', set_leading_spaces f' sp = Ok (f', ch') /\
    (left_txt f = [] \/ has_label f = true -> ch' = false).
Proof. exact sls_idem. Qed.
Print Assumptions C30_free_idempotent.

(** C30, comment lines: only blanks before the '!' (and blanks right after a
    '!' that was in column one) change, and the '!' ends up where asked. *)
Theorem C30_comment_only_blanks : forall f sp b r,
  is_comment f = true -> (0 <= sp)%Z ->
  left_txt f = b ++ c_bang :: r -> all_blank b ->
  left_space f = [] -> main_txt f = [] -> right_space f = [] -> right_txt f = [] ->
  exists f' ch p r', set_leading_spaces f sp = Ok (f', ch) /\
    r = p ++ r' /\ Forall (fun c => mem c set_st = true) p /\
    (ch = false -> f' = f) /\
    (ch = true -> left_txt f' = spaces (Z.to_nat sp) ++ c_bang :: r' /\
       f' = with_text f (left_txt f') [] [] [] []) /\
    get_leading_spaces f' = sp.
Proof. exact sls_comment_spec. Qed.
Print Assumptions C30_comment_only_blanks.

Example C30_ex3 :
  is_comment (fl "!       note") = true /\
  exists f', set_leading_spaces (fl "!       note") 2 = Ok (f', true) /\
    print_line f' = L "  ! note".
Proof. split; [reflexivity|]. eexists. split; vm_compute; reflexivity. Qed.

(** C30, when the call is sure to return on a free-format line. *)
Theorem C30_free_defined_partial : forall f sp,
  is_fortran f = true -> is_fixed_format f = false -> (0 <= sp)%Z ->
  (left_txt f = [] \/ has_label f = true \/
   (is_continuation f = true /\ exists n core, left_txt f = spaces n ++ core /\
      find_first_not_of [c_sp] core = Some 0)) ->
  (right_txt f = [] \/ (exists r, right_txt f = c_bang :: r) \/ ~ In c_bang (right_txt f) \/
   2 <= length (right_space f) /\ exists r, right_txt f = c_amp :: c_sp :: c_bang :: r) ->
  exists f' ch, set_leading_spaces f sp = Ok (f', ch).
Proof. exact sls_defined. Qed.
Print Assumptions C30_free_defined_partial.

(** C30 is false in full: (1) unindenting a continued line with a comment
    throws; (2) a fixed-format comment loses text; (3) a fixed-format
    continuation line with a comment reads an uninitialised variable; (4) the
    second call on a continuation line still reports a change. *)
Theorem C30_indent_refuted :
  set_leading_spaces (fl "    x = 1 & ! c") 0 = Throw /\
  (exists f', set_leading_spaces (fl_fixed "C a ! b") 2 = Ok (f', true) /\
     print_line f' = L "  ! b") /\
  set_leading_spaces (fl_fixed "     1  x = 1 ! c") 8 = UB /\
  (exists f', set_leading_spaces (fl_cont "  &  y") 0 = Ok (f', true) /\
     set_leading_spaces f' 0 = Ok (f', true)).
Proof.
  split; [vm_compute; reflexivity|]. split.
  - eexists. split; vm_compute; reflexivity.
  - split; [vm_compute; reflexivity|]. eexists. split; vm_compute; reflexivity.
Qed.
Print Assumptions C30_indent_refuted.

(** C32: adding the mark.  Exactly one '&' is in front of the old right text
    (none is added to one already there), at least one blank precedes it, and
    nothing else changes but the flag; with room, the comment stays in its
    column. *)
Theorem C32_make_continued : forall f,
  keeps_left_main f (make_continued f) /\
  bits (make_continued f) = put_continued true (bits f) /\
  ((right_txt f = [] /\ right_txt (make_continued f) = [c_amp]) \/
   (exists r, right_txt f = c_amp :: r /\ right_txt (make_continued f) = c_amp :: r) \/
   (exists c r, right_txt f = c :: r /\ c <> c_amp /\
      right_txt (make_continued f) = c_amp :: c_sp :: c :: r)) /\
  right_space (make_continued f) <> [] /\
  (all_white (right_space f) -> all_white (right_space (make_continued f))) /\
  (2 < length (right_space f) -> forall c r, right_txt f = c :: r -> c <> c_amp ->
     length (right_space (make_continued f)) + 2 = length (right_space f)).
Proof. exact make_continued_spec. Qed.
Print Assumptions C32_make_continued.

(** C32: removing it.  What goes from the right text is one leading '&' (if
    any) and the blanks there; a remaining comment keeps its column. *)
Theorem C32_make_uncontinued : forall f,
  keeps_left_main f (make_uncontinued f) /\
  bits (make_uncontinued f) = put_continued false (bits f) /\
  (exists n, right_txt f = spaces n ++ right_txt (make_uncontinued f) \/
             right_txt f = c_amp :: spaces n ++ right_txt (make_uncontinued f)) /\
  (forall r, right_txt (make_uncontinued f) <> c_sp :: r) /\
  (right_txt (make_uncontinued f) = [] -> right_space (make_uncontinued f) = []) /\
  (right_txt (make_uncontinued f) <> [] ->
     length (right_space (make_uncontinued f)) + length (right_txt (make_uncontinued f)) =
     length (right_space f) + length (right_txt f)) /\
  (all_white (right_space f) -> all_white (right_space (make_uncontinued f))).
Proof. exact make_uncontinued_spec. Qed.
Print Assumptions C32_make_uncontinued.

(** C32: round trip. *)
Theorem C32_roundtrip : forall f,
  is_continued f = false ->
  (right_txt f = [] \/ exists c r, right_txt f = c :: r /\ c <> c_amp /\ c <> c_sp) ->
  let f' := make_uncontinued (make_continued f) in
  keeps_left_main f f' /\ bits f' = bits f /\ right_txt f' = right_txt f /\
  (all_white (right_space f) -> all_white (right_space f')) /\
  (2 < length (right_space f) -> right_txt f <> [] ->
     length (right_space f') = length (right_space f)).
Proof. exact cont_roundtrip. Qed.
Print Assumptions C32_roundtrip.

Example C32_ex :
  print_line (make_continued (fl "x = 1   ! c")) = L "x = 1 & ! c" /\
  print_line (make_uncontinued (make_continued (fl "x = 1   ! c"))) = L "x = 1   ! c" /\
  print_line (make_continued (fl "x = 1")) = L "x = 1 &".
Proof. vm_compute. auto. Qed.

(** Beside C32: on a line that is already continued inside a character
    literal, make_continued puts a blank in front of the '&', that is, into
    the literal. *)
Theorem C32_open_literal_refuted :
  is_continued (fl "x = 'abc&") = true /\ open_delim (fl "x = 'abc&") = c_squote /\
  print_line (make_continued (fl "x = 'abc&")) = L "x = 'abc &".
Proof. vm_compute. auto. Qed.
Print Assumptions C32_open_literal_refuted.

(** C33 is false for every line: whatever the line, the result has no '!' in
    its right text (comment lines, which keep their text elsewhere, are
    returned as they are). *)
Theorem C33_comment_kept_refuted :
  (forall f f', is_comment f = false -> make_comment_or_blank f = Ok f' ->
     ~ In c_bang (right_txt f')) /\
  (exists f', make_comment_or_blank (fl "x = 1 ! c") = Ok f' /\ print_line f' = []) /\
  (exists f', make_comment_or_blank (fl "x = 1 & ! c") = Ok f' /\
     is_comment f' = true /\ main_txt f' = L "x = 1").
Proof.
  split; [exact mcb_loses_comment|].
  split; eexists; conjs; vm_compute; reflexivity.
Qed.
Print Assumptions C33_comment_kept_refuted.

(** C33, true part: the result is a comment or blank line; comment lines are
    untouched; a line with no comment becomes an empty blank line. *)
Theorem C33_comment_or_blank_partial : forall f,
  (forall f', make_comment_or_blank f = Ok f' -> is_comment f' = true \/ is_blank f' = true) /\
  (is_comment f = true -> make_comment_or_blank f = Ok f) /\
  (is_comment f = false -> ~ In c_bang (right_txt f) ->
   (is_continued f = true -> exists r, right_txt f = c_amp :: r) ->
   exists f', make_comment_or_blank f = Ok f' /\ is_blank f' = true /\ print_line f' = []).
Proof.
  intros f. split; [apply mcb_class|]. split.
  - intros C. unfold make_comment_or_blank. now rewrite C.
  - intros C N CO. exists (make_blank f). split; [now apply mcb_no_comment|]. auto.
Qed.
Print Assumptions C33_comment_or_blank_partial.

Example C33_ex : is_comment (fl "x = 1 &") = false /\ ~ In c_bang (right_txt (fl "x = 1 &")) /\
  right_txt (fl "x = 1 &") = [c_amp].
Proof. vm_compute. conjs; auto. intuition discriminate. Qed.

(** C34: setting a label 1..99999 (or relabelling). *)
Theorem C34_set_label : forall f n f' ch,
  (1 <= n)%Z -> set_label f n = Ok (f', ch) ->
  has_label f' = true /\ stoi (left_txt f') = Ok n /\
  (exists d, numeral d n /\ length d <= 5 /\ hd c_nul d <> "0"%char /\
     left_txt f' = (if is_fixed_format f then d ++ spaces (6 - length d) else d)) /\
  main_txt f' = main_txt f /\ right_space f' = right_space f /\ right_txt f' = right_txt f /\
  open_delim f' = open_delim f /\ bits f' = put_label true (bits f) /\
  (all_white (left_space f) -> all_white (left_space f')).
Proof.
  intros * N H. apply set_label_Ok in H as (_ & R & E1 & E2 & E3 & E4 & E5 & E6 & (d & ND & L5 & HZ & EL) & W & _); [|lia].
  conjs; auto.
  - unfold has_label. rewrite E6. now destruct (bits f).
  - rewrite EL. destruct (is_fixed_format f).
    + apply stoi_numeral; auto; [lia|]. now destruct (6 - length d).
    + rewrite <- (app_nil_r d). apply stoi_numeral; auto; lia.
  - exists d. conjs; auto. apply HZ. lia.
Qed.
Print Assumptions C34_set_label.

Theorem C34_set_label_defined : forall f n,
  (0 <= n <= 99999)%Z -> is_fortran f = true -> is_continuation f = false ->
  (is_fixed_format f = true -> left_txt f = [] \/ has_label f = true) ->
  exists f' ch, set_label f n = Ok (f', ch).
Proof. exact set_label_defined. Qed.
Print Assumptions C34_set_label_defined.

Example C34_ex : exists f', set_label (fl "    x = 1 ! c") 120 = Ok (f', true) /\
  print_line f' = L "120 x = 1 ! c" /\ is_fortran (fl "    x = 1 ! c") = true.
Proof. eexists. conjs; vm_compute; reflexivity. Qed.

(** C34 is false for n = 0: the "cleared" label is the label 0. *)
Theorem C34_clear_label_refuted :
  exists f', set_label (fl "10 x = 1") 0 = Ok (f', true) /\ has_label f' = true /\
    print_line f' = L "0  x = 1".
Proof. eexists. conjs; vm_compute; reflexivity. Qed.
Print Assumptions C34_clear_label_refuted.

(** C34, n = 0 on an unlabelled line: nothing happens. *)
Theorem C34_clear_unlabelled_partial : forall f f' ch,
  has_label f = false -> set_label f 0 = Ok (f', ch) -> f' = f /\ ch = false.
Proof.
  intros * HL H. unfold set_label in H. apply bind_Ok in H as (? & _ & H).
  apply bind_Ok in H as (? & _ & H). apply bind_Ok in H as (? & _ & H).
  rewrite HL in H. cbn in H. now injection H as <- <-.
Qed.
Print Assumptions C34_clear_unlabelled_partial.

(** C47: column of the statement text when there is room.  Free format. *)
Theorem C47_label_column_partial : forall f n f' ch,
  (1 <= n)%Z -> set_label f n = Ok (f', ch) -> is_fixed_format f = false ->
  (length (left_txt f') + 1 < length (left_txt f) + length (left_space f) ->
   length (left_txt f') + length (left_space f') = length (left_txt f) + length (left_space f)) /\
  (left_space f <> [] -> left_space f' <> []).
Proof.
  intros * N H NF. apply set_label_Ok in H as (_ & _ & _ & _ & _ & _ & _ & _ & _ & _ & C1 & C2); [|lia].
  auto.
Qed.
Print Assumptions C47_label_column_partial.

(** C47, fixed format: the columns 1-6 hold the label; the statement stays if
    it starts within column 13 or the line had a label already. *)
Theorem C47_label_column_fixed_partial : forall f n f' ch,
  (1 <= n)%Z -> set_label f n = Ok (f', ch) -> is_fixed_format f = true ->
  length (left_txt f') = 6 /\
  (length (left_space f) <= 6 \/ left_txt f <> [] -> left_space f' = left_space f).
Proof.
  intros * N H NF. split.
  - apply set_label_Ok in H as (_ & _ & _ & _ & _ & _ & _ & _ & (d & _ & L5 & _ & E) & _); [|lia].
    rewrite E, NF, app_length, spaces_length. lia.
  - intros R. unfold set_label in H. apply bind_Ok in H as (? & _ & H).
    apply bind_Ok in H as (? & _ & H). apply bind_Ok in H as (? & _ & H).
    destruct (_ && _); [now injection H as <- <-|].
    apply bind_Ok in H as ([lt ls] & HL & H). injection H as <- <-. rewrite NF in HL. flproj.
    destruct (is_empty (left_txt f)) eqn:E.
    + apply is_empty_true in E. destruct R as [R|R]; [|congruence].
      destruct (Nat.ltb_spec 6 (length (left_space f))); [lia|]. now injection HL as <- <-.
    + apply bind_Ok in HL as (? & _ & HL). now injection HL as <- <-.
Qed.
Print Assumptions C47_label_column_fixed_partial.

(** C47 is false in fixed format beyond that: a statement in column 15 moves
    to column 9. *)
Theorem C47_label_column_refuted :
  exists f', set_label (fl_fixed "              x = 1") 10 = Ok (f', true) /\
    print_line f' = L "10      x = 1".
Proof. eexists. conjs; vm_compute; reflexivity. Qed.
Print Assumptions C47_label_column_refuted.
