(** What converting a fixed-format logical line to free format should do, and
    which lines it can be expected to work on. *)
From Verif Require Import Base Tags FileLine FileLine_spec FixedLine_spec LogicalFile LogicalFile_spec
  LogicalLine Token.
Local Open Scope nat_scope.

(** ** Tokens *)
(** The tokens stand one after the other, from line [from] on. *)
Fixpoint in_order (from : Z) (l : list Token) : Prop :=
  match l with
  | [] => True
  | x :: r => exists b e, mt_bl x = Some b /\ mt_el x = Some e /\ (from <= b <= e)%Z /\ in_order e r
  end.
(** Line [i] starts in the middle of a token. *)
Definition cuts (l : list Token) (i : nat) : Prop :=
  exists x b e, In x l /\ mt_bl x = Some b /\ mt_el x = Some e /\ (b < Z.of_nat i <= e)%Z.
(** Only Fortran lines up to line [i]. *)
Definition fortran_upto (layout : list File_Line) (i : nat) : Prop :=
  Forall (fun f => is_fortran f = true) (firstn (S i) layout).

(** ** The converted lines *)
Definition first_code (layout : list File_Line) (i : nat) : Prop :=
  Forall (fun f => is_fortran f = false) (firstn i layout).
Definition more_code (layout : list File_Line) (i : nat) : Prop :=
  Exists (fun f => is_fortran f = true) (skipn (S i) layout).

(** What no line loses. *)
Definition same_content (f g : File_Line) : Prop :=
  linenum g = linenum f /\ main_txt g = main_txt f /\ open_delim g = open_delim f /\
  is_fixed_format g = false /\ has_label g = has_label f /\ is_comment g = is_comment f /\
  is_blank g = is_blank f /\ is_preprocessor g = is_preprocessor f /\ is_include g = is_include f /\
  is_flpr_pp g = is_flpr_pp f /\ is_flpr_lit g = is_flpr_lit f.

(** The front of a Fortran line. *)
Definition front_plain (f g : File_Line) : Prop :=      (* six columns become six blanks *)
  left_txt g = [] /\ left_space g = spaces 6 ++ left_space f.
Definition front_same (f g : File_Line) : Prop :=
  left_txt g = left_txt f /\ left_space g = left_space f.
Definition front_mark (f g : File_Line) : Prop :=       (* '&' in column 6 *)
  left_txt g = firstn 5 (left_txt f) ++ [c_amp] /\ left_space g = left_space f.

(** The end of a Fortran line. *)
Definition end_same (f g : File_Line) : Prop :=
  right_space g = right_space f /\ right_txt g = right_txt f /\ is_continued g = is_continued f.
Definition end_mark (f g : File_Line) : Prop :=         (* '&', before any comment *)
  is_continued g = true /\
  ((right_txt f = [] /\ right_space g = right_space f /\ right_txt g = [c_amp]) \/
   (right_txt f <> [] /\ right_txt g = c_amp :: c_sp :: right_txt f /\
    (right_space g = right_space f \/        (* the comment may stay in its column *)
     exists a b, right_space f = a :: b :: right_space g /\ right_space g <> []))).

(** A line of a statement: [first], [more] and [cut] say whether it is the first
    Fortran line, whether more follow, and whether it starts inside a token. *)
Definition code_converted (first more cut : Prop) (f g : File_Line) : Prop :=
  same_content f g /\
  (first -> is_continuation g = is_continuation f /\
            (left_txt f = [] -> front_plain f g) /\ (left_txt f <> [] -> front_same f g)) /\
  (~ first -> cut -> is_continuation g = is_continuation f /\ front_mark f g) /\
  (~ first -> ~ cut -> is_continuation g = false /\ front_plain f g) /\
  (more -> end_mark f g) /\ (~ more -> end_same f g).
(** A comment line: a comment character in column 1 becomes '!'. *)
Definition comment_converted (f g : File_Line) : Prop :=
  same_content f g /\ is_continued g = is_continued f /\ is_continuation g = is_continuation f /\
  left_space g = left_space f /\ right_space g = right_space f /\ right_txt g = right_txt f /\
  exists c r, left_txt f = c :: r /\
    ((c = c_sp /\ left_txt g = left_txt f) \/ (c <> c_sp /\ left_txt g = c_bang :: r)).
(** Any other line. *)
Definition other_converted (f g : File_Line) : Prop :=
  same_content f g /\ is_continued g = is_continued f /\ is_continuation g = is_continuation f /\
  left_txt g = left_txt f /\ left_space g = left_space f /\ right_space g = right_space f /\
  right_txt g = right_txt f.
Definition line_converted (first more cut : Prop) (f g : File_Line) : Prop :=
  (is_fortran f = true -> code_converted first more cut f g) /\
  (is_comment f = true -> comment_converted f g) /\
  (is_fortran f = false -> is_comment f = false -> other_converted f g).

Definition layout_converted (toks : list Token) (l l' : list File_Line) : Prop :=
  length l' = length l /\
  forall i f, nth_error l i = Some f ->
    exists g, nth_error l' i = Some g /\
      line_converted (first_code l i) (more_code l i) (cuts toks i) f g.

(** ** Lines that can be converted: every Fortran line after the first has five
    blanks and a mark in front, every comment has text. *)
Definition convertible (l : list File_Line) : Prop :=
  forall i f, nth_error l i = Some f ->
    (is_comment f = true -> left_txt f <> []) /\
    (is_fortran f = true -> ~ first_code l i -> exists c, left_txt f = spaces 5 ++ [c]).

(** Does a logical line hold a statement? *)
Definition starts_code (l : list File_Line) : bool :=
  match l with f :: _ => is_fortran f | [] => false end.

(** ** Files whose conversion can be read back *)
(** Printable characters and tabs. *)
Definition source_char (c : ascii) : Prop := (32 <= code c < 127) \/ c = c_tab.
(** No '&' outside the character literals of a text entered in context [d]. *)
Definition no_amp (d : ascii) (s : str) : Prop :=
  forall i, nth_error s i = Some c_amp -> ctx_after d (firstn i s) <> c_nul.
(** The literal that is open where line [i] starts. *)
Definition entry (layout : list File_Line) (i : nat) : ascii :=
  match i with
  | 0 => c_nul
  | S j => match nth_error layout j with Some p => open_delim p | None => c_nul end
  end.

(** A standard-conforming Fortran line; [d] is the literal it starts in. *)
Record standard_line (lc : Z) (first : bool) (d : ascii) (cut : Prop) (f : File_Line) : Prop := {
  st_mark : first = true -> left_txt f = [] \/ has_label f = true;   (* no '0' in column 6 *)
  st_digit : first = true -> ~ starts_with is_digit_b (main_txt f);
  st_open : d <> c_nul -> cut;
  st_cut : cut -> left_space f = [];
  st_amp : no_amp d (main_txt f);
  st_include : ~ include_line (main_txt f);
  st_right : right_txt f = [] \/ exists r, right_txt f = c_bang :: r;
  st_beyond : open_delim f <> c_nul -> right_txt f = [];
  st_col : (lc <= 0)%Z \/ (6 + Z.of_nat (length (left_space f)) <= lc)%Z
}.
(** A statement: such lines with comments between them, and no literal left open. *)
Definition standard_stmt (lc : Z) (toks : list Token) (l : list File_Line) : Prop :=
  (forall i f, nth_error l i = Some f ->
     is_comment f = true \/
     (is_fortran f = true /\ standard_line lc (i =? 0) (entry l i) (cuts toks i) f)) /\
  (forall p f, l = p ++ [f] -> open_delim f = c_nul).
(** Other lines: blank lines are blank, directives start with '!', no line of the
    preprocessor goes on. *)
Definition standard_other (f : File_Line) : Prop :=
  (is_blank f = true -> blank_line (left_txt f)) /\
  (is_flpr_pp f = true -> bang_line (left_txt f)) /\
  (is_comment f = false -> is_blank f = false -> ~ ends_backslash (left_txt f)).
Definition standard (lc : Z) (ll : LLn) : Prop :=
  if starts_code (l_layout ll)
  then standard_stmt lc (l_frags ll) (l_layout ll)
  else Forall standard_other (l_layout ll).

(** The tokens of a logical line are in order, and those cut by a line end are
    not preceded by a comment or blank line. *)
Definition tokens_fit (ll : LLn) : Prop :=
  in_order 0 (l_frags ll) /\
  forall i, cuts (l_frags ll) i -> fortran_upto (l_layout ll) i.

(** [g] is [f] read again: the same, except that a comment line inside a
    continued statement is remembered as continued. *)
Definition read_again (f g : File_Line) : Prop :=
  linenum g = linenum f /\ left_txt g = left_txt f /\ left_space g = left_space f /\
  main_txt g = main_txt f /\ right_space g = right_space f /\ right_txt g = right_txt f /\
  open_delim g = open_delim f /\
  (bits g = bits f \/ (is_comment f = true /\ bits g = put_continued true (bits f))).

(** ** Whole files *)
(** The logical lines of a scan and the same lines with their tokens. *)
Definition tokenized (lls : list LLine) (lns : list LLn) : Prop :=
  Forall2 (fun ll ln => l_layout ln = ll_layout ll /\ l_label ln = ll_label ll /\ l_cat ln = ll_cat ll) lls lns.
(** The text written for a file. *)
Definition printed (lns : list LLn) : list str :=
  concat (map (fun ln => map print_line (l_layout ln)) lns).
(** Nothing but the layout of a logical line is touched, and the layout is
    converted line by line. *)
Definition ll_converted (ln ln' : LLn) : Prop :=
  layout_converted (l_frags ln) (l_layout ln) (l_layout ln') /\
  l_label ln' = l_label ln /\ l_cat ln' = l_cat ln /\ l_frags ln' = l_frags ln /\
  l_stmts ln' = l_stmts ln /\ l_nsemi ln' = l_nsemi ln /\ l_suppress ln' = l_suppress ln /\
  l_reformat ln' = l_reformat ln.
(** A logical line found again. *)
Definition ll_again (ln : LLn) (ll : LLine) : Prop :=
  Forall2 read_again (l_layout ln) (ll_layout ll) /\ ll_label ll = l_label ln /\ ll_cat ll = l_cat ln.
