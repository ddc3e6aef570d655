(** Independent description of how physical lines form logical lines. *)
From Verif Require Import Base FileLine FileLine_spec FixedLine_spec FileEdit_spec LogicalFile.

Definition starts_line (p : File_Line -> Prop) (fls : list File_Line) : Prop :=
  exists f r, fls = f :: r /\ p f.

(** Text of a line ends in a backslash, blanks and tabs ignored. *)
Definition ends_backslash (s : str) : Prop :=
  exists a b, s = a ++ c_bslash :: b /\ Forall (fun c => mem c set_st = true) b.

(** All the text of a line in order. *)
Definition line_text (f : File_Line) : str :=
  left_txt f ++ left_space f ++ main_txt f ++ right_space f ++ right_txt f.

(** [as_pp f f']: [f'] is [f] turned into a preprocessor line: same number,
    same text, all of it in the left field. *)
Definition as_pp (f f' : File_Line) : Prop :=
  linenum f' = linenum f /\ left_txt f' = line_text f /\ left_space f' = [] /\
  main_txt f' = [] /\ right_space f' = [] /\ right_txt f' = [] /\
  is_preprocessor f' = true /\ is_fortran f' = false /\
  is_fixed_format f' = is_fixed_format f.

(** [pp_cont prev fls fls' rest]: the lines [fls] followed by [rest] continue a
    preprocessor line whose text is [prev]; each of them but the last ends in a
    backslash; [fls'] is what they become. *)
Inductive pp_cont : str -> list File_Line -> list File_Line -> list File_Line -> Prop :=
| PC_stop prev rest : ~ ends_backslash prev -> pp_cont prev [] [] rest
| PC_eof prev : pp_cont prev [] [] []
| PC_more prev f f' fls fls' rest :
    ends_backslash prev -> as_pp f f' -> pp_cont (left_txt f') fls fls' rest ->
    pp_cont prev (f :: fls) (f' :: fls') rest.

Definition trivial (f : File_Line) : Prop := is_comment f = true \/ is_blank f = true.

(** One logical line at the front of the remaining lines:
    [block cat fls new rest]: lines [fls], then [rest]; the logical line holds
    [new]. *)
Inductive free_block : LineCat -> list File_Line -> list File_Line -> list File_Line -> Prop :=
| FB_trivial b rest :           (* maximal run of comment and blank lines *)
    b <> [] -> Forall trivial b -> ~ starts_line trivial rest ->
    free_block CAT_UNKNOWN b b rest
| FB_literal b rest :           (* maximal run of literal lines *)
    b <> [] -> ~ starts_line trivial b ->
    Forall (fun f => is_flpr_lit f = true) b ->
    ~ starts_line (fun f => is_flpr_lit f = true) rest ->
    free_block CAT_LITERAL b b rest
| FB_other f fls fls' rest :    (* preprocessor, include, FLPR directive *)
    ~ trivial f -> is_flpr_lit f = false -> is_fortran f = false ->
    pp_cont (left_txt f) fls fls' rest ->
    free_block (if is_flpr_pp f then CAT_FLPR_PP else if is_include f then CAT_INCLUDE else CAT_MACRO)
      (f :: fls) (f :: fls') rest
| FB_stmt pre g rest :          (* statement ending in the first line that is
                                   neither trivial nor continued *)
    starts_line (fun f => is_fortran f = true) (pre ++ [g]) ->
    Forall (fun x => trivial x \/ is_continued x = true) pre ->
    ~ trivial g -> is_continued g = false ->
    free_block CAT_UNKNOWN (pre ++ [g]) (pre ++ [g]) rest
| FB_open f rest :              (* file ends inside a continued statement *)
    is_fortran f = true ->
    Forall (fun x => trivial x \/ is_continued x = true) (f :: rest) ->
    free_block CAT_UNKNOWN [f] [f] rest.

(** Fixed format: a statement extends to the last continuation line reached
    through continuation and trivial lines. *)
Inductive fixed_block : LineCat -> list File_Line -> list File_Line -> list File_Line -> Prop :=
| XB_trivial b rest :
    b <> [] -> Forall trivial b -> ~ starts_line trivial rest ->
    fixed_block CAT_UNKNOWN b b rest
| XB_other f fls fls' rest :
    ~ trivial f -> is_fortran f = false ->
    pp_cont (left_txt f) fls fls' rest ->
    fixed_block (if is_flpr_pp f then CAT_FLPR_PP else if is_include f then CAT_INCLUDE else CAT_MACRO)
      (f :: fls) (f :: fls') rest
| XB_stmt f mid t rest :
    is_fortran f = true ->
    Forall (fun x => is_continuation x = true \/ trivial x) mid ->
    (mid = [] \/ exists m g, mid = m ++ [g] /\ is_continuation g = true) ->
    (* what follows: trivial lines that are no continuations, then no
       continuation line *)
    Forall (fun x => trivial x /\ is_continuation x = false) t ->
    ~ starts_line (fun x => is_continuation x = true \/ trivial x) rest ->
    fixed_block CAT_UNKNOWN (f :: mid) (f :: mid) (t ++ rest).

(** The whole file. *)
Inductive blocks (block : LineCat -> list File_Line -> list File_Line -> list File_Line -> Prop)
  : list File_Line -> list LLine -> Prop :=
| B_nil : blocks block [] []
| B_cons cat b new rest ll lls :
    block cat b new rest -> ll_layout ll = new -> ll_cat ll = cat ->
    blocks block rest lls -> blocks block (b ++ rest) (ll :: lls).

(** The control text [lt] of a line holds the label [n]: white space around at
    most six digits that denote [n]. *)
Definition label_text (lt : str) (n : Z) : Prop :=
  exists b d w, lt = b ++ d ++ w /\ all_white b /\ all_white w /\ numeral d n /\ length d <= 6.

(** The label of a logical line is that of its first physical line, 0 for
    none. *)
Definition label_of (ll : LLine) : Prop :=
  exists f r, ll_layout ll = f :: r /\
    if has_label f then label_text (left_txt f) (ll_label ll) else ll_label ll = 0%Z.

(** Line numbers [i], [i+1], ... *)
Fixpoint numbered (i : Z) (n : nat) : list Z :=
  match n with O => [] | S n' => i :: numbered (i + 1) n' end.

(** A fixed-format line that survives reading and printing: no tab in the
    control columns, nothing beyond the last column, no trailing backslash, and
    a well-formed control field if it is Fortran code. *)
Definition tidy_fixed (last_col : Z) (raw : str) : Prop :=
  ~ In c_tab (firstn 6 raw) /\ ~ ends_backslash raw /\
  ((last_col <= 0)%Z \/ (Z.of_nat (length raw) <= last_col)%Z) /\
  (fixed_code_line raw -> exists ctl rest, raw = ctl ++ rest /\ control_field ctl).
