(** Independent vocabulary for the indentation of a file. *)
From Verif Require Import Base Tags SyntaxTags FileLine FileLine_spec FileEdit_spec LogicalFile Token Stmts LogicalLine StmtSrc
  StmtRules Peg LabelStack Prgm Prgm_spec.
Local Open Scope Z_scope.

(** ** Levels *)
(** The constructs whose first and last part stay at the level of the construct
    while all between is indented. *)
Definition begins_and_ends (tag : Z) : Prop :=
  tag = PG_DERIVED_TYPE_DEF \/ tag = PG_ENUM_DEF \/ tag = PG_CASE_CONSTRUCT.
Definition outer_part (tag : Z) (j n : nat) : Prop := begins_and_ends tag /\ (j = 0 \/ S j = n)%nat.

Inductive occurs (i : nat) : ptree -> Prop :=
| occurs_leaf g r : occurs i (PT g r (Some i) [])
| occurs_in g r s kids k : In k kids -> occurs i k -> occurs i (PT g r s kids).

(** Statement [i] hangs in the tree under nodes whose offsets (those of nodes
    that indent it) add up to [n].  A statement that ends several DO loops
    hangs in the tree several times; the last place counts. *)
Inductive level (off : Z -> Z) (i : nat) : ptree -> Z -> Prop :=
| level_leaf g r : level off i (PT g r (Some i) []) 0
| level_outer g r s kids j k n :
    outer_part g j (length kids) -> nth_error kids j = Some k -> level off i k n ->
    (forall k', In k' (skipn (S j) kids) -> ~ occurs i k') ->
    level off i (PT g r s kids) n
| level_inner g r s kids j k n :
    ~ outer_part g j (length kids) -> nth_error kids j = Some k -> level off i k n ->
    (forall k', In k' (skipn (S j) kids) -> ~ occurs i k') ->
    level off i (PT g r s kids) (off g + n).

(** ** Lines *)
(** a comment line: blanks, '!', text *)
Definition comment_at (f : File_Line) (b r : str) : Prop :=
  left_txt f = b ++ c_bang :: r /\ all_blank b /\
  left_space f = [] /\ main_txt f = [] /\ right_space f = [] /\ right_txt f = [].
(** a free-format statement line as the reader makes it: what is in front of
    the text is nothing, a label, or '&' with blanks *)
Definition free_code (f : File_Line) : Prop :=
  is_fortran f = true /\ is_fixed_format f = false /\
  (left_txt f = [] \/ has_label f = true \/
   (is_continuation f = true /\ exists n core, left_txt f = spaces n ++ core /\ find_first_not_of [c_sp] core = Some 0%nat)).
Definition free_line (f : File_Line) : Prop :=
  (is_comment f = true /\ exists b r, comment_at f b r) \/
  (is_comment f = false /\ is_fortran f = false) \/
  free_code f.
(** no '!' behind an '&' *)
Definition plain_end (f : File_Line) : Prop :=
  is_fortran f = true -> right_txt f = [] \/ (exists r, right_txt f = c_bang :: r) \/ ~ In c_bang (right_txt f).

(** the lines of a free-format file *)
Definition line_ok (l : LLn) : Prop := l_layout l <> [] /\ Forall free_line (l_layout l).
Definition line_plain (l : LLn) : Prop := Forall plain_end (l_layout l).
Definition file_ok (ls : list LLn) : Prop := Forall line_ok ls.
Definition file_plain (ls : list LLn) : Prop := Forall line_plain ls.
(** no statements on lines that are switched off or macros *)
Definition lines_sane (ls : list LLn) : Prop :=
  forall l, In l ls -> l_stmts l <> [] -> l_suppress l = false /\ l_cat l <> CAT_MACRO.

(** Only blanks differ: before the text, behind it, around a leading '&'; for a
    comment before and right after the '!'. *)
Definition same_but_blanks (f f' : File_Line) : Prop :=
  bits f' = bits f /\ open_delim f' = open_delim f /\ linenum f' = linenum f /\
  (is_comment f = true -> exists b b' p r,
     comment_at f b (p ++ r) /\ comment_at f' b' r /\ Forall (fun c => mem c set_st = true) p) /\
  (is_fortran f = true ->
     main_txt f' = main_txt f /\ right_txt f' = right_txt f /\
     same_upto_leading_blanks (left_txt f) (left_txt f') /\
     (has_label f = true -> left_txt f' = left_txt f) /\
     (all_white (left_space f) -> all_white (left_space f')) /\
     (all_white (right_space f) -> all_white (right_space f'))) /\
  (is_comment f = false -> is_fortran f = false -> f' = f).

(** Where the text (the '!' of a comment) starts, counted from 0: column [sp],
    or further right if a label or an '&' needs the room. *)
Definition starts_at (f' : File_Line) (sp : Z) : Prop :=
  (is_comment f' = true -> get_leading_spaces f' = sp) /\
  (is_fortran f' = true -> main_txt f' <> [] ->
     (left_txt f' = [] -> get_leading_spaces f' = sp) /\
     (left_txt f' <> [] -> has_label f' = true -> get_leading_spaces f' = Z.max sp (zlen (left_txt f') + 1)) /\
     (left_txt f' <> [] -> has_label f' = false ->
        forall n core, left_txt f' = spaces n ++ core -> find_first_not_of [c_sp] core = Some 0%nat ->
          get_leading_spaces f' = Z.max sp (zlen core + zlen (left_space f')))).

Definition moved (f f' : File_Line) (sp : Z) : Prop := same_but_blanks f f' /\ starts_at f' sp.

(** A logical line: its first line at [sp], the others further in by [off] if it
    has a statement. *)
Definition holds_code (l : LLn) : Prop := l_suppress l = false /\ exists f, In f (l_layout l) /\ is_fortran f = true.
Definition line_moved (l l' : LLn) (sp off : Z) : Prop :=
  l_label l' = l_label l /\ l_cat l' = l_cat l /\ l_suppress l' = l_suppress l /\ l_reformat l' = l_reformat l /\
  l_nsemi l' = l_nsemi l /\ l_frags l' = l_frags l /\ l_stmts l' = l_stmts l /\
  exists f r f' r' o, l_layout l = f :: r /\ l_layout l' = f' :: r' /\ moved f f' sp /\
    (holds_code l -> o = off) /\ (~ holds_code l -> o = 0) /\ Forall2 (fun g g' => moved g g' (sp + o)) r r'.

(** ** Which lines go with a statement *)
Definition line_of_stmt (q : LL_Stmt) (j : nat) : Prop :=
  s_compound q < 2 /\ (s_line q = Some j \/ In j (s_prefix q)).

(** ** Shape of the trees *)
(** constructs that begin and end with a statement *)
Definition bracketed (tag : Z) : bool :=
  existsb (Z.eqb tag)
    [PG_ASSOCIATE_CONSTRUCT; PG_BLOCK_CONSTRUCT; PG_CASE_CONSTRUCT; PG_DERIVED_TYPE_DEF; PG_DO_CONSTRUCT; PG_ENUM_DEF;
     PG_FORALL_CONSTRUCT; PG_FUNCTION_SUBPROGRAM; PG_IF_CONSTRUCT; PG_INTERFACE_BLOCK; PG_MODULE;
     PG_SEPARATE_MODULE_SUBPROGRAM; PG_SELECT_RANK_CONSTRUCT; PG_SELECT_TYPE_CONSTRUCT; PG_SUBROUTINE_SUBPROGRAM;
     PG_WHERE_CONSTRUCT].

(** The constructs (nodes) of a tree with the sum of the offsets above them *)
Inductive base (off : Z -> Z) (c : ptree) : ptree -> Z -> Prop :=
| base_here : base off c c 0
| base_outer g r s kids j k n :
    outer_part g j (length kids) -> nth_error kids j = Some k -> base off c k n -> base off c (PT g r s kids) n
| base_inner g r s kids j k n :
    ~ outer_part g j (length kids) -> nth_error kids j = Some k -> base off c k n -> base off c (PT g r s kids) (off g + n).

(** ** What the tables indent *)
Definition block_tags : list Z :=
  [PG_BLOCK; PG_INTERFACE_SPECIFICATION; PG_WHERE_BODY_CONSTRUCT; PG_DERIVED_TYPE_DEF; PG_ENUM_DEF; PG_CASE_CONSTRUCT].
Definition unit_tags : list Z := [PG_EXECUTION_PART; PG_SPECIFICATION_PART].
Definition subprogram_tags : list Z := [PG_INTERNAL_SUBPROGRAM; PG_MODULE_SUBPROGRAM].
(** the offsets of a table: one for blocks, one for the parts of a program unit,
    one for the subprograms in it, nothing for any other tag *)
Definition offsets (off : Z -> Z) (block unit sub : Z) : Prop := forall g,
  (In g block_tags -> off g = block) /\ (In g unit_tags -> off g = unit) /\ (In g subprogram_tags -> off g = sub) /\
  (~ In g block_tags -> ~ In g unit_tags -> ~ In g subprogram_tags -> off g = 0).
