(** Where the tokens of a logical line stand in its physical lines, independently
    of how the line is edited. *)
From Verif Require Import Base Tags FileLine Token LogicalLine Stmts_spec LineAccum_spec LexPos_spec.
Local Open Scope nat_scope.

(** A place in a layout: a line index and a column of that line's main text. *)
Definition spot := (nat * nat)%type.
Definition before (a b : spot) : Prop := fst a < fst b \/ (fst a = fst b /\ snd a <= snd b).
Definition main_of (layout : list File_Line) (i : nat) : str := nth i (map main_txt layout) [].
Definition inside (layout : list File_Line) (a : spot) : Prop :=
  fst a < length layout /\ snd a <= length (main_of layout (fst a)).
(** The main text from [a] to [b]. *)
Definition between (layout : list File_Line) (a b : spot) : str :=
  if fst a =? fst b then firstn (snd b - snd a) (skipn (snd a) (main_of layout (fst a)))
  else skipn (snd a) (main_of layout (fst a)) ++
       concat (firstn (fst b - fst a - 1) (skipn (S (fst a)) (map main_txt layout))) ++
       firstn (snd b) (main_of layout (fst b)).

(** [x] is recorded at [a] to [b].  A token on one line takes as many columns as
    it has characters (its recorded end column must be set but is not looked at:
    see [end_right]). *)
Definition stands (layout : list File_Line) (x : Token) (a b : spot) : Prop :=
  mt_bl x = Some (Z.of_nat (fst a)) /\ mt_bc x = Some (Z.of_nat (snd a)) /\
  mt_el x = Some (Z.of_nat (fst b)) /\ mt_ec x <> None /\
  before a b /\ inside layout a /\ inside layout b /\
  (fst a = fst b -> snd b = snd a + length (tk_text x)) /\
  (fst a <> fst b -> mt_ec x = Some (Z.of_nat (snd b))).
Definition end_right (x : Token) (b : spot) : Prop := mt_ec x = Some (Z.of_nat (snd b)).
(** The tokens stand one after the other, the first at or after [a], [sp] being
    their places. *)
Fixpoint laid (layout : list File_Line) (a : spot) (l : list Token) (sp : list (spot * spot)) : Prop :=
  match l, sp with
  | [], [] => True
  | x :: r, (b, e) :: sp' => before a b /\ stands layout x b e /\ laid layout e r sp'
  | _, _ => False
  end.
(** A token on one line is what stands there. *)
Definition reads (layout : list File_Line) (x : Token) (a b : spot) : Prop :=
  fst a = fst b -> between layout a b = tk_text x.

(** Everything about a token except its columns. *)
Definition same_but_cols (x y : Token) : Prop :=
  tok x = tok y /\ tk_line x = tk_line y /\ tk_pos x = tk_pos y /\ tk_text x = tk_text y /\
  mt_bl x = mt_bl y /\ mt_el x = mt_el y /\ tk_pre x = tk_pre y /\ tk_post x = tk_post y.
(** [l2] is [l1] with the columns [c, c+n) of line [i] replaced by [t]. *)
Definition spliced (l1 l2 : list File_Line) (i c n : nat) (t : str) : Prop :=
  exists p f q g, l1 = p ++ f :: q /\ l2 = p ++ g :: q /\ length p = i /\
    main_txt g = firstn c (main_txt f) ++ t ++ skipn (c + n) (main_txt f) /\
    linenum g = linenum f /\ left_txt g = left_txt f /\ left_space g = left_space f /\
    right_space g = right_space f /\ right_txt g = right_txt f /\ bits g = bits f /\ open_delim g = open_delim f.

(** What becomes of a token that is not edited: only its columns change, it
    still stands where the same text is, and its end is right if it was. *)
Definition kept (l1 l2 : list File_Line) (x x' : Token) (u u' : spot * spot) : Prop :=
  same_but_cols x' x /\ between l2 (fst u') (snd u') = between l1 (fst u) (snd u) /\
  (end_right x (snd u) -> end_right x' (snd u')).
Inductive kept_all (l1 l2 : list File_Line)
  : list Token -> list Token -> list (spot * spot) -> list (spot * spot) -> Prop :=
| kept_nil : kept_all l1 l2 [] [] [] []
| kept_cons : forall x x' u u' l l' sp sp', kept l1 l2 x x' u u' -> kept_all l1 l2 l l' sp sp' ->
    kept_all l1 l2 (x :: l) (x' :: l') (u :: sp) (u' :: sp').
(** Everything but the layout and the fragments, and the statements. *)
Definition same_rest (a b : LLn) : Prop :=
  l_label a = l_label b /\ l_cat a = l_cat b /\ l_suppress a = l_suppress b /\ l_reformat a = l_reformat b.
(** The recorded statements are the non-empty runs between semicolons. *)
Definition stmts_right (ll : LLn) : Prop :=
  map (slice (l_frags ll)) (l_stmts ll) = filter nonempty (segments (l_frags ll)) /\
  l_nsemi ll = Z.of_nat (semicolons (l_frags ll)).

(** The place [a] as an offset into the joined text of the lines. *)
Definition offset (layout : list File_Line) (a : spot) : nat :=
  main_start (lines_of layout) (fst a) + snd a.

(** A line that can be taken out of a statement: if it is Fortran it has no comment, and ends in '&' if it is continued. *)
Definition bare (f : File_Line) : Prop :=
  is_fortran f = true -> ~ In "!"%char (right_txt f) /\ (is_continued f = true -> exists r, right_txt f = "&"%char :: r).
(** What stands in its place: an empty line for a Fortran line; comment and empty lines stay. *)
Definition taken_out (f : File_Line) : File_Line := if is_fortran f then make_blank f else f.
