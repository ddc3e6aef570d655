(** What flpr-format promises. *)
From Verif Require Import Base FileLine Token LogicalLine Lexer LineEdit LineFlow_spec FormatApp_spec.
Local Open Scope nat_scope.

(** A text as its lines: each ends in a newline, but the last may do without. *)
Definition text_of (ls : list str) : str := flat_map (fun l => l ++ [c_nl]) ls.
Definition ended (s : str) : Prop := s = [] \/ exists t, s = t ++ [c_nl].
(** The text with the newline that is missing at its end. *)
Definition with_newline (s s' : str) : Prop := (ended s /\ s' = s) \/ (~ ended s /\ s' = s ++ [c_nl]).

(** A line of code that differs in blanks only, and the same for what a logical line has. *)
Definition same_code (f f' : File_Line) : Prop :=
  bits f' = bits f /\ linenum f' = linenum f /\ open_delim f' = open_delim f /\
  (is_fortran f = true -> main_txt f' = main_txt f /\ right_txt f' = right_txt f).
Definition same_line (l l' : LLn) : Prop :=
  l_label l' = l_label l /\ l_cat l' = l_cat l /\ l_suppress l' = l_suppress l /\ l_frags l' = l_frags l /\ l_stmts l' = l_stmts l /\
  Forall2 same_code (l_layout l) (l_layout l').
(** The text of a compound line that was read can be made again: its first line starts before column 74, between its lines
    are only comments, and no keyword like `goto`, written as one word, is inside a statement. *)
Definition writable (l : LLn) : Prop := has_fortran l = true -> has_semi l = true ->
  lead (hd fl_default (l_layout l)) + 2 < 76 /\ Forall (fun g => is_comment g = true \/ is_fortran g = true) (tl (l_layout l)) /\ spaced (l_frags l).
