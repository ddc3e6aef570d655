(** What an accumulator is for, independently of how it stores it. *)
From Verif Require Import Base LineAccum.

(** One added line. *)
Record line := mkLine { l_no : Z; l_left : Z; l_col : Z; l_main : str; l_right : Z }.

Definition add (la : Line_Accum) (l : line) : Line_Accum :=
  add_line la (l_no l) (l_left l) (l_col l) (l_main l) (l_right l).
(** The accumulator after adding [ls]. *)
Definition accum_of (ls : list line) : Line_Accum := fold_left add ls la_empty.

(** A blank where white space separated the texts. *)
Definition blank_if (n : Z) : str := if (0 <? n)%Z then [c_sp] else [].
(** Text contributed by a line that is not the first. *)
Definition contrib (l : line) : str := blank_if (l_left l) ++ l_main l ++ blank_if (l_right l).
Definition joined (ls : list line) : str :=
  match ls with
  | [] => []
  | l :: r => l_main l ++ blank_if (l_right l) ++ concat (map contrib r)
  end.

(** Where the main text of line [i] starts in the joined text. *)
Definition main_start (ls : list line) (i : nat) : nat :=
  if i =? 0 then 0
  else length (joined (firstn i ls)) +
       match nth_error ls i with Some l => length (blank_if (l_left l)) | None => 0 end.
