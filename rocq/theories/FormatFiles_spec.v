(** C81: what it means that flpr-format treats each file by itself. *)
From Verif Require Import Base Token LogicalLine LineEdit Lexer Lexer_spec Peg Utils FormatFiles.

(** several runs, one after the other: what they write, up to the first that does not come to an end *)
Fixpoint in_turn (l : list (out str)) : out str :=
  match l with
  | [] => Done []
  | Done a :: r => match in_turn r with Done b => Done (a ++ b) | Bad => Bad | Fuel => Fuel end
  | Bad :: _ => Bad
  | Fuel :: _ => Fuel
  end.

(** flpr-format has no use for the file: it cannot be opened, or its name does not tell what it is *)
Definition no_use (f : named) : Prop := n_text f = None \/ file_type_from_extension (n_name f) = Ok FT_UNKNOWN.

(** the last token of the lines is part of a real literal *)
Definition ends_in_real (ls : list LLn) : Prop := exists p x, flat_map l_frags ls = p ++ [x] /\ real_part (tok x).

(** a line with one statement at most, and no semicolon *)
Definition single (l : LLn) : Prop := length (l_stmts l) <= 1 /\ l_nsemi l = 0%Z.
