(** When a fixed-format file and its conversion to free format are the same
    program. *)
From Verif Require Import Base Tags Token LogicalLine Lexer_spec.

(** The parts of a real literal stand on one line: where one part follows
    another, no line ends between them. *)
Definition reals_whole (ln : LLn) : Prop :=
  forall a x y b, l_frags ln = a ++ x :: y :: b -> real_part (tok x) -> real_part (tok y) -> mt_el x = mt_bl y.

(** Two logical lines with the same label and category, the same statements and
    the same tokens, wherever the tokens stand. *)
Definition same_code (l l' : LLn) : Prop :=
  l_label l' = l_label l /\ l_cat l' = l_cat l /\ l_suppress l' = l_suppress l /\ l_stmts l' = l_stmts l /\
  Forall2 (fun x y => tok y = tok x /\ tk_text y = tk_text x) (l_frags l) (l_frags l').
