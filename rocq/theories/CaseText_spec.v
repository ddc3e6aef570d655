(** Texts, lines and tokens that differ only in upper and lower case. *)
From Verif Require Import Base FileLine Token LogicalLine Peg.
Local Open Scope nat_scope.

(** the same text up to upper and lower case *)
Definition recased (a b : str) : Prop := map lower_b b = map lower_b a.
(** [w] occurs in [s] *)
Definition holds (w s : str) : Prop := exists u v, s = u ++ w ++ v.
(** lines of a file; a line with #flpr in it, in any case, is left alone *)
Definition recased_line (a b : str) : Prop := recased a b /\ (holds (L "#flpr") (map lower_b a) -> b = a).
Definition recased_fl (f g : File_Line) : Prop :=
  linenum g = linenum f /\ recased (left_txt f) (left_txt g) /\ recased (left_space f) (left_space g) /\ recased (main_txt f) (main_txt g) /\
  recased (right_space f) (right_space g) /\ recased (right_txt f) (right_txt g) /\ open_delim g = open_delim f /\ bits g = bits f.
(** tokens that agree in everything else: kind, line, columns, blanks around them *)
Definition recased_tok (x y : Token) : Prop := recased (tk_text x) (tk_text y) /\ y = set_text x (tk_text y).
Definition recased_ll (l l' : LLn) : Prop :=
  l_label l' = l_label l /\ l_cat l' = l_cat l /\ l_suppress l' = l_suppress l /\ l_reformat l' = l_reformat l /\ l_nsemi l' = l_nsemi l /\
  l_stmts l' = l_stmts l /\ Forall2 recased_fl (l_layout l) (l_layout l') /\ Forall2 recased_tok (l_frags l) (l_frags l').
(** two outcomes of the same kind, with results in a relation *)
Definition both {A} (R : A -> A -> Prop) (o o' : out A) : Prop :=
  match o, o' with Done a, Done b => R a b | Bad, Bad => True | Fuel, Fuel => True | _, _ => False end.
Definition both_res {A} (R : A -> A -> Prop) (o o' : res A) : Prop :=
  match o, o' with Ok a, Ok b => R a b | Throw, Throw => True | UB, UB => True | _, _ => False end.
