(** What it means for physical lines to spell a sequence of tokens. *)
From Verif Require Import Base FileLine Token.
Local Open Scope nat_scope.

Definition gap (x : Token) : str := match tk_pre x with Some z => spaces (Z.to_nat z) | None => [] end.
(** A token broken over several lines: every part but the first is marked. *)
Definition broken (pieces : list str) : list str :=
  match pieces with [] => [] | p :: r => p :: map (cons "&"%char) r end.
(** Every token goes, after its blanks, at the end of the last line, or starts a
    new line, where it may be broken. *)
Inductive spelled : list Token -> list str -> Prop :=
| spelled_nil : spelled [] []
| spelled_same : forall l ls m x, spelled l (ls ++ [m]) -> spelled (l ++ [x]) (ls ++ [m ++ gap x ++ tk_text x])
| spelled_next : forall l ls x pieces, spelled l ls -> pieces <> [] -> concat pieces = tk_text x ->
    spelled (l ++ [x]) (ls ++ broken pieces).
(** The same, no token being broken. *)
Inductive unbroken : list Token -> list str -> Prop :=
| unbroken_nil : unbroken [] []
| unbroken_same : forall l ls m x, unbroken l (ls ++ [m]) -> unbroken (l ++ [x]) (ls ++ [m ++ gap x ++ tk_text x])
| unbroken_next : forall l ls x, unbroken l ls -> unbroken (l ++ [x]) (ls ++ [tk_text x]).
Definition lead (f : File_Line) : nat := length (left_txt f) + length (left_space f).
(** The column where the main text of a line ends. *)
Definition width (f : File_Line) : nat := lead f + length (main_txt f).
Definition fortran_lines (l : list File_Line) : list File_Line := filter is_fortran l.
(** All but the last line are continued. *)
Definition continues (l : list File_Line) : Prop :=
  forall p f q, l = p ++ f :: q -> is_continued f = negb (is_empty q).
