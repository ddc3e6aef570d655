(** Tokens that a parser cannot tell apart. *)
From Verif Require Import Base Token TTStream StmtRules Peg LabelStack Prgm PrgmSource LogicalLine.
Local Open Scope nat_scope.

(** of the same kind, with the same text up to upper and lower case *)
Definition alike (x y : Token) : Prop := tok y = tok x /\ map lower_b (tk_text y) = map lower_b (tk_text x).
(** the stream on other tokens, at the same place *)
Definition on_tokens (fr : list Token) (s : stream) : stream := mkS fr (s_beg s) (s_end s) (pos s).
(** an outcome, on other tokens *)
Definition on_tokens_out {A} (fr : list Token) (o : out (A * stream)) : out (A * stream) :=
  match o with Done (a, s) => Done (a, on_tokens fr s) | Bad => Bad | Fuel => Fuel end.
(** an extension that sees of the tokens what the parsers see, and stays on the statement it is given *)
Definition fair_ext (e : ext) : Prop :=
  (forall s fr, Forall2 alike (frags s) fr -> e (on_tokens fr s) = on_tokens_out fr (e s)) /\
  (forall s t s', e s = Done (t, s') -> frags s' = frags s).
(** statements that differ in the columns of their tokens, the blanks around them, or in case *)
Definition alike_stmt (q q' : source_stmt) : Prop :=
  ss_label q' = ss_label q /\ ss_beg q' = ss_beg q /\ ss_end q' = ss_end q /\ Forall2 alike (ss_frags q) (ss_frags q').
(** lines whose statements are alike: the same labels, kinds and token ranges *)
Definition alike_line (l l' : LLn) : Prop :=
  l_label l' = l_label l /\ l_cat l' = l_cat l /\ l_suppress l' = l_suppress l /\ l_stmts l' = l_stmts l /\ Forall2 alike (l_frags l) (l_frags l').
