(** The label that a DO statement is written with. *)
From Verif Require Import Base Tags Token TTStream.
Local Open Scope nat_scope.

(** token p belongs to the statement and is a g *)
Definition is_kind (s : stream) (p : nat) (g : Z) : bool :=
  (p <? s_end s) && match nth_error (frags s) p with Some x => (tok x =? g)%Z | None => false end.
(** the place of the word DO: behind "name :" or at the begin *)
Definition do_place (s : stream) : nat := if is_kind s (S (pos s)) TK_COLON then pos s + 2 else pos s.
(** the number behind the word, 0 if there is none *)
Definition written_label (s : stream) : res Z :=
  let p := S (do_place s) in
  if is_kind s p SG_INT_LITERAL_CONSTANT
  then match nth_error (frags s) p with Some x => stoi (tk_text x) | None => UB end
  else Ok 0%Z.
