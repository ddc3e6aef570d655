(** A text without blanks at its ends, which is not empty. *)
From Verif Require Import Base.
Definition tight (m : str) : Prop := (exists c r, m = c :: r /\ c <> c_sp) /\ (exists c r, m = r ++ [c] /\ c <> c_sp).
