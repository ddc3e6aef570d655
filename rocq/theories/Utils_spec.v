From Verif Require Import Base.

(** white space in the C locale *)
Definition white (c : ascii) : Prop := In c [" "; "009"; "010"; "011"; "012"; "013"]%char.
Definition blank (c : ascii) : Prop := In c [" "; "009"]%char.
Definition ascii7 (c : ascii) : Prop := nat_of_ascii c < 128.

(** t is s without the leading and trailing characters satisfying P *)
Definition stripped (P : ascii -> Prop) (s t : str) : Prop :=
  exists a b, s = a ++ t ++ b /\ Forall P a /\ Forall P b /\
    (forall c r, t = c :: r -> ~ P c) /\ (forall c r, t = r ++ [c] -> ~ P c).
Definition stripped_back (P : ascii -> Prop) (s t : str) : Prop :=
  exists b, s = t ++ b /\ Forall P b /\ (forall c r, t = r ++ [c] -> ~ P c).

(** s is made of the words ts, with delimiters between (at least one), before
    and after them *)
Inductive words (d : ascii) : str -> list str -> Prop :=
| w_nil : words d [] []
| w_delim : forall s ts, words d s ts -> words d (d :: s) ts
| w_last : forall w, w <> [] -> ~ In d w -> words d w [w]
| w_word : forall w s ts, w <> [] -> ~ In d w -> words d s ts -> words d (w ++ d :: s) (w :: ts).

Definition ends_in (s suffix : str) : Prop := exists a, s = a ++ suffix.
