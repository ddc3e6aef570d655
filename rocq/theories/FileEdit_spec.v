(** Independent vocabulary for the File_Line editing properties. *)
From Verif Require Import Base FileLine_spec.

(** Two texts that differ only in their leading blanks. *)
Definition same_upto_leading_blanks (a b : str) : Prop :=
  exists n m core, a = spaces n ++ core /\ b = spaces m ++ core.

(** Value of a decimal numeral. *)
Fixpoint dec_value (acc : Z) (s : str) : Z :=
  match s with
  | [] => acc
  | c :: r => dec_value (10 * acc + (Z.of_nat (code c) - 48))%Z r
  end.
(** [s] is the decimal numeral of [n]: digits only, value [n]. *)
Definition numeral (s : str) (n : Z) : Prop :=
  all_digits s /\ s <> [] /\ dec_value 0 s = n.
