(** Places of statements in a program tree. *)
From Verif Require Import Base Tags SyntaxTags LabelStack Prgm Prgm_spec Indent_spec.
Local Open Scope Z_scope.

(** Statement [i] hangs somewhere in the tree under nodes whose offsets add up to [n]. *)
Inductive hangs (off : Z -> Z) (i : nat) : ptree -> Z -> Prop :=
| hangs_leaf g r : hangs off i (PT g r (Some i) []) 0
| hangs_outer g r s kids j k n : outer_part g j (length kids) -> nth_error kids j = Some k -> hangs off i k n -> hangs off i (PT g r s kids) n
| hangs_inner g r s kids j k n : ~ outer_part g j (length kids) -> nth_error kids j = Some k -> hangs off i k n -> hangs off i (PT g r s kids) (off g + n).
(** A statement that ends several DO loops hangs in the tree several times, but at one level. *)
Definition one_level (off : Z -> Z) (t : ptree) : Prop := forall i a b, hangs off i t a -> hangs off i t b -> a = b.
