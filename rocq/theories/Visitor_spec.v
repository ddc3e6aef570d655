(** The procedures of a file. *)
From Verif Require Import Base Tags LabelStack Prgm.
Local Open Scope nat_scope.

Definition is_procedure (g : Z) : bool :=
  existsb (Z.eqb g) [PG_FUNCTION_SUBPROGRAM; PG_SUBROUTINE_SUBPROGRAM; PG_MAIN_PROGRAM; PG_SEPARATE_MODULE_SUBPROGRAM].

(** All procedures of a tree from the first to the last, wherever they stand: the
    way to each from the root (numbers of branches), and the kinds of the parts
    around it, the nearest first. *)
Record proc := mkProc { q_way : list nat; q_around : list Z }.
Fixpoint procedures (way : list nat) (around : list Z) (t : ptree) : list proc :=
  match t with
  | PT g _ _ kids =>
      (if is_procedure g then [mkProc (rev way) around] else []) ++
      (fix branches (i : nat) (ks : list ptree) :=
         match ks with
         | [] => []
         | k :: ks => procedures (i :: way) (g :: around) k ++ branches (S i) ks
         end) 0 kids
  end.
Definition all_procedures (t : ptree) : list proc := procedures [] [] t.

(** inside another procedure; inside a module; number of procedures around *)
Definition inside_procedure (q : proc) : bool := existsb is_procedure (q_around q).
Definition inside_module (q : proc) : bool := existsb (Z.eqb PG_MODULE) (q_around q).
Definition depth (q : proc) : nat := length (filter is_procedure (q_around q)).

(** the node at the end of a way *)
Fixpoint node_at (t : ptree) (way : list nat) : option ptree :=
  match way with
  | [] => Some t
  | i :: way => match nth_error (g_kids t) i with Some k => node_at k way | None => None end
  end.
