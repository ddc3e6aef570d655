(** What the links from statements to nodes are for. *)
From Verif Require Import Base Tags StmtRules Prgm Visitor_spec.
Local Open Scope nat_scope.

(** Way q is to the left of way p: they part, q to the left. *)
Definition left_of (q p : list nat) : Prop := exists c a b q' p', q = c ++ a :: q' /\ p = c ++ b :: p' /\ a < b.
(** The node at the end of way p of tree t is a leaf holding statement i. *)
Definition holds (t : ptree) (p : list nat) (i : nat) : Prop := exists u, node_at t p = Some u /\ g_kids u = [] /\ g_stmt u = Some i.
(** ... and no other such node is further to the right. *)
Definition last_holds (t : ptree) (p : list nat) (i : nat) : Prop := holds t p i /\ forall q, holds t q i -> q = p \/ left_of q p.
