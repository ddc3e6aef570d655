(** Specification vocabulary for program trees. *)
From Verif Require Import Base Tags Token StmtRules Peg LabelStack Prgm.
Local Open Scope nat_scope.

(** The statements at the leaves, from left to right, each with whether it hangs
    directly under a do-term-shared-stmt node. *)
Fixpoint g_leaves (sh : bool) (t : ptree) : list (nat * bool) :=
  match t with
  | PT _ _ (Some i) _ => [(i, sh)]
  | PT g _ None kids => flat_map (g_leaves (g =? PG_DO_TERM_SHARED_STMT)%Z) kids
  end.
Definition leaves_of (t : ptree) : list (nat * bool) := g_leaves false t.

(** Every statement is followed by the next one; only the terminating statement
    of a shared DO may occur again at once. *)
Inductive steps : list (nat * bool) -> Prop :=
| steps_nil : steps []
| steps_one a : steps [a]
| steps_cons i f j g l :
    j = S i \/ (f = true /\ j = i) -> steps ((j, g) :: l) -> steps ((i, f) :: (j, g) :: l).

(** From the first to the last leaf *)
Definition span (l : list (nat * bool)) : option (nat * nat) :=
  match l with
  | [] => None
  | (i, _) :: _ => Some (i, S (fst (last l (i, false))))
  end.

(** At every node the leaves below follow each other and the statement range is
    the statements from the first to the last of them. *)
Inductive tiled : ptree -> Prop :=
| tiled_leaf tag i : tiled (stmt_leaf tag i)
| tiled_node tag kids :
    Forall tiled kids ->
    steps (leaves_of (PT tag None None kids)) ->
    tiled (PT tag (span (leaves_of (PT tag None None kids))) None kids).

(** Leaves that are exactly the statements from [b] up to [e], in order, where
    the last may be one more: a shared terminator that is still to come. *)
Inductive exactly : nat -> list (nat * bool) -> nat -> Prop :=
| exactly_nil b : exactly b [] b
| exactly_next b f l e : exactly (S b) l e -> exactly b ((b, f) :: l) e
| exactly_again b l e : exactly b l e -> exactly b ((b, true) :: l) e.

(** The nodes of a tree *)
Inductive node_of : ptree -> ptree -> Prop :=
| node_root t : node_of t t
| node_kid t tag r i kids k : In k kids -> node_of t k -> node_of t (PT tag r i kids).

(** The leaves with their tags *)
Fixpoint g_tags (sh : bool) (t : ptree) : list (nat * bool * Z) :=
  match t with
  | PT g _ (Some i) _ => [(i, sh, g)]
  | PT g _ None kids => flat_map (g_tags (g =? PG_DO_TERM_SHARED_STMT)%Z) kids
  end.

(** The parsers of parse_stmt.cc that are not for whole statements and whose
    trees have another root than the rule's own tag; no program rule uses them. *)
Definition for_statements (r : rule) : bool :=
  match r with r_consume_parens | r_list_name | r_bind_c | r_expr | r_procedure_designator => false | _ => true end.
(** No statement tree has HOIST at its root. *)
Definition roots_real (x : stmts) : Prop :=
  forall r i t, for_statements r = true -> x_parse x i r = Done (Some t) -> t_tag t <> HOIST.
