(** The procedures caliper and module work on. *)
From Verif Require Import Base Tags LabelStack Prgm PrgmTree_spec Visitor_spec Procedure_spec.
Local Open Scope nat_scope.

(** A procedure that is not inside another one and has an execution part. *)
Definition outer (t : ptree) (q : proc) : bool :=
  negb (inside_procedure q) &&
  match node_at t (q_way q) with Some u => negb (is_empty (region_stmts u 5)) | None => false end.
(** Its first statement, if it has one (a main program need not), is not one of those that are left out. *)
Definition admitted (excl : nat -> bool) (t : ptree) (q : proc) : bool :=
  match node_at t (q_way q) with Some u => negb (existsb excl (region_stmts u 0)) | None => false end.
(** Every procedure that is not inside another one has at least two statements: there is more to it than END. *)
Definition not_just_end (t : ptree) : Prop :=
  forall q u, In q (all_procedures t) -> inside_procedure q = false -> node_at t (q_way q) = Some u -> 2 <= length (stmts_of u).
