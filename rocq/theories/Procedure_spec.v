(** The regions of a procedure, from its node in the program tree. *)
From Verif Require Import Base Tags Token StmtRules Peg LabelStack Prgm PrgmTree_spec.
Local Open Scope nat_scope.

(** the statements of a node *)
Definition stmts_of (t : ptree) : list nat := match g_rng t with Some (b, e) => seq b (e - b) | None => [] end.
(** the nodes of certain kinds among others *)
Definition of_kind (tags : list Z) (ks : list ptree) : list ptree := filter (fun k => existsb (Z.eqb (g_tag k)) tags) ks.

Definition begin_kinds : list Z := [SG_PROGRAM_STMT; SG_FUNCTION_STMT; SG_SUBROUTINE_STMT; SG_MP_SUBPROGRAM_STMT].
Definition end_kinds : list Z := [SG_END_PROGRAM_STMT; SG_END_FUNCTION_STMT; SG_END_SUBROUTINE_STMT; SG_END_MP_SUBPROGRAM_STMT].
(** The nodes that make up region [r] of procedure [u]: 0 the first statement,
    1 to 4 the USE statements, IMPORT statements, implicit part and declarations
    of the specification part, 5 the execution part, 6 the internal procedures
    with the CONTAINS statement, 7 the END statement. *)
Definition region_nodes (u : ptree) (r : nat) : list ptree :=
  let spec := flat_map g_kids (of_kind [PG_SPECIFICATION_PART] (g_kids u)) in
  match r with
  | 0 => of_kind begin_kinds (g_kids u)
  | 1 => of_kind [SG_USE_STMT] spec
  | 2 => of_kind [SG_IMPORT_STMT] spec
  | 3 => of_kind [PG_IMPLICIT_PART] spec
  | 4 => of_kind [PG_DECLARATION_CONSTRUCT] spec
  | 5 => of_kind [PG_EXECUTION_PART] (g_kids u)
  | 6 => of_kind [PG_INTERNAL_SUBPROGRAM_PART] (g_kids u)
  | 7 => of_kind end_kinds (g_kids u)
  | _ => []
  end.
Definition region_stmts (u : ptree) (r : nat) : list nat := flat_map stmts_of (region_nodes u r).

(** No statement reads both as an action statement and as one that ends the
    execution part. *)
Definition apart (x : stmts) : Prop :=
  forall i g, stmt_is x i SG_ACTION_STMT -> In g (SG_CONTAINS_STMT :: end_kinds) -> ~ stmt_is x i g.

From Verif Require Import TTStream PrgmSource StmtApart_spec.
(** Every statement of the file is a range of tokens of some kind. *)
Definition whole (l : list source_stmt) : Prop := Forall (fun q => statement (stream_of (ss_frags q) (ss_beg q) (ss_end q))) l.

From Verif Require Import RangePartition RangePartition_spec Procedure.
(** The object shows the regions of the procedure: each says whether it is empty,
    and its iterators delimit its statements in the list of the statements of
    the file ([num] of them, and the end of the list). *)
Definition shows (num : nat) (u : ptree) (P : procedure) : Prop :=
  forall r, r < NUM_REGION_TAG ->
    region_empty (pr_parts P) r = Ok (is_empty (region_stmts u r)) /\
    (region_stmts u r <> [] -> exists b e, cbegin (pr_parts P) r = Ok b /\ cend (pr_parts P) r = Ok e /\
       delimits (seq 0 (S num)) b e (region_stmts u r)).

From Verif Require Import Visitor.
(** [tracks root r c]: c is the cursor that is to be told when region [r] of the
    procedure at [root] gets a new first or last statement: the node that holds
    the statements of the region. *)
Definition tracks (root : pcur) (r : nat) (c : pcur) : Prop :=
  let child := exists k, c_path c = k :: c_path root in
  match r with
  | 0 => c_path c = 0 :: c_path root
  | 1 | 2 | 4 => c_tag c = PG_SPECIFICATION_PART /\ child
  | 3 => c_tag c = PG_IMPLICIT_PART /\ exists j k, c_path c = j :: k :: c_path root
  | 5 => c_tag c = PG_EXECUTION_PART /\ child
  | 6 => c_tag c = PG_INTERNAL_SUBPROGRAM_PART /\ child
  | 7 => In (c_tag c) end_kinds /\ child
  | _ => False
  end.
