(** The parts of a Fortran program and what they consist of (Fortran 2018, rules
    R501-R517, R726, R759, R1101-R1154, R1401-R1543; the DO loops that do not end
    in their own END DO as in Fortran 2008, R828-R834), written with the syntax
    tags of the parts.  A part without statements that the standard calls optional,
    or lists that may be empty, appear as empty parts if they come before the
    statements that decide what follows: specification parts, implicit parts. *)
From Verif Require Import Base Tags Token StmtRules Peg LabelStack Prgm.
Local Open Scope Z_scope.

(** Sequences of parts *)
Inductive rx : Set :=
| Eps
| T (g : Z)
| Cat (a b : rx)
| Or (a b : rx)
| Many (a : rx).
Inductive spells : rx -> list Z -> Prop :=
| sp_eps : spells Eps []
| sp_tag g : spells (T g) [g]
| sp_cat a b u v : spells a u -> spells b v -> spells (Cat a b) (u ++ v)
| sp_left a b u : spells a u -> spells (Or a b) u
| sp_right a b u : spells b u -> spells (Or a b) u
| sp_none a : spells (Many a) []
| sp_more a u v : spells a u -> spells (Many a) v -> spells (Many a) (u ++ v).

Definition sq (l : list rx) : rx := fold_right Cat Eps l.
Fixpoint one_of (l : list rx) : rx :=
  match l with [] => Eps | [a] => a | a :: r => Or a (one_of r) end.
Definition opt (a : rx) : rx := Or Eps a.
Definition some_of (a : rx) : rx := Cat a (Many a).

Definition do_part : rx := one_of [T PG_DO_CONSTRUCT; T PG_NONBLOCK_DO_CONSTRUCT].
Definition subprogram_body (last : Z) : list rx :=
  [T PG_SPECIFICATION_PART; opt (T PG_EXECUTION_PART); opt (T PG_INTERNAL_SUBPROGRAM_PART); T last].

Definition productions : list (Z * rx) :=
  [ (PG_PROGRAM, sq [some_of (T PG_PROGRAM_UNIT); Eps])
  ; (PG_PROGRAM_UNIT, one_of [T PG_EXTERNAL_SUBPROGRAM; T PG_MODULE; T PG_MAIN_PROGRAM])
  ; (PG_EXTERNAL_SUBPROGRAM, one_of [T PG_FUNCTION_SUBPROGRAM; T PG_SUBROUTINE_SUBPROGRAM])
  ; (PG_MAIN_PROGRAM, sq (opt (T SG_PROGRAM_STMT) :: subprogram_body SG_END_PROGRAM_STMT))
  ; (PG_FUNCTION_SUBPROGRAM, sq (T SG_FUNCTION_STMT :: subprogram_body SG_END_FUNCTION_STMT))
  ; (PG_SUBROUTINE_SUBPROGRAM, sq (T SG_SUBROUTINE_STMT :: subprogram_body SG_END_SUBROUTINE_STMT))
  ; (PG_SEPARATE_MODULE_SUBPROGRAM, sq (T SG_MP_SUBPROGRAM_STMT :: subprogram_body SG_END_MP_SUBPROGRAM_STMT))
  ; (PG_MODULE, sq [T SG_MODULE_STMT; T PG_SPECIFICATION_PART; opt (T PG_MODULE_SUBPROGRAM_PART); T SG_END_MODULE_STMT])
  ; (PG_MODULE_SUBPROGRAM_PART, sq [T SG_CONTAINS_STMT; Many (T PG_MODULE_SUBPROGRAM)])
  ; (PG_MODULE_SUBPROGRAM, one_of [T PG_FUNCTION_SUBPROGRAM; T PG_SUBROUTINE_SUBPROGRAM; T PG_SEPARATE_MODULE_SUBPROGRAM])
  ; (PG_INTERNAL_SUBPROGRAM_PART, sq [T SG_CONTAINS_STMT; Many (T PG_INTERNAL_SUBPROGRAM)])
  ; (PG_INTERNAL_SUBPROGRAM, one_of [T PG_FUNCTION_SUBPROGRAM; T PG_SUBROUTINE_SUBPROGRAM])
  ; (PG_SPECIFICATION_PART,
     sq [Many (T SG_USE_STMT); Many (T SG_IMPORT_STMT); T PG_IMPLICIT_PART; Many (T PG_DECLARATION_CONSTRUCT)])
  ; (PG_IMPLICIT_PART, Many (T PG_IMPLICIT_PART_STMT))
  ; (PG_IMPLICIT_PART_STMT, one_of [T SG_IMPLICIT_STMT; T SG_PARAMETER_STMT; T SG_FORMAT_STMT; T SG_ENTRY_STMT])
  ; (PG_DECLARATION_CONSTRUCT, one_of [T PG_SPECIFICATION_CONSTRUCT; T SG_DATA_STMT; T SG_FORMAT_STMT; T SG_ENTRY_STMT])
  ; (PG_SPECIFICATION_CONSTRUCT,
     one_of [T PG_DERIVED_TYPE_DEF; T PG_ENUM_DEF; T SG_GENERIC_STMT; T PG_INTERFACE_BLOCK; T SG_PARAMETER_STMT;
             T SG_PROCEDURE_DECLARATION_STMT; T SG_OTHER_SPECIFICATION_STMT; T SG_TYPE_DECLARATION_STMT])
  ; (PG_DERIVED_TYPE_DEF,
     sq [T SG_DERIVED_TYPE_STMT; opt (T SG_PRIVATE_OR_SEQUENCE); T PG_COMPONENT_PART; opt (T PG_TYPE_BOUND_PROCEDURE_PART);
         T SG_END_TYPE_STMT])
  ; (PG_COMPONENT_PART, Many (T SG_COMPONENT_DEF_STMT))
  ; (PG_TYPE_BOUND_PROCEDURE_PART,
     sq [T SG_CONTAINS_STMT; opt (T SG_BINDING_PRIVATE_STMT); Many (T SG_TYPE_BOUND_PROC_BINDING)])
  ; (PG_ENUM_DEF, sq [T SG_ENUM_DEF_STMT; some_of (T SG_ENUMERATOR_DEF_STMT); T SG_END_ENUM_STMT])
  ; (PG_INTERFACE_BLOCK, sq [T SG_INTERFACE_STMT; Many (T PG_INTERFACE_SPECIFICATION); T SG_END_INTERFACE_STMT])
  ; (PG_INTERFACE_SPECIFICATION, one_of [T PG_INTERFACE_BODY; T SG_PROCEDURE_STMT])
  ; (PG_INTERFACE_BODY,
     one_of [sq [T SG_FUNCTION_STMT; T PG_SPECIFICATION_PART; T SG_END_FUNCTION_STMT];
             sq [T SG_SUBROUTINE_STMT; T PG_SPECIFICATION_PART; T SG_END_SUBROUTINE_STMT]])
  ; (PG_EXECUTION_PART, sq [T PG_EXECUTABLE_CONSTRUCT; Many (T PG_EXECUTION_PART_CONSTRUCT)])
  ; (PG_EXECUTION_PART_CONSTRUCT, one_of [T PG_EXECUTABLE_CONSTRUCT; T SG_FORMAT_STMT; T SG_DATA_STMT; T SG_ENTRY_STMT])
  ; (PG_EXECUTABLE_CONSTRUCT,
     one_of [T SG_ACTION_STMT; T PG_ASSOCIATE_CONSTRUCT; T PG_BLOCK_CONSTRUCT; T PG_CASE_CONSTRUCT; do_part;
             T PG_IF_CONSTRUCT; T PG_SELECT_RANK_CONSTRUCT; T PG_SELECT_TYPE_CONSTRUCT; T PG_WHERE_CONSTRUCT;
             T PG_FORALL_CONSTRUCT])
  ; (PG_BLOCK, Many (T PG_EXECUTION_PART_CONSTRUCT))
  ; (PG_ASSOCIATE_CONSTRUCT, sq [T SG_ASSOCIATE_STMT; T PG_BLOCK; T SG_END_ASSOCIATE_STMT])
  ; (PG_BLOCK_CONSTRUCT, sq [T SG_BLOCK_STMT; T PG_BLOCK_SPECIFICATION_PART; T PG_BLOCK; T SG_END_BLOCK_STMT])
  ; (PG_BLOCK_SPECIFICATION_PART,
     sq [Many (T SG_USE_STMT); Many (T SG_IMPORT_STMT);
         opt (Cat (Many (T PG_DECLARATION_CONSTRUCT)) (opt (Cat (T PG_SPECIFICATION_CONSTRUCT) Eps)))])
  ; (PG_CASE_CONSTRUCT,
     sq [T SG_SELECT_CASE_STMT; Many (sq [T SG_CASE_STMT; T PG_BLOCK]); T SG_END_SELECT_STMT])
  ; (PG_SELECT_RANK_CONSTRUCT,
     sq [T SG_SELECT_RANK_STMT; Many (sq [T SG_SELECT_RANK_CASE_STMT; T PG_BLOCK]); T SG_END_SELECT_RANK_STMT])
  ; (PG_SELECT_TYPE_CONSTRUCT,
     sq [T SG_SELECT_TYPE_STMT; Many (sq [T SG_TYPE_GUARD_STMT; T PG_BLOCK]); T SG_END_SELECT_TYPE_STMT])
  ; (PG_IF_CONSTRUCT,
     sq [T SG_IF_THEN_STMT; T PG_BLOCK; Many (sq [T SG_ELSE_IF_STMT; T PG_BLOCK]);
         opt (sq [T SG_ELSE_STMT; T PG_BLOCK]); T SG_END_IF_STMT])
  ; (PG_WHERE_CONSTRUCT,
     sq [T SG_WHERE_CONSTRUCT_STMT; Many (T PG_WHERE_BODY_CONSTRUCT);
         Many (sq [T SG_MASKED_ELSEWHERE_STMT; Many (T PG_WHERE_BODY_CONSTRUCT)]);
         opt (sq [T SG_ELSEWHERE_STMT; Many (T PG_WHERE_BODY_CONSTRUCT)]); T SG_END_WHERE_STMT])
  ; (PG_WHERE_BODY_CONSTRUCT, one_of [T SG_ASSIGNMENT_STMT; T SG_WHERE_STMT; T PG_WHERE_CONSTRUCT])
  ; (PG_FORALL_CONSTRUCT, sq [T SG_FORALL_CONSTRUCT_STMT; Many (T PG_FORALL_BODY_CONSTRUCT); T SG_END_FORALL_STMT])
  ; (PG_FORALL_BODY_CONSTRUCT,
     one_of [T SG_FORALL_ASSIGNMENT_STMT; T SG_WHERE_STMT; T PG_WHERE_CONSTRUCT; T PG_FORALL_CONSTRUCT; T SG_FORALL_STMT])
  ; (PG_DO_CONSTRUCT, sq [T SG_DO_STMT; T PG_BLOCK; one_of [T SG_END_DO_STMT; T SG_END_DO]])
  ; (PG_NONBLOCK_DO_CONSTRUCT,
     one_of [T PG_ACTION_TERM_DO_CONSTRUCT; T PG_OUTER_SHARED_DO_CONSTRUCT; T PG_INNER_SHARED_DO_CONSTRUCT])
  ; (PG_ACTION_TERM_DO_CONSTRUCT, sq [T SG_DO_STMT; T PG_DO_BODY; T PG_DO_TERM_ACTION_STMT])
  ; (PG_OUTER_SHARED_DO_CONSTRUCT, sq [T SG_DO_STMT; T PG_DO_BODY; T PG_DO_TERM_SHARED_STMT])
  ; (PG_INNER_SHARED_DO_CONSTRUCT, sq [T SG_DO_STMT; T PG_DO_BODY; T PG_DO_TERM_SHARED_STMT])
  ; (PG_DO_BODY, Many (T PG_EXECUTION_PART_CONSTRUCT))
  ; (PG_DO_TERM_ACTION_STMT, T SG_ACTION_STMT)
  ; (PG_DO_TERM_SHARED_STMT, T SG_ACTION_STMT) ].

(** Statement [i] can be read as a statement of kind [g]. *)
Definition stmt_is (x : stmts) (i : nat) (g : Z) : Prop :=
  exists r t, x_parse x i r = Done (Some t) /\ t_tag t = g.
(** A tree of program parts: the leaves are statements of the kind they say, the
    other nodes consist of the parts that their kind has. *)
Inductive derives (x : stmts) : ptree -> Prop :=
| derives_stmt g i :
    (i < x_num x)%nat -> stmt_is x i g -> (forall e, ~ In (g, e) productions) -> derives x (stmt_leaf g i)
| derives_part g e r kids :
    In (g, e) productions -> spells e (map g_tag kids) -> Forall (derives x) kids -> derives x (PT g r None kids).

(** The parts that each parser function is asked for. *)
Definition parts_of (r : grule) : list Z :=
  match r with
  | g_do_construct => [PG_DO_CONSTRUCT; PG_NONBLOCK_DO_CONSTRUCT]
  | g_associate_construct => [PG_ASSOCIATE_CONSTRUCT]
  | g_block => [PG_BLOCK]
  | g_block_construct => [PG_BLOCK_CONSTRUCT]
  | g_block_specification_part => [PG_BLOCK_SPECIFICATION_PART]
  | g_case_construct => [PG_CASE_CONSTRUCT]
  | g_component_part => [PG_COMPONENT_PART]
  | g_declaration_construct => [PG_DECLARATION_CONSTRUCT]
  | g_derived_type_def => [PG_DERIVED_TYPE_DEF]
  | g_enum_def => [PG_ENUM_DEF]
  | g_executable_construct => [PG_EXECUTABLE_CONSTRUCT]
  | g_execution_part => [PG_EXECUTION_PART]
  | g_execution_part_construct => [PG_EXECUTION_PART_CONSTRUCT]
  | g_external_subprogram => [PG_EXTERNAL_SUBPROGRAM]
  | g_forall_body_construct => [PG_FORALL_BODY_CONSTRUCT]
  | g_forall_construct => [PG_FORALL_CONSTRUCT]
  | g_function_subprogram => [PG_FUNCTION_SUBPROGRAM]
  | g_if_construct => [PG_IF_CONSTRUCT]
  | g_implicit_part => [PG_IMPLICIT_PART]
  | g_implicit_part_stmt => [PG_IMPLICIT_PART_STMT]
  | g_interface_block => [PG_INTERFACE_BLOCK]
  | g_interface_body => [PG_INTERFACE_BODY]
  | g_interface_specification => [PG_INTERFACE_SPECIFICATION]
  | g_internal_subprogram => [PG_INTERNAL_SUBPROGRAM]
  | g_internal_subprogram_part => [PG_INTERNAL_SUBPROGRAM_PART]
  | g_main_program => [PG_MAIN_PROGRAM]
  | g_module => [PG_MODULE]
  | g_module_subprogram => [PG_MODULE_SUBPROGRAM]
  | g_module_subprogram_part => [PG_MODULE_SUBPROGRAM_PART]
  | g_program => [PG_PROGRAM]
  | g_program_unit => [PG_PROGRAM_UNIT]
  | g_separate_module_subprogram => [PG_SEPARATE_MODULE_SUBPROGRAM]
  | g_select_rank_construct => [PG_SELECT_RANK_CONSTRUCT]
  | g_select_type_construct => [PG_SELECT_TYPE_CONSTRUCT]
  | g_specification_construct => [PG_SPECIFICATION_CONSTRUCT]
  | g_specification_part => [PG_SPECIFICATION_PART]
  | g_subroutine_subprogram => [PG_SUBROUTINE_SUBPROGRAM]
  | g_type_bound_procedure_part => [PG_TYPE_BOUND_PROCEDURE_PART]
  | g_where_body_construct => [PG_WHERE_BODY_CONSTRUCT]
  | g_where_construct => [PG_WHERE_CONSTRUCT]
  end.
