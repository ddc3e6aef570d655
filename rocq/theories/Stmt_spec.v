(** What users of the statement parsers rely on. *)
From Verif Require Import Base Tags SyntaxTags Token TTStream StmtRules Peg Peg_spec StmtGrammar.
Local Open Scope nat_scope.

(** r does not come to procedure_designator: it is in a set of rules that call
    only each other, without it. *)
Definition avoids_designator (r : rule) : Prop :=
  exists A : rule -> bool, A r = true /\
    forall q, A q = true -> not_designator (grammar q) = true /\
      forall p, body_exp (grammar q) = Some p -> calls A p = true.

(** The statement parsers that the program parser or the user registers. *)
Definition exts_ok (exts : bool -> list ext) : Prop := forall a, Forall ext_ok (exts a) /\ Forall ext_safe (exts a).
Definition exts_end (exts : bool -> list ext) : Prop := forall a, Forall ext_ends (exts a).
Definition exts_same (exts : bool -> list ext) : Prop := forall a, Forall ext_same (exts a).

(** The extension e does not want the statement at s. *)
Definition declines (s : stream) (e : ext) : Prop := exists s1, e s = Done (None, s1).

(** The alternatives of action_stmt. *)
Definition action_alternatives : list pexp :=
  match grammar r_action_stmt with RExt _ _ (PAlts _ ps) => ps | _ => [] end.

(** The matches of p one after the other, from s to s'. *)
Inductive successive (P : stream -> stream -> Prop) : stream -> stream -> Prop :=
| succ_none s : successive P s s
| succ_more s s1 s' : P s s1 -> successive P s1 s' -> successive P s s'.

(** The statements whose parser may come to procedure_designator. *)
Definition designator_stmts : list Z :=
  [SG_ACTION_STMT; SG_ALLOCATE_STMT; SG_ASSIGNMENT_STMT; SG_ASSOCIATE_STMT; SG_CALL_STMT; SG_COMPONENT_DEF_STMT;
   SG_DATA_STMT; SG_DEALLOCATE_STMT; SG_EQUIVALENCE_STMT; SG_EVENT_POST_STMT; SG_EVENT_WAIT_STMT;
   SG_FORALL_ASSIGNMENT_STMT; SG_FORALL_STMT; SG_FORM_TEAM_STMT; SG_IF_STMT; SG_INQUIRE_STMT; SG_LOCK_STMT;
   SG_NULLIFY_STMT; SG_OTHER_SPECIFICATION_STMT; SG_POINTER_ASSIGNMENT_STMT; SG_PRINT_STMT; SG_PROC_COMPONENT_DEF_STMT;
   SG_PROCEDURE_DECLARATION_STMT; SG_READ_STMT; SG_SELECT_RANK_STMT; SG_SELECT_TYPE_STMT; SG_SYNC_ALL_STMT;
   SG_SYNC_IMAGES_STMT; SG_SYNC_MEMORY_STMT; SG_SYNC_TEAM_STMT; SG_UNLOCK_STMT; SG_WAIT_STMT; SG_WHERE_STMT; SG_WRITE_STMT].
(** The entries of the dispatch table that accept less than a whole statement:
    two by mistake, loop_control because it is a part of a statement. *)
Definition partial_stmts : list Z := [SG_IMPORT_STMT; SG_INTERFACE_STMT; SG_LOOP_CONTROL].
