(** Which statements a parser function takes, told by the first tokens. *)
From Verif Require Import Base Tags SyntaxTags Token TTStream StmtRules Peg StmtGrammar.
Local Open Scope nat_scope.

(** A stream at the begin of a statement: a range of tokens, each of some kind. *)
Definition statement (s : stream) : Prop :=
  pos s = s_beg s /\ s_beg s <= s_end s /\ s_end s <= length (frags s) /\
  forall p t, s_beg s <= p -> p < s_end s -> nth_error (frags s) p = Some t -> tok t <> BAD.
(** the kind of its token number [j], if it has that many *)
Definition kind_at (s : stream) (j : nat) : option Z :=
  if s_beg s + j <? s_end s then option_map tok (nth_error (frags s) (s_beg s + j)) else None.
(** The parser function returns a tree. *)
Definition takes (exts : bool -> list ext) (r : rule) (s : stream) : Prop :=
  exists n t s', parse_rule grammar exts n r s = Done (Some t, s').

(** ** The word a statement begins with *)
Definition type_words : list Z :=
  [KW_INTEGER; KW_REAL; KW_COMPLEX; KW_LOGICAL; KW_DOUBLE; KW_DOUBLEPRECISION; KW_CHARACTER; KW_TYPE; KW_CLASS].
Definition prefix_words : list Z :=
  [KW_ELEMENTAL; KW_IMPURE; KW_NON_RECURSIVE; KW_PURE; KW_RECURSIVE; KW_MODULE] ++ type_words.
Definition openings : list (rule * list Z) :=
  [ (r_access_stmt, [KW_PUBLIC; KW_PRIVATE]); (r_allocatable_stmt, [KW_ALLOCATABLE]); (r_allocate_stmt, [KW_ALLOCATE]);
    (r_arithmetic_if_stmt, [KW_IF]); (r_asynchronous_stmt, [KW_ASYNCHRONOUS]); (r_backspace_stmt, [KW_BACKSPACE]);
    (r_bind_stmt, [KW_BIND]); (r_binding_private_stmt, [KW_PRIVATE]); (r_call_stmt, [KW_CALL]); (r_case_stmt, [KW_CASE]);
    (r_close_stmt, [KW_CLOSE]); (r_codimension_stmt, [KW_CODIMENSION]); (r_common_stmt, [KW_COMMON]); (r_component_def_stmt,
    KW_PROCEDURE :: type_words); (r_computed_goto_stmt, [KW_GO]); (r_contains_stmt, [KW_CONTAINS]); (r_continue_stmt,
    [KW_CONTINUE]); (r_cycle_stmt, [KW_CYCLE]); (r_data_component_def_stmt, type_words); (r_data_stmt, [KW_DATA]);
    (r_deallocate_stmt, [KW_DEALLOCATE]); (r_derived_type_stmt, [KW_TYPE]); (r_dimension_stmt, [KW_DIMENSION]);
    (r_else_stmt, [KW_ELSE]); (r_else_if_stmt, [KW_ELSE]); (r_elsewhere_stmt, [KW_ELSE]); (r_end_associate_stmt, [KW_END]);
    (r_end_block_stmt, [KW_END]); (r_end_do_stmt, [KW_END]); (r_end_enum_stmt, [KW_END]); (r_end_forall_stmt, [KW_END]);
    (r_end_function_stmt, [KW_END]); (r_end_if_stmt, [KW_END]); (r_end_interface_stmt, [KW_END]); (r_end_module_stmt,
    [KW_END]); (r_end_mp_subprogram_stmt, [KW_END]); (r_end_program_stmt, [KW_END]); (r_end_select_stmt, [KW_END]);
    (r_end_select_rank_stmt, [KW_END]); (r_end_select_type_stmt, [KW_END]); (r_end_submodule_stmt, [KW_END]);
    (r_end_subroutine_stmt, [KW_END]); (r_end_type_stmt, [KW_END]); (r_end_where_stmt, [KW_END]); (r_endfile_stmt,
    [KW_END]); (r_entry_stmt, [KW_ENTRY]); (r_enumerator_def_stmt, [KW_ENUMERATOR]); (r_enum_def_stmt, [KW_ENUM]);
    (r_equivalence_stmt, [KW_EQUIVALENCE]); (r_error_stop_stmt, [KW_ERROR]); (r_event_post_stmt, [KW_EVENT]);
    (r_event_wait_stmt, [KW_EVENT]); (r_exit_stmt, [KW_EXIT]); (r_external_stmt, [KW_EXTERNAL]); (r_fail_image_stmt,
    [KW_FAIL]); (r_form_team_stmt, [KW_FORM]); (r_final_procedure_stmt, [KW_FINAL]); (r_flush_stmt, [KW_FLUSH]);
    (r_forall_stmt, [KW_FORALL]); (r_format_stmt, [KW_FORMAT]); (r_function_stmt, KW_FUNCTION :: prefix_words);
    (r_generic_stmt, [KW_GENERIC]); (r_goto_stmt, [KW_GO]); (r_if_stmt, [KW_IF]); (r_implicit_stmt, [KW_IMPLICIT]);
    (r_inquire_stmt, [KW_INQUIRE]); (r_intent_stmt, [KW_INTENT]); (r_intrinsic_stmt, [KW_INTRINSIC]); (r_lock_stmt,
    [KW_LOCK]); (r_masked_elsewhere_stmt, [KW_ELSE]); (r_module_stmt, [KW_MODULE]); (r_mp_subprogram_stmt, [KW_MODULE]);
    (r_namelist_stmt, [KW_NAMELIST]); (r_nullify_stmt, [KW_NULLIFY]); (r_open_stmt, [KW_OPEN]); (r_optional_stmt,
    [KW_OPTIONAL]); (r_parameter_stmt, [KW_PARAMETER]); (r_pointer_stmt, [KW_POINTER]); (r_print_stmt, [KW_PRINT]);
    (r_private_components_stmt, [KW_PRIVATE]); (r_proc_component_def_stmt, [KW_PROCEDURE]); (r_procedure_declaration_stmt,
    [KW_PROCEDURE]); (r_procedure_stmt, [KW_MODULE; KW_PROCEDURE]); (r_program_stmt, [KW_PROGRAM]); (r_protected_stmt,
    [KW_PROTECTED]); (r_read_stmt, [KW_READ]); (r_return_stmt, [KW_RETURN]); (r_rewind_stmt, [KW_REWIND]); (r_save_stmt,
    [KW_SAVE]); (r_select_rank_case_stmt, [KW_RANK]); (r_sequence_stmt, [KW_SEQUENCE]); (r_stop_stmt, [KW_STOP]);
    (r_submodule_stmt, [KW_SUBMODULE]); (r_subroutine_stmt, KW_SUBROUTINE :: prefix_words); (r_sync_all_stmt, [KW_SYNC]);
    (r_sync_images_stmt, [KW_SYNC]); (r_sync_memory_stmt, [KW_SYNC]); (r_sync_team_stmt, [KW_SYNC]); (r_target_stmt,
    [KW_TARGET]); (r_type_bound_generic_stmt, [KW_GENERIC]); (r_type_bound_procedure_stmt, [KW_PROCEDURE]);
    (r_type_declaration_stmt, type_words); (r_type_guard_stmt, [KW_TYPE; KW_CLASS]); (r_type_param_def_stmt, [KW_INTEGER]);
    (r_unlock_stmt, [KW_UNLOCK]); (r_use_stmt, [KW_USE]); (r_value_stmt, [KW_VALUE]); (r_volatile_stmt, [KW_VOLATILE]);
    (r_wait_stmt, [KW_WAIT]); (r_where_stmt, [KW_WHERE]); (r_write_stmt, [KW_WRITE]); (r_end_do, [KW_CONTINUE; KW_END]) ].
(** These may have a construct name and a colon in front. *)
Definition construct_openings : list (rule * Z) :=
  [ (r_associate_stmt, KW_ASSOCIATE); (r_block_stmt, KW_BLOCK); (r_do_stmt, KW_DO); (r_label_do_stmt, KW_DO);
    (r_nonlabel_do_stmt, KW_DO); (r_forall_construct_stmt, KW_FORALL); (r_if_then_stmt, KW_IF); (r_select_case_stmt, KW_SELECT);
    (r_select_rank_stmt, KW_SELECT); (r_select_type_stmt, KW_SELECT); (r_where_construct_stmt, KW_WHERE) ].
(** These begin with a name (any keyword can be one), followed by one of a few
    kinds of tokens. *)
Definition name_openings : list (rule * list Z) :=
  [ (r_assignment_stmt, [TK_EQUAL; TK_PARENL; TK_BRACKETL; TK_PERCENT]);
    (r_pointer_assignment_stmt, [TK_ARROW; TK_PARENL; TK_BRACKETL; TK_PERCENT]);
    (r_macro_stmt, [TK_PARENL]) ].
(** The END statements: the second word; whether it can be left out. *)
Definition end_words : list (rule * Z * bool) :=
  [ (r_end_associate_stmt, KW_ASSOCIATE, false); (r_end_block_stmt, KW_BLOCK, false); (r_end_do_stmt, KW_DO, false);
    (r_end_enum_stmt, KW_ENUM, false); (r_end_forall_stmt, KW_FORALL, false); (r_end_if_stmt, KW_IF, false);
    (r_end_interface_stmt, KW_INTERFACE, false); (r_end_select_stmt, KW_SELECT, false); (r_end_select_rank_stmt, KW_SELECT, false);
    (r_end_select_type_stmt, KW_SELECT, false); (r_end_type_stmt, KW_TYPE, false); (r_end_where_stmt, KW_WHERE, false);
    (r_endfile_stmt, KW_FILE, false);
    (r_end_function_stmt, KW_FUNCTION, true); (r_end_module_stmt, KW_MODULE, true); (r_end_mp_subprogram_stmt, KW_PROCEDURE, true);
    (r_end_program_stmt, KW_PROGRAM, true); (r_end_submodule_stmt, KW_SUBMODULE, true); (r_end_subroutine_stmt, KW_SUBROUTINE, true) ].

(** ** Statements that end or divide a part of the program *)
Definition unit_ends : list rule :=
  [r_end_function_stmt; r_end_module_stmt; r_end_mp_subprogram_stmt; r_end_program_stmt; r_end_submodule_stmt; r_end_subroutine_stmt].
Definition select_ends : list rule := [r_end_select_stmt; r_end_select_rank_stmt; r_end_select_type_stmt].
Definition delimiters : list rule :=
  unit_ends ++ select_ends ++
  [ r_contains_stmt; r_end_associate_stmt; r_end_block_stmt; r_end_do_stmt; r_end_enum_stmt; r_end_forall_stmt; r_end_if_stmt;
    r_end_interface_stmt; r_end_type_stmt; r_end_where_stmt; r_else_stmt; r_else_if_stmt; r_elsewhere_stmt; r_masked_elsewhere_stmt;
    r_type_guard_stmt ].
(** Some share statements: END alone, END SELECT, and ELSE WHERE (which is also
    ELSE with the construct name WHERE). *)
Definition groups : list (list rule) := [unit_ends; select_ends; [r_else_stmt; r_elsewhere_stmt]].
Definition share (r1 r2 : rule) : Prop := exists g, In g groups /\ In r1 g /\ In r2 g.
