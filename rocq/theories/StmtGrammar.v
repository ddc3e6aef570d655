(** The statement grammar, transcribed from src/flpr/parse_stmt.cc by
    scripts/gen_stmt_grammar.py. *)
From Verif Require Import Base Tags StmtRules Peg.

(** parse_stmt.cc:105-126 *)
Definition b_consume_parens : rbody :=
    RParens.
(** parse_stmt.cc:133-142 *)
Definition b_list_name : rbody :=
    RListName.
(** parse_stmt.cc:145-148 *)
Definition b_bind_c : rbody :=
    RExp (h_seq [PTok KW_BIND; PTok TK_PARENL; PLiteral (L "c"); PTok TK_PARENR]).
(** parse_stmt.cc:157-165 *)
Definition b_access_id : rbody :=
    RExp (PAlts SG_ACCESS_ID [PRule r_generic_spec; PName]).
(** parse_stmt.cc:168-172 *)
Definition b_access_spec : rbody :=
    RExp (PAlts SG_ACCESS_SPEC [PTok KW_PUBLIC; PTok KW_PRIVATE]).
(** parse_stmt.cc:175-185 *)
Definition b_access_stmt : rbody :=
    RExp (PSeq SG_ACCESS_STMT [PRule r_access_spec; POpt (h_seq [POpt (PTok TK_DBL_COLON); p_list
    SG_ACCESS_ID_LIST (PRule r_access_id)]); p_eol]).
(** parse_stmt.cc:191-240 *)
Definition b_action_stmt : rbody :=
    RExt true SG_ACTION_STMT (PAlts SG_ACTION_STMT [PRule r_allocate_stmt; PRule r_assignment_stmt;
    PRule r_backspace_stmt; PRule r_call_stmt; PRule r_close_stmt; PRule r_continue_stmt; PRule
    r_cycle_stmt; PRule r_deallocate_stmt; PRule r_endfile_stmt; PRule r_error_stop_stmt; PRule
    r_event_post_stmt; PRule r_event_wait_stmt; PRule r_exit_stmt; PRule r_fail_image_stmt; PRule
    r_flush_stmt; PRule r_form_team_stmt; PRule r_goto_stmt; PRule r_if_stmt; PRule r_inquire_stmt;
    PRule r_lock_stmt; PRule r_nullify_stmt; PRule r_open_stmt; PRule r_pointer_assignment_stmt;
    PRule r_print_stmt; PRule r_read_stmt; PRule r_return_stmt; PRule r_rewind_stmt; PRule
    r_stop_stmt; PRule r_sync_all_stmt; PRule r_sync_images_stmt; PRule r_sync_memory_stmt; PRule
    r_sync_team_stmt; PRule r_unlock_stmt; PRule r_wait_stmt; PRule r_where_stmt; PRule
    r_write_stmt; PRule r_computed_goto_stmt; PRule r_arithmetic_if_stmt; PRule r_forall_stmt; PRule
    r_macro_stmt]).
(** parse_stmt.cc:243-251 *)
Definition b_actual_arg : rbody :=
    RExp (PSeq SG_ACTUAL_ARG [PRule r_expr]).
(** parse_stmt.cc:254-261 *)
Definition b_actual_arg_spec : rbody :=
    RExp (PSeq SG_ACTUAL_ARG_SPEC [POpt (h_seq [PName; PTok TK_EQUAL]); PRule r_actual_arg]).
(** parse_stmt.cc:264-271 *)
Definition b_add_op : rbody :=
    RExp (PAlts SG_ADD_OP [PTok TK_PLUS; PTok TK_MINUS]).
(** parse_stmt.cc:274-283 *)
Definition b_alloc_opt : rbody :=
    RExp (PAlts SG_ALLOC_OPT [h_seq [PTok KW_ERRMSG; PTok TK_EQUAL; PRule r_variable]; h_seq [PTok
    KW_MOLD; PTok TK_EQUAL; PRule r_expr]; h_seq [PTok KW_SOURCE; PTok TK_EQUAL; PRule r_expr];
    h_seq [PTok KW_STAT; PTok TK_EQUAL; PRule r_variable]]).
(** parse_stmt.cc:286-296 *)
Definition b_allocatable_stmt : rbody :=
    RExp (PSeq SG_ALLOCATABLE_STMT [PTok KW_ALLOCATABLE; POpt (PTok TK_DBL_COLON); p_list
    SG_ALLOCATABLE_DECL_LIST (PRule r_allocatable_decl); p_eol]).
(** parse_stmt.cc:299-306 *)
Definition b_allocatable_decl : rbody :=
    RExp (PSeq SG_ALLOCATABLE_DECL [PName; POpt (h_parens [PRule r_array_spec]); POpt (h_brackets
    [PRule r_coarray_spec])]).
(** parse_stmt.cc:309-320 *)
Definition b_allocate_coarray_spec : rbody :=
    RExp (PSeq SG_ALLOCATE_COARRAY_SPEC [POpt (h_seq [p_list SG_ALLOCATE_COSHAPE_SPEC_LIST (PRule
    r_allocate_coshape_spec); PTok TK_COMMA]); POpt (h_seq [PRule r_lower_bound_expr; PTok
    TK_COLON]); PTok TK_ASTERISK]).
(** parse_stmt.cc:323-330 *)
Definition b_allocate_coshape_spec : rbody :=
    RExp (PSeq SG_ALLOCATE_COSHAPE_SPEC [POpt (h_seq [PRule r_lower_bound_expr; PTok TK_COLON]);
    PRule r_upper_bound_expr]).
(** parse_stmt.cc:333-341 *)
Definition b_allocate_object : rbody :=
    RExp (PAlts SG_ALLOCATE_OBJECT [PRule r_structure_component; h_seq [PName; PNeg (PPeek
    TK_EQUAL)]]).
(** parse_stmt.cc:344-351 *)
Definition b_allocate_shape_spec : rbody :=
    RExp (PSeq SG_ALLOCATE_SHAPE_SPEC [POpt (h_seq [PRule r_lower_bound_expr; PTok TK_COLON]); PRule
    r_upper_bound_expr]).
(** parse_stmt.cc:354-367 *)
Definition b_allocate_stmt : rbody :=
    RExp (PSeq SG_ALLOCATE_STMT [PTok KW_ALLOCATE; h_parens [h_seq [POpt (h_seq [PRule r_type_spec;
    PTok TK_DBL_COLON]); p_list SG_ALLOCATION_LIST (PRule r_allocation); POpt (h_seq [PTok TK_COMMA;
    p_list SG_ALLOC_OPT_LIST (PRule r_alloc_opt)])]]; p_eol]).
(** parse_stmt.cc:370-380 *)
Definition b_allocation : rbody :=
    RExp (PSeq SG_ALLOCATION [PRule r_allocate_object; PNeg (PPeek TK_EQUAL); POpt (h_parens [p_list
    SG_ALLOCATE_SHAPE_SPEC_LIST (PRule r_allocate_shape_spec)]); POpt (h_brackets [PRule
    r_allocate_coarray_spec])]).
(** parse_stmt.cc:383-394 *)
Definition b_arithmetic_if_stmt : rbody :=
    RExp (PSeq SG_ARITHMETIC_IF_STMT [PTok KW_IF; h_parens [PRule r_expr]; PRule r_label; PTok
    TK_COMMA; PRule r_label; PTok TK_COMMA; PRule r_label; p_eol]).
(** parse_stmt.cc:397-421 *)
Definition b_array_element : rbody :=
    RExp (PSeq SG_ARRAY_ELEMENT [POpt (h_seq [PName; POpt (h_parens [p_list
    SG_SECTION_SUBSCRIPT_LIST (PRule r_expr)]); POpt (PRule r_image_selector); PPeek TK_PERCENT;
    PStar (h_seq [PTok TK_PERCENT; PName; POpt (h_parens [p_list SG_SECTION_SUBSCRIPT_LIST (PRule
    r_expr)]); POpt (PRule r_image_selector); PPeek TK_PERCENT]); PTok TK_PERCENT]); PName; h_parens
    [p_list SG_SECTION_SUBSCRIPT_LIST (PRule r_expr)]; POpt (PRule r_image_selector)]).
(** parse_stmt.cc:424-442 *)
Definition b_array_spec : rbody :=
    RExp (PAlts SG_ARRAY_SPEC [PRule r_assumed_size_spec; p_list SG_EXPLICIT_SHAPE_SPEC_LIST (PRule
    r_explicit_shape_spec); p_list SG_ASSUMED_SHAPE_SPEC_LIST (PRule r_assumed_shape_spec); PRule
    r_implied_shape_spec; PRule r_implied_shape_or_assumed_size_spec; PTag SG_ASSUMED_RANK_SPEC
    (PTok TK_DBL_DOT)]).
(** parse_stmt.cc:445-450 *)
Definition b_assignment_stmt : rbody :=
    RExp (PSeq SG_ASSIGNMENT_STMT [PRule r_variable; PTok TK_EQUAL; PRule r_expr; p_eol]).
(** parse_stmt.cc:453-463 *)
Definition b_associate_stmt : rbody :=
    RExp (PSeq SG_ASSOCIATE_STMT [POpt (h_seq [PName; PTok TK_COLON]); PTok KW_ASSOCIATE; h_parens
    [p_list SG_ASSOCIATION_LIST (PRule r_association)]; p_eol]).
(** parse_stmt.cc:466-474 *)
Definition b_association : rbody :=
    RExp (PSeq SG_ASSOCIATION [PName; PTok TK_ARROW; PRule r_selector]).
(** parse_stmt.cc:477-484 *)
Definition b_assumed_implied_spec : rbody :=
    RExp (PSeq SG_ASSUMED_IMPLIED_SPEC [POpt (h_seq [PRule r_expr; PTok TK_COLON]); PTok
    TK_ASTERISK]).
(** parse_stmt.cc:487-498 *)
Definition b_assumed_shape_spec : rbody :=
    RExp (PSeq SG_ASSUMED_SHAPE_SPEC [POpt (PRule r_expr); PTok TK_COLON; h_alts [PPeek TK_PARENR;
    PPeek TK_COMMA]]).
(** parse_stmt.cc:501-509 *)
Definition b_assumed_size_spec : rbody :=
    RExp (PSeq SG_ASSUMED_SIZE_SPEC [p_list SG_EXPLICIT_SHAPE_SPEC_LIST (PRule
    r_explicit_shape_spec); PTok TK_COMMA; PRule r_assumed_implied_spec]).
(** parse_stmt.cc:512-521 *)
Definition b_asynchronous_stmt : rbody :=
    RExp (PSeq SG_ASYNCHRONOUS_STMT [PTok KW_ASYNCHRONOUS; POpt (PTok TK_DBL_COLON); h_list (PName);
    p_eol]).
(** parse_stmt.cc:524-547 *)
Definition b_attr_spec : rbody :=
    RExp (PAlts SG_ATTR_SPEC [PRule r_access_spec; PTok KW_ALLOCATABLE; PTok KW_ASYNCHRONOUS; h_seq
    [PTok KW_CODIMENSION; h_brackets [PRule r_coarray_spec]]; PTok KW_CONTIGUOUS; h_seq [PTok
    KW_DIMENSION; h_parens [PRule r_array_spec]]; PTok KW_EXTERNAL; h_seq [PTok KW_INTENT; h_parens
    [PRule r_intent_spec]]; PTok KW_INTRINSIC; PRule r_language_binding_spec; PTok KW_OPTIONAL; PTok
    KW_PARAMETER; PTok KW_POINTER; PTok KW_PROTECTED; PTok KW_SAVE; PTok KW_TARGET; PTok KW_VALUE;
    PTok KW_VOLATILE]).
(** parse_stmt.cc:552-561 *)
Definition b_backspace_stmt : rbody :=
    RExp (PSeq SG_BACKSPACE_STMT [PTok KW_BACKSPACE; h_alts [PRule r_int_expr; PRule
    r_consume_parens]; p_eol]).
(** parse_stmt.cc:564-573 *)
Definition b_bind_entity : rbody :=
    RExp (PAlts SG_BIND_ENTITY [h_seq [PTok TK_SLASHF; PName; PTok TK_SLASHF]; PName]).
(** parse_stmt.cc:576-585 *)
Definition b_bind_stmt : rbody :=
    RExp (PSeq SG_BIND_STMT [PRule r_language_binding_spec; POpt (PTok TK_DBL_COLON); h_list (PRule
    r_bind_entity); p_eol]).
(** parse_stmt.cc:588-599 *)
Definition b_binding_attr : rbody :=
    RExp (PAlts SG_BINDING_ATTR [PRule r_access_spec; PTok KW_DEFERRED; PTok KW_NON_OVERRIDABLE;
    PTok KW_NOPASS; h_seq [PTok KW_PASS; POpt (h_parens [PName])]]).
(** parse_stmt.cc:602-609 *)
Definition b_binding_private_stmt : rbody :=
    RExp (PSeq SG_BINDING_PRIVATE_STMT [PTok KW_PRIVATE; p_eol]).
(** parse_stmt.cc:612-620 *)
Definition b_block_stmt : rbody :=
    RExp (PSeq SG_BLOCK_STMT [POpt (h_seq [PName; PTok TK_COLON]); PTok KW_BLOCK; p_eol]).
(** parse_stmt.cc:623-631 *)
Definition b_bounds_remapping : rbody :=
    RExp (PSeq SG_BOUNDS_REMAPPING [PRule r_lower_bound_expr; PTok TK_COLON; PRule
    r_upper_bound_expr]).
(** parse_stmt.cc:634-641 *)
Definition b_bounds_spec : rbody :=
    RExp (PSeq SG_BOUNDS_SPEC [PRule r_lower_bound_expr; PTok TK_COLON]).
(** parse_stmt.cc:646-657 *)
Definition b_call_stmt : rbody :=
    RExp (PSeq SG_CALL_STMT [PTok KW_CALL; PRule r_procedure_designator; POpt (h_parens [POpt
    (p_list SG_ACTUAL_ARG_SPEC_LIST (PRule r_actual_arg_spec))]); p_eol]).
(** parse_stmt.cc:660-668 *)
Definition b_case_selector : rbody :=
    RExp (PAlts SG_CASE_SELECTOR [h_parens [p_list SG_CASE_VALUE_RANGE_LIST (PRule
    r_case_value_range)]; PTok KW_DEFAULT]).
(** parse_stmt.cc:671-680 *)
Definition b_case_stmt : rbody :=
    RExp (PSeq SG_CASE_STMT [PTok KW_CASE; PRule r_case_selector; POpt (PName); p_eol]).
(** parse_stmt.cc:683-692 *)
Definition b_case_value_range : rbody :=
    RExp (PAlts SG_CASE_VALUE_RANGE [h_seq [PRule r_expr; PTok TK_COLON; PRule r_expr]; h_seq [PRule
    r_expr; PTok TK_COLON]; h_seq [PTok TK_COLON; PRule r_expr]; h_seq [PRule r_expr]]).
(** parse_stmt.cc:695-704 *)
Definition b_char_length : rbody :=
    RExp (PAlts SG_CHAR_LENGTH [h_parens [PRule r_type_param_value]; PTok SG_INT_LITERAL_CONSTANT;
    PName]).
(** parse_stmt.cc:707-723 *)
Definition b_char_selector : rbody :=
    RExp (PAlts SG_CHAR_SELECTOR [PRule r_length_selector; h_parens [PTok KW_LEN; PTok TK_EQUAL;
    PRule r_type_param_value; PTok TK_COMMA; PTok KW_KIND; PTok TK_EQUAL; PRule
    r_int_constant_expr]; h_parens [PRule r_type_param_value; PTok TK_COMMA; POpt (h_seq [PTok
    KW_KIND; PTok TK_EQUAL]); PRule r_int_constant_expr]; h_parens [PTok KW_KIND; PTok TK_EQUAL;
    PRule r_int_constant_expr; POpt (h_seq [PTok TK_COMMA; PTok KW_LEN; PTok TK_EQUAL; PRule
    r_type_param_value])]]).
(** parse_stmt.cc:726-734 *)
Definition b_close_stmt : rbody :=
    RExp (PSeq SG_CLOSE_STMT [PTok KW_CLOSE; PRule r_consume_parens; p_eol]).
(** parse_stmt.cc:737-746 *)
Definition b_coarray_spec : rbody :=
    RExp (PAlts SG_COARRAY_SPEC [PRule r_explicit_coshape_spec; p_list SG_DEFERRED_COSHAPE_SPEC_LIST
    (PTag SG_DEFERRED_COSHAPE_SPEC (PTok TK_COLON))]).
(** parse_stmt.cc:749-756 *)
Definition b_codimension_decl : rbody :=
    RExp (PSeq SG_CODIMENSION_DECL [PName; h_brackets [PRule r_coarray_spec]]).
(** parse_stmt.cc:759-768 *)
Definition b_codimension_stmt : rbody :=
    RExp (PSeq SG_CODIMENSION_STMT [PTok KW_CODIMENSION; POpt (PTok TK_DBL_COLON); h_list (PRule
    r_codimension_decl); p_eol]).
(** parse_stmt.cc:771-784 *)
Definition b_coindexed_named_object : rbody :=
    RExp (PSeq SG_COINDEXED_NAMED_OBJECT [PName; POpt (h_parens [p_list SG_SECTION_SUBSCRIPT_LIST
    (PRule r_section_subscript)]); PRule r_image_selector; PNeg (PPeek TK_PERCENT)]).
(** parse_stmt.cc:787-792 *)
Definition b_common_block_object : rbody :=
    RExp (PSeq SG_COMMON_BLOCK_OBJECT [PName; POpt (h_parens [PRule r_array_spec])]).
(** parse_stmt.cc:795-810 *)
Definition b_common_stmt : rbody :=
    RExp (PSeq SG_COMMON_STMT [PTok KW_COMMON; POpt (h_alts [h_seq [PTok TK_SLASHF; POpt (PName);
    PTok TK_SLASHF]; PTok TK_CONCAT]); p_list SG_COMMON_BLOCK_OBJECT_LIST (PRule
    r_common_block_object); PStar (h_seq [POpt (PTok TK_COMMA); h_alts [h_seq [PTok TK_SLASHF; POpt
    (PName); PTok TK_SLASHF]; PTok TK_CONCAT]; p_list SG_COMMON_BLOCK_OBJECT_LIST (PRule
    r_common_block_object)]); p_eol]).
(** parse_stmt.cc:813-821 *)
Definition b_component_array_spec : rbody :=
    RExp (PAlts SG_COMPONENT_ARRAY_SPEC [p_list SG_EXPLICIT_SHAPE_SPEC_LIST (PRule
    r_explicit_shape_spec); p_list SG_DEFERRED_SHAPE_SPEC_LIST (PRule r_deferred_shape_spec)]).
(** parse_stmt.cc:824-835 *)
Definition b_component_attr_spec : rbody :=
    RExp (PAlts SG_COMPONENT_ATTR_SPEC [PRule r_access_spec; PTok KW_ALLOCATABLE; h_seq [PTok
    KW_CODIMENSION; h_brackets [PRule r_coarray_spec]]; PTok KW_CONTIGUOUS; h_seq [PTok
    KW_DIMENSION; h_parens [PRule r_component_array_spec]]; PTok KW_POINTER]).
(** parse_stmt.cc:838-847 *)
Definition b_component_data_source : rbody :=
    RExp (PTag SG_COMPONENT_DATA_SOURCE (PRule r_proc_target)).
(** parse_stmt.cc:850-860 *)
Definition b_component_decl : rbody :=
    RExp (PSeq SG_COMPONENT_DECL [PName; POpt (h_parens [PRule r_component_array_spec]); POpt
    (h_parens [PRule r_coarray_spec]); POpt (h_seq [PTok TK_ASTERISK; PRule r_char_length]); POpt
    (PRule r_component_initialization)]).
(** parse_stmt.cc:863-870 *)
Definition b_component_def_stmt : rbody :=
    RExp (PAlts SG_COMPONENT_DEF_STMT [PRule r_data_component_def_stmt; PRule
    r_proc_component_def_stmt]).
(** parse_stmt.cc:873-880 *)
Definition b_component_initialization : rbody :=
    RExp (PAlts SG_COMPONENT_INITIALIZATION [h_seq [PTok TK_EQUAL; PRule r_expr]; h_seq [PTok
    TK_ARROW; PRule r_expr]]).
(** parse_stmt.cc:883-890 *)
Definition b_component_spec : rbody :=
    RExp (PSeq SG_COMPONENT_SPEC [POpt (h_seq [PName; PTok TK_EQUAL]); PRule
    r_component_data_source]).
(** parse_stmt.cc:893-904 *)
Definition b_computed_goto_stmt : rbody :=
    RExp (PSeq SG_COMPUTED_GOTO_STMT [PTok KW_GO; PTok KW_TO; h_parens [p_list SG_LABEL_LIST (PRule
    r_label)]; POpt (PTok TK_COMMA); PRule r_expr; p_eol]).
(** parse_stmt.cc:907-920 *)
Definition b_concurrent_control : rbody :=
    RExp (PSeq SG_CONCURRENT_CONTROL [PName; PTok TK_EQUAL; PTag SG_CONCURRENT_LIMIT (PRule
    r_int_expr); PTok TK_COLON; PTag SG_CONCURRENT_LIMIT (PRule r_int_expr); POpt (h_seq [PTok
    TK_COLON; PTag SG_CONCURRENT_STEP (PRule r_int_expr)])]).
(** parse_stmt.cc:923-934 *)
Definition b_concurrent_header : rbody :=
    RExp (p_parens SG_CONCURRENT_HEADER [POpt (h_seq [PRule r_integer_type_spec; PTok
    TK_DBL_COLON]); p_list SG_CONCURRENT_CONTROL_LIST (PRule r_concurrent_control); POpt (h_seq
    [PTok TK_COMMA; PRule r_logical_expr])]).
(** parse_stmt.cc:937-944 *)
Definition b_concurrent_locality : rbody :=
    RExp (PSeq SG_CONCURRENT_LOCALITY [PStar (PRule r_locality_spec)]).
(** parse_stmt.cc:947-951 *)
Definition b_contains_stmt : rbody :=
    RExp (PSeq SG_CONTAINS_STMT [PTok KW_CONTAINS; p_eol]).
(** parse_stmt.cc:954-959 *)
Definition b_continue_stmt : rbody :=
    RExp (PSeq SG_CONTINUE_STMT [PTok KW_CONTINUE; p_eol]).
(** parse_stmt.cc:962-967 *)
Definition b_cosubscript : rbody :=
    RExp (PTag SG_COSUBSCRIPT (PRule r_int_expr)).
(** parse_stmt.cc:970-975 *)
Definition b_cycle_stmt : rbody :=
    RExp (PSeq SG_CYCLE_STMT [PTok KW_CYCLE; POpt (PName); p_eol]).
(** parse_stmt.cc:980-992 *)
Definition b_data_component_def_stmt : rbody :=
    RExp (PSeq SG_DATA_COMPONENT_DEF_STMT [PRule r_declaration_type_spec; POpt (h_seq [POpt (h_seq
    [PTok TK_COMMA; p_list SG_COMPONENT_ATTR_SPEC_LIST (PRule r_component_attr_spec)]); PTok
    TK_DBL_COLON]); p_list SG_COMPONENT_DECL_LIST (PRule r_component_decl); p_eol]).
(** parse_stmt.cc:995-1000 *)
Definition b_data_implied_do : rbody :=
    RExp (PTag SG_DATA_IMPLIED_DO (PRule r_consume_parens)).
(** parse_stmt.cc:1003-1018 *)
Definition b_data_pointer_object : rbody :=
    RExp (PAlts SG_DATA_POINTER_OBJECT [PRule r_variable; PTag SG_VARIABLE_NAME (h_seq [PName; PNeg
    (PTok TK_PERCENT)])]).
(** parse_stmt.cc:1021-1029 *)
Definition b_data_ref : rbody :=
    RExp (PSeq SG_DATA_REF [PRule r_part_ref; PStar (h_seq [PTok TK_PERCENT; PRule r_part_ref])]).
(** parse_stmt.cc:1032-1042 *)
Definition b_data_stmt : rbody :=
    RExp (PSeq SG_DATA_STMT [PTok KW_DATA; p_list SG_DATA_STMT_SET_LIST (PRule r_data_stmt_set);
    p_eol]).
(** parse_stmt.cc:1045-1058 *)
Definition b_data_stmt_constant : rbody :=
    RExp (PAlts SG_DATA_STMT_CONSTANT [PTok SG_CHAR_LITERAL_CONSTANT; PRule
    r_signed_real_literal_constant; h_seq [POpt (PRule r_sign); PTok SG_INT_LITERAL_CONSTANT]; PRule
    r_logical_literal_constant; PTag SG_NULL_INIT (PRule r_function_reference); PTag
    SG_INITIAL_DATA_TARGET (PRule r_designator); PRule r_structure_constructor]).
(** parse_stmt.cc:1061-1068 *)
Definition b_data_stmt_object : rbody :=
    RExp (PAlts SG_DATA_STMT_OBJECT [PRule r_data_implied_do; PRule r_variable]).
(** parse_stmt.cc:1071-1080 *)
Definition b_data_stmt_repeat : rbody :=
    RExp (PAlts SG_DATA_STMT_REPEAT [PTok SG_INT_LITERAL_CONSTANT; PName; PRule r_designator]).
(** parse_stmt.cc:1083-1095 *)
Definition b_data_stmt_set : rbody :=
    RExp (PSeq SG_DATA_STMT_SET [p_list SG_DATA_STMT_OBJECT_LIST (PRule r_data_stmt_object); PTok
    TK_SLASHF; p_list SG_DATA_STMT_VALUE_LIST (PRule r_data_stmt_value); PTok TK_SLASHF]).
(** parse_stmt.cc:1098-1106 *)
Definition b_data_stmt_value : rbody :=
    RExp (PSeq SG_DATA_STMT_VALUE [POpt (h_seq [PRule r_data_stmt_repeat; PTok TK_ASTERISK]); PRule
    r_data_stmt_constant]).
(** parse_stmt.cc:1109-1116 *)
Definition b_dealloc_opt : rbody :=
    RExp (PAlts SG_DEALLOC_OPT [h_seq [PTok KW_ERRMSG; PTok TK_EQUAL; PRule r_variable]; h_seq [PTok
    KW_STAT; PTok TK_EQUAL; PRule r_variable]]).
(** parse_stmt.cc:1119-1132 *)
Definition b_deallocate_stmt : rbody :=
    RExp (PSeq SG_DEALLOCATE_STMT [PTok KW_DEALLOCATE; h_parens [p_list SG_ALLOCATE_OBJECT_LIST
    (PRule r_allocate_object); POpt (h_seq [PTok TK_COMMA; p_list SG_DEALLOC_OPT_LIST (PRule
    r_dealloc_opt)])]; p_eol]).
(** parse_stmt.cc:1135-1147 *)
Definition b_declaration_type_spec : rbody :=
    RExp (PAlts SG_DECLARATION_TYPE_SPEC [PRule r_intrinsic_type_spec; h_seq [PTok KW_TYPE; h_parens
    [PRule r_intrinsic_type_spec]]; h_seq [PTok KW_TYPE; h_parens [PRule r_derived_type_spec]];
    h_seq [PTok KW_CLASS; h_parens [PRule r_derived_type_spec]]; h_seq [PTok KW_CLASS; h_parens
    [PTok TK_ASTERISK]]; h_seq [PTok KW_TYPE; h_parens [PTok TK_ASTERISK]]]).
(** parse_stmt.cc:1150-1162 *)
Definition b_declaration_type_spec_no_kind : rbody :=
    RExp (PAlts SG_DECLARATION_TYPE_SPEC [PRule r_intrinsic_type_spec_no_kind; h_seq [PTok KW_TYPE;
    h_parens [PRule r_intrinsic_type_spec]]; h_seq [PTok KW_TYPE; h_parens [PRule
    r_derived_type_spec]]; h_seq [PTok KW_CLASS; h_parens [PRule r_derived_type_spec]]; h_seq [PTok
    KW_CLASS; h_parens [PTok TK_ASTERISK]]; h_seq [PTok KW_TYPE; h_parens [PTok TK_ASTERISK]]]).
(** parse_stmt.cc:1165-1169 *)
Definition b_default_char_expr : rbody :=
    RExp (PTag SG_DEFAULT_CHAR_EXPR (PRule r_expr)).
(** parse_stmt.cc:1172-1176 *)
Definition b_deferred_shape_spec : rbody :=
    RExp (PTag SG_DEFERRED_SHAPE_SPEC (PTok TK_COLON)).
(** parse_stmt.cc:1179-1189 *)
Definition b_defined_io_generic_spec : rbody :=
    RExp (PAlts SG_DEFINED_IO_GENERIC_SPEC [h_seq [PTok KW_READ; h_parens [PTok KW_FORMATTED]];
    h_seq [PTok KW_READ; h_parens [PTok KW_UNFORMATTED]]; h_seq [PTok KW_WRITE; h_parens [PTok
    KW_FORMATTED]]; h_seq [PTok KW_WRITE; h_parens [PTok KW_UNFORMATTED]]]).
(** parse_stmt.cc:1192-1199 *)
Definition b_defined_operator : rbody :=
    RExp (PAlts SG_DEFINED_OPERATOR [PTok TK_DEF_OP; PRule r_extended_intrinsic_op]).
(** parse_stmt.cc:1202-1211 *)
Definition b_derived_type_spec : rbody :=
    RExp (PSeq SG_DERIVED_TYPE_SPEC [PName; POpt (h_parens [p_list SG_TYPE_PARAM_SPEC_LIST (PRule
    r_type_param_spec)])]).
(** parse_stmt.cc:1214-1228 *)
Definition b_derived_type_stmt : rbody :=
    RExp (PSeq SG_DERIVED_TYPE_STMT [PTok KW_TYPE; POpt (h_seq [POpt (h_seq [PTok TK_COMMA; p_list
    SG_TYPE_ATTR_SPEC_LIST (PRule r_type_attr_spec)]); PTok TK_DBL_COLON]); PName; POpt (h_parens
    [p_list SG_TYPE_PARAM_NAME_LIST (PTag SG_TYPE_PARAM_NAME (PName))]); p_eol]).
(** parse_stmt.cc:1231-1247 *)
Definition b_designator : rbody :=
    RExp (PSeq SG_DESIGNATOR [PRule r_data_ref; POpt (h_parens [PRule r_substring_range])]).
(** parse_stmt.cc:1250-1266 *)
Definition b_dimension_stmt : rbody :=
    RExp (PSeq SG_DIMENSION_STMT [PTok KW_DIMENSION; POpt (PTok TK_DBL_COLON); h_list (h_seq [PName;
    h_parens [PRule r_array_spec]]); p_eol]).
(** parse_stmt.cc:1269-1277 *)
Definition b_do_stmt : rbody :=
    RExp (PSeq SG_DO_STMT [h_alts [PRule r_label_do_stmt; PRule r_nonlabel_do_stmt]; p_eol]).
(** parse_stmt.cc:1281-1288 *)
Definition b_dummy_arg : rbody :=
    RExp (PAlts SG_DUMMY_ARG [PName; PTok TK_ASTERISK]).
(** parse_stmt.cc:1293-1301 *)
Definition b_else_stmt : rbody :=
    RExp (PSeq SG_ELSE_STMT [PTok KW_ELSE; POpt (PName); p_eol]).
(** parse_stmt.cc:1304-1315 *)
Definition b_else_if_stmt : rbody :=
    RExp (PSeq SG_ELSE_IF_STMT [PTok KW_ELSE; PTok KW_IF; h_parens [PRule r_logical_expr]; PTok
    KW_THEN; POpt (PName); p_eol]).
(** parse_stmt.cc:1318-1324 *)
Definition b_elsewhere_stmt : rbody :=
    RExp (PSeq SG_ELSEWHERE_STMT [PTok KW_ELSE; PTok KW_WHERE; POpt (PName); p_eol]).
(** parse_stmt.cc:1327-1336 *)
Definition b_end_associate_stmt : rbody :=
    RExp (PSeq SG_END_ASSOCIATE_STMT [PTok KW_END; PTok KW_ASSOCIATE; POpt (PName); p_eol]).
(** parse_stmt.cc:1339-1348 *)
Definition b_end_block_stmt : rbody :=
    RExp (PSeq SG_END_BLOCK_STMT [PTok KW_END; PTok KW_BLOCK; POpt (PName); p_eol]).
(** parse_stmt.cc:1351-1358 *)
Definition b_end_do : rbody :=
    RExp (PAlts SG_END_DO [PRule r_end_do_stmt; PRule r_continue_stmt]).
(** parse_stmt.cc:1361-1366 *)
Definition b_end_do_stmt : rbody :=
    RExp (PSeq SG_END_DO_STMT [PTok KW_END; PTok KW_DO; POpt (PName); p_eol]).
(** parse_stmt.cc:1369-1374 *)
Definition b_end_enum_stmt : rbody :=
    RExp (PSeq SG_END_ENUM_STMT [PTok KW_END; PTok KW_ENUM; p_eol]).
(** parse_stmt.cc:1377-1383 *)
Definition b_end_forall_stmt : rbody :=
    RExp (PSeq SG_END_FORALL_STMT [PTok KW_END; PTok KW_FORALL; POpt (PName); p_eol]).
(** parse_stmt.cc:1386-1396 *)
Definition b_end_function_stmt : rbody :=
    RExp (PSeq SG_END_FUNCTION_STMT [PTok KW_END; POpt (h_seq [PTok KW_FUNCTION; POpt (PName)]);
    p_eol]).
(** parse_stmt.cc:1399-1404 *)
Definition b_end_if_stmt : rbody :=
    RExp (PSeq SG_END_IF_STMT [PTok KW_END; PTok KW_IF; POpt (PName); p_eol]).
(** parse_stmt.cc:1407-1413 *)
Definition b_end_interface_stmt : rbody :=
    RExp (PSeq SG_END_INTERFACE_STMT [PTok KW_END; PTok KW_INTERFACE; POpt (PRule r_generic_spec);
    p_eol]).
(** parse_stmt.cc:1416-1425 *)
Definition b_end_module_stmt : rbody :=
    RExp (PSeq SG_END_MODULE_STMT [PTok KW_END; POpt (h_seq [PTok KW_MODULE; POpt (PName)]); p_eol]).
(** parse_stmt.cc:1428-1438 *)
Definition b_end_mp_subprogram_stmt : rbody :=
    RExp (PSeq SG_END_MP_SUBPROGRAM_STMT [PTok KW_END; POpt (h_seq [PTok KW_PROCEDURE; POpt
    (PName)]); p_eol]).
(** parse_stmt.cc:1441-1450 *)
Definition b_end_program_stmt : rbody :=
    RExp (PSeq SG_END_PROGRAM_STMT [PTok KW_END; POpt (h_seq [PTok KW_PROGRAM; POpt (PName)]);
    p_eol]).
(** parse_stmt.cc:1453-1461 *)
Definition b_end_select_stmt : rbody :=
    RExp (PSeq SG_END_SELECT_STMT [PTok KW_END; PTok KW_SELECT; POpt (PName); p_eol]).
(** parse_stmt.cc:1464-1472 *)
Definition b_end_select_rank_stmt : rbody :=
    RExp (PSeq SG_END_SELECT_RANK_STMT [PTok KW_END; PTok KW_SELECT; POpt (PName); p_eol]).
(** parse_stmt.cc:1475-1483 *)
Definition b_end_select_type_stmt : rbody :=
    RExp (PSeq SG_END_SELECT_TYPE_STMT [PTok KW_END; PTok KW_SELECT; POpt (PName); p_eol]).
(** parse_stmt.cc:1486-1496 *)
Definition b_end_submodule_stmt : rbody :=
    RExp (PSeq SG_END_SUBMODULE_STMT [PTok KW_END; POpt (h_seq [PTok KW_SUBMODULE; POpt (PName)]);
    p_eol]).
(** parse_stmt.cc:1499-1509 *)
Definition b_end_subroutine_stmt : rbody :=
    RExp (PSeq SG_END_SUBROUTINE_STMT [PTok KW_END; POpt (h_seq [PTok KW_SUBROUTINE; POpt (PName)]);
    p_eol]).
(** parse_stmt.cc:1512-1521 *)
Definition b_end_type_stmt : rbody :=
    RExp (PSeq SG_END_TYPE_STMT [PTok KW_END; PTok KW_TYPE; POpt (PName); p_eol]).
(** parse_stmt.cc:1524-1530 *)
Definition b_end_where_stmt : rbody :=
    RExp (PSeq SG_END_WHERE_STMT [PTok KW_END; PTok KW_WHERE; POpt (PName); p_eol]).
(** parse_stmt.cc:1533-1542 *)
Definition b_endfile_stmt : rbody :=
    RExp (PSeq SG_ENDFILE_STMT [PTok KW_END; PTok KW_FILE; h_alts [PRule r_int_expr; PRule
    r_consume_parens]; p_eol]).
(** parse_stmt.cc:1545-1555 *)
Definition b_entity_decl : rbody :=
    RExp (PSeq SG_ENTITY_DECL [PName; POpt (h_parens [PRule r_array_spec]); POpt (h_brackets [PRule
    r_coarray_spec]); POpt (h_seq [PTok TK_ASTERISK; PRule r_char_length]); POpt (PRule
    r_initialization)]).
(** parse_stmt.cc:1558-1568 *)
Definition b_entry_stmt : rbody :=
    RExp (PSeq SG_ENTRY_STMT [PTok KW_ENTRY; PName; POpt (h_seq [h_parens [POpt (h_list (PRule
    r_dummy_arg))]; POpt (PRule r_suffix)]); p_eol]).
(** parse_stmt.cc:1571-1579 *)
Definition b_enumerator : rbody :=
    RExp (PSeq SG_ENUMERATOR [PName; POpt (h_seq [PTok TK_EQUAL; PRule r_int_expr])]).
(** parse_stmt.cc:1582-1592 *)
Definition b_enumerator_def_stmt : rbody :=
    RExp (PSeq SG_ENUMERATOR_DEF_STMT [PTok KW_ENUMERATOR; POpt (PTok TK_DBL_COLON); p_list
    SG_ENUMERATOR_LIST (PRule r_enumerator); p_eol]).
(** parse_stmt.cc:1595-1601 *)
Definition b_enum_def_stmt : rbody :=
    RExp (PSeq SG_ENUM_DEF_STMT [PTok KW_ENUM; PTok TK_COMMA; PRule r_bind_c; p_eol]).
(** parse_stmt.cc:1604-1611 *)
Definition b_equiv_op : rbody :=
    RExp (PAlts SG_EQUIV_OP [PTok TK_REL_EQ; PTok TK_REL_NE]).
(** parse_stmt.cc:1614-1622 *)
Definition b_equivalence_object : rbody :=
    RExp (PAlts SG_EQUIVALENCE_OBJECT [PRule r_array_element; PRule r_substring; PTag
    SG_VARIABLE_NAME (PName)]).
(** parse_stmt.cc:1625-1634 *)
Definition b_equivalence_set : rbody :=
    RExp (p_parens SG_EQUIVALENCE_SET [PRule r_equivalence_object; PTok TK_COMMA; p_list
    SG_EQUIVALENCE_OBJECT_LIST (PRule r_equivalence_object)]).
(** parse_stmt.cc:1637-1646 *)
Definition b_equivalence_stmt : rbody :=
    RExp (PSeq SG_EQUIVALENCE_STMT [PTok KW_EQUIVALENCE; p_list SG_EQUIVALENCE_SET_LIST (PRule
    r_equivalence_set); p_eol]).
(** parse_stmt.cc:1649-1662 *)
Definition b_error_stop_stmt : rbody :=
    RExp (PSeq SG_ERROR_STOP_STMT [PTok KW_ERROR; PTok KW_STOP; POpt (PRule r_default_char_expr);
    POpt (h_seq [PTok TK_COMMA; PTok KW_QUIET; PTok TK_EQUAL; PRule r_logical_expr]); p_eol]).
(** parse_stmt.cc:1665-1676 *)
Definition b_event_post_stmt : rbody :=
    RExp (PSeq SG_EVENT_POST_STMT [PTok KW_EVENT; PTok KW_POST; h_parens [PRule r_variable; POpt
    (h_seq [PTok TK_COMMA; h_list (PRule r_sync_stat)])]; p_eol]).
(** parse_stmt.cc:1679-1693 *)
Definition b_event_wait_stmt : rbody :=
    RExp (PSeq SG_EVENT_WAIT_STMT [PTok KW_EVENT; PTok KW_WAIT; h_parens [PRule r_variable; POpt
    (h_seq [PTok TK_COMMA; h_list (h_alts [h_seq [PTok KW_UNTIL_COUNT; PTok TK_EQUAL; PRule r_expr];
    PRule r_sync_stat])])]; p_eol]).
(** parse_stmt.cc:1696-1708 *)
Definition b_explicit_coshape_spec : rbody :=
    RExp (PSeq SG_EXPLICIT_COSHAPE_SPEC [POpt (h_seq [p_list HOIST (h_seq [POpt (h_seq [PRule
    r_expr; PTok TK_COLON]); PRule r_expr]); PTok TK_COMMA]); h_seq [POpt (h_seq [PRule r_expr; PTok
    TK_COLON]); PTok TK_ASTERISK]]).
(** parse_stmt.cc:1711-1718 *)
Definition b_explicit_shape_spec : rbody :=
    RExp (PSeq SG_EXPLICIT_SHAPE_SPEC [POpt (h_seq [PRule r_expr; PTok TK_COLON]); PRule r_expr]).
(** parse_stmt.cc:1721-1726 *)
Definition b_exit_stmt : rbody :=
    RExp (PSeq SG_EXIT_STMT [PTok KW_EXIT; POpt (PName); p_eol]).
(** parse_stmt.cc:1729-1735 *)
Definition b_expr : rbody :=
    RBreak SG_EXPR [TK_ASTERISK; TK_SLASHF].
(** parse_stmt.cc:1738-1744 *)
Definition b_extended_intrinsic_op : rbody :=
    RExp (PTag SG_EXTENDED_INTRINSIC_OP (PRule r_intrinsic_operator)).
(** parse_stmt.cc:1747-1755 *)
Definition b_external_stmt : rbody :=
    RExp (PSeq SG_EXTERNAL_STMT [PTok KW_EXTERNAL; POpt (PTok TK_DBL_COLON); p_list
    SG_EXTERNAL_NAME_LIST (PName); p_eol]).
(** parse_stmt.cc:1760-1768 *)
Definition b_fail_image_stmt : rbody :=
    RExp (PSeq SG_FAIL_IMAGE_STMT [PTok KW_FAIL; PTok KW_IMAGE; p_eol]).
(** parse_stmt.cc:1771-1791 *)
Definition b_form_team_stmt : rbody :=
    RExp (PSeq SG_FORM_TEAM_STMT [PTok KW_FORM; PTok KW_TEAM; h_parens [h_seq [PRule r_expr; PTok
    TK_COMMA; PRule r_variable; POpt (h_seq [PTok TK_COMMA; h_list (h_alts [h_seq [PTok
    KW_NEW_INDEX; PTok TK_EQUAL; PRule r_expr]; PRule r_sync_stat])])]]; p_eol]).
(** parse_stmt.cc:1794-1803 *)
Definition b_final_procedure_stmt : rbody :=
    RExp (PSeq SG_FINAL_PROCEDURE_STMT [PTok KW_FINAL; POpt (PTok TK_DBL_COLON); p_list
    SG_FINAL_SUBROUTINE_NAME_LIST (PName); p_eol]).
(** parse_stmt.cc:1806-1815 *)
Definition b_flush_stmt : rbody :=
    RExp (PSeq SG_FLUSH_STMT [PTok KW_FLUSH; h_alts [PRule r_int_expr; PRule r_consume_parens];
    p_eol]).
(** parse_stmt.cc:1818-1826 *)
Definition b_forall_assignment_stmt : rbody :=
    RExp (PAlts SG_FORALL_ASSIGNMENT_STMT [PRule r_assignment_stmt; PRule
    r_pointer_assignment_stmt]).
(** parse_stmt.cc:1829-1839 *)
Definition b_forall_construct_stmt : rbody :=
    RExp (PSeq SG_FORALL_CONSTRUCT_STMT [POpt (h_seq [PName; PTok TK_COLON]); PTok KW_FORALL; PRule
    r_concurrent_header; p_eol]).
(** parse_stmt.cc:1842-1851 *)
Definition b_forall_stmt : rbody :=
    RExp (PSeq SG_FORALL_STMT [PTok KW_FORALL; PRule r_concurrent_header; PRule
    r_forall_assignment_stmt; p_eol]).
(** parse_stmt.cc:1854-1862 *)
Definition b_format : rbody :=
    RExp (PAlts SG_FORMAT [h_seq [PRule r_expr; PNeg (PPeek TK_EQUAL)]; PTok TK_ASTERISK]).
(** parse_stmt.cc:1865-1870 *)
Definition b_format_specification : rbody :=
    RExp (PTag SG_FORMAT_SPECIFICATION (PRule r_consume_parens)).
(** parse_stmt.cc:1873-1878 *)
Definition b_format_stmt : rbody :=
    RExp (PSeq SG_FORMAT_STMT [PTok KW_FORMAT; PRule r_format_specification; p_eol]).
(** parse_stmt.cc:1881-1890 *)
Definition b_function_reference : rbody :=
    RExp (PSeq SG_FUNCTION_REFERENCE [PRule r_procedure_designator; h_parens [POpt (p_list
    SG_ACTUAL_ARG_SPEC_LIST (PRule r_actual_arg_spec))]]).
(** parse_stmt.cc:1893-1909 *)
Definition b_function_stmt : rbody :=
    RExp (PSeq SG_FUNCTION_STMT [POpt (PRule r_prefix); PTok KW_FUNCTION; PName; POpt (h_seq
    [h_parens [POpt (p_list SG_DUMMY_ARG_NAME_LIST (PName))]]); POpt (PRule r_suffix); p_eol]).
(** parse_stmt.cc:1914-1924 *)
Definition b_generic_spec : rbody :=
    RExp (PAlts SG_GENERIC_SPEC [PRule r_list_name; h_seq [PTok KW_OPERATOR; h_parens [PRule
    r_defined_operator]]; h_seq [PTok KW_ASSIGNMENT; h_parens [PTok TK_EQUAL]]; PRule
    r_defined_io_generic_spec]).
(** parse_stmt.cc:1927-1939 *)
Definition b_generic_stmt : rbody :=
    RExp (PSeq SG_GENERIC_STMT [PTok KW_GENERIC; POpt (h_seq [PTok TK_COMMA; PRule r_access_spec]);
    PTok TK_DBL_COLON; PRule r_generic_spec; PTok TK_ARROW; h_list (PName); p_eol]).
(** parse_stmt.cc:1942-1948 *)
Definition b_goto_stmt : rbody :=
    RExp (PSeq SG_GOTO_STMT [PTok KW_GO; PTok KW_TO; PRule r_label; p_eol]).
(** parse_stmt.cc:1954-1963 *)
Definition b_if_stmt : rbody :=
    RExp (PSeq SG_IF_STMT [PTok KW_IF; h_parens [PRule r_logical_expr]; PRule r_action_stmt; p_eol]).
(** parse_stmt.cc:1966-1976 *)
Definition b_if_then_stmt : rbody :=
    RExp (PSeq SG_IF_THEN_STMT [POpt (h_seq [PName; PTok TK_COLON]); PTok KW_IF; h_parens [PRule
    r_logical_expr]; PTok KW_THEN; p_eol]).
(** parse_stmt.cc:1979-1990 *)
Definition b_image_selector : rbody :=
    RExp (p_brackets SG_IMAGE_SELECTOR [p_list SG_COSUBSCRIPT_LIST (PRule r_cosubscript); POpt
    (h_seq [PTok TK_COMMA; p_list SG_IMAGE_SELECTOR_SPEC_LIST (PRule r_image_selector_spec)])]).
(** parse_stmt.cc:1993-2002 *)
Definition b_image_selector_spec : rbody :=
    RExp (PAlts SG_IMAGE_SELECTOR_SPEC [h_seq [PTok KW_STAT; PTok TK_EQUAL; PRule r_variable]; h_seq
    [PTok KW_TEAM; PTok TK_EQUAL; PRule r_expr]; h_seq [PTok KW_TEAM_NUMBER; PTok TK_EQUAL; PRule
    r_expr]]).
(** parse_stmt.cc:2005-2013 *)
Definition b_implicit_none_spec : rbody :=
    RExp (PAlts SG_IMPLICIT_NONE_SPEC [PTok KW_EXTERNAL; PTok KW_TYPE]).
(** parse_stmt.cc:2018-2030 *)
Definition b_implicit_spec : rbody :=
    RExp (PAlts SG_IMPLICIT_SPEC [h_seq [PRule r_declaration_type_spec; h_parens [p_list
    SG_LETTER_SPEC_LIST (PRule r_letter_spec)]]; h_seq [PRule r_declaration_type_spec_no_kind;
    h_parens [p_list SG_LETTER_SPEC_LIST (PRule r_letter_spec)]]]).
(** parse_stmt.cc:2033-2046 *)
Definition b_implicit_stmt : rbody :=
    RExp (PAlts SG_IMPLICIT_STMT [h_seq [PTok KW_IMPLICIT; PTok KW_NONE; POpt (h_parens [POpt
    (p_list SG_IMPLICIT_NONE_SPEC_LIST (PRule r_implicit_none_spec))]); p_eol]; h_seq [PTok
    KW_IMPLICIT; p_list SG_IMPLICIT_SPEC_LIST (PRule r_implicit_spec); p_eol]]).
(** parse_stmt.cc:2049-2056 *)
Definition b_implied_shape_or_assumed_size_spec : rbody :=
    RExp (PSeq SG_IMPLIED_SHAPE_OR_ASSUMED_SIZE_SPEC [PRule r_assumed_implied_spec]).
(** parse_stmt.cc:2059-2071 *)
Definition b_implied_shape_spec : rbody :=
    RExp (PSeq SG_IMPLIED_SHAPE_SPEC [PRule r_assumed_implied_spec; PTok TK_COMMA; p_list
    SG_ASSUMED_IMPLIED_SPEC_LIST (PRule r_assumed_implied_spec)]).
(** parse_stmt.cc:2074-2086 *)
Definition b_import_stmt : rbody :=
    RExp (PAlts SG_IMPORT_STMT [h_seq [PTok KW_IMPORT; POpt (h_seq [POpt (PTok TK_DBL_COLON); p_list
    SG_IMPORT_NAME_LIST (PName)]); p_eol]; h_seq [PTok KW_IMPORT; PTok TK_COMMA; PTok KW_ONLY; PTok
    TK_COLON; p_list SG_IMPORT_NAME_LIST (PName); p_eol]; h_seq [PTok KW_IMPORT; PTok TK_COMMA;
    h_alts [PTok KW_NONE; PTok KW_ALL]]; p_eol]).
(** parse_stmt.cc:2089-2096 *)
Definition b_initialization : rbody :=
    RExp (PAlts SG_INITIALIZATION [h_seq [PTok TK_EQUAL; PRule r_expr]; h_seq [PTok TK_ARROW; PRule
    r_expr]]).
(** parse_stmt.cc:2099-2106 *)
Definition b_input_item : rbody :=
    RExp (PAlts SG_INPUT_ITEM [PRule r_io_implied_do; PRule r_variable]).
(** parse_stmt.cc:2109-2118 *)
Definition b_inquire_stmt : rbody :=
    RExp (PSeq SG_INQUIRE_STMT [PTok KW_INQUIRE; PRule r_consume_parens; POpt (p_list
    SG_OUTPUT_ITEM_LIST (PRule r_output_item)); p_eol]).
(** parse_stmt.cc:2121-2125 *)
Definition b_int_constant_expr : rbody :=
    RExp (PTag SG_INT_CONSTANT_EXPR (PRule r_int_expr)).
(** parse_stmt.cc:2128-2132 *)
Definition b_int_expr : rbody :=
    RExp (PTag SG_INT_EXPR (PRule r_expr)).
(** parse_stmt.cc:2135-2140 *)
Definition b_integer_type_spec : rbody :=
    RExp (PSeq SG_INTEGER_TYPE_SPEC [PTok KW_INTEGER; POpt (PRule r_kind_selector)]).
(** parse_stmt.cc:2143-2152 *)
Definition b_intent_spec : rbody :=
    RExp (PAlts SG_INTENT_SPEC [h_seq [PTok KW_IN; PTok KW_OUT]; PTok KW_IN; PTok KW_OUT; PTok
    KW_INOUT]).
(** parse_stmt.cc:2155-2166 *)
Definition b_intent_stmt : rbody :=
    RExp (PSeq SG_INTENT_STMT [PTok KW_INTENT; h_parens [PRule r_intent_spec]; POpt (PTok
    TK_DBL_COLON); p_list SG_DUMMY_ARG_NAME_LIST (PName); p_eol]).
(** parse_stmt.cc:2169-2176 *)
Definition b_interface_stmt : rbody :=
    RExp (PAlts SG_INTERFACE_STMT [h_seq [PTok KW_INTERFACE; POpt (PRule r_generic_spec); p_eol];
    h_seq [PTok KW_ABSTRACT; PTok KW_INTERFACE]; p_eol]).
(** parse_stmt.cc:2179-2193 *)
Definition b_intrinsic_operator : rbody :=
    RExp (PAlts SG_INTRINSIC_OPERATOR [PTok TK_POWER_OP; PRule r_mult_op; PRule r_add_op; PTok
    TK_CONCAT; PRule r_rel_op; PTok TK_NOT_OP; PTok TK_AND_OP; PTok TK_OR_OP; PRule r_equiv_op]).
(** parse_stmt.cc:2196-2206 *)
Definition b_intrinsic_stmt : rbody :=
    RExp (PSeq SG_INTRINSIC_STMT [PTok KW_INTRINSIC; POpt (PTok TK_DBL_COLON); p_list
    SG_INTRINSIC_PROCEDURE_NAME_LIST (PName); p_eol]).
(** parse_stmt.cc:2209-2222 *)
Definition b_intrinsic_type_spec : rbody :=
    RExp (PAlts SG_INTRINSIC_TYPE_SPEC [PRule r_integer_type_spec; h_seq [PTok KW_REAL; POpt (PRule
    r_kind_selector)]; h_seq [PTok KW_COMPLEX; POpt (PRule r_kind_selector)]; h_seq [PTok
    KW_LOGICAL; POpt (PRule r_kind_selector)]; PSeq KW_DOUBLEPRECISION [PTok KW_DOUBLE; PTok
    KW_PRECISION]; PTok KW_DOUBLEPRECISION; h_seq [PTok KW_CHARACTER; POpt (PRule
    r_char_selector)]]).
(** parse_stmt.cc:2225-2238 *)
Definition b_intrinsic_type_spec_no_kind : rbody :=
    RExp (PAlts SG_INTRINSIC_TYPE_SPEC [PTok KW_INTEGER; PTok KW_REAL; PTok KW_COMPLEX; PTok
    KW_LOGICAL; PSeq KW_DOUBLEPRECISION [PTok KW_DOUBLE; PTok KW_PRECISION]; PTok
    KW_DOUBLEPRECISION; PTok KW_CHARACTER]).
(** parse_stmt.cc:2241-2251 *)
Definition b_io_implied_do : rbody :=
    RExp (p_parens SG_IO_IMPLIED_DO [h_seq [p_list SG_IO_IMPLIED_DO_OBJECT_LIST (PRule
    r_io_implied_do_object); PTok TK_COMMA; PRule r_io_implied_do_control]]).
(** parse_stmt.cc:2254-2263 *)
Definition b_io_implied_do_control : rbody :=
    RExp (PSeq SG_IO_IMPLIED_DO_CONTROL [PRule r_variable; PTok TK_EQUAL; PRule r_expr; PTok
    TK_COMMA; PRule r_expr; POpt (h_seq [PTok TK_COMMA; PRule r_expr])]).
(** parse_stmt.cc:2266-2274 *)
Definition b_io_implied_do_object : rbody :=
    RExp (PAlts SG_IO_IMPLIED_DO_OBJECT [h_seq [PRule r_input_item; PNeg (PPeek TK_EQUAL)]; h_seq
    [PRule r_output_item; PNeg (PPeek TK_EQUAL)]]).
(** parse_stmt.cc:2281-2291 *)
Definition b_kind_selector : rbody :=
    RExp (PAlts SG_KIND_SELECTOR [h_parens [POpt (h_seq [PTok KW_KIND; PTok TK_EQUAL]); PRule
    r_int_constant_expr]; h_seq [PTok TK_ASTERISK; PTok SG_INT_LITERAL_CONSTANT]]).
(** parse_stmt.cc:2296-2303 *)
Definition b_label : rbody :=
    RExp (PTag SG_LABEL (PTok SG_INT_LITERAL_CONSTANT)).
(** parse_stmt.cc:2306-2315 *)
Definition b_label_do_stmt : rbody :=
    RExp (PSeq SG_LABEL_DO_STMT [POpt (h_seq [PName; PTok TK_COLON]); PTok KW_DO; PRule r_label;
    POpt (PRule r_loop_control); p_eol]).
(** parse_stmt.cc:2318-2331 *)
Definition b_language_binding_spec : rbody :=
    RExp (PSeq SG_LANGUAGE_BINDING_SPEC [PTok KW_BIND; PTok TK_PARENL; PLiteral (L "c"); POpt (h_seq
    [PTok TK_COMMA; PTok KW_NAME; PTok TK_EQUAL; PRule r_default_char_expr]); PTok TK_PARENR]).
(** parse_stmt.cc:2334-2342 *)
Definition b_length_selector : rbody :=
    RExp (PAlts SG_LENGTH_SELECTOR [h_parens [POpt (h_seq [PTok KW_LEN; PTok TK_EQUAL]); PRule
    r_type_param_value]; h_seq [PTok TK_ASTERISK; PRule r_char_length]]).
(** parse_stmt.cc:2345-2352 *)
Definition b_letter_spec : rbody :=
    RExp (PSeq SG_LETTER_SPEC [PLetter; POpt (h_seq [PTok TK_MINUS; PLetter])]).
(** parse_stmt.cc:2355-2371 *)
Definition b_locality_spec : rbody :=
    RExp (PAlts SG_LOCALITY_SPEC [h_seq [PTok KW_LOCAL; h_parens [p_list SG_VARIABLE_NAME_LIST (PTag
    SG_VARIABLE_NAME (PName))]]; h_seq [PTok KW_LOCAL_INIT; h_parens [p_list SG_VARIABLE_NAME_LIST
    (PTag SG_VARIABLE_NAME (PName))]]; h_seq [PTok KW_SHARED; h_parens [p_list SG_VARIABLE_NAME_LIST
    (PTag SG_VARIABLE_NAME (PName))]]; h_seq [PTok KW_DEFAULT; PTok TK_PARENL; PTok KW_NONE; PTok
    TK_PARENR]]).
(** parse_stmt.cc:2374-2387 *)
Definition b_lock_stmt : rbody :=
    RExp (PSeq SG_LOCK_STMT [PTok KW_LOCK; h_parens [PRule r_variable; POpt (h_seq [PTok TK_COMMA;
    h_list (h_alts [h_seq [PTok KW_ACQUIRED_LOCK; PTok TK_EQUAL; PRule r_variable]; PRule
    r_sync_stat])])]; p_eol]).
(** parse_stmt.cc:2390-2395 *)
Definition b_logical_expr : rbody :=
    RExp (PTag SG_LOGICAL_EXPR (PRule r_expr)).
(** parse_stmt.cc:2398-2405 *)
Definition b_logical_literal_constant : rbody :=
    RExp (PAlts SG_LOGICAL_LITERAL_CONSTANT [PTok TK_FALSE_CONSTANT; PTok TK_TRUE_CONSTANT]).
(** parse_stmt.cc:2408-2429 *)
Definition b_loop_control : rbody :=
    RExp (PSeq SG_LOOP_CONTROL [POpt (PTok TK_COMMA); h_alts [h_seq [PName; PTok TK_EQUAL; PRule
    r_int_expr; PTok TK_COMMA; PRule r_int_expr; POpt (h_seq [PTok TK_COMMA; PRule r_int_expr])];
    h_seq [PTok KW_WHILE; h_parens [PRule r_logical_expr]]; h_seq [PTok KW_CONCURRENT; PRule
    r_concurrent_header; POpt (PRule r_concurrent_locality)]]]).
(** parse_stmt.cc:2432-2437 *)
Definition b_lower_bound_expr : rbody :=
    RExp (PTag SG_LOWER_BOUND_EXPR (PRule r_expr)).
(** parse_stmt.cc:2444-2456 *)
Definition b_macro_stmt : rbody :=
    RExp (PSeq SG_MACRO_STMT [PNeg (PPeek KW_ASSOCIATE); PNeg (PPeek KW_WHERE); PNeg (PPeek
    KW_FORALL); PNeg (PPeek KW_CASE); PName; PRule r_consume_parens; p_eol]).
(** parse_stmt.cc:2459-2468 *)
Definition b_masked_elsewhere_stmt : rbody :=
    RExp (PSeq SG_MASKED_ELSEWHERE_STMT [PTok KW_ELSE; PTok KW_WHERE; h_parens [PRule
    r_logical_expr]; POpt (PName); p_eol]).
(** parse_stmt.cc:2471-2476 *)
Definition b_module_nature : rbody :=
    RExp (PAlts SG_MODULE_NATURE [PTok KW_INTRINSIC; PTok KW_NON_INTRINSIC]).
(** parse_stmt.cc:2479-2484 *)
Definition b_module_stmt : rbody :=
    RExp (PSeq SG_MODULE_STMT [PTok KW_MODULE; PName; p_eol]).
(** parse_stmt.cc:2487-2494 *)
Definition b_mp_subprogram_stmt : rbody :=
    RExp (PSeq SG_MP_SUBPROGRAM_STMT [PTok KW_MODULE; PTok KW_PROCEDURE; PName; p_eol]).
(** parse_stmt.cc:2497-2504 *)
Definition b_mult_op : rbody :=
    RExp (PAlts SG_MULT_OP [PTok TK_ASTERISK; PTok TK_SLASHF]).
(** parse_stmt.cc:2509-2514 *)
Definition b_named_constant_def : rbody :=
    RExp (PSeq SG_NAMED_CONSTANT_DEF [PName; PTok TK_EQUAL; PRule r_expr]).
(** parse_stmt.cc:2517-2534 *)
Definition b_namelist_stmt : rbody :=
    RExp (PSeq SG_NAMELIST_STMT [PTok KW_NAMELIST; PTok TK_SLASHF; PName; PTok TK_SLASHF; p_list
    SG_NAMELIST_GROUP_OBJECT_LIST (PName); PStar (h_seq [POpt (PTok TK_COMMA); PTok TK_SLASHF;
    PName; PTok TK_SLASHF; p_list SG_NAMELIST_GROUP_OBJECT_LIST (PName)]); p_eol]).
(** parse_stmt.cc:2537-2546 *)
Definition b_nonlabel_do_stmt : rbody :=
    RExp (PSeq SG_NONLABEL_DO_STMT [POpt (h_seq [PName; PTok TK_COLON]); PTok KW_DO; POpt (PRule
    r_loop_control); p_eol]).
(** parse_stmt.cc:2549-2558 *)
Definition b_nullify_stmt : rbody :=
    RExp (PSeq SG_NULLIFY_STMT [PTok KW_NULLIFY; h_parens [p_list SG_POINTER_OBJECT_LIST (PRule
    r_pointer_object)]; p_eol]).
(** parse_stmt.cc:2563-2571 *)
Definition b_only : rbody :=
    RExp (PAlts SG_ONLY [PRule r_rename; PRule r_generic_spec; PRule r_list_name]).
(** parse_stmt.cc:2574-2582 *)
Definition b_open_stmt : rbody :=
    RExp (PSeq SG_OPEN_STMT [PTok KW_OPEN; PRule r_consume_parens; p_eol]).
(** parse_stmt.cc:2585-2593 *)
Definition b_optional_stmt : rbody :=
    RExp (PSeq SG_OPTIONAL_STMT [PTok KW_OPTIONAL; POpt (PTok TK_DBL_COLON); p_list
    SG_DUMMY_ARG_NAME_LIST (PName); p_eol]).
(** parse_stmt.cc:2596-2626 *)
Definition b_other_specification_stmt : rbody :=
    RExt false SG_OTHER_SPECIFICATION_STMT (PAlts SG_OTHER_SPECIFICATION_STMT [PRule r_access_stmt;
    PRule r_allocatable_stmt; PRule r_asynchronous_stmt; PRule r_bind_stmt; PRule
    r_codimension_stmt; PRule r_dimension_stmt; PRule r_external_stmt; PRule r_intent_stmt; PRule
    r_intrinsic_stmt; PRule r_namelist_stmt; PRule r_optional_stmt; PRule r_pointer_stmt; PRule
    r_protected_stmt; PRule r_save_stmt; PRule r_target_stmt; PRule r_volatile_stmt; PRule
    r_value_stmt; PRule r_common_stmt; PRule r_equivalence_stmt]).
(** parse_stmt.cc:2629-2636 *)
Definition b_output_item : rbody :=
    RExp (PAlts SG_OUTPUT_ITEM [PRule r_io_implied_do; PRule r_expr]).
(** parse_stmt.cc:2641-2650 *)
Definition b_parameter_stmt : rbody :=
    RExp (PSeq SG_PARAMETER_STMT [PTok KW_PARAMETER; h_parens [p_list SG_NAMED_CONSTANT_DEF_LIST
    (PRule r_named_constant_def)]; p_eol]).
(** parse_stmt.cc:2653-2664 *)
Definition b_parent_string : rbody :=
    RExp (PAlts SG_PARENT_STRING [PRule r_array_element; PRule r_coindexed_named_object; PRule
    r_structure_component; PTok SG_CHAR_LITERAL_CONSTANT; PName]).
(** parse_stmt.cc:2667-2677 *)
Definition b_part_ref : rbody :=
    RExp (PSeq SG_PART_REF [PName; POpt (h_parens [p_list SG_SECTION_SUBSCRIPT_LIST (PRule
    r_section_subscript)]); POpt (PRule r_image_selector)]).
(** parse_stmt.cc:2680-2702 *)
Definition b_pointer_assignment_stmt : rbody :=
    RExp (PAlts SG_POINTER_ASSIGNMENT_STMT [h_seq [PRule r_data_pointer_object; h_parens [p_list
    SG_BOUNDS_REMAPPING_LIST (PRule r_bounds_remapping)]; PTok TK_ARROW; PTag SG_DATA_TARGET (PRule
    r_expr); p_eol]; h_seq [PRule r_data_pointer_object; POpt (h_parens [p_list SG_BOUNDS_SPEC_LIST
    (PRule r_bounds_spec)]); PTok TK_ARROW; PTag SG_DATA_TARGET (PRule r_expr); p_eol]; h_seq [PRule
    r_proc_pointer_object; PTok TK_ARROW; PRule r_proc_target; p_eol]]).
(** parse_stmt.cc:2705-2713 *)
Definition b_pointer_decl : rbody :=
    RExp (PSeq SG_POINTER_DECL [PName; POpt (h_parens [h_list (PTok TK_COLON)])]).
(** parse_stmt.cc:2716-2725 *)
Definition b_pointer_object : rbody :=
    RExp (PAlts SG_POINTER_OBJECT [PRule r_structure_component; PName]).
(** parse_stmt.cc:2728-2739 *)
Definition b_pointer_stmt : rbody :=
    RExp (PSeq SG_POINTER_STMT [PTok KW_POINTER; POpt (PTok TK_DBL_COLON); p_list
    SG_POINTER_DECL_LIST (PRule r_pointer_decl); p_eol]).
(** parse_stmt.cc:2742-2747 *)
Definition b_prefix : rbody :=
    RExp (PTag SG_PREFIX (PStar (PRule r_prefix_spec))).
(** parse_stmt.cc:2750-2763 *)
Definition b_prefix_spec : rbody :=
    RExp (PAlts SG_PREFIX_SPEC [PTok KW_ELEMENTAL; PTok KW_IMPURE; PTok KW_MODULE; PTok
    KW_NON_RECURSIVE; PTok KW_PURE; PTok KW_RECURSIVE; PRule r_declaration_type_spec]).
(** parse_stmt.cc:2766-2774 *)
Definition b_print_stmt : rbody :=
    RExp (PSeq SG_PRINT_STMT [PTok KW_PRINT; PRule r_format; POpt (h_seq [PTok TK_COMMA; p_list
    SG_OUTPUT_ITEM_LIST (PRule r_output_item)]); p_eol]).
(** parse_stmt.cc:2777-2784 *)
Definition b_private_components_stmt : rbody :=
    RExp (PSeq SG_PRIVATE_COMPONENTS_STMT [PTok KW_PRIVATE; p_eol]).
(** parse_stmt.cc:2787-2794 *)
Definition b_private_or_sequence : rbody :=
    RExp (PAlts SG_PRIVATE_OR_SEQUENCE [PRule r_private_components_stmt; PRule r_sequence_stmt]).
(** parse_stmt.cc:2797-2809 *)
Definition b_proc_attr_spec : rbody :=
    RExp (PAlts SG_PROC_ATTR_SPEC [PRule r_access_spec; PRule r_proc_language_binding_spec; h_seq
    [PTok KW_INTENT; h_parens [PRule r_intent_spec]]; PTok KW_OPTIONAL; PTok KW_POINTER; PTok
    KW_PROTECTED; PTok KW_SAVE]).
(** parse_stmt.cc:2812-2821 *)
Definition b_proc_component_attr_spec : rbody :=
    RExp (PAlts SG_PROC_COMPONENT_ATTR_SPEC [PRule r_access_spec; PTok KW_NOPASS; h_seq [PTok
    KW_PASS; POpt (h_parens [PName])]; PTok KW_POINTER]).
(** parse_stmt.cc:2824-2838 *)
Definition b_proc_component_def_stmt : rbody :=
    RExp (PSeq SG_PROC_COMPONENT_DEF_STMT [PTok KW_PROCEDURE; h_parens [POpt (PRule
    r_proc_interface)]; PTok TK_COMMA; p_list SG_PROC_COMPONENT_ATTR_SPEC_LIST (PRule
    r_proc_component_attr_spec); PTok TK_DBL_COLON; p_list SG_PROC_DECL_LIST (PRule r_proc_decl);
    p_eol]).
(** parse_stmt.cc:2841-2855 *)
Definition b_proc_component_ref : rbody :=
    RExp (PSeq SG_PROC_COMPONENT_REF [PRule r_variable]).
(** parse_stmt.cc:2858-2867 *)
Definition b_proc_decl : rbody :=
    RExp (PSeq SG_PROC_DECL [PName; POpt (h_seq [PTok TK_ARROW; PRule r_proc_pointer_init])]).
(** parse_stmt.cc:2870-2877 *)
Definition b_proc_interface : rbody :=
    RExp (PAlts SG_PROC_INTERFACE [PName; PRule r_declaration_type_spec]).
(** parse_stmt.cc:2880-2885 *)
Definition b_proc_language_binding_spec : rbody :=
    RExp (PTag SG_PROC_LANGUAGE_BINDING_SPEC (PRule r_language_binding_spec)).
(** parse_stmt.cc:2888-2896 *)
Definition b_proc_pointer_init : rbody :=
    RExp (PAlts SG_PROC_POINTER_INIT [PTag SG_NULL_INIT (PRule r_function_reference); PName]).
(** parse_stmt.cc:2899-2907 *)
Definition b_proc_pointer_object : rbody :=
    RExp (PAlts SG_PROC_POINTER_OBJECT [PTag SG_PROC_POINTER_NAME (h_seq [PName; PNeg (PTok
    TK_PERCENT)]); PRule r_proc_component_ref]).
(** parse_stmt.cc:2910-2918 *)
Definition b_proc_target : rbody :=
    RExp (PAlts SG_PROC_TARGET [PRule r_expr; PName; PRule r_proc_component_ref]).
(** parse_stmt.cc:2921-2935 *)
Definition b_procedure_declaration_stmt : rbody :=
    RExp (PSeq SG_PROCEDURE_DECLARATION_STMT [PTok KW_PROCEDURE; h_parens [POpt (PRule
    r_proc_interface)]; POpt (h_seq [PStar (h_seq [PTok TK_COMMA; PRule r_proc_attr_spec]); PTok
    TK_DBL_COLON]); p_list SG_PROC_DECL_LIST (PRule r_proc_decl); p_eol]).
(** parse_stmt.cc:2938-2981 *)
Definition b_procedure_designator : rbody :=
    RDesignator (PSeq SG_PROCEDURE_DESIGNATOR [POpt (h_seq [PStar (h_seq [PRule r_part_ref; PTok
    TK_PERCENT])]); PName; p_eol]).
(** parse_stmt.cc:2984-2995 *)
Definition b_procedure_stmt : rbody :=
    RExp (PSeq SG_PROCEDURE_STMT [POpt (PTok KW_MODULE); PTok KW_PROCEDURE; POpt (PTok
    TK_DBL_COLON); p_list SG_SPECIFIC_PROCEDURE_LIST (PTag SG_SPECIFIC_PROCEDURE (PName)); p_eol]).
(** parse_stmt.cc:2998-3006 *)
Definition b_program_stmt : rbody :=
    RExp (PSeq SG_PROGRAM_STMT [PTok KW_PROGRAM; PName; p_eol]).
(** parse_stmt.cc:3009-3018 *)
Definition b_protected_stmt : rbody :=
    RExp (PSeq SG_PROTECTED_STMT [PTok KW_PROTECTED; POpt (PTok TK_DBL_COLON); h_list (PName);
    p_eol]).
(** parse_stmt.cc:3025-3042 *)
Definition b_read_stmt : rbody :=
    RExp (PSeq SG_READ_STMT [PTok KW_READ; h_alts [h_seq [PTag SG_IO_CONTROL_SPEC_LIST (PRule
    r_consume_parens); POpt (p_list SG_INPUT_ITEM_LIST (PRule r_input_item))]; h_seq [PRule
    r_format; POpt (h_seq [PTok TK_COMMA; p_list SG_INPUT_ITEM_LIST (PRule r_input_item)])]];
    p_eol]).
(** parse_stmt.cc:3045-3056 *)
Definition b_real_literal_constant : rbody :=
    RExp (PSeq SG_REAL_LITERAL_CONSTANT [PTok SG_SIGNIFICAND; POpt (h_seq [PTok SG_EXPONENT_LETTER;
    PTok SG_EXPONENT]); POpt (h_seq [PTok TK_UNDERSCORE; PTok SG_KIND_PARAM])]).
(** parse_stmt.cc:3059-3068 *)
Definition b_rel_op : rbody :=
    RExp (PAlts SG_REL_OP [PTok TK_REL_LT; PTok TK_REL_LE; PTok TK_REL_GT; PTok TK_REL_GE]).
(** parse_stmt.cc:3071-3080 *)
Definition b_rename : rbody :=
    RExp (PAlts SG_RENAME [h_seq [PName; PTok TK_ARROW; PName]; h_seq [PTok KW_OPERATOR; h_parens
    [PTok TK_DEF_OP]; PTok TK_ARROW; PTok KW_OPERATOR; h_parens [PTok TK_DEF_OP]]]).
(** parse_stmt.cc:3083-3088 *)
Definition b_return_stmt : rbody :=
    RExp (PSeq SG_RETURN_STMT [PTok KW_RETURN; POpt (PRule r_int_expr); p_eol]).
(** parse_stmt.cc:3091-3100 *)
Definition b_rewind_stmt : rbody :=
    RExp (PSeq SG_REWIND_STMT [PTok KW_REWIND; h_alts [PRule r_int_expr; PRule r_consume_parens];
    p_eol]).
(** parse_stmt.cc:3105-3116 *)
Definition b_save_stmt : rbody :=
    RExp (PSeq SG_SAVE_STMT [PTok KW_SAVE; POpt (h_seq [POpt (PTok TK_DBL_COLON); p_list
    SG_SAVED_ENTITY_LIST (PRule r_saved_entity)]); p_eol]).
(** parse_stmt.cc:3119-3128 *)
Definition b_saved_entity : rbody :=
    RExp (PAlts SG_SAVED_ENTITY [PName; h_seq [PTok TK_SLASHF; PName; PTok TK_SLASHF]]).
(** parse_stmt.cc:3131-3141 *)
Definition b_section_subscript : rbody :=
    RExp (PAlts SG_SECTION_SUBSCRIPT [h_seq [POpt (PRule r_int_expr); PTok TK_COLON; POpt (PRule
    r_int_expr); POpt (h_seq [PTok TK_COLON; PRule r_int_expr])]; PRule r_int_expr]).
(** parse_stmt.cc:3144-3154 *)
Definition b_select_case_stmt : rbody :=
    RExp (PSeq SG_SELECT_CASE_STMT [POpt (h_seq [PName; PTok TK_COLON]); PTok KW_SELECT; PTok
    KW_CASE; h_parens [PTag SG_CASE_EXPR (PRule r_expr)]; p_eol]).
(** parse_stmt.cc:3157-3167 *)
Definition b_select_rank_stmt : rbody :=
    RExp (PSeq SG_SELECT_RANK_STMT [POpt (h_seq [PName; PTok TK_COLON]); PTok KW_SELECT; PTok
    KW_RANK; h_parens [h_seq [POpt (h_seq [PName; PTok TK_ARROW]); PRule r_selector]]; p_eol]).
(** parse_stmt.cc:3170-3180 *)
Definition b_select_rank_case_stmt : rbody :=
    RExp (PSeq SG_SELECT_RANK_CASE_STMT [PTok KW_RANK; h_alts [PTok KW_DEFAULT; h_parens [PTok
    TK_ASTERISK]; h_parens [PRule r_int_constant_expr]]; p_eol]).
(** parse_stmt.cc:3183-3193 *)
Definition b_select_type_stmt : rbody :=
    RExp (PSeq SG_SELECT_TYPE_STMT [POpt (h_seq [PName; PTok TK_COLON]); PTok KW_SELECT; PTok
    KW_TYPE; h_parens [h_seq [POpt (h_seq [PName; PTok TK_ARROW]); PRule r_selector]]; p_eol]).
(** parse_stmt.cc:3196-3203 *)
Definition b_selector : rbody :=
    RExp (PAlts SG_SELECTOR [PRule r_expr; PRule r_variable]).
(** parse_stmt.cc:3206-3213 *)
Definition b_sequence_stmt : rbody :=
    RExp (PSeq SG_SEQUENCE_STMT [PTok KW_SEQUENCE; p_eol]).
(** parse_stmt.cc:3216-3223 *)
Definition b_sign : rbody :=
    RExp (PAlts SG_SIGN [PTok TK_PLUS; PTok TK_MINUS]).
(** parse_stmt.cc:3226-3233 *)
Definition b_signed_real_literal_constant : rbody :=
    RExp (PSeq SG_SIGNED_REAL_LITERAL_CONSTANT [POpt (PRule r_sign); PRule r_real_literal_constant]).
(** parse_stmt.cc:3236-3248 *)
Definition b_stop_stmt : rbody :=
    RExp (PSeq SG_STOP_STMT [PTok KW_STOP; POpt (PRule r_default_char_expr); POpt (h_seq [PTok
    TK_COMMA; PTok KW_QUIET; PTok TK_EQUAL; PRule r_logical_expr]); p_eol]).
(** parse_stmt.cc:3253-3262 *)
Definition b_structure_component : rbody :=
    RExp (PSeq SG_STRUCTURE_COMPONENT [PRule r_part_ref; PTok TK_PERCENT; PStar (h_seq [PRule
    r_part_ref; PTok TK_PERCENT]); PName; POpt (PRule r_image_selector)]).
(** parse_stmt.cc:3265-3273 *)
Definition b_structure_constructor : rbody :=
    RExp (PSeq SG_STRUCTURE_CONSTRUCTOR [PRule r_derived_type_spec; h_parens [POpt (p_list
    SG_COMPONENT_SPEC_LIST (PRule r_component_spec))]]).
(** parse_stmt.cc:3276-3284 *)
Definition b_submodule_stmt : rbody :=
    RExp (PSeq SG_SUBMODULE_STMT [PTok KW_SUBMODULE; PTok TK_PARENL; PName; POpt (h_seq [PTok
    TK_COLON; PName]); PTok TK_PARENR; p_eol]).
(** parse_stmt.cc:3287-3302 *)
Definition b_subroutine_stmt : rbody :=
    RExp (PSeq SG_SUBROUTINE_STMT [POpt (PRule r_prefix); PTok KW_SUBROUTINE; PName; POpt (h_seq
    [h_parens [POpt (p_list SG_DUMMY_ARG_LIST (PRule r_dummy_arg))]]); POpt (PRule
    r_proc_language_binding_spec); p_eol]).
(** parse_stmt.cc:3305-3311 *)
Definition b_substring : rbody :=
    RExp (PSeq SG_SUBSTRING [PRule r_parent_string; h_parens [PRule r_substring_range]]).
(** parse_stmt.cc:3314-3322 *)
Definition b_substring_range : rbody :=
    RExp (PSeq SG_SUBSTRING_RANGE [POpt (PRule r_int_expr); PTok TK_COLON; POpt (PRule r_int_expr)]).
(** parse_stmt.cc:3325-3335 *)
Definition b_suffix : rbody :=
    RExp (PAlts SG_SUFFIX [h_seq [PRule r_proc_language_binding_spec; POpt (h_seq [PTok KW_RESULT;
    h_parens [PName]])]; h_seq [h_seq [PTok KW_RESULT; h_parens [PName]]; POpt (PRule
    r_proc_language_binding_spec)]]).
(** parse_stmt.cc:3338-3347 *)
Definition b_sync_all_stmt : rbody :=
    RExp (PSeq SG_SYNC_ALL_STMT [PTok KW_SYNC; PTok KW_ALL; POpt (h_parens [POpt (h_list (PRule
    r_sync_stat))]); p_eol]).
(** parse_stmt.cc:3350-3364 *)
Definition b_sync_images_stmt : rbody :=
    RExp (PSeq SG_SYNC_ALL_STMT [PTok KW_SYNC; PTok KW_IMAGES; h_parens [h_alts [PRule r_expr; PTok
    TK_ASTERISK]; POpt (h_seq [PTok TK_COMMA; h_list (PRule r_sync_stat)])]; p_eol]).
(** parse_stmt.cc:3367-3376 *)
Definition b_sync_memory_stmt : rbody :=
    RExp (PSeq SG_SYNC_MEMORY_STMT [PTok KW_SYNC; PTok KW_MEMORY; POpt (h_parens [POpt (h_list
    (PRule r_sync_stat))]); p_eol]).
(** parse_stmt.cc:3379-3387 *)
Definition b_sync_stat : rbody :=
    RExp (PAlts SG_SYNC_STAT [h_seq [PTok KW_STAT; PTok TK_EQUAL; PRule r_variable]; h_seq [PTok
    KW_ERRMSG; PTok TK_EQUAL; PRule r_variable]]).
(** parse_stmt.cc:3390-3403 *)
Definition b_sync_team_stmt : rbody :=
    RExp (PSeq SG_SYNC_TEAM_STMT [PTok KW_SYNC; PTok KW_TEAM; h_parens [PRule r_expr; POpt (h_seq
    [PTok TK_COMMA; h_list (PRule r_sync_stat)])]; p_eol]).
(** parse_stmt.cc:3409-3417 *)
Definition b_target_decl : rbody :=
    RExp (PSeq SG_TARGET_DECL [PName; POpt (h_parens [PRule r_array_spec]); POpt (h_brackets [PRule
    r_coarray_spec])]).
(** parse_stmt.cc:3420-3429 *)
Definition b_target_stmt : rbody :=
    RExp (PSeq SG_TARGET_STMT [PTok KW_TARGET; POpt (PTok TK_DBL_COLON); p_list SG_TARGET_DECL_LIST
    (PRule r_target_decl); p_eol]).
(** parse_stmt.cc:3432-3442 *)
Definition b_type_attr_spec : rbody :=
    RExp (PAlts SG_TYPE_ATTR_SPEC [PTok KW_ABSTRACT; PRule r_access_spec; PRule r_bind_c; h_seq
    [PTok KW_EXTENDS; h_parens [PName]]]).
(** parse_stmt.cc:3445-3458 *)
Definition b_type_bound_generic_stmt : rbody :=
    RExp (PSeq SG_TYPE_BOUND_GENERIC_STMT [PTok KW_GENERIC; POpt (h_seq [PTok TK_COMMA; PRule
    r_access_spec]); PTok TK_DBL_COLON; PRule r_generic_spec; PTok TK_ARROW; p_list
    SG_BINDING_NAME_LIST (PName); p_eol]).
(** parse_stmt.cc:3461-3469 *)
Definition b_type_bound_proc_binding : rbody :=
    RExp (PAlts SG_TYPE_BOUND_PROC_BINDING [PRule r_type_bound_procedure_stmt; PRule
    r_type_bound_generic_stmt; PRule r_final_procedure_stmt]).
(** parse_stmt.cc:3472-3481 *)
Definition b_type_bound_proc_decl : rbody :=
    RExp (PSeq SG_TYPE_BOUND_PROC_DECL [PName; POpt (h_seq [PTok TK_ARROW; PName])]).
(** parse_stmt.cc:3484-3508 *)
Definition b_type_bound_procedure_stmt : rbody :=
    RExp (PAlts SG_TYPE_BOUND_PROCEDURE_STMT [h_seq [PTok KW_PROCEDURE; POpt (h_seq [POpt (h_seq
    [PTok TK_COMMA; p_list SG_BINDING_ATTR_LIST (PRule r_binding_attr)]); PTok TK_DBL_COLON]);
    p_list SG_TYPE_BOUND_PROC_DECL_LIST (PRule r_type_bound_proc_decl); p_eol]; h_seq [PTok
    KW_PROCEDURE; h_parens [PName]; PTok TK_COMMA; p_list SG_BINDING_ATTR_LIST (PRule
    r_binding_attr); PTok TK_DBL_COLON; p_list SG_BINDING_NAME_LIST (PName); p_eol]]).
(** parse_stmt.cc:3518-3527 *)
Definition b_type_decl_attr_seq1 : rbody :=
    RExp (PSeq SG_TYPE_DECL_ATTR_SEQ [PRule r_declaration_type_spec; POpt (h_seq [PStar (h_seq [PTok
    TK_COMMA; PRule r_attr_spec]); PTok TK_DBL_COLON])]).
(** parse_stmt.cc:3542-3555 *)
Definition b_type_decl_attr_seq2 : rbody :=
    RExp (PSeq SG_TYPE_DECL_ATTR_SEQ [PSeq SG_DECLARATION_TYPE_SPEC [PSeq SG_INTRINSIC_TYPE_SPEC
    [PTok KW_CHARACTER; PSeq SG_CHAR_SELECTOR [PSeq SG_LENGTH_SELECTOR [PTok TK_ASTERISK; PRule
    r_char_length; PTok TK_COMMA]]]]]).
(** parse_stmt.cc:3561-3572 *)
Definition b_type_declaration_stmt : rbody :=
    RExp (PAlts SG_TYPE_DECLARATION_STMT [h_seq [PRule r_type_decl_attr_seq1; p_list
    SG_ENTITY_DECL_LIST (PRule r_entity_decl); p_eol]; h_seq [PRule r_type_decl_attr_seq2; p_list
    SG_ENTITY_DECL_LIST (PRule r_entity_decl); p_eol]]).
(** parse_stmt.cc:3575-3587 *)
Definition b_type_guard_stmt : rbody :=
    RExp (PAlts SG_TYPE_GUARD_STMT [h_seq [PTok KW_TYPE; PTok KW_IS; h_parens [PRule r_type_spec];
    POpt (PName); p_eol]; h_seq [PTok KW_CLASS; PTok KW_IS; h_parens [PRule r_derived_type_spec];
    POpt (PName); p_eol]; h_seq [PTok KW_CLASS; PTok KW_DEFAULT; POpt (PName); p_eol]]).
(** parse_stmt.cc:3590-3597 *)
Definition b_type_param_attr_spec : rbody :=
    RExp (PAlts SG_TYPE_PARAM_ATTR_SPEC [PTok KW_KIND; PTok KW_LEN]).
(** parse_stmt.cc:3600-3609 *)
Definition b_type_param_decl : rbody :=
    RExp (PSeq SG_TYPE_PARAM_DECL [PName; POpt (h_seq [PTok TK_EQUAL; PRule r_int_expr])]).
(** parse_stmt.cc:3612-3623 *)
Definition b_type_param_def_stmt : rbody :=
    RExp (PSeq SG_TYPE_PARAM_DEF_STMT [PRule r_integer_type_spec; PTok TK_COMMA; PRule
    r_type_param_attr_spec; PTok TK_DBL_COLON; p_list SG_TYPE_PARAM_DECL_LIST (PRule
    r_type_param_decl); p_eol]).
(** parse_stmt.cc:3626-3634 *)
Definition b_type_param_spec : rbody :=
    RExp (PSeq SG_TYPE_PARAM_SPEC [POpt (h_seq [PName; PTok TK_EQUAL]); PRule r_type_param_value]).
(** parse_stmt.cc:3637-3646 *)
Definition b_type_param_value : rbody :=
    RExp (PAlts SG_TYPE_PARAM_VALUE [PTok TK_ASTERISK; PTok TK_COLON; PRule r_int_expr]).
(** parse_stmt.cc:3649-3656 *)
Definition b_type_spec : rbody :=
    RExp (PAlts SG_TYPE_SPEC [PRule r_intrinsic_type_spec; PRule r_derived_type_spec]).
(** parse_stmt.cc:3661-3671 *)
Definition b_unlock_stmt : rbody :=
    RExp (PSeq SG_UNLOCK_STMT [PTok KW_UNLOCK; h_parens [PRule r_variable; POpt (h_seq [PTok
    TK_COMMA; h_list (PRule r_sync_stat)])]; p_eol]).
(** parse_stmt.cc:3674-3679 *)
Definition b_upper_bound_expr : rbody :=
    RExp (PTag SG_UPPER_BOUND_EXPR (PRule r_expr)).
(** parse_stmt.cc:3682-3702 *)
Definition b_use_stmt : rbody :=
    RExp (PAlts SG_USE_STMT [h_seq [PTok KW_USE; POpt (h_seq [POpt (h_seq [PTok TK_COMMA; PRule
    r_module_nature]); PTok TK_DBL_COLON]); PName; POpt (h_seq [PTok TK_COMMA; p_list SG_RENAME_LIST
    (PRule r_rename)]); p_eol]; h_seq [PTok KW_USE; POpt (h_seq [POpt (h_seq [PTok TK_COMMA; PRule
    r_module_nature]); PTok TK_DBL_COLON]); PName; PTok TK_COMMA; PTok KW_ONLY; PTok TK_COLON; POpt
    (p_list SG_ONLY_LIST (PRule r_only)); p_eol]]).
(** parse_stmt.cc:3707-3716 *)
Definition b_value_stmt : rbody :=
    RExp (PSeq SG_VALUE_STMT [PTok KW_VALUE; POpt (PTok TK_DBL_COLON); h_list (PName); p_eol]).
(** parse_stmt.cc:3719-3728 *)
Definition b_variable : rbody :=
    RExp (PAlts SG_VARIABLE [PRule r_function_reference; PRule r_designator]).
(** parse_stmt.cc:3732-3742 *)
Definition b_volatile_stmt : rbody :=
    RExp (PSeq SG_VOLATILE_STMT [PTok KW_VOLATILE; POpt (PTok TK_DBL_COLON); p_list
    SG_OBJECT_NAME_LIST (PName); p_eol]).
(** parse_stmt.cc:3747-3762 *)
Definition b_wait_spec : rbody :=
    RExp (PAlts SG_WAIT_SPEC [h_seq [PTok KW_UNIT; PTok TK_EQUAL; PRule r_expr]; h_seq [PTok KW_END;
    PTok TK_EQUAL; PRule r_label]; h_seq [PTok KW_EOR; PTok TK_EQUAL; PRule r_label]; h_seq [PTok
    KW_ERR; PTok TK_EQUAL; PRule r_label]; h_seq [PTok KW_ID; PTok TK_EQUAL; PRule r_expr]; h_seq
    [PTok KW_IOMSG; PTok TK_EQUAL; PRule r_variable]; h_seq [PTok KW_IOSTAT; PTok TK_EQUAL; PRule
    r_variable]; PRule r_expr]).
(** parse_stmt.cc:3765-3773 *)
Definition b_wait_stmt : rbody :=
    RExp (PSeq SG_WAIT_STMT [PTok KW_WAIT; h_parens [h_list (PRule r_wait_spec)]; p_eol]).
(** parse_stmt.cc:3776-3785 *)
Definition b_where_construct_stmt : rbody :=
    RExp (PSeq SG_WHERE_CONSTRUCT_STMT [POpt (h_seq [PName; PTok TK_COLON]); PTok KW_WHERE; h_parens
    [PRule r_logical_expr]; p_eol]).
(** parse_stmt.cc:3788-3797 *)
Definition b_where_stmt : rbody :=
    RExp (PSeq SG_WHERE_STMT [PTok KW_WHERE; h_parens [PRule r_logical_expr]; PRule
    r_assignment_stmt; p_eol]).
(** parse_stmt.cc:3800-3812 *)
Definition b_write_stmt : rbody :=
    RExp (PSeq SG_WRITE_STMT [PTok KW_WRITE; PTag SG_IO_CONTROL_SPEC_LIST (PRule r_consume_parens);
    POpt (p_list SG_OUTPUT_ITEM_LIST (PRule r_output_item)); p_eol]).

Definition grammar (r : rule) : rbody :=
  match r with
  | r_consume_parens => b_consume_parens
  | r_list_name => b_list_name
  | r_bind_c => b_bind_c
  | r_access_id => b_access_id
  | r_access_spec => b_access_spec
  | r_access_stmt => b_access_stmt
  | r_action_stmt => b_action_stmt
  | r_actual_arg => b_actual_arg
  | r_actual_arg_spec => b_actual_arg_spec
  | r_add_op => b_add_op
  | r_alloc_opt => b_alloc_opt
  | r_allocatable_stmt => b_allocatable_stmt
  | r_allocatable_decl => b_allocatable_decl
  | r_allocate_coarray_spec => b_allocate_coarray_spec
  | r_allocate_coshape_spec => b_allocate_coshape_spec
  | r_allocate_object => b_allocate_object
  | r_allocate_shape_spec => b_allocate_shape_spec
  | r_allocate_stmt => b_allocate_stmt
  | r_allocation => b_allocation
  | r_arithmetic_if_stmt => b_arithmetic_if_stmt
  | r_array_element => b_array_element
  | r_array_spec => b_array_spec
  | r_assignment_stmt => b_assignment_stmt
  | r_associate_stmt => b_associate_stmt
  | r_association => b_association
  | r_assumed_implied_spec => b_assumed_implied_spec
  | r_assumed_shape_spec => b_assumed_shape_spec
  | r_assumed_size_spec => b_assumed_size_spec
  | r_asynchronous_stmt => b_asynchronous_stmt
  | r_attr_spec => b_attr_spec
  | r_backspace_stmt => b_backspace_stmt
  | r_bind_entity => b_bind_entity
  | r_bind_stmt => b_bind_stmt
  | r_binding_attr => b_binding_attr
  | r_binding_private_stmt => b_binding_private_stmt
  | r_block_stmt => b_block_stmt
  | r_bounds_remapping => b_bounds_remapping
  | r_bounds_spec => b_bounds_spec
  | r_call_stmt => b_call_stmt
  | r_case_selector => b_case_selector
  | r_case_stmt => b_case_stmt
  | r_case_value_range => b_case_value_range
  | r_char_length => b_char_length
  | r_char_selector => b_char_selector
  | r_close_stmt => b_close_stmt
  | r_coarray_spec => b_coarray_spec
  | r_codimension_decl => b_codimension_decl
  | r_codimension_stmt => b_codimension_stmt
  | r_coindexed_named_object => b_coindexed_named_object
  | r_common_block_object => b_common_block_object
  | r_common_stmt => b_common_stmt
  | r_component_array_spec => b_component_array_spec
  | r_component_attr_spec => b_component_attr_spec
  | r_component_data_source => b_component_data_source
  | r_component_decl => b_component_decl
  | r_component_def_stmt => b_component_def_stmt
  | r_component_initialization => b_component_initialization
  | r_component_spec => b_component_spec
  | r_computed_goto_stmt => b_computed_goto_stmt
  | r_concurrent_control => b_concurrent_control
  | r_concurrent_header => b_concurrent_header
  | r_concurrent_locality => b_concurrent_locality
  | r_contains_stmt => b_contains_stmt
  | r_continue_stmt => b_continue_stmt
  | r_cosubscript => b_cosubscript
  | r_cycle_stmt => b_cycle_stmt
  | r_data_component_def_stmt => b_data_component_def_stmt
  | r_data_implied_do => b_data_implied_do
  | r_data_pointer_object => b_data_pointer_object
  | r_data_ref => b_data_ref
  | r_data_stmt => b_data_stmt
  | r_data_stmt_constant => b_data_stmt_constant
  | r_data_stmt_object => b_data_stmt_object
  | r_data_stmt_repeat => b_data_stmt_repeat
  | r_data_stmt_set => b_data_stmt_set
  | r_data_stmt_value => b_data_stmt_value
  | r_dealloc_opt => b_dealloc_opt
  | r_deallocate_stmt => b_deallocate_stmt
  | r_declaration_type_spec => b_declaration_type_spec
  | r_declaration_type_spec_no_kind => b_declaration_type_spec_no_kind
  | r_default_char_expr => b_default_char_expr
  | r_deferred_shape_spec => b_deferred_shape_spec
  | r_defined_io_generic_spec => b_defined_io_generic_spec
  | r_defined_operator => b_defined_operator
  | r_derived_type_spec => b_derived_type_spec
  | r_derived_type_stmt => b_derived_type_stmt
  | r_designator => b_designator
  | r_dimension_stmt => b_dimension_stmt
  | r_do_stmt => b_do_stmt
  | r_dummy_arg => b_dummy_arg
  | r_else_stmt => b_else_stmt
  | r_else_if_stmt => b_else_if_stmt
  | r_elsewhere_stmt => b_elsewhere_stmt
  | r_end_associate_stmt => b_end_associate_stmt
  | r_end_block_stmt => b_end_block_stmt
  | r_end_do => b_end_do
  | r_end_do_stmt => b_end_do_stmt
  | r_end_enum_stmt => b_end_enum_stmt
  | r_end_forall_stmt => b_end_forall_stmt
  | r_end_function_stmt => b_end_function_stmt
  | r_end_if_stmt => b_end_if_stmt
  | r_end_interface_stmt => b_end_interface_stmt
  | r_end_module_stmt => b_end_module_stmt
  | r_end_mp_subprogram_stmt => b_end_mp_subprogram_stmt
  | r_end_program_stmt => b_end_program_stmt
  | r_end_select_stmt => b_end_select_stmt
  | r_end_select_rank_stmt => b_end_select_rank_stmt
  | r_end_select_type_stmt => b_end_select_type_stmt
  | r_end_submodule_stmt => b_end_submodule_stmt
  | r_end_subroutine_stmt => b_end_subroutine_stmt
  | r_end_type_stmt => b_end_type_stmt
  | r_end_where_stmt => b_end_where_stmt
  | r_endfile_stmt => b_endfile_stmt
  | r_entity_decl => b_entity_decl
  | r_entry_stmt => b_entry_stmt
  | r_enumerator => b_enumerator
  | r_enumerator_def_stmt => b_enumerator_def_stmt
  | r_enum_def_stmt => b_enum_def_stmt
  | r_equiv_op => b_equiv_op
  | r_equivalence_object => b_equivalence_object
  | r_equivalence_set => b_equivalence_set
  | r_equivalence_stmt => b_equivalence_stmt
  | r_error_stop_stmt => b_error_stop_stmt
  | r_event_post_stmt => b_event_post_stmt
  | r_event_wait_stmt => b_event_wait_stmt
  | r_explicit_coshape_spec => b_explicit_coshape_spec
  | r_explicit_shape_spec => b_explicit_shape_spec
  | r_exit_stmt => b_exit_stmt
  | r_expr => b_expr
  | r_extended_intrinsic_op => b_extended_intrinsic_op
  | r_external_stmt => b_external_stmt
  | r_fail_image_stmt => b_fail_image_stmt
  | r_form_team_stmt => b_form_team_stmt
  | r_final_procedure_stmt => b_final_procedure_stmt
  | r_flush_stmt => b_flush_stmt
  | r_forall_assignment_stmt => b_forall_assignment_stmt
  | r_forall_construct_stmt => b_forall_construct_stmt
  | r_forall_stmt => b_forall_stmt
  | r_format => b_format
  | r_format_specification => b_format_specification
  | r_format_stmt => b_format_stmt
  | r_function_reference => b_function_reference
  | r_function_stmt => b_function_stmt
  | r_generic_spec => b_generic_spec
  | r_generic_stmt => b_generic_stmt
  | r_goto_stmt => b_goto_stmt
  | r_if_stmt => b_if_stmt
  | r_if_then_stmt => b_if_then_stmt
  | r_image_selector => b_image_selector
  | r_image_selector_spec => b_image_selector_spec
  | r_implicit_none_spec => b_implicit_none_spec
  | r_implicit_spec => b_implicit_spec
  | r_implicit_stmt => b_implicit_stmt
  | r_implied_shape_or_assumed_size_spec => b_implied_shape_or_assumed_size_spec
  | r_implied_shape_spec => b_implied_shape_spec
  | r_import_stmt => b_import_stmt
  | r_initialization => b_initialization
  | r_input_item => b_input_item
  | r_inquire_stmt => b_inquire_stmt
  | r_int_constant_expr => b_int_constant_expr
  | r_int_expr => b_int_expr
  | r_integer_type_spec => b_integer_type_spec
  | r_intent_spec => b_intent_spec
  | r_intent_stmt => b_intent_stmt
  | r_interface_stmt => b_interface_stmt
  | r_intrinsic_operator => b_intrinsic_operator
  | r_intrinsic_stmt => b_intrinsic_stmt
  | r_intrinsic_type_spec => b_intrinsic_type_spec
  | r_intrinsic_type_spec_no_kind => b_intrinsic_type_spec_no_kind
  | r_io_implied_do => b_io_implied_do
  | r_io_implied_do_control => b_io_implied_do_control
  | r_io_implied_do_object => b_io_implied_do_object
  | r_kind_selector => b_kind_selector
  | r_label => b_label
  | r_label_do_stmt => b_label_do_stmt
  | r_language_binding_spec => b_language_binding_spec
  | r_length_selector => b_length_selector
  | r_letter_spec => b_letter_spec
  | r_locality_spec => b_locality_spec
  | r_lock_stmt => b_lock_stmt
  | r_logical_expr => b_logical_expr
  | r_logical_literal_constant => b_logical_literal_constant
  | r_loop_control => b_loop_control
  | r_lower_bound_expr => b_lower_bound_expr
  | r_macro_stmt => b_macro_stmt
  | r_masked_elsewhere_stmt => b_masked_elsewhere_stmt
  | r_module_nature => b_module_nature
  | r_module_stmt => b_module_stmt
  | r_mp_subprogram_stmt => b_mp_subprogram_stmt
  | r_mult_op => b_mult_op
  | r_named_constant_def => b_named_constant_def
  | r_namelist_stmt => b_namelist_stmt
  | r_nonlabel_do_stmt => b_nonlabel_do_stmt
  | r_nullify_stmt => b_nullify_stmt
  | r_only => b_only
  | r_open_stmt => b_open_stmt
  | r_optional_stmt => b_optional_stmt
  | r_other_specification_stmt => b_other_specification_stmt
  | r_output_item => b_output_item
  | r_parameter_stmt => b_parameter_stmt
  | r_parent_string => b_parent_string
  | r_part_ref => b_part_ref
  | r_pointer_assignment_stmt => b_pointer_assignment_stmt
  | r_pointer_decl => b_pointer_decl
  | r_pointer_object => b_pointer_object
  | r_pointer_stmt => b_pointer_stmt
  | r_prefix => b_prefix
  | r_prefix_spec => b_prefix_spec
  | r_print_stmt => b_print_stmt
  | r_private_components_stmt => b_private_components_stmt
  | r_private_or_sequence => b_private_or_sequence
  | r_proc_attr_spec => b_proc_attr_spec
  | r_proc_component_attr_spec => b_proc_component_attr_spec
  | r_proc_component_def_stmt => b_proc_component_def_stmt
  | r_proc_component_ref => b_proc_component_ref
  | r_proc_decl => b_proc_decl
  | r_proc_interface => b_proc_interface
  | r_proc_language_binding_spec => b_proc_language_binding_spec
  | r_proc_pointer_init => b_proc_pointer_init
  | r_proc_pointer_object => b_proc_pointer_object
  | r_proc_target => b_proc_target
  | r_procedure_declaration_stmt => b_procedure_declaration_stmt
  | r_procedure_designator => b_procedure_designator
  | r_procedure_stmt => b_procedure_stmt
  | r_program_stmt => b_program_stmt
  | r_protected_stmt => b_protected_stmt
  | r_read_stmt => b_read_stmt
  | r_real_literal_constant => b_real_literal_constant
  | r_rel_op => b_rel_op
  | r_rename => b_rename
  | r_return_stmt => b_return_stmt
  | r_rewind_stmt => b_rewind_stmt
  | r_save_stmt => b_save_stmt
  | r_saved_entity => b_saved_entity
  | r_section_subscript => b_section_subscript
  | r_select_case_stmt => b_select_case_stmt
  | r_select_rank_stmt => b_select_rank_stmt
  | r_select_rank_case_stmt => b_select_rank_case_stmt
  | r_select_type_stmt => b_select_type_stmt
  | r_selector => b_selector
  | r_sequence_stmt => b_sequence_stmt
  | r_sign => b_sign
  | r_signed_real_literal_constant => b_signed_real_literal_constant
  | r_stop_stmt => b_stop_stmt
  | r_structure_component => b_structure_component
  | r_structure_constructor => b_structure_constructor
  | r_submodule_stmt => b_submodule_stmt
  | r_subroutine_stmt => b_subroutine_stmt
  | r_substring => b_substring
  | r_substring_range => b_substring_range
  | r_suffix => b_suffix
  | r_sync_all_stmt => b_sync_all_stmt
  | r_sync_images_stmt => b_sync_images_stmt
  | r_sync_memory_stmt => b_sync_memory_stmt
  | r_sync_stat => b_sync_stat
  | r_sync_team_stmt => b_sync_team_stmt
  | r_target_decl => b_target_decl
  | r_target_stmt => b_target_stmt
  | r_type_attr_spec => b_type_attr_spec
  | r_type_bound_generic_stmt => b_type_bound_generic_stmt
  | r_type_bound_proc_binding => b_type_bound_proc_binding
  | r_type_bound_proc_decl => b_type_bound_proc_decl
  | r_type_bound_procedure_stmt => b_type_bound_procedure_stmt
  | r_type_decl_attr_seq1 => b_type_decl_attr_seq1
  | r_type_decl_attr_seq2 => b_type_decl_attr_seq2
  | r_type_declaration_stmt => b_type_declaration_stmt
  | r_type_guard_stmt => b_type_guard_stmt
  | r_type_param_attr_spec => b_type_param_attr_spec
  | r_type_param_decl => b_type_param_decl
  | r_type_param_def_stmt => b_type_param_def_stmt
  | r_type_param_spec => b_type_param_spec
  | r_type_param_value => b_type_param_value
  | r_type_spec => b_type_spec
  | r_unlock_stmt => b_unlock_stmt
  | r_upper_bound_expr => b_upper_bound_expr
  | r_use_stmt => b_use_stmt
  | r_value_stmt => b_value_stmt
  | r_variable => b_variable
  | r_volatile_stmt => b_volatile_stmt
  | r_wait_spec => b_wait_spec
  | r_wait_stmt => b_wait_stmt
  | r_where_construct_stmt => b_where_construct_stmt
  | r_where_stmt => b_where_stmt
  | r_write_stmt => b_write_stmt
  end.

(** parse_stmt.cc:3820-4222: the switch of parse_stmt_dispatch *)
Definition dispatch_table : list (Z * rule) := [
  (SG_ACCESS_STMT, r_access_stmt);
  (SG_ACTION_STMT, r_action_stmt);
  (SG_ALLOCATABLE_STMT, r_allocatable_stmt);
  (SG_ALLOCATE_STMT, r_allocate_stmt);
  (SG_ASSIGNMENT_STMT, r_assignment_stmt);
  (SG_ASSOCIATE_STMT, r_associate_stmt);
  (SG_ASYNCHRONOUS_STMT, r_asynchronous_stmt);
  (SG_ARITHMETIC_IF_STMT, r_arithmetic_if_stmt);
  (SG_BACKSPACE_STMT, r_backspace_stmt);
  (SG_BIND_STMT, r_bind_stmt);
  (SG_BINDING_PRIVATE_STMT, r_binding_private_stmt);
  (SG_BLOCK_STMT, r_block_stmt);
  (SG_CALL_STMT, r_call_stmt);
  (SG_CASE_STMT, r_case_stmt);
  (SG_CLOSE_STMT, r_close_stmt);
  (SG_CODIMENSION_STMT, r_codimension_stmt);
  (SG_COMMON_STMT, r_common_stmt);
  (SG_COMPONENT_DEF_STMT, r_component_def_stmt);
  (SG_COMPUTED_GOTO_STMT, r_computed_goto_stmt);
  (SG_CONTAINS_STMT, r_contains_stmt);
  (SG_CONTINUE_STMT, r_continue_stmt);
  (SG_CYCLE_STMT, r_cycle_stmt);
  (SG_DATA_COMPONENT_DEF_STMT, r_data_component_def_stmt);
  (SG_DATA_STMT, r_data_stmt);
  (SG_DEALLOCATE_STMT, r_deallocate_stmt);
  (SG_DERIVED_TYPE_STMT, r_derived_type_stmt);
  (SG_DIMENSION_STMT, r_dimension_stmt);
  (SG_DO_STMT, r_do_stmt);
  (SG_ELSE_IF_STMT, r_else_if_stmt);
  (SG_ELSE_STMT, r_else_stmt);
  (SG_ELSEWHERE_STMT, r_elsewhere_stmt);
  (SG_END_ASSOCIATE_STMT, r_end_associate_stmt);
  (SG_END_BLOCK_STMT, r_end_block_stmt);
  (SG_END_DO_STMT, r_end_do_stmt);
  (SG_END_ENUM_STMT, r_end_enum_stmt);
  (SG_END_FORALL_STMT, r_end_forall_stmt);
  (SG_END_FUNCTION_STMT, r_end_function_stmt);
  (SG_END_IF_STMT, r_end_if_stmt);
  (SG_END_INTERFACE_STMT, r_end_interface_stmt);
  (SG_END_MODULE_STMT, r_end_module_stmt);
  (SG_END_MP_SUBPROGRAM_STMT, r_end_mp_subprogram_stmt);
  (SG_END_PROGRAM_STMT, r_end_program_stmt);
  (SG_END_SELECT_STMT, r_end_select_stmt);
  (SG_END_SELECT_RANK_STMT, r_end_select_rank_stmt);
  (SG_END_SELECT_TYPE_STMT, r_end_select_type_stmt);
  (SG_END_SUBMODULE_STMT, r_end_submodule_stmt);
  (SG_END_SUBROUTINE_STMT, r_end_subroutine_stmt);
  (SG_END_TYPE_STMT, r_end_type_stmt);
  (SG_END_WHERE_STMT, r_end_where_stmt);
  (SG_ENDFILE_STMT, r_endfile_stmt);
  (SG_ENUM_DEF_STMT, r_enum_def_stmt);
  (SG_ENUMERATOR_DEF_STMT, r_enumerator_def_stmt);
  (SG_EQUIVALENCE_STMT, r_equivalence_stmt);
  (SG_ENTRY_STMT, r_entry_stmt);
  (SG_ERROR_STOP_STMT, r_error_stop_stmt);
  (SG_EVENT_POST_STMT, r_event_post_stmt);
  (SG_EVENT_WAIT_STMT, r_event_wait_stmt);
  (SG_EXIT_STMT, r_exit_stmt);
  (SG_EXTERNAL_STMT, r_external_stmt);
  (SG_FAIL_IMAGE_STMT, r_fail_image_stmt);
  (SG_FLUSH_STMT, r_flush_stmt);
  (SG_FORALL_ASSIGNMENT_STMT, r_forall_assignment_stmt);
  (SG_FORALL_CONSTRUCT_STMT, r_forall_construct_stmt);
  (SG_FORALL_STMT, r_forall_stmt);
  (SG_FORM_TEAM_STMT, r_form_team_stmt);
  (SG_FORMAT_STMT, r_format_stmt);
  (SG_FINAL_PROCEDURE_STMT, r_final_procedure_stmt);
  (SG_FUNCTION_STMT, r_function_stmt);
  (SG_GENERIC_STMT, r_generic_stmt);
  (SG_GOTO_STMT, r_goto_stmt);
  (SG_IF_STMT, r_if_stmt);
  (SG_IF_THEN_STMT, r_if_then_stmt);
  (SG_IMPLICIT_STMT, r_implicit_stmt);
  (SG_IMPORT_STMT, r_import_stmt);
  (SG_INQUIRE_STMT, r_inquire_stmt);
  (SG_INTENT_STMT, r_intent_stmt);
  (SG_INTERFACE_STMT, r_interface_stmt);
  (SG_INTRINSIC_STMT, r_intrinsic_stmt);
  (SG_LABEL_DO_STMT, r_label_do_stmt);
  (SG_LOCK_STMT, r_lock_stmt);
  (SG_LOOP_CONTROL, r_loop_control);
  (SG_MASKED_ELSEWHERE_STMT, r_masked_elsewhere_stmt);
  (SG_MACRO_STMT, r_macro_stmt);
  (SG_MODULE_STMT, r_module_stmt);
  (SG_MP_SUBPROGRAM_STMT, r_mp_subprogram_stmt);
  (SG_NAMELIST_STMT, r_namelist_stmt);
  (SG_NONLABEL_DO_STMT, r_nonlabel_do_stmt);
  (SG_NULLIFY_STMT, r_nullify_stmt);
  (SG_OPEN_STMT, r_open_stmt);
  (SG_OPTIONAL_STMT, r_optional_stmt);
  (SG_OTHER_SPECIFICATION_STMT, r_other_specification_stmt);
  (SG_PARAMETER_STMT, r_parameter_stmt);
  (SG_POINTER_ASSIGNMENT_STMT, r_pointer_assignment_stmt);
  (SG_POINTER_STMT, r_pointer_stmt);
  (SG_PRINT_STMT, r_print_stmt);
  (SG_PRIVATE_COMPONENTS_STMT, r_private_components_stmt);
  (SG_PROC_COMPONENT_DEF_STMT, r_proc_component_def_stmt);
  (SG_PROCEDURE_DECLARATION_STMT, r_procedure_declaration_stmt);
  (SG_PROCEDURE_STMT, r_procedure_stmt);
  (SG_PROGRAM_STMT, r_program_stmt);
  (SG_PROTECTED_STMT, r_protected_stmt);
  (SG_READ_STMT, r_read_stmt);
  (SG_RETURN_STMT, r_return_stmt);
  (SG_REWIND_STMT, r_rewind_stmt);
  (SG_SAVE_STMT, r_save_stmt);
  (SG_SELECT_CASE_STMT, r_select_case_stmt);
  (SG_SELECT_RANK_CASE_STMT, r_select_rank_case_stmt);
  (SG_SELECT_RANK_STMT, r_select_rank_stmt);
  (SG_SELECT_TYPE_STMT, r_select_type_stmt);
  (SG_SEQUENCE_STMT, r_sequence_stmt);
  (SG_STOP_STMT, r_stop_stmt);
  (SG_SUBMODULE_STMT, r_submodule_stmt);
  (SG_SUBROUTINE_STMT, r_subroutine_stmt);
  (SG_SYNC_ALL_STMT, r_sync_all_stmt);
  (SG_SYNC_IMAGES_STMT, r_sync_images_stmt);
  (SG_SYNC_MEMORY_STMT, r_sync_memory_stmt);
  (SG_SYNC_TEAM_STMT, r_sync_team_stmt);
  (SG_TARGET_STMT, r_target_stmt);
  (SG_TYPE_BOUND_GENERIC_STMT, r_type_bound_generic_stmt);
  (SG_TYPE_BOUND_PROCEDURE_STMT, r_type_bound_procedure_stmt);
  (SG_TYPE_DECLARATION_STMT, r_type_declaration_stmt);
  (SG_TYPE_GUARD_STMT, r_type_guard_stmt);
  (SG_TYPE_PARAM_DEF_STMT, r_type_param_def_stmt);
  (SG_UNLOCK_STMT, r_unlock_stmt);
  (SG_USE_STMT, r_use_stmt);
  (SG_VALUE_STMT, r_value_stmt);
  (SG_VOLATILE_STMT, r_volatile_stmt);
  (SG_WAIT_STMT, r_wait_stmt);
  (SG_WHERE_CONSTRUCT_STMT, r_where_construct_stmt);
  (SG_WHERE_STMT, r_where_stmt);
  (SG_WRITE_STMT, r_write_stmt)].

(** parse_stmt.cc:4224: the cases of is_action_stmt *)
Definition action_tags : list Z := [
  SG_ALLOCATE_STMT; SG_ASSIGNMENT_STMT; SG_BACKSPACE_STMT; SG_CALL_STMT; SG_CLOSE_STMT;
  SG_CONTINUE_STMT; SG_CYCLE_STMT; SG_DEALLOCATE_STMT; SG_ENDFILE_STMT; SG_ERROR_STOP_STMT;
  SG_EVENT_POST_STMT; SG_EVENT_WAIT_STMT; SG_EXIT_STMT; SG_FAIL_IMAGE_STMT; SG_FLUSH_STMT;
  SG_FORM_TEAM_STMT; SG_GOTO_STMT; SG_IF_STMT; SG_INQUIRE_STMT; SG_LOCK_STMT; SG_NULLIFY_STMT;
  SG_OPEN_STMT; SG_POINTER_ASSIGNMENT_STMT; SG_PRINT_STMT; SG_READ_STMT; SG_RETURN_STMT;
  SG_REWIND_STMT; SG_STOP_STMT; SG_SYNC_ALL_STMT; SG_SYNC_IMAGES_STMT; SG_SYNC_MEMORY_STMT;
  SG_SYNC_TEAM_STMT; SG_UNLOCK_STMT; SG_WAIT_STMT; SG_WHERE_STMT; SG_WRITE_STMT;
  SG_COMPUTED_GOTO_STMT; SG_ARITHMETIC_IF_STMT; SG_FORALL_STMT; SG_MACRO_STMT].
