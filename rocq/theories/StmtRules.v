(** The parser functions Stmt_Tree f(TT_Stream &) transcribed from src/flpr/parse_stmt.cc by
    scripts/gen_stmt_grammar.py,
    in source order. *)
From Verif Require Import Base.

Inductive rule : Set :=
| r_consume_parens (* parse_stmt.cc:105-126 *)
| r_list_name (* parse_stmt.cc:133-142 *)
| r_bind_c (* parse_stmt.cc:145-148 *)
| r_access_id (* parse_stmt.cc:157-165 *)
| r_access_spec (* parse_stmt.cc:168-172 *)
| r_access_stmt (* parse_stmt.cc:175-185 *)
| r_action_stmt (* parse_stmt.cc:191-240 *)
| r_actual_arg (* parse_stmt.cc:243-251 *)
| r_actual_arg_spec (* parse_stmt.cc:254-261 *)
| r_add_op (* parse_stmt.cc:264-271 *)
| r_alloc_opt (* parse_stmt.cc:274-283 *)
| r_allocatable_stmt (* parse_stmt.cc:286-296 *)
| r_allocatable_decl (* parse_stmt.cc:299-306 *)
| r_allocate_coarray_spec (* parse_stmt.cc:309-320 *)
| r_allocate_coshape_spec (* parse_stmt.cc:323-330 *)
| r_allocate_object (* parse_stmt.cc:333-341 *)
| r_allocate_shape_spec (* parse_stmt.cc:344-351 *)
| r_allocate_stmt (* parse_stmt.cc:354-367 *)
| r_allocation (* parse_stmt.cc:370-380 *)
| r_arithmetic_if_stmt (* parse_stmt.cc:383-394 *)
| r_array_element (* parse_stmt.cc:397-421 *)
| r_array_spec (* parse_stmt.cc:424-442 *)
| r_assignment_stmt (* parse_stmt.cc:445-450 *)
| r_associate_stmt (* parse_stmt.cc:453-463 *)
| r_association (* parse_stmt.cc:466-474 *)
| r_assumed_implied_spec (* parse_stmt.cc:477-484 *)
| r_assumed_shape_spec (* parse_stmt.cc:487-498 *)
| r_assumed_size_spec (* parse_stmt.cc:501-509 *)
| r_asynchronous_stmt (* parse_stmt.cc:512-521 *)
| r_attr_spec (* parse_stmt.cc:524-547 *)
| r_backspace_stmt (* parse_stmt.cc:552-561 *)
| r_bind_entity (* parse_stmt.cc:564-573 *)
| r_bind_stmt (* parse_stmt.cc:576-585 *)
| r_binding_attr (* parse_stmt.cc:588-599 *)
| r_binding_private_stmt (* parse_stmt.cc:602-609 *)
| r_block_stmt (* parse_stmt.cc:612-620 *)
| r_bounds_remapping (* parse_stmt.cc:623-631 *)
| r_bounds_spec (* parse_stmt.cc:634-641 *)
| r_call_stmt (* parse_stmt.cc:646-657 *)
| r_case_selector (* parse_stmt.cc:660-668 *)
| r_case_stmt (* parse_stmt.cc:671-680 *)
| r_case_value_range (* parse_stmt.cc:683-692 *)
| r_char_length (* parse_stmt.cc:695-704 *)
| r_char_selector (* parse_stmt.cc:707-723 *)
| r_close_stmt (* parse_stmt.cc:726-734 *)
| r_coarray_spec (* parse_stmt.cc:737-746 *)
| r_codimension_decl (* parse_stmt.cc:749-756 *)
| r_codimension_stmt (* parse_stmt.cc:759-768 *)
| r_coindexed_named_object (* parse_stmt.cc:771-784 *)
| r_common_block_object (* parse_stmt.cc:787-792 *)
| r_common_stmt (* parse_stmt.cc:795-810 *)
| r_component_array_spec (* parse_stmt.cc:813-821 *)
| r_component_attr_spec (* parse_stmt.cc:824-835 *)
| r_component_data_source (* parse_stmt.cc:838-847 *)
| r_component_decl (* parse_stmt.cc:850-860 *)
| r_component_def_stmt (* parse_stmt.cc:863-870 *)
| r_component_initialization (* parse_stmt.cc:873-880 *)
| r_component_spec (* parse_stmt.cc:883-890 *)
| r_computed_goto_stmt (* parse_stmt.cc:893-904 *)
| r_concurrent_control (* parse_stmt.cc:907-920 *)
| r_concurrent_header (* parse_stmt.cc:923-934 *)
| r_concurrent_locality (* parse_stmt.cc:937-944 *)
| r_contains_stmt (* parse_stmt.cc:947-951 *)
| r_continue_stmt (* parse_stmt.cc:954-959 *)
| r_cosubscript (* parse_stmt.cc:962-967 *)
| r_cycle_stmt (* parse_stmt.cc:970-975 *)
| r_data_component_def_stmt (* parse_stmt.cc:980-992 *)
| r_data_implied_do (* parse_stmt.cc:995-1000 *)
| r_data_pointer_object (* parse_stmt.cc:1003-1018 *)
| r_data_ref (* parse_stmt.cc:1021-1029 *)
| r_data_stmt (* parse_stmt.cc:1032-1042 *)
| r_data_stmt_constant (* parse_stmt.cc:1045-1058 *)
| r_data_stmt_object (* parse_stmt.cc:1061-1068 *)
| r_data_stmt_repeat (* parse_stmt.cc:1071-1080 *)
| r_data_stmt_set (* parse_stmt.cc:1083-1095 *)
| r_data_stmt_value (* parse_stmt.cc:1098-1106 *)
| r_dealloc_opt (* parse_stmt.cc:1109-1116 *)
| r_deallocate_stmt (* parse_stmt.cc:1119-1132 *)
| r_declaration_type_spec (* parse_stmt.cc:1135-1147 *)
| r_declaration_type_spec_no_kind (* parse_stmt.cc:1150-1162 *)
| r_default_char_expr (* parse_stmt.cc:1165-1169 *)
| r_deferred_shape_spec (* parse_stmt.cc:1172-1176 *)
| r_defined_io_generic_spec (* parse_stmt.cc:1179-1189 *)
| r_defined_operator (* parse_stmt.cc:1192-1199 *)
| r_derived_type_spec (* parse_stmt.cc:1202-1211 *)
| r_derived_type_stmt (* parse_stmt.cc:1214-1228 *)
| r_designator (* parse_stmt.cc:1231-1247 *)
| r_dimension_stmt (* parse_stmt.cc:1250-1266 *)
| r_do_stmt (* parse_stmt.cc:1269-1277 *)
| r_dummy_arg (* parse_stmt.cc:1281-1288 *)
| r_else_stmt (* parse_stmt.cc:1293-1301 *)
| r_else_if_stmt (* parse_stmt.cc:1304-1315 *)
| r_elsewhere_stmt (* parse_stmt.cc:1318-1324 *)
| r_end_associate_stmt (* parse_stmt.cc:1327-1336 *)
| r_end_block_stmt (* parse_stmt.cc:1339-1348 *)
| r_end_do (* parse_stmt.cc:1351-1358 *)
| r_end_do_stmt (* parse_stmt.cc:1361-1366 *)
| r_end_enum_stmt (* parse_stmt.cc:1369-1374 *)
| r_end_forall_stmt (* parse_stmt.cc:1377-1383 *)
| r_end_function_stmt (* parse_stmt.cc:1386-1396 *)
| r_end_if_stmt (* parse_stmt.cc:1399-1404 *)
| r_end_interface_stmt (* parse_stmt.cc:1407-1413 *)
| r_end_module_stmt (* parse_stmt.cc:1416-1425 *)
| r_end_mp_subprogram_stmt (* parse_stmt.cc:1428-1438 *)
| r_end_program_stmt (* parse_stmt.cc:1441-1450 *)
| r_end_select_stmt (* parse_stmt.cc:1453-1461 *)
| r_end_select_rank_stmt (* parse_stmt.cc:1464-1472 *)
| r_end_select_type_stmt (* parse_stmt.cc:1475-1483 *)
| r_end_submodule_stmt (* parse_stmt.cc:1486-1496 *)
| r_end_subroutine_stmt (* parse_stmt.cc:1499-1509 *)
| r_end_type_stmt (* parse_stmt.cc:1512-1521 *)
| r_end_where_stmt (* parse_stmt.cc:1524-1530 *)
| r_endfile_stmt (* parse_stmt.cc:1533-1542 *)
| r_entity_decl (* parse_stmt.cc:1545-1555 *)
| r_entry_stmt (* parse_stmt.cc:1558-1568 *)
| r_enumerator (* parse_stmt.cc:1571-1579 *)
| r_enumerator_def_stmt (* parse_stmt.cc:1582-1592 *)
| r_enum_def_stmt (* parse_stmt.cc:1595-1601 *)
| r_equiv_op (* parse_stmt.cc:1604-1611 *)
| r_equivalence_object (* parse_stmt.cc:1614-1622 *)
| r_equivalence_set (* parse_stmt.cc:1625-1634 *)
| r_equivalence_stmt (* parse_stmt.cc:1637-1646 *)
| r_error_stop_stmt (* parse_stmt.cc:1649-1662 *)
| r_event_post_stmt (* parse_stmt.cc:1665-1676 *)
| r_event_wait_stmt (* parse_stmt.cc:1679-1693 *)
| r_explicit_coshape_spec (* parse_stmt.cc:1696-1708 *)
| r_explicit_shape_spec (* parse_stmt.cc:1711-1718 *)
| r_exit_stmt (* parse_stmt.cc:1721-1726 *)
| r_expr (* parse_stmt.cc:1729-1735 *)
| r_extended_intrinsic_op (* parse_stmt.cc:1738-1744 *)
| r_external_stmt (* parse_stmt.cc:1747-1755 *)
| r_fail_image_stmt (* parse_stmt.cc:1760-1768 *)
| r_form_team_stmt (* parse_stmt.cc:1771-1791 *)
| r_final_procedure_stmt (* parse_stmt.cc:1794-1803 *)
| r_flush_stmt (* parse_stmt.cc:1806-1815 *)
| r_forall_assignment_stmt (* parse_stmt.cc:1818-1826 *)
| r_forall_construct_stmt (* parse_stmt.cc:1829-1839 *)
| r_forall_stmt (* parse_stmt.cc:1842-1851 *)
| r_format (* parse_stmt.cc:1854-1862 *)
| r_format_specification (* parse_stmt.cc:1865-1870 *)
| r_format_stmt (* parse_stmt.cc:1873-1878 *)
| r_function_reference (* parse_stmt.cc:1881-1890 *)
| r_function_stmt (* parse_stmt.cc:1893-1909 *)
| r_generic_spec (* parse_stmt.cc:1914-1924 *)
| r_generic_stmt (* parse_stmt.cc:1927-1939 *)
| r_goto_stmt (* parse_stmt.cc:1942-1948 *)
| r_if_stmt (* parse_stmt.cc:1954-1963 *)
| r_if_then_stmt (* parse_stmt.cc:1966-1976 *)
| r_image_selector (* parse_stmt.cc:1979-1990 *)
| r_image_selector_spec (* parse_stmt.cc:1993-2002 *)
| r_implicit_none_spec (* parse_stmt.cc:2005-2013 *)
| r_implicit_spec (* parse_stmt.cc:2018-2030 *)
| r_implicit_stmt (* parse_stmt.cc:2033-2046 *)
| r_implied_shape_or_assumed_size_spec (* parse_stmt.cc:2049-2056 *)
| r_implied_shape_spec (* parse_stmt.cc:2059-2071 *)
| r_import_stmt (* parse_stmt.cc:2074-2086 *)
| r_initialization (* parse_stmt.cc:2089-2096 *)
| r_input_item (* parse_stmt.cc:2099-2106 *)
| r_inquire_stmt (* parse_stmt.cc:2109-2118 *)
| r_int_constant_expr (* parse_stmt.cc:2121-2125 *)
| r_int_expr (* parse_stmt.cc:2128-2132 *)
| r_integer_type_spec (* parse_stmt.cc:2135-2140 *)
| r_intent_spec (* parse_stmt.cc:2143-2152 *)
| r_intent_stmt (* parse_stmt.cc:2155-2166 *)
| r_interface_stmt (* parse_stmt.cc:2169-2176 *)
| r_intrinsic_operator (* parse_stmt.cc:2179-2193 *)
| r_intrinsic_stmt (* parse_stmt.cc:2196-2206 *)
| r_intrinsic_type_spec (* parse_stmt.cc:2209-2222 *)
| r_intrinsic_type_spec_no_kind (* parse_stmt.cc:2225-2238 *)
| r_io_implied_do (* parse_stmt.cc:2241-2251 *)
| r_io_implied_do_control (* parse_stmt.cc:2254-2263 *)
| r_io_implied_do_object (* parse_stmt.cc:2266-2274 *)
| r_kind_selector (* parse_stmt.cc:2281-2291 *)
| r_label (* parse_stmt.cc:2296-2303 *)
| r_label_do_stmt (* parse_stmt.cc:2306-2315 *)
| r_language_binding_spec (* parse_stmt.cc:2318-2331 *)
| r_length_selector (* parse_stmt.cc:2334-2342 *)
| r_letter_spec (* parse_stmt.cc:2345-2352 *)
| r_locality_spec (* parse_stmt.cc:2355-2371 *)
| r_lock_stmt (* parse_stmt.cc:2374-2387 *)
| r_logical_expr (* parse_stmt.cc:2390-2395 *)
| r_logical_literal_constant (* parse_stmt.cc:2398-2405 *)
| r_loop_control (* parse_stmt.cc:2408-2429 *)
| r_lower_bound_expr (* parse_stmt.cc:2432-2437 *)
| r_macro_stmt (* parse_stmt.cc:2444-2456 *)
| r_masked_elsewhere_stmt (* parse_stmt.cc:2459-2468 *)
| r_module_nature (* parse_stmt.cc:2471-2476 *)
| r_module_stmt (* parse_stmt.cc:2479-2484 *)
| r_mp_subprogram_stmt (* parse_stmt.cc:2487-2494 *)
| r_mult_op (* parse_stmt.cc:2497-2504 *)
| r_named_constant_def (* parse_stmt.cc:2509-2514 *)
| r_namelist_stmt (* parse_stmt.cc:2517-2534 *)
| r_nonlabel_do_stmt (* parse_stmt.cc:2537-2546 *)
| r_nullify_stmt (* parse_stmt.cc:2549-2558 *)
| r_only (* parse_stmt.cc:2563-2571 *)
| r_open_stmt (* parse_stmt.cc:2574-2582 *)
| r_optional_stmt (* parse_stmt.cc:2585-2593 *)
| r_other_specification_stmt (* parse_stmt.cc:2596-2626 *)
| r_output_item (* parse_stmt.cc:2629-2636 *)
| r_parameter_stmt (* parse_stmt.cc:2641-2650 *)
| r_parent_string (* parse_stmt.cc:2653-2664 *)
| r_part_ref (* parse_stmt.cc:2667-2677 *)
| r_pointer_assignment_stmt (* parse_stmt.cc:2680-2702 *)
| r_pointer_decl (* parse_stmt.cc:2705-2713 *)
| r_pointer_object (* parse_stmt.cc:2716-2725 *)
| r_pointer_stmt (* parse_stmt.cc:2728-2739 *)
| r_prefix (* parse_stmt.cc:2742-2747 *)
| r_prefix_spec (* parse_stmt.cc:2750-2763 *)
| r_print_stmt (* parse_stmt.cc:2766-2774 *)
| r_private_components_stmt (* parse_stmt.cc:2777-2784 *)
| r_private_or_sequence (* parse_stmt.cc:2787-2794 *)
| r_proc_attr_spec (* parse_stmt.cc:2797-2809 *)
| r_proc_component_attr_spec (* parse_stmt.cc:2812-2821 *)
| r_proc_component_def_stmt (* parse_stmt.cc:2824-2838 *)
| r_proc_component_ref (* parse_stmt.cc:2841-2855 *)
| r_proc_decl (* parse_stmt.cc:2858-2867 *)
| r_proc_interface (* parse_stmt.cc:2870-2877 *)
| r_proc_language_binding_spec (* parse_stmt.cc:2880-2885 *)
| r_proc_pointer_init (* parse_stmt.cc:2888-2896 *)
| r_proc_pointer_object (* parse_stmt.cc:2899-2907 *)
| r_proc_target (* parse_stmt.cc:2910-2918 *)
| r_procedure_declaration_stmt (* parse_stmt.cc:2921-2935 *)
| r_procedure_designator (* parse_stmt.cc:2938-2981 *)
| r_procedure_stmt (* parse_stmt.cc:2984-2995 *)
| r_program_stmt (* parse_stmt.cc:2998-3006 *)
| r_protected_stmt (* parse_stmt.cc:3009-3018 *)
| r_read_stmt (* parse_stmt.cc:3025-3042 *)
| r_real_literal_constant (* parse_stmt.cc:3045-3056 *)
| r_rel_op (* parse_stmt.cc:3059-3068 *)
| r_rename (* parse_stmt.cc:3071-3080 *)
| r_return_stmt (* parse_stmt.cc:3083-3088 *)
| r_rewind_stmt (* parse_stmt.cc:3091-3100 *)
| r_save_stmt (* parse_stmt.cc:3105-3116 *)
| r_saved_entity (* parse_stmt.cc:3119-3128 *)
| r_section_subscript (* parse_stmt.cc:3131-3141 *)
| r_select_case_stmt (* parse_stmt.cc:3144-3154 *)
| r_select_rank_stmt (* parse_stmt.cc:3157-3167 *)
| r_select_rank_case_stmt (* parse_stmt.cc:3170-3180 *)
| r_select_type_stmt (* parse_stmt.cc:3183-3193 *)
| r_selector (* parse_stmt.cc:3196-3203 *)
| r_sequence_stmt (* parse_stmt.cc:3206-3213 *)
| r_sign (* parse_stmt.cc:3216-3223 *)
| r_signed_real_literal_constant (* parse_stmt.cc:3226-3233 *)
| r_stop_stmt (* parse_stmt.cc:3236-3248 *)
| r_structure_component (* parse_stmt.cc:3253-3262 *)
| r_structure_constructor (* parse_stmt.cc:3265-3273 *)
| r_submodule_stmt (* parse_stmt.cc:3276-3284 *)
| r_subroutine_stmt (* parse_stmt.cc:3287-3302 *)
| r_substring (* parse_stmt.cc:3305-3311 *)
| r_substring_range (* parse_stmt.cc:3314-3322 *)
| r_suffix (* parse_stmt.cc:3325-3335 *)
| r_sync_all_stmt (* parse_stmt.cc:3338-3347 *)
| r_sync_images_stmt (* parse_stmt.cc:3350-3364 *)
| r_sync_memory_stmt (* parse_stmt.cc:3367-3376 *)
| r_sync_stat (* parse_stmt.cc:3379-3387 *)
| r_sync_team_stmt (* parse_stmt.cc:3390-3403 *)
| r_target_decl (* parse_stmt.cc:3409-3417 *)
| r_target_stmt (* parse_stmt.cc:3420-3429 *)
| r_type_attr_spec (* parse_stmt.cc:3432-3442 *)
| r_type_bound_generic_stmt (* parse_stmt.cc:3445-3458 *)
| r_type_bound_proc_binding (* parse_stmt.cc:3461-3469 *)
| r_type_bound_proc_decl (* parse_stmt.cc:3472-3481 *)
| r_type_bound_procedure_stmt (* parse_stmt.cc:3484-3508 *)
| r_type_decl_attr_seq1 (* parse_stmt.cc:3518-3527 *)
| r_type_decl_attr_seq2 (* parse_stmt.cc:3542-3555 *)
| r_type_declaration_stmt (* parse_stmt.cc:3561-3572 *)
| r_type_guard_stmt (* parse_stmt.cc:3575-3587 *)
| r_type_param_attr_spec (* parse_stmt.cc:3590-3597 *)
| r_type_param_decl (* parse_stmt.cc:3600-3609 *)
| r_type_param_def_stmt (* parse_stmt.cc:3612-3623 *)
| r_type_param_spec (* parse_stmt.cc:3626-3634 *)
| r_type_param_value (* parse_stmt.cc:3637-3646 *)
| r_type_spec (* parse_stmt.cc:3649-3656 *)
| r_unlock_stmt (* parse_stmt.cc:3661-3671 *)
| r_upper_bound_expr (* parse_stmt.cc:3674-3679 *)
| r_use_stmt (* parse_stmt.cc:3682-3702 *)
| r_value_stmt (* parse_stmt.cc:3707-3716 *)
| r_variable (* parse_stmt.cc:3719-3728 *)
| r_volatile_stmt (* parse_stmt.cc:3732-3742 *)
| r_wait_spec (* parse_stmt.cc:3747-3762 *)
| r_wait_stmt (* parse_stmt.cc:3765-3773 *)
| r_where_construct_stmt (* parse_stmt.cc:3776-3785 *)
| r_where_stmt (* parse_stmt.cc:3788-3797 *)
| r_write_stmt (* parse_stmt.cc:3800-3812 *)
.

Definition all_rules : list rule := [
  r_consume_parens; r_list_name; r_bind_c; r_access_id; r_access_spec; r_access_stmt;
  r_action_stmt; r_actual_arg; r_actual_arg_spec; r_add_op; r_alloc_opt; r_allocatable_stmt;
  r_allocatable_decl; r_allocate_coarray_spec; r_allocate_coshape_spec; r_allocate_object;
  r_allocate_shape_spec; r_allocate_stmt; r_allocation; r_arithmetic_if_stmt; r_array_element;
  r_array_spec; r_assignment_stmt; r_associate_stmt; r_association; r_assumed_implied_spec;
  r_assumed_shape_spec; r_assumed_size_spec; r_asynchronous_stmt; r_attr_spec; r_backspace_stmt;
  r_bind_entity; r_bind_stmt; r_binding_attr; r_binding_private_stmt; r_block_stmt;
  r_bounds_remapping; r_bounds_spec; r_call_stmt; r_case_selector; r_case_stmt;
  r_case_value_range; r_char_length; r_char_selector; r_close_stmt; r_coarray_spec;
  r_codimension_decl; r_codimension_stmt; r_coindexed_named_object; r_common_block_object;
  r_common_stmt; r_component_array_spec; r_component_attr_spec; r_component_data_source;
  r_component_decl; r_component_def_stmt; r_component_initialization; r_component_spec;
  r_computed_goto_stmt; r_concurrent_control; r_concurrent_header; r_concurrent_locality;
  r_contains_stmt; r_continue_stmt; r_cosubscript; r_cycle_stmt; r_data_component_def_stmt;
  r_data_implied_do; r_data_pointer_object; r_data_ref; r_data_stmt; r_data_stmt_constant;
  r_data_stmt_object; r_data_stmt_repeat; r_data_stmt_set; r_data_stmt_value; r_dealloc_opt;
  r_deallocate_stmt; r_declaration_type_spec; r_declaration_type_spec_no_kind;
  r_default_char_expr; r_deferred_shape_spec; r_defined_io_generic_spec; r_defined_operator;
  r_derived_type_spec; r_derived_type_stmt; r_designator; r_dimension_stmt; r_do_stmt;
  r_dummy_arg; r_else_stmt; r_else_if_stmt; r_elsewhere_stmt; r_end_associate_stmt;
  r_end_block_stmt; r_end_do; r_end_do_stmt; r_end_enum_stmt; r_end_forall_stmt;
  r_end_function_stmt; r_end_if_stmt; r_end_interface_stmt; r_end_module_stmt;
  r_end_mp_subprogram_stmt; r_end_program_stmt; r_end_select_stmt; r_end_select_rank_stmt;
  r_end_select_type_stmt; r_end_submodule_stmt; r_end_subroutine_stmt; r_end_type_stmt;
  r_end_where_stmt; r_endfile_stmt; r_entity_decl; r_entry_stmt; r_enumerator;
  r_enumerator_def_stmt; r_enum_def_stmt; r_equiv_op; r_equivalence_object; r_equivalence_set;
  r_equivalence_stmt; r_error_stop_stmt; r_event_post_stmt; r_event_wait_stmt;
  r_explicit_coshape_spec; r_explicit_shape_spec; r_exit_stmt; r_expr; r_extended_intrinsic_op;
  r_external_stmt; r_fail_image_stmt; r_form_team_stmt; r_final_procedure_stmt; r_flush_stmt;
  r_forall_assignment_stmt; r_forall_construct_stmt; r_forall_stmt; r_format;
  r_format_specification; r_format_stmt; r_function_reference; r_function_stmt; r_generic_spec;
  r_generic_stmt; r_goto_stmt; r_if_stmt; r_if_then_stmt; r_image_selector; r_image_selector_spec;
  r_implicit_none_spec; r_implicit_spec; r_implicit_stmt; r_implied_shape_or_assumed_size_spec;
  r_implied_shape_spec; r_import_stmt; r_initialization; r_input_item; r_inquire_stmt;
  r_int_constant_expr; r_int_expr; r_integer_type_spec; r_intent_spec; r_intent_stmt;
  r_interface_stmt; r_intrinsic_operator; r_intrinsic_stmt; r_intrinsic_type_spec;
  r_intrinsic_type_spec_no_kind; r_io_implied_do; r_io_implied_do_control; r_io_implied_do_object;
  r_kind_selector; r_label; r_label_do_stmt; r_language_binding_spec; r_length_selector;
  r_letter_spec; r_locality_spec; r_lock_stmt; r_logical_expr; r_logical_literal_constant;
  r_loop_control; r_lower_bound_expr; r_macro_stmt; r_masked_elsewhere_stmt; r_module_nature;
  r_module_stmt; r_mp_subprogram_stmt; r_mult_op; r_named_constant_def; r_namelist_stmt;
  r_nonlabel_do_stmt; r_nullify_stmt; r_only; r_open_stmt; r_optional_stmt;
  r_other_specification_stmt; r_output_item; r_parameter_stmt; r_parent_string; r_part_ref;
  r_pointer_assignment_stmt; r_pointer_decl; r_pointer_object; r_pointer_stmt; r_prefix;
  r_prefix_spec; r_print_stmt; r_private_components_stmt; r_private_or_sequence; r_proc_attr_spec;
  r_proc_component_attr_spec; r_proc_component_def_stmt; r_proc_component_ref; r_proc_decl;
  r_proc_interface; r_proc_language_binding_spec; r_proc_pointer_init; r_proc_pointer_object;
  r_proc_target; r_procedure_declaration_stmt; r_procedure_designator; r_procedure_stmt;
  r_program_stmt; r_protected_stmt; r_read_stmt; r_real_literal_constant; r_rel_op; r_rename;
  r_return_stmt; r_rewind_stmt; r_save_stmt; r_saved_entity; r_section_subscript;
  r_select_case_stmt; r_select_rank_stmt; r_select_rank_case_stmt; r_select_type_stmt; r_selector;
  r_sequence_stmt; r_sign; r_signed_real_literal_constant; r_stop_stmt; r_structure_component;
  r_structure_constructor; r_submodule_stmt; r_subroutine_stmt; r_substring; r_substring_range;
  r_suffix; r_sync_all_stmt; r_sync_images_stmt; r_sync_memory_stmt; r_sync_stat;
  r_sync_team_stmt; r_target_decl; r_target_stmt; r_type_attr_spec; r_type_bound_generic_stmt;
  r_type_bound_proc_binding; r_type_bound_proc_decl; r_type_bound_procedure_stmt;
  r_type_decl_attr_seq1; r_type_decl_attr_seq2; r_type_declaration_stmt; r_type_guard_stmt;
  r_type_param_attr_spec; r_type_param_decl; r_type_param_def_stmt; r_type_param_spec;
  r_type_param_value; r_type_spec; r_unlock_stmt; r_upper_bound_expr; r_use_stmt; r_value_stmt;
  r_variable; r_volatile_stmt; r_wait_spec; r_wait_stmt; r_where_construct_stmt; r_where_stmt;
  r_write_stmt].

Definition rule_idx (r : rule) : nat :=
  match r with
  | r_consume_parens => 0
  | r_list_name => 1
  | r_bind_c => 2
  | r_access_id => 3
  | r_access_spec => 4
  | r_access_stmt => 5
  | r_action_stmt => 6
  | r_actual_arg => 7
  | r_actual_arg_spec => 8
  | r_add_op => 9
  | r_alloc_opt => 10
  | r_allocatable_stmt => 11
  | r_allocatable_decl => 12
  | r_allocate_coarray_spec => 13
  | r_allocate_coshape_spec => 14
  | r_allocate_object => 15
  | r_allocate_shape_spec => 16
  | r_allocate_stmt => 17
  | r_allocation => 18
  | r_arithmetic_if_stmt => 19
  | r_array_element => 20
  | r_array_spec => 21
  | r_assignment_stmt => 22
  | r_associate_stmt => 23
  | r_association => 24
  | r_assumed_implied_spec => 25
  | r_assumed_shape_spec => 26
  | r_assumed_size_spec => 27
  | r_asynchronous_stmt => 28
  | r_attr_spec => 29
  | r_backspace_stmt => 30
  | r_bind_entity => 31
  | r_bind_stmt => 32
  | r_binding_attr => 33
  | r_binding_private_stmt => 34
  | r_block_stmt => 35
  | r_bounds_remapping => 36
  | r_bounds_spec => 37
  | r_call_stmt => 38
  | r_case_selector => 39
  | r_case_stmt => 40
  | r_case_value_range => 41
  | r_char_length => 42
  | r_char_selector => 43
  | r_close_stmt => 44
  | r_coarray_spec => 45
  | r_codimension_decl => 46
  | r_codimension_stmt => 47
  | r_coindexed_named_object => 48
  | r_common_block_object => 49
  | r_common_stmt => 50
  | r_component_array_spec => 51
  | r_component_attr_spec => 52
  | r_component_data_source => 53
  | r_component_decl => 54
  | r_component_def_stmt => 55
  | r_component_initialization => 56
  | r_component_spec => 57
  | r_computed_goto_stmt => 58
  | r_concurrent_control => 59
  | r_concurrent_header => 60
  | r_concurrent_locality => 61
  | r_contains_stmt => 62
  | r_continue_stmt => 63
  | r_cosubscript => 64
  | r_cycle_stmt => 65
  | r_data_component_def_stmt => 66
  | r_data_implied_do => 67
  | r_data_pointer_object => 68
  | r_data_ref => 69
  | r_data_stmt => 70
  | r_data_stmt_constant => 71
  | r_data_stmt_object => 72
  | r_data_stmt_repeat => 73
  | r_data_stmt_set => 74
  | r_data_stmt_value => 75
  | r_dealloc_opt => 76
  | r_deallocate_stmt => 77
  | r_declaration_type_spec => 78
  | r_declaration_type_spec_no_kind => 79
  | r_default_char_expr => 80
  | r_deferred_shape_spec => 81
  | r_defined_io_generic_spec => 82
  | r_defined_operator => 83
  | r_derived_type_spec => 84
  | r_derived_type_stmt => 85
  | r_designator => 86
  | r_dimension_stmt => 87
  | r_do_stmt => 88
  | r_dummy_arg => 89
  | r_else_stmt => 90
  | r_else_if_stmt => 91
  | r_elsewhere_stmt => 92
  | r_end_associate_stmt => 93
  | r_end_block_stmt => 94
  | r_end_do => 95
  | r_end_do_stmt => 96
  | r_end_enum_stmt => 97
  | r_end_forall_stmt => 98
  | r_end_function_stmt => 99
  | r_end_if_stmt => 100
  | r_end_interface_stmt => 101
  | r_end_module_stmt => 102
  | r_end_mp_subprogram_stmt => 103
  | r_end_program_stmt => 104
  | r_end_select_stmt => 105
  | r_end_select_rank_stmt => 106
  | r_end_select_type_stmt => 107
  | r_end_submodule_stmt => 108
  | r_end_subroutine_stmt => 109
  | r_end_type_stmt => 110
  | r_end_where_stmt => 111
  | r_endfile_stmt => 112
  | r_entity_decl => 113
  | r_entry_stmt => 114
  | r_enumerator => 115
  | r_enumerator_def_stmt => 116
  | r_enum_def_stmt => 117
  | r_equiv_op => 118
  | r_equivalence_object => 119
  | r_equivalence_set => 120
  | r_equivalence_stmt => 121
  | r_error_stop_stmt => 122
  | r_event_post_stmt => 123
  | r_event_wait_stmt => 124
  | r_explicit_coshape_spec => 125
  | r_explicit_shape_spec => 126
  | r_exit_stmt => 127
  | r_expr => 128
  | r_extended_intrinsic_op => 129
  | r_external_stmt => 130
  | r_fail_image_stmt => 131
  | r_form_team_stmt => 132
  | r_final_procedure_stmt => 133
  | r_flush_stmt => 134
  | r_forall_assignment_stmt => 135
  | r_forall_construct_stmt => 136
  | r_forall_stmt => 137
  | r_format => 138
  | r_format_specification => 139
  | r_format_stmt => 140
  | r_function_reference => 141
  | r_function_stmt => 142
  | r_generic_spec => 143
  | r_generic_stmt => 144
  | r_goto_stmt => 145
  | r_if_stmt => 146
  | r_if_then_stmt => 147
  | r_image_selector => 148
  | r_image_selector_spec => 149
  | r_implicit_none_spec => 150
  | r_implicit_spec => 151
  | r_implicit_stmt => 152
  | r_implied_shape_or_assumed_size_spec => 153
  | r_implied_shape_spec => 154
  | r_import_stmt => 155
  | r_initialization => 156
  | r_input_item => 157
  | r_inquire_stmt => 158
  | r_int_constant_expr => 159
  | r_int_expr => 160
  | r_integer_type_spec => 161
  | r_intent_spec => 162
  | r_intent_stmt => 163
  | r_interface_stmt => 164
  | r_intrinsic_operator => 165
  | r_intrinsic_stmt => 166
  | r_intrinsic_type_spec => 167
  | r_intrinsic_type_spec_no_kind => 168
  | r_io_implied_do => 169
  | r_io_implied_do_control => 170
  | r_io_implied_do_object => 171
  | r_kind_selector => 172
  | r_label => 173
  | r_label_do_stmt => 174
  | r_language_binding_spec => 175
  | r_length_selector => 176
  | r_letter_spec => 177
  | r_locality_spec => 178
  | r_lock_stmt => 179
  | r_logical_expr => 180
  | r_logical_literal_constant => 181
  | r_loop_control => 182
  | r_lower_bound_expr => 183
  | r_macro_stmt => 184
  | r_masked_elsewhere_stmt => 185
  | r_module_nature => 186
  | r_module_stmt => 187
  | r_mp_subprogram_stmt => 188
  | r_mult_op => 189
  | r_named_constant_def => 190
  | r_namelist_stmt => 191
  | r_nonlabel_do_stmt => 192
  | r_nullify_stmt => 193
  | r_only => 194
  | r_open_stmt => 195
  | r_optional_stmt => 196
  | r_other_specification_stmt => 197
  | r_output_item => 198
  | r_parameter_stmt => 199
  | r_parent_string => 200
  | r_part_ref => 201
  | r_pointer_assignment_stmt => 202
  | r_pointer_decl => 203
  | r_pointer_object => 204
  | r_pointer_stmt => 205
  | r_prefix => 206
  | r_prefix_spec => 207
  | r_print_stmt => 208
  | r_private_components_stmt => 209
  | r_private_or_sequence => 210
  | r_proc_attr_spec => 211
  | r_proc_component_attr_spec => 212
  | r_proc_component_def_stmt => 213
  | r_proc_component_ref => 214
  | r_proc_decl => 215
  | r_proc_interface => 216
  | r_proc_language_binding_spec => 217
  | r_proc_pointer_init => 218
  | r_proc_pointer_object => 219
  | r_proc_target => 220
  | r_procedure_declaration_stmt => 221
  | r_procedure_designator => 222
  | r_procedure_stmt => 223
  | r_program_stmt => 224
  | r_protected_stmt => 225
  | r_read_stmt => 226
  | r_real_literal_constant => 227
  | r_rel_op => 228
  | r_rename => 229
  | r_return_stmt => 230
  | r_rewind_stmt => 231
  | r_save_stmt => 232
  | r_saved_entity => 233
  | r_section_subscript => 234
  | r_select_case_stmt => 235
  | r_select_rank_stmt => 236
  | r_select_rank_case_stmt => 237
  | r_select_type_stmt => 238
  | r_selector => 239
  | r_sequence_stmt => 240
  | r_sign => 241
  | r_signed_real_literal_constant => 242
  | r_stop_stmt => 243
  | r_structure_component => 244
  | r_structure_constructor => 245
  | r_submodule_stmt => 246
  | r_subroutine_stmt => 247
  | r_substring => 248
  | r_substring_range => 249
  | r_suffix => 250
  | r_sync_all_stmt => 251
  | r_sync_images_stmt => 252
  | r_sync_memory_stmt => 253
  | r_sync_stat => 254
  | r_sync_team_stmt => 255
  | r_target_decl => 256
  | r_target_stmt => 257
  | r_type_attr_spec => 258
  | r_type_bound_generic_stmt => 259
  | r_type_bound_proc_binding => 260
  | r_type_bound_proc_decl => 261
  | r_type_bound_procedure_stmt => 262
  | r_type_decl_attr_seq1 => 263
  | r_type_decl_attr_seq2 => 264
  | r_type_declaration_stmt => 265
  | r_type_guard_stmt => 266
  | r_type_param_attr_spec => 267
  | r_type_param_decl => 268
  | r_type_param_def_stmt => 269
  | r_type_param_spec => 270
  | r_type_param_value => 271
  | r_type_spec => 272
  | r_unlock_stmt => 273
  | r_upper_bound_expr => 274
  | r_use_stmt => 275
  | r_value_stmt => 276
  | r_variable => 277
  | r_volatile_stmt => 278
  | r_wait_spec => 279
  | r_wait_stmt => 280
  | r_where_construct_stmt => 281
  | r_where_stmt => 282
  | r_write_stmt => 283
  end.
