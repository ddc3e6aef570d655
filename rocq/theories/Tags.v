(** Syntax tags, transcribed from src/flpr/Syntax_Tags_Defs.hh:55-664 by
    scripts/gen_tags.py: one constant per enumerator, and the tables strings_
    and types_ of Syntax_Tags.hh:53-54. *)
From Verif Require Import Base.
Local Open Scope Z_scope.

Definition EOL : Z := 0.
Definition UNKNOWN : Z := 1.
Definition BAD : Z := 2.
Definition HOIST : Z := 3.
Definition KW_000_LB : Z := 4.
Definition KW_ABSTRACT : Z := 5.
Definition KW_ACQUIRED_LOCK : Z := 6.
Definition KW_ALL : Z := 7.
Definition KW_ALLOCATABLE : Z := 8.
Definition KW_ALLOCATE : Z := 9.
Definition KW_ASSIGNMENT : Z := 10.
Definition KW_ASSOCIATE : Z := 11.
Definition KW_ASYNCHRONOUS : Z := 12.
Definition KW_BACKSPACE : Z := 13.
Definition KW_BIND : Z := 14.
Definition KW_BLOCK : Z := 15.
Definition KW_CALL : Z := 16.
Definition KW_CASE : Z := 17.
Definition KW_CHARACTER : Z := 18.
Definition KW_CLASS : Z := 19.
Definition KW_CLOSE : Z := 20.
Definition KW_CODIMENSION : Z := 21.
Definition KW_COMMON : Z := 22.
Definition KW_COMPLEX : Z := 23.
Definition KW_CONCURRENT : Z := 24.
Definition KW_CONTAINS : Z := 25.
Definition KW_CONTIGUOUS : Z := 26.
Definition KW_CONTINUE : Z := 27.
Definition KW_CRITICAL : Z := 28.
Definition KW_CYCLE : Z := 29.
Definition KW_DATA : Z := 30.
Definition KW_DEALLOCATE : Z := 31.
Definition KW_DEFAULT : Z := 32.
Definition KW_DEFERRED : Z := 33.
Definition KW_DIMENSION : Z := 34.
Definition KW_DO : Z := 35.
Definition KW_DOUBLE : Z := 36.
Definition KW_DOUBLEPRECISION : Z := 37.
Definition KW_DOWHILE : Z := 38.
Definition KW_ELEMENTAL : Z := 39.
Definition KW_ELSE : Z := 40.
Definition KW_END : Z := 41.
Definition KW_ENTRY : Z := 42.
Definition KW_ENUM : Z := 43.
Definition KW_ENUMERATOR : Z := 44.
Definition KW_EOR : Z := 45.
Definition KW_EQUIVALENCE : Z := 46.
Definition KW_ERR : Z := 47.
Definition KW_ERRMSG : Z := 48.
Definition KW_ERROR : Z := 49.
Definition KW_EVENT : Z := 50.
Definition KW_EXIT : Z := 51.
Definition KW_EXTENDS : Z := 52.
Definition KW_EXTERNAL : Z := 53.
Definition KW_FAIL : Z := 54.
Definition KW_FILE : Z := 55.
Definition KW_FINAL : Z := 56.
Definition KW_FLUSH : Z := 57.
Definition KW_FORALL : Z := 58.
Definition KW_FORM : Z := 59.
Definition KW_FORMAT : Z := 60.
Definition KW_FORMATTED : Z := 61.
Definition KW_FUNCTION : Z := 62.
Definition KW_GENERIC : Z := 63.
Definition KW_GO : Z := 64.
Definition KW_ID : Z := 65.
Definition KW_IF : Z := 66.
Definition KW_IMAGE : Z := 67.
Definition KW_IMAGES : Z := 68.
Definition KW_IMPLICIT : Z := 69.
Definition KW_IMPORT : Z := 70.
Definition KW_IMPURE : Z := 71.
Definition KW_IN : Z := 72.
Definition KW_INCLUDE : Z := 73.
Definition KW_INOUT : Z := 74.
Definition KW_INQUIRE : Z := 75.
Definition KW_INTEGER : Z := 76.
Definition KW_INTENT : Z := 77.
Definition KW_INTERFACE : Z := 78.
Definition KW_INTRINSIC : Z := 79.
Definition KW_IOMSG : Z := 80.
Definition KW_IOSTAT : Z := 81.
Definition KW_IS : Z := 82.
Definition KW_KIND : Z := 83.
Definition KW_LEN : Z := 84.
Definition KW_LOCAL : Z := 85.
Definition KW_LOCAL_INIT : Z := 86.
Definition KW_LOCK : Z := 87.
Definition KW_LOGICAL : Z := 88.
Definition KW_MEMORY : Z := 89.
Definition KW_MODULE : Z := 90.
Definition KW_MOLD : Z := 91.
Definition KW_NAME : Z := 92.
Definition KW_NAMELIST : Z := 93.
Definition KW_NEW_INDEX : Z := 94.
Definition KW_NONE : Z := 95.
Definition KW_NON_INTRINSIC : Z := 96.
Definition KW_NON_OVERRIDABLE : Z := 97.
Definition KW_NON_RECURSIVE : Z := 98.
Definition KW_NOPASS : Z := 99.
Definition KW_NULLIFY : Z := 100.
Definition KW_ONLY : Z := 101.
Definition KW_OPEN : Z := 102.
Definition KW_OPERATOR : Z := 103.
Definition KW_OPTIONAL : Z := 104.
Definition KW_OUT : Z := 105.
Definition KW_PARAMETER : Z := 106.
Definition KW_PASS : Z := 107.
Definition KW_POINTER : Z := 108.
Definition KW_POST : Z := 109.
Definition KW_PRECISION : Z := 110.
Definition KW_PRINT : Z := 111.
Definition KW_PRIVATE : Z := 112.
Definition KW_PROCEDURE : Z := 113.
Definition KW_PROGRAM : Z := 114.
Definition KW_PROTECTED : Z := 115.
Definition KW_PUBLIC : Z := 116.
Definition KW_PURE : Z := 117.
Definition KW_QUIET : Z := 118.
Definition KW_RANK : Z := 119.
Definition KW_READ : Z := 120.
Definition KW_REAL : Z := 121.
Definition KW_RECURSIVE : Z := 122.
Definition KW_RESULT : Z := 123.
Definition KW_RETURN : Z := 124.
Definition KW_REWIND : Z := 125.
Definition KW_SAVE : Z := 126.
Definition KW_SELECT : Z := 127.
Definition KW_SEQUENCE : Z := 128.
Definition KW_SHARED : Z := 129.
Definition KW_SOURCE : Z := 130.
Definition KW_STAT : Z := 131.
Definition KW_STOP : Z := 132.
Definition KW_SUBMODULE : Z := 133.
Definition KW_SUBROUTINE : Z := 134.
Definition KW_SYNC : Z := 135.
Definition KW_TARGET : Z := 136.
Definition KW_TEAM : Z := 137.
Definition KW_TEAM_NUMBER : Z := 138.
Definition KW_THEN : Z := 139.
Definition KW_TO : Z := 140.
Definition KW_TYPE : Z := 141.
Definition KW_UNFORMATTED : Z := 142.
Definition KW_UNIT : Z := 143.
Definition KW_UNLOCK : Z := 144.
Definition KW_UNTIL_COUNT : Z := 145.
Definition KW_USE : Z := 146.
Definition KW_VALUE : Z := 147.
Definition KW_VOLATILE : Z := 148.
Definition KW_WAIT : Z := 149.
Definition KW_WHERE : Z := 150.
Definition KW_WHILE : Z := 151.
Definition KW_WRITE : Z := 152.
Definition KW_ZZZ_UB : Z := 153.
Definition PG_000_LB : Z := 154.
Definition PG_ACTION_TERM_DO_CONSTRUCT : Z := 155.
Definition PG_ASSOCIATE_CONSTRUCT : Z := 156.
Definition PG_BLOCK : Z := 157.
Definition PG_BLOCK_CONSTRUCT : Z := 158.
Definition PG_BLOCK_SPECIFICATION_PART : Z := 159.
Definition PG_CASE_CONSTRUCT : Z := 160.
Definition PG_COMPONENT_PART : Z := 161.
Definition PG_DECLARATION_CONSTRUCT : Z := 162.
Definition PG_DERIVED_TYPE_DEF : Z := 163.
Definition PG_DO_BLOCK : Z := 164.
Definition PG_DO_BODY : Z := 165.
Definition PG_DO_CONSTRUCT : Z := 166.
Definition PG_DO_TERM_ACTION_STMT : Z := 167.
Definition PG_DO_TERM_SHARED_STMT : Z := 168.
Definition PG_ENUM_DEF : Z := 169.
Definition PG_EXECUTABLE_CONSTRUCT : Z := 170.
Definition PG_EXECUTION_PART : Z := 171.
Definition PG_EXECUTION_PART_CONSTRUCT : Z := 172.
Definition PG_EXTERNAL_SUBPROGRAM : Z := 173.
Definition PG_FORALL_BODY_CONSTRUCT : Z := 174.
Definition PG_FORALL_CONSTRUCT : Z := 175.
Definition PG_FUNCTION_SUBPROGRAM : Z := 176.
Definition PG_IF_CONSTRUCT : Z := 177.
Definition PG_IMPLICIT_PART : Z := 178.
Definition PG_IMPLICIT_PART_STMT : Z := 179.
Definition PG_INNER_SHARED_DO_CONSTRUCT : Z := 180.
Definition PG_INTERFACE_BLOCK : Z := 181.
Definition PG_INTERFACE_BODY : Z := 182.
Definition PG_INTERFACE_SPECIFICATION : Z := 183.
Definition PG_INTERNAL_SUBPROGRAM : Z := 184.
Definition PG_INTERNAL_SUBPROGRAM_PART : Z := 185.
Definition PG_MAIN_PROGRAM : Z := 186.
Definition PG_MODULE : Z := 187.
Definition PG_MODULE_SUBPROGRAM : Z := 188.
Definition PG_MODULE_SUBPROGRAM_PART : Z := 189.
Definition PG_NONBLOCK_DO_CONSTRUCT : Z := 190.
Definition PG_OUTER_SHARED_DO_CONSTRUCT : Z := 191.
Definition PG_PROGRAM : Z := 192.
Definition PG_PROGRAM_UNIT : Z := 193.
Definition PG_SELECT_RANK_CONSTRUCT : Z := 194.
Definition PG_SELECT_TYPE_CONSTRUCT : Z := 195.
Definition PG_SEPARATE_MODULE_SUBPROGRAM : Z := 196.
Definition PG_SPECIFICATION_CONSTRUCT : Z := 197.
Definition PG_SPECIFICATION_PART : Z := 198.
Definition PG_SUBMODULE : Z := 199.
Definition PG_SUBROUTINE_SUBPROGRAM : Z := 200.
Definition PG_TYPE_BOUND_PROCEDURE_PART : Z := 201.
Definition PG_WHERE_BODY_CONSTRUCT : Z := 202.
Definition PG_WHERE_CONSTRUCT : Z := 203.
Definition PG_ZZZ_UB : Z := 204.
Definition SG_000_LB : Z := 205.
Definition SG_ACCESS_ID : Z := 206.
Definition SG_ACCESS_ID_LIST : Z := 207.
Definition SG_ACCESS_SPEC : Z := 208.
Definition SG_ACCESS_STMT : Z := 209.
Definition SG_ACTION_STMT : Z := 210.
Definition SG_ACTUAL_ARG : Z := 211.
Definition SG_ACTUAL_ARG_SPEC : Z := 212.
Definition SG_ACTUAL_ARG_SPEC_LIST : Z := 213.
Definition SG_ADD_OP : Z := 214.
Definition SG_ALLOCATABLE_DECL : Z := 215.
Definition SG_ALLOCATABLE_DECL_LIST : Z := 216.
Definition SG_ALLOCATABLE_STMT : Z := 217.
Definition SG_ALLOCATE_COARRAY_SPEC : Z := 218.
Definition SG_ALLOCATE_COSHAPE_SPEC : Z := 219.
Definition SG_ALLOCATE_COSHAPE_SPEC_LIST : Z := 220.
Definition SG_ALLOCATE_OBJECT : Z := 221.
Definition SG_ALLOCATE_OBJECT_LIST : Z := 222.
Definition SG_ALLOCATE_SHAPE_SPEC : Z := 223.
Definition SG_ALLOCATE_SHAPE_SPEC_LIST : Z := 224.
Definition SG_ALLOCATE_STMT : Z := 225.
Definition SG_ALLOCATION : Z := 226.
Definition SG_ALLOCATION_LIST : Z := 227.
Definition SG_ALLOC_OPT : Z := 228.
Definition SG_ALLOC_OPT_LIST : Z := 229.
Definition SG_ARITHMETIC_IF_STMT : Z := 230.
Definition SG_ARRAY_ELEMENT : Z := 231.
Definition SG_ARRAY_SPEC : Z := 232.
Definition SG_ASSIGNMENT_STMT : Z := 233.
Definition SG_ASSOCIATE_STMT : Z := 234.
Definition SG_ASSOCIATION : Z := 235.
Definition SG_ASSOCIATION_LIST : Z := 236.
Definition SG_ASSUMED_IMPLIED_SPEC : Z := 237.
Definition SG_ASSUMED_IMPLIED_SPEC_LIST : Z := 238.
Definition SG_ASSUMED_RANK_SPEC : Z := 239.
Definition SG_ASSUMED_SHAPE_SPEC : Z := 240.
Definition SG_ASSUMED_SHAPE_SPEC_LIST : Z := 241.
Definition SG_ASSUMED_SIZE_SPEC : Z := 242.
Definition SG_ASYNCHRONOUS_STMT : Z := 243.
Definition SG_ATTR_SPEC : Z := 244.
Definition SG_BACKSPACE_STMT : Z := 245.
Definition SG_BINDING_ATTR : Z := 246.
Definition SG_BINDING_ATTR_LIST : Z := 247.
Definition SG_BINDING_NAME_LIST : Z := 248.
Definition SG_BINDING_PRIVATE_STMT : Z := 249.
Definition SG_BIND_ENTITY : Z := 250.
Definition SG_BIND_STMT : Z := 251.
Definition SG_BLOCK_STMT : Z := 252.
Definition SG_BOUNDS_REMAPPING : Z := 253.
Definition SG_BOUNDS_REMAPPING_LIST : Z := 254.
Definition SG_BOUNDS_SPEC : Z := 255.
Definition SG_BOUNDS_SPEC_LIST : Z := 256.
Definition SG_CALL_STMT : Z := 257.
Definition SG_CASE_EXPR : Z := 258.
Definition SG_CASE_SELECTOR : Z := 259.
Definition SG_CASE_STMT : Z := 260.
Definition SG_CASE_VALUE_RANGE : Z := 261.
Definition SG_CASE_VALUE_RANGE_LIST : Z := 262.
Definition SG_CHAR_LENGTH : Z := 263.
Definition SG_CHAR_LITERAL_CONSTANT : Z := 264.
Definition SG_CHAR_SELECTOR : Z := 265.
Definition SG_CLOSE_STMT : Z := 266.
Definition SG_COARRAY_SPEC : Z := 267.
Definition SG_CODIMENSION_DECL : Z := 268.
Definition SG_CODIMENSION_STMT : Z := 269.
Definition SG_COINDEXED_NAMED_OBJECT : Z := 270.
Definition SG_COMMON_BLOCK_OBJECT : Z := 271.
Definition SG_COMMON_BLOCK_OBJECT_LIST : Z := 272.
Definition SG_COMMON_STMT : Z := 273.
Definition SG_COMPONENT_ARRAY_SPEC : Z := 274.
Definition SG_COMPONENT_ATTR_SPEC : Z := 275.
Definition SG_COMPONENT_ATTR_SPEC_LIST : Z := 276.
Definition SG_COMPONENT_DATA_SOURCE : Z := 277.
Definition SG_COMPONENT_DECL : Z := 278.
Definition SG_COMPONENT_DECL_LIST : Z := 279.
Definition SG_COMPONENT_DEF_STMT : Z := 280.
Definition SG_COMPONENT_INITIALIZATION : Z := 281.
Definition SG_COMPONENT_SPEC : Z := 282.
Definition SG_COMPONENT_SPEC_LIST : Z := 283.
Definition SG_COMPUTED_GOTO_STMT : Z := 284.
Definition SG_CONCURRENT_CONTROL : Z := 285.
Definition SG_CONCURRENT_CONTROL_LIST : Z := 286.
Definition SG_CONCURRENT_HEADER : Z := 287.
Definition SG_CONCURRENT_LIMIT : Z := 288.
Definition SG_CONCURRENT_LOCALITY : Z := 289.
Definition SG_CONCURRENT_STEP : Z := 290.
Definition SG_CONTAINS_STMT : Z := 291.
Definition SG_CONTINUE_STMT : Z := 292.
Definition SG_COSUBSCRIPT : Z := 293.
Definition SG_COSUBSCRIPT_LIST : Z := 294.
Definition SG_CYCLE_STMT : Z := 295.
Definition SG_DATA_COMPONENT_DEF_STMT : Z := 296.
Definition SG_DATA_IMPLIED_DO : Z := 297.
Definition SG_DATA_POINTER_COMPONENT_NAME : Z := 298.
Definition SG_DATA_POINTER_OBJECT : Z := 299.
Definition SG_DATA_REF : Z := 300.
Definition SG_DATA_STMT : Z := 301.
Definition SG_DATA_STMT_CONSTANT : Z := 302.
Definition SG_DATA_STMT_OBJECT : Z := 303.
Definition SG_DATA_STMT_OBJECT_LIST : Z := 304.
Definition SG_DATA_STMT_REPEAT : Z := 305.
Definition SG_DATA_STMT_SET : Z := 306.
Definition SG_DATA_STMT_SET_LIST : Z := 307.
Definition SG_DATA_STMT_VALUE : Z := 308.
Definition SG_DATA_STMT_VALUE_LIST : Z := 309.
Definition SG_DATA_TARGET : Z := 310.
Definition SG_DEALLOCATE_STMT : Z := 311.
Definition SG_DEALLOC_OPT : Z := 312.
Definition SG_DEALLOC_OPT_LIST : Z := 313.
Definition SG_DECLARATION_TYPE_SPEC : Z := 314.
Definition SG_DEFAULT_CHAR_EXPR : Z := 315.
Definition SG_DEFERRED_COSHAPE_SPEC : Z := 316.
Definition SG_DEFERRED_COSHAPE_SPEC_LIST : Z := 317.
Definition SG_DEFERRED_SHAPE_SPEC : Z := 318.
Definition SG_DEFERRED_SHAPE_SPEC_LIST : Z := 319.
Definition SG_DEFINED_IO_GENERIC_SPEC : Z := 320.
Definition SG_DEFINED_OPERATOR : Z := 321.
Definition SG_DERIVED_TYPE_SPEC : Z := 322.
Definition SG_DERIVED_TYPE_STMT : Z := 323.
Definition SG_DESIGNATOR : Z := 324.
Definition SG_DIGIT_STRING : Z := 325.
Definition SG_DIMENSION_STMT : Z := 326.
Definition SG_DO_STMT : Z := 327.
Definition SG_DUMMY_ARG : Z := 328.
Definition SG_DUMMY_ARG_LIST : Z := 329.
Definition SG_DUMMY_ARG_NAME_LIST : Z := 330.
Definition SG_ELSEWHERE_STMT : Z := 331.
Definition SG_ELSE_IF_STMT : Z := 332.
Definition SG_ELSE_STMT : Z := 333.
Definition SG_ENDFILE_STMT : Z := 334.
Definition SG_END_ASSOCIATE_STMT : Z := 335.
Definition SG_END_BLOCK_STMT : Z := 336.
Definition SG_END_DO : Z := 337.
Definition SG_END_DO_STMT : Z := 338.
Definition SG_END_ENUM_STMT : Z := 339.
Definition SG_END_FORALL_STMT : Z := 340.
Definition SG_END_FUNCTION_STMT : Z := 341.
Definition SG_END_IF_STMT : Z := 342.
Definition SG_END_INTERFACE_STMT : Z := 343.
Definition SG_END_MODULE_STMT : Z := 344.
Definition SG_END_MP_SUBPROGRAM_STMT : Z := 345.
Definition SG_END_PROGRAM_STMT : Z := 346.
Definition SG_END_SELECT_RANK_STMT : Z := 347.
Definition SG_END_SELECT_STMT : Z := 348.
Definition SG_END_SELECT_TYPE_STMT : Z := 349.
Definition SG_END_SUBMODULE_STMT : Z := 350.
Definition SG_END_SUBROUTINE_STMT : Z := 351.
Definition SG_END_TYPE_STMT : Z := 352.
Definition SG_END_WHERE_STMT : Z := 353.
Definition SG_ENTITY_DECL : Z := 354.
Definition SG_ENTITY_DECL_LIST : Z := 355.
Definition SG_ENTRY_STMT : Z := 356.
Definition SG_ENUMERATOR : Z := 357.
Definition SG_ENUMERATOR_DEF_STMT : Z := 358.
Definition SG_ENUMERATOR_LIST : Z := 359.
Definition SG_ENUM_DEF_STMT : Z := 360.
Definition SG_EQUIVALENCE_OBJECT : Z := 361.
Definition SG_EQUIVALENCE_OBJECT_LIST : Z := 362.
Definition SG_EQUIVALENCE_SET : Z := 363.
Definition SG_EQUIVALENCE_SET_LIST : Z := 364.
Definition SG_EQUIVALENCE_STMT : Z := 365.
Definition SG_EQUIV_OP : Z := 366.
Definition SG_ERROR_STOP_STMT : Z := 367.
Definition SG_EVENT_POST_STMT : Z := 368.
Definition SG_EVENT_WAIT_STMT : Z := 369.
Definition SG_EXIT_STMT : Z := 370.
Definition SG_EXPLICIT_COSHAPE_SPEC : Z := 371.
Definition SG_EXPLICIT_SHAPE_SPEC : Z := 372.
Definition SG_EXPLICIT_SHAPE_SPEC_LIST : Z := 373.
Definition SG_EXPONENT : Z := 374.
Definition SG_EXPONENT_LETTER : Z := 375.
Definition SG_EXPR : Z := 376.
Definition SG_EXTENDED_INTRINSIC_OP : Z := 377.
Definition SG_EXTERNAL_NAME_LIST : Z := 378.
Definition SG_EXTERNAL_STMT : Z := 379.
Definition SG_FAIL_IMAGE_STMT : Z := 380.
Definition SG_FINAL_PROCEDURE_STMT : Z := 381.
Definition SG_FINAL_SUBROUTINE_NAME_LIST : Z := 382.
Definition SG_FLUSH_STMT : Z := 383.
Definition SG_FORALL_ASSIGNMENT_STMT : Z := 384.
Definition SG_FORALL_CONSTRUCT_STMT : Z := 385.
Definition SG_FORALL_STMT : Z := 386.
Definition SG_FORMAT : Z := 387.
Definition SG_FORMAT_SPECIFICATION : Z := 388.
Definition SG_FORMAT_STMT : Z := 389.
Definition SG_FORM_TEAM_STMT : Z := 390.
Definition SG_FUNCTION_REFERENCE : Z := 391.
Definition SG_FUNCTION_STMT : Z := 392.
Definition SG_GENERIC_SPEC : Z := 393.
Definition SG_GENERIC_STMT : Z := 394.
Definition SG_GOTO_STMT : Z := 395.
Definition SG_IF_STMT : Z := 396.
Definition SG_IF_THEN_STMT : Z := 397.
Definition SG_IMAGE_SELECTOR : Z := 398.
Definition SG_IMAGE_SELECTOR_SPEC : Z := 399.
Definition SG_IMAGE_SELECTOR_SPEC_LIST : Z := 400.
Definition SG_IMPLICIT_NONE_SPEC : Z := 401.
Definition SG_IMPLICIT_NONE_SPEC_LIST : Z := 402.
Definition SG_IMPLICIT_SPEC : Z := 403.
Definition SG_IMPLICIT_SPEC_LIST : Z := 404.
Definition SG_IMPLICIT_STMT : Z := 405.
Definition SG_IMPLIED_SHAPE_OR_ASSUMED_SIZE_SPEC : Z := 406.
Definition SG_IMPLIED_SHAPE_SPEC : Z := 407.
Definition SG_IMPORT_NAME_LIST : Z := 408.
Definition SG_IMPORT_STMT : Z := 409.
Definition SG_INITIALIZATION : Z := 410.
Definition SG_INITIAL_DATA_TARGET : Z := 411.
Definition SG_INPUT_ITEM : Z := 412.
Definition SG_INPUT_ITEM_LIST : Z := 413.
Definition SG_INQUIRE_STMT : Z := 414.
Definition SG_INTEGER_TYPE_SPEC : Z := 415.
Definition SG_INTENT_SPEC : Z := 416.
Definition SG_INTENT_STMT : Z := 417.
Definition SG_INTERFACE_STMT : Z := 418.
Definition SG_INTRINSIC_OPERATOR : Z := 419.
Definition SG_INTRINSIC_PROCEDURE_NAME_LIST : Z := 420.
Definition SG_INTRINSIC_STMT : Z := 421.
Definition SG_INTRINSIC_TYPE_SPEC : Z := 422.
Definition SG_INT_CONSTANT_EXPR : Z := 423.
Definition SG_INT_EXPR : Z := 424.
Definition SG_INT_LITERAL_CONSTANT : Z := 425.
Definition SG_IO_CONTROL_SPEC_LIST : Z := 426.
Definition SG_IO_IMPLIED_DO : Z := 427.
Definition SG_IO_IMPLIED_DO_CONTROL : Z := 428.
Definition SG_IO_IMPLIED_DO_OBJECT : Z := 429.
Definition SG_IO_IMPLIED_DO_OBJECT_LIST : Z := 430.
Definition SG_KIND_PARAM : Z := 431.
Definition SG_KIND_SELECTOR : Z := 432.
Definition SG_LABEL : Z := 433.
Definition SG_LABEL_DO_STMT : Z := 434.
Definition SG_LABEL_LIST : Z := 435.
Definition SG_LANGUAGE_BINDING_SPEC : Z := 436.
Definition SG_LENGTH_SELECTOR : Z := 437.
Definition SG_LETTER_SPEC : Z := 438.
Definition SG_LETTER_SPEC_LIST : Z := 439.
Definition SG_LOCALITY_SPEC : Z := 440.
Definition SG_LOCK_STMT : Z := 441.
Definition SG_LOGICAL_EXPR : Z := 442.
Definition SG_LOGICAL_LITERAL_CONSTANT : Z := 443.
Definition SG_LOOP_CONTROL : Z := 444.
Definition SG_LOWER_BOUND_EXPR : Z := 445.
Definition SG_MACRO_STMT : Z := 446.
Definition SG_MASKED_ELSEWHERE_STMT : Z := 447.
Definition SG_MODULE_NATURE : Z := 448.
Definition SG_MODULE_STMT : Z := 449.
Definition SG_MP_SUBPROGRAM_STMT : Z := 450.
Definition SG_MULT_OP : Z := 451.
Definition SG_NAMED_CONSTANT_DEF : Z := 452.
Definition SG_NAMED_CONSTANT_DEF_LIST : Z := 453.
Definition SG_NAMELIST_GROUP_OBJECT_LIST : Z := 454.
Definition SG_NAMELIST_STMT : Z := 455.
Definition SG_NONLABEL_DO_STMT : Z := 456.
Definition SG_NULLIFY_STMT : Z := 457.
Definition SG_NULL_INIT : Z := 458.
Definition SG_OBJECT_NAME_LIST : Z := 459.
Definition SG_ONLY : Z := 460.
Definition SG_ONLY_LIST : Z := 461.
Definition SG_OPEN_STMT : Z := 462.
Definition SG_OPTIONAL_STMT : Z := 463.
Definition SG_OTHER_SPECIFICATION_STMT : Z := 464.
Definition SG_OUTPUT_ITEM : Z := 465.
Definition SG_OUTPUT_ITEM_LIST : Z := 466.
Definition SG_PARAMETER_STMT : Z := 467.
Definition SG_PARENT_STRING : Z := 468.
Definition SG_PART_REF : Z := 469.
Definition SG_POINTER_ASSIGNMENT_STMT : Z := 470.
Definition SG_POINTER_DECL : Z := 471.
Definition SG_POINTER_DECL_LIST : Z := 472.
Definition SG_POINTER_OBJECT : Z := 473.
Definition SG_POINTER_OBJECT_LIST : Z := 474.
Definition SG_POINTER_STMT : Z := 475.
Definition SG_PREFIX : Z := 476.
Definition SG_PREFIX_SPEC : Z := 477.
Definition SG_PRINT_STMT : Z := 478.
Definition SG_PRIVATE_COMPONENTS_STMT : Z := 479.
Definition SG_PRIVATE_OR_SEQUENCE : Z := 480.
Definition SG_PROCEDURE_DECLARATION_STMT : Z := 481.
Definition SG_PROCEDURE_DESIGNATOR : Z := 482.
Definition SG_PROCEDURE_STMT : Z := 483.
Definition SG_PROC_ATTR_SPEC : Z := 484.
Definition SG_PROC_COMPONENT_ATTR_SPEC : Z := 485.
Definition SG_PROC_COMPONENT_ATTR_SPEC_LIST : Z := 486.
Definition SG_PROC_COMPONENT_DEF_STMT : Z := 487.
Definition SG_PROC_COMPONENT_REF : Z := 488.
Definition SG_PROC_DECL : Z := 489.
Definition SG_PROC_DECL_LIST : Z := 490.
Definition SG_PROC_INTERFACE : Z := 491.
Definition SG_PROC_LANGUAGE_BINDING_SPEC : Z := 492.
Definition SG_PROC_POINTER_INIT : Z := 493.
Definition SG_PROC_POINTER_NAME : Z := 494.
Definition SG_PROC_POINTER_OBJECT : Z := 495.
Definition SG_PROC_TARGET : Z := 496.
Definition SG_PROGRAM_STMT : Z := 497.
Definition SG_PROTECTED_STMT : Z := 498.
Definition SG_READ_STMT : Z := 499.
Definition SG_REAL_LITERAL_CONSTANT : Z := 500.
Definition SG_REL_OP : Z := 501.
Definition SG_RENAME : Z := 502.
Definition SG_RENAME_LIST : Z := 503.
Definition SG_RETURN_STMT : Z := 504.
Definition SG_REWIND_STMT : Z := 505.
Definition SG_SAVED_ENTITY : Z := 506.
Definition SG_SAVED_ENTITY_LIST : Z := 507.
Definition SG_SAVE_STMT : Z := 508.
Definition SG_SECTION_SUBSCRIPT : Z := 509.
Definition SG_SECTION_SUBSCRIPT_LIST : Z := 510.
Definition SG_SELECTOR : Z := 511.
Definition SG_SELECT_CASE_STMT : Z := 512.
Definition SG_SELECT_RANK_CASE_STMT : Z := 513.
Definition SG_SELECT_RANK_STMT : Z := 514.
Definition SG_SELECT_TYPE_STMT : Z := 515.
Definition SG_SEQUENCE_STMT : Z := 516.
Definition SG_SIGN : Z := 517.
Definition SG_SIGNED_REAL_LITERAL_CONSTANT : Z := 518.
Definition SG_SIGNIFICAND : Z := 519.
Definition SG_SPECIFIC_PROCEDURE : Z := 520.
Definition SG_SPECIFIC_PROCEDURE_LIST : Z := 521.
Definition SG_STOP_STMT : Z := 522.
Definition SG_STRUCTURE_COMPONENT : Z := 523.
Definition SG_STRUCTURE_CONSTRUCTOR : Z := 524.
Definition SG_SUBMODULE_STMT : Z := 525.
Definition SG_SUBROUTINE_STMT : Z := 526.
Definition SG_SUBSTRING : Z := 527.
Definition SG_SUBSTRING_RANGE : Z := 528.
Definition SG_SUFFIX : Z := 529.
Definition SG_SYNC_ALL_STMT : Z := 530.
Definition SG_SYNC_IMAGES_STMT : Z := 531.
Definition SG_SYNC_MEMORY_STMT : Z := 532.
Definition SG_SYNC_STAT : Z := 533.
Definition SG_SYNC_TEAM_STMT : Z := 534.
Definition SG_TARGET_DECL : Z := 535.
Definition SG_TARGET_DECL_LIST : Z := 536.
Definition SG_TARGET_STMT : Z := 537.
Definition SG_TYPE_ATTR_SPEC : Z := 538.
Definition SG_TYPE_ATTR_SPEC_LIST : Z := 539.
Definition SG_TYPE_BOUND_GENERIC_STMT : Z := 540.
Definition SG_TYPE_BOUND_PROCEDURE_STMT : Z := 541.
Definition SG_TYPE_BOUND_PROC_BINDING : Z := 542.
Definition SG_TYPE_BOUND_PROC_DECL : Z := 543.
Definition SG_TYPE_BOUND_PROC_DECL_LIST : Z := 544.
Definition SG_TYPE_DECL_ATTR_SEQ : Z := 545.
Definition SG_TYPE_DECLARATION_STMT : Z := 546.
Definition SG_TYPE_GUARD_STMT : Z := 547.
Definition SG_TYPE_PARAM_ATTR_SPEC : Z := 548.
Definition SG_TYPE_PARAM_DECL : Z := 549.
Definition SG_TYPE_PARAM_DECL_LIST : Z := 550.
Definition SG_TYPE_PARAM_DEF_STMT : Z := 551.
Definition SG_TYPE_PARAM_NAME : Z := 552.
Definition SG_TYPE_PARAM_NAME_LIST : Z := 553.
Definition SG_TYPE_PARAM_SPEC : Z := 554.
Definition SG_TYPE_PARAM_SPEC_LIST : Z := 555.
Definition SG_TYPE_PARAM_VALUE : Z := 556.
Definition SG_TYPE_SPEC : Z := 557.
Definition SG_UNLOCK_STMT : Z := 558.
Definition SG_UPPER_BOUND_EXPR : Z := 559.
Definition SG_USE_STMT : Z := 560.
Definition SG_VALUE_STMT : Z := 561.
Definition SG_VARIABLE : Z := 562.
Definition SG_VARIABLE_NAME : Z := 563.
Definition SG_VARIABLE_NAME_LIST : Z := 564.
Definition SG_VOLATILE_STMT : Z := 565.
Definition SG_WAIT_SPEC : Z := 566.
Definition SG_WAIT_STMT : Z := 567.
Definition SG_WHERE_CONSTRUCT_STMT : Z := 568.
Definition SG_WHERE_STMT : Z := 569.
Definition SG_WRITE_STMT : Z := 570.
Definition SG_ZZZ_UB : Z := 571.
Definition TK_000_LB : Z := 572.
Definition TK_AND_OP : Z := 573.
Definition TK_ARROW : Z := 574.
Definition TK_ASTERISK : Z := 575.
Definition TK_BRACKETL : Z := 576.
Definition TK_BRACKETR : Z := 577.
Definition TK_COLON : Z := 578.
Definition TK_COMMA : Z := 579.
Definition TK_CONCAT : Z := 580.
Definition TK_DBL_COLON : Z := 581.
Definition TK_DBL_DOT : Z := 582.
Definition TK_DEF_OP : Z := 583.
Definition TK_EQUAL : Z := 584.
Definition TK_EQV_OP : Z := 585.
Definition TK_FALSE_CONSTANT : Z := 586.
Definition TK_MINUS : Z := 587.
Definition TK_NAME : Z := 588.
Definition TK_NEQV_OP : Z := 589.
Definition TK_NOT_OP : Z := 590.
Definition TK_OR_OP : Z := 591.
Definition TK_PARENL : Z := 592.
Definition TK_PARENR : Z := 593.
Definition TK_PERCENT : Z := 594.
Definition TK_PLUS : Z := 595.
Definition TK_POWER_OP : Z := 596.
Definition TK_REL_EQ : Z := 597.
Definition TK_REL_GE : Z := 598.
Definition TK_REL_GT : Z := 599.
Definition TK_REL_LE : Z := 600.
Definition TK_REL_LT : Z := 601.
Definition TK_REL_NE : Z := 602.
Definition TK_SEMICOLON : Z := 603.
Definition TK_SLASHF : Z := 604.
Definition TK_TRUE_CONSTANT : Z := 605.
Definition TK_UNDERSCORE : Z := 606.
Definition TK_VBAR : Z := 607.
Definition TK_ZZZ_UB : Z := 608.
Definition CLIENT_EXTENSION : Z := 609.

Definition tag_table : list (str * Z) := [
  (L "<EOL>", 0);
  (L "<UNKNOWN>", 0);
  (L "<BAD>", 0);
  (L "<HOIST>", 0);
  (L "<keyword grammar enum lower bound>", 0);
  (L "ABSTRACT", 4);
  (L "ACQUIRED_LOCK", 4);
  (L "ALL", 4);
  (L "ALLOCATABLE", 4);
  (L "ALLOCATE", 4);
  (L "ASSIGNMENT", 4);
  (L "ASSOCIATE", 4);
  (L "ASYNCHRONOUS", 4);
  (L "BACKSPACE", 4);
  (L "BIND", 4);
  (L "BLOCK", 4);
  (L "CALL", 4);
  (L "CASE", 4);
  (L "CHARACTER", 4);
  (L "CLASS", 4);
  (L "CLOSE", 4);
  (L "CODIMENSION", 4);
  (L "COMMON", 4);
  (L "COMPLEX", 4);
  (L "CONCURRENT", 4);
  (L "CONTAINS", 4);
  (L "CONTIGUOUS", 4);
  (L "CONTINUE", 4);
  (L "CRITICAL", 4);
  (L "CYCLE", 4);
  (L "DATA", 4);
  (L "DEALLOCATE", 4);
  (L "DEFAULT", 4);
  (L "DEFERRED", 4);
  (L "DIMENSION", 4);
  (L "DO", 4);
  (L "DOUBLE", 4);
  (L "DOUBLEPRECISION", 4);
  (L "DOWHILE", 4);
  (L "ELEMENTAL", 4);
  (L "ELSE", 4);
  (L "END", 4);
  (L "ENTRY", 4);
  (L "ENUM", 4);
  (L "ENUMERATOR", 4);
  (L "EOR", 4);
  (L "EQUIVALENCE", 4);
  (L "ERR", 4);
  (L "ERRMSG", 4);
  (L "ERROR", 4);
  (L "EVENT", 4);
  (L "EXIT", 4);
  (L "EXTENDS", 4);
  (L "EXTERNAL", 4);
  (L "FAIL", 4);
  (L "FILE", 4);
  (L "FINAL", 4);
  (L "FLUSH", 4);
  (L "FORALL", 4);
  (L "FORM", 4);
  (L "FORMAT", 4);
  (L "FORMATTED", 4);
  (L "FUNCTION", 4);
  (L "GENERIC", 4);
  (L "GO", 4);
  (L "ID", 4);
  (L "IF", 4);
  (L "IMAGE", 4);
  (L "IMAGES", 4);
  (L "IMPLICIT", 4);
  (L "IMPORT", 4);
  (L "IMPURE", 4);
  (L "IN", 4);
  (L "INCLUDE", 4);
  (L "INOUT", 4);
  (L "INQUIRE", 4);
  (L "INTEGER", 4);
  (L "INTENT", 4);
  (L "INTERFACE", 4);
  (L "INTRINSIC", 4);
  (L "IOMSG", 4);
  (L "IOSTAT", 4);
  (L "IS", 4);
  (L "KIND", 4);
  (L "LEN", 4);
  (L "LOCAL", 4);
  (L "LOCAL_INIT", 4);
  (L "LOCK", 4);
  (L "LOGICAL", 4);
  (L "MEMORY", 4);
  (L "MODULE", 4);
  (L "MOLD", 4);
  (L "NAME", 4);
  (L "NAMELIST", 4);
  (L "NEW_INDEX", 4);
  (L "NONE", 4);
  (L "NON_INTRINSIC", 4);
  (L "NON_OVERRIDABLE", 4);
  (L "NON_RECURSIVE", 4);
  (L "NOPASS", 4);
  (L "NULLIFY", 4);
  (L "ONLY", 4);
  (L "OPEN", 4);
  (L "OPERATOR", 4);
  (L "OPTIONAL", 4);
  (L "OUT", 4);
  (L "PARAMETER", 4);
  (L "PASS", 4);
  (L "POINTER", 4);
  (L "POST", 4);
  (L "PRECISION", 4);
  (L "PRINT", 4);
  (L "PRIVATE", 4);
  (L "PROCEDURE", 4);
  (L "PROGRAM", 4);
  (L "PROTECTED", 4);
  (L "PUBLIC", 4);
  (L "PURE", 4);
  (L "QUIET", 4);
  (L "RANK", 4);
  (L "READ", 4);
  (L "REAL", 4);
  (L "RECURSIVE", 4);
  (L "RESULT", 4);
  (L "RETURN", 4);
  (L "REWIND", 4);
  (L "SAVE", 4);
  (L "SELECT", 4);
  (L "SEQUENCE", 4);
  (L "SHARED", 4);
  (L "SOURCE", 4);
  (L "STAT", 4);
  (L "STOP", 4);
  (L "SUBMODULE", 4);
  (L "SUBROUTINE", 4);
  (L "SYNC", 4);
  (L "TARGET", 4);
  (L "TEAM", 4);
  (L "TEAM_NUMBER", 4);
  (L "THEN", 4);
  (L "TO", 4);
  (L "TYPE", 4);
  (L "UNFORMATTED", 4);
  (L "UNIT", 4);
  (L "UNLOCK", 4);
  (L "UNTIL_COUNT", 4);
  (L "USE", 4);
  (L "VALUE", 4);
  (L "VOLATILE", 4);
  (L "WAIT", 4);
  (L "WHERE", 4);
  (L "WHILE", 4);
  (L "WRITE", 4);
  (L "<keyword grammar enum upper bound>", 0);
  (L "<prgm grammar enum lower bound>", 0);
  (L "action-term-do-construct", 1);
  (L "associate-construct", 1);
  (L "block", 1);
  (L "block-construct", 1);
  (L "block-specification-part", 1);
  (L "case-construct", 1);
  (L "component-part", 1);
  (L "declaration-construct", 1);
  (L "derived-type-def", 1);
  (L "do-block", 1);
  (L "do-body", 1);
  (L "do-construct", 1);
  (L "do-term-action-stmt", 1);
  (L "do-term-shared-stmt", 1);
  (L "enum-def", 1);
  (L "executable-construct", 1);
  (L "execution-part", 1);
  (L "execution-part-construct", 1);
  (L "external-subprogram", 1);
  (L "forall-body-construct", 1);
  (L "forall-construct", 1);
  (L "function-subprogram", 1);
  (L "if-construct", 1);
  (L "implicit-part", 1);
  (L "implicit-part-stmt", 1);
  (L "inner-shared-do-construct", 1);
  (L "interface-block", 1);
  (L "interface-body", 1);
  (L "interface-specification", 1);
  (L "internal-subprogram", 1);
  (L "internal-subprogram-part", 1);
  (L "main-program", 1);
  (L "module", 1);
  (L "module-subprogram", 1);
  (L "module-subprogram-part", 1);
  (L "nonblock-do-construct", 1);
  (L "outer-shared-do-construct", 1);
  (L "program", 1);
  (L "program-unit", 1);
  (L "select-rank-construct", 1);
  (L "select-type-construct", 1);
  (L "separate-module-subprogram", 1);
  (L "specification-construct", 1);
  (L "specification-part", 1);
  (L "submodule", 1);
  (L "subroutine-subprogram", 1);
  (L "type-bound-procedure-part", 1);
  (L "where-body-construct", 1);
  (L "where-construct", 1);
  (L "<prgm grammar enum upper bound>", 0);
  (L "<statment grammar enum lower bound>", 0);
  (L "access-id", 1);
  (L "access-id-list", 1);
  (L "access-spec", 1);
  (L "access-stmt", 5);
  (L "action-stmt", 5);
  (L "actual-arg", 1);
  (L "actual-arg-spec", 1);
  (L "actual-arg-spec-list", 1);
  (L "add-op", 1);
  (L "allocatable-decl", 1);
  (L "allocatable-decl-list", 1);
  (L "allocatable-stmt", 5);
  (L "allocate-coarray-spec", 1);
  (L "allocate-coshape-spec", 1);
  (L "allocate-coshape-spec-list", 1);
  (L "allocate-object", 1);
  (L "allocate-object-list", 1);
  (L "allocate-shape-spec", 1);
  (L "allocate-shape-spec-list", 1);
  (L "allocate-stmt", 5);
  (L "allocation", 1);
  (L "allocation-list", 1);
  (L "alloc-opt", 1);
  (L "alloc-opt-list", 1);
  (L "arithmetic-if-stmt", 5);
  (L "array-element", 1);
  (L "array-spec", 1);
  (L "assignment-stmt", 5);
  (L "associate-stmt", 5);
  (L "association", 1);
  (L "association-list", 1);
  (L "assumed-implied-spec", 1);
  (L "assumed-implied-spec-list", 1);
  (L "assumed-rank-spec", 1);
  (L "assumed-shape-spec", 1);
  (L "assumed-shape-spec-list", 1);
  (L "assumed-size-spec", 1);
  (L "asynchronous-stmt", 5);
  (L "attr-spec", 1);
  (L "backspace-stmt", 5);
  (L "binding-attr", 1);
  (L "binding-attr-list", 1);
  (L "binding-name-list", 1);
  (L "binding-private-stmt", 5);
  (L "bind-entity", 1);
  (L "bind-stmt", 5);
  (L "block-stmt", 5);
  (L "bounds-remapping", 1);
  (L "bounds-remapping-list", 1);
  (L "bounds-spec", 1);
  (L "bounds-spec-list", 1);
  (L "call-stmt", 5);
  (L "case-expr", 1);
  (L "case-selector", 1);
  (L "case-stmt", 5);
  (L "case-value-range", 1);
  (L "case-value-range-list", 1);
  (L "char-length", 1);
  (L "char-literal-constant", 2);
  (L "char-selector", 2);
  (L "close-stmt", 5);
  (L "coarray-spec", 1);
  (L "codimension-decl", 1);
  (L "codimension-stmt", 5);
  (L "coindexed-named-object", 1);
  (L "common-block-object", 1);
  (L "common-block-object-list", 1);
  (L "common-stmt", 5);
  (L "component-array-spec", 1);
  (L "component-attr-spec", 1);
  (L "component-attr-spec-list", 1);
  (L "component-data-source", 1);
  (L "component-decl", 1);
  (L "component-decl-list", 1);
  (L "component-def-stmt", 5);
  (L "component-initialization", 2);
  (L "component-spec", 1);
  (L "component-spec-list", 1);
  (L "computed-goto-stmt", 5);
  (L "concurrent-control", 1);
  (L "concurrent-control-list", 1);
  (L "concurrent-header", 1);
  (L "concurrent-limit", 1);
  (L "concurrent-locality", 1);
  (L "concurrent-step", 1);
  (L "contains-stmt", 5);
  (L "continue-stmt", 5);
  (L "cosubscript", 1);
  (L "cosubscript-list", 1);
  (L "cycle-stmt", 5);
  (L "data-component-def-stmt", 5);
  (L "data-implied-do", 2);
  (L "data-pointer-component-name", 1);
  (L "data-pointer-object", 1);
  (L "data-ref", 1);
  (L "data-stmt", 5);
  (L "data-stmt-constant", 1);
  (L "data-stmt-object", 1);
  (L "data-stmt-object-list", 1);
  (L "data-stmt-repeat", 1);
  (L "data-stmt-set", 1);
  (L "data-stmt-set-list", 1);
  (L "data-stmt-value", 2);
  (L "data-stmt-value-list", 1);
  (L "data-target", 1);
  (L "deallocate-stmt", 5);
  (L "dealloc-opt", 1);
  (L "dealloc-opt-list", 1);
  (L "declaration-type-spec", 1);
  (L "default-char-expr", 2);
  (L "deferred-coshape-spec", 1);
  (L "deferred-coshape-spec-list", 1);
  (L "deferred-shape-spec", 1);
  (L "deferred-shape-spec-list", 1);
  (L "defined-io-generic-spec", 1);
  (L "defined-operator", 1);
  (L "derived-type-spec", 1);
  (L "derived-type-stmt", 5);
  (L "designator", 1);
  (L "digit-string", 1);
  (L "dimension-stmt", 5);
  (L "do-stmt", 5);
  (L "dummy-arg", 1);
  (L "dummy-arg-list", 1);
  (L "dummy-arg-name-list", 1);
  (L "elsewhere-stmt", 5);
  (L "else-if-stmt", 5);
  (L "else-stmt", 5);
  (L "endfile-stmt", 5);
  (L "end-associate-stmt", 5);
  (L "end-block-stmt", 5);
  (L "end-do", 1);
  (L "end-do-stmt", 5);
  (L "end-enum-stmt", 5);
  (L "end-forall-stmt", 5);
  (L "end-function-stmt", 5);
  (L "end-if-stmt", 5);
  (L "end-interface-stmt", 5);
  (L "end-module-stmt", 5);
  (L "end-mp-subprogram-stmt", 5);
  (L "end-program-stmt", 5);
  (L "end-select-rank-stmt", 5);
  (L "end-select-stmt", 5);
  (L "end-select-type-stmt", 5);
  (L "end-submodule-stmt", 5);
  (L "end-subroutine-stmt", 5);
  (L "end-type-stmt", 5);
  (L "end-where-stmt", 5);
  (L "entity-decl", 1);
  (L "entity-decl-list", 1);
  (L "entry-stmt", 5);
  (L "enumerator", 1);
  (L "enumerator-def-stmt", 5);
  (L "enumerator-list", 1);
  (L "enum-def-stmt", 5);
  (L "equivalence-object", 1);
  (L "equivalence-object-list", 1);
  (L "equivalence-set", 1);
  (L "equivalence-set-list", 1);
  (L "equivalence-stmt", 5);
  (L "equiv-op", 1);
  (L "error-stop-stmt", 5);
  (L "event-post-stmt", 5);
  (L "event-wait-stmt", 5);
  (L "exit-stmt", 5);
  (L "explicit-coshape-spec", 1);
  (L "explicit-shape-spec", 1);
  (L "explicit-shape-spec-list", 1);
  (L "exponent", 1);
  (L "exponent-letter", 1);
  (L "expr", 2);
  (L "extended-intrinsic-op", 1);
  (L "external-name-list", 1);
  (L "external-stmt", 5);
  (L "fail-image-stmt", 5);
  (L "final-procedure-stmt", 5);
  (L "final-subroutine-name-list", 1);
  (L "flush-stmt", 5);
  (L "forall-assignment-stmt", 5);
  (L "forall-construct-stmt", 5);
  (L "forall-stmt", 5);
  (L "format", 1);
  (L "format-specification", 2);
  (L "format-stmt", 5);
  (L "form-team-stmt", 5);
  (L "function-reference", 1);
  (L "function-stmt", 5);
  (L "generic-spec", 1);
  (L "generic-stmt", 5);
  (L "goto-stmt", 5);
  (L "if-stmt", 5);
  (L "if-then-stmt", 5);
  (L "image-selector", 1);
  (L "image-selector-spec", 1);
  (L "image-selector-spec-list", 1);
  (L "implicit-none-spec", 1);
  (L "implicit-none-spec-list", 1);
  (L "implicit-spec", 1);
  (L "implicit-spec-list", 1);
  (L "implicit-stmt", 5);
  (L "implied-shape-or-assumed-size-spec", 1);
  (L "implied-shape-spec", 1);
  (L "import-name-list", 1);
  (L "import-stmt", 5);
  (L "initialization", 2);
  (L "initial-data-target", 1);
  (L "input-item", 1);
  (L "input-item-list", 1);
  (L "inquire-stmt", 5);
  (L "integer-type-spec", 1);
  (L "intent-spec", 1);
  (L "intent-stmt", 5);
  (L "interface-stmt", 5);
  (L "intrinsic-operator", 1);
  (L "intrinsic-procedure-name-list", 1);
  (L "intrinsic-stmt", 5);
  (L "intrinsic-type-spec", 1);
  (L "int-constant-expr", 1);
  (L "int-expr", 1);
  (L "int-literal-constant", 2);
  (L "io-control-spec-list", 1);
  (L "io-implied-do", 1);
  (L "io-implied-do-control", 1);
  (L "io-implied-do-object", 1);
  (L "io_implied-do-object-list", 1);
  (L "kind-param", 1);
  (L "kind-selector", 1);
  (L "label", 1);
  (L "label-do-stmt", 5);
  (L "label-list", 1);
  (L "language-binding-spec", 1);
  (L "length-selector", 1);
  (L "letter-spec", 1);
  (L "letter-spec-list", 1);
  (L "locality-spec", 1);
  (L "lock-stmt", 5);
  (L "logical-expr", 1);
  (L "logical-literal-constant", 1);
  (L "loop-control", 1);
  (L "lower-bound-expr", 1);
  (L "macro-stmt", 5);
  (L "masked-elsewhere-stmt", 5);
  (L "module-nature", 1);
  (L "module-stmt", 5);
  (L "mp-subprogram-stmt", 5);
  (L "mult-op", 1);
  (L "named-constant-def", 1);
  (L "named-constant-def-list", 1);
  (L "namelist-group-object-list", 1);
  (L "namelist-stmt", 5);
  (L "nonlabel-do-stmt", 5);
  (L "nullify-stmt", 5);
  (L "null-init", 1);
  (L "object-name-list", 1);
  (L "only", 1);
  (L "only-list", 1);
  (L "open-stmt", 5);
  (L "optional-stmt", 5);
  (L "other-specification-stmt", 5);
  (L "output-item", 1);
  (L "output-item-list", 1);
  (L "parameter-stmt", 5);
  (L "parent-string", 1);
  (L "part-ref", 1);
  (L "pointer-assignment-stmt", 5);
  (L "pointer-decl", 1);
  (L "pointer-decl-list", 1);
  (L "pointer-object", 1);
  (L "pointer-object-list", 1);
  (L "pointer-stmt", 5);
  (L "prefix", 1);
  (L "prefix-spec", 1);
  (L "print-stmt", 5);
  (L "private-components-stmt", 5);
  (L "private-or-sequence", 1);
  (L "procedure-declaration-stmt", 5);
  (L "procedure-designator", 1);
  (L "procedure-stmt", 5);
  (L "proc-attr-spec", 1);
  (L "proc-component-attr-spec", 1);
  (L "proc-component-attr-spec-list", 1);
  (L "proc-component-def-stmt", 5);
  (L "proc-component-ref", 1);
  (L "proc-decl", 1);
  (L "proc-decl-list", 1);
  (L "proc-interface", 1);
  (L "proc-language-binding-spec", 1);
  (L "proc-pointer-init", 1);
  (L "proc-pointer-name", 1);
  (L "proc-pointer-object", 1);
  (L "proc-target", 1);
  (L "program-stmt", 5);
  (L "protected-stmt", 5);
  (L "read-stmt", 5);
  (L "real-literal-constant", 2);
  (L "rel-op", 1);
  (L "rename", 1);
  (L "rename-list", 1);
  (L "return-stmt", 5);
  (L "rewind-stmt", 5);
  (L "saved-entity", 1);
  (L "saved-entity-list", 1);
  (L "save-stmt", 5);
  (L "section-subscript", 1);
  (L "section-subscript-list", 1);
  (L "selector", 1);
  (L "select-case-stmt", 5);
  (L "select-rank-case-stmt", 5);
  (L "select-rank-stmt", 5);
  (L "select-type-stmt", 5);
  (L "sequence-stmt", 5);
  (L "sign", 1);
  (L "signed-real-literal-constant", 1);
  (L "significand", 1);
  (L "specific-procedure", 1);
  (L "specific-procedure-list", 1);
  (L "stop-stmt", 5);
  (L "structure-component", 1);
  (L "structure-constructor", 1);
  (L "submodule-stmt", 5);
  (L "subroutine-stmt", 5);
  (L "substring", 1);
  (L "substring-range", 1);
  (L "suffix", 1);
  (L "sync-all-stmt", 5);
  (L "sync-images-stmt", 5);
  (L "sync-memory-stmt", 5);
  (L "sync-stat", 1);
  (L "sync-team-stmt", 5);
  (L "target-decl", 1);
  (L "target-decl-list", 1);
  (L "target-stmt", 5);
  (L "type-attr-spec", 1);
  (L "type-attr-spec-list", 1);
  (L "type-bound-generic-stmt", 5);
  (L "type-bound-procedure-stmt", 5);
  (L "type-bound-proc-binding", 1);
  (L "type-bound-proc-decl", 1);
  (L "type-bound-proc-decl-list", 1);
  (L "type-decl-attr-seq", 1);
  (L "type-declaration-stmt", 5);
  (L "type-guard-stmt", 5);
  (L "type-param-attr-spec", 1);
  (L "type-param-decl", 1);
  (L "type-param-decl-list", 1);
  (L "type-param-def-stmt", 5);
  (L "type-param-name", 1);
  (L "type-param-name-list", 1);
  (L "type-param-spec", 1);
  (L "type-param-spec-list", 1);
  (L "type-param-value", 1);
  (L "type-spec", 1);
  (L "unlock-stmt", 5);
  (L "upper-bound-expr", 1);
  (L "use-stmt", 5);
  (L "value-stmt", 5);
  (L "variable", 1);
  (L "variable-name", 1);
  (L "variable-name-list", 1);
  (L "volatile-stmt", 5);
  (L "wait-spec", 1);
  (L "wait-stmt", 5);
  (L "where-construct-stmt", 5);
  (L "where-stmt", 5);
  (L "write-stmt", 5);
  (L "<statment grammar enum upper bound>", 0);
  (L "<token grammar enum lower bound>", 0);
  (L ".AND.", 3);
  (L "=>", 3);
  (L "*", 3);
  (L "[", 3);
  (L "]", 3);
  (L ":", 3);
  (L ",", 3);
  (L "//", 3);
  (L "::", 3);
  (L "..", 3);
  (L "defined-operator", 3);
  (L "=", 3);
  (L ".EQV.", 3);
  (L ".FALSE.", 3);
  (L "-", 3);
  (L "name", 3);
  (L ".NEQV.", 3);
  (L ".NOT.", 3);
  (L ".OR.", 3);
  (L "(", 3);
  (L ")", 3);
  (L "%", 3);
  (L "+", 3);
  (L "**", 3);
  (L "==", 3);
  (L ">=", 3);
  (L ">", 3);
  (L "<=", 3);
  (L "<", 3);
  (L "/=", 3);
  (L ";", 3);
  (L "/", 3);
  (L ".TRUE.", 3);
  (L "_", 3);
  (L "|", 3);
  (L "<token grammar enum upper bound>", 0);
  (L "<CLIENT EXTENSION>", 0)
].
