{
 "claims": [
  {
   "property": "C01",
   "status": "proved",
   "theorems": [
    "C01_free_lossless",
    "C01_free_defined"
   ],
   "note": "all bytes; definedness needs 7-bit text (negative char passed to ctype is UB in the code)"
  },
  {
   "property": "C02",
   "status": "proved",
   "theorems": [
    "C02_free_cut",
    "C02_free_left_unique",
    "C02_free_rejects_iff"
   ],
   "note": "cut position, rejection and open_delim"
  },
  {
   "property": "C03",
   "status": "proved",
   "theorems": [
    "C03_free_shape",
    "C03_free_classes",
    "C03_free_literal"
   ],
   "note": "field shape, flags and classification"
  },
  {
   "property": "C04",
   "status": "proved",
   "theorems": [
    "C04_free_scan_print_identity"
   ],
   "note": ""
  },
  {
   "property": "C05",
   "status": "proved",
   "theorems": [
    "C05_partition_free",
    "C05_partition_fixed",
    "C05_abut_free",
    "C05_abut_fixed",
    "C05_terminates_free",
    "C05_terminates_fixed",
    "C05_defined_free",
    "C05_defined_fixed"
   ],
   "note": "definedness needs 7-bit text"
  },
  {
   "property": "C06",
   "status": "partial",
   "theorems": [
    "C06_free_blocks_partial",
    "C06_fixed_blocks_partial",
    "C06_reformat_free",
    "C06_reformat_fixed",
    "C06_never_split_refuted",
    "C06_open_end_refuted",
    "C06_fixed_trivial_end_refuted"
   ],
   "note": "Block structure proved exactly; false parts of the claim refuted: a preprocessor line inside a continued statement or end of file splits it; a fixed statement can end in a blank continuation line."
  },
  {
   "property": "C07",
   "status": "partial",
   "theorems": [
    "C07_fixed_beyond_refuted",
    "C07_fixed_beyond_partial"
   ],
   "note": "false as stated: when the first statement character lies beyond last_column it becomes statement text (substr underflow); proved for every line whose statement starts within last_column"
  },
  {
   "property": "C08",
   "status": "proved",
   "theorems": [
    "C08_fixed_lossless",
    "C08_fixed_other_lossless",
    "C08_fixed_no_tab",
    "C08_fixed_tabs",
    "C08_fixed_classes",
    "C08_fixed_defined"
   ],
   "note": "All raw lines."
  },
  {
   "property": "C09",
   "status": "proved",
   "theorems": [
    "C09_char_position",
    "C09_cover",
    "C09_text",
    "C09_separator_position",
    "C09_short_form"
   ],
   "note": "int modelled as Z"
  },
  {
   "property": "C10",
   "status": "proved",
   "theorems": [
    "C10_init_stmts"
   ],
   "note": ""
  },
  {
   "property": "C11",
   "status": "proved",
   "theorems": [
    "C11_has_empty"
   ],
   "note": ""
  },
  {
   "property": "C12",
   "status": "proved",
   "theorems": [
    "C12_remove_empty",
    "C12_uninitialised_refuted"
   ],
   "note": "fragment level; requires initialised statements (as scanning leaves them); without init_stmts the claim is refuted"
  },
  {
   "property": "C13",
   "status": "proved",
   "theorems": [
    "C13_label_stack",
    "C13_without_pop",
    "C13_queries_are_pure_refuted"
   ],
   "note": "exact cached semantics"
  },
  {
   "property": "C14",
   "status": "proved",
   "theorems": [
    "C14_make_stmts",
    "C14_suppressed_statements_refuted"
   ],
   "note": "for lines where those with statements are neither suppressed nor macro lines; a suppressed line with statements is refuted (assertion)"
  },
  {
   "property": "C15",
   "status": "proved",
   "theorems": [
    "C15_safe_list",
    "C15_copy",
    "C15_remove_if_default_refuted",
    "C15_remove_all_refuted",
    "C15_moved_from_refuted"
   ],
   "note": "legal histories; refuted corner cases (remove_if true of the default value, moved-from list)"
  },
  {
   "property": "C16",
   "status": "proved",
   "theorems": [
    "C16_constructors",
    "C16_whole_list",
    "C16_empty_last",
    "C16_push_back",
    "C16_push_front",
    "C16_insert_elsewhere",
    "C16_update_end",
    "C16_update_end_empty",
    "C16_insert_then_push_back_refuted",
    "C16_equal"
   ],
   "note": "documented insert+push_back protocol refuted; update_end+push_back proved"
  },
  {
   "property": "C17",
   "status": "proved",
   "theorems": [
    "C17_histories",
    "C17_empty",
    "C17_moved_donor_refuted"
   ],
   "note": "legal histories of constructions, emplaces, erases, swaps, grafts, clears; rvalue graft leaves the donor unusable (refuted corner)"
  },
  {
   "property": "C18",
   "status": "proved",
   "theorems": [
    "C18_moves",
    "C18_round_trips",
    "C18_try",
    "C18_traversal"
   ],
   "note": ""
  },
  {
   "property": "C19",
   "status": "proved",
   "theorems": [
    "C19_histories",
    "C19_queries",
    "C19_rewind_restores",
    "C19_put_back_undoes",
    "C19_peek_beyond_refuted",
    "C19_capture"
   ],
   "note": "peek(offset) with an offset beyond remaining+1 reads foreign tokens (refuted)"
  },
  {
   "property": "C20",
   "status": "partial",
   "theorems": [
    "C20_close_partial",
    "C20_empty_parens_refuted",
    "C20_nested_parens_refuted",
    "C20_last_paren_refuted"
   ],
   "note": "false of the code when a parenthesis directly follows the opening one, or the opening one is the last token; proved for every other statement"
  },
  {
   "property": "C21",
   "status": "proved",
   "theorems": [
    "C21_recognition",
    "C21_unsmash"
   ],
   "note": ""
  },
  {
   "property": "C22",
   "status": "partial",
   "theorems": [
    "C22_histories_partial",
    "C22_clear_partial",
    "C22_step",
    "C22_append_nothing",
    "C22_single_refuted",
    "C22_single_validate_refuted",
    "C22_front_refuted",
    "C22_emplace_refuted"
   ],
   "note": "Every legal history keeps the regions contiguous, ordered and delimited exactly; the literal claim (any history) is false of the code: with one region in use active() is false (begin/end corrupt it, insert and validate assert), inserting in front of a later region puts the element in the previous one, and Procedure::emplace_stmt passes the iterators swapped."
  },
  {
   "property": "C23",
   "status": "proved",
   "theorems": [
    "C23_expressions",
    "C23_grammar",
    "C23_rule_parser",
    "C23_neg_refuted",
    "C23_procedure_designator_refuted"
   ],
   "note": "neg outside a sequence and procedure_designator called directly do not restore (refuted, excluded in the statement)"
  },
  {
   "property": "C24",
   "status": "proved",
   "theorems": [
    "C24_expressions",
    "C24_grammar"
   ],
   "note": ""
  },
  {
   "property": "C25",
   "status": "proved",
   "theorems": [
    "C25_terminates",
    "C25_no_left_recursion"
   ],
   "note": "registered extensions are assumed to return"
  },
  {
   "property": "C26",
   "status": "proved",
   "theorems": [
    "C26_meaning",
    "C26_unique",
    "C26_alts",
    "C26_opt",
    "C26_star",
    "C26_list",
    "C26_alts_tree"
   ],
   "note": ""
  },
  {
   "property": "C27",
   "status": "partial",
   "theorems": [
    "C27_whole_partial",
    "C27_sees_end",
    "C27_import_refuted",
    "C27_interface_refuted",
    "C27_unnested_refuted"
   ],
   "note": "false of import_stmt and interface_stmt (eol() is an alternative by itself) and of statements that do not close a parenthesis; proved for all other statements"
  },
  {
   "property": "C28",
   "status": "proved",
   "theorems": [
    "C28_tiled",
    "C28_ends",
    "C28_exact",
    "C28_once",
    "C28_exact_part",
    "C28_terminates",
    "C28_source",
    "C28_all_statements_refuted",
    "C28_truncated_refuted"
   ],
   "note": "Holds for all 40 program rules and arbitrary statement parsers; C28_source discharges the hypotheses for parse_stmt.cc. The unconditional claim that success means all statements are leaves is refuted: a parser that gives up midway does not rewind."
  },
  {
   "property": "C29",
   "status": "proved",
   "theorems": [
    "C29_nests",
    "C29_loop",
    "C29_labelled_end_do_refuted",
    "C29_other_label_refuted"
   ],
   "note": "For all nests described by PrgmLoops_spec.v; the other executable constructs (associate, block, case, where, forall, select) are not in that description."
  },
  {
   "property": "C30",
   "status": "partial",
   "theorems": [
    "C30_fortran_only_blanks",
    "C30_free_column",
    "C30_free_idempotent",
    "C30_comment_only_blanks",
    "C30_free_defined_partial",
    "C30_indent_refuted"
   ],
   "note": "True for every returning call on Fortran lines and free-format comments; as stated false: unindenting 'x = 1 & ! c' throws, fixed comment loses text, fixed continuation reads uninitialised offset, continuation line reports change twice (C30_indent_refuted)."
  },
  {
   "property": "C31",
   "status": "proved",
   "theorems": [
    "C31_read",
    "C31_level_unique",
    "C31_levels",
    "C31_defined",
    "C31_file",
    "C31_brackets",
    "C31_tables",
    "C31_comment_refuted"
   ],
   "note": "Free-format files. Where a comment follows '&' the indentation may throw (C31_comment_refuted, from C30). Bodies of non-block DO loops and of FORALL have offset 0 in every table of the library (C31_tables, C31_flat_loops). Files with a WHERE or FORALL construct are outside: the statement parsers have undefined behaviour on their first statement (see C53). Fixed-format lines: see C30."
  },
  {
   "property": "C32",
   "status": "proved",
   "theorems": [
    "C32_make_continued",
    "C32_make_uncontinued",
    "C32_roundtrip"
   ],
   "note": "All lines. Side finding C32_open_literal_refuted: blank inserted into an open literal."
  },
  {
   "property": "C33",
   "status": "partial",
   "theorems": [
    "C33_comment_kept_refuted",
    "C33_comment_or_blank_partial"
   ],
   "note": "The code loses the comment on every line (proved universally); the rest of the claim is proved."
  },
  {
   "property": "C34",
   "status": "partial",
   "theorems": [
    "C34_set_label",
    "C34_set_label_defined",
    "C34_clear_label_refuted",
    "C34_clear_unlabelled_partial"
   ],
   "note": "Setting 1..99999 proved; set_label(0) writes label 0 (refuted)."
  },
  {
   "property": "C35",
   "status": "proved",
   "theorems": [
    "C35_tiles",
    "C35_case",
    "C35_word",
    "C35_literal",
    "C35_operator_refuted"
   ],
   "note": "Tiling, forms, longest match, totality and case independence for every text from every state the scanner is in between lines; words and character literals are single tokens. C35_operator_refuted records that 1.eq.2 is not split as Fortran has it (not part of the property)."
  },
  {
   "property": "C36",
   "status": "partial",
   "theorems": [
    "C36_positions_partial",
    "C36_selects_partial",
    "C36_comment_refuted",
    "C36_smashed_refuted",
    "C36_form_feed_refuted",
    "C36_leading_refuted"
   ],
   "note": "False in general: refuted for comment lines inside a layout, for smashed keywords, for form feeds and for text that begins with white space. Proved for ASCII text without NUL, newline, vertical tab and form feed that does not begin with white space."
  },
  {
   "property": "C37",
   "status": "partial",
   "theorems": [
    "C37_tokens_stand_partial",
    "C37_replace_partial",
    "C37_remove_partial",
    "C37_end_refuted",
    "C37_comment_refuted",
    "C37_smashed_refuted"
   ],
   "note": "Layout and all other tokens exact for every line whose tokens stand where they say (proved to hold after tokenizing without comment lines and smashed keywords). Refuted: own end column not updated; comment lines inside; smashed keywords."
  },
  {
   "property": "C38",
   "status": "partial",
   "theorems": [
    "C38_file_type_partial",
    "C38_preprocessed_free_refuted"
   ],
   "note": "exact type of every name proved; the claim for .F90 is false of the code (fixed format)"
  },
  {
   "property": "C39",
   "status": "partial",
   "theorems": [
    "C39_convert_stmt_partial",
    "C39_convert_other",
    "C39_reread_partial",
    "C39_smash_refuted",
    "C39_comment_refuted",
    "C39_zero_refuted",
    "C39_directive_refuted",
    "C39_mark_refuted",
    "C39_beyond_refuted"
   ],
   "note": "Proved for lines whose tokens stand in order and are not cut across a comment line, and end to end (read fixed, convert, print, read free) for standard files; the full claim is false for smashed keywords, tokens cut by a comment, a column-6 zero, non-'!' directives, empty continuation lines and literals running past the last column (refuted theorems)."
  },
  {
   "property": "C40",
   "status": "proved",
   "theorems": [
    "C40_case",
    "C40_trim",
    "C40_trim_back",
    "C40_simple_tokenize",
    "C40_case_high_bytes_refuted"
   ],
   "note": "<cctype> calls are undefined on bytes above 127 where char is signed"
  },
  {
   "property": "C41",
   "status": "proved",
   "theorems": [
    "C41_cache",
    "C41_kept_reference_refuted"
   ],
   "note": "assignments through mod_text() at once; a kept reference is refuted"
  },
  {
   "property": "C42",
   "status": "partial",
   "theorems": [
    "C42_split_here_partial",
    "C42_split_next_partial",
    "C42_split_none_partial",
    "C42_literal_refuted",
    "C42_label_refuted",
    "C42_semicolon_refuted",
    "C42_comment_refuted",
    "C42_assert_refuted"
   ],
   "note": "Proved for layouts of Fortran lines only: the tokens up to the split stay, those after the semicolons are carried to the second line, each at the same text. Refuted as stated: continued character literals change on re-reading, labelled lines leave a label flag, a semicolon on the next line stays, comment lines misdirect the split, an assertion compares a line index with the number of tokens."
  },
  {
   "property": "C43",
   "status": "proved",
   "theorems": [
    "C43_registry",
    "C43_registry_defined",
    "C43_is_name_refuted"
   ],
   "note": "type -1 is excluded (marker of a free slot)"
  },
  {
   "property": "C44",
   "status": "proved",
   "theorems": [
    "C44_order",
    "C44_which"
   ],
   "note": ""
  },
  {
   "property": "C45",
   "status": "proved",
   "theorems": [
    "C45_expr",
    "C45_length_exists",
    "C45_length_unique"
   ],
   "note": "on statements that close what they open"
  },
  {
   "property": "C46",
   "status": "partial",
   "theorems": [
    "C46_reflow_partial",
    "C46_short_partial",
    "C46_blank_refuted",
    "C46_literal_refuted",
    "C46_real_refuted",
    "C46_indent_refuted"
   ],
   "note": "Proved for layouts whose lines are Fortran lines and comments and whose text starts before column 74: total, the main texts spell the tokens in order, at most 79 columns (76 if no token is long), comments, label and indentation kept. Refuted as stated: blank lines inside the statement swallow tokens, broken character literals and real literals read differently afterwards, deep indentation fails an assertion."
  },
  {
   "property": "C47",
   "status": "partial",
   "theorems": [
    "C47_label_column_partial",
    "C47_label_column_fixed_partial",
    "C47_label_column_refuted"
   ],
   "note": "Free format proved; in fixed format proved for statements up to column 13 and relabelling, false beyond (statement in column 15 moves to 9)."
  },
  {
   "property": "C48",
   "status": "proved",
   "theorems": [
    "C48_label_free",
    "C48_label_fixed"
   ],
   "note": ""
  },
  {
   "property": "C49",
   "status": "partial",
   "theorems": [
    "C49_fixed_print_partial",
    "C49_fixed_print_refuted"
   ],
   "note": "False for lines absorbed into a backslash-continued preprocessor line; proved without trailing backslashes and without labelled lines inside an open literal."
  },
  {
   "property": "C50",
   "status": "proved",
   "theorems": [
    "C50_unkeyword",
    "C50_unkeyword_defined"
   ],
   "note": ""
  },
  {
   "property": "C51",
   "status": "proved",
   "theorems": [
    "C51_render",
    "C51_render_defined"
   ],
   "note": ""
  },
  {
   "property": "C52",
   "status": "proved",
   "theorems": [
    "C52_move_to_open_paren",
    "C52_ignore_bracket_expr"
   ],
   "note": ""
  },
  {
   "property": "C53",
   "status": "partial",
   "theorems": [
    "C53_defined_partial",
    "C53_no_final_paren_partial",
    "C53_which",
    "C53_read_refuted"
   ],
   "note": "false of the code: read (5,*) makes a reversed range. Proved for the 97 statement kinds that do not use procedure_designator and for every statement that does not end in ')'"
  },
  {
   "property": "C54",
   "status": "partial",
   "theorems": [
    "C54_tag_partial",
    "C54_table",
    "C54_sync_images_refuted"
   ],
   "note": "sync_images_stmt builds a sync-all-stmt node (refuted); proved for the other 130"
  },
  {
   "property": "C55",
   "status": "proved",
   "theorems": [
    "C55_in_sync",
    "C55_tree"
   ],
   "note": ""
  },
  {
   "property": "C56",
   "status": "partial",
   "theorems": [
    "C56_lines_independent_refuted",
    "C56_lines_independent_partial",
    "C56_left_partial"
   ],
   "note": "False in general: a line ending in a real literal leaves the scanner in real_parse. Proved for lines that cannot continue a real literal, and that only such lines have an effect."
  },
  {
   "property": "C57",
   "status": "partial",
   "theorems": [
    "C57_insert_after_partial",
    "C57_insert_before_partial",
    "C57_comment_refuted"
   ],
   "note": "Exact for layouts without comment or blank lines. Refuted with a comment line inside the statement (assertion)."
  },
  {
   "property": "C58",
   "status": "partial",
   "theorems": [
    "C58_replace_partial",
    "C58_lines_partial",
    "C58_to_end_partial",
    "C58_continued_refuted",
    "C58_alone_refuted",
    "C58_lines_refuted"
   ],
   "note": "Exact for a range within one uncontinued line with other text on it (C58_replace_partial), for a range over several lines with text behind it (C58_lines_partial) and for one that reaches to the end of the statement (C58_to_end_partial), the lines taken out having no comments. Refuted: a continued line loses its ampersand; the only token of a line (throws); ranges over commented lines."
  },
  {
   "property": "C59",
   "status": "proved",
   "theorems": [
    "C59_derives",
    "C59_one_production",
    "C59_contents"
   ],
   "note": "the productions are stated in PrgmTree_spec.v as regular expressions over tags, separately from the parsers"
  },
  {
   "property": "C60",
   "status": "proved",
   "theorems": [
    "C60_visits",
    "C60_all",
    "C60_procedures",
    "C60_third_level_refuted"
   ],
   "note": "the action is abstract: it does not change the program tree"
  },
  {
   "property": "C61",
   "status": "proved",
   "theorems": [
    "C61_regions",
    "C61_regions_exts",
    "C61_single_refuted",
    "C61_other",
    "C61_trackers"
   ],
   "note": "The single-statement case is a finding: the debug assertion fails."
  },
  {
   "property": "C62",
   "status": "proved",
   "theorems": [
    "C62_openings",
    "C62_constructs",
    "C62_names",
    "C62_ends",
    "C62_not_actions",
    "C62_apart",
    "C62_import_refuted"
   ],
   "note": "C62_not_actions is for the parsers without extensions. CASE and RANK statements are not in the comparison with action statements; IMPORT and INTERFACE statements are not in the tables because their parsers also take an empty statement."
  },
  {
   "property": "C63",
   "status": "proved",
   "theorems": [
    "C63_fresh",
    "C63_split",
    "C63_split_defined",
    "C63_isolate"
   ],
   "note": "The stored end of the statement in front of a split is lost (dangling); see C65_append_refuted for the effect."
  },
  {
   "property": "C64",
   "status": "proved",
   "theorems": [
    "C64_emplace",
    "C64_emplace_defined",
    "C64_after_prefix",
    "C64_end_refuted"
   ],
   "note": "emplace at ll_stmts.end() is undefined (C64_end_refuted)."
  },
  {
   "property": "C65",
   "status": "partial",
   "theorems": [
    "C65_edit_partial",
    "C65_tree",
    "C65_label",
    "C65_append_refuted",
    "C65_offset_refuted",
    "C65_labelled_refuted",
    "C65_tree_refuted"
   ],
   "note": "Which text the line then has is C37, C57, C58 and C47. Missing: append_stmt_text with another statement behind on the line, edits of a statement that is not the first of a labelled line, positions on a line that begins with a semicolon, the tree after replace_stmt_text by a statement of the same kind (all refuted); insert_text_after that makes two statements."
  },
  {
   "property": "C66",
   "status": "proved",
   "theorems": [
    "C66_rules",
    "C66_statements"
   ],
   "note": "StmtTree_spec.v reads the parser tables as a context-free grammar; look-ahead and order of alternatives are not part of it (C62)."
  },
  {
   "property": "C67",
   "status": "proved",
   "theorems": [
    "C67_if",
    "C67_again",
    "C67_assignment_refuted",
    "C67_end_do_refuted",
    "C67_extension_refuted",
    "C67_retag"
   ],
   "note": "The refuted theorems show the exceptions: kinds of action statements parsed directly (assignment, where, forall inside constructs) come back with another root, END DO of a labelled loop and extension statements fail an assertion."
  },
  {
   "property": "C68",
   "status": "proved",
   "theorems": [
    "C68_name",
    "C68_end",
    "C68_rename",
    "C68_complete",
    "C68_nameless"
   ],
   "note": "Lines with smashed keywords (endfunction f) do not stand where they say (C37) and are outside rename's theorem; rename of a main program without a program statement is emplace_stmt (C48, C64). The insertion of the completing text is append_stmt_text (C65)."
  },
  {
   "property": "C69",
   "status": "proved",
   "theorems": [
    "C69_call",
    "C69_if",
    "C69_other",
    "C69_use",
    "C69_exclude",
    "C69_exclude_not"
   ],
   "note": ""
  },
  {
   "property": "C70",
   "status": "proved",
   "theorems": [
    "C70_hooks",
    "C70_every",
    "C70_only",
    "C70_every_refuted",
    "C70_rejected_refuted"
   ],
   "note": "The property states the exact behaviour; C70_every_refuted and C70_rejected_refuted show the two defects: statements without a hook after a parser gave up, and undefined behaviour for a rejected file."
  },
  {
   "property": "C71",
   "status": "partial",
   "theorems": [
    "C71_split_partial",
    "C71_again_partial",
    "C71_label_refuted",
    "C71_label_text_refuted",
    "C71_remove_refuted"
   ],
   "note": "The label of a labelled compound line is duplicated (refuted); remove_empty_stmts does nothing (refuted); lines outside the domain of C46 (blank lines inside a statement, indentation beyond column 73) are left out."
  },
  {
   "property": "C72",
   "status": "partial",
   "theorems": [
    "C72_caliper_partial",
    "C72_no_return",
    "C72_labels",
    "C72_leave_partial",
    "C72_defined",
    "C72_exhausted",
    "C72_end_label_refuted",
    "C72_alternate_refuted"
   ],
   "note": "On the list of the statements of the execution part; inserting and replacing them in the file is C64/C65, and inserting into the regions is undefined as written (C22_emplace_refuted). Leaving through the last statement holds if no statement jumps to a label outside of the execution part (C72_end_label_refuted)."
  },
  {
   "property": "C73",
   "status": "proved",
   "theorems": [
    "C73_module",
    "C73_changed_refuted"
   ],
   "note": "The decision; the insertion itself is C64, and undefined for the regions as written (C22_emplace_refuted)."
  },
  {
   "property": "C74",
   "status": "partial",
   "theorems": [
    "C74_lines",
    "C74_lines_unique",
    "C74_unchanged",
    "C74_identity",
    "C74_silent",
    "C74_statements_partial",
    "C74_program_partial",
    "C74_goto_refuted",
    "C74_output_refuted",
    "C74_abort_refuted",
    "C74_read_refuted"
   ],
   "note": "Proved for all files and options, except that keeping the statements is shown without conversion from fixed format (C33, C42 are about that) and, when compound lines are split, for lines that start before column 74, have only comments between their lines and no joined keyword like goto inside a statement (there the code is undefined)."
  },
  {
   "property": "C75",
   "status": "proved",
   "theorems": [
    "C75_reread",
    "C75_tables",
    "C75_comment_refuted",
    "C75_name_refuted",
    "C75_string_refuted"
   ],
   "note": "C75_reread is about tidy files (IndentRead_spec.v), the refutations show what happens to others."
  },
  {
   "property": "C76",
   "status": "proved",
   "theorems": [
    "C76_stmt",
    "C76_fair",
    "C76_prgm",
    "C76_file",
    "C76_indented"
   ],
   "note": "Simulation of the statement parsers on alike tokens; the program parsers are a function of labels, statement trees and DO labels."
  },
  {
   "property": "C77",
   "status": "proved",
   "theorems": [
    "C77_memory",
    "C77_twice",
    "C77_format",
    "C77_once",
    "C77_shared_refuted",
    "C77_flag_refuted"
   ],
   "note": "The hypothesis one_level holds whenever no statement hangs in the tree twice (C77_once); refuted without it."
  },
  {
   "property": "C78",
   "status": "proved",
   "theorems": [
    "C78_line",
    "C78_line_fixed",
    "C78_read",
    "C78_read_fixed",
    "C78_tree",
    "C78_indent",
    "C78_format_lines",
    "C78_format_file",
    "C78_format",
    "C78_flpr_refuted"
   ],
   "note": "Lowering the case commutes with reading, tokenising, parsing, splitting, conversion and indentation. Lines holding #flpr are excepted: C78_flpr_refuted shows that directives are case-sensitive."
  },
  {
   "property": "C79",
   "status": "partial",
   "theorems": [
    "C79_kinds",
    "C79_shows",
    "C79_defined",
    "C79_program",
    "C79_print_partial",
    "C79_print_refuted",
    "C79_all_defined",
    "C79_read_refuted",
    "C79_unrecognized",
    "C79_printed"
   ],
   "note": "Full for what is shown. Partial: printed trees are unambiguous only if no label begins with a bracket (C79_print_refuted gives two trees printed alike), and READ from a unit without items is undefined behaviour (C79_read_refuted, see C53)."
  },
  {
   "property": "C80",
   "status": "partial",
   "theorems": [
    "C80_text_partial",
    "C80_tree_partial",
    "C80_flpr_format_partial",
    "C80_real_refuted"
   ],
   "note": "For standard files (C39's hypotheses) whose real literals are not continued between their parts the converted text read again has the same lines, statements, tokens and tree, and flpr-format -f -o writes it (one statement per line, no -i); the refutation shows the hypothesis on real literals is needed. Missing: files outside C39's hypotheses."
  },
  {
   "property": "C81",
   "status": "proved",
   "theorems": [
    "C81_files",
    "C81_ends",
    "C81_passed_over",
    "C81_free",
    "C81_status",
    "C81_status_refuted",
    "C81_command",
    "C81_same_command"
   ],
   "note": "Refuted, beyond the statement: the exit status does not tell that a file was not read."
  },
  {
   "property": "C82",
   "status": "proved",
   "theorems": [
    "C82_stmt",
    "C82_program",
    "C82_demo",
    "C82_accepts",
    "C82_comma",
    "C82_builtin"
   ],
   "note": "C82_any_refuted: an extension that accepts more takes statements away, e.g. END, so the hypothesis is needed."
  },
  {
   "property": "C83",
   "status": "partial",
   "theorems": [
    "C83_names",
    "C83_status",
    "C83_alone_partial",
    "C83_numbers",
    "C83_agrees",
    "C83_no_statements_refuted",
    "C83_alone_refuted",
    "C83_status_refuted"
   ],
   "note": "Refuted as stated: a file that ends in a real literal and is not parsed changes how the next one is read; a file without statements makes the parser look behind the end; the exit status is 0 whatever happens to the files. Proved: the list of files, the reports of all files that come after parsed files or files not ending in a real literal, the numbers, the agreement with Parsed_File."
  },
  {
   "property": "C84",
   "status": "partial",
   "theorems": [
    "C84_backup_partial",
    "C84_twice_refuted",
    "C84_halfway_refuted"
   ],
   "note": "Refuted for a file that is named twice (or worked on in two runs): the backup is overwritten by the changed file and the original is lost. Proved for files that are all different and no backups of each other; what is made of a file is any function of its name and contents (by C81 nothing else matters)."
  },
  {
   "property": "C85",
   "status": "partial",
   "theorems": [
    "C85_request",
    "C85_outcome_partial",
    "C85_usage_refuted",
    "C85_call_names",
    "C85_words_unique",
    "C85_missing_refuted"
   ],
   "note": "Refuted: 'module -f names' makes a std::string of the null pointer behind the arguments (C85_outcome_partial says exactly when); a missing file of names is no error. Proved: what is taken from every other command line, and the names."
  },
  {
   "property": "C86",
   "status": "partial",
   "theorems": [
    "C86_changed_partial",
    "C86_reached_partial",
    "C86_status",
    "C86_just_end_refuted",
    "C86_nothing_refuted"
   ],
   "note": "Proved for files in which every outermost procedure has at least two statements.  A main program that is just END fails an assertion in ingest() (C86_just_end_refuted).  Nothing to change counts as a failure: status 2 and no output (C86_nothing_refuted).  Which statements are excluded is C69, what is done to a procedure C72 and C73."
  },
  {
   "property": "C87",
   "status": "proved",
   "theorems": [
    "C87_init",
    "C87_copy",
    "C87_copy_init",
    "C87_assign_self",
    "C87_move",
    "C87_remove",
    "C87_moved_from_refuted"
   ],
   "note": "The moved-from case is stated in the property and proved as refuted corner."
  },
  {
   "property": "C88",
   "status": "proved",
   "theorems": [
    "C88_asks",
    "C88_last_empty",
    "C88_reuse",
    "C88_rename_refuted",
    "C88_twice_refuted"
   ],
   "note": "The parts that are false of the code are refuted: naming a main program without a PROGRAM statement, and using an object twice without clear(). last() of an empty region fails its assertion."
  },
  {
   "property": "C89",
   "status": "proved",
   "theorems": [
    "C89_label",
    "C89_program",
    "C89_big_refuted"
   ],
   "note": "do_label (get_label_do_label) on every tree of do_stmt equals the number read from the tokens; C89_program: the labels used by the program parser's loops are those written. A number beyond int throws (C89_big_refuted)."
  },
  {
   "property": "C90",
   "status": "partial",
   "theorems": [
    "C90_cases",
    "C90_unspace",
    "C90_blank",
    "C90_kept_partial",
    "C90_lost_refuted",
    "C90_size",
    "C90_preprocessor"
   ],
   "note": "Blanks in front of the main text are lost instead of going to left_space (C90_lost_refuted, for every such line). Exact effect proved for all lines; the line keeps its text without leading blanks and with only blanks in right_space. size() leaves out the padding of a fixed-format label field."
  },
  {
   "property": "C91",
   "status": "partial",
   "theorems": [
    "C91_fields",
    "C91_reread_partial",
    "C91_literal_refuted"
   ],
   "note": "Exact effect proved for all lines. Reading back is proved for free-format lines with main text and no literal open at the end of the line, for texts of 7-bit characters; with an open literal it is false (C91_literal_refuted)."
  },
  {
   "property": "C92",
   "status": "partial",
   "theorems": [
    "C92_column",
    "C92_left_refuted",
    "C92_returns"
   ],
   "note": "Proved for every call that returns. The call throws on lines with '&' and a comment further behind it than there are blanks in front (C92_left_refuted); on all other lines that the reader makes it returns (C92_returns)."
  }
 ]
}