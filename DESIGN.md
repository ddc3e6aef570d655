# FLPR: formal model and proofs - design

Target: lanl/FLPR (C++), pinned source in `/repo`, read as text only.  Prover: Coq 8.16.1, logical
name `Verif`, no libraries beyond Coq's own standard library.

The documents that belong together: `properties.jsonl` (the claims in English), this file (how each
is modelled and proved, what is trusted), `MANIFEST.json` (status and theorem names),
`seeded/LOG.jsonl` (wrong programs the theorems were tested against), `rocq/` (the development),
`scripts/` (the generators of the three transcribed tables).

## 1. Conventions

* Strings are `list ascii` (one element per `char`, any of the 256 bytes).  `Base.v` models the
  `std::string` operations used (`find_first_not_of`, `substr`, `erase`, ...), including their
  `out_of_range` exceptions and `npos`.
* Results are in `res A := Ok a | Throw | UB`.  `Throw`: a C++ exception leaves the function.  `UB`:
  undefined behaviour or a failed `assert` (out-of-bounds access, a `<cctype>` call on a negative
  `char`, dereferencing an `end()`, a reversed iterator range, ...).  Nothing is silently defaulted.
* Parsers and the scanner return `out A := Done a | Bad | Fuel`.  `Bad` merges `Throw` and `UB`;
  `Fuel` is the end of the recursion budget of the model.  It is excluded by theorems (C25, C28, C35),
  so it is not an outcome of the code.
* Loops are structural or fuelled, never truncated.
* Files: `X.v` model (every definition cites file and lines of `/repo`), `X_spec.v` a small
  independent specification, `X_proofs.v` lemmas, `Props_X.v` only the final theorems (named after
  the property), each with `Print Assumptions` and with concrete instances next to it.
* A property that is false of the code is refuted by a theorem `Cnn_..._refuted` (a concrete input
  computed by the model); the largest true part found is proved as `Cnn_..._partial`, or the property
  was restated to what the code does.  Section 5 lists all such findings.

## 2. What is modelled, file by file

| source (src/flpr) | model | covered | left out |
|---|---|---|---|
| File_Line.hh/.cc | `FileLine.v` | every member: analyze_free/fixed, find_trailing_*, is_* tests, operator<<, label and indentation editing, make_* | - |
| Logical_File.cc:53-285 | `LogicalFile.v`, `ReadFile.v`, `ReadFixed.v` | scan_free, scan_fixed; reading up to tokens, free and fixed format | opening files (a stream is its list of characters, `getlines` in `FormatMain.v`) |
| Logical_File.cc:287-293 | `StmtSrc.v` | make_stmts | - |
| Logical_File.cc:295-473 | `StmtEdit.v` | the wrappers that edit a statement inside the file's list of lines (they call the Logical_Line members of `LineEdit.v`); lines and fragments by position, a lost iterator is no position | stmt_tag asserts, the contents of the statement tree |
| Logical_File.cc:475-587 | `Convert.v` | convert_fixed_to_free | - |
| Logical_Line.hh/.cc | `LogicalLine.v`, `Stmts.v`, `Lexer.v`, `LineEdit.v`, `Smash.v`, `LineCopy.v` | constructor, init_from_layout, tokenize, init_stmts, has/remove_empty_statements, unsmash, replace/insert/remove_fragment, split_after, text_from_frags, labels and leading spaces | debug printing |
| Line_Accum | `LineAccum.v` | all | - |
| Token_Text, LL_TT_Range | `Token.v` | text, tag, lower-case cache, unkeyword, render, positions | - |
| Syntax_Tags, Syntax_Tags_Defs | `Tags.v` (generated), `SyntaxTags.v` | the whole table and the registry | - |
| Smash_Hash.hh | `SmashTab.v` (generated), `Smash.v` | hash, word list, lookup | - |
| Label_Stack.hh | `LabelStack.v` | all | debug printing |
| LL_Stmt, LL_Stmt_Src | `StmtSrc.v`, `Indent.v`, `StmtWalk.v` | refill/advance, prefix lines, labels, set_leading_spaces, the statement's tree and kind | - |
| Safe_List.hh, SL_Range | `SafeList.v` | all operations used | allocator plumbing, `const` duplicates |
| Tree.hh | `Tree.v` | nodes, links, cursors, graft/emplace/swap/clear/erase | - |
| TT_Stream | `TTStream.v` | all | debug printing |
| Stmt_Parsers.hh, Stmt_Tree, Parser_Result | `Peg.v` | every combinator | - |
| parse_stmt.cc | `StmtRules.v`, `StmtGrammar.v` (generated), hand-written parsers in `Peg.v`, `StmtParser.v` | all 284 parser functions, dispatch, is_action_stmt, get_stmt_tree semantics | - |
| Stmt_Parser_Exts | `Peg.v` | registered extensions as arbitrary functions | - |
| Prgm_Parsers_utils.hh, Prgm_Parsers_impl.hh, Prgm_Tree | `Prgm.v`, `PrgmSource.v` | every combinator, all 40 rules, Legacy_Do | relinking of node pointers on hoist (see below) |
| Range_Partition.hh | `RangePartition.v` | all | - |
| Procedure.hh | `RangePartition.v` (emplace_stmt only), `Procedure.v`, `ProcRegions.v`, `StmtWalk.v`, `Caliper.v` (scan_out_labels) | emplace_stmt 175-187, ingest, the regions, clear, name, rename, the text of complete_end_stmt | the order in which C++ evaluates the two arguments in range() |
| Procedure_Visitor.hh | `Visitor.v` | all; the action is an arbitrary truth-valued function that leaves the tree alone | - |
| scan_fort.l | `LexTab.v` (generated), `Regex.v`, `Lexer.v` | every rule and start condition | flex's tables; its documented semantics is modelled instead |
| Indent_Table, Parsed_File.hh:104-252 | `Indent.v`, `Hooks.v` | tables, build_tree_, the hooks, indent, indent_recurse_ | fixed-format `indent` beyond C30 |
| utils, File_Info | `Utils.v` | all | - |
| apps/flpr_format_base.cc, apps/flpr-format.cc | `FormatApp.v`, `FormatMain.v`, `FormatFiles.v` | remove_empty_stmts, split_compound_stmts; the options, flpr_format_file, write_file; main() on all the files of the command line | messages, timing, usage text |
| apps/ext_demo.cc | `ExtDemo.v` | write_comma_stmt, write_comma_stmt_mytag and their registration; not the printed lines |
| apps/caliper.cc, apps/module_base.cc | `Caliper.v`, `StmtWalk.v` (exclude_procedure, has_call_named, find_use_module_name) | count_return_stmts, convert_return_stmts, caliper_procedure and Module_Action, on the list of statements | leading spaces, insertion into the file and the regions (C22, C64, C65), do_file, write_file, main |
| apps/flpr_show_cst.cc, Tree.hh:259-270, Stmt_Tree.cc, LL_Stmt.cc:84-106 | `ShowCst.v` | the program, the printing of trees and statements | what goes to std::cerr |
| apps/parse_files.cc, apps/module.cc, module_base.cc do_file, flpr-format's getopt | `Drivers.v` | the programs, with getopt (glibc, "f:") and a file system; module's action on a file is any function | messages to std::cerr, links between files, errors in writing |
| caliper.cc main, caliper_file, the tests in front of both actions | `CaliperMain.v` | all; a file is what the constructor of Parsed_File makes of it | messages |
| ext_demo.cc main | - | - | the driver (prints the results of the extension) |

Simplifications common to several parts:

* `int`, `size_t` and iterators' distances are `Z` or `nat`: no overflow (files beyond 2^31 lines).
  Where the code relies on unsigned wrap-around (`substr` length underflow, `max_llen` 0) it is modelled
  explicitly.
* Iterators are indices or node identities; an iterator that would be invalid is `UB`.
* Memory exhaustion, file I/O and iostream formatting beyond writing the fields are not modelled.
* The program parser: the second parse of a loop-closing statement (`Legacy_Do`) is a fresh parse of that
  statement, justified by C23/C24 (a failed parse restores the stream).  Pointers from tree nodes to
  their parents are covered by `Tree.v` (C17), not repeated in `Prgm.v`.  The field `p_left` counts
  parsers that gave up midway without rewinding; it is ghost state used to state C28.
* The scanner: flex's rule (longest match, first rule on ties, start condition kept between buffers)
  is taken from flex's documentation; 8-bit scanner.
* Indentation: `file_indent` on a file that has no tree is `Bad` (the code dereferences a null tree).

## 3. Property table

| id | property | model | proof | status |
|---|---|---|---|---|
| C01 | Free-format line analysis loses no characters | `FileLine` | split lemmas on find/substr | proved |
| C02 | Trailing comment/continuation detection respects character context | `FileLine` | loop invariant against a declarative character-context automaton | proved |
| C03 | Free-format field shape | `FileLine` | same automaton, field shapes by cases | proved |
| C04 | Reading and printing a free-format file is the identity | `LogicalFile` | induction on the remaining lines | proved |
| C05 | Logical lines partition the physical lines | `LogicalFile` | same induction, measure N - current line | proved |
| C06 | A statement is never split or merged by the scanner | `LogicalFile` | block description in LogicalFile_spec, same induction | partial |
| C07 | Fixed-format text beyond the last column is not Fortran text | `FileLine` | case analysis of analyze_fixed; counterexample by computation | partial |
| C08 | Fixed-format line analysis preserves text up to documented normalisation | `FileLine` | case analysis of analyze_fixed | proved |
| C09 | Line accumulator positions map back to the source text | `LineAccum` | invariant over the fold of add_line | proved |
| C10 | Statements of a logical line are the non-empty segments between semicolons | `Stmts` | induction over fragments; spec = split at semicolons | proved |
| C11 | has_empty_statements is exact | `Stmts` | as C10 | proved |
| C12 | remove_empty_statements keeps statements and removes exactly the redundant semicolons | `Stmts` | as C10, on the fragment list | proved |
| C13 | Label_Stack tracks nesting of shared DO labels | `LabelStack` | simulation with a plain stack that keeps one bit per entry | proved |
| C14 | Statement sequence of a file | `StmtSrc` | refinement of the source to a flat_map | proved |
| C15 | Sentinel list and ranges stay consistent | `SafeList` | operation-by-operation refinement to a plain sequence | proved |
| C16 | SL_Range size and bounds | `SafeList` | as C15 for ranges | proved |
| C17 | Tree parent/child links are always consistent | `Tree` | invariant over histories of a store of trees with explicit links | proved |
| C18 | Tree cursors navigate faithfully | `Tree` | zipper view of a cursor; traversal = preorder | proved |
| C19 | Token stream marks and rewinds exactly | `TTStream` | step lemmas; the stream is a cut list | proved |
| C20 | move_to_close_paren stops at the matching parenthesis | `TTStream` | depth-counting specification | partial |
| C21 | Smashed keyword recognition is exact | `SmashTab, Smash` | reduction by length, then comparison with the table, all strings | proved |
| C22 | Range partitions stay contiguous and ordered | `RangePartition` | invariant over legal histories; counterexamples | partial |
| C23 | Failed statement parses leave the token stream untouched | `Peg` | induction on fuel, all grammars | proved |
| C24 | Statement parse trees cover exactly the consumed tokens | `Peg` | as C23; coverage relation on trees | proved |
| C25 | Statement parsing terminates | `Peg, StmtGrammar` | rank and nullability certificate checked by reflection | proved |
| C26 | Alternatives are ordered choice | `Peg` | big-step semantics of parsing expressions, equivalence | proved |
| C27 | Statement-level parse accepts only whole statements | `Peg, StmtGrammar` | "ends at eol" analysis checked by reflection | partial |
| C28 | Program tree contains every statement once, in order | `Prgm, PrgmSource` | induction on fuel; tiling relation on program trees | proved |
| C29 | Labelled DO loops terminate at the right statement | `Prgm` | induction on the description of nests (PrgmLoops_spec) | proved |
| C30 | Indentation changes only leading white space | `FileLine` | case analysis of set_leading_spaces | partial |
| C31 | Indentation depth equals construct nesting | `Indent, ReadFile` | tree induction; unique level of each statement | proved |
| C32 | Continuation marks can be added and removed safely | `FileLine` | case analysis | proved |
| C33 | Converting a line to comment or blank keeps the comment | `FileLine` | case analysis | partial |
| C34 | Setting and clearing statement labels | `FileLine` | case analysis | partial |
| C35 | Lexical tokens tile the statement text | `Regex, LexTab, Lexer` | longest-match theorem for the matcher; induction on the remaining input | proved |
| C36 | Token positions point at the token text in the layout | `Lexer, LineAccum` | C35 composed with C09 | partial |
| C37 | Editing a fragment changes only that fragment | `LineEdit` | position invariant ("tokens stand where they say") | partial |
| C38 | File type is determined by the extension | `Utils` | case analysis of the name | partial |
| C39 | Fixed-to-free conversion preserves the program text | `Convert` | per-line invariants, then re-reading with the C04/C05 machinery | partial |
| C40 | String utilities | `Utils` | induction | proved |
| C41 | Token_Text lower-case cache is coherent | `Token` | invariant over histories | proved |
| C42 | Splitting a compound line preserves the statements | `LineEdit` | position invariant on both halves | partial |
| C43 | Syntax tag extension registry | `SyntaxTags` | invariant over registration histories | proved |
| C44 | Parser extensions are tried in registration order | `Peg` | induction over the registered list | proved |
| C45 | Expression scanning balances brackets | `Peg` | depth-counting specification | proved |
| C46 | Re-flowing text keeps the tokens | `LineEdit` | loop invariant of text_from_frags | partial |
| C47 | Labelling keeps the statement column when there is room | `FileLine` | case analysis | partial |
| C48 | The label of a logical line is the number in its label field | `LogicalFile` | case analysis of the control field | proved |
| C49 | Reading and printing a fixed-format file | `LogicalFile` | C08 lifted by the scan induction | partial |
| C50 | unkeyword changes exactly the keyword tokens | `Token` | induction | proved |
| C51 | render prints texts with the recorded gaps | `Token` | induction | proved |
| C52 | Backward and bracket scans find the partner | `TTStream` | depth-counting specification | proved |
| C53 | Statement parsing has no undefined behaviour and stays inside the statement | `Peg, StmtGrammar` | safety invariant of all combinators, reflection over the grammar | partial |
| C54 | Dispatch returns the statement asked for | `StmtParser` | reflection over the dispatch table | partial |
| C55 | is_action_stmt and action_stmt agree | `StmtParser` | reflection | proved |
| C56 | Tokens of a line do not depend on earlier lines | `Lexer` | commutation of the start condition with lines | partial |
| C57 | Inserting text beside a token | `LineEdit` | position invariant | partial |
| C58 | Replacing part of a statement | `LineEdit` | position invariant; ranges over several lines in `Props_LineRange` | partial |
| C59 | Program trees follow the grammar | `Prgm`, `PrgmTree_spec` | the grammar as regular expressions over parts; invariant of every combinator | proved |
| C60 | The visitor calls its action once on every procedure, in order | `Visitor` | shape of trees from C59, zipper cursors | proved |
| C61 | The regions of a procedure are its statements | `Procedure`, `RangePartition` | shape of trees from C59, ranges from C28, regions from the partition's invariant; C62 keeps END statements out of the execution part | proved |
| C62 | Statements of different kinds are told apart | `StmtGrammar` | an analysis of the parsers on the first tokens (`StmtPrefix.v`), proved sound, computed on the tables | proved |
| C63 | Splitting a compound line keeps the file's statements and lines together | `StmtEdit` | invariant `in_sync`: stored statements are those of make_stmts on the lines | proved |
| C64 | A new statement comes where it was asked for | `StmtEdit` | same invariant, prefix lists by reverse induction on the lines | proved |
| C65 | Editing a statement changes only that statement | `StmtEdit`, `LineEdit` | same invariant; editors keep the label of the first layout line | partial |
| C66 | Statement trees follow the grammar | `Peg`, `StmtGrammar` | derivation trees of the tables (`StmtTree_spec.v`); induction on the combinators | proved |
| C67 | The kind and the tree of a statement | `StmtWalk` | shapes of trees from C66, covers from C24, end of the condition from the break functions | proved |
| C68 | The name of a procedure | `StmtWalk`, `LineEdit` | shapes of trees from C66; C37 for the edit | proved |
| C69 | Applications find what they look for in statements | `StmtWalk` | shapes of trees from C66; the argument list from consume of matched parentheses | proved |
| C70 | A statement can be taken to its node in the program tree | `Hooks` | induction over the tree: the last writer of a hook is the rightmost leaf; every statement has a leaf by C28 | proved |
| C71 | flpr-format puts every statement on its own line | `FormatApp` | induction over the statements of a line, C46 for each text | partial |
| C72 | A procedure with calipers is left through caliper_end only | `Caliper` | case analysis on the RETURN at the end, induction over the statements, descent of the label | partial |
| C73 | A USE statement is added exactly where it is needed | `Caliper` | induction over the statements | proved |
| C74 | flpr-format gives the file back unless it changed it, and keeps its statements | `FormatMain` | composition of C31, C70, C71 and the print-back lemma of C70 | partial |
| C75 | An indented file, written and read again, is the same program | `FileLine`, `LogicalFile`, `Lexer`, `ReadFile`, `Indent`, `FormatMain` | a relation between a line and its indented form (`drift`) under which analysis, grouping, accumulation and tokenising agree; induction over the calls of the indentation | proved for tidy files, refuted for others |
| C76 | The parse depends only on the kinds of the tokens and their texts up to case | `Peg`, `StmtGrammar`, `TTStream`, `Prgm`, `PrgmSource`, `StmtSrc`, `FormatMain` | a simulation between streams on alike tokens through every combinator and special rule; extensionality of the program parsers; composed with C75 | proved; extensions are assumed to look at no more (`fair_ext`), every rule of the grammar is shown to |
| C77 | Indenting twice is indenting once | `Indent`, `FileLine`, `LineEdit`, `FormatMain` | a line that was set to a level stays there (`still`, `settled`); calls on one statement agree in the level, so later calls keep what earlier ones did; composed with C75 and C76 | proved where every statement hangs at one level, refuted for tables that indent old DO bodies |
| C78 | Case does not matter | `FileLine`, `LogicalFile`, `ReadFile`, `ReadFixed`, `Lexer`, `Smash`, `Prgm`, `FormatApp`, `Convert`, `Indent`, `FormatMain` | putting every letter into lower case commutes with each function from the analysis of a line to the written file; C76 for the parse | proved, lines holding #flpr excepted |
| C79 | flpr_show_cst shows exactly the readings of a statement | `ShowCst` | C23 for the shared stream, induction over the tags; unique readability of printed trees | partial (printing of comparison signs) |
| C80 | A converted fixed-format file is the same program | `Convert, ReadFixed, ReadFile` | a blank between two tokens changes no token (simulation of the scanner's calls); iterated over the joined lines; composed with C39 and C76 | partial (real literals cut between their parts; the limits of C39) |
| C81 | flpr-format treats each file of its command line by itself | `FormatFiles` | the table's entries that are ever written are written for every file; the grammar ends every program in an END statement, whose last token is no part of a real literal, and the filters keep the tokens, so the scanner is back in its first state after every file that is parsed | proved |
| C82 | An extension changes only what it adds | `ExtDemo`, `Peg`, `PrgmSource` | extensionality of the parsers in the extensions, where these decline; the parts of WRITE one by one, uniqueness of the matching parenthesis | proved |
| C83 | parse_files: each file as if alone, right numbers | `Drivers`, `FormatFiles`, `PrgmTree` | C81's account of what a file leaves in the scanner; C59 for the root of the tree | partial: refuted as stated |
| C84 | module keeps the originals | `Drivers` | induction over the files, with an arbitrary action and file system | partial: refuted for a file named twice |
| C85 | module's command line | `Drivers` | an inductive grammar of command lines, equivalent to getopt | partial: `-f names` alone is undefined |
| C86 | caliper and module work on the outermost procedures with an execution part | `CaliperMain`, `Visitor`, `Procedure` | composition of C60 (the visits) and C61 (the regions); the shape of a procedure's first statement | partial: a main program that is just END is undefined |
| C87 | The statements of a line are its own tokens, also in a copy | `LineCopy` over `SafeList` | the runs of nodes between semicolons with the node behind each; the map of identities from a list to its copy; C15 for the lists | proved (copying a line moved from is undefined: refuted corner) |
| C88 | Asking a procedure for its regions, and using the object again | `ProcRegions` over `Procedure`, `RangePartition` | the invariant of C22 kept by every call; the positions from the lengths of the regions before; clear() gives the invariant of a new object | proved |
| C89 | The label of a labelled DO is the number written after DO | `do_label` in `Prgm`, `StmtGrammar`, `DoLabel_spec` | the shape of every tree of do_stmt, from the leaves of the tree (C44); the written label is read from the tokens alone | proved |
| C90 | unspace_main, size and make_preprocessor of a line | `FileLine`, `LineSpace_spec` | every text is blanks, or a text between blanks; the finds on such a text | partial |
| C91 | append_comment of a logical line | `LineEdit.append_comment`, `FileLine` | the fields by cases; the printed line is read again with `analyze_free`: its first break is where the new end begins | partial |
| C92 | comments keep their column in set_leading_spaces | `FileLine` | how far the main text moves is the offset of `sls_left`; `sls_right` by cases | partial |

Every listed property could be expressed.  For those marked partial the note in `MANIFEST.json` says what is
missing or false; most are false of the code as stated (section 5) and proved in the largest form found.

## 4. Trusted base

* Coq's kernel (and its virtual machine: many ground facts are settled by `vm_compute`).
* `Print Assumptions` answers "Closed under the global context" for every theorem in the `Props_*.v`
  files: no axioms, neither own nor of the standard library.  (A listing of everything loaded also shows
  `Coq.ssr.ssrunder.Under_rel.*`: these are sealed definitions of Coq's own ssreflect plugin library,
  none of the theorems depends on them.)
* The hand translation of the cited C++ lines, and the four generators in `scripts/`
  (`gen_tags.py`, `gen_smash.py`, `gen_lex.py`, `gen_stmt_grammar.py`), whose output is committed, so the
  build does not depend on them.  They transcribe text; they prove nothing.
* The reading of the C++ standard and of flex's manual where section 2 says so.
* The statements of the theorems together with their `_spec.v` vocabulary.

No OCaml code, no plugins, no module types or functors, no switched-off checks.

## 5. Findings: where the code does not do what one would expect

Each is a theorem `..._refuted` (or part of one) unless marked (text).

Lines and files
* C06: a preprocessor line inside a continued statement, or the end of the file, splits it; a fixed-format
  statement can end in a blank continuation line.
* C07: a statement starting beyond the last column is taken as statement text (`substr` underflow).
* C30: unindenting `x = 1 & ! c` throws; a fixed-format comment loses text; a fixed-format continuation line
  reads an uninitialised offset; changes are reported twice.
* C32: continuing a line with an open literal inserts a blank into the literal.
* C33: make_comment_or_blank loses the comment on every line.  C34: set_label(0) writes label 0.
* C38: `.F90` is taken as fixed format.  C40: tolower/toupper/trim are undefined on bytes above 127.
* C47: in fixed format a label moves statements beyond column 13.
* C49: lines absorbed into a backslash-continued preprocessor line are not printed back.

Tokens and statements
* C12: remove_empty_statements without init_stmts.  C14: a suppressed line with statements asserts.
* C35: `1.eq.2` is read as `1.` `eq` `.2`.  C56: the flex start condition survives the end of a line.
* C36: token positions are wrong after comment lines inside a statement (indices count only the
  non-trivial lines), for the halves of smashed keywords (uninitialised), after form feeds, and for the first
  token of text that begins with white space (made by inserting blanks at the front).
* C41: a reference kept from mod_text() makes lower() stale.
* C43: is_name reads outside the table for extension tags.

Containers
* C13: level queries are not pure after pop.  C15: remove_if true of the default value; moved-from lists.
* C16: the documented insert + push_back protocol asserts.  C17: rvalue graft leaves the donor unusable; check() of an empty tree made with Tree(false) fails its assertion (`C17_empty`).
* C19: peek beyond the end.  C20/C52: move_to_close_paren skips the token after "(";
  ignore_bracket_expr always answers false.
* C22: active() is false with exactly one region in use; insert compares with begin() of the whole range;
  Procedure::emplace_stmt passes its iterators swapped.

Statement parsers
* C23: a bare neg and procedure_designator called directly do not restore the stream.
* C27: import_stmt and interface_stmt have a misplaced parenthesis, so eol() is an alternative by itself.
* C53: variable -> function_reference -> procedure_designator goes to the last ")" of the statement and back; for
  legal Fortran such as `read (5,*)`, `write(*,*)`, `deallocate(x, stat=ierr)`, and for the first statement
  of every WHERE and FORALL construct this makes a reversed range.
* C54: sync_images_stmt builds a sync-all-stmt node.
* consume_parens asserts on an unbalanced "(" (part of C53's hypotheses).

Program parser
* C28: parsers that give up midway do not rewind; truncated programs dereference past the end.
* C29: a nonlabel DO closed by `100 end do` asserts; `do 10` closed by an unlabelled `end do` leaks label 10.
* The last statement of a shared DO loop occurs once per nested loop (part of C28's statement).
* C60: the parsers accept procedures inside internal procedures; the visitor does not visit those.
* C61: Procedure::ingest fails its assertion for a procedure of a single statement, such as a main program that is just END.
* C62: ELSE WHERE is taken by else_stmt too, with WHERE as the construct name; the order of the alternatives decides.
* C63/C65: after split_compound_before the statement in front of the split keeps an end iterator to the erased semicolon, so
  append_stmt_text on a statement followed by another on its line is always undefined (this is what
  Procedure::complete_end_stmt does to `end; subroutine t`).
* C64: emplace_ll_stmt at ll_stmts.end() is undefined: the sentinel has no line.
* C65: replace_stmt_substr and insert_text_after count from the statement's first token but apply the count from the
  line's first token: wrong after a leading semicolon.
* C65: a statement that is not the first of a labelled line cannot be edited: the split-off line says it has a label.
* C70: Parsed_File::build_tree_ takes the root of the parse tree even when program() has failed and the tree is empty, so a
  file that does not parse is undefined behaviour instead of a bad state.
* C67: a tree that was dropped cannot be made again for END DO of a labelled loop and for statements of action-statement
  extensions (assertion); for an assignment, WHERE or FORALL statement parsed inside a construct it comes back with another root.
* Parsed_File::read_file returns
  bad_state_ inverted (text).

Editing
* C37: replace_fragment does not update the token's own end column; comment lines misdirect it;
  smashed keywords are undefined.  C57, C58: likewise; replace_stmt_substr on a continued line removes the `&`;
  the only token of a line throws.
* C42: split_after changes continued literals on re-reading, leaves a label flag, keeps a
  semicolon that starts the next line, and asserts comparing a line index with the number of tokens.
* C71: split_compound_stmts gives every new line the label of the old one, so a labelled compound line becomes several
  lines with the same label; comments at the end of the line are repeated; remove_empty_stmts tests `!has_fortran()` and so
  never removes an empty statement.
* C72: caliper leaves jumps to a labelled END statement as they are, so they go past caliper_end; `return 1` and
  `return 2` become the same jump.  Every insertion by Procedure::emplace_stmt is undefined (C22).
* C73: Module_Action reports a change, and the file is rewritten, although the USE statement was there.
* C74: Options does not initialise do_output_, so flpr-format without -o and -q reads an indeterminate value;
  Parsed_File::read_file returns true exactly when reading failed; a file that is not a program aborts in
  prefetch_parse_tree, although only its lines were asked for; splitting a compound line with `goto` (or another keyword
  made of two) inside a statement reads blanks that were never set.
* C79: flpr_show_cst tries every parser on every statement, so it runs into the undefined behaviour of C53 for `read (5,*)`;
  the printed form of a tree with `<=` and `>` among its labels is also that of another tree.
* C78: the directives `!#flpr` are recognised in lower case only, although their include-line and fixed-comment neighbours are
  compared without regard to case.
* C77: a table that indents DO bodies moves the last statement of shared DO loops once per loop, and tabs between it and its
  comment are lost only in the second run; `set_leading_spaces` returns true for a line with tabs before '&' that it cannot move,
  so that `flpr-format -i` rewrites such a file each time.
* C75: indentation takes blanks away behind the '!' of a comment in column 1, so that `!      #flpr x` becomes the directive
  `!#flpr x`; it puts blanks before a continuation line that begins in column 1 without '&', so a name or character constant
  that goes on there is changed.
* C46: text_from_frags loses tokens written onto blank lines, breaks literals, asserts from column 76 on.
* C80: a real literal continued between its parts (`1.0` on one line, `e3` on the next) is one token after another for the
  conversion, which writes no '&' on the second line: `x = 1.0e3` becomes `x = 1.0 e3`.
* C81: the exit status of flpr-format is 0 even if none of the files could be read (`C81_status_refuted`).
* C82: an extension that accepts a statement of another kind takes it away from the program parser (END as an action
  statement: the program is no longer parsed, `C82_any_refuted`).
* C83: parse_files reads a file in another way if the one before ends in a real literal and is not parsed: the scanner is
  left in `real_parse`, and a name like `d1` at the start is an exponent (`C83_alone_refuted`).  A file without statements
  (comments only) makes program() look at the statement behind the last one.  The exit status is always 0.
* C84: module renames a file to .bak whenever a call is found, even if nothing is inserted.  A second run, or the same name
  twice, overwrites the backup with the changed file.
* C86: caliper returns 2 and writes nothing for a file in which there is nothing to change; a main program that is just END
  fails an assertion (C61).
* C65: replace_stmt_text by a statement of the same kind keeps the tree of the old statement, whose tokens are gone:
  set_stmt_syntag drops it only when the kind changes (`C65_tree_refuted`).
* C87: a Logical_Line that has been moved from cannot be copied before clear(): its fragments have no sentry.
* C88: rename() of a main program without a PROGRAM statement measures a distance backwards (undefined); where lists are rings the
  new statement is in the file, but the procedure still has no first statement and name() is empty.  ingest() on an object that was not
  cleared fails an assertion, whatever the procedure.
* C89: a DO whose label does not fit an int is accepted, and the program parser then throws std::out_of_range (`C89_big_refuted`).
* C90: unspace_main() drops the blanks in front of the main text; its comment says that they go to left_space (`C90_lost_refuted`).
* C91: append_comment() on a line whose character literal goes on in the next line writes the comment into the literal; the printed line is rejected when read again (`C91_literal_refuted`). Padded comments end in column 71, one short of the 72 in the code, because main_first_col() counts from 1 (`C91_fields`).
* C92: set_leading_spaces() to the left throws where the comment stands further behind the '&' than there are blanks in front of the '&': the position of '!' in right_txt is used in right_space (`C92_left_refuted`, for every such line without left text).
* C15: remove_if with a predicate true of the default value and of every element is undefined behaviour, std::prev of the end of an empty list (`C15_remove_all_refuted`).
* C85: `module -f names` makes a std::string of the null pointer at the end of argv.  A missing file of names is passed over.
* C39: smashed keywords, tokens cut by a comment line, a zero in column 6, directives not starting with
  '!', empty continuation lines, literals running past the last column.  A label glued to its statement stays
  glued (text).
* C31: a comment after '&' makes indentation throw; bodies of non-block DO and FORALL are never indented;
  a shared terminator gets the level of the outermost loop.

## 6. How the theorems were tested

`seeded/LOG.jsonl` records each wrong program tried: one edit of a model definition in a scratch copy, the claim it
breaks, the theorems that failed to build, and what was tightened when none did.
