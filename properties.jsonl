{"id": "C01", "title": "Free-format line analysis loses no characters", "statement": "If File_Line::analyze_free returns a File_Line, then writing its fields in order (left_txt, left_space, main_txt, right_space, right_txt) - which is what operator<< does - reproduces exactly the raw input line, whatever the line number, open character context, continuation state and literal-block state passed in.", "quantifier": "every raw line (any bytes, any length), every previous open delimiter, continuation flag and literal-block flag", "why_tests_cant": "The line can have any length and any mixture of quotes, '&', '!', digits, blanks; unit tests sample a few dozen shapes.", "anchors": ["src/flpr/File_Line.cc:211-327 (analyze_free)", "src/flpr/File_Line.cc:665-675 (operator<<)", "src/flpr/File_Line.cc:758-808 (find_trailing_free)"]}
{"id": "C02", "title": "Trailing comment/continuation detection respects character context", "statement": "When analyze_free splits a Fortran line, the character starting right_txt is the first '!' or '&' lying outside every character literal (taking the literal left open by the previous line into account), or, inside a literal, an '&' followed only by white space; everything before it goes to main_txt. A line is rejected (exception) exactly when it ends inside a character literal without such an '&'; open_delim names the literal still open at the '&', and is '\\0' otherwise.", "quantifier": "every raw line and every previous open delimiter", "why_tests_cant": "Requires all interleavings of two quote characters, doubled quotes, '!' and '&'.", "anchors": ["src/flpr/File_Line.cc:758-808 (find_trailing_free)", "src/flpr/File_Line.cc:301-313"]}
{"id": "C03", "title": "Free-format field shape", "statement": "For a returned Fortran line: left_space and right_space contain only white space; when no character context stays open main_txt does not end with a blank or tab; main_txt of a non-continuation line does not start with a blank; right_txt is empty or starts with '&' or '!'; the 'continued' flag is set iff right_txt starts with '&'; the label flag is set iff left_txt ends in a run of at least one digit; the continuation flag iff left_txt ends in '&'.", "quantifier": "every raw line and every context", "why_tests_cant": "Universally quantified over line contents.", "anchors": ["src/flpr/File_Line.cc:211-327 (analyze_free)"]}
{"id": "C04", "title": "Reading and printing a free-format file is the identity", "statement": "If Logical_File::scan of a free-format buffer succeeds then printing every Logical_Line in order emits exactly the input lines, in order (including literal blocks, preprocessor lines with backslash continuations, comments, blank lines).", "quantifier": "every list of input lines", "why_tests_cant": "Any number of lines and any interleaving of line classes, open contexts and continuations.", "anchors": ["src/flpr/Logical_File.cc:180-285 (scan_free)", "src/flpr/Logical_Line.cc:884-891 (print)", "src/flpr/File_Line.cc:211-327"]}
{"id": "C05", "title": "Logical lines partition the physical lines", "statement": "After a successful scan (free or fixed) every physical line belongs to exactly one Logical_Line, Logical_Lines are non-empty and appear in file order, and the line numbers stored in them are 1..N in order; start_line/end_line of consecutive Logical_Lines abut. The scan terminates on every input.", "quantifier": "every list of input lines, both formats", "why_tests_cant": "Depends on a loop with back-tracking indices over arbitrarily long files.", "anchors": ["src/flpr/Logical_File.cc:86-178 (scan_fixed)", "src/flpr/Logical_File.cc:180-285 (scan_free)", "src/flpr/Logical_Line.hh:124-135"]}
{"id": "C06", "title": "A statement is never split or merged by the scanner", "statement": "In a scanned file each Logical_Line holding Fortran text starts with a Fortran line and, in free format, ends at the first following non-trivial line that is not continued; in fixed format it extends over exactly the following continuation lines (and trivial lines between them) and never ends in a trivial line. Other Logical_Lines are homogeneous: all trivial, all literal, or one preprocessor/include line followed by backslash continuations.", "quantifier": "every list of input lines, both formats", "why_tests_cant": "Any arrangement of comments inside continuations.", "anchors": ["src/flpr/Logical_File.cc:86-285"]}
{"id": "C07", "title": "Fixed-format text beyond the last column is not Fortran text", "statement": "With last_column > 0, analyze_fixed never puts a character from beyond last_column in main_txt: they are comment text.", "quantifier": "every raw line, every positive last column and every open context", "why_tests_cant": "Needs every placement of the first non-blank relative to last_column.", "anchors": ["src/flpr/File_Line.cc:64-209 (analyze_fixed)", "src/flpr/File_Line.cc:718-751 (find_trailing_fixed)", "src/flpr/File_Line.hh:103-110"]}
{"id": "C08", "title": "Fixed-format line analysis preserves text up to documented normalisation", "statement": "For a fixed-format Fortran line (no tabs in columns 1-6, no last_column truncation) whose statement starts in column 7 or later, printing the analysed line reproduces the raw line; comment, preprocessor, include and blank lines are reproduced exactly when no tab is in the control columns.", "quantifier": "every raw line and every context", "why_tests_cant": "Any column position of label, continuation mark, blanks and quotes.", "anchors": ["src/flpr/File_Line.cc:64-209", "src/flpr/File_Line.cc:665-675"]}
{"id": "C09", "title": "Line accumulator positions map back to the source text", "statement": "After any sequence of add_line calls, for every offset of the accumulated string that holds a character of some added main text, linecolno returns true and the (text line, text column) pair identifies precisely that character in the added strings, and the file line/column are those of that character.", "quantifier": "every sequence of added lines and every offset", "why_tests_cant": "Any number of lines of any length with any spacing flags.", "anchors": ["src/flpr/Line_Accum.cc:21-92"]}
{"id": "C10", "title": "Statements of a logical line are the non-empty segments between semicolons", "statement": "Logical_Line::init_stmts yields exactly the maximal non-empty semicolon-free runs of the fragment sequence, in order; num_semicolons is the number of semicolons; the ranges' sizes are right.", "quantifier": "every fragment sequence", "why_tests_cant": "Any number and position of semicolons, incl. leading, trailing and repeated ones.", "anchors": ["src/flpr/Logical_Line.cc:692-720 (init_stmts)"]}
{"id": "C11", "title": "has_empty_statements is exact", "statement": "has_empty_statements() is true iff there is at least one semicolon and some segment between semicolons (or before the first/after the last) is empty.", "quantifier": "every fragment sequence", "why_tests_cant": "Counting argument over unbounded sequences.", "anchors": ["src/flpr/Logical_Line.hh:188-194", "src/flpr/Logical_Line.cc:692-720"]}
{"id": "C12", "title": "remove_empty_statements keeps statements and removes exactly the redundant semicolons", "statement": "After remove_empty_statements on a line, the fragments are the original non-empty statements in order, separated by single semicolons; nothing else is dropped; has_empty_statements becomes false; the return value says whether something changed.", "quantifier": "every fragment sequence", "why_tests_cant": "Any number of empty statements in any position.", "anchors": ["src/flpr/Logical_Line.cc:639-689 (remove_empty_statements)"]}
{"id": "C13", "title": "Label_Stack tracks nesting of shared DO labels", "statement": "For every history of push, pop and level queries: level(l) is -1 unless l is the top label; it is n when the run of equal labels at the top has length n>=2; for a run of length 1 it is 0, or 1 if an earlier level query saw that entry inside a longer run. is_top, size and empty agree with the plain stack. Without pops, queries never influence answers.", "quantifier": "every sequence of push, pop and query operations", "why_tests_cant": "unit tests exercise a few short sequences; the caching of levels makes answers depend on the whole history", "anchors": ["src/flpr/Label_Stack.hh:22-96"]}
{"id": "C14", "title": "Statement sequence of a file", "statement": "Logical_File::make_stmts yields exactly the non-empty statements of the unsuppressed logical lines, in file order; a statement alone in its logical line has compound index 0, otherwise 1,2,...; only the first statement of a line carries the label; the prefix of a statement is the list of statement-less logical lines between it and the previous statement.", "quantifier": "every sequence of logical lines", "why_tests_cant": "Any mix of empty, compound, suppressed lines.", "anchors": ["src/flpr/LL_Stmt_Src.cc:18-69", "src/flpr/LL_Stmt_Src.hh:62-94", "src/flpr/Logical_File.cc:287-293"]}
{"id": "C15", "title": "Sentinel list and ranges stay consistent", "statement": "After any sequence of Safe_List operations end() stays valid and dereferenceable position past all elements, size/empty count only real elements, and iteration visits exactly the elements inserted and not removed, in order.", "quantifier": "every operation history", "why_tests_cant": "Histories are unbounded; failure needs particular predicate/contents combinations.", "anchors": ["src/flpr/Safe_List.hh:20-150"]}
{"id": "C16", "title": "SL_Range size and bounds", "statement": "A range built with push_back/push_front/constructor over a list covers contiguous elements, its size() equals the number of elements from begin to end, empty() iff size 0, last() is the element before end.", "quantifier": "every list and every sequence of range operations", "why_tests_cant": "Inductive invariant over operations.", "anchors": ["src/flpr/Safe_List.hh:157-335"]}
{"id": "C17", "title": "Tree parent/child links are always consistent", "statement": "After any sequence of graft/emplace/swap/clear operations a Tree is well formed: each node's parent link points to the node whose branch list contains it, the root has no parent, size() equals the number of nodes, and grafting adds exactly the grafted tree's nodes in the position requested.", "quantifier": "every operation history", "why_tests_cant": "Pointer consistency across moves of whole subtrees over unbounded shapes.", "anchors": ["src/flpr/Tree.hh"]}
{"id": "C18", "title": "Tree cursors navigate faithfully", "statement": "For a cursor on any node: down() then up() returns to the node; next() then prev() returns to it; try_* return false and leave the cursor in place exactly when the move is impossible; a depth-first traversal using down/next/up visits every node once.", "quantifier": "every tree and node", "why_tests_cant": "All tree shapes.", "anchors": ["src/flpr/Tree.hh (TN_Cursor)"]}
{"id": "C19", "title": "Token stream marks and rewinds exactly", "statement": "On a TT_Stream, any history of consume/digest/put_back/rewind/is_eol/consume_until_eol that stays inside the statement moves the cut between consumed and remaining tokens exactly as named; rewind(mark) restores precisely the state at which mark was taken; put_back undoes consume(); digest(n) returns the n tokens consumed; curr/peek/peek(k)/peek_back/num_consumed report the tokens around the cut and change nothing; expect_tok consumes the expected token or ends the program.", "quantifier": "every token sequence and operation history", "why_tests_cant": "All histories, and all cuts of all statements.", "anchors": ["src/flpr/TT_Stream.hh", "src/flpr/TT_Stream.cc"]}
{"id": "C20", "title": "move_to_close_paren stops at the matching parenthesis", "statement": "Starting before an opening parenthesis with a matching closing one, move_to_close_paren returns true and leaves the stream just past/at the matching closing parenthesis; if unmatched it returns false.", "quantifier": "every token sequence", "why_tests_cant": "All nestings, including the empty pair '()'.", "anchors": ["src/flpr/TT_Stream.cc:110-180"]}
{"id": "C21", "title": "Smashed keyword recognition is exact", "statement": "The perfect hash used to split smashed keywords accepts exactly the 25 listed pairs of keywords and yields the right pair of tokens and split position, every other byte string is rejected without reading out of bounds; unsmash splits a name token exactly when its text, ignoring case, is such a pair, keeping the text and the file positions of both halves.", "quantifier": "every byte string; every token sequence", "why_tests_cant": "Infinitely many strings; hash collisions with non-words; embedded NULs.", "anchors": ["src/flpr/Smash_Hash.hh:80-266", "src/flpr/Logical_Line.cc:831-857 (unsmash)"]}
{"id": "C22", "title": "Range partitions stay contiguous and ordered", "statement": "After any sequence of append/insert/begin/end queries on a Range_Partition, active partitions are ordered by index, consecutive, and together cover the underlying range (validate() holds); inserting into one partition changes no other partition's elements.", "quantifier": "every operation history", "why_tests_cant": "Unbounded histories of activations in any order.", "anchors": ["src/flpr/Range_Partition.hh"]}
{"id": "C23", "title": "Failed statement parses leave the token stream untouched", "statement": "Whenever a statement-grammar parser fails - any expression built from the combinators in which neg stands directly in a sequence, over any parser functions, and every parser function of the grammar other than procedure_designator (and that one too when called through rule()) - the token stream is back exactly where the parser was entered and no tree is returned.", "quantifier": "every grammar, every combinator expression, every token sequence and position, every list of extensions that stay on their stream", "why_tests_cant": "The grammar has 284 rules; each alternative relies on this for all inputs.", "anchors": ["src/flpr/Stmt_Parsers.hh:37-360", "src/flpr/parse_stmt.cc"]}
{"id": "C24", "title": "Statement parse trees cover exactly the consumed tokens", "statement": "When a statement-grammar parser succeeds, the leaves of the tree, read left to right, are exactly the tokens consumed, each leaf bears its token's tag (or name, for a keyword used as one), and each inner node's token range is the contiguous union of its children's: for every combinator grammar without procedure_designator on every stream, and for every rule of the Fortran grammar from every place in a statement with properly nested parentheses and brackets.", "quantifier": "every grammar expression, every token sequence, every position", "why_tests_cant": "All grammar shapes and inputs.", "anchors": ["src/flpr/Stmt_Parsers.hh", "src/flpr/Stmt_Tree.cc:21-52", "src/flpr/parse_stmt.cc"]}
{"id": "C25", "title": "Statement parsing terminates", "statement": "For every token sequence, every statement rule of the Fortran grammar terminates: no left recursion and no repetition of an empty match.", "quantifier": "every token sequence, every rule of the grammar", "why_tests_cant": "Non-termination depends on the input; the rules are mutually recursive.", "anchors": ["src/flpr/parse_stmt.cc", "src/flpr/Stmt_Parsers.hh"]}
{"id": "C26", "title": "Alternatives are ordered choice", "statement": "The combinators mean what they mean in a parsing expression grammar: alts(...) returns the result of the first alternative that succeeds at the current position, under its tag, and fails iff all do; opt always succeeds; star takes successive matches until one fails; list parses one or more items separated by commas. The meaning of an expression at a place is unique.", "quantifier": "every expression with neg only in sequences, every token sequence", "why_tests_cant": "All inputs.", "anchors": ["src/flpr/Stmt_Parsers.hh"]}
{"id": "C27", "title": "Statement-level parse accepts only whole statements", "statement": "Every top-level statement parser (those used on an LL_Stmt) that succeeds has consumed the whole statement up to its end (end of tokens or a semicolon).", "quantifier": "every token sequence, every statement rule ending in eol", "why_tests_cant": "All inputs.", "anchors": ["src/flpr/parse_stmt.cc", "src/flpr/Stmt_Parsers.hh (eol)"]}
{"id": "C28", "title": "Program tree contains every statement once, in order", "statement": "Every tree that a program parser returns has consecutive statements of the file as leaves (only the last statement of a shared DO loop occurs again), and each node's statement range goes exactly from its first to its last leaf. If program() succeeds, its tree reaches to the last statement; if no parser gave up on a construct that it had begun, the leaves are exactly all statements of the file in order and every statement has got its own tree exactly once, with the leaf's tag. The parsers return on every input.", "quantifier": "every statement sequence", "why_tests_cant": "Arbitrary nesting of constructs.", "anchors": ["src/flpr/Prgm_Parsers_impl.hh", "src/flpr/Prgm_Parsers_utils.hh"]}
{"id": "C29", "title": "Labelled DO loops terminate at the right statement", "statement": "Executable constructs nested in any way (action statements, IF constructs, DO loops ended by END DO, by a labelled CONTINUE or END DO, by a labelled action statement, and any number of loops sharing a labelled action statement) are parsed into the tree the standard gives them: loops sharing a terminal label are closed together at the statement bearing that label, a DO with a different label is nested properly, and the label stack is left as it was.", "quantifier": "every statement sequence", "why_tests_cant": "Arbitrary nesting depth and label sharing.", "anchors": ["src/flpr/Prgm_Parsers_utils.hh:494-676 (Legacy_Do_Construct)"]}
{"id": "C30", "title": "Indentation changes only leading white space", "statement": "Parsed_File::indent and File_Line/Logical_Line set_leading_spaces never change main_txt, labels, comments or continuation marks of any line; only blanks are added or removed; on success get_leading_spaces equals the requested number when the label (if any) fits; a second call with the same argument reports no change.", "quantifier": "every file line and every requested number of spaces", "why_tests_cant": "All layouts, incl. labels longer than the indent, comments to the right.", "anchors": ["src/flpr/File_Line.cc:460-604", "src/flpr/Parsed_File.hh:205-252", "src/flpr/Logical_Line.cc:723-737", "src/flpr/LL_Stmt.cc:27-38"]}
{"id": "C31", "title": "Indentation depth equals construct nesting", "statement": "When Parsed_File::indent returns on a free-format file, each statement that is the first on its line starts at the column given by the sum of the indent offsets of its enclosing constructs (further right only where a label or a leading '&' needs the room), with the comment lines in front of it at the same column and its continuation lines further in by the continuation offset; the begin and end statements of a construct are at the level of the construct itself; nothing but blanks changes, and no other line changes. It returns whenever the program parser finds a tree, unless a comment follows a continuation mark.", "quantifier": "every free-format file, every program tree, every indent table without negative offsets", "why_tests_cant": "Arbitrary nesting.", "anchors": ["src/flpr/Parsed_File.hh:205-252", "src/flpr/Indent_Table.hh", "src/flpr/Indent_Table.cc"]}
{"id": "C32", "title": "Continuation marks can be added and removed safely", "statement": "make_continued makes a line continued with exactly one trailing '&' and keeps main_txt and any trailing comment text; make_uncontinued removes it, keeping main text and comment; applying one after the other restores the flags and the text up to trailing blanks.", "quantifier": "every file line", "why_tests_cant": "All contents of right_space/right_txt.", "anchors": ["src/flpr/File_Line.cc:360-392"]}
{"id": "C33", "title": "Converting a line to comment or blank keeps the comment", "statement": "make_comment_or_blank removes main_txt and keeps a trailing comment (documented: 'If there is a comment in right_txt, this line is converted into a comment (all other fields blank), else make_blank() is called').", "quantifier": "every file line", "why_tests_cant": "All contents.", "anchors": ["src/flpr/File_Line.cc:422-453", "src/flpr/File_Line.hh:176-180"]}
{"id": "C34", "title": "Setting and clearing statement labels", "statement": "set_label(n) for 1..99999 makes the line carry label n and leaves main_txt and comments; set_label(0) clears the label.", "quantifier": "every Fortran file line and label value", "why_tests_cant": "All values and layouts.", "anchors": ["src/flpr/File_Line.cc:606-644", "src/flpr/File_Line.hh:191-192", "src/flpr/Logical_Line.cc:740-746"]}
{"id": "C35", "title": "Lexical tokens tile the statement text", "statement": "The token sequence produced for a logical line, with the blanks between tokens, spells exactly the accumulated text (each token non-empty, in order, non-overlapping; start offsets and text agree); tokenization is total and terminates; the token kinds do not depend on letter case.", "quantifier": "every accumulated line text", "why_tests_cant": "All character sequences; longest-match and start-condition interplay.", "anchors": ["src/flpr/scan_fort.l", "src/flpr/Logical_Line.cc:749-806 (tokenize)"]}
{"id": "C36", "title": "Token positions point at the token text in the layout", "statement": "After a Logical_Line is initialised from its layout, each token's recorded main-text begin/end line and column select exactly the token's text in that logical line's layout.", "quantifier": "every layout, including layouts with interspersed comment lines", "why_tests_cant": "Editing operations rely on it for any layout.", "anchors": ["src/flpr/Logical_Line.cc:123-149", "src/flpr/Logical_Line.cc:749-857"]}
{"id": "C37", "title": "Editing a fragment changes only that fragment", "statement": "replace_fragment(f, tag, text) replaces exactly that token's characters in the text, shifts later tokens on the line accordingly so every token position stays correct, and leaves all other tokens' text unchanged; remove_fragment likewise.", "quantifier": "every logical line, every fragment, every replacement text", "why_tests_cant": "All positions and lengths.", "anchors": ["src/flpr/Logical_Line.cc:309-357"]}
{"id": "C38", "title": "File type is determined by the extension", "statement": "With no explicit type, the format is chosen from the file name's extension: fixed-format for fixed-form extensions (f, F, ...), free-format for free-form extensions (f90, F90, ...), unknown otherwise; an explicit type always wins.", "quantifier": "every file name", "why_tests_cant": "All names, incl. those with several or no dots.", "anchors": ["src/flpr/File_Info.cc:20-64"]}
{"id": "C39", "title": "Fixed-to-free conversion preserves the program text", "statement": "convert_fixed_to_free keeps, for every logical line, the main text of each physical line in order, and makes all lines free-format: continuation marks move from column 6 to trailing/leading '&', comment characters become '!'.", "quantifier": "every fixed-format file", "why_tests_cant": "All interleavings of comments, continuations, open character contexts.", "anchors": ["src/flpr/Logical_File.cc:475-587"]}
{"id": "C40", "title": "String utilities", "statement": "trim removes exactly the leading and trailing white space; trim_back and trim_back_copy the trailing blanks and tabs, last_non_blank_char is the last character they leave; simple_tokenize appends exactly the maximal delimiter-free non-empty runs, in order, without reading outside the string; tolower/toupper change only letters (all of these on 7-bit text where <cctype> is used).", "quantifier": "every string", "why_tests_cant": "All strings, incl. empty and all-blank ones.", "anchors": ["src/flpr/utils.hh:92-126", "src/flpr/utils.cc:21-43"]}
{"id": "C41", "title": "Token_Text lower-case cache is coherent", "statement": "For every history of constructions, mod_text and lower() calls lower() returns the lower-case of the current text.", "quantifier": "every operation history", "why_tests_cant": "Lazy cache.", "anchors": ["src/flpr/Token_Text.hh", "src/flpr/Token_Text.cc"]}
{"id": "C42", "title": "Splitting a compound line preserves the statements", "statement": "split_compound statements/split_after yields two logical lines whose fragment sequences concatenate to the original without the separating semicolon, each statement keeping its tokens in order.", "quantifier": "every logical line and split position", "why_tests_cant": "All layouts.", "anchors": ["src/flpr/Logical_Line.cc:499-636", "src/flpr/Logical_File.cc:295-344"]}
{"id": "C43", "title": "Syntax tag extension registry", "statement": "After any sequence of register_ext calls for distinct tags \u2265 CLIENT_EXTENSION, label and type of each registered tag are those registered, built-in tags are unaffected, and unregistered extension tags are reported as generic client extensions.", "quantifier": "every registration history", "why_tests_cant": "All histories.", "anchors": ["src/flpr/Syntax_Tags.cc", "src/flpr/Syntax_Tags.hh"]}
{"id": "C44", "title": "Parser extensions are tried in registration order", "statement": "Registered statement parser extensions are tried in order, the first success wins, and failing extensions leave the stream in place; built-in rules take precedence.", "quantifier": "every list of extensions and token sequence", "why_tests_cant": "All combinations.", "anchors": ["src/flpr/Stmt_Parser_Exts.cc", "src/flpr/parse_stmt.cc:191-240 (action_stmt)"]}
{"id": "C45", "title": "Expression scanning balances brackets", "statement": "The truncated-expression scanner consumes exactly up to the first ',' ':' unmatched ')' or ']' or end of statement at bracket depth zero, fails (restoring the stream) on a depth-zero '=', and its tree covers all tokens consumed.", "quantifier": "every token sequence", "why_tests_cant": "All nestings.", "anchors": ["src/flpr/parse_stmt.cc:56-102 (consume_until_break)"]}
{"id": "C46", "title": "Re-flowing text keeps the tokens", "statement": "text_from_frags rewrites the layout so that the concatenated main texts spell the fragments in order with at least the required blanks and no layout line exceeds the line limit unless a single token does.", "quantifier": "every fragment sequence", "why_tests_cant": "All token lengths.", "anchors": ["src/flpr/Logical_Line.cc:152-306"]}
{"id": "C47", "title": "Labelling keeps the statement column when there is room", "statement": "File_Line::set_label takes the columns for the label from the blanks in front of the statement: when there are enough of them, the column in which main_txt starts is unchanged, and at least one blank stays between label and statement.", "quantifier": "every Fortran line and label value", "why_tests_cant": "All combinations of old label length, new label length and blanks.", "anchors": ["src/flpr/File_Line.cc:606-644"]}
{"id": "C48", "title": "The label of a logical line is the number in its label field", "statement": "After a successful scan the label of every Logical_Line is the decimal value of the digits in the control text of its first physical line, and 0 when that line has none; constructing a Logical_Line from scanned lines never fails in the noexcept constructor.", "quantifier": "every list of input lines, both formats", "why_tests_cant": "All digit strings and all line kinds (a blank fixed-format line may carry a label).", "anchors": ["src/flpr/Logical_Line.cc:123-149", "src/flpr/Logical_File.cc:86-285"]}
{"id": "C49", "title": "Reading and printing a fixed-format file", "statement": "If a fixed-format file has nothing beyond the last column, no tabs in its control columns and well-formed control fields, scanning and printing it gives back the input lines.", "quantifier": "every list of input lines", "why_tests_cant": "All files.", "anchors": ["src/flpr/Logical_File.cc:86-178", "src/flpr/File_Line.cc:61-208", "src/flpr/File_Line.cc:665-675"]}
{"id": "C50", "title": "unkeyword changes exactly the keyword tokens", "statement": "unkeyword(beg,end,N) replaces the tag of each keyword token among the first N (all when N is negative) by TK_NAME and changes nothing else; it is defined for all table and extension tags.", "quantifier": "every token sequence, count and extension registry", "why_tests_cant": "token sequences and registries are unbounded", "anchors": ["src/flpr/Token_Text.cc:57-63", "src/flpr/Syntax_Tags.hh:40"]}
{"id": "C51", "title": "render prints texts with the recorded gaps", "statement": "render outputs the token texts in order, adjacent tokens separated by max(post_spaces, pre_spaces) blanks.", "quantifier": "every token sequence", "why_tests_cant": "token sequences are unbounded", "anchors": ["src/flpr/Token_Text.cc:42-55"]}
{"id": "C52", "title": "Backward and bracket scans find the partner", "statement": "Behind a closing parenthesis, move_to_open_paren goes back to the matching opening one and answers true, or to the beginning and answers false; anywhere else it does nothing and answers false. ignore_bracket_expr moves just past the matching bracket, or to the end of the statement if there is none (its answer is always false).", "quantifier": "every token sequence", "why_tests_cant": "All nestings.", "anchors": ["src/flpr/TT_Stream.cc:146-178"]}
{"id": "C53", "title": "Statement parsing has no undefined behaviour and stays inside the statement", "statement": "On a statement of scanner tokens that closes every parenthesis and bracket it opens, every statement parser returns: no assertion fails, nothing outside the statement is read or consumed, no iterator range is reversed.", "quantifier": "every token sequence, every rule of the grammar, every well-behaved list of extensions", "why_tests_cant": "Depends on all inputs; procedure_designator looks backwards from the end of the statement.", "anchors": ["src/flpr/parse_stmt.cc:56-142", "src/flpr/parse_stmt.cc:2938-2977 (procedure_designator)", "src/flpr/Safe_List.hh:157-200"]}
{"id": "C54", "title": "Dispatch returns the statement asked for", "statement": "parse_stmt_dispatch(tag, ts) returns either no tree or a tree whose root has that tag; the table has one entry per tag, and a tag without an entry gives no tree and leaves the stream.", "quantifier": "every tag, every token sequence", "why_tests_cant": "131 statement kinds and all inputs.", "anchors": ["src/flpr/parse_stmt.cc (parse_stmt_dispatch)"]}
{"id": "C55", "title": "is_action_stmt and action_stmt agree", "statement": "is_action_stmt(tag) holds for exactly those statement kinds that action_stmt tries, and what the built-in action_stmt returns is an action-stmt node over one tree whose tag is an action statement.", "quantifier": "every tag, every token sequence", "why_tests_cant": "Two separately maintained lists of 40 entries.", "anchors": ["src/flpr/parse_stmt.cc:191-240", "src/flpr/parse_stmt.cc (is_action_stmt)"]}
{"id": "C56", "title": "Tokens of a line do not depend on earlier lines", "statement": "The tokens produced for a logical line depend only on that line's text, not on which lines were tokenised before it.", "quantifier": "every pair of line texts and every state the scanner can be in between two lines", "why_tests_cant": "The scanner's start condition is process-wide state; whether it can leak needs all line pairs.", "anchors": ["src/flpr/scan_fort.l:252-285", "src/flpr/Logical_Line.cc:749-806"]}
{"id": "C57", "title": "Inserting text beside a token", "statement": "insert_text_before(f, text) and insert_text_after(f, text) put the text directly before (after) the token in the main text of its line, leave every other character of the layout unchanged, and afterwards label, tokens and statements are those of the new text.", "quantifier": "every logical line, token and inserted text", "why_tests_cant": "All layouts, positions and texts.", "anchors": ["src/flpr/Logical_Line.cc:467-496", "src/flpr/Logical_Line.cc:123-149"]}
{"id": "C58", "title": "Replacing part of a statement", "statement": "replace_stmt_substr(range, text) replaces the text from the first to the last token of the range by the new text; the rest of the statement, its comments and its continuation marks stay, so that the printed lines still are one statement.", "quantifier": "every logical line, token range and replacement", "why_tests_cant": "All layouts, ranges over one or several lines, comments.", "anchors": ["src/flpr/Logical_Line.cc:418-464"]}
{"id": "C59", "title": "Program trees follow the grammar", "statement": "Whatever program parser of the library is called on whatever statements, if it returns a tree then it has matched, the tree's root is the kind of program part that was asked for, every inner node consists of exactly the sequence of parts that the grammar gives for its kind (in particular every subprogram and module has a specification part node and every specification part an implicit part node, possibly without statements), and every leaf is a statement of the file that reads as the kind of statement it stands for.", "quantifier": "all statement lists, all extensions, all program parsers", "why_tests_cant": "Tests compare the trees of a few programs; the claim is about every node of every tree that any input can produce, and code that walks trees (Procedure, Procedure_Visitor) relies on it without checking.", "anchors": ["src/flpr/Prgm_Parsers_impl.hh", "src/flpr/Prgm_Parsers.hh", "src/flpr/Prgm_Parsers_utils.hh"]}
{"id": "C60", "title": "The procedure visitor calls its action once on every procedure, in order", "statement": "Procedure_Visitor::visit on the tree of any parsed file calls the action exactly once on every main program, function, subroutine and separate module procedure that is not inside two or more others, in the order of the file, with internal true iff it is inside another procedure and module true iff it is inside a module; it moves no cursor where there is nothing, fails no assertion, and returns the disjunction of the action's results. (Procedures at a third level of nesting, which the standard forbids but the parsers accept, are skipped.)", "quantifier": "all files whose program tree exists, all actions that leave the tree alone", "why_tests_cant": "The visitor walks by position and assumes the shape of every node; tests visit a handful of files, while a missed or doubly visited procedure depends on which optional parts are present.", "anchors": ["src/flpr/Procedure_Visitor.hh:53-155"]}
{"id": "C61", "title": "The regions of a procedure are its statements", "statement": "Ingesting a procedure of a parsed file divides its statements among the eight regions: the regions follow each other in order, every statement of the procedure is in exactly one, each region is that of the nodes of its kind (first statement, USE, IMPORT, implicit part, declarations, execution part, internal procedures, END), and the object's empty(), cbegin() and cend() report exactly that, without a failed assertion. Procedures of a single statement (a main program that is only END) fail the last assertion of ingest(); nodes that are not procedures are refused. The tracker of each region stands on the node that holds the statements of the region.", "quantifier": "every source file as a list of token ranges, every parser of the program grammar, every procedure node of the tree returned, every cursor on it", "why_tests_cant": "The division depends on the shape of the tree, on which optional parts are missing, and on no statement reading both as an action and as an END statement; tests try some procedures.", "anchors": ["src/flpr/Procedure.hh:150-338", "src/flpr/Range_Partition.hh", "src/flpr/parse_prgm.cc", "src/flpr/parse_stmt.cc"]}
{"id": "C62", "title": "Statements of different kinds are told apart", "statement": "The parser for a kind of statement returns a tree only for statements that begin with the keyword of that kind (or with a construct name, a colon and the keyword; or for assignments and macro calls with a name and one of a few tokens); the parsers for END statements look at the second word, and only those of program units take END alone. No statement that ends or divides a part of a program (CONTAINS, END ..., ELSE ..., type guards) is also an action statement, and no two kinds of these take the same statement, except END alone among program units, END SELECT among the SELECT constructs, and ELSE WHERE, which is also an ELSE with the construct name WHERE.", "quantifier": "every statement of any length as a sequence of tokens of known kinds, for the tables every extension parser that does not change the tokens", "why_tests_cant": "There are over a hundred parsers, each with alternatives, and keywords can be names; no test can try all token sequences with all pairs of parsers.", "anchors": ["src/flpr/parse_stmt.cc", "src/flpr/Stmt_Parsers.hh"]}
{"id": "C63", "title": "Splitting a compound line keeps the file's statements and lines together", "statement": "Logical_File::split_compound_before(s) and isolate_stmt(s) leave every statement of the file with its tokens, label and kind, in the same order, and leave the list of statements what make_stmts would make of the lines (line, range, label, prefix lines), except that the number of a statement left alone may be 1 instead of 0 and the stored end of a statement cut off is lost. split_compound_before returns true exactly if the statement was not the first of its line; then only its line is changed, into two, the second beginning with it; otherwise nothing is. After isolate_stmt the statement is alone on its line. The split is defined exactly if Logical_Line::split_after can split the line.", "quantifier": "every file whose statements and lines belong together (in particular after make_stmts), every statement of it", "why_tests_cant": "The list of statements holds iterators into the lines and their tokens that must all be right after a split; tests try a few files with two statements on a line.", "anchors": ["src/flpr/Logical_File.cc:295-344", "src/flpr/LL_Stmt.hh", "src/flpr/LL_Stmt_Src.cc"]}
{"id": "C64", "title": "A new statement comes where it was asked for", "statement": "emplace_ll_stmt(p, line, kind) puts the line in front of the prefix lines of p, emplace_ll_stmt_after_prefix between the prefix lines and p, the prefix lines then belonging to the new statement. The new statement is the one before p, is on that line and has the given kind; all other statements keep their tokens, labels, kinds and order, no other line is changed when p is the first statement of its line, and statements and lines belong together again.", "quantifier": "every file whose statements and lines belong together, every statement p of it, every line with one statement", "why_tests_cant": "Where the line must go depends on the comment and suppressed lines in front of the statement; the prefix lists of all statements must be right afterwards.", "anchors": ["src/flpr/Logical_File.cc:346-397", "src/flpr/LL_Stmt.hh:107-120"]}
{"id": "C65", "title": "Editing a statement changes only that statement", "statement": "replace_stmt_text, replace_stmt_substr, insert_text_after and append_stmt_text put the statement on a line of its own and then replace only that line; every other statement of the file keeps its tokens, label and kind, and statements and lines belong together again. set_stmt_label gives the statement and its line the label, leaving its tokens and all other statements; it returns whether the label is a new one. An edited statement has no tree and no hook of what it was before.", "quantifier": "every file whose statements and lines belong together, every statement of it, every text and label", "why_tests_cant": "An edit invalidates the iterators into the line; whether others refer to it depends on the other statements of the file.", "anchors": ["src/flpr/Logical_File.cc:399-473"]}
{"id": "C66", "title": "Statement trees follow the grammar", "statement": "The tree that a statement parser returns is a derivation tree of that parser's grammar rule: every node has as branches exactly what its rule lists (alternatives, options, repetitions, with unnamed groups dissolved into their parent), and every leaf is one token of the statement with the kind, or for names and literals the text, that the rule asks for at that place.", "quantifier": "every statement parser and every parse_stmt_dispatch entry, every token stream, every set of registered extensions that keep to the stream", "why_tests_cant": "Trees are as varied as the token streams; a test compares a few of them, while clients walk them by position and rely on the shape of all of them.", "anchors": ["src/flpr/parse_stmt.cc", "src/flpr/Stmt_Parsers.hh", "src/flpr/Stmt_Tree.hh"]}
{"id": "C67", "title": "The kind and the tree of a statement", "statement": "The kind that LL_Stmt reports for a statement parsed as an action statement is that of the action statement; asked to look behind IF, syntax_tag gives minus the kind of the statement that follows the parenthesis closing the condition. A tree that was dropped and is asked for again is the same, with the same kind, for statements parsed through parse_stmt_dispatch without registered action statements, except by the entries for single kinds of action statements.", "quantifier": "every statement whose tokens are nested properly, every dispatch entry, every length of condition", "why_tests_cant": "The condition can be of any length and nesting; the walk to the statement behind it counts branches.", "anchors": ["src/flpr/LL_Stmt.cc:40-84", "src/flpr/LL_Stmt.hh:74-104"]}
{"id": "C68", "title": "The name of a procedure", "statement": "Procedure::name is the token after PROGRAM, FUNCTION, SUBROUTINE or (MODULE) PROCEDURE in the first statement, whatever prefixes precede it. rename on lines whose tokens stand where they say changes exactly that token and the name in the end statement, if it has one, to the new name: no other token or line changes, and name() is the new name; it returns false and changes nothing if the name is the same. The text with which complete_end_stmt completes END is the word for the kind of procedure and the name; for END with the word it is the name; with the name, nothing.", "quantifier": "every first and end statement the parsers accept, every prefix, every new name, one or two lines, continued or not", "why_tests_cant": "Prefixes come in any number and order, including types with expressions in them; the walk counts branches of the tree.", "anchors": ["src/flpr/Procedure.hh:340-436"]}
{"id": "C69", "title": "Applications find what they look for in statements", "statement": "has_call_named tells whether the lower-cased name called by a CALL statement - or by the CALL statement behind the condition of an IF statement - is in the set; the name is the last one of the designator, in front of the argument list if there is one. It is false for every other statement. find_use_module_name gives the token that names the module in a USE statement with or without nature and double colon. exclude_procedure is true if and only if PURE or ELEMENTAL is one of the prefixes of the first statement.", "quantifier": "every CALL, IF, USE, FUNCTION, SUBROUTINE, PROGRAM and MODULE PROCEDURE statement that the parsers accept", "why_tests_cant": "Designators, argument lists and conditions are of any depth; the walks take fixed steps in the tree.", "anchors": ["apps/module_base.cc:108-171", "apps/caliper.cc:157-178"]}
{"id": "C70", "title": "A statement can be taken to its node in the program tree", "statement": "When the program tree of a file has been built, the hook of a statement (stmt_to_node_cursor) leads to a leaf of the tree that holds this statement and says the kind of statement it reads as; if several leaves hold it (the last statement of several DO loops) it is the last one. A statement has no hook only if no leaf holds it; if no parser gave up after it had begun a construct every statement has one. A file that the program parser rejects is not reported: linking takes the root of an empty tree.", "quantifier": "every sequence of statements and every set of extension parsers", "why_tests_cant": "The trees are of any depth and statements may be shared by any number of loops; a rejected file aborts the program.", "anchors": ["src/flpr/Parsed_File.hh:86-119", "src/flpr/Parsed_File.hh:173-203", "src/flpr/LL_Stmt.hh:61-64", "src/flpr/Prgm_Parsers_utils.hh:256-275"]}
{"id": "C71", "title": "flpr-format puts every statement on its own line", "statement": "split_compound_stmts leaves the statements of the file and their order as they are, puts each statement of a compound line on a line of its own whose text spells it, removes the empty statements, changes no other line, answers whether it changed something, and changes nothing when it is done again. (False: every one of the new lines gets the label of the old one. remove_empty_stmts never removes anything.)", "quantifier": "every sequence of lines whose text can be made again (C46)", "why_tests_cant": "Lines have any number of statements, semicolons and continuation lines; the loop revisits the line it has just split and carries a flag along.", "anchors": ["apps/flpr_format_base.cc:125-189", "src/flpr/Logical_Line.cc:639-720", "src/flpr/Logical_Line.cc:214-306"]}
{"id": "C72", "title": "A procedure with calipers is left through caliper_end only", "statement": "caliper_procedure makes the call of caliper_begin the first and that of caliper_end the last statement of the execution part (in place of a RETURN statement at the end), turns every other RETURN, plain or in an IF statement, into a jump to the label of the last statement, and changes nothing else. The label is that of the RETURN at the end if it has one, otherwise one from 1 to 9999 that the procedure does not use, so no label is given twice; no label is lost. Control leaves the new execution part through the last statement only. (False: a jump to a labelled END statement goes past caliper_end, and which alternate return a RETURN takes is lost. If all the labels are used an assertion fails. The insertion into the regions is undefined, C22.)", "quantifier": "every execution part, every placing of RETURN statements and labels, every control flow between the statements", "why_tests_cant": "Procedures have any number of RETURN statements at any place and any set of labels; the claim is about every path through the procedure.", "anchors": ["apps/caliper.cc:77-150", "apps/caliper.cc:181-245", "src/flpr/Procedure.hh:443-453"]}
{"id": "C73", "title": "A USE statement is added exactly where it is needed", "statement": "Module_Action decides to put a USE statement for the module into a procedure if and only if a statement of the execution part calls one of the given subroutines and no USE statement of the procedure names the module, whatever the case of the letters. What it returns, whether the file is rewritten, is true if and only if there is such a call (also if nothing was put in).", "quantifier": "every procedure with an execution part, every set of names, every module name", "why_tests_cant": "Any number of statements of any form, and the names may be spelled in any mixture of cases.", "anchors": ["apps/module_base.cc:58-105", "apps/module_base.cc:108-171", "apps/module_base.hh:35-60"]}
{"id": "C74", "title": "flpr-format gives the file back unless it changed it, and keeps its statements", "statement": "The lines of a stream are what stands between its newlines, and only these. If flpr_format_file reports no change, then the lines are as they were, and with -o the output is the input with a newline added at the end if it was missing; without output asked for, nothing is written, and if a file was read, -q was not given and nothing is written, there was nothing to change. Unless fixed format is converted, whatever options are given, the statements of the program (label and tokens) are the same before and after, in order. Not so: do_output_ is not initialised; read_file returns true on failure; a file that is not a program aborts.", "quantifier": "for all streams of characters, all options, all extensions, all fuel", "why_tests_cant": "a test compares the output for some files; it cannot show that no file loses a statement or a byte, and an uninitialised bool may happen to read false", "anchors": ["apps/flpr_format_base.cc:34-124", "apps/flpr_format_base.cc:198-261", "apps/flpr_format_base.hh:20-66", "apps/flpr-format.cc:28-66", "src/flpr/Logical_File.cc:53-64", "src/flpr/Parsed_File.hh:161-189"]}
{"id": "C75", "title": "An indented file, written and read again, is the same program", "statement": "A free-format file is read and indented with a table that sets continuation lines off by at least one blank (all tables of the library do), and what is written is read again. If the file is tidy (no comment would be a directive without the blanks behind its '!', comments behind statements have a blank before them, no statement starts with '#', a continuation line begins with '&' or is not in the first column), then reading succeeds and gives exactly the physical lines the indentation left, with the logical lines, labels, categories, statements and tokens (kind, text, line, place in the statement, blanks around) the file had before. Without tidiness this fails: a comment becomes a directive, a name is cut in two, a character constant gets a blank.", "quantifier": "for all texts of 7-bit characters, all extensions, all fuel, all indent tables with positive continuation offset, all token sequences and program trees", "why_tests_cant": "a test indents some files; whether moving a line changes how any line is classified, continued or tokenised is a statement about all lines, and the failures need rare lines", "anchors": ["src/flpr/File_Line.cc:460-580", "src/flpr/File_Line.cc:90-330", "src/flpr/Logical_File.cc:53-84", "src/flpr/Logical_File.cc:179-285", "src/flpr/Logical_Line.cc:725-806", "src/flpr/Line_Accum.cc:21-80", "src/flpr/Parsed_File.hh:171-252"]}
{"id": "C76", "title": "The parse depends only on the kinds of the tokens and their texts up to case", "statement": "If the tokens of two statements have pairwise the same kind and the same text up to upper and lower case (whatever their columns, lines and the blanks around them), every statement parser returns the same tree for both and stops at the same token; if the statements of two files agree in this way, with the same labels, the program parsers have the same outcome and the same tree, and Parsed_File has the same statements and the same parse tree. In particular a tidy file that was indented, written and read again has the statements and the tree it had before. Extensions are assumed to keep to the same rule; every parser of the grammar does.", "quantifier": "for all statement rules, all token streams, all fuel, all lists of statements, all program rules, all files, all extensions that keep to the rule", "why_tests_cant": "a test compares some spellings of some statements; that no parser ever looks at a column, a line number or the case of a letter is a statement about all of them", "anchors": ["src/flpr/Stmt_Parsers.hh:60-560", "src/flpr/parse_stmt.cc", "src/flpr/TT_Stream.hh", "src/flpr/Prgm_Parsers_utils.hh:60-560", "src/flpr/LL_Stmt_Src.cc:18-69", "src/flpr/Parsed_File.hh:171-189", "src/flpr/Token_Text.cc:26-34"]}
{"id": "C77", "title": "Indenting twice is indenting once", "statement": "If every statement of a file hangs at one level of its program tree (statements that end several DO loops may hang there several times), then indenting the file a second time, in memory or after writing a tidy file and reading it back, leaves every physical line as it is and writes the same text; flpr-format, asked to indent only, run on its own output writes the same text or nothing. A file where no statement hangs in the tree twice is of this kind for every table. Where a table indents the bodies of old DO loops, a shared last statement is moved twice and its second indentation differs; the returned flag is no sign of a change, for a line with tabs before its '&' stays and still sets it.", "quantifier": "for all texts of 7-bit characters, all files that are read, all indent tables, all extensions that look at kinds and texts only, all fuel", "why_tests_cant": "idempotence is a statement about all files: the second pass meets lines the first pass made, in every combination of labels, continuation lines, comments and nesting", "anchors": ["src/flpr/Parsed_File.hh:104-108", "src/flpr/Parsed_File.hh:171-252", "src/flpr/LL_Stmt.cc:27-38", "src/flpr/Logical_Line.cc:723-737", "src/flpr/File_Line.cc:460-580", "apps/flpr_format_base.cc:32-124"]}
{"id": "C78", "title": "Case does not matter", "statement": "Two files that differ only in upper and lower case - in keywords, names, constants, comments, anywhere except in lines that hold #flpr - are read (free or fixed format) into the same logical lines with the same kinds, labels, statements and tokens at the same columns, the texts being equal up to case; they have the same statements and the same parse tree; indenting them, or running flpr-format with any options on them, fails for both or gives for both the same text up to case. (The directives !#flpr are only recognised in lower case.)", "quantifier": "for all pairs of files that differ only in case, all options, all indentation tables, all extension parsers that look only at token kinds and texts up to case", "why_tests_cant": "A test compares a few spellings; every character class, literal comparison, scanner rule, table lookup and edit must ignore case together for the claim to hold for all texts.", "anchors": ["src/flpr/File_Line.cc", "src/flpr/scan_fort.l", "src/flpr/Logical_Line.cc", "src/flpr/Logical_File.cc", "src/flpr/Smash_Hash.hh", "apps/flpr_format_base.cc"]}
{"id": "C79", "title": "flpr_show_cst shows exactly the readings of a statement", "statement": "flpr_show_cst reads the lines up to the first empty one, and for each of their statements in turn prints, numbered from 1 and in the order of the tags, one syntax tree for each kind of statement whose parser accepts the statement from its start, each as that parser gives it when run by itself - although all parsers share one token stream - or says that the statement is not recognised, exactly when no kind accepts it. It gets to the end exactly if every parser is defined on every statement. A printed tree determines the labels and the shape of the tree, unless a label is a comparison sign.", "quantifier": "for all inputs, all statements, all extension parsers that restore what they do not accept", "why_tests_cant": "The loop relies on each of 130 parsers restoring the shared stream when it fails; a test sees a few statements and a few parsers.", "anchors": ["apps/flpr_show_cst.cc", "src/flpr/Tree.hh", "src/flpr/Stmt_Tree.cc", "src/flpr/parse_stmt.cc", "src/flpr/LL_Stmt.cc"]}
{"id": "C80", "title": "A fixed-format file converted to free format is the same program", "statement": "If flpr-format -f converts a standard fixed-format file, then reading the text it writes as a free-format file gives the same logical lines as reading the original as a fixed-format file: the same labels and statements, and token by token the same kinds and texts; hence the same statement list and parse tree. Not guaranteed: real literals continued between their parts, and what C39 excludes.", "quantifier": "all texts of printable characters and tabs, all last columns (0 or at least 6), all fair parser extensions", "why_tests_cant": "The claim composes two readers, the scanner and the converter over all continuation patterns; a test fixes one layout of one statement.", "anchors": ["apps/flpr_format_base.cc:32-60", "src/flpr/Logical_Line.cc:28-45", "src/flpr/Logical_File.cc:53-177", "src/flpr/File_Line.cc", "src/flpr/scan_fort.l"]}
{"id": "C81", "title": "flpr-format treats each file of its command line by itself", "statement": "What flpr-format writes for several files is exactly what separate runs on each of them write, one after the other, up to the first run that does not come to its end; although the Indent_Table and the scanner are shared by all files, nothing carries over.  A file that cannot be opened or whose name does not tell its format makes no difference wherever it stands.  A free-format file is treated as C74 says.  The exit status is 1 exactly for an unknown option or a command line without files.", "quantifier": "all lists of files (existing or not), all contents, all option letters, all parser extensions", "why_tests_cant": "The state shared between files (scanner start condition, table of indents) depends on the whole history of files; tests run on single files", "anchors": ["apps/flpr-format.cc:26-66", "apps/flpr_format_base.cc:38-122", "apps/flpr_format_base.cc:218-267", "src/flpr/Logical_File.cc:36-84", "src/flpr/scan_fort.l", "src/flpr/Indent_Table.cc"]}
{"id": "C82", "title": "An extension changes only what it adds", "statement": "If, in the statements of a file, the registered extension parsers decline wherever the built-in parsers of that kind (action_stmt, other_specification_stmt) decline, then every statement and the whole program are parsed exactly as if no extension was registered: same trees, same rejections. In particular the extension of ext_demo (write_comma_stmt, under SG_WRITE_STMT or a client tag) changes nothing in a file without 'WRITE (...) ,'. What it accepts is such a WRITE statement up to its end, under its own tag, exactly if what follows the comma is what the built-in WRITE accepts after the control list.", "quantifier": "all sets of extensions that stay on their stream, all files, all statements, all program parsers; both tags of the demo", "why_tests_cant": "A test parses a few statements with and without the extension; that nothing else in the grammar is affected concerns every parser that may come to an action statement (IF, the program parser) on every file.", "anchors": ["apps/ext_demo.cc:46-143", "src/flpr/Stmt_Parser_Exts.cc:32-64", "src/flpr/parse_stmt.cc:188-240", "src/flpr/parse_stmt.cc:3800-3812"]}
{"id": "C83", "title": "parse_files reports on each file as if it were alone, and its numbers are right", "statement": "For every command line and every set of files: parse_files goes through the files listed in the files given with -f and then through its operands, in that order; what it writes about a file is what it would write about that file alone; the numbers it prints are those of the logical lines, the input lines and the program units; it reports a tree exactly for the files that the other programs can parse; the exit status tells whether all was well.", "quantifier": "all command lines, file systems, file contents, registered extensions", "why_tests_cant": "The result for a file can depend on what the scanner was left with by any file before it; a test has few files and never the combination that matters.", "anchors": ["apps/parse_files.cc:36-117", "src/flpr/Logical_File.cc:36-84", "src/flpr/scan_fort.l:242-268", "src/flpr/Parsed_File.hh:171-189"]}
{"id": "C84", "title": "module keeps the original of every file that it changes", "statement": "After module, every file of the command line is either as it was, or it is rewritten and <name>.bak has the contents it had before; no other file is changed, and if the program stops with an error it has done so for the files before and touched none after.", "quantifier": "all file systems, file names, and all results of the action on the files", "why_tests_cant": "It is about every set of files and every way to stop on the way through them.", "anchors": ["apps/module.cc:10-24", "apps/module.cc:78-85", "apps/module_base.cc:28-52"]}
{"id": "C85", "title": "module understands its command line or prints its usage", "statement": "For every list of arguments: module takes the call name (or the names in the file given with -f, separated by white space and compared in small letters), the module name and the files from it as its usage says, or it prints the usage and stops with status 1.", "quantifier": "all lists of arguments and files of names", "why_tests_cant": "There is no end of command lines; the ones that go wrong have too few arguments in an unusual place.", "anchors": ["apps/module.cc:46-76", "apps/module.cc:89-126", "apps/module_base.hh:38-52"]}
{"id": "C86", "title": "caliper and module work on the outermost procedures with an execution part", "statement": "For every file that is parsed: caliper puts its calls into those procedures, in the order of the file, that are not inside another procedure, have an execution part, and are not PURE or ELEMENTAL; a procedure without an execution part is left alone. It writes the file and returns 0 exactly if there is one; it returns 1 for a wrong number of arguments, and 2 without output if the file cannot be read or parsed. module looks for its calls in the procedures of the same kind.", "quantifier": "all programs accepted by the parser, all command lines", "why_tests_cant": "The procedures of a file can be arranged without bound: in modules, as external or internal procedures, with and without parts.", "anchors": ["apps/caliper.cc:47-95", "apps/caliper.cc:157-161", "apps/module_base.cc:58-73", "src/flpr/Procedure_Visitor.hh:52-155"]}
{"id": "C87", "title": "The statements of a line are its own tokens, also in a copy", "statement": "init_stmts makes the ranges of stmts() the non-empty runs of tokens between semicolons, each ending at its semicolon or at the end. A copied or assigned Logical_Line has ranges over its own tokens with the same contents in the same order, shares no token with the original, and has the statements that init_stmts would find in it; assigning a line to itself changes nothing. In a moved line the ranges stay valid; the line moved from has no statements and can be used again after clear(). remove_empty_statements leaves ranges over the same tokens, the ones init_stmts would find in what is left. (A line that has been moved from, and not cleared, cannot be copied: undefined behaviour.)", "quantifier": "every line whose list of tokens any history of insertions and removals has made, and every set of ranges over it", "why_tests_cant": "Ranges are pairs of iterators; a range that refers into the original or to an erased node gives the right text until the memory is reused.", "anchors": ["src/flpr/Logical_Line.cc:34-64", "src/flpr/Logical_Line.cc:639-721", "src/flpr/Logical_Line.hh:66-74", "src/flpr/Safe_List.hh:319-335"]}
{"id": "C88", "title": "Asking a procedure for its regions, and using the object again", "statement": "After a procedure has been ingested, begin(), end(), range() and last() may be called for any of the eight regions, in any order and any number of times: each answer is the first statement of the region, the one behind its last, or its last one; for an empty region begin() and end() are both the place where its statements would be. No call changes what the object shows (has_region, cbegin, cend, headless_main_program, the trackers). After clear() there are no regions and the object takes any other procedure as a new one does. Refuted: rename() of a main program without a PROGRAM statement gives it no name (the distance is measured backwards, which is undefined; where the list is a ring the new statement is in the file but not in the procedure); an object that is not cleared takes no second procedure.", "quantifier": "every source file as a list of token ranges, every procedure of at least two statements in a tree of any parser, every sequence of calls", "why_tests_cant": "The calls that are not const put regions in use and change the links between them; whether this shows depends on the order of the calls and on which regions are empty.", "anchors": ["src/flpr/Procedure.hh:66-187", "src/flpr/Procedure.hh:254-258", "src/flpr/Procedure.hh:356-367", "src/flpr/Range_Partition.hh:38-157"]}
{"id": "C89", "title": "The label of a labelled DO is the number written after the word DO", "statement": "For every statement that the DO rule accepts, get_label_do_label gives the number that is written directly behind the word DO, also when the statement begins with a construct name, and 0 when no number is written there. So the label with which the block matching works is the one in the text.", "quantifier": "all statements (token sequences), all client extensions of the parser that keep the documented contract, all construct names, labels and loop controls", "why_tests_cant": "the answer depends on walking the parse tree of any accepted DO statement; a test tries a few spellings", "anchors": ["src/flpr/Stmt_Tree.cc:53-69", "src/flpr/parse_stmt.cc:2306-2316"]}
{"id": "C90", "title": "unspace_main moves the blanks around the main text, and nothing else", "statement": "File_Line::unspace_main transfers the leading and trailing blanks of main_txt to left_space and right_space, so the line keeps its text and its length; a line whose main text is blank is marked blank. size() is the number of characters across. make_preprocessor gives a line that is a preprocessor line and nothing else, with the same text.", "quantifier": "all lines (any contents of the fields and flags)", "why_tests_cant": "which blanks are lost depends on all combinations of field contents; nothing in the tests calls unspace_main", "anchors": ["src/flpr/File_Line.cc:340-358", "src/flpr/File_Line.hh:160-161", "src/flpr/File_Line.cc:394-406", "src/flpr/File_Line.cc:455-458"]}
{"id": "C91", "title": "append_comment adds a comment and keeps the code", "statement": "Logical_Line::append_comment with a non-empty text changes only the end of the first line of the layout: a line without an end gets '! ' and the text behind blanks, a line that ends in '&' or in a comment keeps that and the text follows. For a free-format line with main text and no open character literal at its end, the line then printed is read again as the same label, continuation marks and main text with the new end as right text.", "quantifier": "for all logical lines, all comment texts, all lines read by analyze_free under any previous literal state", "why_tests_cant": "Whether the added text stays a comment depends on the quotes in the whole line, on the literal left open by the line before and on what already ends the line; tests see a few of these combinations.", "anchors": ["src/flpr/Logical_Line.cc:809-828", "src/flpr/Logical_Line.hh:175-176", "src/flpr/File_Line.cc"]}
{"id": "C92", "title": "Moving a statement leaves the comment behind it in its column", "statement": "File_Line::set_leading_spaces on a free-format statement line leaves a comment in right_txt (alone or behind '&') in its column whenever there is room: always when the statement moves left, and when it moves right by less than the blanks in front of the comment. Otherwise one blank is left, or none if there was none. An end without a comment moves along.", "quantifier": "for all free-format Fortran lines and all requested numbers of spaces", "why_tests_cant": "The column depends on the label, the continuation mark, the blanks in front and behind and the position of '!' together; tests look at a few lines.", "anchors": ["src/flpr/File_Line.cc:460-580"]}
