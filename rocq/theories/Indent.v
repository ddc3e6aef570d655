(** Model of the indentation of a parsed file: src/flpr/Indent_Table.hh and .cc,
    LL_Stmt.cc:27-38 and Parsed_File.hh:104-108, 171-189, 205-252. *)
From Verif Require Import Base Tags SyntaxTags FileLine Token Stmts LogicalLine StmtSrc LineEdit
  StmtRules Peg StmtGrammar LabelStack Prgm PrgmSource.
Local Open Scope Z_scope.

(** Indent_Table.hh:56-62: offset_ (by syntax tag) and continued_ *)
Record Indent_Table := mkIndent { it_off : Z -> Z; it_cont : Z }.
(** Indent_Table.hh:52-54 with Syntax_Tags.hh pg_begin_tag, pg_end_tag *)
Definition PG_BEGIN : Z := PG_000_LB.
Definition PG_END : Z := PG_ZZZ_UB.
Definition pg_index (tag : Z) : bool := (PG_BEGIN <=? tag) && (tag <? PG_END).
(** Indent_Table.hh:66-74 spaces_ *)
Definition it_get (it : Indent_Table) (tag : Z) : res Z := _ <- assert_ (pg_index tag) ;; Ok (it_off it tag).
(** Indent_Table.hh:30 *)
Definition it_init : Indent_Table := mkIndent (fun _ => 0) 2.
(** Indent_Table.hh:37-39 set_indent, for a tag of the program grammar *)
Definition set_indent (it : Indent_Table) (tag n : Z) : Indent_Table :=
  mkIndent (fun g => if g =? tag then n else it_off it g) (it_cont it).
Definition set_continued (it : Indent_Table) (n : Z) : Indent_Table := mkIndent (it_off it) n.
(** Indent_Table.hh:78-86 *)
Definition begin_end_construct (tag : Z) : bool :=
  (tag =? PG_DERIVED_TYPE_DEF) || (tag =? PG_ENUM_DEF) || (tag =? PG_CASE_CONSTRUCT).
(** Indent_Table.cc:25-27: the loop over the program grammar tags *)
Definition set_begin_ends (it : Indent_Table) (n : Z) : Indent_Table :=
  fold_left (fun it i => let g := PG_000_LB + 1 + Z.of_nat i in if begin_end_construct g then set_indent it g n else it)
    (seq 0 (Z.to_nat (PG_ZZZ_UB - (PG_000_LB + 1)))) it.
Definition set_indents (it : Indent_Table) (l : list (Z * Z)) : Indent_Table :=
  fold_left (fun it p => set_indent it (fst p) (snd p)) l it.
(** Indent_Table.cc:17-29 *)
Definition apply_constant_indent (it : Indent_Table) (n : Z) : Indent_Table :=
  let it := set_indents it
    [(PG_BLOCK, n); (PG_EXECUTION_PART, n); (PG_INTERFACE_SPECIFICATION, n); (PG_INTERNAL_SUBPROGRAM, n);
     (PG_MODULE_SUBPROGRAM, n); (PG_SPECIFICATION_PART, n); (PG_WHERE_BODY_CONSTRUCT, n)] in
  set_continued (set_begin_ends it n) 5.
(** Indent_Table.cc:31-43 *)
Definition apply_emacs_indent (it : Indent_Table) : Indent_Table :=
  let it := set_indents it
    [(PG_BLOCK, 3); (PG_EXECUTION_PART, 2); (PG_INTERFACE_SPECIFICATION, 3); (PG_INTERNAL_SUBPROGRAM, 2);
     (PG_MODULE_SUBPROGRAM, 2); (PG_SPECIFICATION_PART, 2); (PG_WHERE_BODY_CONSTRUCT, 3)] in
  set_continued (set_begin_ends it 3) 5.
(** Indent_Table.cc:45-57 *)
Definition apply_constant_fixed_indent (it : Indent_Table) (n : Z) : Indent_Table :=
  let it := set_indents it
    [(PG_BLOCK, n); (PG_EXECUTION_PART, 0); (PG_INTERFACE_SPECIFICATION, n); (PG_INTERNAL_SUBPROGRAM, n);
     (PG_MODULE_SUBPROGRAM, n); (PG_SPECIFICATION_PART, 0); (PG_WHERE_BODY_CONSTRUCT, n)] in
  set_continued (set_begin_ends it n) 5.

(** ** The recursion *)
(** The logical lines of the file are changed in place; statements refer to
    them by index. *)
Definition lines := list LLn.
Definition put_line (ls : lines) (j : nat) (l : LLn) : lines := firstn j ls ++ l :: skipn (S j) ls.
Definition line_indent (ls : lines) (j : nat) (sp off : Z) : res (lines * bool) :=
  match nth_error ls j with
  | None => UB
  | Some l => ' (l', c) <- ll_set_leading_spaces l sp off ;; Ok (put_line ls j l', c)
  end.
Fixpoint lines_indent (ls : lines) (js : list nat) (sp off : Z) : res (lines * bool) :=
  match js with
  | [] => Ok (ls, false)
  | j :: js' =>
      ' (ls1, c) <- line_indent ls j sp off ;;
      ' (ls2, d) <- lines_indent ls1 js' sp off ;;
      Ok (ls2, c || d)
  end.
(** LL_Stmt.cc:27-38 set_leading_spaces: the prefix lines, then the line of the
    statement *)
Definition stmt_indent (ls : lines) (q : LL_Stmt) (sp off : Z) : res (lines * bool) :=
  _ <- assert_ (0 <=? sp) ;;
  if s_compound q <? 2 then
    ' (ls1, c) <- lines_indent ls (s_prefix q) sp off ;;
    match s_line q with
    | None => UB
    | Some j => ' (ls2, d) <- line_indent ls1 j sp off ;; Ok (ls2, c || d)
    end
  else Ok (ls, false).

(** Parsed_File.hh:205-252 indent_recurse_.  The code takes the first branch,
    then size - 2 branches, then the last; here the loop looks at the index. *)
Section Recurse.
Variable it : Indent_Table.
Variable sts : list LL_Stmt.
Fixpoint indent_recurse (t : ptree) (sp : Z) (ls : lines) {struct t} : res (lines * bool) :=
  match t with
  | PT tag _ st kids =>
      match kids with
      | [] =>
          match st with
          | None => Ok (ls, false)
          | Some i =>
              match nth_error sts i with
              | None => UB
              | Some q => if s_compound q <? 2 then stmt_indent ls q sp (it_cont it) else Ok (ls, false)
              end
          end
      | _ :: _ =>
          let n := length kids in
          let be := begin_end_construct tag in
          _ <- assert_ (negb be || (2 <=? n)%nat) ;;
          d <- it_get it tag ;;
          (fix go (j : nat) (l : list ptree) (ls : lines) {struct l} : res (lines * bool) :=
             match l with
             | [] => Ok (ls, false)
             | k :: l' =>
                 let outer := be && ((j =? 0) || (S j =? n))%nat in
                 ' (ls1, c) <- indent_recurse k (if outer then sp else sp + d) ls ;;
                 ' (ls2, c') <- go (S j) l' ls1 ;;
                 Ok (ls2, c || c')
             end) 0%nat kids ls
      end
  end.
End Recurse.

(** LL_Stmt as seen by the parsers: label, tokens of the line, range *)
Definition src_of (ls : lines) (q : LL_Stmt) : source_stmt :=
  mkSource (s_label q)
    (match s_line q with
     | Some j => match nth_error ls j with Some l => l_frags l | None => [] end
     | None => []
     end) (fst (s_range q)) (snd (s_range q)).

(** Parsed_File.hh:60-64, 171-189 (statements, parse tree) and 104-108 indent, for
    a file that has been read.  If program() returns no tree, build_tree_
    dereferences the empty one.  [m], [n] bound the parsers. *)
Definition file_indent (exts : bool -> list ext) (m n : nat) (it : Indent_Table) (ls : lines) : out (lines * bool) :=
  match make_stmts (3 + length ls + length (flat_map l_stmts ls)) ls with
  | None => Fuel
  | Some r =>
      sts <~ lift r ;;
      if is_empty sts then Done (ls, false) else
      '(_, t, _) <~ parse_prgm (of_source exts m (map (src_of ls) sts)) n g_program ;;
      match t with
      | None => Bad
      | Some t => lift (indent_recurse it sts t 0 ls)
      end
  end.
