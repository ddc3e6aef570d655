(** Model of the program flpr-format: reading a stream, flpr_format_file and what is
    written.  apps/flpr_format_base.cc:32-124, 198-261, apps/flpr-format.cc,
    apps/flpr_format_base.hh:20-66, src/flpr/Logical_File.cc:53-64, src/flpr/Parsed_File.hh.

    Not modelled: timing and messages, ELABORATE_END_STMTS (nothing asks for it). *)
From Verif Require Import Base FileLine Token LogicalFile LogicalLine Lexer LineEdit StmtSrc Peg Prgm PrgmSource Convert ReadFile FormatApp Indent.
Local Open Scope nat_scope.

(** std::getline until it fails, Logical_File.cc:59-61: the last line may do without its newline *)
Fixpoint getlines (cur : str) (s : str) : list str :=
  match s with
  | [] => if is_empty cur then [] else [cur]
  | c :: r => if ceq c c_nl then cur :: getlines [] r else getlines (cur ++ [c]) r
  end.
(** Logical_Line.cc:884-891 print; flpr_format_base.cc:200-204 write_file *)
Definition print_lln (ll : LLn) : str := if l_suppress ll then [] else flat_map (fun f => print_line f ++ [c_nl]) (l_layout ll).
Definition write_file (ls : list LLn) : str := flat_map print_lln ls.

(** flpr_format_base.hh:20-66 Options, those that matter; do_output_ is not initialised *)
Record Options := mkOpt { o_fixed_to_free : bool; o_col72 : bool; o_reindent : bool; o_remove_empty : bool; o_split : bool; o_quiet : bool; o_output : option bool }.
(** flpr-format.cc:30-34 *)
Definition main_options : Options := mkOpt false false false true true false None.
(** flpr_format_base.cc:218-261, one letter; [None] for an unknown one *)
Definition cmd_option (o : Options) (c : ascii) : option Options :=
  let '(mkOpt f k i r s q w) := o in
  if ceq c "c"%char then Some (mkOpt f true i r s q w)
  else if ceq c "e"%char then Some o
  else if ceq c "f"%char then Some (mkOpt true k i r s q w)
  else if ceq c "i"%char then Some (mkOpt f k true r s q w)
  else if ceq c "o"%char then Some (mkOpt f k i r s q (Some true))
  else if ceq c "q"%char then Some (mkOpt f k i r s true (Some false))
  else if ceq c "t"%char then Some o
  else if ceq c "v"%char then Some o
  else None.
Fixpoint cmd_options (o : Options) (l : str) : option Options :=
  match l with [] => Some o | c :: r => match cmd_option o c with Some o' => cmd_options o' r | None => None end end.

(** Parsed_File.hh:73-101, 171-189: the statements and the tree are made, whether they are used or
    not.  No statements, no tree; if program() gives no tree, the root of an empty one is taken. *)
Definition prefetch (exts : bool -> list ext) (m n : nat) (ls : list LLn) : out (list LL_Stmt * option ptree) :=
  match make_stmts (3 + length ls + length (flat_map l_stmts ls)) ls with
  | None => Fuel
  | Some r =>
      sts <~ lift r ;;
      if is_empty sts then Done (sts, None) else
      '(_, t, _) <~ parse_prgm (of_source exts m (map (src_of ls) sts)) n g_program ;;
      match t with None => Bad | Some t => Done (sts, Some t) end
  end.
(** Parsed_File.hh:104-108 indent, with what was made *)
Definition indent_file (it : Indent_Table) (p : list LL_Stmt * option ptree) (ls : list LLn) : out (list LLn * bool) :=
  match snd p with None => Done (ls, false) | Some t => lift (indent_recurse it (fst p) t 0 ls) end.
(** flpr_format_base.cc:34-107, the transformations of a file that was read *)
Definition optionally {A} (b : bool) (f : A -> out (A * bool)) (x : A) : out (A * bool) := if b then f x else Done (x, false).
Definition format_lines (exts : bool -> list ext) (m n : nat) (it : Indent_Table) (o : Options) (ls : list LLn) : out (list LLn * bool) :=
  ' (ls1, c1) <~ optionally (o_fixed_to_free o) (fun l => lift (convert_file l)) ls ;;
  ' (ls2, c2) <~ optionally (o_remove_empty o && negb (o_split o)) (fun l => lift (remove_empty_stmts l)) ls1 ;;
  ' (ls3, c3) <~ optionally (o_split o) (fun l => lift (split_compound_stmts l)) ls2 ;;
  p <~ prefetch exts m n ls3 ;;
  ' (ls4, c4) <~ optionally (o_reindent o) (indent_file it p) ls3 ;;
  Done (ls4, c1 || c2 || c3 || c4).
(** :109-121: what is written; reading do_output_ before it is set is undefined *)
Definition format_file (exts : bool -> list ext) (m n : nat) (it : Indent_Table) (o : Options) (ls : list LLn) : out (option str) :=
  ' (ls', do_write) <~ format_lines exts m n it o ls ;;
  match o_output o with
  | None => Bad
  | Some w => Done (if w || (do_write && negb (o_quiet o)) then Some (write_file ls') else None)
  end.
(** flpr-format.cc:46-63 on a free-format file with the contents s: a file that is not read is passed over *)
Definition format_main_free (exts : bool -> list ext) (m n : nat) (o : Options) (s : str) : out (option str) :=
  match read_free (getlines [] s) with
  | Done ls => format_file exts m n (apply_emacs_indent it_init) o ls
  | Bad => Bad
  | Fuel => Fuel
  end.

(** Parsed_File.hh:55-58, 161-169: read_file on a new file, where [ok] is what read_and_scan
    returns: the value of read_file, and whether the file converts to true afterwards *)
Definition read_file (ok : bool) : bool * bool := let bad := negb ok in (bad, negb bad).
