(** Model of the program flpr_show_cst (apps/flpr_show_cst.cc) and of what it prints
    (src/flpr/Tree.hh:259-270, 727-732, src/flpr/Stmt_Tree.cc:47-49, src/flpr/LL_Stmt.cc:84-106).

    What goes to std::cerr is left out.  The lines are free format (:22). *)
From Verif Require Import Base Tags SyntaxTags FileLine Token TTStream StmtRules Peg StmtGrammar StmtParser LogicalFile LogicalLine Prgm PrgmSource
  StmtSrc Lexer ReadFile Indent FormatMain.
Local Open Scope nat_scope.

(** :29-44: the lines up to the first empty one *)
Fixpoint input_lines (raws : list str) : list str :=
  match raws with
  | [] => []
  | l :: r => if is_empty l then [] else l :: input_lines r
  end.
(** :86-90: the tags of statements *)
Definition type5 (t : Z) : bool := match tag_type [] t with Ok k => (k =? 5)%Z | _ => false end.
Definition sg_tags : list Z := map (fun k => (SG_000_LB + 1 + Z.of_nat k)%Z) (seq 0 (Z.to_nat (SG_ZZZ_UB - SG_000_LB - 1))).
Definition show_tags : list Z := filter type5 sg_tags.

(** :86-100: one stream for all parsers, set back after a tree was found; the trees with their numbers *)
Fixpoint show_loop (exts : bool -> list ext) (n : nat) (tags : list Z) (results : nat) (ts : stream) : out (list (nat * stree)) :=
  match tags with
  | [] => Done []
  | t :: r =>
      ' (st, ts1) <~ parse_stmt_dispatch exts n t ts ;;
      match st with
      | None => show_loop exts n r results ts1
      | Some x => rest <~ show_loop exts n r (results + 1) (rewind0 ts1) ;; Done ((results + 1, x) :: rest)
      end
  end.

(** Tree.hh:259-270 with Stmt_Tree.cc:47-49 *)
Fixpoint print_tree (t : stree) : res str :=
  match t with
  | ST tag _ kids =>
      h <- tag_label [] tag ;;
      match kids with
      | [] => Ok h
      | _ => b <- (fix go (l : list stree) : res str := match l with [] => Ok [] | k :: r => x <- print_tree k ;; y <- go r ;; Ok (x ++ L " " ++ y) end) kids ;; Ok (h ++ L " <" ++ b ++ L ">")
      end
  end.
(** LL_Stmt.cc:84-106 print_me of a statement that is not empty, with its prefix lines; the file is called "Line" (:52-53).
    linenum() is the line of its first token (LL_TT_Range.hh:63-67), start_line() of a prefix line the number of its first line (Logical_Line.hh:124-128). *)
Definition print_prefix (ls : list LLn) (j : nat) : res str :=
  match nth_error ls j with
  | Some l => Ok (L "Line:" ++ to_dec_z (match l_layout l with [] => (-1)%Z | f :: _ => linenum f end) ++ L ":" ++ [c_nl] ++ print_lln l)
  | None => UB
  end.
Fixpoint print_all {A} (f : A -> res str) (l : list A) : res str := match l with [] => Ok [] | x :: r => a <- f x ;; b <- print_all f r ;; Ok (a ++ b) end.
Definition stmt_tokens (q : source_stmt) : list Token := firstn (ss_end q - ss_beg q) (skipn (ss_beg q) (ss_frags q)).
Definition print_stmt (ls : list LLn) (st : LL_Stmt) : res str :=
  match stmt_tokens (src_of ls st) with
  | [] => Ok (L "? : <empty stmt>")
  | t :: r => p <- print_all (print_prefix ls) (s_prefix st) ;; x <- render (t :: r) ;; Ok (p ++ L "Line:" ++ to_dec_z (tk_line t) ++ L ": " ++ x)
  end.
(** :92-104, what is written to std::cout for one statement *)
Definition result_line (r : nat * stree) : res str := x <- print_tree (snd r) ;; Ok (to_dec_z (Z.of_nat (fst r)) ++ L ": " ++ x ++ [c_nl]).
Definition show_stmt (exts : bool -> list ext) (n : nat) (ls : list LLn) (st : LL_Stmt) : out str :=
  let q := src_of ls st in
  rs <~ show_loop exts n show_tags 0 (stream_of (ss_frags q) (ss_beg q) (ss_end q)) ;;
  match rs with
  | [] => lift (x <- print_stmt ls st ;; Ok (L "Unrecognized: " ++ x ++ [c_nl]))
  | _ => lift (print_all result_line rs)
  end.
(** :74-105 *)
Fixpoint show_stmts (exts : bool -> list ext) (n : nat) (ls : list LLn) (sts : list LL_Stmt) : out str :=
  match sts with
  | [] => Done []
  | st :: r => a <~ show_stmt exts n ls st ;; b <~ show_stmts exts n ls r ;; Done (a ++ b)
  end.
(** :20-105: the value returned by main, and what was written *)
Definition show_cst (exts : bool -> list ext) (n : nat) (s : str) : out (nat * str) :=
  let raws := input_lines (getlines [] s) in
  if is_empty raws then Done (1, []) else
  match scan_free (length raws) raws with
  | None => Fuel
  | Some Throw => Done (2, [])
  | Some UB => Bad
  | Some (Ok lls) =>
      ls <~ read_lines ls_init lls ;;
      match make_stmts (3 + length ls + length (flat_map l_stmts ls)) ls with
      | None => Fuel
      | Some r => sts <~ lift r ;; x <~ show_stmts exts n ls sts ;; Done (0, x)
      end
  end.
