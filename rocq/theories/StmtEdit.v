(** Model of the members of Logical_File that edit a statement inside the file
    (src/flpr/Logical_File.cc:295-473, LL_Stmt.hh).

    Simplifications: an iterator into [lines] is the position of the line (all
    stored ones are renumbered when a line is inserted, as list iterators stay with
    their elements); an iterator into the fragments of a line is an index, or
    nothing once its element is gone; the statement tree is only present or not. *)
From Verif Require Import Base Tags SyntaxTags FileLine LogicalFile LogicalLine Token Stmts StmtSrc Peg Lexer LineEdit.
Local Open Scope nat_scope.

(** LL_Stmt.hh:24-160 with its bases LL_TT_Range and TT_Range (Safe_List.hh:157-400):
    line_ref_ (nothing: ll_set_ is false), begin_, size_, end_, label_, compound_,
    prefix_lines, stmt_syntag_, stmt_tree_ (whether there is one), hook_ *)
Record FStmt := mkFS {
  fs_line : option nat;
  fs_beg : option nat;
  fs_size : nat;
  fs_end : option nat;
  fs_label : Z;
  fs_compound : Z;
  fs_prefix : list nat;
  fs_tag : Z;
  fs_tree : bool;
  fs_hook : bool }.
Record LFile := mkLF { lf_lines : list LLn; lf_stmts : list FStmt }.

(** what LL_Stmt_Src::move() gives, as a new element of ll_stmts *)
Definition from_src (s : LL_Stmt) : FStmt :=
  mkFS (s_line s) (Some (fst (s_range s))) (snd (s_range s) - fst (s_range s)) (Some (snd (s_range s))) (s_label s) (s_compound s) (s_prefix s)
    UNKNOWN false false.
(** Logical_File.cc:287-293 make_stmts on the file *)
Definition make_file (fuel : nat) (ls : list LLn) : option (res LFile) :=
  match make_stmts fuel ls with
  | Some (Ok l) => Some (Ok (mkLF ls (map from_src l)))
  | Some Throw => Some Throw
  | Some UB => Some UB
  | None => None
  end.

(** list::insert in front of position [k]: the iterators at and after it *)
Definition bump (k i : nat) : nat := if k <=? i then S i else i.
Definition bump_stmt (k : nat) (s : FStmt) : FStmt :=
  mkFS (option_map (bump k) (fs_line s)) (fs_beg s) (fs_size s) (fs_end s) (fs_label s) (fs_compound s) (map (bump k) (fs_prefix s))
    (fs_tag s) (fs_tree s) (fs_hook s).
Definition insert_at {A} (k : nat) (x : A) (l : list A) : list A := firstn k l ++ x :: skipn k l.
Definition insert_line (F : LFile) (k : nat) (ll : LLn) : LFile :=
  mkLF (insert_at k ll (lf_lines F)) (map (bump_stmt k) (lf_stmts F)).
Definition set_nth {A} (l : list A) (i : nat) (x : A) : list A := firstn i l ++ x :: skipn (S i) l.
Definition get {A} (l : list A) (i : nat) : res A := match nth_error l i with Some x => Ok x | None => UB end.

(** fragments_.erase(n, end()) on line [i] of [len] fragments: the iterators to the
    erased elements are lost, the one to the end is that of the shorter list *)
Definition cut_it (n len : nat) (e : option nat) : option nat :=
  match e with Some j => if j =? len then Some n else if j <? n then Some j else None | None => None end.
Definition cut_stmt (i n len : nat) (s : FStmt) : FStmt :=
  match fs_line s with
  | Some j => if j =? i
              then mkFS (fs_line s) (cut_it n len (fs_beg s)) (fs_size s) (cut_it n len (fs_end s)) (fs_label s) (fs_compound s) (fs_prefix s)
                     (fs_tag s) (fs_tree s) (fs_hook s)
              else s
  | None => s
  end.
(** init_from_layout() on line [i]: the fragments and their end are new *)
Definition lose_stmt (i : nat) (s : FStmt) : FStmt :=
  match fs_line s with
  | Some j => if j =? i
              then mkFS (fs_line s) None (fs_size s) None (fs_label s) (fs_compound s) (fs_prefix s) (fs_tag s) (fs_tree s) (fs_hook s)
              else s
  | None => s
  end.

(** LL_TT_Range.hh it(): assert(ll_set_) *)
Definition fs_it (s : FStmt) : res nat := match fs_line s with Some i => Ok i | None => UB end.
(** an iterator that is used *)
Definition valid (e : option nat) : res nat := match e with Some i => Ok i | None => UB end.
(** Safe_List.hh:229-232 empty(): a range that was default constructed is [bad_] *)
Definition fs_empty (s : FStmt) : res bool :=
  match fs_line s with
  | None => Ok true
  | Some _ =>
      b <- valid (fs_beg s) ;; e <- valid (fs_end s) ;; _ <- assert_ (b + fs_size s =? e) ;; Ok (fs_size s =? 0)
  end.
(** LL_Stmt.hh:37-42 update_range *)
Definition update_range (s : FStmt) (src : LL_Stmt) : FStmt :=
  mkFS (s_line src) (Some (fst (s_range src))) (snd (s_range src) - fst (s_range src)) (Some (snd (s_range src))) (s_label src) (s_compound src)
    (fs_prefix s) (fs_tag s) false (fs_hook s).
(** Logical_File.cc:319-332: the loop over the statements of the new line; [old] is
    ll_seq_orig, [new] ll_seq_new *)
Fixpoint update_all (old new : nat) (src : list LL_Stmt) (l : list FStmt) : res (list FStmt) :=
  match src with
  | [] => Ok l
  | x :: src' =>
      match l with
      | [] => UB
      | s :: l' =>
          i <- fs_it s ;; _ <- assert_ (i =? old) ;;
          let s' := update_range s x in
          j <- fs_it s' ;; _ <- assert_ (j =? new) ;;
          r <- update_all old new src' l' ;; Ok (s' :: r)
      end
  end.
(** LL_Stmt_Src{ll, ...} on one line: the statements that advance() yields *)
Definition line_src (ll : LLn) (i : nat) : res (list LL_Stmt) :=
  ' (buf, _, _) <- refill [ll] i ;; Ok buf.

(** ll_stmts.end() is a default constructed LL_Stmt (Safe_List.hh) *)
Definition fs_default : FStmt := mkFS None None 0 None 0 (-1) [] UNKNOWN false false.
Definition get_stmt (F : LFile) (p : nat) : res FStmt :=
  if p =? length (lf_stmts F) then Ok fs_default else get (lf_stmts F) p.

(** Logical_File.cc:295-335 split_compound_before *)
Definition split_compound_before (F : LFile) (p : nat) : res (LFile * bool) :=
  s <- get_stmt F p ;;
  if (fs_compound s <? 2)%Z then Ok (F, false) else
  match p with
  | O => UB
  | S q =>
      prev <- get (lf_stmts F) q ;;
      e <- fs_empty prev ;; _ <- assert_ (negb e) ;;
      _ <- assert_ (fs_compound prev + 1 =? fs_compound s)%Z ;;
      i <- fs_it prev ;; i' <- fs_it s ;; _ <- assert_ (i =? i') ;;
      ll <- get (lf_lines F) i ;;
      b <- valid (fs_beg prev) ;;
      let last := b + fs_size prev - 1 in
      ' (l1, o) <- split_after ll last ;;
      match o with
      | None => UB                                            (* assert(res) *)
      | Some l2 =>
          let l1 := redo_stmts l1 in
          _ <- assert_ (negb (is_empty (l_stmts l1))) ;;
          let l2 := redo_stmts l2 in
          _ <- assert_ (negb (is_empty (l_stmts l2))) ;;
          _ <- assert_ (length (l_stmts l1) + length (l_stmts l2) =? length (l_stmts ll)) ;;
          let F1 := insert_line F (S i) l2 in
          let sts := map (cut_stmt i (S last) (length (l_frags ll))) (lf_stmts F1) in
          src <- line_src l2 (S i) ;;
          sts' <- update_all i (S i) src (skipn p sts) ;;
          _ <- assert_ (length src =? length (l_stmts l2)) ;;
          Ok (mkLF (set_nth (lf_lines F1) i l1) (firstn p sts ++ sts'), true)
      end
  end.
(** :337-344 isolate_stmt *)
Definition isolate_stmt (F : LFile) (p : nat) : res (LFile * bool) :=
  ' (F1, r1) <- split_compound_before F p ;;
  if S p =? length (lf_stmts F1) then Ok (F1, r1) else
  ' (F2, r2) <- split_compound_before F1 (S p) ;; Ok (F2, orb r1 r2).

(** LL_Stmt.hh:107-120 prefix_ll_begin, prefix_ll_end *)
Definition prefix_begin (s : FStmt) : res nat := match fs_prefix s with [] => fs_it s | i :: _ => Ok i end.
Definition prefix_end (s : FStmt) : res nat := match rev (fs_prefix s) with [] => fs_it s | i :: _ => Ok (S i) end.
(** LL_Stmt.hh:89-95 set_stmt_syntag *)
Definition set_syntag (s : FStmt) (tag : Z) : FStmt :=
  mkFS (fs_line s) (fs_beg s) (fs_size s) (fs_end s) (fs_label s) (fs_compound s) (fs_prefix s) tag
    (if (tag =? fs_tag s)%Z then fs_tree s else false) (fs_hook s).
Definition with_prefix (s : FStmt) (l : list nat) : FStmt :=
  mkFS (fs_line s) (fs_beg s) (fs_size s) (fs_end s) (fs_label s) (fs_compound s) l (fs_tag s) (fs_tree s) (fs_hook s).
(** LL_Stmt_Src ss{ll_new, true}; ss.move() *)
Definition first_src (ll : LLn) (i : nat) : res FStmt :=
  l <- line_src ll i ;; match l with [] => UB | x :: _ => Ok (from_src x) end.

(** :346-370 emplace_ll_stmt; the new statement is number [p] *)
Definition emplace_ll_stmt (F : LFile) (p : nat) (ll : LLn) (tag : Z) : res LFile :=
  _ <- assert_ (negb (is_empty (l_stmts ll))) ;;
  _ <- assert_ (length (l_stmts ll) =? 1) ;;
  s <- get_stmt F p ;;
  ' (F1, _) <- (if (1 <? fs_compound s)%Z then split_compound_before F p else Ok (F, false)) ;;
  s <- get_stmt F1 p ;;
  k <- prefix_begin s ;;
  let F2 := insert_line F1 k ll in
  n <- first_src ll k ;;
  Ok (mkLF (lf_lines F2) (insert_at p (set_syntag n tag) (lf_stmts F2))).
(** :372-397 emplace_ll_stmt_after_prefix *)
Definition emplace_after_prefix (F : LFile) (p : nat) (ll : LLn) (tag : Z) : res LFile :=
  _ <- assert_ (negb (is_empty (l_stmts ll))) ;;
  _ <- assert_ (length (l_stmts ll) =? 1) ;;
  s <- get_stmt F p ;;
  if is_empty (fs_prefix s) then emplace_ll_stmt F p ll tag else
  _ <- assert_ (fs_compound s <? 2)%Z ;;
  k <- prefix_end s ;;
  let F1 := insert_line F k ll in
  n <- first_src ll k ;;
  s <- get_stmt F1 p ;;
  k' <- prefix_end s ;; _ <- assert_ (k' =? k) ;;
  Ok (mkLF (lf_lines F1) (firstn p (lf_stmts F1) ++ with_prefix (set_syntag n tag) (fs_prefix s) :: with_prefix s [] :: skipn (S p) (lf_stmts F1))).

(** TT_Range assign_range: the range of the first statement of the line *)
Definition assign_range (s : FStmt) (ll : LLn) : res FStmt :=
  match l_stmts ll with
  | [] => UB
  | (b, e) :: _ => Ok (mkFS (fs_line s) (Some b) (e - b) (Some e) (fs_label s) (fs_compound s) (fs_prefix s) (fs_tag s) (fs_tree s) (fs_hook s))
  end.
Definition drop_tree (s : FStmt) : FStmt :=
  mkFS (fs_line s) (fs_beg s) (fs_size s) (fs_end s) (fs_label s) (fs_compound s) (fs_prefix s) (fs_tag s) false (fs_hook s).
Definition unhook (s : FStmt) : FStmt :=
  mkFS (fs_line s) (fs_beg s) (fs_size s) (fs_end s) (fs_label s) (fs_compound s) (fs_prefix s) (fs_tag s) (fs_tree s) false.

(** What the editing members share: put the statement on a line of its own, edit
    that line by [edit] (given the line and the statement), take the range from it.
    [one]: the assertions on stmts() are there. *)
Definition edit_line (edit : LLn -> FStmt -> out (LLn * LS)) (one : bool) (fin : FStmt -> FStmt) (F : LFile) (p : nat) : out (LFile * LS) :=
  ' (F1, _) <~ lift (isolate_stmt F p) ;;
  s <~ lift (get_stmt F1 p) ;;
  i <~ lift (fs_it s) ;;
  ll <~ lift (get (lf_lines F1) i) ;;
  ' (ll', st') <~ edit ll s ;;
  _ <~ lift (assert_ (negb one || (length (l_stmts ll') =? 1))) ;;
  s' <~ lift (assign_range s ll') ;;
  Done (mkLF (set_nth (lf_lines F1) i ll') (set_nth (map (lose_stmt i) (lf_stmts F1)) p (fin s')), st').
(** :399-411 replace_stmt_text.  (An empty text leaves the line as it is, so that
    no iterator is lost; it is excluded.) *)
Definition replace_stmt_text (st : LS) (F : LFile) (p : nat) (ts : list str) (tag : Z) : out (LFile * LS) :=
  match ts with
  | [] => Bad
  | _ => edit_line (fun ll _ => replace_main_text st ll ts) true (fun s => unhook (set_syntag s tag)) F p
  end.
(** :413-436 replace_stmt_substr: of the fragments [b, e) of the statement, counted
    from its first *)
Definition replace_substr (st : LS) (F : LFile) (p : nat) (b e : nat) (text : str) : out (LFile * LS) :=
  edit_line (fun ll _ => replace_stmt_substr st ll b e text) true (fun s => unhook (drop_tree s)) F p.
(** :438-448 insert_text_after *)
Definition insert_after (st : LS) (F : LFile) (p : nat) (n : nat) (text : str) : out (LFile * LS) :=
  edit_line (fun ll _ => insert_text_after st ll n text) false (fun s => unhook (drop_tree s)) F p.
(** :450-461 append_stmt_text *)
Definition append_stmt_text (st : LS) (F : LFile) (p : nat) (text : str) : out (LFile * LS) :=
  edit_line (fun ll s => e <~ lift (valid (fs_end s)) ;; insert_text_before st ll e text) true (fun s => unhook (drop_tree s)) F p.
(** :463-473 set_stmt_label *)
Definition set_stmt_label (F : LFile) (p : nat) (n : Z) : res (LFile * bool) :=
  _ <- assert_ (negb (n <? 0)%Z) ;;
  s <- get_stmt F p ;;
  let has := (0 <? fs_label s)%Z in
  if negb has && (n =? 0)%Z then Ok (F, false) else
  ' (F1, _) <- (if has then Ok (F, false) else split_compound_before F p) ;;
  s <- get_stmt F1 p ;;
  i <- fs_it s ;;
  ll <- get (lf_lines F1) i ;;
  ' (ll', r) <- ll_set_label ll n ;;
  Ok (mkLF (set_nth (lf_lines F1) i ll')
       (set_nth (lf_stmts F1) p (mkFS (fs_line s) (fs_beg s) (fs_size s) (fs_end s) (l_label ll') (fs_compound s) (fs_prefix s) (fs_tag s) (fs_tree s) (fs_hook s))), r).
