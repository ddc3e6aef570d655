(** Model of the code that finds its way in statement trees: LL_Stmt (its tree and
    kind), Procedure::name, rename and complete_end_stmt, and the walks of the
    applications module and caliper.

    A cursor is the node it points to and the siblings to the right of it; a move
    that the code makes without asking is undefined if there is nothing to move to
    (Tree.hh:353-388, see Tree.v and C18).  [fr] are the fragments of the line. *)
From Verif Require Import Base Tags SyntaxTags Token TTStream StmtRules Peg StmtGrammar StmtParser LogicalLine LineEdit.
Local Open Scope nat_scope.

(** Tree.hh:495-531 *)
Definition scur := (stree * list stree)%type.
Definition w_root (t : stree) : scur := (t, []).
Definition w_tag (c : scur) : Z := t_tag (fst c).
Definition w_has_down (c : scur) : bool := negb (length (t_kids (fst c)) =? 0).
Definition w_down (c : scur) : res scur := match t_kids (fst c) with [] => UB | k :: ks => Ok (k, ks) end.
Definition w_has_next (c : scur) : bool := negb (length (snd c) =? 0).
Fixpoint w_next (n : nat) (c : scur) : res scur :=
  match n with
  | O => Ok c
  | S n' => match snd c with [] => UB | k :: ks => w_next n' (k, ks) end
  end.
(** try_next(n): where it gets, or nothing if there are fewer *)
Fixpoint w_try_next (n : nat) (c : scur) : option scur :=
  match n with
  | O => Some c
  | S n' => match snd c with [] => None | k :: ks => w_try_next n' (k, ks) end
  end.
Definition w_is (c : scur) (g : Z) : res unit := assert_ (w_tag c =? g)%Z.

(** assert(s->token_range.size() == 1); s->token_range.begin() *)
Definition the_token (t : stree) : res nat :=
  match t_rng t with Some (b, e) => _ <- assert_ (e - b =? 1) ;; Ok b | None => UB end.
(** ... .front().text(); Token_Text.hh lower() *)
Definition text_at (fr : list Token) (p : nat) : res str := match nth_error fr p with Some x => Ok (tk_text x) | None => UB end.
Definition lower_at (fr : list Token) (p : nat) : res str := w <- text_at fr p ;; Ok (map lower_b w).

(** ** LL_Stmt.hh:74-104, LL_Stmt.cc:40-84.  [st_src] is the stream TT_Stream{*this} *)
Record lstmt := mkSt { st_src : stream; st_tree : option stree; st_tag : Z }.
Definition extract_tag (o : option stree) : res Z :=
  match o with
  | None => Ok UNKNOWN
  | Some t => if (t_tag t =? SG_ACTION_STMT)%Z then c <- w_down (w_root t) ;; Ok (w_tag c) else Ok (t_tag t)
  end.
Definition set_stmt_tree (x : lstmt) (o : option stree) : res lstmt := g <- extract_tag o ;; Ok (mkSt (st_src x) o g).
Definition drop_stmt_tree (x : lstmt) : lstmt := mkSt (st_src x) None (st_tag x).
Definition set_stmt_syntag (x : lstmt) (g : Z) : lstmt := mkSt (st_src x) (if (g =? st_tag x)%Z then st_tree x else None) g.
Definition rebuild_tree (exts : bool -> list ext) (n : nat) (x : lstmt) : out (lstmt * bool) :=
  if (st_tag x =? UNKNOWN)%Z then Done (x, false) else
  '(o, _) <~ parse_stmt_dispatch exts n (if is_action_stmt (st_tag x) then SG_ACTION_STMT else st_tag x) (st_src x) ;;
  x' <~ lift (set_stmt_tree x o) ;;
  Done (x', match o with Some _ => true | None => false end).
Definition stmt_tree (exts : bool -> list ext) (n : nat) (x : lstmt) : out (lstmt * stree) :=
  '(x, ok) <~ (match st_tree x with Some _ => Done (x, true) | None => rebuild_tree exts n x end) ;;
  _ <~ lift (assert_ ok) ;;
  match st_tree x with Some t => Done (x, t) | None => Bad end.
(** LL_Stmt.cc:45-53 *)
Definition into_if (t : stree) : res scur :=
  let c := w_root t in
  _ <- w_is c SG_ACTION_STMT ;; c <- w_down c ;;
  _ <- w_is c SG_IF_STMT ;; c <- w_down c ;;
  _ <- w_is c KW_IF ;; c <- w_next 4 c ;;
  _ <- w_is c SG_ACTION_STMT ;; Ok c.
Definition stmt_tag (exts : bool -> list ext) (n : nat) (x : lstmt) (look : bool) : out (lstmt * Z) :=
  if look && (st_tag x =? SG_IF_STMT)%Z then
    '(x, t) <~ stmt_tree exts n x ;;
    c <~ lift (into_if t) ;; c <~ lift (w_down c) ;; Done (x, (- w_tag c)%Z)
  else Done (x, st_tag x).

(** ** Procedure.hh *)

(** :345-352, and again in rename :370-377: to the name in the first statement *)
Definition to_name (t : stree) : res nat :=
  s <- w_down (w_root t) ;;
  s <- (if (w_tag s =? SG_PREFIX)%Z then w_next 1 s else Ok s) ;;
  s <- w_next 1 s ;;
  s <- (if (w_tag s =? KW_PROCEDURE)%Z then w_next 1 s else Ok s) ;;
  the_token (fst s).
(** :340-354 name; [None]: a main program without a program statement *)
Definition proc_name (fr : list Token) (begin : option stree) : res str :=
  match begin with
  | None => Ok []
  | Some t => p <- to_name t ;; text_at fr p
  end.
(** :386-393: the name in the end statement, if it has one *)
Definition to_end_name (t : stree) : res (option nat) :=
  s <- w_down (w_root t) ;;
  match w_try_next 2 s with
  | Some s => b <- is_name_tag (w_tag s) ;; _ <- assert_ b ;; p <- (match t_rng (fst s) with Some (b, _) => Ok b | None => UB end) ;; Ok (Some p)
  | None => Ok None
  end.
(** :356-396 rename of a procedure that has a first statement.  The statement is on
    line [i] with the tree [tb], the end statement on line [j] with the tree [te];
    the trees keep pointing to their tokens, as replace_fragment changes them in
    place. *)
Definition line_at (ls : list LLn) (i : nat) : res LLn := match nth_error ls i with Some x => Ok x | None => UB end.
Definition put_line (ls : list LLn) (i : nat) (x : LLn) : list LLn := firstn i ls ++ x :: skipn (S i) ls.
Definition put_name (ls : list LLn) (i p : nat) (new_name : str) : res (list LLn) :=
  ll <- line_at ls i ;; ll <- replace_fragment ll p TK_NAME new_name ;; Ok (put_line ls i ll).
Definition rename (ls : list LLn) (i : nat) (tb : stree) (j : nat) (te : stree) (new_name : str) : res (list LLn * bool) :=
  ll <- line_at ls i ;;
  old <- proc_name (l_frags ll) (Some tb) ;;
  if list_eq_dec ascii_dec new_name old then Ok (ls, false) else
  p <- to_name tb ;;
  ls <- put_name ls i p new_name ;;
  q <- to_end_name te ;;
  ls <- (match q with Some q => put_name ls j q new_name | None => Ok ls end) ;;
  Ok (ls, true).
(** :398-436 the text that complete_end_stmt appends to the end statement; [g] is
    subprogram_tag_ *)
Definition kind_word (g : Z) : str :=
  if (g =? PG_FUNCTION_SUBPROGRAM)%Z then L " function "
  else if (g =? PG_SUBROUTINE_SUBPROGRAM)%Z then L " subroutine "
  else if (g =? PG_SEPARATE_MODULE_SUBPROGRAM)%Z then L " procedure "
  else if (g =? PG_MAIN_PROGRAM)%Z then L " program "
  else [].
Definition end_suffix (g : Z) (fr : list Token) (begin : option stree) (te : stree) : res str :=
  es <- w_down (w_root te) ;;
  _ <- w_is es KW_END ;;
  if negb (w_has_next es) then
    let suffix := kind_word g in
    _ <- assert_ (negb (length suffix =? 0)) ;;
    nm <- proc_name fr begin ;; Ok (suffix ++ nm)
  else
    es <- w_next 1 es ;;
    if negb (w_has_next es) then
      match begin with Some _ => nm <- proc_name fr begin ;; Ok (L " " ++ nm) | None => Ok [] end
    else Ok [].

(** ** apps/module_base.cc *)

(** :108-158 has_call_named; [g] is stmt.syntax_tag(), [t] its tree *)
Fixpoint w_last (k : stree) (ks : list stree) : stree := match ks with [] => k | x :: r => w_last x r end.
Definition has_call_named (fr : list Token) (g : Z) (t : stree) (names : list str) : res bool :=
  if negb (SG_CALL_STMT =? g)%Z && negb (SG_IF_STMT =? g)%Z then Ok false else
  c <- (if (SG_IF_STMT =? g)%Z then into_if t else Ok (w_root t)) ;;
  _ <- w_is c SG_ACTION_STMT ;; c <- w_down c ;;
  if negb (SG_CALL_STMT =? w_tag c)%Z then Ok false else
  c <- w_down c ;; _ <- w_is c KW_CALL ;;
  c <- w_next 1 c ;; _ <- w_is c SG_PROCEDURE_DESIGNATOR ;;
  c <- w_down c ;;
  let x := if (SG_PART_REF =? w_tag c)%Z then w_last (fst c) (snd c) else fst c in
  _ <- assert_ (t_tag x =? TK_NAME)%Z ;;
  match t_rng x with
  | Some (p, _) => nm <- lower_at fr p ;; Ok (if in_dec (list_eq_dec ascii_dec) nm names then true else false)
  | None => UB
  end.
(** :160-171 find_use_module_name *)
Definition find_use_module_name (t : stree) : res stree :=
  let c := w_root t in
  _ <- w_is c SG_USE_STMT ;; c <- w_down c ;;
  _ <- w_is c KW_USE ;; c <- w_next 1 c ;;
  c <- (if (w_tag c =? TK_COMMA)%Z then w_next 2 c else Ok c) ;;
  c <- (if (w_tag c =? TK_DBL_COLON)%Z then w_next 1 c else Ok c) ;;
  _ <- w_is c TK_NAME ;; Ok (fst c).

(** ** apps/caliper.cc *)

(** :157-178 exclude_procedure, of a procedure with a first statement *)
Fixpoint any_spec (l : list stree) : res bool :=
  match l with
  | [] => Ok false
  | x :: r =>
      _ <- assert_ (t_tag x =? SG_PREFIX_SPEC)%Z ;;
      c <- w_down (w_root x) ;;
      if (w_tag c =? KW_PURE)%Z || (w_tag c =? KW_ELEMENTAL)%Z then Ok true else any_spec r
  end.
Definition exclude_procedure (t : stree) : res bool :=
  s <- w_down (w_root t) ;;
  if (w_tag s =? SG_PREFIX)%Z && w_has_down s then any_spec (t_kids (fst s)) else Ok false.
