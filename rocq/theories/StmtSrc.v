(** Model of LL_Stmt_Src and Logical_File::make_stmts
    (src/flpr/LL_Stmt_Src.hh, .cc; Logical_File.cc:287-293). *)
From Verif Require Import Base Tags SyntaxTags FileLine Token Stmts LogicalLine.
Local Open Scope Z_scope.

(** LL_Stmt.hh:24-50: a statement refers to its logical line (by index), its
    fragment range, label and compound number; prefix_lines are indices of
    logical lines.  The default constructed LL_Stmt (made for a macro line) has
    no line. *)
Record LL_Stmt := mkStmt {
  s_line : option nat;
  s_range : nat * nat;
  s_label : Z;
  s_compound : Z;
  s_prefix : list nat
}.
Definition is_macro (c : LineCat) : bool := match c with CAT_MACRO => true | _ => false end.

(** LL_Stmt_Src.cc:24-31: skip the lines without statements; [i] is the index of
    the head of [ls].  (make_macro_stmts is false.) *)
Fixpoint skip_prefix (ls : list LLn) (i : nat) (prefix : list nat) : list nat * list LLn * nat :=
  match ls with
  | [] => (prefix, [], i)
  | l :: r =>
      if is_empty (l_stmts l)
      then skip_prefix r (S i) (if l_suppress l then prefix else prefix ++ [i])
      else (prefix, ls, i)
  end.

(** LL_Stmt_Src.cc:46-56: the statements of one line *)
Fixpoint line_stmts (i : nat) (rs : list (nat * nat)) (label compound : Z) (prefix : list nat)
  : list LL_Stmt :=
  match rs with
  | [] => []
  | r :: rs' => mkStmt (Some i) r label compound prefix :: line_stmts i rs' 0 (compound + 1) []
  end.

(** LL_Stmt_Src.cc:18-69 refill_: new buffer and position *)
Definition refill (ls : list LLn) (i : nat) : res (list LL_Stmt * list LLn * nat) :=
  let '(prefix, ls', j) := skip_prefix ls i [] in
  match ls' with
  | [] => Ok ([], [], j)
  | l :: r =>
      _ <- assert_ (negb (l_suppress l)) ;;
      let buf :=
        if is_macro (l_cat l) then [mkStmt None (0%nat, 0%nat) 0 (-1) (prefix ++ [j])]
        else line_stmts j (l_stmts l) (l_label l) (if (1 <? length (l_stmts l))%nat then 1 else 0) prefix in
      Ok (buf, r, S j)
  end.

(** LL_Stmt_Src: it_ (the remaining lines and the index of the first), buf_ and
    curr_ as the rest of the buffer. *)
Record Src := mkSrc { src_rest : list LLn; src_i : nat; src_buf : list LL_Stmt }.

(** LL_Stmt_Src.hh:96-100 more_avail_; refill_ consumes a line, so the number of
    remaining lines bounds the iterations. *)
Fixpoint more_avail (fuel : nat) (s : Src) : option (res (bool * Src)) :=
  match fuel with
  | O => None
  | S f =>
      match src_buf s, src_rest s with
      | [], _ :: _ =>
          match refill (src_rest s) (src_i s) with
          | Ok (b, r, j) => more_avail f (mkSrc r j b)
          | Throw => Some Throw
          | UB => Some UB
          end
      | b, _ => Some (Ok (negb (is_empty b), s))
      end
  end.

(** LL_Stmt_Src.hh:72-84 advance *)
Definition src_advance (fuel : nat) (s : Src) : option (res (bool * Src)) :=
  let s' := mkSrc (src_rest s) (src_i s) (tl (src_buf s)) in
  match src_buf s' with
  | [] => more_avail fuel s'
  | _ => Some (Ok (true, s'))
  end.

(** Logical_File.cc:287-293 make_stmts *)
Fixpoint make_stmts_loop (fuel : nat) (s : Src) : option (res (list LL_Stmt)) :=
  match fuel with
  | O => None
  | S f =>
      match src_advance (S f) s with
      | None => None
      | Some Throw => Some Throw
      | Some UB => Some UB
      | Some (Ok (false, _)) => Some (Ok [])
      | Some (Ok (true, s')) =>
          match src_buf s' with
          | [] => Some UB
          | x :: _ =>
              match make_stmts_loop f s' with
              | Some (Ok l) => Some (Ok (x :: l))
              | o => o
              end
          end
      end
  end.
Definition make_stmts (fuel : nat) (ls : list LLn) : option (res (list LL_Stmt)) :=
  make_stmts_loop fuel (mkSrc ls 0 []).
