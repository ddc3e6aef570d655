(** Model of the statement segmentation of a Logical_Line
    (src/flpr/Logical_Line.cc:639-720, Logical_Line.hh:190-211).  A TT_Range over
    the fragments is a pair of indices [b, e). *)
From Verif Require Import Base Tags SyntaxTags Token.
Local Open Scope nat_scope.

(** Logical_Line.cc:692-720 init_stmts: the loop at fragment index i; [sb] is
    s_beg if stmt_beg_init. Result: stmts_ and num_semicolons_. *)
Fixpoint init_stmts_loop (l : list Token) (i : nat) (sb : option nat) : list (nat * nat) * nat :=
  match l with
  | [] =>
      match sb with
      | Some b => if b =? i then ([], 0) else ([(b, i)], 0)
      | None => ([], 0)
      end
  | x :: r =>
      let b := match sb with Some b => b | None => i end in
      if is_semi x then
        let '(st, n) := init_stmts_loop r (S i) None in
        ((if b =? i then st else (b, i) :: st), S n)
      else init_stmts_loop r (S i) (Some b)
  end.
Definition init_stmts (frags : list Token) : list (nat * nat) * nat := init_stmts_loop frags 0 None.

(** Logical_Line.hh:190-194, for initialised statements *)
Definition has_empty_statements (stmts : list (nat * nat)) (num_semicolons : nat) : bool :=
  (0 <? num_semicolons) && (length stmts <=? num_semicolons).

(** Logical_Line.cc:642-648: the leading semicolons *)
Fixpoint drop_semis (l : list Token) : list Token :=
  match l with
  | x :: r => if is_semi x then drop_semis r else l
  | [] => []
  end.
(** Logical_Line.cc:650-657: the trailing semicolons *)
Definition drop_semis_back (l : list Token) : list Token := rev (drop_semis (rev l)).

(** Logical_Line.cc:661-672: clear the text of each semicolon that follows a
    semicolon; the flag is internal_empty. *)
Fixpoint clear_second (prev_semi : bool) (l : list Token) : list Token * bool :=
  match l with
  | [] => ([], false)
  | x :: r =>
      let '(r', c) := clear_second (is_semi x) r in
      if prev_semi && is_semi x then (set_text x [] :: r', true) else (x :: r', c)
  end.

(** Logical_Line.cc:639-689, the fragments and the returned flag; [nstmts] is
    stmts_.size().  stmts_.back() of an empty vector is undefined. *)
Definition remove_empty_frags (frags : list Token) (nstmts : nat) : res (list Token * bool) :=
  let f1 := drop_semis frags in
  let changed := negb (length f1 =? length frags) in
  let f2 := drop_semis_back f1 in
  let back_changed := negb (length f2 =? length f1) in
  let '(f3, changed) :=
    if 1 <? nstmts then
      let '(g, internal_empty) := clear_second false f2 in
      if internal_empty
      then (filter (fun x => negb (is_semi x && is_empty (tk_text x))) g, true)
      else (g, changed)
    else (f2, changed) in
  _ <- assert_ (negb back_changed || (0 <? nstmts)) ;;
  Ok (f3, changed || back_changed).
