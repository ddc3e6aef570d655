(** Model of the statement ranges of a Logical_Line as iterators into its
    fragments: init_stmts, remove_empty_statements, and copying, assigning and
    moving a line (src/flpr/Logical_Line.cc:28-65, 639-721, Logical_Line.hh:66-74,
    Safe_List.hh:319-335).

    Stmts.v has init_stmts and remove_empty_statements on the sequence of tokens;
    here the nodes of the list have identities (SafeList.v), so that a range that
    refers to another line, or to an erased token, is a wrong one. *)
From Verif Require Import Base Token Stmts SafeList.
Local Open Scope nat_scope.

Section LineCopy.
Variable D : Type.       (* file_info, label, cat, suppress, needs_reformat, layout_ *)
Variable tok0 : Token.   (* Token_Text() *)

Record LineIt := mkLI { li_data : D; li_nsemi : Z; li_frags : @SL Token; li_stmts : list Range }.

(** Logical_Line.cc:699-720: the loop of init_stmts from a node on; [sb] is s_beg
    when stmt_beg_init.  Running past end() is undefined. *)
Fixpoint it_loop (s : @SL Token) (ns : list (nat * Token)) (sb : option nat) : res (list Range * nat) :=
  match ns with
  | [] => UB
  | (i, x) :: r =>
      if i =? my_end s then
        match sb with
        | Some b => if b =? i then Ok ([], 0) else rg <- range_make s b i ;; Ok ([rg], 0)
        | None => Ok ([], 0)
        end
      else
        let b := match sb with Some b => b | None => i end in
        if is_semi x then
          rgs <- (if b =? i then Ok [] else rg <- range_make s b i ;; Ok [rg]) ;;
          ' (st, n) <- it_loop s r None ;;
          Ok (rgs ++ st, S n)
        else it_loop s r (Some b)
  end.
(** :692-721 *)
Definition it_init (s : @SL Token) : res (list Range * nat) := it_loop s (nodes s) None.
Definition li_init (l : LineIt) : res LineIt :=
  ' (st, n) <- it_init (li_frags l) ;; Ok (mkLI (li_data l) (Z.of_nat n) (li_frags l) st).

(** Safe_List.hh:328-335 rebase *)
Definition rebase (src : @SL Token) (srcb : nat) (r : Range) (cpy : @SL Token) (cpyb : nat) : res Range :=
  n <- distance src srcb (r_begin r) ;;
  m <- distance src srcb (r_end r) ;;
  b <- next_n cpy cpyb n ;;
  e <- next_n cpy cpyb m ;;
  range_make cpy b e.
(** std::transform over the statements *)
Fixpoint rebase_all (src : @SL Token) (srcb : nat) (rs : list Range) (cpy : @SL Token) (cpyb : nat) : res (list Range) :=
  match rs with
  | [] => Ok []
  | r :: q => r' <- rebase src srcb r cpy cpyb ;; q' <- rebase_all src srcb q cpy cpyb ;; Ok (r' :: q')
  end.

(** Logical_Line.cc:34-44: the copy constructor; the new nodes are numbered from
    [fr].  Safe_List.hh:72 std::prev of the end of an empty list_ is undefined. *)
Definition li_copy (l : LineIt) (fr : nat) : res LineIt :=
  _ <- assert_ (negb (is_empty (nodes (li_frags l)))) ;;
  let c := sl_copy (li_frags l) fr in
  dstb <- sl_begin c ;;
  srcb <- sl_begin (li_frags l) ;;
  st <- rebase_all (li_frags l) srcb (li_stmts l) c dstb ;;
  Ok (mkLI (li_data l) (li_nsemi l) c st).
(** :47-64: copy assignment.  The old tokens of the destination are gone; the
    assignment of a line to itself leaves its list as it is. *)
Definition li_assign (dst src : LineIt) (fr : nat) : res LineIt := li_copy src fr.
Definition li_assign_self (l : LineIt) : res LineIt :=
  _ <- assert_ (negb (is_empty (nodes (li_frags l)))) ;;
  b <- sl_begin (li_frags l) ;;
  st <- rebase_all (li_frags l) b (li_stmts l) (li_frags l) b ;;
  Ok (mkLI (li_data l) (li_nsemi l) (li_frags l) st).
(** Logical_Line.hh:73-74: the moves.  The new line and what is left of the old
    one: a std::vector that has been moved from is empty. *)
Definition li_move (l : LineIt) : LineIt * LineIt :=
  let '(new, old) := sl_move (li_frags l) in
  (mkLI (li_data l) (li_nsemi l) new (li_stmts l), mkLI (li_data l) (li_nsemi l) old []).
(** Logical_Line.cc:111-120 clear; [d] is the cleared data *)
Definition li_clear (d : D) (l : LineIt) : LineIt := mkLI d (-1) (sl_clear tok0 (li_frags l)) [].

(** Logical_Line.cc:642-644: the first node that is not a semicolon, or end() *)
Fixpoint skip_semis (s : @SL Token) (ns : list (nat * Token)) : res nat :=
  match ns with
  | [] => UB
  | (i, x) :: r => if (i =? my_end s) || negb (is_semi x) then Ok i else skip_semis s r
  end.
(** :650-657; [n] bounds the number of tokens *)
Fixpoint pop_semis (n : nat) (s : @SL Token) (changed : bool) : res (@SL Token * bool) :=
  if sl_empty s then Ok (s, changed)
  else
    x <- sl_back s ;;
    if is_semi x then
      match n with
      | 0 => UB
      | S n => s' <- sl_pop_back s ;; pop_semis n s' true
      end
    else Ok (s, changed).
(** :661-672 over the nodes from [ns] on, which ends at end(); is_semi of the node
    before is [prev] *)
Fixpoint it_clear (s : @SL Token) (prev : bool) (ns : list (nat * Token)) : list (nat * Token) * bool :=
  match ns with
  | [] => ([], false)
  | (i, x) :: r =>
      if i =? my_end s then (ns, false)
      else
        let '(r', c) := it_clear s (is_semi x) r in
        if prev && is_semi x then ((i, set_text x []) :: r', true) else ((i, x) :: r', c)
  end.
(** :639-686 on the fragments and the statements; the last component is [changed] *)
Definition it_remove (s : @SL Token) (rs : list Range) : res (@SL Token * list Range * bool) :=
  b <- sl_begin s ;;
  tt <- skip_semis s (nodes s) ;;
  let front := negb (tt =? b) in
  s1 <- (if front then erase_range s b tt else Ok s) ;;
  ' (s2, back) <- pop_semis (length (nodes s1)) s1 false ;;
  ' (s3, changed) <-
    (if 1 <? length rs then
       let '(ns, internal) := it_clear s2 false (nodes s2) in
       let s2' := mkSL ns (my_end s2) (fresh s2) in
       if internal
       then s' <- sl_remove_if (fun x => is_semi x && is_empty (tk_text x)) s2' ;; Ok (s', true)
       else Ok (s2', front)
     else Ok (s2, front)) ;;
  if back then
    match rev rs with
    | [] => UB
    | r :: q => r' <- range_make s3 (r_begin r) (my_end s3) ;; Ok (s3, rev q ++ [r'], true)
    end
  else Ok (s3, rs, changed).
End LineCopy.
Arguments mkLI {D} _ _ _ _.
Arguments li_data {D} _.
Arguments li_nsemi {D} _.
Arguments li_frags {D} _.
Arguments li_stmts {D} _.
Arguments li_init {D} _.
Arguments li_copy {D} _ _.
Arguments li_assign {D} _ _ _.
Arguments li_assign_self {D} _.
Arguments li_move {D} _.
Arguments li_clear {D} _ _ _.
