(** Model of Safe_List and SL_Range (src/flpr/Safe_List.hh).

    A std::list node is a pair (identity, value); identities are never reused,
    so an iterator is an identity and it is valid as long as a node with this
    identity is in the list.  Using an iterator that is not in the list is
    undefined.  list_.end() itself is never a value of the interface; stepping
    onto it is [UB]. *)
From Verif Require Import Base.
Local Open Scope nat_scope.

Section SafeList.
Context {T : Type}.
Variable d : T.        (* T() *)

Notation node := (nat * T)%type.
(** list_ and my_end_; [fresh] is the next unused identity. *)
Record SL := mkSL { nodes : list node; my_end : nat; fresh : nat }.

(** the position of an identity *)
Fixpoint pos_of (ns : list node) (id : nat) : option nat :=
  match ns with
  | [] => None
  | (i, _) :: r => if i =? id then Some 0 else match pos_of r id with Some p => Some (S p) | None => None end
  end.

(** Safe_List.hh:154 append_sentry_ (:60 default constructor) *)
Definition append_sentry (ns : list node) (fr : nat) : SL := mkSL (ns ++ [(fr, d)]) fr (S fr).
Definition sl_new (fr : nat) : SL := append_sentry [] fr.

(** list_.insert(pos, value): before pos; returns the new node *)
Definition insert_before (s : SL) (pos : nat) (v : T) : res (SL * nat) :=
  match pos_of (nodes s) pos with
  | None => UB
  | Some p => Ok (mkSL (firstn p (nodes s) ++ (fresh s, v) :: skipn p (nodes s)) (my_end s) (S (fresh s)), fresh s)
  end.
(** list_.erase(pos); returns the following node *)
Definition erase_node (s : SL) (pos : nat) : res SL :=
  match pos_of (nodes s) pos with
  | None => UB
  | Some p => Ok (mkSL (firstn p (nodes s) ++ skipn (S p) (nodes s)) (my_end s) (fresh s))
  end.
(** list_.erase(first, last) *)
Definition erase_range (s : SL) (a b : nat) : res SL :=
  match pos_of (nodes s) a, pos_of (nodes s) b with
  | Some p, Some q =>
      if p <=? q then Ok (mkSL (firstn p (nodes s) ++ skipn q (nodes s)) (my_end s) (fresh s)) else UB
  | _, _ => UB
  end.
(** std::prev(it) *)
Definition prev_node (s : SL) (it : nat) : res nat :=
  match pos_of (nodes s) it with
  | Some (S p) => match nth_error (nodes s) p with Some (i, _) => Ok i | None => UB end
  | _ => UB
  end.

(** :105-107, :127 push_back, emplace_back, insert *)
Definition sl_push_back (s : SL) (v : T) : res SL := '(s', _) <- insert_before s (my_end s) v ;; Ok s'.
(** :132-135 emplace_front *)
Definition sl_emplace_front (s : SL) (v : T) : SL :=
  mkSL ((fresh s, v) :: nodes s) (my_end s) (S (fresh s)).
(** :109 pop_back *)
Definition sl_pop_back (s : SL) : res SL := it <- prev_node s (my_end s) ;; erase_node s it.
(** :97-100 clear *)
Definition sl_clear (s : SL) : SL := append_sentry [] (fresh s).
(** :110-115 remove_if.  On an emptied list std::prev(list_.end()) is undefined. *)
Definition sl_remove_if (p : T -> bool) (s : SL) : res SL :=
  let ns := filter (fun n => negb (p (snd n))) (nodes s) in
  if is_empty ns then UB else Ok (mkSL ns (my_end s) (fresh s)).
(** :101-102 size (an unsigned 64 bit difference), empty; :123 begin *)
Definition sl_size (s : SL) : Z := ((Z.of_nat (length (nodes s)) - 1) mod 2 ^ 64)%Z.
Definition sl_empty (s : SL) : bool := length (nodes s) <? 2.
Definition sl_begin (s : SL) : res nat := match nodes s with (i, _) :: _ => Ok i | [] => UB end.
(** :93 back *)
Definition sl_back (s : SL) : res T :=
  match pos_of (nodes s) (my_end s) with
  | Some (S p) => match nth_error (nodes s) p with Some (_, v) => Ok v | None => UB end
  | _ => UB
  end.
Definition sl_front (s : SL) : res T := match nodes s with (_, v) :: _ => Ok v | [] => UB end.
(** :71-73 copy construction: new nodes with the same values, my_end_ is the
    last one. *)
Fixpoint renumber (ns : list node) (fr : nat) : list node :=
  match ns with [] => [] | (_, v) :: r => (fr, v) :: renumber r (S fr) end.
Definition sl_copy (s : SL) (fr : nat) : SL :=
  let ns := renumber (nodes s) fr in
  mkSL ns (fr + length ns - 1) (fr + length ns).
(** :74-76 move construction: the nodes change owner, the source is left with an
    empty list_ and an unchanged my_end_. *)
Definition sl_move (s : SL) : SL * SL := (s, mkSL [] (my_end s) (fresh s)).

(** Operations of a client history. *)
Inductive sl_op :=
| OpPushBack (v : T) | OpEmplaceFront (v : T) | OpInsert (pos : nat) (v : T)
| OpErase (pos : nat) | OpEraseRange (a b : nat) | OpPopBack | OpClear | OpRemoveIf (p : T -> bool).
Definition sl_step (s : SL) (o : sl_op) : res SL :=
  match o with
  | OpPushBack v => sl_push_back s v
  | OpEmplaceFront v => Ok (sl_emplace_front s v)
  | OpInsert pos v => '(s', _) <- insert_before s pos v ;; Ok s'
  | OpErase pos => erase_node s pos
  | OpEraseRange a b => erase_range s a b
  | OpPopBack => sl_pop_back s
  | OpClear => Ok (sl_clear s)
  | OpRemoveIf p => sl_remove_if p s
  end.
Fixpoint sl_run (s : SL) (h : list sl_op) : res SL :=
  match h with
  | [] => Ok s
  | o :: r => s' <- sl_step s o ;; sl_run s' r
  end.

(** ** SL_Range (Safe_List.hh:157-317) *)
Record Range := mkRange { r_begin : nat; r_size : nat; r_end : nat; r_bad : bool }.

(** std::next(it, n) and std::distance(a, b) *)
Definition next_n (s : SL) (it n : nat) : res nat :=
  match pos_of (nodes s) it with
  | Some p => match nth_error (nodes s) (p + n) with Some (i, _) => Ok i | None => UB end
  | None => UB
  end.
Definition distance (s : SL) (a b : nat) : res nat :=
  match pos_of (nodes s) a, pos_of (nodes s) b with
  | Some p, Some q => if p <=? q then Ok (q - p) else UB
  | _, _ => UB
  end.

(** :170-176 constructors *)
Definition range_of_list (s : SL) : res Range :=
  b <- sl_begin s ;; Ok (mkRange b (length (nodes s) - 1) (my_end s) false).
Definition range_make (s : SL) (a b : nat) : res Range :=
  n <- distance s a b ;; Ok (mkRange a n b false).
Definition range_only (s : SL) (it : nat) : res Range :=
  e <- next_n s it 1 ;; Ok (mkRange it 1 e false).
(** :306 empty_, :235-238 empty with its assertion *)
Definition r_empty_ (r : Range) : bool := r_bad r || (r_size r =? 0).
Definition r_empty (s : SL) (r : Range) : res bool :=
  _ <- (if r_bad r then Ok tt
        else e <- next_n s (r_begin r) (r_size r) ;; assert_ (e =? r_end r)) ;;
  Ok (r_empty_ r).
(** :189-197 last *)
Definition r_last (s : SL) (r : Range) : res nat :=
  e <- r_empty s r ;; _ <- assert_ (negb e) ;; next_n s (r_begin r) (r_size r - 1).
Definition r_get_size (r : Range) : nat := if r_bad r then 0 else r_size r.
(** :240-252 push_front *)
Definition r_push_front (s : SL) (r adj : Range) : res Range :=
  ae <- r_empty s adj ;;
  if ae then Ok r
  else
    e <- r_empty s r ;;
    if e then Ok adj
    else if negb (r_begin adj =? r_begin r) then
      _ <- assert_ (r_begin r =? r_end adj) ;;
      Ok (mkRange (r_begin adj) (r_size r + r_get_size adj) (r_end r) (r_bad r))
    else Ok r.
(** :254-280 push_back *)
Definition r_push_back (s : SL) (r adj : Range) : res Range :=
  ae <- r_empty s adj ;;
  if ae then Ok r
  else
    e <- r_empty s r ;;
    if e then Ok adj
    else if negb (r_end adj =? r_end r) then
      _ <- assert_ (r_end r =? r_begin adj) ;;
      Ok (mkRange (r_begin r) (r_size r + r_get_size adj) (r_end adj) (r_bad r))
    else Ok r.
(** :281-289 update_end *)
Definition r_update_end (s : SL) (r : Range) (it : nat) : res Range :=
  if r_empty_ r then Ok (mkRange it (r_size r) it false)
  else
    e <- next_n s (r_begin r) (r_size r) ;;
    _ <- assert_ (e =? it) ;;
    Ok (mkRange (r_begin r) (r_size r) it (r_bad r)).
(** :309-314 equal *)
Definition r_equal (a b : Range) : bool :=
  Bool.eqb (r_bad a) (r_bad b) && (r_bad a || ((r_begin a =? r_begin b) && (r_size a =? r_size b))).
End SafeList.
Arguments mkSL {T} _ _ _.
