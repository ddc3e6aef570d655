(** Model of src/flpr/Range_Partition.hh: consecutive regions of a list, kept
    as begin iterators in a vector with links between the regions in use.

    An iterator into the underlying list is a natural number naming the
    element it points to (list iterators stay valid when other elements are
    inserted); [None] is a default constructed one.  Change trackers are not
    modelled: they are told of changes and do not influence the partition.
    Indices are below Partition::bad_idx, so that okay() holds after the
    constructor. *)
From Verif Require Import Base.
Local Open Scope nat_scope.

(** :157-173 struct Partition *)
Record part := mkPart { p_begin : option nat; p_pred : nat; p_succ : nat }.
(** :162 active() *)
Definition p_active (p : part) : bool := negb (p_pred p =? p_succ p).

(** parts_, with parts_.back() at index end_idx_ *)
Definition partition := list part.
Definition end_idx (st : partition) : nat := length st - 1.
Definition get (st : partition) (i : nat) : res part :=
  match nth_error st i with Some p => Ok p | None => UB end.
Fixpoint upd {A} (l : list A) (i : nat) (x : A) : list A :=
  match l, i with
  | [], _ => []
  | _ :: l', O => x :: l'
  | y :: l', S i' => y :: upd l' i' x
  end.
Definition set_begin (st : partition) (i : nat) (b : option nat) : res partition :=
  p <- get st i ;; Ok (upd st i (mkPart b (p_pred p) (p_succ p))).
Definition set_pred (st : partition) (i : nat) (j : nat) : res partition :=
  p <- get st i ;; Ok (upd st i (mkPart (p_begin p) j (p_succ p))).
Definition set_succ (st : partition) (i : nat) (j : nat) : res partition :=
  p <- get st i ;; Ok (upd st i (mkPart (p_begin p) (p_pred p) j)).

(** :30-36 constructor *)
Definition new_partition (count : nat) : res partition :=
  _ <- assert_ (0 <? count) ;;
  Ok (map (fun i => mkPart None i i) (seq 0 (S count))).
(** :38-43 clear_partitions; the begin iterators stay *)
Definition clear_partitions (st : partition) : partition :=
  map (fun x => mkPart (p_begin (snd x)) (fst x) (fst x)) (combine (seq 0 (length st)) st).

(** :181-197 valid_idx_, active_idx_, first_active_idx_, last_active_idx_, active_empty_ *)
Definition valid_idx (st : partition) (i : nat) : bool := i <? end_idx st.
Definition active_idx (st : partition) (i : nat) : res bool :=
  if valid_idx st i then p <- get st i ;; Ok (p_active p) else Ok false.
Definition last_active_idx (st : partition) : res nat := p <- get st (end_idx st) ;; Ok (p_pred p).
Definition active_empty (st : partition) : res bool := l <- last_active_idx st ;; Ok (l =? end_idx st).
(** :198-206 next_active_idx_; the loop runs at most length st times *)
Fixpoint skip_inactive (k : nat) (st : partition) (i : nat) : res nat :=
  match k with
  | O => UB
  | S k' =>
      if valid_idx st i then
        p <- get st i ;;
        if p_active p then Ok i else skip_inactive k' st (S i)
      else Ok i
  end.
Definition next_active_idx (st : partition) (i : nat) : res nat :=
  p <- get st i ;;
  if p_active p then Ok (p_succ p) else skip_inactive (S (length st)) st (S i).
(** :222-233 activate_ *)
Definition activate (st : partition) (idx : nat) : res partition :=
  p <- get st idx ;;
  if p_active p then Ok st else
  succ <- next_active_idx st idx ;;
  ps <- get st succ ;;
  let pred := p_pred ps in
  st <- set_succ st pred idx ;;
  st <- set_pred st succ idx ;;
  ps <- get st succ ;;
  st <- set_begin st idx (p_begin ps) ;;
  st <- set_pred st idx pred ;;
  set_succ st idx succ.

(** :45-58 empty, begin, end of everything *)
Definition all_empty (st : partition) : res bool := active_empty st.
Definition all_begin (st : partition) : res (option nat) :=
  e <- get st (end_idx st) ;; p <- get st (p_succ e) ;; Ok (p_begin p).
Definition all_end (st : partition) : res (option nat) := e <- get st (end_idx st) ;; Ok (p_begin e).
(** :60-91 empty(idx), begin(idx), end(idx), cbegin(idx), cend(idx) *)
Definition cbegin (st : partition) (idx : nat) : res (option nat) :=
  _ <- assert_ (valid_idx st idx) ;; p <- get st idx ;; Ok (p_begin p).
Definition cend (st : partition) (idx : nat) : res (option nat) :=
  _ <- assert_ (valid_idx st idx) ;; p <- get st idx ;; q <- get st (p_succ p) ;; Ok (p_begin q).
Definition it_eqb (a b : option nat) : bool :=
  match a, b with Some x, Some y => x =? y | None, None => true | _, _ => false end.
Definition region_empty (st : partition) (idx : nat) : res bool :=
  b <- cbegin st idx ;; e <- cend st idx ;; Ok (it_eqb b e).
Definition rbegin (st : partition) (idx : nat) : res (option nat * partition) :=
  _ <- assert_ (valid_idx st idx) ;; st <- activate st idx ;; b <- cbegin st idx ;; Ok (b, st).
Definition rend (st : partition) (idx : nat) : res (option nat * partition) :=
  _ <- assert_ (valid_idx st idx) ;; st <- activate st idx ;; e <- cend st idx ;; Ok (e, st).

(** :119-135 append(idx, range_begin, range_end) *)
Definition append (st : partition) (idx : nat) (b e : option nat) : res partition :=
  _ <- assert_ (valid_idx st idx) ;;
  if it_eqb b e then Ok st else
  none <- active_empty st ;;
  last_end <- all_end st ;;
  _ <- assert_ (none || it_eqb b last_end) ;;
  last <- last_active_idx st ;;
  st <- (if none || (last <? idx) then
           st <- activate st idx ;; set_begin st idx b
         else _ <- assert_ (last =? idx) ;; Ok st) ;;
  set_begin st (end_idx st) e.

(** std::distance on the underlying list l: undefined unless the second
    iterator is reachable from the first *)
Fixpoint reach (l : list nat) (a b : nat) : bool :=
  match l with
  | [] => false
  | x :: l' => if x =? a then existsb (Nat.eqb b) l else reach l' a b
  end.
Definition distance_ok (l : list nat) (a b : option nat) : bool :=
  match a, b with Some x, Some y => reach l x y | _, _ => false end.
(** :137-157 insert(idx, new_begin, insert_pos) *)
Definition insert (l : list nat) (st : partition) (idx : nat) (new_begin insert_pos : option nat) : res partition :=
  a <- active_idx st idx ;;
  _ <- assert_ a ;;
  _ <- assert_ (distance_ok l new_begin insert_pos) ;;
  old_begin <- all_begin st ;;
  if it_eqb insert_pos old_begin then set_begin st idx new_begin else Ok st.
(** Procedure.hh:175-187 emplace_stmt, the call of insert: [iter] is the new
    statement, [pos] the one it was put in front of *)
Definition emplace_insert (l : list nat) (st : partition) (idx : nat) (pos iter : option nat) : res partition :=
  insert l st idx pos iter.

(** :246-272 validate *)
Fixpoint validate_loop (st : partition) (ps : list part) (i last next : nat) : res unit :=
  match ps with
  | [] => Ok tt
  | p :: ps' =>
      if (p_succ p =? i) && (p_pred p =? i) then
        _ <- assert_ (negb (p_active p)) ;; validate_loop st ps' (S i) last next
      else
        _ <- assert_ (p_active p) ;;
        _ <- assert_ (i =? next) ;;
        _ <- assert_ (p_pred p =? last) ;;
        _ <- assert_ (i <? p_succ p) ;;
        validate_loop st ps' (S i) i (p_succ p)
  end.
Definition validate (st : partition) : res bool :=
  _ <- assert_ (end_idx st + 1 =? length st) ;;
  e <- get st (end_idx st) ;;
  _ <- validate_loop st (removelast st) 0 (end_idx st) (p_succ e) ;;
  Ok true.
