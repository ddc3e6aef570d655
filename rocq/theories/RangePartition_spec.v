(** Regions of a list: for every index the elements of the region, [None] if it
    was never used. *)
From Verif Require Import Base RangePartition.
Local Open Scope nat_scope.

Definition regions := list (option (list nat)).
Definition elems (r : option (list nat)) : list nat := match r with Some x => x | None => [] end.
(** the elements of all regions; those of region k and of all behind it *)
Definition content (rs : regions) : list nat := flat_map elems rs.
Definition from (rs : regions) (k : nat) : list nat := content (skipn k rs).
Definition region (rs : regions) (k : nat) : list nat := elems (nth k rs None).
Definition used (rs : regions) (k : nat) : Prop := exists x, nth_error rs k = Some (Some x).
Definition unused (rs : regions) (k : nat) : Prop := nth_error rs k = Some None.
Definition used_b (r : option (list nat)) : bool := match r with Some _ => true | None => false end.
Definition num_used (rs : regions) : nat := length (filter used_b rs).

(** The iterators delimit the region: [b, e) in the list l are the elements x. *)
Definition delimits (l : list nat) (b e : option nat) (x : list nat) : Prop :=
  exists u v, l = u ++ x ++ v /\ b = hd_error (x ++ v) /\ e = hd_error v.

(** Client steps: append elements that follow, ask for a region, insert
    elements in a region in front of its k-th element. *)
Inductive pstep := SAppend (idx : nat) (x : list nat) | STouch (idx : nat) | SInsert (idx k : nat) (x : list nat).

(** Regions and the elements that follow in the list (its end at least). *)
Definition world := (regions * list nat)%type.
Definition all_of (w : world) : list nat := content (fst w) ++ snd w.
(** What a step means. *)
Definition sstep (w : world) (s : pstep) : world :=
  let '(rs, t) := w in
  match s with
  | SAppend i x => (upd rs i (Some (region rs i ++ x)), skipn (length x) t)
  | STouch i => (upd rs i (Some (region rs i)), t)
  | SInsert i k x => (upd rs i (Some (firstn k (region rs i) ++ x ++ skipn k (region rs i))), t)
  end.
(** When it may be taken, [pre] being what precedes the regions in the list.
    Inserting in front of a region other than the first one in use, and asking
    for a region (or inserting) when fewer than two are in use, is not legal:
    see the refutations. *)
Definition slegal (pre : list nat) (w : world) (s : pstep) : Prop :=
  match s with
  | SAppend i x =>
      i < length (fst w) /\ x <> [] /\ (exists t', snd w = x ++ t' /\ t' <> []) /\
      forall j, i < j < length (fst w) -> unused (fst w) j
  | STouch i => i < length (fst w) /\ 2 <= num_used (fst w)
  | SInsert i k x =>
      used (fst w) i /\ 2 <= num_used (fst w) /\ x <> [] /\ k <= length (region (fst w) i) /\
      NoDup (pre ++ all_of (sstep w s)) /\ (k = 0 -> forall j, j < i -> unused (fst w) j)
  end.
Fixpoint shist (pre : list nat) (w : world) (h : list pstep) : Prop :=
  match h with [] => True | s :: h' => slegal pre w s /\ shist pre (sstep w s) h' end.
Fixpoint sruns (w : world) (h : list pstep) : world :=
  match h with [] => w | s :: h' => sruns (sstep w s) h' end.

(** The step as a call. *)
Definition cstep (pre : list nat) (w : world) (st : partition) (s : pstep) : res partition :=
  let '(rs, t) := w in
  match s with
  | SAppend i x => append st i (hd_error x) (hd_error (skipn (length x) t))
  | STouch i => ' x <- rbegin st i ;; ' y <- rend (snd x) i ;; Ok (snd y)
  | SInsert i k x => insert (pre ++ all_of (sstep w s)) st i (hd_error x) (hd_error (skipn k (region rs i) ++ from rs (S i) ++ t))
  end.
Fixpoint cruns (pre : list nat) (w : world) (st : partition) (h : list pstep) : res partition :=
  match h with
  | [] => Ok st
  | s :: h' => st' <- cstep pre w st s ;; cruns pre (sstep w s) st' h'
  end.

(** The partition shows the regions: the iterators of every region in use
    delimit exactly its elements, a region tells whether it is empty, the whole
    range is delimited, and validate() holds. *)
Definition good (pre : list nat) (w : world) (st : partition) : Prop :=
  (forall i, used (fst w) i -> exists b e, cbegin st i = Ok b /\ cend st i = Ok e /\
     delimits (pre ++ all_of w) b e (region (fst w) i)) /\
  (forall i, i < length (fst w) -> region_empty st i = Ok (is_empty (region (fst w) i))) /\
  (2 <= num_used (fst w) -> forall i, i < length (fst w) -> exists b e st1 st2,
     rbegin st i = Ok (b, st1) /\ rend st i = Ok (e, st2) /\ delimits (pre ++ all_of w) b e (region (fst w) i)) /\
  (num_used (fst w) <> 0 -> exists b e, all_begin st = Ok b /\ all_end st = Ok e /\
     delimits (pre ++ all_of w) b e (content (fst w))) /\
  all_empty st = Ok (num_used (fst w) =? 0) /\
  (num_used (fst w) <> 1 -> validate st = Ok true).

