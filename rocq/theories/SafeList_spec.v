(** Independent specification of Safe_List: an ordinary sequence of elements
    with identities, and one stable end position. *)
From Verif Require Import Base SafeList.
Local Open Scope nat_scope.

Section Spec.
Context {T : Type}.
Variable d : T.

(** elements in order, the end position, the next identity *)
Record Plain := mkPlain { elems : list (nat * T); p_end : nat; p_next : nat }.

(** the elements before and from the element [id]; the end position is behind
    all of them *)
Fixpoint before (id : nat) (l : list (nat * T)) : list (nat * T) :=
  match l with
  | [] => []
  | (i, v) :: r => if i =? id then [] else (i, v) :: before id r
  end.
Fixpoint from (id : nat) (l : list (nat * T)) : list (nat * T) :=
  match l with
  | [] => []
  | (i, v) :: r => if i =? id then l else from id r
  end.
Definition is_elem (p : Plain) (id : nat) : bool := existsb (fun n => fst n =? id) (elems p).
Definition is_pos (p : Plain) (id : nat) : bool := is_elem p id || (id =? p_end p).

(** One operation of an ordinary list; [None]: not allowed by the contract
    (foreign or erased position, element access at the end, empty list, or a
    predicate that holds of the default value). *)
Definition plain_step (p : Plain) (o : sl_op) : option Plain :=
  let n := p_next p in
  match o with
  | OpPushBack v => Some (mkPlain (elems p ++ [(n, v)]) (p_end p) (S n))
  | OpEmplaceFront v => Some (mkPlain ((n, v) :: elems p) (p_end p) (S n))
  | OpInsert pos v =>
      if is_pos p pos
      then Some (mkPlain (before pos (elems p) ++ (n, v) :: from pos (elems p)) (p_end p) (S n))
      else None
  | OpErase pos =>
      if is_elem p pos
      then Some (mkPlain (before pos (elems p) ++ tl (from pos (elems p))) (p_end p) n)
      else None
  | OpEraseRange a b =>
      (* b is at or behind a *)
      if is_pos p a && ((b =? p_end p) || existsb (fun x => fst x =? b) (from a (elems p)))
      then Some (mkPlain (before a (elems p) ++ from b (elems p)) (p_end p) n)
      else None
  | OpPopBack =>
      match elems p with [] => None | l => Some (mkPlain (removelast l) (p_end p) n) end
  | OpClear => Some (mkPlain [] n (S n))
  | OpRemoveIf q =>
      if q d then None else Some (mkPlain (filter (fun x => negb (q (snd x))) (elems p)) (p_end p) n)
  end.
Fixpoint plain_run (p : Plain) (h : list sl_op) : option Plain :=
  match h with
  | [] => Some p
  | o :: r => match plain_step p o with Some p' => plain_run p' r | None => None end
  end.
(** A range is good for the list when it denotes a block of
    consecutive nodes followed by its end node. *)
Definition good (s : @SL T) (r : Range) (blk : list (nat * T)) : Prop :=
  r_bad r = false /\ r_size r = length blk /\
  exists pre post e v, nodes s = pre ++ blk ++ (e, v) :: post /\ r_end r = e /\
    hd_error (map fst (blk ++ [(e, v)])) = Some (r_begin r).
End Spec.
