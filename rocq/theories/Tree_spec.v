(** What a tree of values with identities is, independently of links. *)
From Verif Require Import Base Tree.
Local Open Scope nat_scope.

Section Spec.
Context {T : Type}.

(** A rose tree; every position carries the identity of its node (what a user's
    iterator denotes). *)
Inductive rose : Type := R (id : nat) (v : T) (ks : list rose).
Definition r_id (t : rose) := let 'R i _ _ := t in i.
Definition r_val (t : rose) := let 'R _ v _ := t in v.
Definition r_kids (t : rose) := let 'R _ _ k := t in k.

(** identities in depth-first order, number of nodes *)
Fixpoint ids (t : rose) : list nat := let 'R i _ ks := t in i :: flat_map ids ks.
Definition count (t : rose) : nat := length (ids t).

(** change made at the node with identity i *)
Fixpoint at_id (F : nat -> option (T * list rose -> T * list rose)) (t : rose) : rose :=
  let 'R i v ks := t in
  match F i with
  | Some g => let '(v', ks') := g (v, ks) in R i v' ks'
  | None => R i v (map (at_id F) ks)
  end.
Fixpoint sub (i : nat) (t : rose) : option rose :=
  let 'R j _ ks := t in
  if j =? i then Some t else
  (fix go (l : list rose) := match l with [] => None | k :: r => match sub i k with Some s => Some s | None => go r end end) ks.

(** abstract tree variables: null, rootless, moved-from, a tree *)
Inductive av := ANull | ANone | AHusk (i : nat) | ATree (t : rose).
Record aworld := mkA { a_next : nat; a_trees : list av }.
Definition av_ids (a : av) : list nat :=
  match a with ATree t => ids t | AHusk i => [i] | _ => [] end.
Definition all_ids (a : aworld) : list nat := flat_map av_ids (a_trees a).
Definition a_get (a : aworld) (x : nat) : option av := nth_error (a_trees a) x.
Definition a_set (a : aworld) (x : nat) (t : av) : aworld := mkA (a_next a) (put (a_trees a) x t).
Definition a_map (F : nat -> option (T * list rose -> T * list rose)) (a : aworld) : aworld :=
  mkA (a_next a) (map (fun t => match t with ATree t => ATree (at_id F t) | t => t end) (a_trees a)).
(** the tree node with identity i, wherever it is *)
Fixpoint a_sub (i : nat) (l : list av) : option rose :=
  match l with
  | [] => None
  | ATree t :: r => match sub i t with Some s => Some s | None => a_sub i r end
  | _ :: r => a_sub i r
  end.
Definition a_fresh (a : aworld) : aworld := mkA (S (a_next a)) (a_trees a).

Definition insert_kid (k : nat) (m : rose) (l : list rose) : list rose := firstn k l ++ m :: skipn k l.
Definition remove_kid (k : nat) (l : list rose) : list rose := firstn k l ++ skipn (S k) l.
Definition rename (i : nat) (t : rose) : rose := let 'R _ v ks := t in R i v ks.

Definition on (p : nat) (f : list rose -> list rose) : nat -> option (T * list rose -> T * list rose) :=
  fun i => if i =? p then Some (fun '(v, ks) => (v, f ks)) else None.
Definition a_emplace (a : aworld) (p k : nat) (v : T) : option aworld :=
  match a_sub p (a_trees a) with
  | Some t => if k <=? length (r_kids t)
              then Some (a_map (on p (insert_kid k (R (a_next a) v []))) (a_fresh a)) else None
  | None => None
  end.
(** graft: the root of x gets the tree of y as its branch number k.  The root
    node of the grafted tree gets a new identity, all others keep theirs. *)
Definition a_graft (a : aworld) (x k y : nat) (left_over : rose -> av) : option aworld :=
  if x =? y then None else
  match a_get a x, a_get a y with
  | Some (ATree tx), Some (ATree ty) =>
      if k <=? length (r_kids tx) then
        Some (a_set (a_set (a_fresh a) x
               (ATree (R (r_id tx) (r_val tx) (insert_kid k (rename (a_next a) ty) (r_kids tx))))) y (left_over ty))
      else None
  | _, _ => None
  end.

(** The specified effect; [None]: not a legal use. *)
Definition a_step (a : aworld) (o : op T) : option aworld :=
  match o with
  | ONew x v => match a_get a x with Some _ => Some (a_set (a_fresh a) x (ATree (R (a_next a) v []))) | None => None end
  | OFalse x => match a_get a x with Some _ => Some (a_set a x ANone) | None => None end
  | OClear x => match a_get a x with Some _ => Some (a_set a x ANull) | None => None end
  | OEmplace p k v => a_emplace a p k v
  | OEmplaceFront p v => a_emplace a p 0 v
  | OEmplaceBack p v => match a_sub p (a_trees a) with Some t => a_emplace a p (length (r_kids t)) v | None => None end
  | OErase p k =>
      match a_sub p (a_trees a) with
      | Some t => if k <? length (r_kids t) then Some (a_map (on p (remove_kid k)) a) else None
      | None => None
      end
  | OSwap i j =>
      match a_sub i (a_trees a), a_sub j (a_trees a) with
      | Some ti, Some tj =>
          if (i =? j) || negb (existsb (Nat.eqb j) (ids ti) || existsb (Nat.eqb i) (ids tj)) then
            Some (a_map (fun n => if n =? i then Some (fun _ => (r_val tj, r_kids tj))
                                  else if n =? j then Some (fun _ => (r_val ti, r_kids ti)) else None) a)
          else None
      | _, _ => None
      end
  | OGraft x k y => a_graft a x k y (fun _ => ANull)
  | OGraftFront x y => a_graft a x 0 y (fun _ => ANull)
  | OGraftBack x y =>
      match a_get a x with Some (ATree tx) => a_graft a x (length (r_kids tx)) y (fun _ => ANull) | _ => None end
  | OGraftMove x k y => a_graft a x k y (fun ty => AHusk (r_id ty))
  | OTreeSwap x y =>
      match a_get a x, a_get a y with
      | Some tx, Some ty => Some (a_set (a_set a x ty) y tx)
      | _, _ => None
      end
  end.
Fixpoint a_run (a : aworld) (h : list (op T)) : option aworld :=
  match h with [] => Some a | o :: r => match a_step a o with Some a' => a_run a' r | None => None end end.

(** Well linked: the tree below node n, owned by the node at address p, is the
    rose tree t, every node knows its own address and that of its owner. *)
Inductive linked_as : nat -> node T -> rose -> Prop :=
| LA : forall p i v ks ts, Forall2 (linked_as i) ks ts ->
    linked_as p (Nd i true p i (Some v) ks) (R i v ts).
(** a tree variable holds what is specified; a root is its own parent *)
Inductive holds : tv T -> av -> Prop :=
| HNull : holds None ANull
| HNone : holds (Some []) ANone
| HHusk : forall n, val n = None -> kids n = [] -> holds (Some [n]) (AHusk (n_id n))
| HTree : forall n t, linked_as (r_id t) n t -> holds (Some [n]) (ATree t).

(** paths from the root: which branch to take at each level *)
Fixpoint at_path (t : rose) (p : list nat) : option rose :=
  match p with
  | [] => Some t
  | k :: p' => match nth_error (r_kids t) k with Some s => at_path s p' | None => None end
  end.
Definition id_at (t : rose) (p : list nat) : option nat := option_map r_id (at_path t p).
End Spec.
Arguments rose : clear implicits.
Arguments av : clear implicits.
Arguments aworld : clear implicits.
