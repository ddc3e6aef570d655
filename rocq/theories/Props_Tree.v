(** C17, C18: Tree and its cursors. *)
From Verif Require Import Base Tree Tree_spec Tree_proofs TreeCursor_proofs.
Local Open Scope nat_scope.

(** ** C17.  Start with any number of null tree variables and apply any history
    of constructions, emplaces, erases, node swaps, grafts, tree swaps and
    clears that is a legal use (a_run).  The code runs without undefined
    behaviour or assertion failure, and every variable holds exactly the
    specified rose tree: each node is linked, knows its own address, and its
    parent link is the address of the node whose branch list contains it (itself
    for a root); size() is the number of nodes, check() passes, and all
    addresses in the program are distinct. *)
Theorem C17_histories : forall (T : Type) n (h : list (op T)) a,
  a_run (a_nulls n) h = Some a ->
  exists w, run (nulls n) h = Ok w /\
    Forall2 holds (trees w) (a_trees a) /\
    NoDup (all_ids a) /\
    forall x t, nth_error (a_trees a) x = Some (ATree t) ->
      exists root, nth_error (trees w) x = Some (Some [root]) /\
        linked_as (r_id t) root t /\
        tree_size (Some [root]) = Ok (count t) /\ tree_check (Some [root]) = true /\ tree_empty (Some [root]) = false.
Proof.
  intros T n h a E. destruct (run_ok h _ _ _ (nulls_inv n) E) as (w & R & _ & F & ND & _).
  exists w. split; [exact R|]. split; [exact F|]. split; [exact ND|].
  intros x t EX. destruct (F2_nth _ _ _ _ _ F EX) as (u & EU & H).
  destruct (holds_obs u t H) as (root & -> & L & S & C & M). exists root. auto.
Qed.
Print Assumptions C17_histories.

(** A history with a graft in the middle, a node swap between two trees and a
    tree swap. *)
Example C17_case : exists a, a_run (a_nulls 3)
  [ONew 0 "a"%char; OEmplaceBack 0 "b"%char; OEmplaceBack 0 "c"%char;
   ONew 1 "x"%char; OEmplaceFront 3 "y"%char; OGraft 0 1 1;
   ONew 2 "p"%char; OEmplaceBack 6 "q"%char; OSwap 5 6; OTreeSwap 0 1] = Some a /\
  a_trees a = [ANull;
     ATree (R 0 "a"%char [R 1 "b"%char []; R 5 "p"%char [R 7 "q"%char []]; R 2 "c"%char []]);
     ATree (R 6 "x"%char [R 4 "y"%char []])].
Proof. eexists. split; reflexivity. Qed.

(** A variable without a node, never filled or erased, is empty and has size 0.
    check() passes if it was never filled or was cleared; if it was made with
    Tree(false), which has a list for the root but no root, check() fails. *)
Theorem C17_empty : forall (T : Type) n (h : list (op T)) a x v,
  a_run (a_nulls n) h = Some a -> nth_error (a_trees a) x = Some v -> v = ANull \/ v = ANone ->
  exists w u, run (nulls n) h = Ok w /\ nth_error (trees w) x = Some u /\ tree_empty u = true /\ tree_size u = Ok 0 /\
    (v = ANull -> tree_check u = true) /\ (v = ANone -> tree_check u = false).
Proof.
  intros T n h a x v E EX V. destruct (run_ok h _ _ _ (nulls_inv n) E) as (w & R & _ & F & _).
  destruct (F2_nth _ _ _ _ _ F EX) as (u & EU & H). exists w, u. split; [exact R|]. split; [exact EU|].
  destruct V as [->| ->]; inversion H; subst; repeat split; try reflexivity; intros [=].
Qed.
Print Assumptions C17_empty.
Example C17_empty_case : exists a, a_run (a_nulls 2) [ONew 0 "a"%char; OTreeSwap 0 1] = Some a /\ nth_error (a_trees a) 0 = Some ANull.
Proof. eexists. split; reflexivity. Qed.

(** After the rvalue graft the donor is not empty, but its root has no contents:
    size() of the donor fails the assertion in is_leaf(). *)
Theorem C17_moved_donor_refuted :
  exists w t, run (nulls 2) [ONew 0 1; ONew 1 2; OGraftMove 0 0 1] = Ok w /\
    nth_error (trees w) 1 = Some t /\ tree_empty t = false /\ tree_size t = UB /\ tree_check t = false.
Proof. eexists. eexists. split; [reflexivity|]. split; [reflexivity|]. repeat split. Qed.
Print Assumptions C17_moved_donor_refuted.

(** ** C18.  [t] is a rose tree with distinct identities, realised by the linked
    node n; the cursor stands on the node at path pi.  Each query answers
    whether the neighbour exists, each move goes to that neighbour. *)
Theorem C18_moves : forall (T : Type) (t : rose T) n pi s,
  NoDup (ids t) -> linked_as (r_id t) n t -> at_path t pi = Some s ->
  (has_up n (r_id s) = Ok (negb (is_empty pi))) /\
  (forall pi' k o, pi = pi' ++ [k] -> at_path t pi' = Some o -> up1 n (r_id s) = Ok (r_id o)) /\
  (has_down n (r_id s) = Ok (match at_path t (pi ++ [0]) with Some _ => true | None => false end)) /\
  (forall c, at_path t (pi ++ [0]) = Some c -> down1 n (r_id s) = Ok (r_id c)) /\
  (pi = [] -> has_next n (r_id s) = Ok false /\ has_prev n (r_id s) = Ok false) /\
  (forall pi' k, pi = pi' ++ [k] ->
     has_next n (r_id s) = Ok (match at_path t (pi' ++ [S k]) with Some _ => true | None => false end) /\
     (forall d, at_path t (pi' ++ [S k]) = Some d -> next1 n (r_id s) = Ok (r_id d)) /\
     has_prev n (r_id s) = Ok (0 <? k) /\
     (forall k' d, k = S k' -> at_path t (pi' ++ [k']) = Some d -> prev1 n (r_id s) = Ok (r_id d))).
Proof. exact (@moves). Qed.
Print Assumptions C18_moves.

(** down then up, next then prev, prev then next return to the node; every node
    is at some path, so this covers all cursors. *)
Theorem C18_round_trips : forall (T : Type) (t : rose T) n i,
  NoDup (ids t) -> linked_as (r_id t) n t -> In i (ids t) ->
  (has_down n i = Ok true -> exists c, down1 n i = Ok c /\ up1 n c = Ok i) /\
  (has_next n i = Ok true -> exists c, next1 n i = Ok c /\ prev1 n c = Ok i) /\
  (has_prev n i = Ok true -> exists c, prev1 n i = Ok c /\ next1 n c = Ok i) /\
  (has_up n i = Ok false -> up1 n i = UB) /\ (has_down n i = Ok false -> down1 n i = UB) /\
  (has_next n i = Ok false -> next1 n i = UB) /\ (has_prev n i = Ok false -> prev1 n i = UB).
Proof.
  intros T t n i ND L I. destruct (path_of t i I) as (pi & s & P & <-).
  destruct (round_trips t n pi s ND L P) as (A & B & C). destruct (no_move n (r_id s)) as (D & E & F & G). auto 10.
Qed.
Print Assumptions C18_round_trips.

(** try_next(c) and try_down(c) go min(c, possible) steps and return true
    exactly when c steps were possible. *)
Theorem C18_try : forall (T : Type) (t : rose T) n c,
  NoDup (ids t) -> linked_as (r_id t) n t ->
  (forall pi k s, at_path t (pi ++ [k]) = Some s ->
    exists m d, m <= c /\ at_path t (pi ++ [k + m]) = Some d /\
      try_next n c (r_id s) = Ok (r_id d, m =? c) /\ (m < c -> at_path t (pi ++ [S (k + m)]) = None)) /\
  (forall pi s, at_path t pi = Some s ->
    exists m d, m <= c /\ at_path t (pi ++ repeat 0 m) = Some d /\
      try_down n c (r_id s) = Ok (r_id d, m =? c) /\ (m < c -> r_kids d = [])) /\
  try_next n (S c) (r_id t) = Ok (r_id t, false).
Proof.
  intros T t n c ND L. split; [intros; now apply try_next_path|]. split; [intros; now apply try_down_path|].
  now apply try_next_root.
Qed.
Print Assumptions C18_try.

(** A traversal with down, next and up visits every node exactly once, in
    depth-first order, and stops. *)
Theorem C18_traversal : forall (T : Type) (t : rose T) n,
  NoDup (ids t) -> linked_as (r_id t) n t ->
  forall height fuel, count t <= height -> count t <= fuel -> dfs height fuel n (r_id t) = Ok (ids t).
Proof. exact (@dfs_main). Qed.
Print Assumptions C18_traversal.

Definition t18 : rose nat := R 5 0 [R 1 0 [R 7 0 []; R 3 0 []]; R 2 0 []; R 9 0 [R 4 0 [R 8 0 []]]].
Example C18_case : NoDup (ids t18) /\ linked_as (r_id t18) (realize 5 t18) t18 /\ count t18 = 8 /\
  id_at t18 [2; 0; 0] = Some 8 /\ dfs 8 8 (realize 5 t18) 5 = Ok [5; 1; 7; 3; 2; 9; 4; 8].
Proof.
  split; [cbn; repeat constructor; cbn; intuition lia|]. split; [apply linked_realize|]. repeat split.
Qed.
