(** Model of FLPR::Tree (src/flpr/Tree.hh).

    Ownership in Tree.hh is by unique_ptr and list membership, so it is a tree
    by construction; it is modelled by nesting.  What is not guaranteed by
    construction, the links parent_ and self_itr_, is modelled by addresses:
    every list node has an address [n_id] which is never reused, and an iterator
    is an address.  Following a link looks the address up among the nodes that
    are still owned; a link to a destroyed node is [UB].
    A null branch_p_ and an empty branch list are identified (is_leaf,
    Tree.hh:182, does not distinguish them).  Assertions are modelled ([UB]). *)
From Verif Require Import Base.
Local Open Scope nat_scope.

Section Tree.
Context {T : Type}.

(** Tree.hh:36-243 Tree_Node: address, linked_, parent_, self_itr_, and
    *contents_ (value and branches); [n_val = None] is a null contents_. *)
Inductive node : Type :=
  Nd (n_id : nat) (linked : bool) (parent self : nat) (val : option T) (kids : list node).

Definition n_id (n : node) := let 'Nd i _ _ _ _ _ := n in i.
Definition linked (n : node) := let 'Nd _ l _ _ _ _ := n in l.
Definition parent (n : node) := let 'Nd _ _ p _ _ _ := n in p.
Definition self (n : node) := let 'Nd _ _ _ s _ _ := n in s.
Definition val (n : node) := let 'Nd _ _ _ _ v _ := n in v.
Definition kids (n : node) := let 'Nd _ _ _ _ _ k := n in k.

Definition set_parent (p : nat) (n : node) : node :=
  let 'Nd i l _ s v k := n in Nd i l p s v k.
(** :235-242 fix_branches *)
Definition fix_branches (n : node) : node :=
  let 'Nd i l p s v k := n in
  match v with None => n | Some _ => Nd i l p s v (map (set_parent s) k) end.
(** :71-76, :77-82 link(self), link(self, parent) *)
Definition link_to (self parent : nat) (n : node) : node :=
  let 'Nd i _ _ _ v k := n in fix_branches (Nd i true parent self v k).

(** :110-117 size *)
Fixpoint size (n : node) : nat :=
  let 'Nd _ _ _ _ _ ks := n in
  S ((fix sum (l : list node) := match l with [] => 0 | k :: r => size k + sum r end) ks).

(** :245-257 check: true when no assertion fails (the address of a branch is the
    iterator bi of the loop) *)
Fixpoint check (n : node) : bool :=
  let 'Nd _ l _ s v ks := n in
  l && negb (is_none v) &&
  (fix all (ls : list node) := match ls with
    | [] => true
    | k :: r => (n_id k =? self k) && (parent k =? s) && check k && all r end) ks.

(** the owned nodes, as addresses *)
Fixpoint owned (n : node) : list nat :=
  let 'Nd i _ _ _ _ ks := n in
  i :: (fix go (l : list node) := match l with [] => [] | k :: r => owned k ++ go r end) ks.

(** dereferencing an iterator among the nodes owned below n *)
Fixpoint deref (i : nat) (n : node) : option node :=
  if n_id n =? i then Some n else
  let 'Nd _ _ _ _ _ ks := n in
  (fix go (l : list node) := match l with
    | [] => None
    | k :: r => match deref i k with Some m => Some m | None => go r end end) ks.

(** the node whose branch list contains the list node i *)
Fixpoint owner (i : nat) (n : node) : option node :=
  let 'Nd _ _ _ _ _ ks := n in
  if existsb (fun k => n_id k =? i) ks then Some n else
  (fix go (l : list node) := match l with
    | [] => None
    | k :: r => match owner i k with Some m => Some m | None => go r end end) ks.

(** mutation through an iterator: F i is the change made at address i *)
Fixpoint upd (F : nat -> option (node -> node)) (n : node) : node :=
  match F (n_id n) with
  | Some g => g n
  | None => let 'Nd i l p s v ks := n in Nd i l p s v (map (upd F) ks)
  end.

(** list::emplace before the element at index k (k = size() is end()) *)
Definition ins (k : nat) (m : node) (l : list node) : list node := firstn k l ++ m :: skipn k l.
Definition del (k : nat) (l : list node) : list node := firstn k l ++ skipn (S k) l.

(** A Tree variable: root_list_p_ (None: null) and the trees of the program;
    [next] is the next unused address. *)
Definition tv := option (list node).
Record world := mkW { next : nat; trees : list tv }.

(** :706-719 root_node *)
Definition root_node (t : tv) : res node :=
  match t with Some (n :: _) => Ok n | _ => UB end.
Definition get (w : world) (x : nat) : res tv :=
  match nth_error (trees w) x with Some t => Ok t | None => UB end.
Fixpoint put {A} (l : list A) (x : nat) (a : A) : list A :=
  match l, x with
  | [], _ => []
  | _ :: r, 0 => a :: r
  | b :: r, S x' => b :: put r x' a
  end.
Definition set_tree (w : world) (x : nat) (t : tv) : world := mkW (next w) (put (trees w) x t).

(** dereferencing an iterator among all owned nodes *)
Fixpoint deref_l (i : nat) (l : list node) : option node :=
  match l with
  | [] => None
  | k :: r => match deref i k with Some m => Some m | None => deref_l i r end
  end.
Definition forest (w : world) : list node :=
  flat_map (fun t : tv => match t with Some l => l | None => [] end) (trees w).
Definition at_addr (w : world) (i : nat) : res node :=
  match deref_l i (forest w) with Some n => Ok n | None => UB end.
Definition upd_w (F : nat -> option (node -> node)) (w : world) : world :=
  mkW (next w) (map (option_map (map (upd F))) (trees w)).

(** :556-574 Tree(value), :580-586 Tree(bool), :660 clear *)
Definition tree_new (w : world) (x : nat) (v : T) : res world :=
  _ <- get w x ;;
  let a := next w in
  Ok (set_tree (mkW (S a) (trees w)) x (Some [link_to a a (Nd a false 0 0 (Some v) [])])).
Definition tree_false (w : world) (x : nat) : res world := _ <- get w x ;; Ok (set_tree w x (Some [])).
Definition tree_clear (w : world) (x : nat) : res world := _ <- get w x ;; Ok (set_tree w x None).

(** a Tree_Node moved into a new list node at address a (defaulted move
    constructor, :56) and linked below the node with self link s *)
Definition moved (a : nat) (n : node) : node :=
  let 'Nd _ l p s v k := n in Nd a l p s v k.
(** what is left in the moved-from node *)
Definition husk (n : node) : node := let 'Nd i l p s _ _ := n in Nd i l p s None [].

(** :138-142 emplace; the position is index k of p's branch list.  self() (:101)
    asserts linked_, branches() (:131) asserts contents_. *)
Definition node_emplace (w : world) (p k : nat) (v : T) : res world :=
  n <- at_addr w p ;;
  _ <- assert_ (negb (is_none (val n))) ;;
  _ <- assert_ (k <=? length (kids n)) ;;
  _ <- assert_ (linked n) ;;
  let a := next w in
  let m := link_to a (self n) (moved a (Nd 0 false 0 0 (Some v) [])) in
  Ok (upd_w (fun i => if i =? p then Some (fun '(Nd i l p s v ks) => Nd i l p s v (ins k m ks)) else None)
            (mkW (S a) (trees w))).
(** :143-148, :149-154 emplace_front, emplace_back *)
Definition node_emplace_front (w : world) (p : nat) (v : T) : res world := node_emplace w p 0 v.
Definition node_emplace_back (w : world) (p : nat) (v : T) : res world :=
  n <- at_addr w p ;; node_emplace w p (length (kids n)) v.
(** p->branches().erase(branch k): destroys the subtree *)
Definition node_erase (w : world) (p k : nat) : res world :=
  n <- at_addr w p ;;
  _ <- assert_ (negb (is_none (val n))) ;;
  _ <- assert_ (k <? length (kids n)) ;;
  Ok (upd_w (fun i => if i =? p then Some (fun '(Nd i l p s v ks) => Nd i l p s v (del k ks)) else None) w).

(** :155-159 Tree_Node::swap.  Swapping with a node of one's own subtree would
    make contents_ own itself (an unreachable cycle): [UB]. *)
Definition take_contents (c : node) (n : node) : node :=
  let 'Nd i l p s _ _ := n in fix_branches (Nd i l p s (val c) (kids c)).
Definition node_swap (w : world) (a b : nat) : res world :=
  na <- at_addr w a ;;
  nb <- at_addr w b ;;
  _ <- assert_ ((a =? b) || negb (existsb (Nat.eqb b) (owned na) || existsb (Nat.eqb a) (owned nb))) ;;
  Ok (upd_w (fun i => if i =? a then Some (take_contents nb)
                      else if i =? b then Some (take_contents na) else None) w).

(** :627-633 graft(iterator, Tree &donor): before branch k of x's root.  Grafting
    a tree onto itself makes it own itself: [UB]. *)
Definition graft_node (w : world) (x k y : nat) : res (world * node) :=
  _ <- assert_ (negb (x =? y)) ;;
  tx <- get w x ;; ty <- get w y ;;
  rx <- root_node tx ;;
  ry <- root_node ty ;;
  _ <- assert_ (negb (is_none (val rx))) ;;
  _ <- assert_ (k <=? length (kids rx)) ;;
  let a := next w in
  let m := link_to a (self rx) (moved a ry) in
  Ok (set_tree (mkW (S a) (trees w)) x
       (Some [(fun '(Nd i l p s v ks) => Nd i l p s v (ins k m ks)) rx]), ry).
Definition graft (w : world) (x k y : nat) : res world :=
  '(w', _) <- graft_node w x k y ;;
  tree_clear w' y.
(** :642-646 graft(const_iterator, Tree &&donor): the donor is not cleared, its
    root node is a moved-from node; emplace asserts linked_ (:101) *)
Definition graft_move (w : world) (x k y : nat) : res world :=
  tx <- get w x ;; rx <- root_node tx ;; _ <- assert_ (linked rx) ;;
  '(w', ry) <- graft_node w x k y ;;
  Ok (set_tree w' y (Some [husk ry])).
(** :634-639, :647-652 *)
Definition graft_front (w : world) (x y : nat) : res world := graft w x 0 y.
Definition graft_back (w : world) (x y : nat) : res world :=
  tx <- get w x ;; rx <- root_node tx ;; graft w x (length (kids rx)) y.

(** :654-659 Tree::swap *)
Definition tree_swap (w : world) (x y : nat) : res world :=
  tx <- get w x ;; ty <- get w y ;;
  Ok (set_tree (set_tree w x ty) y tx).

(** :608-616 empty, size (is_leaf asserts contents_), :721-726 check *)
Definition tree_empty (t : tv) : bool := match t with Some (_ :: _) => false | _ => true end.
Definition tree_size (t : tv) : res nat :=
  if tree_empty t then Ok 0 else n <- root_node t ;; _ <- assert_ (negb (is_none (val n))) ;; Ok (size n).
Definition tree_check (t : tv) : bool :=
  match t with None => true | Some [n] => check n | Some _ => false end.

Inductive op :=
| ONew (x : nat) (v : T) | OFalse (x : nat) | OClear (x : nat)
| OEmplace (p k : nat) (v : T) | OEmplaceFront (p : nat) (v : T) | OEmplaceBack (p : nat) (v : T)
| OErase (p k : nat) | OSwap (a b : nat)
| OGraft (x k y : nat) | OGraftFront (x y : nat) | OGraftBack (x y : nat) | OGraftMove (x k y : nat)
| OTreeSwap (x y : nat).
Definition step (w : world) (o : op) : res world :=
  match o with
  | ONew x v => tree_new w x v | OFalse x => tree_false w x | OClear x => tree_clear w x
  | OEmplace p k v => node_emplace w p k v
  | OEmplaceFront p v => node_emplace_front w p v | OEmplaceBack p v => node_emplace_back w p v
  | OErase p k => node_erase w p k | OSwap a b => node_swap w a b
  | OGraft x k y => graft w x k y | OGraftFront x y => graft_front w x y
  | OGraftBack x y => graft_back w x y | OGraftMove x k y => graft_move w x k y
  | OTreeSwap x y => tree_swap w x y
  end.
Fixpoint run (w : world) (h : list op) : res world :=
  match h with [] => Ok w | o :: r => w' <- step w o ;; run w' r end.

(** ** Cursors (Tree.hh:276-421 TN_Cursor; TN_Const_Cursor is the same code).
    The cursor iter_ is an address in the tree with root node r. *)
Inductive iter := It (i : nat) | End_of (owner : nat).
Definition iter_eqb (a b : iter) : bool :=
  match a, b with
  | It i, It j => i =? j
  | End_of i, End_of j => i =? j
  | _, _ => false
  end.
Definition at_it (r : node) (i : nat) : res node :=
  match deref i r with Some n => Ok n | None => UB end.
(** branches().begin(), branches().end() *)
Definition begin_of (n : node) : iter := match kids n with [] => End_of (n_id n) | k :: _ => It (n_id k) end.
Definition end_of (n : node) : iter := End_of (n_id n).
(** std::next / std::prev of a list iterator that is an element *)
Fixpoint next_in (o i : nat) (l : list node) : option iter :=
  match l with
  | [] => None
  | k :: r => if n_id k =? i then Some (match r with [] => End_of o | k' :: _ => It (n_id k') end)
              else next_in o i r
  end.
Fixpoint prev_in (i : nat) (l : list node) : option nat :=
  match l with
  | k :: (k' :: _) as r => if n_id k' =? i then Some (n_id k) else prev_in i r
  | _ => None
  end.
Definition next_it (r : node) (i : nat) : res iter :=
  match owner i r with
  | None => UB
  | Some o => match next_in (n_id o) i (kids o) with Some it => Ok it | None => UB end
  end.
Definition prev_it (r : node) (i : nat) : res nat :=
  match owner i r with
  | None => UB
  | Some o => match prev_in i (kids o) with Some it => Ok it | None => UB end
  end.

(** :119-123 is_root, :106-109 trunk *)
Definition is_root (n : node) : res bool := _ <- assert_ (linked n) ;; Ok (parent n =? self n).
Definition trunk (r n : node) : res nat :=
  _ <- assert_ (linked n) ;;
  p <- at_it r (parent n) ;;
  _ <- assert_ (parent n =? self p) ;;
  Ok (parent n).

(** :312-316 has_up, :318-324 up *)
Definition has_up (r : node) (i : nat) : res bool := n <- at_it r i ;; b <- is_root n ;; Ok (negb b).
Definition up1 (r : node) (i : nat) : res nat :=
  b <- has_up r i ;; _ <- assert_ b ;; n <- at_it r i ;; trunk r n.
(** :326-329 has_prev, :331-337 prev *)
Definition has_prev (r : node) (i : nat) : res bool :=
  n <- at_it r i ;; b <- is_root n ;;
  if b then Ok false else
  p <- at_it r (parent n) ;; Ok (negb (iter_eqb (begin_of p) (It i))).
Definition prev1 (r : node) (i : nat) : res nat :=
  b <- has_prev r i ;; _ <- assert_ b ;; prev_it r i.
(** :339-343 has_next, :345-351 next *)
Definition has_next (r : node) (i : nat) : res bool :=
  n <- at_it r i ;; b <- is_root n ;;
  if b then Ok false else
  p <- at_it r (parent n) ;; it <- next_it r i ;; Ok (negb (iter_eqb (end_of p) it)).
Definition next1 (r : node) (i : nat) : res nat :=
  b <- has_next r i ;; _ <- assert_ b ;;
  it <- next_it r i ;; match it with It j => Ok j | End_of _ => UB end.
(** :361-364 has_down, :366-372 down *)
Definition has_down (r : node) (i : nat) : res bool :=
  n <- at_it r i ;; _ <- assert_ (negb (is_none (val n))) ;; Ok (negb (is_empty (kids n))).
Definition down1 (r : node) (i : nat) : res nat :=
  b <- has_down r i ;; _ <- assert_ b ;;
  n <- at_it r i ;; match begin_of n with It j => Ok j | End_of _ => UB end.
(** up(count), prev(count), next(count), down(count) *)
Fixpoint times (f : nat -> res nat) (count : nat) (i : nat) : res nat :=
  match count with 0 => Ok i | S c => j <- f i ;; times f c j end.
(** :353-359 try_next, :374-380 try_down: the cursor afterwards and the result *)
Fixpoint try_times (has : nat -> res bool) (f : nat -> res nat) (count : nat) (i : nat) : res (nat * bool) :=
  match count with
  | 0 => Ok (i, true)
  | S c => b <- has i ;; if b then j <- f i ;; try_times has f c j else Ok (i, false)
  end.
Definition try_next (r : node) (count i : nat) := try_times (has_next r) (next1 r) count i.
Definition try_down (r : node) (count i : nat) := try_times (has_down r) (down1 r) count i.

(** A client loop: depth-first traversal with has_down/down, has_next/next,
    has_up/up.  [climb]: from a finished subtree to the next node. *)
Fixpoint climb (fuel : nat) (r : node) (i : nat) : res (option nat) :=
  b <- has_next r i ;;
  if b then j <- next1 r i ;; Ok (Some j) else
  u <- has_up r i ;;
  if u then
    match fuel with 0 => UB | S f => j <- up1 r i ;; climb f r j end
  else Ok None.
Definition dfs_next (height : nat) (r : node) (i : nat) : res (option nat) :=
  d <- has_down r i ;;
  if d then j <- down1 r i ;; Ok (Some j) else climb height r i.
(** [height], [fuel]: iteration bounds of the two loops; exceeding them is UB *)
Fixpoint dfs (height fuel : nat) (r : node) (i : nat) : res (list nat) :=
  match fuel with
  | 0 => UB
  | S f => n <- dfs_next height r i ;;
           match n with None => Ok [i] | Some j => l <- dfs height f r j ;; Ok (i :: l) end
  end.
End Tree.
Arguments node : clear implicits.
Arguments world : clear implicits.
Arguments tv : clear implicits.
Arguments op : clear implicits.
