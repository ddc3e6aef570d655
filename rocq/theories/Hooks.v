(** Model of the links from statements to the nodes of the program tree
    (Parsed_File.hh:111-119, 192-203; LL_Stmt.hh set_hook, has_hook, get_hook).
    A hook is the way from the root to the node: branch numbers. *)
From Verif Require Import Base Tags StmtRules Peg LabelStack Prgm.
Local Open Scope nat_scope.

Definition hooks := nat -> option (list nat).
Definition no_hooks : hooks := fun _ => None.
Definition set_hook (h : hooks) (i : nat) (w : list nat) : hooks := fun j => if j =? i then Some w else h j.
(** Parsed_File.hh:192-203 link_stmts_recurse_; [w] is the way to n, the last step
    first *)
Fixpoint link_stmts (n : ptree) (w : list nat) (h : hooks) : hooks :=
  match n with
  | PT _ _ o [] => match o with Some i => set_hook h i (rev w) | None => h end
  | PT _ _ _ kids => (fix go (k : nat) (l : list ptree) (h : hooks) : hooks :=
      match l with [] => h | b :: r => go (S k) r (link_stmts b (k :: w) h) end) 0 kids h
  end.
(** the hooks that it sets in a new tree; :111-119 stmt_to_node_cursor reads them *)
Definition hooks_of (t : ptree) : hooks := link_stmts t [] no_hooks.

(** :173-190 build_tree_ on the statements x: whether the file is now in a bad
    state, the tree and the hooks.  If program() does not match, the tree is empty
    (Prgm_Parsers_utils.hh:273) and :187 takes its root all the same. *)
Definition build_tree (x : stmts) (n : nat) : out (bool * option ptree * hooks) :=
  if x_num x =? 0 then Done (false, None, no_hooks)
  else match parse_prgm x n g_program with
  | Done (m, Some t, _) => Done (negb m, Some t, hooks_of t)
  | Done (_, None, _) => Bad
  | Bad => Bad
  | Fuel => Fuel
  end.
