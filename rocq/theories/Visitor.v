(** Model of src/flpr/Procedure_Visitor.hh: the action is called on the
    procedures of a program tree.

    A cursor is the node it points to with what lies around it: the siblings to
    the right, the way from the root and the cursor of the trunk.  Moves that
    the code makes without asking first are undefined when there is nothing to
    move to (Tree.hh, see Tree.v and C18).  The action gets the position of the
    node; what it does to the file is not modelled, only that it leaves the
    program tree alone (Procedure changes statements and the statement list, not
    the program tree) and that it returns a truth value.  The list of the calls
    made so far is kept. *)
From Verif Require Import Base Tags LabelStack Prgm.
Local Open Scope nat_scope.

Inductive pcur : Type := Cur (n : ptree) (right : list ptree) (path : list nat) (trunk : option pcur).
Definition c_node (c : pcur) := let 'Cur n _ _ _ := c in n.
Definition c_path (c : pcur) := let 'Cur _ _ p _ := c in p.
Definition c_tag (c : pcur) : Z := g_tag (c_node c).
(** Tree.hh cursor: cursor of a tree, down, next, try_down, try_next, up *)
Definition c_root (t : ptree) : pcur := Cur t [] [] None.
Definition c_try_down (c : pcur) : option pcur :=
  match g_kids (c_node c) with [] => None | k :: ks => Some (Cur k ks (0 :: c_path c) (Some c)) end.
Definition c_try_next (c : pcur) : option pcur :=
  let 'Cur _ r p u := c in
  match r, p with k :: ks, i :: p' => Some (Cur k ks (S i :: p') u) | _, _ => None end.
Definition sure (o : option pcur) : res pcur := match o with Some c => Ok c | None => UB end.
Definition c_down (c : pcur) : res pcur := sure (c_try_down c).
Definition c_next (c : pcur) : res pcur := sure (c_try_next c).
Definition c_up (c : pcur) : res pcur := let 'Cur _ _ _ u := c in sure u.

(** a call of the action: position of the procedure, internal, module *)
Record call := mkCall { k_path : list nat; k_internal : bool; k_module : bool }.
Definition visited := (bool * list call)%type.
Section Visit.
Variable action : call -> bool.
Definition act (c : pcur) (internal module : bool) (log : list call) : visited :=
  let k := mkCall (rev (c_path c)) internal module in (action k, log ++ [k]).

(** while (c.try_next()) ...; the body gets the cursor and gives back a cursor on
    the same node *)
Fixpoint next_loop (k : nat) (body : pcur -> bool -> list call -> res (pcur * bool * list call)) (c : pcur) (ret : bool) (log : list call) : res visited :=
  match k with
  | O => UB
  | S k' =>
      match c_try_next c with
      | None => Ok (ret, log)
      | Some c => '(c, ret, log) <- body c ret log ;; next_loop k' body c ret log
      end
  end.
Definition right_of (c : pcur) : nat := let 'Cur _ r _ _ := c in length r.

(** :84-126 visit_procedure_: from the specification part on; [rec] is the call
    for an internal procedure *)
Definition skip_if (tag : Z) (c : pcur) : option pcur := if (c_tag c =? tag)%Z then c_try_next c else Some c.
Definition visit_rest (rec : pcur -> list call -> res visited) (c : pcur) (ret : bool) (log : list call) : res visited :=
  match skip_if PG_SPECIFICATION_PART c with
  | None => Ok (ret, log)
  | Some c =>
      match skip_if PG_EXECUTION_PART c with
      | None => Ok (ret, log)
      | Some c =>
          if (c_tag c =? PG_INTERNAL_SUBPROGRAM_PART)%Z then
            match c_try_down c with
            | None => Ok (ret, log)
            | Some c =>
                _ <- assert_ (c_tag c =? SG_CONTAINS_STMT)%Z ;;
                next_loop (S (right_of c)) (fun c ret log =>
                  d <- c_down c ;;
                  '(r, log) <- rec d log ;;
                  Ok (c, ret || r, log)) c ret log
            end
          else Ok (ret, log)
      end
  end.
(** the depth of the recursion is at most 2: internal procedures return after
    the action *)
Fixpoint visit_procedure (k : nat) (c : pcur) (internal module : bool) (log : list call) : res visited :=
  match k with
  | O => UB
  | S k' =>
      let '(ret, log) := act c internal module log in
      if internal then Ok (ret, log) else
      let is_main := (c_tag c =? PG_MAIN_PROGRAM)%Z in
      c <- c_down c ;;
      c <- (if is_main then (if (c_tag c =? SG_PROGRAM_STMT)%Z then c_next c else Ok c) else c_next c) ;;
      visit_rest (fun d log => visit_procedure k' d true module log) c ret log
  end.

(** :128-155 visit_module_ *)
Definition visit_module (c : pcur) (log : list call) : res visited :=
  c <- c_down c ;;
  _ <- assert_ (c_tag c =? SG_MODULE_STMT)%Z ;;
  c <- c_next c ;;
  match skip_if PG_SPECIFICATION_PART c with
  | None => Ok (false, log)
  | Some c =>
      if (c_tag c =? PG_MODULE_SUBPROGRAM_PART)%Z then
        c <- c_down c ;;
        _ <- assert_ (c_tag c =? SG_CONTAINS_STMT)%Z ;;
        next_loop (S (right_of c)) (fun c ret log =>
          c <- c_down c ;;
          '(ret, log) <-
            (if (c_tag c =? PG_FUNCTION_SUBPROGRAM)%Z || (c_tag c =? PG_SUBROUTINE_SUBPROGRAM)%Z ||
                (c_tag c =? PG_SEPARATE_MODULE_SUBPROGRAM)%Z
             then '(r, log) <- visit_procedure 2 c false true log ;; Ok (ret || r, log)
             else Ok (ret, log)) ;;
          c <- c_up c ;;
          Ok (c, ret, log)) c false log
      else Ok (false, log)
  end.

(** :52-82 visit; the body of the do-while loop *)
Definition visit_unit (c : pcur) (ret : bool) (log : list call) : res (pcur * bool * list call) :=
  _ <- assert_ (c_tag c =? PG_PROGRAM_UNIT)%Z ;;
  c <- c_down c ;;
  '(r, log) <-
    (if (c_tag c =? PG_EXTERNAL_SUBPROGRAM)%Z then d <- c_down c ;; visit_procedure 2 d false false log
     else if (c_tag c =? PG_MODULE)%Z then visit_module c log
     else if (c_tag c =? PG_MAIN_PROGRAM)%Z then visit_procedure 2 c false false log
     else if (c_tag c =? PG_SUBMODULE)%Z then visit_module c log
     else Ok (false, log)) ;;
  c <- c_up c ;;
  Ok (c, ret || r, log).
(** the whole: of an empty tree, of a tree *)
Definition visit (t : option ptree) : res visited :=
  match t with
  | None => Ok (false, [])
  | Some t =>
      let c := c_root t in
      _ <- assert_ (c_tag c =? PG_PROGRAM)%Z ;;
      c <- c_down c ;;
      '(c, ret, log) <- visit_unit c false [] ;;
      next_loop (S (right_of c)) visit_unit c ret log
  end.
End Visit.
