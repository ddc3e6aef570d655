(** Model of what apps/caliper.cc does to the execution part of a procedure.

    Simplifications: the execution part is a list of statements, each with what the
    program asks of it: its label (0: none), its kind as stmt_tag(true) gives it (C67:
    negative for what is inside an IF statement), and its text, in front of the
    action statement and the action statement itself.  Inserting and replacing
    statements in the file is that of StmtEdit.v (C64, C65), keeping the regions of
    the procedure that of RangePartition.v (C22); here they are operations on the
    list.  Leading spaces are not modelled. *)
From Verif Require Import Base Tags SyntaxTags Token Peg StmtParser StmtWalk.
Local Open Scope Z_scope.

Record astmt := mkA { a_label : Z; a_kind : Z; a_front : str; a_action : str }.

(** :183-211 count_return_stmts: in IF statements, internal, final *)
Fixpoint count_return_stmts (l : list astmt) : nat * nat * nat :=
  match l with
  | [] => (0, 0, 0)%nat
  | s :: r =>
      let '(i, n, f) := count_return_stmts r in
      if a_kind s <? 0 then (if SG_RETURN_STMT =? -1 * a_kind s then (S i, n, f) else (i, n, f))
      else if SG_RETURN_STMT =? a_kind s then match r with [] => (i, n, S f) | _ => (i, S n, f) end
      else (i, n, f)
  end.
(** :138-141 the loop; [k] is the number of steps that are possible *)
Fixpoint unused_label (k : nat) (label : Z) (labels : list Z) : Z :=
  match k with
  | O => label
  | S k => if (0 <? label) && existsb (Z.eqb label) labels then unused_label k (label - 1) labels else label
  end.
(** Procedure.hh:443-453 scan_out_labels *)
Definition scan_labels (l : list astmt) : list Z := map a_label (filter (fun s => 0 <? a_label s) l).

(** :97-100, LL_Stmt for Logical_Line{text} *)
Definition call_of (p : string) (name : str) : astmt := mkA 0 SG_CALL_STMT [] (L "call " ++ L p ++ L "('" ++ name ++ L "')").
(** :216 *)
Definition goto_text (label : Z) : str := L "go to " ++ to_dec_z label.
(** :219-245 convert_return_stmts *)
Definition convert_stmt (label : Z) (s : astmt) : astmt :=
  if a_kind s <? 0 then
    if SG_RETURN_STMT =? -1 * a_kind s then mkA (a_label s) (-1 * SG_GOTO_STMT) (a_front s) (goto_text label) else s
  else if SG_RETURN_STMT =? a_kind s then mkA (a_label s) SG_GOTO_STMT [] (goto_text label)
  else s.
Definition relabel (s : astmt) (label : Z) : astmt := mkA label (a_kind s) (a_front s) (a_action s).
(** :214-246: no final RETURN may be left *)
Fixpoint convert_return_stmts (label : Z) (l : list astmt) : res (list astmt) :=
  match l with
  | [] => Ok []
  | s :: r =>
      _ <- assert_ (negb (is_empty r && (SG_RETURN_STMT =? a_kind s))) ;;
      r' <- convert_return_stmts label r ;;
      Ok (convert_stmt label s :: r')
  end.
(** :92-150 caliper_procedure on the execution part [l]; [others] are the other
    statements of the procedure *)
Definition caliper_procedure (name : str) (others l : list astmt) : res (list astmt) :=
  let '(ifs, internal, final) := count_return_stmts l in
  _ <- assert_ ((final =? 0)%nat || (final =? 1)%nat) ;;
  let l1 := call_of "caliper_begin" name :: l in
  let stmt := call_of "caliper_end" name in
  let '(body, end_) :=
    if (final =? 0)%nat then (l1, stmt)
    else (removelast l1, mkA (a_label (last l1 stmt)) (a_kind stmt) (a_front stmt) (a_action stmt)) in
  if (ifs =? 0)%nat && (internal =? 0)%nat then Ok (body ++ [end_])
  else
    if 0 <? a_label end_ then convert_return_stmts (a_label end_) (body ++ [end_])
    else
      let label := unused_label (Z.to_nat 9999) 9999 (scan_labels (others ++ body ++ [end_])) in
      _ <- assert_ (0 <? label) ;;
      convert_return_stmts label (body ++ [relabel end_ label]).

(** apps/module_base.cc:58-105 Module_Action on a procedure that is not internal and has an
    execution part.  The statements are given by their tokens, their tag and their tree; the
    action only looks at the execution part and at the USES.  The result: whether a USE
    statement is put at the end of the USES, and what the action returns, which is whether the
    file is rewritten. *)
Definition pstmt := (list Token * Z * stree)%type.
(** :75-82 *)
Fixpoint any_call (names : list str) (l : list pstmt) : res bool :=
  match l with
  | [] => Ok false
  | (fr, g, t) :: r => b <- has_call_named fr g t names ;; if b : bool then Ok true else any_call names r
  end.
(** :88-93 *)
Definition use_name (x : pstmt) : res str :=
  let '(fr, _, t) := x in
  c <- find_use_module_name t ;; p <- the_token c ;; lower_at fr p.
Fixpoint any_use (module_lc : str) (found : bool) (l : list pstmt) : res bool :=
  match l with
  | [] => Ok found
  | x :: r => w <- use_name x ;; any_use module_lc (if list_eq_dec ascii_dec w module_lc then true else found) r
  end.
Definition module_action (module_name : str) (names : list str) (exec uses : list pstmt) : res (bool * bool) :=
  found <- any_call names exec ;;
  if negb found then Ok (false, false) else
  have <- any_use (map lower_b module_name) false uses ;;
  Ok (negb have, true).
