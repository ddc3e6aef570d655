(** Model of src/flpr/Procedure.hh: the regions of a procedure.

    A statement iterator is the number of the statement, the end of the
    statement list is the number of statements; a node without statements has a
    default constructed range.  Cursors are those of Visitor.v, regions those of
    RangePartition.v. *)
From Verif Require Import Base Tags Token StmtRules Peg LabelStack Prgm RangePartition Visitor.
Local Open Scope nat_scope.

(** :55-65 enum Region_Tag *)
Definition PROC_BEGIN := 0.
Definition USES := 1.
Definition IMPORTS := 2.
Definition IMPLICITS := 3.
Definition DECLS := 4.
Definition EXECUTION_PART := 5.
Definition CONTAINED := 6.
Definition PROC_END := 7.
Definition NUM_REGION_TAG := 8.

(** :229-236 ranges_, the trackers of its regions, subprogram_tag_ *)
Record procedure := mkProcedure { pr_parts : partition; pr_track : list (nat * pcur); pr_tag : Z }.
(** :68-69 constructor; subprogram_tag_ is not initialised *)
Definition new_procedure : res procedure := st <- new_partition NUM_REGION_TAG ;; Ok (mkProcedure st [] 0).

(** ranges_.set_tracker(idx, Tracker{tr}); ranges_.append(idx, c->stmt_range()) *)
Definition add_node (P : procedure) (idx : nat) (tr c : pcur) : res procedure :=
  let '(b, e) := match g_rng (c_node c) with Some (b, e) => (Some b, Some e) | None => (None, None) end in
  st <- append (pr_parts P) idx b e ;;
  Ok (mkProcedure st ((idx, tr) :: pr_track P) (pr_tag P)).

(** :290-311 the loop over a specification part *)
Definition spec_node (P : procedure) (pc spc : pcur) : res procedure :=
  if (c_tag spc =? SG_USE_STMT)%Z then add_node P USES pc spc
  else if (c_tag spc =? SG_IMPORT_STMT)%Z then add_node P IMPORTS pc spc
  else if (c_tag spc =? PG_IMPLICIT_PART)%Z then add_node P IMPLICITS spc spc
  else if (c_tag spc =? PG_DECLARATION_CONSTRUCT)%Z then add_node P DECLS pc spc
  else Ok P.
Fixpoint spec_loop (k : nat) (P : procedure) (pc spc : pcur) : res procedure :=
  match k with
  | O => UB
  | S k' =>
      P <- spec_node P pc spc ;;
      match c_try_next spc with None => Ok P | Some spc => spec_loop k' P pc spc end
  end.
(** :285-324 the loop over the parts; the cursor and [scan] in the end *)
Fixpoint scan_loop (k : nat) (P : procedure) (pc : pcur) : res (procedure * pcur * bool) :=
  match k with
  | O => UB
  | S k' =>
      let next P := match c_try_next pc with None => Ok (P, pc, true) | Some pc => scan_loop k' P pc end in
      if (c_tag pc =? PG_SPECIFICATION_PART)%Z then
        spc <- c_down pc ;; P <- spec_loop (S (right_of spc)) P pc spc ;; next P
      else if (c_tag pc =? PG_EXECUTION_PART)%Z then P <- add_node P EXECUTION_PART pc pc ;; next P
      else if (c_tag pc =? PG_INTERNAL_SUBPROGRAM_PART)%Z then P <- add_node P CONTAINED pc pc ;; next P
      else Ok (P, pc, false)
  end.
(** :260-338 ingest *)
Definition is_end_tag (g : Z) : bool :=
  (g =? SG_END_FUNCTION_STMT)%Z || (g =? SG_END_SUBROUTINE_STMT)%Z || (g =? SG_END_PROGRAM_STMT)%Z || (g =? SG_END_MP_SUBPROGRAM_STMT)%Z.
Definition ingest (P : procedure) (root : pcur) : res (bool * procedure) :=
  let tag := c_tag root in
  let P := mkProcedure (pr_parts P) (pr_track P) tag in
  if negb ((tag =? PG_FUNCTION_SUBPROGRAM)%Z || (tag =? PG_SUBROUTINE_SUBPROGRAM)%Z || (tag =? PG_MAIN_PROGRAM)%Z ||
           (tag =? PG_SEPARATE_MODULE_SUBPROGRAM)%Z) then Ok (false, P) else
  pc <- c_down root ;;
  '(P, pc) <-
    (if negb ((tag =? PG_MAIN_PROGRAM)%Z && negb (c_tag pc =? SG_PROGRAM_STMT)%Z) then
       _ <- assert_ (is_empty (g_kids (c_node pc))) ;;
       P <- add_node P PROC_BEGIN pc pc ;;
       pc <- c_next pc ;;
       Ok (P, pc)
     else Ok (P, pc)) ;;
  '(P, pc, scan) <- scan_loop (S (right_of pc)) P pc ;;
  _ <- assert_ (negb scan) ;;
  _ <- assert_ (is_end_tag (c_tag pc)) ;;
  P <- add_node P PROC_END pc pc ;;
  v <- validate (pr_parts P) ;;
  _ <- assert_ v ;;
  Ok (true, P).
