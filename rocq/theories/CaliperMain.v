(** Model of the driver of caliper (apps/caliper.cc:47-90, 157-161) and of the part it shares with module
    (apps/module_base.cc:58-73): which procedures of a file the action works on.

    What the action does with a procedure is in Caliper.v.  It neither changes the program tree nor the regions of another
    procedure, so the procedures are visited as in Visitor.v, and each is looked at in the tree as it was read. *)
From Verif Require Import Base Tags Token StmtRules Peg LabelStack Prgm RangePartition Visitor Visitor_spec Procedure.
Local Open Scope nat_scope.

Section Action.
(** what comes behind the tests: the return value for a procedure *)
Variable rest : procedure -> res bool.
(** caliper.cc:76-90, module_base.cc:60-73; the cursor of the call is the node at its position *)
Definition outer_action (t : ptree) (k : call) : res bool :=
  if k_internal k then Ok false else
  match node_at t (k_path k) with
  | None => UB
  | Some u =>
      P <- new_procedure ;;
      ' (ok, P) <- ingest P (Cur u [] [] None) ;;
      if negb ok then Ok false else
      e <- region_empty (pr_parts P) EXECUTION_PART ;;
      if e : bool then Ok false else rest P
  end.
Definition said (r : res bool) : bool := match r with Ok b => b | _ => false end.
Fixpoint all_defined (t : ptree) (l : list call) : res unit :=
  match l with [] => Ok tt | k :: r => _ <- outer_action t k ;; all_defined t r end.
(** Procedure_Visitor{file, action}.visit(): its value, and the procedures for which the action returned true *)
Definition visit_outer (t : ptree) : res (bool * list (list nat)) :=
  ' (ret, log) <- visit (fun k => said (outer_action t k)) (Some t) ;;
  _ <- all_defined t log ;;
  Ok (ret, map k_path (filter (fun k => said (outer_action t k)) log)).
End Action.

(** caliper.cc:92-95 and 157-161: a main program without PROGRAM statement is not excluded; [excl] is what the loop
    :162-176 (exclude_procedure of StmtWalk.v) says of the first statement *)
Definition caliper_rest (excl : nat -> bool) (P : procedure) : res bool :=
  headless <- region_empty (pr_parts P) PROC_BEGIN ;;
  if (pr_tag P =? PG_MAIN_PROGRAM)%Z && headless then Ok true else
  b <- cbegin (pr_parts P) PROC_BEGIN ;;
  match b with Some i => Ok (negb (excl i)) | None => UB end.
(** :60-71 caliper_file on the tree of a file that was read and parsed: the procedures that were changed *)
Definition caliper_file (excl : nat -> bool) (t : ptree) : res (bool * list (list nat)) := visit_outer (caliper_rest excl) t.

(** :47-56 main: the exit status, and whether the file is written to cout.  [file] gives what the constructor of
    Parsed_File makes of a file: [None] if it is in a bad state *)
Definition caliper_main (file : str -> option (ptree * (nat -> bool))) (args : list str) : res (Z * bool) :=
  match args with
  | [f] =>
      match file f with
      | None => Ok (2%Z, false)
      | Some (t, excl) => ' (changed, _) <- caliper_file excl t ;; Ok (if changed : bool then 0%Z else 2%Z, changed)
      end
  | _ => Ok (1%Z, false)
  end.
