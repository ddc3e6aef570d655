(** C86: the procedures caliper and module work on, and what caliper returns. *)
From Coq Require Import Lia.
From Verif Require Import Base Base_lemmas Tags SyntaxTags Token TTStream StmtRules Peg StmtGrammar LabelStack Prgm Prgm_spec Prgm_proofs
  PrgmSource PrgmTree_spec RangePartition Visitor Visitor_spec Procedure Procedure_spec StmtApart_spec StmtRoots_proofs Procedure_proofs
  Props_Stmt Props_Prgm Props_Visitor Props_Procedure CaliperMain CaliperMain_spec CaliperMain_proofs.
Local Open Scope nat_scope.

(** C86 (partial: there is more to every procedure than END).  caliper changes those procedures, in the order of the file, that are not inside another one, have an execution part,
    and whose first statement, if any, is not excluded. *)
Theorem C86_changed_partial : forall excl m l n mm t s', whole l ->
  parse_prgm (of_source no_exts m l) n g_program = Done (mm, Some t, s') -> not_just_end t ->
  let changed := filter (fun q => outer t q && admitted excl t q) (all_procedures t) in
  caliper_file excl t = Ok (negb (is_empty changed), map q_way changed).
Proof.
  intros excl m l n mm t s' W H BIG. cbv zeta.
  rewrite (filter_ext _ (picks t (allows excl))) by (intros q; unfold picks, admitted, allows; destruct (node_at t (q_way q)); reflexivity).
  exact (visit_outer_ok (caliper_rest excl) (allows excl) _ _ _ _ _ _ _ H (source_apart m l W) BIG (fun u P => caliper_rest_ok excl _ u P)).
Qed.
(** C86 (partial: as above).  The procedures that either program gets to, whatever it does then. *)
Theorem C86_reached_partial : forall m l n mm t s', whole l ->
  parse_prgm (of_source no_exts m l) n g_program = Done (mm, Some t, s') -> not_just_end t ->
  let reached := filter (outer t) (all_procedures t) in
  visit_outer (fun _ => Ok true) t = Ok (negb (is_empty reached), map q_way reached).
Proof.
  intros m l n mm t s' W H BIG. cbv zeta.
  rewrite (filter_ext _ (picks t (fun _ => true))).
  - exact (visit_outer_ok (fun _ => Ok true) (fun _ => true) _ _ _ _ _ _ _ H (source_apart m l W) BIG (fun u P _ _ _ _ _ => eq_refl)).
  - intros q. unfold picks, outer. destruct (inside_procedure q); [reflexivity|]. destruct (node_at t (q_way q)); cbn [negb andb]; rewrite ?andb_true_r; reflexivity.
Qed.
(** C86.  The exit status: 1 unless there is exactly one argument; 2 if the file cannot be read or parsed, or nothing is
    changed; else 0, and only then the file is written. *)
Theorem C86_status : forall file args r, caliper_main file args = Ok r ->
  (length args <> 1 -> r = (1%Z, false)) /\
  (forall f, args = [f] -> file f = None -> r = (2%Z, false)) /\
  (forall f t excl, args = [f] -> file f = Some (t, excl) -> exists changed l, caliper_file excl t = Ok (changed, l) /\
     r = (if changed : bool then (0%Z, true) else (2%Z, false))).
Proof.
  intros file args r H. split; [|split].
  - intros L. unfold caliper_main in H. destruct args as [|a [|b args]]; [|exfalso; apply L; reflexivity|]; now injection H as <-.
  - intros f -> E. cbn [caliper_main] in H. rewrite E in H. now injection H as <-.
  - intros f t excl -> E. cbn [caliper_main] in H. rewrite E in H. destruct (caliper_file excl t) as [[c l']| |]; try discriminate. cbn [bind] in H. injection H as <-.
    exists c, l'. split; [reflexivity|]. destruct c; reflexivity.
Qed.

(** C86, what is not so.  A main program that is just END has no execution part, but the file is not left alone: ingest() fails
    an assertion. *)
Theorem C86_just_end_refuted : exists t s', whole [st 0 t_end] /\ parse_prgm (src [st 0 t_end]) 200 g_program = Done (true, Some t, s') /\
  filter (outer t) (all_procedures t) = [] /\ forall rest, visit_outer rest t = UB.
Proof.
  eexists _, _. split; [whole_file|]. split; [vm_compute; reflexivity|]. split; [vm_compute; reflexivity|]. intros rest. vm_compute. reflexivity.
Qed.
(** C86, what is not so.  A file in which there is nothing to change is not given back: nothing is written, and the status
    is that of a file that could not be read. *)
Theorem C86_nothing_refuted : exists t s' file, whole [st 0 t_sub; st 0 t_end] /\
  parse_prgm (src [st 0 t_sub; st 0 t_end]) 200 g_program = Done (true, Some t, s') /\ file (L "f") = Some (t, fun _ => false) /\ file (L "g") = None /\
  caliper_main file [L "f"] = Ok (2%Z, false) /\ caliper_main file [L "g"] = caliper_main file [L "f"].
Proof.
  eexists _, _, (fun f => if list_eq_dec ascii_dec f (L "f") then Some (_, fun _ => false) else None). split; [whole_file|]. split; [vm_compute; reflexivity|].
  split; [reflexivity|]. split; [reflexivity|]. split; vm_compute; reflexivity.
Qed.

(** module m; contains; subroutine s; a = b; contains; subroutine s; a = b; end; end; end module; subroutine s; end;
    subroutine s; a = b; end; a = b; end -- and the same with the third subroutine excluded *)
Definition file2 : list source_stmt :=
  map (st 0) [t_module; t_contains; t_sub; t_set; t_contains; t_sub; t_set; t_end; t_end; t_endmodule; t_sub; t_end; t_sub; t_set; t_end; t_set; t_end].
Example C86_ex : exists t s', whole file2 /\ parse_prgm (src file2) 400 g_program = Done (true, Some t, s') /\ not_just_end t /\
  caliper_file (fun _ => false) t = Ok (true, [[0; 0; 2; 1; 0]; [2; 0; 0]; [3; 0]]) /\
  caliper_file (fun i => i =? 12) t = Ok (true, [[0; 0; 2; 1; 0]; [3; 0]]).
Proof.
  eexists _, _. split; [whole_file|]. split; [vm_compute; reflexivity|]. split; [|split; vm_compute; reflexivity].
  intros q u I. match type of I with In q ?l => let l' := eval vm_compute in l in change l with l' in I end.
  repeat (destruct I as [<-|I]; [intros E N; try discriminate E; match type of N with ?a = _ => let a' := eval vm_compute in a in change a with a' in N end; injection N as <-;
    match goal with |- 2 <= ?k => let k' := eval vm_compute in k in change k with k' end; lia|]). destruct I.
Qed.
Definition C86_all := (C86_changed_partial, C86_reached_partial, C86_status, C86_just_end_refuted, C86_nothing_refuted, C86_ex).
Print Assumptions C86_all.
