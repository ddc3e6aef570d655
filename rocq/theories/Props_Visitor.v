(** C60: every procedure of a file is visited once, in order. *)
From Coq Require Import Lia.
From Verif Require Import Base Base_lemmas Tags SyntaxTags Token TTStream StmtRules Peg StmtGrammar LabelStack Prgm Prgm_spec Prgm_proofs
  PrgmSource PrgmSource_proofs PrgmTree_spec PrgmTree_proofs Visitor Visitor_spec Visitor_proofs Props_Prgm.
Local Open Scope nat_scope.

(** Visiting the tree of any file: the action is called on the procedures of the
    tree, from the first to the last, each with whether it is inside another
    procedure and whether it is inside a module; only procedures inside at least
    two others are left out.  No cursor is moved where there is nothing and no
    assertion fails.  The result is whether the action returned true for any. *)
Theorem C60_visits : forall exts m l n mm t s' action,
  parse_prgm (of_source exts m l) n g_program = Done (mm, Some t, s') ->
  let calls := map (fun q => mkCall (q_way q) (inside_procedure q) (inside_module q)) (filter (fun q => depth q <=? 1) (all_procedures t)) in
  visit action (Some t) = Ok (existsb action calls, calls).
Proof.
  intros exts m l n mm t s' action H. apply prgm_derives in H as (_ & D & I). cbn in I. destruct I as [I|[]]. exact (visit_ok action _ t D (eq_sym I)).
Qed.
Print Assumptions C60_visits.

(** As the standard has it, procedures are not nested deeper: then all are visited. *)
Theorem C60_all : forall exts m l n mm t s' action,
  parse_prgm (of_source exts m l) n g_program = Done (mm, Some t, s') -> Forall (fun q => depth q <= 1) (all_procedures t) ->
  exists ret calls, visit action (Some t) = Ok (ret, calls) /\ map k_path calls = map q_way (all_procedures t) /\
    map k_internal calls = map inside_procedure (all_procedures t) /\ map k_module calls = map inside_module (all_procedures t).
Proof.
  intros exts m l n mm t s' action H F. rewrite (C60_visits _ _ _ _ _ _ _ action H). eexists _, _. split; [reflexivity|].
  assert (E : filter (fun q => depth q <=? 1) (all_procedures t) = all_procedures t).
  { clear -F. induction F as [|q qs A F IH]; [reflexivity|]. cbn [filter]. apply Nat.leb_le in A. now rewrite A, IH. }
  rewrite E, !map_map. auto.
Qed.
Print Assumptions C60_all.

(** The list of procedures: exactly the nodes of the tree that are procedures,
    each once. *)
Theorem C60_procedures : forall t,
  (forall w, In w (map q_way (all_procedures t)) <-> exists u, node_at t w = Some u /\ is_procedure (g_tag u) = true) /\
  NoDup (map q_way (all_procedures t)).
Proof.
  intros t. split; [|apply ways_distinct]. intros w. split.
  - intros H. apply in_map_iff in H as (q & <- & H). apply procedures_way in H as (w & u & E & A & B). cbn in E. rewrite E. eauto.
  - intros (u & A & B). destruct (way_procedures w t u [] [] A B) as (q & C & E). apply in_map_iff. exists q. auto.
Qed.
Print Assumptions C60_procedures.

(** module m; contains; subroutine s; contains; subroutine t; end; end; end module;
    subroutine u; end; program p; end *)
Definition t_module := [(KW_MODULE, "module"); name "m"]%string.
Definition t_contains := [(KW_CONTAINS, "contains")]%string.
Definition t_endmodule := [(KW_END, "end"); (KW_MODULE, "module")]%string.
Definition t_program := [(KW_PROGRAM, "program"); name "p"]%string.
Definition file1 : list source_stmt :=
  map (st 0) [t_module; t_contains; t_sub; t_contains; t_sub; t_end; t_end; t_endmodule; t_sub; t_set; t_end; t_program; t_end].
Example C60_ex : exists t s', parse_prgm (src file1) 200 g_program = Done (true, Some t, s') /\ Forall (fun q => depth q <= 1) (all_procedures t) /\
  visit (fun k => k_internal k) (Some t) = Ok (true,
    [mkCall [0; 0; 2; 1; 0] false true; mkCall [0; 0; 2; 1; 0; 2; 1; 0] true true; mkCall [1; 0; 0] false false; mkCall [2; 0] false false]).
Proof.
  eexists _, _. split; [vm_compute; reflexivity|]. split; [|vm_compute; reflexivity].
  match goal with |- Forall _ ?l => let l' := eval vm_compute in l in change l with l' end. repeat constructor.
Qed.

(** The parsers accept a third level of procedures, which the visitor skips. *)
Theorem C60_third_level_refuted : exists t s',
  parse_prgm (src (map (st 0) [t_sub; t_contains; t_sub; t_contains; t_sub; t_end; t_end; t_end])) 200 g_program = Done (true, Some t, s') /\
  length (all_procedures t) = 3 /\ exists calls, visit (fun _ => true) (Some t) = Ok (true, calls) /\ length calls = 2.
Proof.
  eexists _, _. split; [vm_compute; reflexivity|]. split; [vm_compute; reflexivity|]. eexists. split; vm_compute; reflexivity.
Qed.
Print Assumptions C60_third_level_refuted.
