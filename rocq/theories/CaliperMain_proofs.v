From Coq Require Import Lia.
From Verif Require Import Base Base_lemmas Tags SyntaxTags Token TTStream StmtRules Peg StmtGrammar LabelStack Prgm Prgm_spec Prgm_proofs
  PrgmSource PrgmSource_proofs PrgmTree_spec PrgmTree_proofs RangePartition RangePartition_spec Visitor Visitor_spec Visitor_proofs
  Procedure Procedure_spec Procedure_proofs StmtApart_spec StmtRoots_proofs Props_Stmt Props_Prgm Props_Visitor Props_Procedure CaliperMain CaliperMain_spec.
Local Open Scope nat_scope.

Lemma begin_stmts x u : derives x u -> tiled u -> is_procedure (g_tag u) = true ->
  (g_tag u = PG_MAIN_PROGRAM /\ region_stmts u PROC_BEGIN = []) \/ exists i, region_stmts u PROC_BEGIN = [i].
Proof.
  intros DU TU PU. destruct (proc_shape x u DU PU) as (r & first & spec & ex & inn & l & EU & FO & DS & TS & EX & IN & OL & L).
  destruct (spec_shape x spec DS TS) as (rs & a & b & c & d & ES & KS & A & B & C & D).
  pose proof (nodes_at x u r first spec ex inn l rs a b c d EU FO EX IN L ES A B C D PROC_BEGIN ltac:(vm_compute; lia)) as NA.
  unfold region_stmts. rewrite NA. cbn [nth pieces PROC_BEGIN]. destruct FO as [[TM ->]|(f & -> & OF & TF & _)]; [left; auto|right].
  destruct (leaf_shape x f OF) as (i & -> & _ & _).
  - revert TF. cbn [In begin_kinds]. intros T. repeat (destruct T as [<-|T]; [vm_compute; reflexivity|]). destruct T.
  - exists i. cbn [flat_map]. unfold stmts_of, stmt_leaf. cbn [g_rng app]. replace (S i - i) with 1 by lia. reflexivity.
Qed.

Section Run.
Variables (x : stmts) (t : ptree).
Hypothesis DT : derives x t.
Hypothesis TT : tiled t.
Hypothesis AP : apart x.
Variables (rest : procedure -> res bool) (ok : ptree -> bool).
Hypothesis HR : forall u P, derives x u -> tiled u -> is_procedure (g_tag u) = true -> pr_tag P = g_tag u -> shows (x_num x) u P -> rest P = Ok (ok u).
Definition picks (q : proc) : bool := outer t q && match node_at t (q_way q) with Some u => ok u | None => false end.

Lemma action_ok q u : inside_procedure q = false -> node_at t (q_way q) = Some u -> is_procedure (g_tag u) = true -> 2 <= length (stmts_of u) ->
  outer_action rest t (mkCall (q_way q) (inside_procedure q) (inside_module q)) = Ok (picks q).
Proof using DT TT AP HR.
  intros I N PU LE. unfold outer_action. cbn [k_internal k_path]. rewrite I, N.
  assert (DU : derives x u) by (eapply way_derives; eauto). assert (TU : tiled u) by (eapply way_tiled; eauto).
  destruct (ingest_ok x u [] [] None DU TU AP PU) as (p & e & P0 & R & LT & _ & NP & G & _).
  unfold stmts_of in LE. rewrite R, seq_length in LE. destruct (G ltac:(lia)) as (P & IP & TP & SH).
  rewrite NP. cbn [bind]. rewrite IP. cbn [bind negb]. destruct (SH EXECUTION_PART ltac:(vm_compute; lia)) as [E _]. rewrite E. cbn [bind].
  unfold picks, outer. rewrite I, N. cbn [negb andb]. change EXECUTION_PART with 5. destruct (is_empty (region_stmts u 5)); cbn [negb andb]; [reflexivity|].
  exact (HR u P DU TU PU TP SH).
Qed.
Lemma inside_depth q : (depth q <=? 1) = false -> inside_procedure q = true.
Proof using.
  unfold depth, inside_procedure. induction (q_around q) as [|g l IH]; cbn [filter existsb]; [discriminate|]. destruct (is_procedure g); [reflexivity|exact IH].
Qed.
Hypothesis BIG : not_just_end t.
Lemma all_ok q : In q (all_procedures t) -> outer_action rest t (mkCall (q_way q) (inside_procedure q) (inside_module q)) = Ok (picks q).
Proof using DT TT AP HR BIG.
  intros I. destruct (inside_procedure q) eqn:E.
  - unfold outer_action, picks, outer. cbn [k_internal]. rewrite E. reflexivity.
  - pose proof I as W. apply procedures_way in W as (w & u & EW & N & PU). cbn in EW. rewrite <- EW in N. rewrite <- E at 1. apply action_ok with (u := u); auto. exact (BIG q u I E N).
Qed.
Definition calls := map (fun q => mkCall (q_way q) (inside_procedure q) (inside_module q)) (filter (fun q => depth q <=? 1) (all_procedures t)).
Lemma defined_ok : forall qs, (forall q, In q qs -> In q (all_procedures t)) ->
  all_defined rest t (map (fun q => mkCall (q_way q) (inside_procedure q) (inside_module q)) qs) = Ok tt.
Proof using DT TT AP HR BIG.
  induction qs as [|q qs IH]; intros I; [reflexivity|]. cbn [map all_defined]. rewrite all_ok by (apply I; left; reflexivity). cbn [bind]. apply IH. intros q' I'. apply I. right. exact I'.
Qed.
Lemma chosen_ok : forall qs, (forall q, In q qs -> In q (all_procedures t)) ->
  existsb (fun k => said (outer_action rest t k)) (map (fun q => mkCall (q_way q) (inside_procedure q) (inside_module q)) (filter (fun q => depth q <=? 1) qs)) = existsb picks qs /\
  map k_path (filter (fun k => said (outer_action rest t k)) (map (fun q => mkCall (q_way q) (inside_procedure q) (inside_module q)) (filter (fun q => depth q <=? 1) qs))) =
  map q_way (filter picks qs).
Proof using DT TT AP HR BIG.
  induction qs as [|q qs IH]; intros I; [split; reflexivity|]. destruct IH as [IH1 IH2]; [intros q' I'; apply I; right; exact I'|].
  cbn [filter existsb]. destruct (depth q <=? 1) eqn:D.
  - cbn [map existsb filter]. rewrite all_ok by (apply I; left; reflexivity). cbn [said]. split; [f_equal; exact IH1|].
    destruct (picks q); cbn [map]; [cbn [k_path]; f_equal|]; exact IH2.
  - assert (E : picks q = false). { unfold picks, outer. rewrite (inside_depth q D). reflexivity. } rewrite E. split; [exact IH1|exact IH2].
Qed.
End Run.

Lemma existsb_filter {A} (p : A -> bool) l : existsb p l = negb (is_empty (filter p l)).
Proof. induction l as [|a l IH]; [reflexivity|]. cbn [existsb filter]. destruct (p a); [reflexivity|exact IH]. Qed.

Lemma visit_outer_ok rest ok exts m l n mm t s' : let x := of_source exts m l in
  parse_prgm x n g_program = Done (mm, Some t, s') -> apart x -> not_just_end t ->
  (forall u P, derives x u -> tiled u -> is_procedure (g_tag u) = true -> pr_tag P = g_tag u -> shows (x_num x) u P -> rest P = Ok (ok u)) ->
  let picked := filter (picks t ok) (all_procedures t) in
  visit_outer rest t = Ok (negb (is_empty picked), map q_way picked).
Proof.
  intros x H AP BIG HR picked. pose proof (C60_visits _ _ _ _ _ _ _ (fun k => said (outer_action rest t k)) H) as V. cbv zeta in V.
  destruct (C28_tiled _ _ _ _ _ _ H) as (T & _). apply prgm_derives in H as (_ & D & _).
  unfold visit_outer. rewrite V. cbn [bind]. rewrite (defined_ok x t D T AP rest ok HR BIG) by (intros q I; apply filter_In in I; apply I). cbn [bind].
  destruct (chosen_ok x t D T AP rest ok HR BIG (all_procedures t) (fun q I => I)) as [A B]. rewrite A, B. unfold picked. now rewrite existsb_filter.
Qed.

Definition allows (excl : nat -> bool) (u : ptree) : bool := negb (existsb excl (region_stmts u 0)).
Lemma caliper_rest_ok excl x u P : derives x u -> tiled u -> is_procedure (g_tag u) = true -> pr_tag P = g_tag u -> shows (x_num x) u P ->
  caliper_rest excl P = Ok (allows excl u).
Proof.
  intros D T PU TP SH. unfold caliper_rest. destruct (SH PROC_BEGIN ltac:(vm_compute; lia)) as [E K]. rewrite E. cbn [bind].
  unfold allows. change 0 with PROC_BEGIN. destruct (begin_stmts x u D T PU) as [[TM R]|(i & R)]; rewrite R in *.
  - rewrite TP, TM. reflexivity.
  - cbn [is_empty]. rewrite andb_false_r. destruct (K ltac:(discriminate)) as (b & e & Cb & _ & (u0 & v0 & _ & -> & _)). rewrite Cb. cbn [bind app hd_error existsb]. now rewrite orb_false_r.
Qed.
