(** C61: the regions of a procedure. *)
From Coq Require Import Lia.
From Verif Require Import Base Base_lemmas Tags SyntaxTags Token TTStream StmtRules Peg StmtGrammar LabelStack Prgm Prgm_spec Prgm_proofs
  PrgmSource PrgmSource_proofs PrgmTree_spec PrgmTree_proofs RangePartition RangePartition_spec Visitor Visitor_spec Visitor_proofs
  Procedure Procedure_spec Procedure_proofs StmtApart_spec StmtRoots_proofs Props_Stmt Props_Prgm Props_Visitor.
Local Open Scope nat_scope.

Lemma way_derives x w : forall t u, derives x t -> node_at t w = Some u -> derives x u.
Proof.
  induction w as [|i w IH]; intros t u D E; cbn [node_at] in E; [now injection E as <-|].
  destruct (nth_error (g_kids t) i) as [k|] eqn:EK; [|discriminate]. apply nth_error_In in EK.
  destruct D as [g j A B C|g e r kids I S K]; [destruct EK|]. cbn [g_kids] in EK. rewrite Forall_forall in K. eauto.
Qed.
Lemma way_tiled w : forall t u, tiled t -> node_at t w = Some u -> tiled u.
Proof.
  induction w as [|i w IH]; intros t u D E; cbn [node_at] in E; [now injection E as <-|].
  destruct (nth_error (g_kids t) i) as [k|] eqn:EK; [|discriminate]. apply nth_error_In in EK.
  destruct D as [g j|g kids K S]; [destruct EK|]. cbn [g_kids] in EK. rewrite Forall_forall in K. eauto.
Qed.

(** With any extension parsers of statements that keep action statements apart
    from those that end the execution part. *)
(** Whatever a parser returned, for every procedure of it: its regions follow
    each other and together are its statements, and ingest() shows them without
    failing an assertion, provided the procedure has at least two statements. *)
Theorem C61_regions_exts : forall exts m l n r mm t s' way u right path trunk, let x := of_source exts m l in
  parse_prgm x n r = Done (mm, Some t, s') -> apart x -> node_at t way = Some u -> is_procedure (g_tag u) = true ->
  exists b e P0, g_rng u = Some (b, e) /\ flat_map (region_stmts u) (seq 0 NUM_REGION_TAG) = seq b (e - b) /\ new_procedure = Ok P0 /\
    (2 <= e - b -> exists P, ingest P0 (Cur u right path trunk) = Ok (true, P) /\ pr_tag P = g_tag u /\ shows (x_num x) u P).
Proof.
  intros exts m l n r mm t s' way u right path trunk x H AP W PU.
  destruct (C28_tiled _ _ _ _ _ _ H) as (T & _). apply prgm_derives in H as (_ & D & _).
  destruct (ingest_ok x u right path trunk) as (b & e & P0 & R & LT & TOT & N & G & _); auto.
  - eapply way_derives; eauto.
  - eapply way_tiled; eauto.
  - exists b, e, P0. conjs; auto. intros H2. apply G. lia.
Qed.
Print Assumptions C61_regions_exts.
(** With the statement parsers as they come, that is so of every file. *)
Theorem C61_regions : forall m l n r mm t s' way u right path trunk, let x := of_source no_exts m l in
  whole l -> parse_prgm x n r = Done (mm, Some t, s') -> node_at t way = Some u -> is_procedure (g_tag u) = true ->
  exists b e P0, g_rng u = Some (b, e) /\ flat_map (region_stmts u) (seq 0 NUM_REGION_TAG) = seq b (e - b) /\ new_procedure = Ok P0 /\
    (2 <= e - b -> exists P, ingest P0 (Cur u right path trunk) = Ok (true, P) /\ pr_tag P = g_tag u /\ shows (x_num x) u P).
Proof. intros m l n r mm t s' way u right path trunk x W H. eapply C61_regions_exts; eauto using source_apart. Qed.
Print Assumptions C61_regions.

(** Without that: ingest() fails its last assertion. *)
Theorem C61_single_refuted : forall m l n r mm t s' way u right path trunk, let x := of_source no_exts m l in
  whole l -> parse_prgm x n r = Done (mm, Some t, s') -> node_at t way = Some u -> is_procedure (g_tag u) = true ->
  forall b, g_rng u = Some (b, S b) -> exists P0, new_procedure = Ok P0 /\ ingest P0 (Cur u right path trunk) = UB.
Proof.
  intros m l n r mm t s' way u right path trunk x WH H W PU b R. pose proof (source_apart m l WH) as AP. fold x in AP.
  destruct (C28_tiled _ _ _ _ _ _ H) as (T & _). apply prgm_derives in H as (_ & D & _).
  destruct (ingest_ok x u right path trunk) as (b' & e & P0 & R' & LT & TOT & N & _ & G); auto.
  - eapply way_derives; eauto.
  - eapply way_tiled; eauto.
  - exists P0. split; [exact N|]. apply G. rewrite R in R'. injection R' as <- <-. reflexivity.
Qed.
Print Assumptions C61_single_refuted.
(** Other nodes are refused. *)
Theorem C61_other : forall P c, is_procedure (c_tag c) = false -> exists P', ingest P c = Ok (false, P').
Proof.
  intros P c H. unfold ingest. unfold is_procedure in H. cbn [existsb] in H. rewrite orb_false_r, !orb_assoc in H. rewrite H. cbn [negb]. eauto.
Qed.
Print Assumptions C61_other.

(** The trackers that ingest() leaves: each stands on the node that holds the
    statements of its region. *)
Lemma add_track P idx tr c P' : add_node P idx tr c = Ok P' -> pr_track P' = (idx, tr) :: pr_track P.
Proof.
  unfold add_node. destruct (g_rng (c_node c)) as [[b e]|]; intros H; apply bind_Ok in H as (st & _ & H); injection H as <-; reflexivity.
Qed.
Definition more (root : pcur) (P P' : procedure) : Prop := exists l, pr_track P' = l ++ pr_track P /\ Forall (fun x => tracks root (fst x) (snd x)) l.
Lemma more_refl root P : more root P P.
Proof. exists []. auto. Qed.
Lemma more_trans root P Q P' : more root P Q -> more root Q P' -> more root P P'.
Proof. intros (l & E & F) (l' & E' & F'). exists (l' ++ l). rewrite E', E, app_assoc. split; [reflexivity|]. now apply Forall_app. Qed.
Lemma more_add root P idx tr c P' : add_node P idx tr c = Ok P' -> tracks root idx tr -> more root P P'.
Proof. intros H S. exists [(idx, tr)]. split; [now rewrite (add_track _ _ _ _ _ H)|]. constructor; auto. Qed.
Lemma next_path c c' k p : c_try_next c = Some c' -> c_path c = k :: p -> c_path c' = S k :: p.
Proof. destruct c as [n [|q r] [|i p'] u]; cbn [c_try_next c_path]; try discriminate. intros [= <-] [= -> ->]. reflexivity. Qed.
Lemma spec_more root pc j : forall n P spc k P', c_tag pc = PG_SPECIFICATION_PART -> c_path pc = j :: c_path root -> c_path spc = k :: c_path pc ->
  spec_loop n P pc spc = Ok P' -> more root P P'.
Proof.
  induction n as [|n IH]; intros P spc k P' T PP PS H; [discriminate|]. cbn [spec_loop] in H. apply bind_Ok in H as (Q & H1 & H2).
  assert (M : more root P Q).
  { unfold spec_node in H1. destruct (Z.eqb_spec (c_tag spc) SG_USE_STMT); [eapply more_add; [exact H1|]; cbn; eauto|].
    destruct (Z.eqb_spec (c_tag spc) SG_IMPORT_STMT); [eapply more_add; [exact H1|]; cbn; eauto|].
    destruct (Z.eqb_spec (c_tag spc) PG_IMPLICIT_PART); [eapply more_add; [exact H1|]; cbn; split; [assumption|]; exists k, j; now rewrite PS, PP|].
    destruct (Z.eqb_spec (c_tag spc) PG_DECLARATION_CONSTRUCT); [eapply more_add; [exact H1|]; cbn; eauto|]. injection H1 as <-. apply more_refl. }
  destruct (c_try_next spc) as [spc'|] eqn:EN; [|injection H2 as <-; exact M]. eapply more_trans; [exact M|]. exact (IH Q spc' (S k) P' T PP (next_path _ _ _ _ EN PS) H2).
Qed.
Lemma scan_more root : forall n P pc j P' pc' b, c_path pc = j :: c_path root -> scan_loop n P pc = Ok (P', pc', b) ->
  more root P P' /\ exists i, c_path pc' = i :: c_path root.
Proof.
  induction n as [|n IH]; intros P pc j P' pc' b PP H; [discriminate|]. cbn [scan_loop] in H.
  assert (NX : forall Q, more root P Q -> (match c_try_next pc with None => Ok (Q, pc, true) | Some pc => scan_loop n Q pc end) = Ok (P', pc', b) -> more root P P' /\ exists i, c_path pc' = i :: c_path root).
  { intros Q M E. destruct (c_try_next pc) as [q|] eqn:EN; [|injection E as <- <- _; eauto]. destruct (IH _ _ _ _ _ _ (next_path _ _ _ _ EN PP) E) as (M2 & X). split; [eapply more_trans; eauto|exact X]. }
  destruct (Z.eqb_spec (c_tag pc) PG_SPECIFICATION_PART) as [T|_].
  - apply bind_Ok in H as (spc & D & H). apply bind_Ok in H as (Q & S & H). apply (NX Q); [|exact H]. eapply spec_more; [exact T|exact PP| |exact S].
    unfold c_down, c_try_down in D. destruct (g_kids (c_node pc)); [discriminate|]. injection D as <-. reflexivity.
  - destruct (Z.eqb_spec (c_tag pc) PG_EXECUTION_PART) as [T|_].
    + apply bind_Ok in H as (Q & S & H). apply (NX Q); [|exact H]. eapply more_add; [exact S|]. cbn. eauto.
    + destruct (Z.eqb_spec (c_tag pc) PG_INTERNAL_SUBPROGRAM_PART) as [T|_].
      * apply bind_Ok in H as (Q & S & H). apply (NX Q); [|exact H]. eapply more_add; [exact S|]. cbn. eauto.
      * injection H as <- <- _. split; [apply more_refl|eauto].
Qed.
Theorem C61_trackers : forall P root P', ingest P root = Ok (true, P') ->
  exists l, pr_track P' = l ++ pr_track P /\ Forall (fun x => tracks root (fst x) (snd x)) l /\ In 7 (map fst l).
Proof.
  intros P root P' H. unfold ingest in H. cbv zeta in H. destruct (negb _) in H; [discriminate|]. apply bind_Ok in H as (pc & D & H).
  assert (PP : c_path pc = 0 :: c_path root) by (unfold c_down, c_try_down in D; destruct (g_kids (c_node root)); [discriminate|]; injection D as <-; reflexivity).
  set (P0 := mkProcedure (pr_parts P) (pr_track P) (c_tag root)) in *. apply bind_Ok in H as ([P1 pc1] & B & H).
  assert (M1 : more root P0 P1 /\ exists j, c_path pc1 = j :: c_path root).
  { destruct (negb _) in B; [|injection B as <- <-; split; [apply more_refl|eauto]]. apply bind_Ok in B as (_ & _ & B). apply bind_Ok in B as (Q & A & B). apply bind_Ok in B as (q & N & B). injection B as <- <-.
    split; [eapply more_add; [exact A|]; exact PP|]. unfold c_next in N. destruct (c_try_next pc) as [z|] eqn:EN; [|discriminate]. injection N as <-. eexists. eapply next_path; eauto. }
  destruct M1 as (M1 & j & P1P). apply bind_Ok in H as ([[P2 pc2] sc] & SC & H). destruct (scan_more _ _ _ _ _ _ _ _ P1P SC) as (M2 & i & P2P).
  apply bind_Ok in H as (_ & _ & H). apply bind_Ok in H as (w0 & AE & H). apply bind_Ok in H as (P3 & A & H). apply bind_Ok in H as (v & _ & H). apply bind_Ok in H as (_ & _ & H). injection H as <-.
  destruct (more_trans _ _ _ _ M1 M2) as (l & E & F). exists ((PROC_END, pc2) :: l). split; [rewrite (add_track _ _ _ _ _ A), E; reflexivity|]. split; [|left; reflexivity].
  constructor; [|exact F]. cbn. split; [|eauto]. destruct (is_end_tag (c_tag pc2)) eqn:IE; [|discriminate]. unfold is_end_tag in IE. rewrite !orb_true_iff, !Z.eqb_eq in IE. unfold end_kinds. cbn [In]. intuition auto.
Qed.
Print Assumptions C61_trackers.

(** ** The file of C60: module m; contains; subroutine s; contains; subroutine t;
    end; end; end module; subroutine u; a = b; end; program p; end *)
Lemma st_whole n t : Forall (fun p => fst p <> BAD) t -> let q := st n t in statement (stream_of (ss_frags q) (ss_beg q) (ss_end q)).
Proof.
  intros F q. unfold q, st, stream_of, statement. cbn [ss_frags ss_beg ss_end pos s_beg s_end frags]. rewrite map_length. split; [reflexivity|].
  split; [lia|]. split; [lia|]. intros p k _ _ E. rewrite nth_error_map in E. destruct (nth_error t p) as [z|] eqn:EZ; [|discriminate].
  injection E as <-. apply nth_error_In in EZ. rewrite Forall_forall in F. exact (F z EZ).
Qed.
Ltac whole_file := unfold whole; repeat (constructor; [apply st_whole; repeat (constructor; [discriminate|]); constructor|]); constructor.
Definition regions_of (P : procedure) : list (bool * option (option nat * option nat)) :=
  map (fun r => match region_empty (pr_parts P) r, cbegin (pr_parts P) r, cend (pr_parts P) r with
                | Ok true, _, _ => (true, None) | Ok false, Ok b, Ok e => (false, Some (b, e)) | _, _, _ => (true, Some (None, None)) end) (seq 0 NUM_REGION_TAG).
Example C61_ex : exists t s' u P0 P, whole file1 /\ parse_prgm (src file1) 200 g_program = Done (true, Some t, s') /\
  node_at t [0; 0; 2; 1; 0] = Some u /\ is_procedure (g_tag u) = true /\ g_rng u = Some (2, 7) /\
  map (region_stmts u) (seq 0 NUM_REGION_TAG) = [[2]; []; []; []; []; []; [3; 4; 5]; [6]] /\
  new_procedure = Ok P0 /\ ingest P0 (Cur u [] [] None) = Ok (true, P) /\
  regions_of P = [(false, Some (Some 2, Some 3)); (true, None); (true, None); (true, None); (true, None); (true, None); (false, Some (Some 3, Some 6)); (false, Some (Some 6, Some 7))].
Proof.
  eexists _, _, _, _, _. split; [whole_file|]. split; [vm_compute; reflexivity|]. split; [vm_compute; reflexivity|]. split; [vm_compute; reflexivity|].
  split; [vm_compute; reflexivity|]. split; [vm_compute; reflexivity|]. split; [vm_compute; reflexivity|]. split; vm_compute; reflexivity.
Qed.
(** A main program that is just END. *)
Example C61_single_ex : exists t s' u P0, whole [st 0 t_end] /\ parse_prgm (src [st 0 t_end]) 200 g_program = Done (true, Some t, s') /\
  node_at t [0; 0] = Some u /\ is_procedure (g_tag u) = true /\ g_rng u = Some (0, 1) /\ new_procedure = Ok P0 /\ ingest P0 (Cur u [] [] None) = UB.
Proof.
  eexists _, _, _, _. split; [whole_file|]. split; [vm_compute; reflexivity|]. split; [vm_compute; reflexivity|]. split; [vm_compute; reflexivity|].
  split; [vm_compute; reflexivity|]. split; vm_compute; reflexivity.
Qed.
