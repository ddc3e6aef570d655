(** C88: asking a procedure for its regions, using the object again, and the
    name of a main program that has none. *)
From Coq Require Import Lia.
From Verif Require Import Base Base_lemmas Tags SyntaxTags Token TTStream StmtRules Peg StmtGrammar LabelStack Prgm Prgm_spec Prgm_proofs
  PrgmSource PrgmSource_proofs PrgmTree_spec PrgmTree_proofs RangePartition RangePartition_spec RangePartition_proofs Visitor Visitor_spec Visitor_proofs
  Procedure Procedure_spec Procedure_proofs StmtApart_spec StmtRoots_proofs Props_Stmt Props_Prgm Props_Visitor Props_Procedure Props_RangePartition
  ProcRegions ProcRegions_spec ProcRegions_proofs.
Local Open Scope nat_scope.

(** [proc_of m l u]: u is a procedure of at least two statements in a tree that
    a parser returned for file [l]. *)
Definition proc_of (m : nat) (l : list source_stmt) (u : ptree) : Prop :=
  whole l /\ is_procedure (g_tag u) = true /\ (exists n r mm t s' way, parse_prgm (of_source no_exts m l) n r = Done (mm, Some t, s') /\ node_at t way = Some u) /\
  forall b e, g_rng u = Some (b, e) -> 2 <= e - b.
Lemma proc_ingest m l u right path trunk P0 : proc_of m l u -> blank P0 ->
  exists b e P, g_rng u = Some (b, e) /\ b <= e <= x_num (of_source no_exts m l) /\ flat_map (region_stmts u) (seq 0 NUM_REGION_TAG) = seq b (e - b) /\
    ingest P0 (Cur u right path trunk) = Ok (true, P) /\ pr_tag P = g_tag u /\ is_state (x_num (of_source no_exts m l)) b e u P /\ region_stmts u PROC_END <> [].
Proof.
  intros (W & PU & (n & r & mm & t & s' & way & H & NA) & SZ) BL. destruct (C28_tiled _ _ _ _ _ _ H) as (T & _). apply prgm_derives in H as (_ & D & _).
  destruct (ingest_gen (of_source no_exts m l) u right path trunk P0) as (b & e & R & LT & QN & TOT & G & _); auto.
  - eapply way_derives; eauto.
  - eapply way_tiled; eauto.
  - now apply source_apart.
  - specialize (SZ b e R). destruct G as (P & w & E & TG & I & HO & NU & U & EN); [lia|]. exists b, e, P. conjs; auto; try lia. exists w. auto.
Qed.

(** However often, for whatever regions and in whatever order one asks an object
    for begin(), end(), range() and last(): the answers are the first statement
    of the region and the one behind its last.  For an empty region both are the
    place where its statements would be.  The object afterwards shows the same
    regions. *)
Theorem C88_asks : forall m l u right path trunk P0, proc_of m l u -> new_procedure = Ok P0 ->
  exists b e P, g_rng u = Some (b, e) /\ ingest P0 (Cur u right path trunk) = Ok (true, P) /\
    forall qs, Forall (may_ask u) qs -> exists P', ask_all P qs = Ok (map (answer u b) qs, P') /\ shows (x_num (of_source no_exts m l)) u P' /\
      procedure_initialized P' = Ok true /\ pr_track P' = pr_track P /\
      headless P' = Ok ((g_tag u =? PG_MAIN_PROGRAM)%Z && is_empty (region_stmts u 0)).
Proof.
  intros m l u right path trunk P0 PO N0. destruct new_blank as (P0' & N0' & BL). rewrite N0 in N0'. injection N0' as <-.
  destruct (proc_ingest m l u right path trunk P0 PO BL) as (b & e & P & R & LT & TOT & E & TG & S & EN). exists b, e, P. split; [exact R|]. split; [exact E|].
  intros qs F. destruct (asks_state _ _ _ _ TOT LT qs P S F) as (P' & E' & S' & T' & K'). exists P'. split; [exact E'|].
  pose proof (state_shows _ _ _ _ TOT LT P' S') as SH. split; [exact SH|]. split; [|split; [exact K'|]].
  - unfold procedure_initialized, has_region. destruct (SH PROC_END) as (EM & _); [unfold PROC_END, NUM_REGION_TAG; lia|]. rewrite EM. cbn [bind]. f_equal.
    destruct (region_stmts u PROC_END) eqn:E7; [congruence|reflexivity].
  - unfold headless, is_main_program. rewrite T', TG, Z.eqb_sym. destruct (g_tag u =? PG_MAIN_PROGRAM)%Z; [|reflexivity].
    destruct (SH 0) as (EM & _); [unfold NUM_REGION_TAG; lia|]. exact EM.
Qed.

(** last() of an empty region fails its assertion. *)
Theorem C88_last_empty : forall num u P r, shows num u P -> r < NUM_REGION_TAG -> region_stmts u r = [] -> pr_last P r = UB.
Proof. intros num u P r S Hr E. destruct (S r Hr) as (EM & _). unfold pr_last. rewrite EM, E. reflexivity. Qed.

(** After clear() there are no regions, and the object can be used for another
    procedure, of the same or of another file, as a new one can: its trackers
    are then all in the tree of that procedure. *)
Theorem C88_reuse : forall m l u right path trunk P0 m' l' u' right' path' trunk', proc_of m l u -> proc_of m' l' u' -> new_procedure = Ok P0 ->
  exists P, ingest P0 (Cur u right path trunk) = Ok (true, P) /\
    forall qs, Forall (may_ask u) qs -> exists xs P1, ask_all P qs = Ok (xs, P1) /\ procedure_initialized (pr_clear P1) = Ok false /\
      (forall r, r < NUM_REGION_TAG -> has_region (pr_clear P1) r = Ok false) /\
      exists P2, ingest (pr_clear P1) (Cur u' right' path' trunk') = Ok (true, P2) /\ pr_tag P2 = g_tag u' /\ shows (x_num (of_source no_exts m' l')) u' P2 /\
        Forall (fun x => tracks (Cur u' right' path' trunk') (fst x) (snd x)) (pr_track P2) /\ In PROC_END (map fst (pr_track P2)).
Proof.
  intros m l u right path trunk P0 m' l' u' right' path' trunk' PO PO' N0. destruct new_blank as (P0' & N0' & BL). rewrite N0 in N0'. injection N0' as <-.
  destruct (proc_ingest m l u right path trunk P0 PO BL) as (b & e & P & R & LT & TOT & E & TG & S & _). exists P. split; [exact E|].
  intros qs F. destruct (asks_state _ _ _ _ TOT LT qs P S F) as (P1 & E1 & S1 & _). pose proof (clear_blank _ _ _ _ P1 S1) as B1.
  eexists _, P1. split; [exact E1|]. split; [apply blank_empty; [exact B1|unfold PROC_END, NUM_REGION_TAG; lia]|]. split; [intros z Hz; now apply blank_empty|].
  destruct (proc_ingest m' l' u' right' path' trunk' _ PO' B1) as (b' & e' & P2 & R' & LT' & TOT' & E2 & TG' & S2 & _). exists P2.
  split; [exact E2|]. split; [exact TG'|]. split; [eapply state_shows; eauto|].
  destruct (C61_trackers _ _ _ E2) as (l2 & T & F2 & I2). cbn [pr_clear pr_track] in T. rewrite app_nil_r in T. rewrite T. split; [exact F2|exact I2].
Qed.

(** rename() of a main program without a first statement puts the new PROGRAM
    statement in front of its first one, and then measures a distance backwards,
    which is undefined.  Where the list is a ring, the statement is in the list,
    but not in the procedure: it still has no first statement and no name. *)
Lemma put_before_seq iter n : forall a p, a <= p < a + n -> put_before (seq a n) p iter = seq a (p - a) ++ iter :: seq p (a + n - p).
Proof.
  induction n as [|n IH]; intros a p H; [lia|]. cbn [seq put_before]. destruct (Nat.eqb_spec a p) as [->|NE].
  - rewrite Nat.sub_diag. cbn [seq app]. replace (p + S n - p) with (S n) by lia. reflexivity.
  - rewrite IH by lia. replace (p - a) with (S (p - S a)) by lia. cbn [seq app]. do 3 f_equal. f_equal. lia.
Qed.
Theorem C88_rename_refuted : forall m l u right path trunk P0 iter, proc_of m l u -> g_tag u = PG_MAIN_PROGRAM -> region_stmts u 0 = [] -> new_procedure = Ok P0 ->
  let num := x_num (of_source no_exts m l) in num < iter ->
  exists b e P, g_rng u = Some (b, e) /\ ingest P0 (Cur u right path trunk) = Ok (true, P) /\ headless P = Ok true /\
    rename_headless (seq 0 (S num)) P iter = UB /\
    exists P', rename_ring (seq 0 (S num)) P iter = Ok (seq 0 b ++ iter :: seq b (S num - b), P') /\ headless P' = Ok true /\ shows num u P'.
Proof.
  intros m l u right path trunk P0 iter PO MT R0 N0 num HI. destruct new_blank as (P0' & N0' & BL). rewrite N0 in N0'. injection N0' as <-.
  destruct (proc_ingest m l u right path trunk P0 PO BL) as (b & e & P & R & LT & TOT & E & TG & S & _). exists b, e, P. fold num in LT, S. split; [exact R|]. split; [exact E|].
  assert (HL : forall Q, is_state num b e u Q -> pr_tag Q = g_tag u -> headless Q = Ok true).
  { intros Q SQ TQ. destruct (state_shows _ _ _ _ TOT LT Q SQ 0) as (EM & _); [unfold NUM_REGION_TAG; lia|]. unfold headless, is_main_program. rewrite TQ, MT, Z.eqb_refl.
    unfold PROC_BEGIN. rewrite EM, R0. reflexivity. }
  split; [now apply HL|]. destruct (touch_state _ _ _ _ TOT LT P 0 S) as (st & _ & E2 & _ & S' & AC & AB); [unfold NUM_REGION_TAG; lia|].
  assert (S0 : start u b 1 = b) by (unfold start; cbn [seq flat_map]; rewrite R0; cbn; lia). rewrite S0 in E2.
  pose proof (put_before_seq iter (Datatypes.S num) 0 b ltac:(lia)) as PB. rewrite Nat.sub_0_r in PB. cbn [plus] in PB.
  split.
  - unfold rename_headless, pr_end, PROC_BEGIN. rewrite E2. cbn [bind]. cbv zeta. rewrite PB. cbn [with_parts pr_parts]. rewrite C22_emplace_refuted; [reflexivity| |].
    + apply NoDup_Add with (a := iter) (l := seq 0 b ++ seq b (Datatypes.S num - b)).
      * apply Add_app.
      * replace (seq 0 b ++ seq b (Datatypes.S num - b)) with (seq 0 (Datatypes.S num)); [split; [apply seq_NoDup|rewrite in_seq; lia]|].
        replace (Datatypes.S num) with (b + (Datatypes.S num - b)) at 1 by lia. now rewrite seq_app.
    + destruct (Datatypes.S num - b) as [|k] eqn:EK; [lia|]. exists (seq 0 b), [], (seq (Datatypes.S b) k). reflexivity.
  - exists (with_parts P st). unfold rename_ring, pr_end, PROC_BEGIN. rewrite E2. cbn [bind]. cbv zeta. rewrite PB. cbn [with_parts pr_parts].
    unfold insert_ring. rewrite AC. cbn [bind assert_]. rewrite AB. cbn [bind it_eqb]. destruct (Nat.eqb_spec iter b) as [->|]; [lia|]. cbn [bind].
    split; [reflexivity|]. split; [now apply HL|]. eapply state_shows; eauto.
Qed.

(** Without clear() an object that has regions takes no other procedure, and not
    the same one again: an assertion of append() fails. *)
Theorem C88_twice_refuted : forall m l u right path trunk P0 m' l' u' right' path' trunk', proc_of m l u -> proc_of m' l' u' -> new_procedure = Ok P0 ->
  exists P, ingest P0 (Cur u right path trunk) = Ok (true, P) /\ ingest P (Cur u' right' path' trunk') = UB.
Proof.
  intros m l u right path trunk P0 m' l' u' right' path' trunk' PO PO' N0. destruct new_blank as (P0' & N0' & BL). rewrite N0 in N0'. injection N0' as <-.
  destruct (proc_ingest m l u right path trunk P0 PO BL) as (b & e & P & R & LT & TOT & E & TG & S & EN). exists P. split; [exact E|].
  destruct PO' as (W & PU & (n & r & mm & t & s' & way & H & NA) & SZ). destruct (C28_tiled _ _ _ _ _ _ H) as (T & _). apply prgm_derives in H as (_ & D & _).
  apply (ingest_full (of_source no_exts m' l')); auto.
  - eapply way_derives; eauto.
  - eapply way_tiled; eauto.
  - now apply source_apart.
  - eapply state_full; eauto.
Qed.

(** The file of C60, its subroutine s, statements 2 to 6: contains; subroutine t;
    end; end.  Then a main program that is  a = b; end. *)
Definition file2 : list source_stmt := map (st 0) [t_set; t_end].
Definition tree_of (l : list source_stmt) (way : list nat) : option ptree :=
  match parse_prgm (src l) 200 g_program with Done (_, Some t, _) => node_at t way | _ => None end.
Definition ingested (o : option ptree) : res procedure :=
  match o with Some u => P0 <- new_procedure ;; ' (_, P) <- ingest P0 (Cur u [] [] None) ;; Ok P | None => UB end.
Example C88_ex :
  (exists u, tree_of file1 [0; 0; 2; 1; 0] = Some u /\ proc_of 200 file1 u /\ Forall (may_ask u) [AskRange 5; AskLast 6; AskBegin 0; AskEnd 7; AskEnd 1]) /\
  (P <- ingested (tree_of file1 [0; 0; 2; 1; 0]) ;; ' (x, _) <- ask_all P [AskRange 5; AskLast 6; AskBegin 0; AskEnd 7; AskEnd 1] ;; Ok x) =
    Ok [[Some 3; Some 3]; [Some 5]; [Some 2]; [Some 7]; [Some 3]].
Proof.
  split; [|vm_compute; reflexivity]. eexists. split; [vm_compute; reflexivity|]. split.
  - split; [whole_file|]. split; [reflexivity|]. split; [|intros b e [= <- <-]; lia].
    exists 200, g_program. eexists _, _, _, [0; 0; 2; 1; 0]. split; [vm_compute; reflexivity|]. vm_compute. reflexivity.
  - repeat constructor; cbn [may_ask]; unfold NUM_REGION_TAG; try lia. vm_compute. discriminate.
Qed.
Example C88_rename_ex :
  (exists u, tree_of file2 [0; 0] = Some u /\ proc_of 200 file2 u /\ g_tag u = PG_MAIN_PROGRAM /\ region_stmts u 0 = []) /\
  (P <- ingested (tree_of file2 [0; 0]) ;; rename_headless (seq 0 3) P 9) = UB /\
  (P <- ingested (tree_of file2 [0; 0]) ;; ' (l, P') <- rename_ring (seq 0 3) P 9 ;; h <- headless P' ;; Ok (l, h)) = Ok ([9; 0; 1; 2], true).
Proof.
  split; [|split; vm_compute; reflexivity]. eexists. split; [vm_compute; reflexivity|]. split; [|split; vm_compute; reflexivity].
  split; [whole_file|]. split; [reflexivity|]. split; [|intros b e [= <- <-]; lia].
  exists 200, g_program. eexists _, _, _, [0; 0]. split; [vm_compute; reflexivity|]. vm_compute. reflexivity.
Qed.
Definition C88_all := (C88_asks, C88_last_empty, C88_reuse, C88_rename_refuted, C88_twice_refuted).
Print Assumptions C88_all.
