(** Lemmas for C88. *)
From Coq Require Import Lia.
From Verif Require Import Base Base_lemmas Tags Token TTStream StmtRules Peg LabelStack Prgm Prgm_spec Prgm_proofs PrgmTree_spec PrgmTree_proofs
  RangePartition RangePartition_spec RangePartition_proofs Visitor Visitor_spec Visitor_proofs Procedure Procedure_spec Procedure_proofs ProcRegions ProcRegions_spec.
Local Open Scope nat_scope.

Lemma seq_tail : forall a c p n, seq p n = a ++ c -> c = seq (p + length a) (n - length a).
Proof.
  induction a as [|x a IH]; intros c p n E; cbn [app length] in *; [now rewrite Nat.add_0_r, Nat.sub_0_r|].
  destruct n as [|n]; [discriminate|]. cbn [seq] in E. injection E as <- E. apply IH in E. rewrite E. f_equal; lia.
Qed.
Lemma content_firstn ws r : r <= length ws -> content (firstn r ws) = flat_map (region ws) (seq 0 r).
Proof.
  intros H. rewrite content_regions, firstn_length_le by exact H. apply flat_map_ext_in. intros j Hj. apply in_seq in Hj. unfold region.
  f_equal. rewrite <- (firstn_skipn r ws) at 2. now rewrite app_nth1 by (rewrite firstn_length_le; lia).
Qed.

Section S.
Variables (num p q : nat) (u : ptree).
Hypothesis TOT : flat_map (region_stmts u) (seq 0 NUM_REGION_TAG) = seq p (q - p).
Hypothesis LT : p <= q <= num.

(** the object holds the regions of the procedure *)
Definition is_state (P : procedure) : Prop := exists w, Inv (seq 0 p) w (pr_parts P) /\ holds num u p q w /\ 2 <= num_used (fst w) /\
  (forall j, j < NUM_REGION_TAG -> region_stmts u j <> [] -> us (fst w) j = true).
Lemma state_shows P : is_state P -> shows num u P.
Proof using TOT LT. intros (w & I & H & _ & U). eapply inv_shows; eauto. Qed.

Lemma start_le r : r <= NUM_REGION_TAG -> start u p r <= q.
Proof using TOT LT.
  intros H. unfold start. assert (E : length (flat_map (region_stmts u) (seq 0 NUM_REGION_TAG)) = q - p) by now rewrite TOT, seq_length.
  replace NUM_REGION_TAG with (r + (NUM_REGION_TAG - r)) in E by lia. rewrite seq_app, flat_map_app, app_length in E. lia.
Qed.
Lemma from_start w r : holds num u p q w -> r <= NUM_REGION_TAG -> hd_error (from (fst w) r ++ snd w) = Some (start u p r).
Proof using TOT LT.
  intros H Hr. pose proof (holds_content _ _ _ _ _ H TOT) as C. destruct H as (LW & SW & G).
  assert (F : content (firstn r (fst w)) = flat_map (region_stmts u) (seq 0 r)).
  { rewrite content_firstn by lia. apply flat_map_ext_in. intros j Hj. apply in_seq in Hj. apply G. lia. }
  assert (E : seq p (S num - p) = content (firstn r (fst w)) ++ (from (fst w) r ++ snd w)).
  { unfold from. rewrite app_assoc, <- content_app, firstn_skipn, C, SW. replace (S num - p) with ((q - p) + (S num - q)) by lia.
    rewrite seq_app. do 2 f_equal. lia. }
  apply seq_tail in E. rewrite E, F. pose proof (start_le r Hr) as SL. unfold start in *.
  destruct (S num - p - length (flat_map (region_stmts u) (seq 0 r))) eqn:N; [lia|reflexivity].
Qed.

(** putting a region in use *)
Lemma touch_state P r : is_state P -> r < NUM_REGION_TAG -> exists st,
  rbegin (pr_parts P) r = Ok (Some (start u p r), st) /\ rend (pr_parts P) r = Ok (Some (start u p (S r)), st) /\
  rend st r = Ok (Some (start u p (S r)), st) /\ is_state (with_parts P st) /\ active_idx st r = Ok true /\ all_begin st = Ok (Some p).
Proof using TOT LT.
  intros (w & I & H & N & U) Hr. pose proof (from_start w r H ltac:(lia)) as F1. pose proof (from_start w (S r) H ltac:(lia)) as F2.
  destruct I as (R & HE & NT & ND). pose proof H as (LW & SW & G).
  assert (Hr' : r < length (fst w)) by now rewrite LW.
  destruct (rbegin_ok w (pr_parts P) r R HE (num_used_2 _ N) Hr') as (st & E1 & E2 & E3 & R' & HE').
  rewrite F1 in E1. rewrite F2 in E2, E3. exists st. split; [exact E1|]. split; [exact E3|]. split; [exact E2|].
  assert (UR : us (upd (fst w) r (Some (region (fst w) r))) r = true) by (rewrite us_upd by exact Hr'; now rewrite Nat.eqb_refl).
  split; [|split].
  2: { destruct (active_two _ _ r R' (two_upd _ _ _ Hr' (num_used_2 _ N)) UR) as (z & EZ & AZ). unfold active_idx, valid_idx. rewrite (end_idx_R _ _ R'). cbn [fst]. rewrite upd_length.
    apply Nat.ltb_lt in Hr'. rewrite Hr'. unfold get. rewrite EZ. cbn [bind]. now rewrite AZ. }
  2: { rewrite (all_begin_ok _ _ r R' UR). cbn [fst snd]. rewrite content_upd_same by exact Hr'. f_equal. pose proof (from_start w 0 H ltac:(lia)) as Z. unfold start in Z. cbn [seq flat_map length] in Z. rewrite Nat.add_0_r in Z. exact Z. }
  exists (upd (fst w) r (Some (region (fst w) r)), snd w). cbn [pr_parts with_parts]. split; [|split; [|split]].
  - split; [exact R'|]. split; [exact HE'|]. split; [exact NT|]. unfold all_of in *. cbn [fst snd]. now rewrite content_upd_same.
  - split; [cbn [fst]; rewrite upd_length; exact LW|]. split; [exact SW|]. intros j Hj. cbn [fst]. rewrite <- G by exact Hj.
    destruct (Nat.eq_dec j r) as [->|NE]; [now rewrite region_upd|]. unfold region. destruct (nth_error (fst w) j) as [z|] eqn:EZ; [|apply nth_error_None in EZ; lia].
    rewrite (nth_error_nth _ _ None EZ). apply f_equal. apply nth_error_nth. rewrite nth_error_upd_ne by congruence. exact EZ.
  - cbn [fst]. assert (T : two (upd (fst w) r (Some (region (fst w) r)))) by (apply two_upd; [exact Hr'|now apply num_used_2]).
    destruct (num_used (upd (fst w) r (Some (region (fst w) r)))) as [|[|k]] eqn:EN; [| |lia].
    + destruct T as (i & j & _ & Ui & _). rewrite (num_used_0 _ i EN) in Ui. discriminate.
    + destruct (num_used_1 _ EN) as (z & _ & Z). destruct T as (i & j & L & Ui & Uj). apply Z in Ui, Uj. lia.
  - intros j Hj NE. cbn [fst]. rewrite us_upd by exact Hr'. destruct (j =? r); auto.
Qed.
Lemma ask_state P a : is_state P -> may_ask u a -> exists P', ask_one P a = Ok (answer u p a, P') /\ is_state P' /\ pr_tag P' = pr_tag P /\ pr_track P' = pr_track P.
Proof using TOT LT.
  intros SP M. destruct a as [r|r|r|r]; cbn [may_ask] in M.
  1-3: destruct (touch_state P r SP M) as (st & E1 & E2 & E3 & S' & _); exists (with_parts P st);
    unfold ask_one, pr_range, pr_begin, pr_end; rewrite ?E1, ?E2; cbn [bind with_parts pr_parts]; rewrite ?E3; cbn [bind]; conjs; auto.
  destruct M as (M & NE). destruct (touch_state P r SP M) as (st & E1 & E2 & E3 & S' & _). exists (with_parts P st).
  destruct (state_shows P SP r M) as (EM & _). unfold ask_one, pr_last, pr_end. rewrite EM, E2. destruct (region_stmts u r) as [|z zs] eqn:EZ; [congruence|].
  cbn [bind is_empty negb assert_]. assert (L : start u p (S r) = S (start u p (S r) - 1)).
  { unfold start. rewrite seq_S, flat_map_app, app_length. cbn [plus flat_map]. rewrite EZ. cbn [app length]. lia. }
  cbn [answer]. rewrite L. cbn [it_prev bind]. rewrite <- L. conjs; auto.
Qed.
Lemma asks_state l : forall P, is_state P -> Forall (may_ask u) l -> exists P', ask_all P l = Ok (map (answer u p) l, P') /\ is_state P' /\ pr_tag P' = pr_tag P /\ pr_track P' = pr_track P.
Proof using TOT LT.
  induction l as [|a l IH]; intros P SP F; [exists P; auto|]. inversion F as [|? ? M F']; subst. destruct (ask_state P a SP M) as (P1 & E1 & S1 & T1 & K1).
  destruct (IH P1 S1 F') as (P2 & E2 & S2 & T2 & K2). exists P2. cbn [ask_all map]. rewrite E1. cbn [bind]. rewrite E2. cbn [bind]. conjs; auto; congruence.
Qed.
Lemma clear_blank P : is_state P -> blank (pr_clear P).
Proof using. intros (w & I & (LW & _) & _) pre t Ht ND. cbn [pr_clear pr_parts]. rewrite <- LW. eapply clear_ok; eauto. Qed.
End S.
Lemma blank_empty P r : blank P -> r < NUM_REGION_TAG -> has_region P r = Ok false.
Proof.
  intros B Hr. assert (I : Inv [] (repeat None NUM_REGION_TAG, [0]) (pr_parts P)) by (apply B; [discriminate|repeat constructor; auto]).
  unfold has_region. rewrite (empty_ok _ _ _ r I) by exact Hr. cbn [bind fst]. now rewrite new_region.
Qed.

(** an object that has an END statement takes no other statement *)
Lemma chain_app a : forall b p q, chain p (a ++ b) q -> exists m, chain p a m /\ chain m b q.
Proof.
  induction a as [|k a IH]; intros b p q C; cbn [app] in C; [exists p; split; [constructor|exact C]|].
  inversion C as [|p0 k0 ks q0 R C'|p0 m0 k0 ks q0 R L C']; subst; destruct (IH _ _ _ C') as (m & C1 & C2); exists m; (split; [|exact C2]); [eapply chain_none|eapply chain_some]; eauto.
Qed.
Definition full (st : partition) : Prop := exists z, end_idx st = NUM_REGION_TAG /\ get st NUM_REGION_TAG = Ok z /\ p_pred z = PROC_END.
Lemma full_UB st l : full st -> forall p q, chain p (map snd l) q -> p < q -> Forall (fun it => fst it < PROC_END) l -> app_all st l = UB.
Proof.
  intros (z & EI & GZ & PZ). induction l as [|[i k] l IH]; intros p q C LT F; [inversion C; subst; lia|]. inversion F as [|? ? F1 F2]; subst. cbn [map snd fst] in *.
  cbn [app_all]. unfold append. assert (V : valid_idx st i = true) by (unfold valid_idx; rewrite EI; apply Nat.ltb_lt; unfold PROC_END, NUM_REGION_TAG in *; lia). rewrite V. cbn [assert_ bind].
  inversion C as [|p0 k0 ks q0 R C'|p0 m0 k0 ks q0 R L C']; subst; unfold rng_begin, rng_end; rewrite R; cbn [it_eqb].
  - cbn [bind]. eapply IH; eauto.
  - destruct (Nat.eqb_spec p m0); [lia|]. unfold active_empty, all_end, last_active_idx. rewrite EI, GZ. cbn [bind]. rewrite PZ. change (PROC_END =? NUM_REGION_TAG) with false. cbn [orb].
    match goal with |- context [assert_ (match p_begin z with Some _ => _ | None => _ end)] => destruct (match p_begin z with Some y => p =? y | None => false end) end; cbn [assert_ bind]; [|reflexivity]. destruct (Nat.ltb_spec PROC_END i); [lia|]. destruct (Nat.eqb_spec PROC_END i); [lia|]. reflexivity.
Qed.
Lemma state_full num p q u P : is_state num p q u P -> region_stmts u PROC_END <> [] -> full (pr_parts P).
Proof.
  intros (w & (R & _) & (LW & _) & _ & U) NE. apply U in NE; [|unfold PROC_END, NUM_REGION_TAG; lia]. pose proof (end_idx_R _ _ R) as EI. rewrite LW in EI.
  destruct (R_end _ _ R) as (e & pr & su & E & LB & _). rewrite LW in E, LB. exists (mkPart e pr su). split; [exact EI|]. split; [now apply get_Ok|]. cbn [p_pred].
  destruct LB as [(L1 & _ & L2 & L3)|(L1 & L2)].
  - destruct (Nat.eq_dec pr PROC_END) as [|N]; [assumption|]. exfalso. rewrite L3 in NE; [discriminate|]. unfold PROC_END, NUM_REGION_TAG in *. lia.
  - rewrite L2 in NE; [discriminate|]. unfold PROC_END, NUM_REGION_TAG. lia.
Qed.
Lemma ingest_full x u right path trunk P0 : derives x u -> tiled u -> apart x -> is_procedure (g_tag u) = true -> full (pr_parts P0) ->
  (forall p q, g_rng u = Some (p, q) -> 2 <= q - p) -> ingest P0 (Cur u right path trunk) = UB.
Proof.
  intros DU TU AP PU FU SZ. destruct (proc_shape x u DU PU) as (r & first & spec & ex & inn & l & EU & FO & DS & TS & EX & IN & OL & L).
  destruct (spec_shape x spec DS TS) as (rs & a & b & c & d & ES & KS & A & B & C & D).
  destruct (nodes_chain x u r first spec ex inn l rs a b c d EU FO EX IN OL L ES KS A B C D PU TU AP) as (p & q & R & LT & QN & CH). specialize (SZ p q R).
  rewrite <- (plan_nodes first spec ex inn l rs a b c d ES) in CH. destruct P0 as [st0 tr0 g0]. cbn [pr_parts] in FU.
  destruct (ingest_eq x u right path trunk st0 tr0 g0 r first spec ex inn l EU PU FO DS TS EX IN L) as [tr IE]. rewrite IE. clear IE.
  unfold plan in *. rewrite !app_assoc in *. rewrite app_all_app. rewrite map_app in CH. apply chain_app in CH as (m & C1 & C2). cbn [map snd] in C2.
  assert (NP : no_part (g_tag l) = true) by now apply end_kind_tests in L as (_ & _ & _ & _ & N).
  destruct (leaf_shape x l OL NP) as (i & LE & _ & _).
  assert (PM : p < m).
  { rewrite LE in C2. inversion C2 as [|p0 k0 ks q0 R0 C'|p0 m0 k0 ks q0 R0 L0 C']; subst; cbn [stmt_leaf g_rng] in R0; [discriminate|]. injection R0 as -> <-. inversion C'; subst. lia. }
  rewrite (full_UB st0 _ FU p m C1 PM); [reflexivity|]. unfold spec_items. rewrite !Forall_app, !Forall_map. cbn [fst]. conjs; apply Forall_forall; intros z _; unfold PROC_BEGIN, EXECUTION_PART, CONTAINED, PROC_END; try lia.
  unfold sidx, USES, IMPORTS, IMPLICITS, DECLS. repeat destruct (_ =? _)%Z; lia.
Qed.
