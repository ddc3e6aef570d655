(** Lemmas on the regions of a procedure. *)
From Coq Require Import Lia.
From Verif Require Import Base Base_lemmas Tags Token TTStream StmtRules Peg LabelStack Prgm Prgm_spec Prgm_proofs PrgmTree_spec PrgmTree_proofs
  RangePartition RangePartition_spec RangePartition_proofs Visitor Visitor_spec Visitor_proofs Procedure Procedure_spec.
Local Open Scope nat_scope.

(** ** The shape of a procedure *)
Section Shape.
Variable x : stmts.
Notation ok := (derives x).
Definition first_ok (u : ptree) (first : list ptree) : Prop :=
  (g_tag u = PG_MAIN_PROGRAM /\ first = []) \/ exists f, first = [f] /\ ok f /\ In (g_tag f) begin_kinds /\ (g_tag u = PG_MAIN_PROGRAM -> g_tag f = SG_PROGRAM_STMT).
Lemma proc_shape u : ok u -> is_procedure (g_tag u) = true -> exists r first spec ex inn l,
  u = PT (g_tag u) r None (first ++ spec :: ex ++ inn ++ [l]) /\ first_ok u first /\ ok spec /\ g_tag spec = PG_SPECIFICATION_PART /\
  one_or_none x PG_EXECUTION_PART ex /\ one_or_none x PG_INTERNAL_SUBPROGRAM_PART inn /\ ok l /\ In (g_tag l) end_kinds.
Proof using.
  intros D P.
  assert (T4 : forall g first last, g_tag u = g -> produced g (sq (T first :: subprogram_body last)) = true -> In last end_kinds -> In first begin_kinds ->
    g <> PG_MAIN_PROGRAM -> exists r first spec ex inn l,
    u = PT (g_tag u) r None (first ++ spec :: ex ++ inn ++ [l]) /\ first_ok u first /\ ok spec /\ g_tag spec = PG_SPECIFICATION_PART /\
    one_or_none x PG_EXECUTION_PART ex /\ one_or_none x PG_INTERNAL_SUBPROGRAM_PART inn /\ ok l /\ In (g_tag l) end_kinds).
  { intros g first last TG PR LE FB NM. destruct (derives_kids x _ _ _ D TG PR) as (r & kids & E & S & K).
    change (sq (T first :: subprogram_body last)) with (Cat (T first) (sq (subprogram_body last))) in S.
    apply sp_seq_inv in S as (k1 & k2 & -> & S1 & S2). apply sp_tag_inv in S1 as (f & -> & EF). apply Forall_app in K as [K1 K2].
    apply body_inv with (x := x) in S2 as (spec & ex & inn & l & -> & O1 & T1 & O3 & O4 & O5 & T5); auto.
    exists r, [f], spec, ex, inn, l. rewrite TG. conjs; auto.
    - right. exists f. apply Forall_inv in K1. rewrite EF. conjs; auto. rewrite TG. congruence.
    - rewrite T5. exact LE. }
  unfold is_procedure in P. cbn [existsb] in P.
  destruct (Z.eqb_spec (g_tag u) PG_FUNCTION_SUBPROGRAM) as [E|_];
    [apply (T4 _ SG_FUNCTION_STMT SG_END_FUNCTION_STMT E ltac:(vm_compute; reflexivity) ltac:(cbn; auto) ltac:(cbn; auto)); intros X; vm_compute in X; discriminate|].
  destruct (Z.eqb_spec (g_tag u) PG_SUBROUTINE_SUBPROGRAM) as [E|_];
    [apply (T4 _ SG_SUBROUTINE_STMT SG_END_SUBROUTINE_STMT E ltac:(vm_compute; reflexivity) ltac:(cbn; auto) ltac:(cbn; auto)); intros X; vm_compute in X; discriminate|].
  destruct (Z.eqb_spec (g_tag u) PG_MAIN_PROGRAM) as [E|_].
  - destruct (derives_kids x _ (sq (opt (T SG_PROGRAM_STMT) :: subprogram_body SG_END_PROGRAM_STMT)) _ D E ltac:(vm_compute; reflexivity)) as (r & kids & EK & S & K).
    change (sq (opt (T SG_PROGRAM_STMT) :: subprogram_body SG_END_PROGRAM_STMT)) with (Cat (opt (T SG_PROGRAM_STMT)) (sq (subprogram_body SG_END_PROGRAM_STMT))) in S.
    apply sp_seq_inv in S as (k1 & k2 & -> & S1 & S2). apply Forall_app in K as [K1 K2].
    apply body_inv with (x := x) in S2 as (spec & ex & inn & l & -> & O1 & T1 & O3 & O4 & O5 & T5); auto.
    exists r, k1, spec, ex, inn, l. rewrite E. conjs; auto; [|rewrite T5; cbn; auto].
    apply sp_opt_inv in S1 as [->|S1]; [left; auto|]. right. apply sp_tag_inv in S1 as (f & -> & EF). exists f. apply Forall_inv in K1. rewrite EF. conjs; auto.
    cbn; auto.
  - destruct (Z.eqb_spec (g_tag u) PG_SEPARATE_MODULE_SUBPROGRAM) as [E|_]; [|discriminate P].
    apply (T4 _ SG_MP_SUBPROGRAM_STMT SG_END_MP_SUBPROGRAM_STMT E ltac:(vm_compute; reflexivity) ltac:(cbn; auto 10) ltac:(cbn; auto 10)); intros X; vm_compute in X; discriminate.
Qed.
Definition spec_kinds : list Z := [SG_USE_STMT; SG_IMPORT_STMT; PG_IMPLICIT_PART; PG_DECLARATION_CONSTRUCT].
Lemma spec_shape sp : ok sp -> g_tag sp = PG_SPECIFICATION_PART -> exists r a b c d, sp = PT PG_SPECIFICATION_PART r None (a ++ b ++ c :: d) /\
  Forall ok (a ++ b ++ c :: d) /\ Forall (fun k => g_tag k = SG_USE_STMT) a /\ Forall (fun k => g_tag k = SG_IMPORT_STMT) b /\ g_tag c = PG_IMPLICIT_PART /\
  Forall (fun k => g_tag k = PG_DECLARATION_CONSTRUCT) d.
Proof using.
  intros D TG. destruct (derives_kids x _ (sq [Many (T SG_USE_STMT); Many (T SG_IMPORT_STMT); T PG_IMPLICIT_PART; Many (T PG_DECLARATION_CONSTRUCT)]) _ D TG ltac:(vm_compute; reflexivity)) as (r & kids & E & S & K).
  cbn [sq fold_right] in S. apply sp_seq_inv in S as (k1 & r1 & -> & H1 & H). apply sp_seq_inv in H as (k2 & r2 & -> & H2 & H).
  apply sp_seq_inv in H as (k3 & r3 & -> & H3 & H). apply sp_seq_inv in H as (k4 & r4 & -> & H4 & H). apply sp_eps_inv in H as ->.
  apply sp_tag_inv in H3 as (c & -> & E3). apply sp_many_inv in H1, H2, H4. rewrite app_nil_r in *. cbn [app] in *. exists r, k1, k2, c, k4. conjs; auto.
Qed.

(** ** Repeated terminators *)
(** a leaf that may occur again is an action statement *)
Lemma again_action t : ok t -> forall i, In (i, true) (g_leaves false t) -> stmt_is x i SG_ACTION_STMT.
Proof using.
  remember (psize t) as n eqn:En. revert t En. induction n as [n IH] using (well_founded_induction lt_wf). intros t -> D i H.
  destruct D as [g j A B C|g e r kids I S K].
  - cbn [stmt_leaf g_leaves] in H. destruct H as [H|[]]. discriminate.
  - cbn [g_leaves] in H. destruct (Z.eqb_spec g PG_DO_TERM_SHARED_STMT) as [->|NE].
    + assert (DD : ok (PT PG_DO_TERM_SHARED_STMT r None kids)) by exact (derives_part x _ e r kids I S K).
      destruct (derives_kids x _ (T SG_ACTION_STMT) _ DD eq_refl ltac:(vm_compute; reflexivity)) as (r' & kids' & E & S' & K').
      injection E as <- <-. apply sp_tag_inv in S' as (k & -> & TK). apply Forall_inv in K. cbn [flat_map] in H. rewrite app_nil_r in H.
      destruct K as [g j A B C|g e' r' kids I' S' K]; cbn [stmt_leaf g_leaves g_tag] in *; subst g.
      * destruct H as [H|[]]. injection H as <-. exact B.
      * exfalso. assert (NP : forallb (fun p => negb (fst p =? SG_ACTION_STMT)%Z) productions = true) by (vm_compute; reflexivity).
        rewrite forallb_forall in NP. apply NP in I'. discriminate I'.
    + apply in_flat_map in H as (k & Hk & H). rewrite Forall_forall in K. apply (IH (psize k)) with (t := k); [|reflexivity|now apply K|exact H]. apply psize_in in Hk. cbn [psize]. lia.
Qed.
(** parts without DO loops *)
Definition loops : list Z :=
  [PG_DO_TERM_SHARED_STMT; PG_INNER_SHARED_DO_CONSTRUCT; PG_OUTER_SHARED_DO_CONSTRUCT; PG_ACTION_TERM_DO_CONSTRUCT; PG_NONBLOCK_DO_CONSTRUCT; PG_DO_CONSTRUCT;
   PG_DO_BODY; PG_BLOCK; PG_EXECUTABLE_CONSTRUCT; PG_EXECUTION_PART_CONSTRUCT; PG_EXECUTION_PART; PG_ASSOCIATE_CONSTRUCT; PG_BLOCK_CONSTRUCT;
   PG_CASE_CONSTRUCT; PG_SELECT_RANK_CONSTRUCT; PG_SELECT_TYPE_CONSTRUCT; PG_IF_CONSTRUCT] ++ outer.
Definition in_loops (g : Z) : bool := existsb (Z.eqb g) loops.
Fixpoint no_loops (e : rx) : bool :=
  match e with Eps => true | T g => negb (in_loops g) | Cat a b | Or a b => no_loops a && no_loops b | Many a => no_loops a end.
Lemma no_loops_spells e l : spells e l -> no_loops e = true -> Forall (fun g => in_loops g = false) l.
Proof using.
  induction 1; cbn [no_loops]; intros H1; try apply andb_true_iff in H1 as [? ?]; auto.
  - constructor; [|auto]. now apply negb_true_iff.
  - apply Forall_app; auto.
  - apply Forall_app; auto.
Qed.
Lemma never_again t : ok t -> in_loops (g_tag t) = false -> forall i, ~ In (i, true) (g_leaves false t).
Proof using.
  remember (psize t) as n eqn:En. revert t En. induction n as [n IH] using (well_founded_induction lt_wf). intros t -> D O i H.
  destruct D as [g j A B C|g e r kids I S K].
  - cbn [stmt_leaf g_leaves] in H. destruct H as [H|[]]. discriminate.
  - cbn [g_leaves g_tag] in *. destruct (Z.eqb_spec g PG_DO_TERM_SHARED_STMT) as [->|NE]; [discriminate O|].
    assert (CK : forallb (fun p => in_loops (fst p) || no_loops (snd p)) productions = true) by (vm_compute; reflexivity).
    rewrite forallb_forall in CK. apply CK in I. cbn [fst snd] in I. rewrite O in I. cbn [orb] in I.
    pose proof (no_loops_spells _ _ S I) as N. rewrite Forall_forall in N, K.
    apply in_flat_map in H as (k & Hk & H). apply (IH (psize k)) with (t := k) (i := i); [|reflexivity|now apply K|apply N, in_map, Hk|exact H]. apply psize_in in Hk. cbn [psize]. lia.
Qed.
(** statements *)
Lemma leaf_shape k : ok k -> no_part (g_tag k) = true -> exists i, k = stmt_leaf (g_tag k) i /\ stmt_is x i (g_tag k) /\ i < x_num x.
Proof using.
  intros D N. destruct D as [g j A B C|g e r kids I S K]; [exists j; auto|].
  exfalso. cbn [g_tag] in N. revert I. exact (no_part_in _ N e).
Qed.
(** the last statement of an internal procedure part does not occur again *)
Definition ends_once (t : ptree) : Prop := forall l i, g_leaves false t <> l ++ [(i, true)].
Lemma snoc_neq {A} (a b : list A) (p q : A) : p <> q -> a ++ [p] <> b ++ [q].
Proof using. intros N E. apply app_inj_tail in E as [_ E]. auto. Qed.
Lemma leaf_once g i : ends_once (stmt_leaf g i).
Proof using. intros l j E. apply (snoc_neq [] l) in E; [auto|congruence]. Qed.
Lemma node_once g r kids k : (g =? PG_DO_TERM_SHARED_STMT)%Z = false -> ends_once k -> g_leaves false k <> [] -> ends_once (PT g r None (kids ++ [k])).
Proof using.
  intros N H NE l i E. cbn [g_leaves] in E. rewrite N in E. rewrite flat_map_app in E. cbn [flat_map] in E. rewrite app_nil_r in E.
  destruct (exists_last NE) as (l' & [j f] & EL). rewrite EL in E. rewrite app_assoc in E. apply app_inj_tail in E as [_ E].
  injection E as -> ->. exact (H _ _ EL).
Qed.
Lemma node_leaves g r kids k : g_leaves false k <> [] -> (g =? PG_DO_TERM_SHARED_STMT)%Z = false -> g_leaves false (PT g r None (kids ++ [k])) <> [].
Proof using.
  intros H N E. cbn [g_leaves] in E. rewrite N, flat_map_app in E. apply app_eq_nil in E as [_ E]. cbn in E. rewrite app_nil_r in E. auto.
Qed.
Lemma proc_once u : ok u -> is_procedure (g_tag u) = true -> ends_once u /\ g_leaves false u <> [].
Proof using.
  intros D P. destruct (proc_shape _ D P) as (r & first & spec & ex & inn & l & E & _ & _ & _ & _ & _ & O & L).
  assert (NP : no_part (g_tag l) = true) by (cbn [In end_kinds] in L; repeat (destruct L as [<-|L]; [vm_compute; auto|]); destruct L).
  destruct (leaf_shape _ O NP) as (i & EL & _ & _).
  assert (NS : (g_tag u =? PG_DO_TERM_SHARED_STMT)%Z = false).
  { unfold is_procedure in P. destruct (Z.eqb_spec (g_tag u) PG_DO_TERM_SHARED_STMT) as [X|_]; [rewrite X in P; discriminate P|auto]. }
  rewrite E. replace (first ++ spec :: ex ++ inn ++ [l]) with ((first ++ spec :: ex ++ inn) ++ [l]) by (rewrite <- app_assoc; cbn [app]; now rewrite <- app_assoc).
  split; [apply node_once|apply node_leaves]; auto; rewrite EL; [apply leaf_once|discriminate|discriminate].
Qed.
Lemma inn_once p : ok p -> g_tag p = PG_INTERNAL_SUBPROGRAM_PART -> ends_once p /\ exists i f l, g_leaves false p = (i, f) :: l /\ stmt_is x i SG_CONTAINS_STMT.
Proof using.
  intros D TG. destruct (derives_kids x _ (sq [T SG_CONTAINS_STMT; Many (T PG_INTERNAL_SUBPROGRAM)]) _ D TG ltac:(vm_compute; reflexivity)) as (r & kids & -> & S & K).
  cbn [sq fold_right] in S. apply sp_seq_inv in S as (k1 & r1 & -> & H1 & H). apply sp_seq_inv in H as (k2 & r2 & -> & H2 & H). apply sp_eps_inv in H as ->.
  rewrite app_nil_r in *. apply sp_tag_inv in H1 as (ct & -> & TC). apply sp_many_inv in H2. apply Forall_app in K as [K1 K2]. apply Forall_inv in K1.
  destruct (leaf_shape _ K1 ltac:(rewrite TC; vm_compute; reflexivity)) as (i & EC & SC & _). rewrite TC in SC. split.
  - destruct k2 as [|k k2] using rev_ind; [cbn [app]|clear IHk2; rewrite app_assoc].
    + apply (node_once PG_INTERNAL_SUBPROGRAM_PART r [] ct); [reflexivity| |]; rewrite EC; [apply leaf_once|discriminate].
    + apply Forall_app in K2 as [_ K2]. apply Forall_app in H2 as [_ H2]. apply Forall_inv in K2, H2.
      destruct (derives_kids x _ (one_of [T PG_FUNCTION_SUBPROGRAM; T PG_SUBROUTINE_SUBPROGRAM]) _ K2 H2 ltac:(vm_compute; reflexivity)) as (r0 & kids & -> & S & K).
      assert (E : exists q, kids = [q] /\ is_procedure (g_tag q) = true).
      { cbn [one_of] in S. apply sp_or_inv in S as [S|S]; apply sp_tag_inv in S as (q & -> & E); exists q; rewrite E; split; auto. }
      destruct E as (q & -> & Q). apply Forall_inv in K. destruct (proc_once _ K Q) as [A B].
      apply node_once; [reflexivity| |]; [apply (node_once _ _ [] q)|apply (node_leaves _ _ [] q)]; auto.
  - exists i, false, (flat_map (g_leaves false) k2). split; [|exact SC]. cbn [g_leaves app]. change (PG_INTERNAL_SUBPROGRAM_PART =? PG_DO_TERM_SHARED_STMT)%Z with false.
    cbn [flat_map]. rewrite EC. reflexivity.
Qed.
End Shape.

(** ** Consecutive ranges *)
Inductive chain : nat -> list ptree -> nat -> Prop :=
| chain_nil p : chain p [] p
| chain_none p k ks q : g_rng k = None -> chain p ks q -> chain p (k :: ks) q
| chain_some p m k ks q : g_rng k = Some (p, m) -> p < m -> chain m ks q -> chain p (k :: ks) q.
Definition joints (ks : list ptree) : Prop :=
  forall a k b l i, ks = a ++ k :: b -> g_leaves false k = l ++ [(i, true)] -> forall f, hd_error (kleaves b) <> Some (i, f).
Lemma chain_ok ks : forall p, Forall tiled ks -> steps (kleaves ks) -> joints ks -> (forall i f, hd_error (kleaves ks) = Some (i, f) -> i = p) ->
  exists q, chain p ks q /\ (kleaves ks = [] -> q = p) /\ (forall l i f, kleaves ks = l ++ [(i, f)] -> q = S i).
Proof.
  induction ks as [|k ks IH]; intros p F S J H.
  - exists p. split; [constructor|]. split; [auto|]. intros l i f E. destruct l; discriminate.
  - inversion F as [|? ? F1 F2]; subst. assert (J2 : joints ks) by (intros a k' b l i E; apply (J (k :: a) k' b l i); now rewrite E).
    pose proof (tiled_rng _ F1) as R. change (kleaves (k :: ks)) with (g_leaves false k ++ kleaves ks) in *.
    destruct (steps_app_inv _ _ S) as [S1 S2].
    destruct (g_leaves false k) as [|[i0 f0] rest] eqn:EL.
    + cbn [app] in *. destruct (IH p F2 S2 J2 H) as (q & C & A & B). exists q. split; [now apply chain_none|]. auto.
    + assert (i0 = p) as -> by (eapply H; reflexivity).
      assert (NE : (p, f0) :: rest <> []) by discriminate. destruct (span_some _ NE S1) as (b & e & SP & LE & HB & HE).
      rewrite SP in R. cbn [map hd_error fst] in HB. injection HB as <-.
      destruct (exists_last NE) as (l' & [j f] & E). rewrite E in HE, S |- *.
      assert (HJ : j = e).
      { rewrite E in SP. clear - SP. destruct (span_app_snoc l' j f) as [b0 SB]. rewrite SB in SP. injection SP as _ SP. auto. }
      clear HE. subst j.
      assert (H2 : forall i g, hd_error (kleaves ks) = Some (i, g) -> i = Datatypes.S e).
      { intros i g HH. destruct (kleaves ks) as [|[i1 g1] w] eqn:EK; [discriminate|]. cbn in HH. injection HH as -> ->.
        rewrite <- app_assoc in S. apply steps_app_inv in S as [_ S]. cbn [app] in S. inversion S as [| |? ? ? ? ? C _]; subst.
        destruct C as [C|[-> C]]; [exact C|]. subst i. exfalso. assert (EQ : g_leaves false k = l' ++ [(e, true)]) by congruence.
        apply (J [] k ks l' e eq_refl EQ g). rewrite EK. reflexivity. }
      destruct (IH (Datatypes.S e) F2 S2 J2 H2) as (q & C & A & B). exists q. split; [eapply chain_some; eauto; lia|].
      split; [intro X; rewrite <- app_assoc in X; destruct l'; discriminate|]. intros l i g X. destruct (kleaves ks) as [|p0 w] eqn:EK.
      * rewrite app_nil_r in X. apply app_inj_tail in X as [_ X]. injection X as -> ->. now apply A.
      * destruct (exists_last (l := p0 :: w) ltac:(discriminate)) as (w' & [i2 f2] & EW). rewrite EW in X, B. rewrite app_assoc in X. apply app_inj_tail in X as [_ X].
        injection X as -> ->. eapply B. reflexivity.
Qed.
Lemma chain_le p ks q : chain p ks q -> p <= q.
Proof. induction 1; lia. Qed.
Lemma chain_stmts p ks q : chain p ks q -> flat_map stmts_of ks = seq p (q - p).
Proof.
  induction 1 as [p|p k ks q R C IH|p m k ks q R L C IH]; cbn [flat_map]; [now rewrite Nat.sub_diag| |].
  - unfold stmts_of at 1. now rewrite R.
  - unfold stmts_of at 1. rewrite R, IH. apply chain_le in C. replace (q - p) with ((m - p) + (q - m)) by lia. rewrite seq_app. f_equal. f_equal. lia.
Qed.

(** ** ingest as a sequence of appends *)
Definition rng_begin (k : ptree) : option nat := match g_rng k with Some (b, _) => Some b | None => None end.
Definition rng_end (k : ptree) : option nat := match g_rng k with Some (_, e) => Some e | None => None end.
Definition item := (nat * ptree)%type.
Fixpoint app_all (st : partition) (l : list item) : res partition :=
  match l with [] => Ok st | (i, k) :: l => st <- append st i (rng_begin k) (rng_end k) ;; app_all st l end.
Lemma app_all_app l1 : forall st l2, app_all st (l1 ++ l2) = (st <- app_all st l1 ;; app_all st l2).
Proof.
  induction l1 as [|[i k] l1 IH]; intros st l2; [reflexivity|]. cbn [app app_all]. destruct (append st i (rng_begin k) (rng_end k)); cbn [bind]; auto.
Qed.
Lemma add_eq st tr0 g idx tr c : add_node (mkProcedure st tr0 g) idx tr c =
  (st <- append st idx (rng_begin (c_node c)) (rng_end (c_node c)) ;; Ok (mkProcedure st ((idx, tr) :: tr0) g)).
Proof. unfold add_node, rng_begin, rng_end. destruct (g_rng (c_node c)) as [[b e]|]; reflexivity. Qed.

Definition sidx (g : Z) : nat :=
  if (g =? SG_USE_STMT)%Z then USES else if (g =? SG_IMPORT_STMT)%Z then IMPORTS else if (g =? PG_IMPLICIT_PART)%Z then IMPLICITS else DECLS.
Lemma spec_node_eq tr0 g pc k ks path u : In (g_tag k) spec_kinds -> exists tr, forall st,
  spec_node (mkProcedure st tr0 g) pc (Cur k ks path u) =
  (st <- append st (sidx (g_tag k)) (rng_begin k) (rng_end k) ;; Ok (mkProcedure st ((sidx (g_tag k), tr) :: tr0) g)).
Proof.
  intros H. unfold spec_node, sidx, c_tag. cbn [c_node]. cbn [In spec_kinds] in H.
  destruct (Z.eqb_spec (g_tag k) SG_USE_STMT); [eexists; intros; apply add_eq|]. destruct (Z.eqb_spec (g_tag k) SG_IMPORT_STMT); [eexists; intros; apply add_eq|].
  destruct (Z.eqb_spec (g_tag k) PG_IMPLICIT_PART); [eexists; intros; apply add_eq|]. destruct (Z.eqb_spec (g_tag k) PG_DECLARATION_CONSTRUCT); [eexists; intros; apply add_eq|].
  exfalso. repeat destruct H as [H|H]; congruence.
Qed.
Definition spec_items (ks : list ptree) : list item := map (fun k => (sidx (g_tag k), k)) ks.
(** the trackers do not depend on the partition *)
Lemma spec_loop_eq ks : forall k i path u tr0 g pc, Forall (fun k => In (g_tag k) spec_kinds) (k :: ks) -> exists tr, forall st,
  spec_loop (S (length ks)) (mkProcedure st tr0 g) pc (Cur k ks (i :: path) u) = (st <- app_all st (spec_items (k :: ks)) ;; Ok (mkProcedure st tr g)).
Proof.
  induction ks as [|k1 ks IH]; intros k i path u tr0 g pc F; inversion F as [|? ? F1 F2]; subst.
  - destruct (spec_node_eq tr0 g pc k [] (i :: path) u F1) as [tr T]. eexists. intros st. cbn [spec_loop length]. rewrite T. cbn [spec_items map app_all].
    destruct (append st _ _ _); cbn [bind c_try_next]; reflexivity.
  - destruct (spec_node_eq tr0 g pc k (k1 :: ks) (i :: path) u F1) as [tr T]. destruct (IH k1 (S i) path u ((sidx (g_tag k), tr) :: tr0) g pc F2) as [tr' IH']. exists tr'. intros st.
    change (spec_loop (S (length (k1 :: ks))) (mkProcedure st tr0 g) pc (Cur k (k1 :: ks) (i :: path) u)) with
      (P <- spec_node (mkProcedure st tr0 g) pc (Cur k (k1 :: ks) (i :: path) u) ;; spec_loop (S (length ks)) P pc (Cur k1 ks (S i :: path) u)).
    rewrite T. cbn [spec_items map app_all] in *. destruct (append st _ _ _); cbn [bind]; [|reflexivity|reflexivity]. apply IH'.
Qed.

Lemma end_kind_tests g : In g end_kinds -> (g =? PG_SPECIFICATION_PART)%Z = false /\ (g =? PG_EXECUTION_PART)%Z = false /\ (g =? PG_INTERNAL_SUBPROGRAM_PART)%Z = false /\
  is_end_tag g = true /\ no_part g = true.
Proof. intros L. cbn [In end_kinds] in L. repeat (destruct L as [<-|L]; [vm_compute; auto 10|]). destruct L. Qed.
Lemma scan_last k P l path u : In (g_tag l) end_kinds -> scan_loop (S k) P (Cur l [] path u) = Ok (P, Cur l [] path u, false).
Proof. intros L. apply end_kind_tests in L as (A & B & C & _). cbn [scan_loop]. unfold c_tag. cbn [c_node]. now rewrite A, B, C. Qed.
Lemma scan_tail (inn : list ptree) : (inn = [] \/ exists k, inn = [k] /\ g_tag k = PG_INTERNAL_SUBPROGRAM_PART) -> forall l, In (g_tag l) end_kinds -> forall n i path u tr0 g, length inn < n ->
  exists tr j, forall st, match inn ++ [l] with
    | k :: ks => scan_loop n (mkProcedure st tr0 g) (Cur k ks (i :: path) u) | [] => UB end =
    (st <- app_all st (map (pair CONTAINED) inn) ;; Ok (mkProcedure st tr g, Cur l [] (j :: path) u, false)).
Proof.
  intros I l L n i path u tr0 g HN. destruct n as [|n]; [lia|]. destruct I as [->|(k & -> & T)]; cbn [app].
  - eexists _, _. intros st. now rewrite scan_last by auto.
  - destruct n as [|n]; [cbn in HN; lia|]. eexists _, _. intros st.
    change (scan_loop (S (S n)) (mkProcedure st tr0 g) (Cur k [l] (i :: path) u)) with
      (if (g_tag k =? PG_SPECIFICATION_PART)%Z then spc <- c_down (Cur k [l] (i :: path) u) ;; P <- spec_loop (S (right_of spc)) (mkProcedure st tr0 g) (Cur k [l] (i :: path) u) spc ;; scan_loop (S n) P (Cur l [] (S i :: path) u)
       else if (g_tag k =? PG_EXECUTION_PART)%Z then P <- add_node (mkProcedure st tr0 g) EXECUTION_PART (Cur k [l] (i :: path) u) (Cur k [l] (i :: path) u) ;; scan_loop (S n) P (Cur l [] (S i :: path) u)
       else if (g_tag k =? PG_INTERNAL_SUBPROGRAM_PART)%Z then P <- add_node (mkProcedure st tr0 g) CONTAINED (Cur k [l] (i :: path) u) (Cur k [l] (i :: path) u) ;; scan_loop (S n) P (Cur l [] (S i :: path) u)
       else Ok (mkProcedure st tr0 g, Cur k [l] (i :: path) u, false)).
    rewrite T. change (PG_INTERNAL_SUBPROGRAM_PART =? PG_SPECIFICATION_PART)%Z with false. change (PG_INTERNAL_SUBPROGRAM_PART =? PG_EXECUTION_PART)%Z with false. rewrite Z.eqb_refl.
    rewrite add_eq. cbn [c_node map app_all]. destruct (append st _ _ _); cbn [bind]; [|reflexivity|reflexivity]. rewrite scan_last by auto. reflexivity.
Qed.
Lemma scan_step n st tr0 g k k1 ks i path u : scan_loop (S n) (mkProcedure st tr0 g) (Cur k (k1 :: ks) (i :: path) u) =
  let pc := Cur k (k1 :: ks) (i :: path) u in let P := mkProcedure st tr0 g in
  let next P := scan_loop n P (Cur k1 ks (S i :: path) u) in
  if (g_tag k =? PG_SPECIFICATION_PART)%Z then spc <- c_down pc ;; P <- spec_loop (S (right_of spc)) P pc spc ;; next P
  else if (g_tag k =? PG_EXECUTION_PART)%Z then P <- add_node P EXECUTION_PART pc pc ;; next P
  else if (g_tag k =? PG_INTERNAL_SUBPROGRAM_PART)%Z then P <- add_node P CONTAINED pc pc ;; next P
  else Ok (P, pc, false).
Proof. reflexivity. Qed.
Lemma scan_parts (ex inn : list ptree) l : (ex = [] \/ exists k, ex = [k] /\ g_tag k = PG_EXECUTION_PART) ->
  (inn = [] \/ exists k, inn = [k] /\ g_tag k = PG_INTERNAL_SUBPROGRAM_PART) -> In (g_tag l) end_kinds -> forall n i path u tr0 g, length (ex ++ inn) < n ->
  exists tr j, forall st, match ex ++ inn ++ [l] with
    | k :: ks => scan_loop n (mkProcedure st tr0 g) (Cur k ks (i :: path) u) | [] => UB end =
    (st <- app_all st (map (pair EXECUTION_PART) ex ++ map (pair CONTAINED) inn) ;; Ok (mkProcedure st tr g, Cur l [] (j :: path) u, false)).
Proof.
  intros X I L n i path u tr0 g HN. destruct X as [->|(k & -> & T)]; cbn [app map].
  - now apply scan_tail.
  - destruct n as [|n]; [lia|]. cbn [app length] in HN.
    assert (NE : exists k1 ks, inn ++ [l] = k1 :: ks) by (destruct inn; cbn; eauto). destruct NE as (k1 & ks & NE).
    destruct (scan_tail inn I l L n (S i) path u ((EXECUTION_PART, Cur k (k1 :: ks) (i :: path) u) :: tr0) g ltac:(lia)) as (tr & j & H).
    exists tr, j. intros st. rewrite NE in *. rewrite scan_step. cbn zeta. rewrite T. change (PG_EXECUTION_PART =? PG_SPECIFICATION_PART)%Z with false. rewrite Z.eqb_refl.
    rewrite add_eq. cbn [c_node app_all]. destruct (append st _ _ _); cbn [bind]; [|reflexivity|reflexivity]. apply H.
Qed.

Definition plan (first sk ex inn : list ptree) (l : ptree) : list item :=
  map (pair PROC_BEGIN) first ++ spec_items sk ++ (map (pair EXECUTION_PART) ex ++ map (pair CONTAINED) inn) ++ [(PROC_END, l)].
Lemma ingest_eq x u right path trunk st0 tr0 g0 r first spec ex inn l : u = PT (g_tag u) r None (first ++ spec :: ex ++ inn ++ [l]) ->
  is_procedure (g_tag u) = true -> first_ok x u first -> derives x spec -> g_tag spec = PG_SPECIFICATION_PART ->
  one_or_none x PG_EXECUTION_PART ex -> one_or_none x PG_INTERNAL_SUBPROGRAM_PART inn -> In (g_tag l) end_kinds ->
  exists tr, ingest (mkProcedure st0 tr0 g0) (Cur u right path trunk) =
    (st <- app_all st0 (plan first (g_kids spec) ex inn l) ;; v <- validate st ;; _ <- assert_ v ;; Ok (true, mkProcedure st tr (g_tag u))).
Proof.
  intros EU P FO DS TS EX IN L. unfold ingest. set (c0 := Cur u right path trunk). change (c_tag c0) with (g_tag u). cbn zeta. cbn [pr_parts pr_track].
  assert (P' : negb ((g_tag u =? PG_FUNCTION_SUBPROGRAM)%Z || (g_tag u =? PG_SUBROUTINE_SUBPROGRAM)%Z || (g_tag u =? PG_MAIN_PROGRAM)%Z || (g_tag u =? PG_SEPARATE_MODULE_SUBPROGRAM)%Z) = false).
  { unfold is_procedure in P. cbn [existsb] in P. rewrite orb_false_r, !orb_assoc in P. now rewrite P. }
  rewrite P'. clear P'.
  destruct (spec_shape x _ DS TS) as (rs & a & b & c & d & ES & KS & A & B & C & D).
  assert (F : Forall (fun k => In (g_tag k) spec_kinds) (g_kids spec)).
  { rewrite ES. cbn [g_kids]. rewrite !Forall_app. split; [|split; [|constructor; [rewrite C; cbn; auto|]]];
    [eapply Forall_impl; [|exact A]|eapply Forall_impl; [|exact B]|eapply Forall_impl; [|exact D]]; cbn; intros k ->; auto. }
  assert (NK : exists k ks, g_kids spec = k :: ks) by (rewrite ES; cbn [g_kids]; destruct a; [destruct b|]; cbn; eauto). destruct NK as (s1 & sr & NK). rewrite NK in *.
  assert (SC : forall i tr1, exists tr j, forall st,
     scan_loop (S (length (ex ++ inn ++ [l]))) (mkProcedure st tr1 (g_tag u)) (Cur spec (ex ++ inn ++ [l]) (i :: path) (Some c0)) =
     (st <- app_all st (spec_items (s1 :: sr) ++ (map (pair EXECUTION_PART) ex ++ map (pair CONTAINED) inn)) ;; Ok (mkProcedure st tr (g_tag u), Cur l [] (j :: path) (Some c0), false))).
  { intros i tr1. assert (NE : exists k1 ks, ex ++ inn ++ [l] = k1 :: ks) by (destruct ex; [destruct inn|]; cbn; eauto). destruct NE as (k1 & ks & NE).
    destruct (spec_loop_eq sr s1 0 (i :: path) (Some (Cur spec (k1 :: ks) (i :: path) (Some c0))) tr1 (g_tag u) (Cur spec (k1 :: ks) (i :: path) (Some c0)) F) as [tr2 SL].
    destruct (scan_parts ex inn l) with (n := length (ex ++ inn ++ [l])) (i := S i) (path := path) (u := Some c0) (tr0 := tr2) (g := g_tag u) as (tr & j & H); auto.
    - destruct EX as [->|(k & -> & _ & T)]; [auto|right; eauto].
    - destruct IN as [->|(k & -> & _ & T)]; [auto|right; eauto].
    - rewrite !app_length. cbn. lia.
    - exists tr, j. intros st. rewrite NE in *. rewrite scan_step. cbn zeta. rewrite TS, Z.eqb_refl. unfold c_down, c_try_down. cbn [c_node]. rewrite NK. cbn [sure bind right_of c_path].
      rewrite SL. rewrite app_all_app. destruct (app_all st (spec_items (s1 :: sr))); cbn [bind]; [|reflexivity|reflexivity]. apply H. }
  assert (FIN : forall i tr1, exists tr, forall st,
     ('(P, pc, scan) <- scan_loop (S (length (ex ++ inn ++ [l]))) (mkProcedure st tr1 (g_tag u)) (Cur spec (ex ++ inn ++ [l]) (i :: path) (Some c0)) ;;
      _ <- assert_ (negb scan) ;; _ <- assert_ (is_end_tag (c_tag pc)) ;; P <- add_node P PROC_END pc pc ;; v <- validate (pr_parts P) ;; _ <- assert_ v ;; Ok (true, P)) =
     (st <- app_all st (spec_items (s1 :: sr) ++ (map (pair EXECUTION_PART) ex ++ map (pair CONTAINED) inn) ++ [(PROC_END, l)]) ;;
      v <- validate st ;; _ <- assert_ v ;; Ok (true, mkProcedure st tr (g_tag u)))).
  { intros i tr1. destruct (SC i tr1) as (tr & j & H). exists ((PROC_END, Cur l [] (j :: path) (Some c0)) :: tr). intros st. rewrite H. rewrite (app_assoc (spec_items (s1 :: sr)) _ [(PROC_END, l)]), (app_all_app _ st [(PROC_END, l)]).
    destruct (app_all st (spec_items (s1 :: sr) ++ _)) as [st1| |]; cbn [bind]; [|reflexivity|reflexivity]. unfold c_tag. cbn [c_node]. destruct (end_kind_tests _ L) as (_ & _ & _ & -> & _).
    cbn [negb assert_ bind]. rewrite add_eq. cbn [c_node app_all]. destruct (append st1 _ _ _); cbn [bind pr_parts]; reflexivity. }
  destruct FO as [[TM ->]|(f & -> & OF & TF & TM)].
  - cbn [app] in EU. unfold c_down, c_try_down. change (c_node c0) with u. rewrite (f_equal g_kids EU). cbn [g_kids sure bind].
    assert (TT : negb ((g_tag u =? PG_MAIN_PROGRAM)%Z && negb (c_tag (Cur spec (ex ++ inn ++ [l]) (0%nat :: c_path c0) (Some c0)) =? SG_PROGRAM_STMT)%Z) = false).
    { unfold c_tag. cbn [c_node]. rewrite TM, TS. reflexivity. }
    rewrite TT. cbn [bind right_of plan map app]. destruct (FIN 0 tr0) as [tr H]. exists tr. apply H.
  - cbn [app] in EU. unfold c_down, c_try_down. change (c_node c0) with u. rewrite (f_equal g_kids EU). cbn [g_kids sure bind].
    assert (TT : negb ((g_tag u =? PG_MAIN_PROGRAM)%Z && negb (c_tag (Cur f (spec :: ex ++ inn ++ [l]) (0%nat :: c_path c0) (Some c0)) =? SG_PROGRAM_STMT)%Z) = true).
    { unfold c_tag. cbn [c_node]. destruct (Z.eqb_spec (g_tag u) PG_MAIN_PROGRAM) as [E|_]; [|reflexivity]. rewrite (TM E). now rewrite Z.eqb_refl. }
    rewrite TT. clear TT.
    assert (LF : g_kids f = []).
    { assert (NP : no_part (g_tag f) = true) by (clear - TF; cbn [In begin_kinds] in TF; repeat (destruct TF as [<-|TF]; [vm_compute; auto|]); destruct TF).
      destruct (leaf_shape _ _ OF NP) as (i & -> & _ & _). reflexivity. }
    cbn [c_node]. rewrite LF. cbn [is_empty assert_ bind]. rewrite add_eq. cbn [c_node].
    destruct (FIN 1 ((PROC_BEGIN, Cur f (spec :: ex ++ inn ++ [l]) (0 :: c_path c0) (Some c0)) :: tr0)) as [tr H]. exists tr.
    cbn [plan map app app_all]. destruct (append st0 _ _ _) as [st1| |]; cbn [bind c_next c_try_next sure]; [|reflexivity|reflexivity]. cbn [right_of]. apply H.
Qed.

(** ** The partition *)
Fixpoint items_ok (m : nat) (l : list item) : Prop :=
  match l with [] => True | (i, _) :: l => m <= i < NUM_REGION_TAG /\ items_ok i l end.
Definition at_idx (j : nat) (l : list item) : list ptree := map snd (filter (fun it => fst it =? j) l).
Lemma at_idx_app j l1 l2 : at_idx j (l1 ++ l2) = at_idx j l1 ++ at_idx j l2.
Proof. unfold at_idx. now rewrite filter_app, map_app. Qed.
Lemma run_all N pre l : forall m p q w st, Inv pre w st -> length (fst w) = NUM_REGION_TAG -> snd w = seq p (S N - p) -> chain p (map snd l) q -> q <= N ->
  items_ok m l -> (forall j, m < j < NUM_REGION_TAG -> us (fst w) j = false) ->
  exists st' w', app_all st l = Ok st' /\ Inv pre w' st' /\ length (fst w') = NUM_REGION_TAG /\ snd w' = seq q (S N - q) /\
    forall j, j < NUM_REGION_TAG -> region (fst w') j = region (fst w) j ++ flat_map stmts_of (at_idx j l) /\
      (us (fst w') j = true <-> us (fst w) j = true \/ flat_map stmts_of (at_idx j l) <> []).
Proof.
  induction l as [|[i k] l IH]; intros m p q w st I LW SW C Q SO UN.
  - cbn [map] in C. inversion C; subst. exists st, w. conjs; auto. intros j Hj. unfold at_idx. cbn. rewrite app_nil_r. split; [auto|]. split; [auto|]. intros [H|H]; auto; congruence.
  - cbn [map snd] in C. destruct SO as [Hi SO]. cbn [app_all]. inversion C as [|p0 k0 ks q0 R C'|p0 m0 k0 ks q0 R L C']; subst.
    + unfold rng_begin at 1, rng_end at 1. rewrite R. unfold append at 1.
      assert (V : valid_idx st i = true). { unfold valid_idx. destruct I as (RR & _). pose proof (end_idx_R _ _ RR) as E. apply Nat.ltb_lt. rewrite E. lia. }
      rewrite V. cbn [assert_ bind it_eqb]. destruct (IH i p q w st I LW SW C' Q SO) as (st' & w' & A & B & D & E & G); [intros j Hj; apply UN; lia|].
      exists st', w'. conjs; auto. intros j Hj. destruct (G j Hj) as [G1 G2]. unfold at_idx in *. cbn [filter fst]. destruct (i =? j); [|auto].
      cbn [map snd flat_map]. unfold stmts_of at 1 3. rewrite R. cbn [app]. auto.
    + pose proof (chain_le _ _ _ C') as LE.
      set (xs := seq p (m0 - p)). assert (XN : xs <> []) by (unfold xs; destruct (m0 - p) eqn:E; [lia|discriminate]).
      assert (SP : snd w = xs ++ seq m0 (S N - m0)).
      { rewrite SW. unfold xs. replace (S N - p) with ((m0 - p) + (S N - m0)) by lia. rewrite seq_app. f_equal. f_equal. lia. }
      assert (LG : slegal pre w (SAppend i xs)).
      { cbn [slegal]. split; [lia|]. split; [exact XN|]. split.
        - exists (seq m0 (S N - m0)). split; [exact SP|]. destruct (S N - m0) eqn:E; [lia|discriminate].
        - intros j Hj. apply unused_us; [lia|]. apply UN. lia. }
      destruct (step_ok pre w st _ I LG) as (st1 & E1 & I1).
      assert (EA : append st i (rng_begin k) (rng_end k) = Ok st1).
      { rewrite <- E1. destruct w as [rs t]. cbn [cstep snd] in *. rewrite SP. rewrite skipn_app, skipn_all, Nat.sub_diag. cbn [skipn app].
        unfold rng_begin, rng_end. rewrite R. f_equal.
        - unfold xs. destruct (m0 - p) eqn:E; [lia|reflexivity].
        - destruct (S N - m0) eqn:E; [lia|reflexivity]. }
      rewrite EA. cbn [bind]. destruct w as [rs t]. cbn [sstep fst snd] in *.
      destruct (IH i m0 q _ st1 I1) as (st' & w' & A & B & D & E & G); auto.
      * cbn [fst]. now rewrite upd_length.
      * cbn [snd]. rewrite SP. rewrite skipn_app, skipn_all, Nat.sub_diag. reflexivity.
      * intros j Hj. cbn [fst]. rewrite us_upd by lia. destruct (Nat.eqb_spec j i); [lia|]. apply UN. lia.
      * exists st', w'. conjs; auto. intros j Hj. destruct (G j Hj) as [G1 G2]. cbn [fst] in G1, G2. rewrite us_upd in G2 by lia.
        unfold at_idx in *. cbn [filter fst]. destruct (Nat.eqb_spec i j) as [->|NE].
        -- cbn [map snd flat_map]. assert (SX : stmts_of k = xs) by (unfold stmts_of; now rewrite R). rewrite SX. rewrite G1. rewrite region_upd by lia. rewrite Nat.eqb_refl in G2.
           split; [now rewrite app_assoc|]. rewrite G2. split; [|auto]. intros _. right. intro X. apply app_eq_nil in X as [X _]. auto.
        -- destruct (Nat.eqb_spec j i); [lia|]. split; [|exact G2]. rewrite G1. f_equal. unfold region.
           assert (EN : nth_error (upd rs i (Some (elems (nth i rs None) ++ xs))) j = nth_error rs j) by (apply nth_error_upd_ne; lia).
           destruct (nth_error rs j) as [y|] eqn:EJ; [|apply nth_error_None in EJ; lia]. rewrite (nth_error_nth _ _ None EN). now rewrite (nth_error_nth _ _ None EJ).
Qed.

(** ** The regions and the nodes *)
Lemma kind_const tags g l : Forall (fun k => g_tag k = g) l -> of_kind tags l = if existsb (Z.eqb g) tags then l else [].
Proof.
  unfold of_kind. induction 1 as [|k l E F IH]; cbn [filter]; [now destruct (existsb _ _)|]. rewrite E, IH. now destruct (existsb (Z.eqb g) tags).
Qed.
Lemma kind_app tags a b : of_kind tags (a ++ b) = of_kind tags a ++ of_kind tags b.
Proof. apply filter_app. Qed.
Lemma at_pair j c l : at_idx j (map (pair c) l) = if c =? j then l else [].
Proof.
  unfold at_idx. induction l as [|k l IH]; cbn [map filter fst]; [now destruct (c =? j)|]. destruct (c =? j) eqn:E; cbn [map snd]; now rewrite IH.
Qed.
Lemma at_spec j g l : Forall (fun k => g_tag k = g) l -> at_idx j (spec_items l) = if sidx g =? j then l else [].
Proof.
  intros F. rewrite <- at_pair. f_equal. unfold spec_items. induction F as [|k l E F IH]; [reflexivity|]. cbn [map]. now rewrite E, IH.
Qed.
Lemma items_ok_app l1 l2 : forall m m', items_ok m l1 -> Forall (fun it => fst it <= m') l1 -> m <= m' -> items_ok m' l2 -> items_ok m (l1 ++ l2).
Proof.
  induction l1 as [|[i k] l1 IH]; intros m m' O F LE O2; cbn [app].
  - destruct l2 as [|[i k] l2]; [exact I|]. cbn [items_ok] in *. destruct O2. split; [lia|auto].
  - cbn [items_ok] in *. destruct O as [O1 O]. inversion F; subst. split; [lia|]. cbn [fst] in *. eapply IH; eauto.
Qed.
Lemma items_pair m i ks : m <= i < NUM_REGION_TAG -> items_ok m (map (pair i) ks) /\ Forall (fun it : item => fst it <= i) (map (pair i) ks).
Proof.
  intros H. split; [|apply Forall_forall; intros it I; apply in_map_iff in I as (k & <- & _); cbn; lia].
  revert m H. induction ks as [|k ks IH]; intros m H; cbn [map items_ok]; [exact I|]. split; [lia|]. apply IH. lia.
Qed.
Lemma split_unique {T} (P : T -> Prop) p1 k1 s1 p2 k2 s2 : p1 ++ k1 :: s1 = p2 ++ k2 :: s2 -> P k1 -> P k2 -> Forall (fun z => ~ P z) p1 -> Forall (fun z => ~ P z) s1 -> p1 = p2 /\ k1 = k2 /\ s1 = s2.
Proof.
  revert p2. induction p1 as [|z p1 IH]; intros [|y p2] E K1 K2 F1 F2; cbn [app] in E; injection E as E1 E2.
  - auto.
  - exfalso. subst. rewrite Forall_app in F2. destruct F2 as [_ F2]. inversion F2; auto.
  - exfalso. subst. inversion F1; auto.
  - subst. inversion F1; subst. destruct (IH p2 E2) as (-> & -> & ->); auto.
Qed.
Lemma tiled_kids g r0 ks : tiled (PT g r0 None ks) -> Forall tiled ks.
Proof. inversion 1; auto. Qed.
Lemma begin_facts g : In g begin_kinds -> existsb (Z.eqb g) [PG_SPECIFICATION_PART] = false /\ existsb (Z.eqb g) begin_kinds = true /\ existsb (Z.eqb g) end_kinds = false /\
  existsb (Z.eqb g) [PG_EXECUTION_PART] = false /\ existsb (Z.eqb g) [PG_INTERNAL_SUBPROGRAM_PART] = false.
Proof. intros L. cbn [In begin_kinds] in L. repeat (destruct L as [<-|L]; [vm_compute; auto 10|]). destruct L. Qed.
Lemma end_facts g : In g end_kinds -> existsb (Z.eqb g) [PG_SPECIFICATION_PART] = false /\ existsb (Z.eqb g) begin_kinds = false /\ existsb (Z.eqb g) end_kinds = true /\
  existsb (Z.eqb g) [PG_EXECUTION_PART] = false /\ existsb (Z.eqb g) [PG_INTERNAL_SUBPROGRAM_PART] = false.
Proof. intros L. cbn [In end_kinds] in L. repeat (destruct L as [<-|L]; [vm_compute; auto 10|]). destruct L. Qed.
Section Regions.
Variables (x : stmts) (u : ptree) (r : option (nat * nat)) (first : list ptree) (spec : ptree) (ex inn : list ptree) (l : ptree)
  (rs : option (nat * nat)) (a b : list ptree) (c : ptree) (d : list ptree).
Hypothesis EU : u = PT (g_tag u) r None (first ++ spec :: ex ++ inn ++ [l]).
Hypothesis FO : first_ok x u first.
Hypothesis EX : one_or_none x PG_EXECUTION_PART ex.
Hypothesis IN : one_or_none x PG_INTERNAL_SUBPROGRAM_PART inn.
Hypothesis OL : derives x l.
Hypothesis L : In (g_tag l) end_kinds.
Hypothesis ES : spec = PT PG_SPECIFICATION_PART rs None (a ++ b ++ c :: d).
Hypothesis KS : Forall (derives x) (a ++ b ++ c :: d).
Hypothesis A : Forall (fun k => g_tag k = SG_USE_STMT) a.
Hypothesis B : Forall (fun k => g_tag k = SG_IMPORT_STMT) b.
Hypothesis C : g_tag c = PG_IMPLICIT_PART.
Hypothesis D : Forall (fun k => g_tag k = PG_DECLARATION_CONSTRUCT) d.
Definition pieces : list (list ptree) := [first; a; b; [c]; d; ex; inn; [l]].
Lemma first_const : exists g, In g begin_kinds /\ Forall (fun k => g_tag k = g) first.
Proof using FO.
  clear - FO. destruct FO as [[_ ->]|(f & -> & _ & I & _)]; [exists SG_PROGRAM_STMT; split; [cbn; auto|constructor]|]. exists (g_tag f). auto.
Qed.
Lemma ex_const : Forall (fun k => g_tag k = PG_EXECUTION_PART) ex.
Proof using EX. clear - EX. destruct EX as [->|(k & -> & _ & T)]; auto. Qed.
Lemma inn_const : Forall (fun k => g_tag k = PG_INTERNAL_SUBPROGRAM_PART) inn.
Proof using IN. clear - IN. destruct IN as [->|(k & -> & _ & T)]; auto. Qed.
Lemma plan_at j : j < NUM_REGION_TAG -> at_idx j (plan first (g_kids spec) ex inn l) = nth j pieces [].
Proof using ES A B C D.
  intros Hj. unfold plan. rewrite ES. cbn [g_kids]. change (c :: d) with ([c] ++ d).
  assert (SA : forall p q, spec_items (p ++ q) = spec_items p ++ spec_items q) by (intros; apply map_app). rewrite !SA, !at_idx_app, !at_pair.
  rewrite (at_spec j _ a A), (at_spec j _ b B), (at_spec j PG_IMPLICIT_PART [c]), (at_spec j _ d D) by auto.
  change [(PROC_END, l)] with (map (pair PROC_END) [l]). rewrite at_pair.
  do 8 (destruct j as [|j]; [cbn -[app]; cbn [app]; rewrite ?app_nil_r; reflexivity|]). unfold NUM_REGION_TAG in Hj. lia.
Qed.
Lemma nodes_at j : j < NUM_REGION_TAG -> region_nodes u j = nth j pieces [].
Proof using EU FO EX IN L ES A B C D.
  intros Hj. destruct first_const as (gf & IF & CF).
  assert (K : forall tags, of_kind tags (g_kids u) =
    (if existsb (Z.eqb gf) tags then first else []) ++ (if existsb (Z.eqb PG_SPECIFICATION_PART) tags then [spec] else []) ++
    (if existsb (Z.eqb PG_EXECUTION_PART) tags then ex else []) ++ (if existsb (Z.eqb PG_INTERNAL_SUBPROGRAM_PART) tags then inn else []) ++
    (if existsb (Z.eqb (g_tag l)) tags then [l] else [])).
  { intros tags. rewrite (f_equal g_kids EU). cbn [g_kids]. change (spec :: ex ++ inn ++ [l]) with ([spec] ++ ex ++ inn ++ [l]). rewrite !kind_app.
    rewrite (kind_const tags gf first CF), (kind_const tags PG_SPECIFICATION_PART [spec]), (kind_const tags _ ex ex_const), (kind_const tags _ inn inn_const), (kind_const tags (g_tag l) [l]); auto.
    rewrite ES. auto. }
  assert (SK : flat_map g_kids (of_kind [PG_SPECIFICATION_PART] (g_kids u)) = a ++ b ++ c :: d).
  { rewrite K. destruct (begin_facts _ IF) as (-> & _). destruct (end_facts _ L) as (-> & _).
    change (existsb (Z.eqb PG_SPECIFICATION_PART) [PG_SPECIFICATION_PART]) with true. change (existsb (Z.eqb PG_EXECUTION_PART) [PG_SPECIFICATION_PART]) with false.
    change (existsb (Z.eqb PG_INTERNAL_SUBPROGRAM_PART) [PG_SPECIFICATION_PART]) with false. cbn [app flat_map]. rewrite app_nil_r, ES. reflexivity. }
  assert (KK : forall tags, of_kind tags (a ++ b ++ c :: d) = (if existsb (Z.eqb SG_USE_STMT) tags then a else []) ++ (if existsb (Z.eqb SG_IMPORT_STMT) tags then b else []) ++
    (if existsb (Z.eqb PG_IMPLICIT_PART) tags then [c] else []) ++ (if existsb (Z.eqb PG_DECLARATION_CONSTRUCT) tags then d else [])).
  { intros tags. change (c :: d) with ([c] ++ d). rewrite !kind_app. rewrite (kind_const tags _ a A), (kind_const tags _ b B), (kind_const tags _ [c] (Forall_cons _ C (Forall_nil _))), (kind_const tags _ d D). auto. }
  unfold region_nodes. rewrite SK. rewrite !KK, !K. clear K KK SK.
  destruct (begin_facts _ IF) as (_ & -> & -> & -> & ->). destruct (end_facts _ L) as (_ & -> & -> & -> & ->).
  do 8 (destruct j as [|j]; [vm_compute existsb; cbn [app nth pieces]; rewrite ?app_nil_r; reflexivity|]). unfold NUM_REGION_TAG in Hj. lia.
Qed.

Definition nodes : list ptree := first ++ (a ++ b ++ c :: d) ++ ex ++ inn ++ [l].
Lemma nodes_pieces : concat pieces = nodes.
Proof using. unfold pieces, nodes. cbn [concat]. cbn [app]. rewrite <- !app_assoc. reflexivity. Qed.
Lemma plan_nodes : map snd (plan first (g_kids spec) ex inn l) = nodes.
Proof using ES.
  unfold plan, nodes. rewrite ES. cbn [g_kids]. rewrite !map_app. unfold spec_items. rewrite !map_map. cbn [snd]. rewrite !map_id. cbn [map snd]. rewrite <- !app_assoc. reflexivity.
Qed.
Lemma plan_ok : items_ok 0 (plan first (g_kids spec) ex inn l).
Proof using ES A B C D.
  unfold plan. rewrite ES. cbn [g_kids]. change (c :: d) with ([c] ++ d).
  assert (SA : forall p q, spec_items (p ++ q) = spec_items p ++ spec_items q) by (intros; apply map_app). rewrite !SA.
  assert (SP : forall g ks, Forall (fun k => g_tag k = g) ks -> spec_items ks = map (pair (sidx g)) ks).
  { intros g ks F. unfold spec_items. induction F as [|k ks E F IH]; [reflexivity|]. cbn [map]. now rewrite E, IH. }
  rewrite (SP _ _ A), (SP _ _ B), (SP PG_IMPLICIT_PART [c]), (SP _ _ D) by auto. rewrite <- !app_assoc.
  change [(PROC_END, l)] with (map (pair PROC_END) [l]).
  assert (ST : forall m i ks rest, m <= i < NUM_REGION_TAG -> items_ok i rest -> items_ok m (map (pair i) ks ++ rest)).
  { intros m i ks rest H R. destruct (items_pair m i ks H) as [O1 O2]. eapply items_ok_app; eauto. lia. }
  repeat (apply ST; [split; [vm_compute; lia|vm_compute; lia]|]). apply items_pair. vm_compute. lia.
Qed.

Hypothesis PU : is_procedure (g_tag u) = true.
Hypothesis TU : tiled u.
Hypothesis AP : apart x.
Lemma not_shared : (g_tag u =? PG_DO_TERM_SHARED_STMT)%Z = false.
Proof using PU.
  clear - PU. unfold is_procedure in PU. destruct (Z.eqb_spec (g_tag u) PG_DO_TERM_SHARED_STMT) as [X|_]; [rewrite X in PU; discriminate PU|auto].
Qed.
Lemma leaves_u : g_leaves false u = kleaves nodes.
Proof using EU ES PU.
  rewrite EU. cbn [g_leaves]. rewrite not_shared. unfold kleaves, nodes. change (spec :: ex ++ inn ++ [l]) with ([spec] ++ ex ++ inn ++ [l]). rewrite !flat_map_app.
  f_equal. cbn [flat_map]. rewrite app_nil_r, ES. cbn [g_leaves]. change (PG_SPECIFICATION_PART =? PG_DO_TERM_SHARED_STMT)%Z with false. now rewrite !flat_map_app.
Qed.
Lemma nodes_tiled : Forall tiled nodes.
Proof using TU EU ES.
  clear - TU EU ES. rewrite EU in TU. apply tiled_kids in TU. rewrite Forall_app in TU. destruct TU as [F1 F2]. inversion F2 as [|? ? F3 F4]; subst.
  apply tiled_kids in F3. unfold nodes. rewrite !Forall_app in *. tauto.
Qed.
Lemma end_leaf : exists i, l = stmt_leaf (g_tag l) i /\ stmt_is x i (g_tag l) /\ i < x_num x.
Proof using OL L. apply leaf_shape; auto. now apply end_kind_tests in L as (_ & _ & _ & _ & N). Qed.
Lemma nodes_joints : joints nodes.
Proof using EU FO EX IN OL L KS A B C D AP.
  intros p k s w i E EL f HD.
  assert (IK : In k nodes) by (rewrite E; apply in_or_app; right; now left).
  assert (IA : In (i, true) (g_leaves false k)) by (rewrite EL; apply in_or_app; right; now left).
  destruct end_leaf as (li & LE & LS & _).
  unfold nodes in IK. apply in_app_iff in IK as [IK|IK].
  { destruct FO as [[_ F]|(f0 & F & O & T & _)]; rewrite F in IK; [destruct IK|]. destruct IK as [<-|[]]. revert IA. apply (never_again x); [exact O|].
    clear - T. cbn [In begin_kinds] in T. revert T. generalize (g_tag f0). intros g T. repeat (destruct T as [<-|T]; [vm_compute; auto|]). destruct T. }
  apply in_app_iff in IK as [IK|IK].
  { pose proof KS as KS'. rewrite Forall_forall in KS'. revert IA. apply (never_again x); [now apply KS'|].
    apply in_app_iff in IK as [IK|IK]; [rewrite Forall_forall in A; rewrite (A _ IK); reflexivity|]. apply in_app_iff in IK as [IK|IK]; [rewrite Forall_forall in B; rewrite (B _ IK); reflexivity|].
    destruct IK as [<-|IK]; [rewrite C; reflexivity|]. rewrite Forall_forall in D. rewrite (D _ IK). reflexivity. }
  apply in_app_iff in IK as [IK|IK].
  { destruct EX as [X|(e & X & O & T)]; rewrite X in IK; [destruct IK|]. destruct IK as [<-|[]].
    assert (ACT : stmt_is x i SG_ACTION_STMT) by (eapply again_action; eauto).
    assert (ES' : nodes = (first ++ (a ++ b ++ c :: d)) ++ e :: inn ++ [l]) by (unfold nodes; rewrite X; rewrite <- !app_assoc; reflexivity).
    assert (NS : forall g g', g_tag g' = g -> (g =? PG_EXECUTION_PART)%Z = false -> g_tag g' <> PG_EXECUTION_PART) by (intros g g' <- Q Q'; rewrite Q', Z.eqb_refl in Q; discriminate).
    assert (Q1 : Forall (fun z => g_tag z <> PG_EXECUTION_PART) (first ++ a ++ b ++ c :: d)).
    { rewrite !Forall_app. split; [|split; [|split; [|constructor]]].
      - destruct FO as [[_ ->]|(f0 & -> & _ & TF & _)]; [constructor|]. constructor; [|constructor]. apply begin_facts in TF as (_ & _ & _ & TF & _).
        cbn in TF. rewrite orb_false_r in TF. eapply NS; eauto.
      - eapply Forall_impl; [|exact A]. intros z Z1. eapply NS; [exact Z1|reflexivity].
      - eapply Forall_impl; [|exact B]. intros z Z1. eapply NS; [exact Z1|reflexivity].
      - eapply NS; [exact C|reflexivity].
      - eapply Forall_impl; [|exact D]. intros z Z1. eapply NS; [exact Z1|reflexivity]. }
    assert (Q2 : Forall (fun z => g_tag z <> PG_EXECUTION_PART) (inn ++ [l])).
    { apply Forall_app. split.
      - eapply Forall_impl; [|exact inn_const]. intros z Z1. eapply NS; [exact Z1|reflexivity].
      - constructor; [|constructor]. apply end_kind_tests in L as (_ & Q & _). eapply NS; eauto. }
    rewrite ES' in E. destruct (split_unique (fun z => g_tag z = PG_EXECUTION_PART) _ _ _ _ _ _ E T T Q1 Q2) as (_ & _ & <-).
    destruct IN as [Y|(q & Y & O2 & T2)]; rewrite Y in HD; cbn [app kleaves flat_map] in HD.
    - rewrite LE in HD. cbn in HD. injection HD as <- _. apply (AP li (g_tag l)); auto. now right.
    - destruct (inn_once _ _ O2 T2) as (_ & i1 & f1 & l1 & EQ & SC). rewrite EQ in HD. cbn in HD. injection HD as <- _. apply (AP i1 SG_CONTAINS_STMT); auto. now left. }
  apply in_app_iff in IK as [IK|IK].
  { destruct IN as [Y|(q & Y & O2 & T2)]; rewrite Y in IK; [destruct IK|]. destruct IK as [<-|[]]. destruct (inn_once _ _ O2 T2) as (ON & _). exact (ON _ _ EL). }
  destruct IK as [<-|[]]. rewrite LE in EL. exact (leaf_once _ _ _ _ EL).
Qed.
Lemma nodes_chain : exists p q, g_rng u = Some (p, q) /\ p < q /\ q <= x_num x /\ chain p nodes q.
Proof using EU FO EX IN OL L ES KS A B C D PU TU AP.
  destruct end_leaf as (li & LE & LS & LN).
  assert (EL : kleaves nodes = kleaves (first ++ (a ++ b ++ c :: d) ++ ex ++ inn) ++ [(li, false)]).
  { unfold nodes. rewrite !kleaves_app. rewrite LE. cbn [kleaves flat_map stmt_leaf g_leaves app]. now rewrite <- !app_assoc. }
  pose proof (tiled_rng _ TU) as R. pose proof (tiled_steps _ TU) as S. rewrite leaves_u in R, S.
  assert (NE : kleaves nodes <> []) by (rewrite EL; intro X; apply app_eq_nil in X as [_ X]; discriminate).
  assert (HD : exists p f w, kleaves nodes = (p, f) :: w) by (destruct (kleaves nodes) as [|[p f] w]; [congruence|eauto]).
  destruct HD as (p & f & w & EK).
  destruct (chain_ok nodes p nodes_tiled S nodes_joints) as (q & CH & _ & Q).
  { intros i g H. rewrite EK in H. cbn in H. congruence. }
  specialize (Q _ _ _ EL). subst q.
  destruct (span_some _ NE S) as (b1 & e1 & S1 & S2 & S3 & _).
  destruct (span_app_snoc (kleaves (first ++ (a ++ b ++ c :: d) ++ ex ++ inn)) li false) as [b0 SB]. rewrite <- EL in SB.
  rewrite EK in S3. cbn in S3. injection S3 as ->. rewrite S1 in SB. injection SB as -> ->. rewrite S1 in R.
  exists b0, (Datatypes.S li). conjs; auto; lia.
Qed.
End Regions.

Lemma new_us j : us (repeat None NUM_REGION_TAG) j = false.
Proof. unfold NUM_REGION_TAG, us. do 8 (destruct j as [|j]; [reflexivity|]). cbn. now destruct j. Qed.
Lemma new_region j : region (repeat None NUM_REGION_TAG) j = [].
Proof. unfold NUM_REGION_TAG, region. do 8 (destruct j as [|j]; [reflexivity|]). cbn. now destruct j. Qed.
Lemma flat_nil {A B} (f : A -> list B) l : (forall z, In z l -> f z = []) -> flat_map f l = [].
Proof. induction l as [|z l IH]; intros H; [reflexivity|]. cbn [flat_map]. rewrite H by now left. apply IH. intros; apply H; now right. Qed.
Lemma flat_map_ext_in {A B} (f g : A -> list B) l : (forall z, In z l -> f z = g z) -> flat_map f l = flat_map g l.
Proof. induction l as [|z l IH]; intros H; [reflexivity|]. cbn [flat_map]. rewrite H by now left. f_equal. apply IH. intros; apply H; now right. Qed.
Lemma flat_concat {A B} (f : A -> list B) ls : flat_map f (concat ls) = flat_map (flat_map f) ls.
Proof. induction ls as [|k ls IH]; [reflexivity|]. cbn [concat flat_map]. now rewrite flat_map_app, IH. Qed.
Lemma content_regions ws : content ws = flat_map (region ws) (seq 0 (length ws)).
Proof.
  unfold content. induction ws as [|z ws IH] using rev_ind; [reflexivity|]. rewrite app_length, seq_app, !flat_map_app. cbn [length seq flat_map plus]. f_equal.
  - rewrite IH. apply flat_map_ext_in. intros j Hj. apply in_seq in Hj. unfold region. now rewrite app_nth1 by lia.
  - unfold region. rewrite app_nth2 by lia. now rewrite Nat.sub_diag.
Qed.
(** the regions of [u], from statement [p] to [q] of [num] *)
Definition holds (num : nat) (u : ptree) (p q : nat) (w : world) : Prop :=
  length (fst w) = NUM_REGION_TAG /\ snd w = seq q (S num - q) /\ (forall j, j < NUM_REGION_TAG -> region (fst w) j = region_stmts u j).
Lemma holds_content num u p q w : holds num u p q w -> flat_map (region_stmts u) (seq 0 NUM_REGION_TAG) = seq p (q - p) -> content (fst w) = seq p (q - p).
Proof.
  intros (LW & SW & G) TOT. rewrite <- TOT, content_regions, LW. apply flat_map_ext_in. intros z Hz. apply in_seq in Hz. apply G. lia.
Qed.
Lemma holds_all num u p q w : holds num u p q w -> flat_map (region_stmts u) (seq 0 NUM_REGION_TAG) = seq p (q - p) -> p <= q <= num -> seq 0 (S num) = seq 0 p ++ all_of w.
Proof.
  intros H TOT LT. unfold all_of. rewrite (holds_content _ _ _ _ _ H TOT). destruct H as (_ & SW & _). rewrite SW.
  replace (S num) with (p + ((q - p) + (S num - q))) at 1 by lia. rewrite !seq_app. cbn [plus]. do 3 f_equal. lia.
Qed.
Lemma inv_shows num u p q w P : Inv (seq 0 p) w (pr_parts P) -> holds num u p q w -> flat_map (region_stmts u) (seq 0 NUM_REGION_TAG) = seq p (q - p) -> p <= q <= num ->
  (forall j, j < NUM_REGION_TAG -> region_stmts u j <> [] -> us (fst w) j = true) -> shows num u P.
Proof.
  intros I H TOT LT U j Hj. pose proof (holds_all _ _ _ _ _ H TOT LT) as AL. destruct H as (LW & SW & G). split.
  - rewrite <- G by auto. apply (empty_ok _ _ _ _ I). now rewrite LW.
  - intros NE. apply U in NE; auto. apply used_us in NE. destruct (cquery_used _ _ _ _ I NE) as (E1 & E2). eexists _, _. split; [exact E1|]. split; [exact E2|].
    rewrite <- G by auto. rewrite AL. destruct w as [ws wt]. apply from_delim. cbn [fst] in *. lia.
Qed.
(** an object without regions *)
Definition blank (P : procedure) : Prop := forall pre t, t <> [] -> NoDup (pre ++ t) -> Inv pre (repeat None NUM_REGION_TAG, t) (pr_parts P).
Lemma new_blank : exists P0, new_procedure = Ok P0 /\ blank P0.
Proof.
  destruct (new_ok NUM_REGION_TAG [] [0]) as (st0 & N0 & _); [unfold NUM_REGION_TAG; lia|discriminate|repeat constructor; auto|].
  exists (mkProcedure st0 [] 0). split; [unfold new_procedure; rewrite N0; reflexivity|]. intros pre t Ht ND.
  destruct (new_ok NUM_REGION_TAG pre t) as (st1 & N1 & I1); auto; [unfold NUM_REGION_TAG; lia|]. rewrite N0 in N1. injection N1 as <-. exact I1.
Qed.
Lemma ingest_gen x u right path trunk P0 : derives x u -> tiled u -> apart x -> is_procedure (g_tag u) = true -> blank P0 ->
  exists p q, g_rng u = Some (p, q) /\ p < q /\ q <= x_num x /\ flat_map (region_stmts u) (seq 0 NUM_REGION_TAG) = seq p (q - p) /\
    (S p < q -> exists P w, ingest P0 (Cur u right path trunk) = Ok (true, P) /\ pr_tag P = g_tag u /\ Inv (seq 0 p) w (pr_parts P) /\ holds (x_num x) u p q w /\
       2 <= num_used (fst w) /\ (forall j, j < NUM_REGION_TAG -> region_stmts u j <> [] -> us (fst w) j = true) /\ region_stmts u PROC_END <> []) /\
    (q = S p -> ingest P0 (Cur u right path trunk) = UB).
Proof.
  intros DU TU AP PU BL. destruct (proc_shape x u DU PU) as (r & first & spec & ex & inn & l & EU & FO & DS & TS & EX & IN & OL & L).
  destruct (spec_shape x spec DS TS) as (rs & a & b & c & d & ES & KS & A & B & C & D).
  destruct (nodes_chain x u r first spec ex inn l rs a b c d EU FO EX IN OL L ES KS A B C D PU TU AP) as (p & q & R & LT & QN & CH).
  pose proof (plan_at first spec ex inn l rs a b c d ES A B C D) as PA.
  pose proof (nodes_at x u r first spec ex inn l rs a b c d EU FO EX IN L ES A B C D) as NA.
  pose proof (plan_nodes first spec ex inn l rs a b c d ES) as PN.
  pose proof (plan_ok first spec ex inn l rs a b c d ES A B C D) as PO.
  assert (RS : forall j, j < NUM_REGION_TAG -> flat_map stmts_of (at_idx j (plan first (g_kids spec) ex inn l)) = region_stmts u j).
  { intros j Hj. unfold region_stmts. now rewrite PA, NA by auto. }
  assert (TOT : flat_map (region_stmts u) (seq 0 NUM_REGION_TAG) = seq p (q - p)).
  { rewrite <- (chain_stmts _ _ _ CH). rewrite <- nodes_pieces, flat_concat. unfold pieces. cbn [flat_map seq NUM_REGION_TAG].
    unfold region_stmts. rewrite !NA by (unfold NUM_REGION_TAG; lia). reflexivity. }
  destruct P0 as [st0 tr0 g0]. assert (I0 : Inv (seq 0 p) (repeat None NUM_REGION_TAG, seq p (S (x_num x) - p)) st0).
  { apply BL.
    - destruct (S (x_num x) - p) eqn:E; [lia|discriminate].
    - replace (seq p (S (x_num x) - p)) with (seq (0 + p) (S (x_num x) - p)) by reflexivity. rewrite <- seq_app. apply seq_NoDup. }
  destruct (run_all (x_num x) (seq 0 p) (plan first (g_kids spec) ex inn l) 0 p q (repeat None NUM_REGION_TAG, seq p (S (x_num x) - p)) st0) as (st & w & E & I & LW & SW & G); auto.
  { now rewrite PN. }
  { intros j _. cbn [fst]. apply new_us. }
  exists p, q. split; [exact R|]. split; [exact LT|]. split; [exact QN|]. split; [exact TOT|].
  destruct (ingest_eq x u right path trunk st0 tr0 g0 r first spec ex inn l EU PU FO DS TS EX IN L) as [tr IE]. rewrite IE, E. cbn [bind].
  assert (GR : forall j, j < NUM_REGION_TAG -> region (fst w) j = region_stmts u j /\ (us (fst w) j = true <-> region_stmts u j <> [])).
  { intros j Hj. destruct (G j Hj) as [G1 G2]. rewrite RS in G1, G2 by auto. cbn [fst] in *. rewrite new_region in G1. cbn [app] in G1. split; [exact G1|].
    rewrite G2, new_us. split; [intros [H|H]; [discriminate|exact H]|auto]. }
  assert (R7 : length (region_stmts u PROC_END) = 1).
  { unfold region_stmts. rewrite NA by (unfold PROC_END, NUM_REGION_TAG; lia). cbn [nth pieces PROC_END flat_map].
    assert (NP : no_part (g_tag l) = true) by now apply end_kind_tests in L as (_ & _ & _ & _ & N).
    destruct (leaf_shape x l OL NP) as (i & -> & _ & _). unfold stmts_of. cbn [stmt_leaf g_rng]. rewrite app_nil_r, seq_length. lia. }
  assert (U7 : us (fst w) PROC_END = true).
  { apply (GR PROC_END ltac:(unfold PROC_END, NUM_REGION_TAG; lia)). intro X. rewrite X in R7. discriminate. }
  assert (LTOT : length (flat_map (region_stmts u) (seq 0 PROC_END)) + 1 = q - p).
  { rewrite <- R7. assert (H : length (flat_map (region_stmts u) (seq 0 NUM_REGION_TAG)) = q - p) by now rewrite TOT, seq_length.
    rewrite <- H. change NUM_REGION_TAG with (PROC_END + 1). rewrite seq_app, flat_map_app, app_length. cbn [seq flat_map plus]. now rewrite app_nil_r. }
  assert (OT : forall j, us (fst w) j = true -> j <> PROC_END -> j < PROC_END /\ region_stmts u j <> []).
  { intros j Hj Hn. pose proof (us_lt _ _ Hj) as HL. rewrite LW in HL. unfold NUM_REGION_TAG, PROC_END in *. split; [lia|]. now apply GR. }
  split.
  - intros H2. assert (NU : num_used (fst w) <> 1).
    { intros H1. destruct (num_used_1 _ H1) as (i & Ui & Un). assert (i = PROC_END) as -> by (symmetry; auto).
      rewrite flat_nil in LTOT; [cbn in LTOT; lia|]. intros j Hj. apply in_seq in Hj. destruct (region_stmts u j) eqn:Ej; [reflexivity|]. exfalso.
      assert (us (fst w) j = true) as Uj by (apply GR; [unfold NUM_REGION_TAG, PROC_END in *; lia|rewrite Ej; discriminate]). apply Un in Uj. lia. }
    rewrite (validate_ok _ _ _ I NU). cbn [bind assert_]. eexists _, w. split; [reflexivity|]. cbn [pr_tag pr_parts]. split; [reflexivity|]. split; [exact I|].
    split; [split; [exact LW|]; split; [exact SW|]; intros j Hj; now apply GR|]. split; [|split; [intros j Hj; now apply GR|intro X; rewrite X in R7; discriminate]].
    destruct (num_used (fst w)) as [|[|k]] eqn:EN; [|congruence|lia]. apply (num_used_0 _ PROC_END) in EN. congruence.
  - intros ->. assert (NU : num_used (fst w) = 1).
    { destruct (Nat.eq_dec (num_used (fst w)) 0) as [Z|Z]; [apply (num_used_0 _ PROC_END) in Z; congruence|].
      destruct (le_lt_dec 2 (num_used (fst w))) as [T|T]; [|lia]. apply num_used_2 in T. destruct T as (i & j & Hij & Ui & Uj). exfalso.
      assert (O : exists k, us (fst w) k = true /\ k <> PROC_END) by (destruct (Nat.eq_dec i PROC_END); [exists j|exists i]; split; auto; lia).
      destruct O as (k & Uk & Nk). destruct (OT k Uk Nk) as [K1 K2]. assert (KI : In k (seq 0 PROC_END)) by (apply in_seq; lia).
      apply in_split in KI as (s1 & s2 & ES2). rewrite ES2, flat_map_app in LTOT. cbn [flat_map] in LTOT. rewrite !app_length in LTOT.
      destruct (region_stmts u k); [congruence|]. cbn [length] in LTOT. lia. }
    rewrite (validate_single _ _ _ I NU). reflexivity.
Qed.
Lemma ingest_ok x u right path trunk : derives x u -> tiled u -> apart x -> is_procedure (g_tag u) = true ->
  exists p q P0, g_rng u = Some (p, q) /\ p < q /\ flat_map (region_stmts u) (seq 0 NUM_REGION_TAG) = seq p (q - p) /\ new_procedure = Ok P0 /\
    (S p < q -> exists P, ingest P0 (Cur u right path trunk) = Ok (true, P) /\ pr_tag P = g_tag u /\ shows (x_num x) u P) /\
    (q = S p -> ingest P0 (Cur u right path trunk) = UB).
Proof.
  intros DU TU AP PU. destruct new_blank as (P0 & N0 & BL). destruct (ingest_gen x u right path trunk P0 DU TU AP PU BL) as (p & q & R & LT & QN & TOT & G & B).
  exists p, q, P0. conjs; auto. intros H2. destruct (G H2) as (P & w & E & T & I & H & _ & U & _). exists P. conjs; auto. eapply inv_shows; eauto. lia.
Qed.
