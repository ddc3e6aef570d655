(** C22: the regions of a range partition. *)
From Verif Require Import Base Base_lemmas RangePartition RangePartition_spec RangePartition_proofs.
From Coq Require Import Lia.
Local Open Scope nat_scope.

Lemma Inv_good pre w st : Inv pre w st -> good pre w st.
Proof.
  intro I. destruct w as [rs t]. repeat apply conj.
  - intros i Hu. destruct (cquery_used _ _ _ _ I Hu) as (E1 & E2). eexists _, _. split; [exact E1|]. split; [exact E2|].
    apply from_delim. destruct Hu as [x Hx]. apply nth_error_Some. cbn in *. congruence.
  - intros i Hi. eapply empty_ok; eauto.
  - intros H2 i Hi. apply num_used_2 in H2. destruct I as (R & HE & _).
    destruct (rbegin_ok _ _ _ R HE H2 Hi) as (st' & E1 & _ & E2 & _). eexists _, _, _, _. split; [exact E1|]. split; [exact E2|]. now apply from_delim.
  - intro H. destruct (all_ok _ _ _ I H) as (E1 & E2). eexists _, _. split; [exact E1|]. split; [exact E2|].
    exists pre, t. auto.
  - eapply all_empty_ok; eauto.
  - eapply validate_ok; eauto.
Qed.

(** Missing for the full claim (it is false, see the refutations below): histories
    that ask for or insert into a region while fewer than two are in use, and
    insertions in front of a region other than the first.
    After every legal history on a new partition no assertion failed, and the
    partition shows the regions. *)
Theorem C22_histories_partial : forall count pre t h,
  0 < count -> t <> [] -> NoDup (pre ++ t) -> shist pre (repeat None count, t) h ->
  exists st0 st, new_partition count = Ok st0 /\ cruns pre (repeat None count, t) st0 h = Ok st /\
    good pre (sruns (repeat None count, t) h) st.
Proof.
  intros count pre t h Hc Ht ND H. destruct (new_ok count pre t Hc Ht ND) as (st0 & E0 & I0).
  destruct (runs_ok pre h _ _ I0 H) as (st & E & I). exists st0, st. split; [exact E0|]. split; [exact E|]. now apply Inv_good.
Qed.
Print Assumptions C22_histories_partial.

(** append of an empty range changes nothing, at any region; at an index that is
    none it fails the assertion. *)
Theorem C22_append_nothing : forall count pre t h st0 st i b,
  0 < count -> t <> [] -> NoDup (pre ++ t) -> shist pre (repeat None count, t) h ->
  new_partition count = Ok st0 -> cruns pre (repeat None count, t) st0 h = Ok st ->
  append st i b b = if i <? count then Ok st else UB.
Proof.
  intros count pre t h st0 st i b Hc Ht ND H E0 E. destruct (new_ok count pre t Hc Ht ND) as (st0' & E0' & I0).
  rewrite E0 in E0'. injection E0' as <-. destruct (runs_ok pre h _ _ I0 H) as (st' & E' & (RR & _)). rewrite E in E'. injection E' as <-. pose proof (R_len _ _ RR) as RL.
  assert (LW : forall h w, length (fst (sruns w h)) = length (fst w)).
  { induction h0 as [|x h0 IH]; intros w; [reflexivity|]. cbn [sruns]. rewrite IH. destruct w, x; cbn; apply upd_length. }
  rewrite LW in RL. cbn [fst] in RL. rewrite repeat_length in RL. unfold append, valid_idx, end_idx. rewrite RL. cbn [Nat.sub]. rewrite Nat.sub_0_r.
  destruct (i <? count); [|reflexivity]. cbn [assert_ bind]. assert (it_eqb b b = true) as -> by (destruct b; cbn; [apply Nat.eqb_refl|reflexivity]). reflexivity.
Qed.
Print Assumptions C22_append_nothing.
(** Clearing allows the partition to be built again, over another list. *)
Theorem C22_clear_partial : forall count pre t h pre' t' h',
  0 < count -> t <> [] -> NoDup (pre ++ t) -> shist pre (repeat None count, t) h ->
  t' <> [] -> NoDup (pre' ++ t') -> shist pre' (repeat None count, t') h' ->
  exists st0 st st', new_partition count = Ok st0 /\ cruns pre (repeat None count, t) st0 h = Ok st /\
    cruns pre' (repeat None count, t') (clear_partitions st) h' = Ok st' /\
    good pre' (sruns (repeat None count, t') h') st'.
Proof.
  intros count pre t h pre' t' h' Hc Ht ND H Ht' ND' H'. destruct (new_ok count pre t Hc Ht ND) as (st0 & E0 & I0).
  destruct (runs_ok pre h _ _ I0 H) as (st & E & I).
  assert (LN : forall h w, length (fst (sruns w h)) = length (fst w)).
  { clear. induction h as [|s h IH]; intro w; [reflexivity|]. simpl. rewrite IH. destruct w as [rs t]. destruct s; apply upd_length. }
  pose proof (clear_ok _ _ _ I pre' t' Ht' ND') as I1. rewrite LN in I1. cbn [fst] in I1. rewrite repeat_length in I1.
  destruct (runs_ok pre' h' _ _ I1 H') as (st' & E' & I'). exists st0, st, st'. repeat (split; [assumption|]). now apply Inv_good.
Qed.
Print Assumptions C22_clear_partial.

(** Every step changes its own region only, and in the way it says. *)
Theorem C22_step : forall pre w s i, slegal pre w s ->
  let j := match s with SAppend j _ => j | STouch j => j | SInsert j _ _ => j end in
  region (fst (sstep w s)) i =
    if i =? j then match s with
                   | SAppend _ x => region (fst w) j ++ x
                   | STouch _ => region (fst w) j
                   | SInsert _ k x => firstn k (region (fst w) j) ++ x ++ skipn k (region (fst w) j)
                   end
    else region (fst w) i.
Proof.
  intros pre [rs t] s i L j. assert (Hj : j < length rs).
  { destruct s; cbn in L; subst j; try tauto. destruct L as ([y Hy] & _). apply nth_error_Some. congruence. }
  assert (G : forall y, region (upd rs j (Some y)) i = if i =? j then y else region rs i).
  { intro y. destruct (Nat.eqb_spec i j) as [->|]; [now apply region_upd|]. unfold region.
    destruct (nth_error (upd rs j (Some y)) i) as [z|] eqn:E.
    - rewrite (nth_error_nth _ _ None E). rewrite nth_error_upd_ne in E by congruence. now rewrite (nth_error_nth _ _ None E).
    - rewrite !nth_overflow; [reflexivity| |]; apply nth_error_None in E; rewrite upd_length in E; [|rewrite upd_length]; assumption. }
  destruct s; apply G.
Qed.
Print Assumptions C22_step.

(** A history with two regions used, one touched between them, insertions at
    the front and in a region. *)
Example C22_ex :
  let h := [SAppend 0 [10; 11]; SAppend 2 [12; 13]; STouch 1; SInsert 2 1 [20; 21]; SInsert 0 0 [30]; SAppend 2 [14]] in
  let w := ([None; None; None], [10; 11; 12; 13; 14; 99]) in
  shist [5] w h /\ sruns w h = ([Some [30; 10; 11]; Some []; Some [12; 20; 21; 13; 14]], [99]) /\
  (exists st, (st0 <- new_partition 3 ;; cruns [5] w st0 h) = Ok st /\ cbegin st 2 = Ok (Some 12) /\ cend st 2 = Ok (Some 99) /\
     cbegin st 0 = Ok (Some 30) /\ cend st 0 = Ok (Some 12) /\ validate st = Ok true).
Proof.
  split; [|split; [reflexivity|eexists; split; [vm_compute; reflexivity|repeat split; vm_compute; reflexivity]]].
  cbn -[unused used num_used lt].
  repeat match goal with
  | |- _ /\ _ => split
  | |- True => exact I
  | |- exists t' : list nat, _ => eexists; split; [reflexivity|discriminate]
  | |- _ <> _ => discriminate
  | |- used _ _ => eexists; reflexivity
  | |- NoDup _ => repeat constructor; cbn; intuition discriminate
  | |- _ = 0 -> _ => intro Hz; try discriminate Hz; intros; lia
  | |- _ < _ => lia
  | |- _ <= num_used _ => vm_compute; lia
  | |- _ <= _ => lia
  | |- forall j, _ -> unused _ _ => intros [|[|[|j]]] Hj; try lia; reflexivity
  end.
Qed.

(** With exactly one region in use its links say that it is not in use.
    Asking for its begin moves the begin to the end of the range; validate()
    and insert() assert. *)
Theorem C22_single_refuted :
  exists st, (st0 <- new_partition 2 ;; append st0 0 (Some 7) (Some 99)) = Ok st /\
    cbegin st 0 = Ok (Some 7) /\ cend st 0 = Ok (Some 99) /\ region_empty st 0 = Ok false /\
    (exists st', rbegin st 0 = Ok (Some 99, st') /\ region_empty st' 0 = Ok true) /\
    validate st = UB /\ insert [6; 7; 99] st 0 (Some 6) (Some 7) = UB.
Proof. eexists. split; [vm_compute; reflexivity|]. repeat split; try (vm_compute; reflexivity). eexists. split; vm_compute; reflexivity. Qed.
Print Assumptions C22_single_refuted.

(** In general: validate() never succeeds with one region in use. *)
Theorem C22_single_validate_refuted : forall count pre t h st0 st,
  0 < count -> t <> [] -> NoDup (pre ++ t) -> shist pre (repeat None count, t) h ->
  new_partition count = Ok st0 -> cruns pre (repeat None count, t) st0 h = Ok st ->
  num_used (fst (sruns (repeat None count, t) h)) = 1 -> validate st = UB.
Proof.
  intros count pre t h st0 st Hc Ht ND H E0 E H1. destruct (new_ok count pre t Hc Ht ND) as (st0' & E0' & I0).
  rewrite E0 in E0'. injection E0' as <-. destruct (runs_ok pre h _ _ I0 H) as (st' & E' & I). rewrite E in E'. injection E' as <-.
  eapply validate_single; eauto.
Qed.
Print Assumptions C22_single_validate_refuted.

(** Inserting in front of a region other than the first leaves the begin of
    the region as it is: the new element 20 is in region 0. *)
Theorem C22_front_refuted :
  exists st st', (st0 <- new_partition 2 ;; st1 <- append st0 0 (Some 10) (Some 11) ;; append st1 1 (Some 11) (Some 99)) = Ok st /\
    cbegin st 1 = Ok (Some 11) /\ insert [10; 20; 11; 99] st 1 (Some 20) (Some 11) = Ok st' /\
    cbegin st' 1 = Ok (Some 11) /\ cbegin st' 0 = Ok (Some 10) /\ cend st' 0 = Ok (Some 11).
Proof. eexists _, _. repeat split; vm_compute; reflexivity. Qed.
Print Assumptions C22_front_refuted.

(** Procedure::emplace_stmt passes the iterators the wrong way around: the
    distance is taken backwards, whatever the partition. *)
Theorem C22_emplace_refuted : forall l st idx iter pos,
  NoDup l -> (exists u v w, l = u ++ iter :: v ++ pos :: w) ->
  emplace_insert l st idx (Some pos) (Some iter) = UB.
Proof.
  intros l st idx iter pos ND (u & v & w & ->). unfold emplace_insert, insert, active_idx.
  assert (D : distance_ok (u ++ iter :: v ++ pos :: w) (Some pos) (Some iter) = false).
  { simpl. assert (G : forall z, ~ In pos z -> reach (z ++ pos :: w) pos iter = existsb (Nat.eqb iter) (pos :: w)).
    { induction z as [|c z IH]; intro Hz; cbn [app reach].
      - now rewrite Nat.eqb_refl.
      - destruct (Nat.eqb_spec c pos) as [->|]; [exfalso; apply Hz; now left|]. apply IH. intro; apply Hz; now right. }
    replace (u ++ iter :: v ++ pos :: w) with ((u ++ iter :: v) ++ pos :: w) in * by now rewrite <- app_assoc.
    rewrite G.
    - destruct (existsb _ _) eqn:Q; [|reflexivity]. exfalso. apply existsb_exists in Q. destruct Q as (c & Hc & Qc). apply Nat.eqb_eq in Qc. subst c.
      rewrite <- app_assoc in ND. apply NoDup_app_r in ND. cbn in ND. inversion ND as [|? ? NI]. apply NI. apply in_or_app. now right.
    - apply NoDup_remove_2 in ND. intro Q. apply ND. apply in_or_app. now left. }
  rewrite D. destruct (valid_idx st idx); [|reflexivity]. unfold get. destruct (nth_error st idx) as [p|]; [|reflexivity]. cbn [bind]. destruct (p_active p); reflexivity.
Qed.
Print Assumptions C22_emplace_refuted.
