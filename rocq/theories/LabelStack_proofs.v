From Verif Require Import Base Base_lemmas LabelStack LabelStack_spec.
Local Open Scope Z_scope.

(** Relation of the cached stack to the plain one: a marked entry holds its
    position in the run, and so do all entries below it in the run. *)
Definition entry_ok (below : PStack) (m lv : Z) (sh : bool) : Prop :=
  if sh then lv = Z.of_nat (S (run below m)) /\
             forall k, (k < run below m)%nat -> exists y, nth_error below k = Some (y, true)
  else lv = -1 \/ lv = 0 /\ run below m = 0%nat.
Fixpoint rel (s : LStack) (p : PStack) : Prop :=
  match s, p with
  | [], [] => True
  | (m, lv) :: s', (m', sh) :: p' => m = m' /\ entry_ok p' m lv sh /\ rel s' p'
  | _, _ => False
  end.

Lemma rel_labels s : forall p, rel s p -> map fst s = map fst p.
Proof.
  induction s as [|[m lv] s IH]; intros [|[m' sh] p]; cbn; try tauto.
  intros (-> & _ & R). f_equal. auto.
Qed.
Lemma rel_run s : forall p l, rel s p -> run_len s l = run p l.
Proof.
  induction s as [|[m lv] s IH]; intros [|[m' sh] p] l; cbn; try tauto.
  intros (-> & _ & R). destruct (m' =? l); auto.
Qed.
Lemma run_labels p : forall q l, map fst p = map fst q -> run p l = run q l.
Proof.
  induction p as [|[m b] p IH]; intros [|[m' b'] q] l; cbn; try discriminate; auto.
  intros [= -> E]. destruct (m' =? l); auto.
Qed.
Lemma mark_labels p : forall n, map fst (mark p n) = map fst p.
Proof. induction p as [|[m b] p IH]; intros [|n]; cbn; auto. now rewrite IH. Qed.
Lemma mark_nth p : forall n k y b, (k < n)%nat -> nth_error p k = Some (y, b) ->
  nth_error (mark p n) k = Some (y, true).
Proof.
  induction p as [|[m c] p IH]; intros [|n] [|k] y b; cbn; try lia; try discriminate.
  - intros _ [= <- _]. reflexivity.
  - intros K E. eapply IH; eauto. lia.
Qed.
Lemma run_length p l : (run p l <= length p)%nat.
Proof. induction p as [|[m b] p IH]; cbn; [lia|]. destruct (m =? l); lia. Qed.

(** assigning the run restores the relation with the marked stack *)
Lemma rel_assign s : forall p l, rel s p ->
  rel (assign s (run p l)) (mark p (run p l)).
Proof.
  induction s as [|[m lv] s IH]; intros [|[m' sh] p] l; cbn [rel]; try tauto.
  intros (<- & E & R). cbn [run]. destruct (Z.eqb_spec m l) as [->|NE]; cbn [assign mark rel].
  - split; auto. split; [|now apply IH].
    unfold entry_ok. rewrite (run_labels (mark p (run p l)) p) by apply mark_labels. split; [lia|].
    intros k K. pose proof (run_length p l) as LE.
    destruct (nth_error p k) as [[y b]|] eqn:N; [|apply nth_error_None in N; lia].
    exists y. eapply mark_nth; eauto.
  - auto.
Qed.

Lemma mark_id p : forall n, (forall k, (k < n)%nat -> exists y, nth_error p k = Some (y, true)) -> mark p n = p.
Proof.
  induction p as [|[m b] p IH]; intros [|n] H; cbn; auto.
  destruct (H 0%nat) as (y & E); [lia|]. injection E as _ ->. f_equal. apply IH.
  intros k K. apply (H (S k)). lia.
Qed.

Lemma level_spec s p l : rel s p ->
  snd (ls_level s l) = answer p l /\
  exists p', p_step p (OpLevel l) = Some p' /\ rel (fst (ls_level s l)) p'.
Proof.
  destruct s as [|[m lv] s], p as [|[m' sh] p]; cbn [rel]; try tauto.
  - intros _. split; auto. exists []. split; auto. exact I.
  - intros (<- & E & R). unfold ls_level, answer, p_step.
    assert (RP : run ((m, sh) :: p) l = if m =? l then S (run p l) else 0%nat) by reflexivity.
    destruct (Z.eqb_spec m l) as [->|NE]; cbn [negb].
    2:{ rewrite RP. cbn. split; auto. eexists. split; [reflexivity|]. cbn. auto. }
    rewrite RP. cbn [run_len]. rewrite Z.eqb_refl. rewrite (rel_run s p l R).
    unfold entry_ok in E. destruct sh.
    + destruct E as [-> E]. destruct (Z.eqb_spec (Z.of_nat (S (run p l))) (-1)) as [|_]; [lia|]. cbn [snd fst].
      destruct (run p l) as [|n] eqn:RN.
      * split; [reflexivity|]. cbn [Nat.leb]. eexists. split; [reflexivity|]. cbn [rel]. unfold entry_ok. rewrite RN.
        conjs; auto.
      * split; [reflexivity|]. cbn [Nat.leb]. eexists. split; [reflexivity|].
        rewrite mark_id.
        -- cbn [rel]. unfold entry_ok. rewrite RN. conjs; auto.
        -- intros [|k] K; [eexists; reflexivity|]. cbn [nth_error]. apply E. lia.
    + destruct (run p l) as [|n] eqn:RN.
      * cbn [Nat.eqb]. destruct E as [->|[-> _]]; cbn [Z.eqb snd fst]; (split; [reflexivity|]);
          cbn [Nat.leb]; (eexists; split; [reflexivity|]); cbn; unfold entry_ok; auto 6.
      * destruct E as [->|[-> E]]; [|discriminate]. rewrite Z.eqb_refl.
        assert (S (S n) =? 1 = false)%nat as -> by reflexivity.
        cbn [assign snd fst]. split; [reflexivity|]. cbn [Nat.leb]. eexists. split; [reflexivity|].
        pose proof (rel_assign ((l, -1) :: s) ((l, false) :: p) l) as A.
        rewrite RP in A. apply A. cbn [rel]. unfold entry_ok. auto.
Qed.

Lemma step_spec s p o : rel s p ->
  match p_step p o with
  | Some p' => exists s', ls_step s o = Ok s' /\ rel s' p'
  | None => ls_step s o = UB
  end.
Proof.
  intros R. destruct o as [l| |l].
  - cbn. eexists. split; [reflexivity|]. cbn. unfold entry_ok. auto.
  - destruct s as [|[m lv] s], p as [|[m' sh] p]; cbn in *; try tauto. destruct R as (_ & _ & R). eauto.
  - destruct (level_spec s p l R) as (_ & p' & E & R'). rewrite E. cbn [ls_step]. eauto.
Qed.

Lemma run_spec h : forall s p, rel s p ->
  match p_run p h with
  | Some p' => exists s', ls_run s h = Ok s' /\ rel s' p'
  | None => ls_run s h = UB
  end.
Proof.
  induction h as [|o h IH]; intros s p R; cbn; [eauto|].
  pose proof (step_spec s p o R) as S. destruct (p_step p o) as [p'|].
  - destruct S as (s' & -> & R'). cbn [bind]. now apply IH.
  - now rewrite S.
Qed.

Lemma label_stack_main h :
  match p_run [] h with
  | None => ls_run [] h = UB
  | Some p => exists s, ls_run [] h = Ok s /\
      (forall l, snd (ls_level s l) = answer p l) /\
      (forall l, ls_is_top s l = true <-> hd_error (labels p) = Some l) /\
      ls_size s = length (labels p) /\
      (ls_empty s = true <-> labels p = [])
  end.
Proof.
  pose proof (run_spec h [] [] I) as H. destruct (p_run [] h) as [p|]; auto.
  destruct H as (s & E & R). exists s. split; auto. pose proof (rel_labels _ _ R) as LB. unfold labels. conjs.
  - intros l. now apply level_spec.
  - intros l. rewrite <- LB. destruct s as [|[m lv] s]; cbn; [split; discriminate|].
    rewrite Z.eqb_eq. split; congruence.
  - rewrite <- LB. unfold ls_size. now rewrite map_length.
  - rewrite <- LB. unfold ls_empty. destruct s; cbn; split; auto; discriminate.
Qed.

(** Histories without pop: the bit does not matter. *)
Fixpoint no_pop (h : list ls_op) : bool :=
  match h with [] => true | OpPop :: _ => false | _ :: r => no_pop r end.
Fixpoint pushed (h : list ls_op) (acc : list Z) : list Z :=
  match h with [] => acc | OpPush l :: r => pushed r (l :: acc) | _ :: r => pushed r acc end.
Fixpoint lead (s : list Z) (l : Z) : nat :=
  match s with m :: r => if m =? l then S (lead r l) else 0%nat | [] => 0%nat end.

Definition bit_inv (p : PStack) : Prop :=
  forall k m, nth_error p k = Some (m, true) -> lead (map fst (skipn (S k) p)) m = 0%nat ->
     exists j b, (j < k)%nat /\ nth_error p j = Some (m, b) /\ k = S j.
Lemma run_lead p l : run p l = lead (map fst p) l.
Proof. induction p as [|[m b] p IH]; cbn; auto. now rewrite IH. Qed.

Lemma mark_nth_inv p : forall n k m, nth_error (mark p n) k = Some (m, true) ->
  (k < n)%nat \/ nth_error p k = Some (m, true).
Proof.
  induction p as [|[m' c] p IH]; intros [|n] [|k] m; cbn; auto; try lia; try discriminate.
  intros E. destruct (IH n k m E); [left; lia|auto].
Qed.
Lemma run_nth p l : forall k, (k < run p l)%nat -> exists b, nth_error p k = Some (l, b).
Proof.
  induction p as [|[m b] p IH]; intros k; cbn; [lia|]. destruct (Z.eqb_spec m l) as [->|]; [|lia].
  destruct k; [exists b; reflexivity|]. intros K. cbn. apply IH. lia.
Qed.
Lemma skipn_map_fst (p q : PStack) k : map fst p = map fst q -> map fst (skipn k p) = map fst (skipn k q).
Proof. intros E. now rewrite <- !skipn_map, E. Qed.

Lemma bit_inv_step p o p' : o <> OpPop -> bit_inv p -> p_step p o = Some p' -> bit_inv p'.
Proof.
  intros NP I. destruct o as [l| |l]; cbn [p_step]; [| tauto |].
  - intros [= <-] [|k] m E; [discriminate|]. cbn [nth_error skipn] in *. intros L.
    destruct (I k m E L) as (j & b & J & N & ->). exists (S j), b. cbn. conjs; auto; lia.
  - destruct (Nat.leb_spec 2 (run p l)) as [R|R]; intros [= <-]; auto.
    intros k m E L. 
    rewrite (skipn_map_fst _ p _ (mark_labels p _)) in L.
    destruct (mark_nth_inv _ _ _ _ E) as [K|E'].
    + destruct (run_nth p l k K) as (b & B). pose proof (mark_nth p _ _ _ _ K B) as M. rewrite E in M.
      injection M as ->. destruct k as [|j].
      * exfalso. destruct p as [|[m' c] p]; [cbn in R; lia|]. cbn [run skipn] in *.
        destruct (m' =? l); [|lia]. rewrite run_lead in R. lia.
      * destruct (run_nth p l j) as (b' & B'); [lia|]. exists j, true. conjs; auto. eapply mark_nth; eauto. lia.
    + destruct (I k m E' L) as (j & b & J & N & ->).
      destruct (nth_error (mark p (run p l)) j) as [[m2 b2]|] eqn:N2.
      * exists j, b2. conjs; auto. f_equal. f_equal.
        assert (nth_error (map fst (mark p (run p l))) j = Some m2) by now rewrite nth_error_map, N2.
        rewrite mark_labels, nth_error_map, N in H. cbn in H. congruence.
      * exfalso. apply nth_error_None in N2. rewrite <- (map_length fst), mark_labels, map_length in N2.
        apply nth_error_None in N2. congruence.
Qed.

Lemma no_pop_main h : no_pop h = true ->
  exists s, ls_run [] h = Ok s /\
    forall l, snd (ls_level s l) =
      match lead (pushed h []) l with
      | 0%nat => -1
      | 1%nat => 0
      | n => Z.of_nat n
      end.
Proof.
  intros NP.
  assert (G : forall h p, no_pop h = true -> bit_inv p -> exists p', p_run p h = Some p' /\ bit_inv p' /\
     labels p' = pushed h (labels p)).
  { clear. induction h as [|o h IH]; intros p NP I; cbn [p_run pushed]; [eauto|].
    assert (exists p1, p_step p o = Some p1 /\ bit_inv p1 /\
       labels p1 = match o with OpPush l => l :: labels p | _ => labels p end) as (p1 & E & I1 & LB).
    { destruct o as [l| |l]; [| discriminate NP |].
      - eexists. split; [reflexivity|]. split; [|reflexivity]. eapply bit_inv_step with (o := OpPush l); eauto. discriminate.
      - destruct (p_step p (OpLevel l)) as [p1|] eqn:E.
        + exists p1. split; auto. split; [eapply bit_inv_step with (o := OpLevel l); eauto; discriminate|].
          cbn [p_step] in E. destruct (2 <=? run p l)%nat; injection E as <-; auto. apply mark_labels.
        + cbn [p_step] in E. destruct (2 <=? run p l)%nat; discriminate. }
    rewrite E. destruct (IH p1) as (p2 & E2 & I2 & L2); auto.
    { destruct o; auto; discriminate. }
    exists p2. conjs; auto. rewrite L2, LB. destruct o; auto. }
  destruct (G h [] NP) as (p & E & I & LB).
  { intros [|k] m; discriminate. }
  pose proof (label_stack_main h) as M. rewrite E in M. destruct M as (s & R & A & _).
  exists s. split; auto. intros l. rewrite A. change (pushed h []) with (pushed h (labels [])). rewrite <- LB.
  unfold answer. rewrite (run_lead p l). fold (labels p).
  destruct p as [|[m b] p]; [reflexivity|]. cbn [labels map fst lead].
  destruct (Z.eqb_spec m l) as [->|NE]; [|reflexivity].
  destruct (lead (map fst p) l) as [|n] eqn:LL; [|reflexivity].
  destruct b; [|reflexivity]. exfalso. destruct (I 0%nat l eq_refl) as (j & b & J & _); [|lia].
  cbn [skipn]. exact LL.
Qed.
