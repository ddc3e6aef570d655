(** C15, C16: Safe_List and SL_Range. *)
From Verif Require Import Base Base_lemmas SafeList SafeList_spec SafeList_proofs.
Local Open Scope nat_scope.

(** ** C15.  For every history allowed by the contract of an ordinary list the
    Safe_List behaves like that list; the sentry is the end() position and is
    never visible as an element; end() changes only with clear(). *)
Theorem C15_safe_list : forall (T : Type) (d : T) h p,
  plain_run d (mkPlain [] 0 1) h = Some p ->
  exists s, sl_run d (sl_new d 0) h = Ok s /\
    my_end s = p_end p /\
    (Z.of_nat (length (elems p)) < 2 ^ 64 -> sl_size s = Z.of_nat (length (elems p)))%Z /\
    (sl_empty s = true <-> elems p = []) /\
    sl_begin s = Ok (match elems p with (i, _) :: _ => i | [] => p_end p end) /\
    (forall x, hd_error (elems p) = Some x -> sl_front s = Ok (snd x)) /\
    (forall x, hd_error (rev (elems p)) = Some x -> sl_back s = Ok (snd x)) /\
    nodes s = elems p ++ [(my_end s, d)] /\ NoDup (map fst (nodes s)).
Proof. intros T d h p. exact (safe_list_main d h p). Qed.
Print Assumptions C15_safe_list.

(** A copy has the same values in the same order, its own end, and new nodes. *)
Theorem C15_copy : forall (T : Type) (d : T) h p s,
  plain_run d (mkPlain [] 0 1) h = Some p -> sl_run d (sl_new d 0) h = Ok s ->
  exists l, nodes (sl_copy s (fresh s)) = l ++ [(my_end (sl_copy s (fresh s)), d)] /\
    map snd l = map snd (elems p) /\
    (forall n, In n (map fst (nodes (sl_copy s (fresh s)))) -> ~ In n (map fst (nodes s))).
Proof.
  intros T d h p s E ES. destruct (run_R d h (sl_new d 0) (mkPlain [] 0 1) p (new_R d 0) E) as (s' & ES' & H).
  assert (s' = s) by congruence. subst s'.
  pose proof (copy_R d s p (fresh s) H) as C. exists (renumber (elems p) (fresh s)). repeat split.
  - rewrite (R_end _ _ _ C). exact (R_nodes _ _ _ C).
  - apply renumber_vals.
  - intros n I J. apply in_map_iff in J as (x & <- & J).
    pose proof (R_lt _ _ _ H) as LT. rewrite Forall_forall in LT. apply LT in J.
    unfold sl_copy in I. cbn [nodes] in I. rewrite (proj2 (renumber_vals _ _)) in I. apply in_seq in I. lia.
Qed.
Print Assumptions C15_copy.

Example C15_case : exists p, plain_run 0 (mkPlain [] 0 1)
   [OpPushBack 7; OpPushBack 8; OpInsert 2 9; OpErase 1; OpEmplaceFront 5; OpRemoveIf (fun x => x =? 8)] = Some p /\
   elems p = [(4, 5); (3, 9)] /\ p_end p = 0.
Proof. eexists. split; [reflexivity|]. split; reflexivity. Qed.

(** remove_if with a predicate true of the default value destroys the sentry:
    end() dangles while elements remain. *)
Theorem C15_remove_if_default_refuted :
  exists s, sl_run 0 (sl_new 0 0) [OpPushBack 7; OpRemoveIf (fun x => x =? 0)] = Ok s /\
    ~ In (my_end s) (map fst (nodes s)) /\ sl_size s = 0%Z /\ sl_back s = UB.
Proof. eexists. split; [reflexivity|]. repeat split. cbn. intros [H|[]]. discriminate. Qed.
Print Assumptions C15_remove_if_default_refuted.
(** And if it is true of every element as well, the call itself is undefined. *)
Theorem C15_remove_all_refuted : forall (T : Type) (d : T) h p s q,
  plain_run d (mkPlain [] 0 1) h = Some p -> sl_run d (sl_new d 0) h = Ok s ->
  q d = true -> Forall (fun e => q (snd e) = true) (elems p) -> sl_run d s [OpRemoveIf q] = UB.
Proof.
  intros T d h p s q E ES Q F. destruct (run_R d h (sl_new d 0) (mkPlain [] 0 1) p (new_R d 0) E) as (s' & ES' & H).
  assert (s' = s) by congruence. subst s'. cbn [sl_run sl_step]. unfold sl_remove_if. rewrite (R_nodes _ _ _ H), filter_app. cbn [filter snd]. rewrite Q. cbn [negb]. rewrite app_nil_r.
  assert (filter (fun n => negb (q (snd n))) (elems p) = []) as ->; [|reflexivity].
  induction F as [|e l X F IH]; auto. cbn [filter]. rewrite X. exact IH.
Qed.
Print Assumptions C15_remove_all_refuted.
(** A moved-from list has no sentry: size() wraps around. *)
Theorem C15_moved_from_refuted :
  let s := snd (sl_move (sl_new 0 0)) in
  sl_size s = (2 ^ 64 - 1)%Z /\ sl_empty s = true /\ sl_push_back s 1 = UB /\ sl_begin s = UB.
Proof. repeat split. Qed.
Print Assumptions C15_moved_from_refuted.

(** ** C16.  [good s r blk]: r denotes the block of consecutive nodes blk of the
    list, its size() is their number, begin() is the first (end() if there is
    none), end() is the node behind the last.  All constructors give good
    ranges. *)
Theorem C16_constructors : forall (T : Type) (s : @SL T), NoDup (map fst (nodes s)) ->
  (forall a b r, range_make s a b = Ok r -> exists blk, good s r blk /\ r_begin r = a /\ r_end r = b) /\
  (forall it r, range_only s it = Ok r -> exists v, good s r [(it, v)]).
Proof. intros T s W. split; intros; [eapply range_make_spec|eapply range_only_spec]; eauto. Qed.
Print Assumptions C16_constructors.
Theorem C16_whole_list : forall (T : Type) (d : T) h p s,
  plain_run d (mkPlain [] 0 1) h = Some p -> sl_run d (sl_new d 0) h = Ok s ->
  exists r, range_of_list s = Ok r /\ good s r (elems p).
Proof.
  intros T d h p s E ES. destruct (run_R d h (sl_new d 0) (mkPlain [] 0 1) p (new_R d 0) E) as (s' & ES' & H).
  assert (s' = s) by congruence. subst s'.
  destruct (range_of_list s) as [r| |] eqn:RL.
  - exists r. split; auto. eapply range_of_list_spec; eauto.
  - unfold range_of_list, sl_begin in RL. rewrite (R_nodes _ _ _ H) in RL. destruct (elems p) as [|[? ?] ?]; discriminate.
  - unfold range_of_list, sl_begin in RL. rewrite (R_nodes _ _ _ H) in RL. destruct (elems p) as [|[? ?] ?]; discriminate.
Qed.
Print Assumptions C16_whole_list.
(** empty() and last() *)
Theorem C16_empty_last : forall (T : Type) (s : @SL T) r, NoDup (map fst (nodes s)) ->
  (forall blk, good s r blk -> r_empty s r = Ok (is_empty blk)) /\
  (forall blk x, good s r (blk ++ [x]) -> r_last s r = Ok (fst x)).
Proof. intros T s r W. split; intros; [now apply good_empty|eapply last_spec; eauto]. Qed.
Print Assumptions C16_empty_last.
(** push_back: adjacent ranges are joined, other cases as stated; a range that
    neither starts nor ends at r's end is an assertion failure *)
Theorem C16_push_back : forall (T : Type) (s : @SL T) r a x y,
  NoDup (map fst (nodes s)) -> good s r x -> good s a y ->
  (x = [] -> y = [] -> r_push_back s r a = Ok r) /\
  (y <> [] -> x = [] -> r_push_back s r a = Ok a) /\
  (x <> [] -> y = [] -> r_push_back s r a = Ok r) /\
  (x <> [] -> y <> [] -> r_end r = r_begin a ->
     exists r', r_push_back s r a = Ok r' /\ good s r' (x ++ y) /\ r_begin r' = r_begin r /\ r_end r' = r_end a) /\
  (x <> [] -> y <> [] -> r_end r = r_end a -> r_push_back s r a = Ok r) /\
  (x <> [] -> y <> [] -> r_end r <> r_begin a -> r_end r <> r_end a -> r_push_back s r a = UB).
Proof. intros T. exact push_back_spec. Qed.
Print Assumptions C16_push_back.
Theorem C16_push_front : forall (T : Type) (s : @SL T) r a x y,
  NoDup (map fst (nodes s)) -> good s r x -> good s a y -> x <> [] -> y <> [] ->
  r_begin r = r_end a ->
  exists r', r_push_front s r a = Ok r' /\ good s r' (y ++ x) /\ r_begin r' = r_begin a /\ r_end r' = r_end r.
Proof. intros T. exact push_front_spec. Qed.
Print Assumptions C16_push_front.
(** An insertion that is neither inside the block nor at the end of a non-empty
    block leaves the range good with the same block. *)
Theorem C16_insert_elsewhere : forall (T : Type) (s : @SL T) pos v s' n r blk,
  NoDup (map fst (nodes s)) -> good s r blk -> insert_before s pos v = Ok (s', n) ->
  ~ In pos (map fst (tl blk)) -> (blk <> [] -> pos <> r_end r) -> good s' r blk.
Proof. intros T. exact insert_keeps. Qed.
Print Assumptions C16_insert_elsewhere.

(** the documented way to extend a range over a node inserted before its end
    (insert, then push_back of the new node) is an assertion failure *)
Theorem C16_insert_then_push_back_refuted :
  exists s r s' n a,
    sl_run 0 (sl_new 0 0) [OpPushBack 7; OpPushBack 8] = Ok s /\ range_of_list s = Ok r /\
    insert_before s (r_end r) 9 = Ok (s', n) /\ range_only s' n = Ok a /\
    r_push_back s' r a = UB.
Proof. do 5 eexists. repeat split. Qed.
Print Assumptions C16_insert_then_push_back_refuted.
(** inserting before end(), then update_end and push_back of the new node, does
    it: update_end keeps the block and moves the end to the new node. *)
Theorem C16_update_end : forall (T : Type) (s : @SL T) r blk v s' n,
  NoDup (map fst (nodes s)) -> ~ In (fresh s) (map fst (nodes s)) -> good s r blk -> blk <> [] ->
  insert_before s (r_end r) v = Ok (s', n) ->
  exists r', r_update_end s' r n = Ok r' /\ good s' r' blk /\ r_begin r' = r_begin r /\ r_end r' = n /\
    NoDup (map fst (nodes s')).
Proof. intros T. exact update_end_spec. Qed.
Print Assumptions C16_update_end.
(** On a range without elements (a default one, or one after clear()) update_end
    gives the empty range at that position. *)
Theorem C16_update_end_empty : forall (T : Type) (s : @SL T) r it, r_size r = 0 -> In it (map fst (nodes s)) ->
  exists r', r_update_end s r it = Ok r' /\ good s r' [] /\ r_begin r' = it /\ r_end r' = it.
Proof.
  intros T s r it Z I. unfold r_update_end, r_empty_. rewrite Z, Nat.eqb_refl, orb_true_r. eexists. split; [reflexivity|]. split; [|split; reflexivity].
  apply in_map_iff in I as ([i v] & E & I). cbn [fst] in E. subst i. apply in_split in I as (pre & post & N).
  unfold good. cbn [r_bad r_size r_begin r_end length]. split; [reflexivity|]. split; [reflexivity|]. exists pre, post, it, v. split; [exact N|]. split; reflexivity.
Qed.
Print Assumptions C16_update_end_empty.
Example C16_update_end_empty_case : r_size (mkRange 0 0 0 true) = 0 /\ exists s, sl_run 0 (sl_new 0 0) [OpPushBack 7] = Ok s /\ In 1 (map fst (nodes s)).
Proof. split; [reflexivity|]. eexists. split; [reflexivity|]. left. reflexivity. Qed.
Example C16_update_end_case :
  exists s r s' n a r1 r2,
    sl_run 0 (sl_new 0 0) [OpPushBack 7; OpPushBack 8] = Ok s /\ range_of_list s = Ok r /\
    insert_before s (r_end r) 9 = Ok (s', n) /\ range_only s' n = Ok a /\
    r_update_end s' r n = Ok r1 /\ r_push_back s' r1 a = Ok r2 /\ r_size r2 = 3 /\ r_last s' r2 = Ok n.
Proof. do 7 eexists. repeat split. Qed.
(** equal(): two ranges with elements are equal exactly when they are the same
    nodes; empty ranges also need the same position; a default-constructed or
    cleared range equals only another such range. *)
Theorem C16_equal : forall (T : Type) (s : @SL T) a b, NoDup (map fst (nodes s)) ->
  (forall x y, good s a x -> good s b y ->
     (r_equal a b = true <-> x = y /\ r_begin a = r_begin b) /\ (x <> [] -> (r_equal a b = true <-> x = y))) /\
  (r_bad a = true -> r_equal a b = r_bad b) /\ (r_bad b = true -> r_equal a b = r_bad a).
Proof.
  intros T s a b W. split; [|unfold r_equal; split; intros ->; destruct (r_bad a), (r_bad b); reflexivity].
  intros x y (BA & SA & pre & post & e & v & NA & EA & HA) (BB & SB & pre' & post' & e' & v' & NB & EB & HB).
  assert (X : r_equal a b = true <-> x = y /\ r_begin a = r_begin b).
  { unfold r_equal. rewrite BA, BB. cbn [Bool.eqb orb andb]. rewrite andb_true_iff, !Nat.eqb_eq, SA, SB. split; [|intros (-> & ?); auto]. intros (H & LEN). split; [|exact H].
    rewrite H in HA. destruct (x ++ [(e, v)]) as [|(i, w) t] eqn:EX; [discriminate|]. destruct (y ++ [(e', v')]) as [|(i', w') t'] eqn:EY; [discriminate|].
    cbn in HA, HB. assert (i' = i) by congruence. subst i'.
    assert (N1 : nodes s = pre ++ (i, w) :: t ++ post) by (rewrite NA; change ((i, w) :: t ++ post) with (((i, w) :: t) ++ post); rewrite <- EX, <- app_assoc; reflexivity).
    assert (N2 : nodes s = pre' ++ (i, w') :: t' ++ post') by (rewrite NB; change ((i, w') :: t' ++ post') with (((i, w') :: t') ++ post'); rewrite <- EY, <- app_assoc; reflexivity).
    rewrite N1 in N2, W. destruct (split_unique _ _ _ _ _ _ _ W N2) as (<- & _).
    rewrite NA in NB. apply app_inv_head in NB. apply (f_equal (firstn (length x))) in NB. rewrite firstn_app_len, LEN, firstn_app_len in NB. exact NB. }
  split; [exact X|]. intros NE. rewrite X. split; [tauto|]. intros <-. split; [reflexivity|]. destruct x as [|k x]; [congruence|]. cbn in HA, HB. congruence.
Qed.
Print Assumptions C16_equal.
Example C16_equal_case :
  exists s r a b, sl_run 0 (sl_new 0 0) [OpPushBack 7; OpPushBack 7] = Ok s /\ range_of_list s = Ok r /\ range_only s 1 = Ok a /\ range_only s 2 = Ok b /\
    r_equal a b = false /\ r_equal a r = false /\ r_equal a a = true.
Proof. do 4 eexists. repeat split. Qed.
