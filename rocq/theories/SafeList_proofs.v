From Verif Require Import Base Base_lemmas SafeList SafeList_spec.
Local Open Scope nat_scope.

Lemma NoDup_app_l {A} (a b : list A) : NoDup (a ++ b) -> NoDup a.
Proof. induction a as [|x a IH]; cbn; [constructor|]. inversion 1; subst. constructor; auto. intros I. apply H2. apply in_or_app. auto. Qed.

Section Proofs.
Context {T : Type}.
Variable d : T.
Notation nd := (nat * T)%type.

Lemma before_from id (l : list nd) : before id l ++ from id l = l.
Proof. induction l as [|[i v] r IH]; cbn; auto. destruct (i =? id); cbn; congruence. Qed.

Lemma elem_from id (l : list nd) : existsb (fun n => fst n =? id) l = true ->
  exists v r, from id l = (id, v) :: r.
Proof.
  induction l as [|[i v] r IH]; cbn; [discriminate|]. destruct (Nat.eqb_spec i id) as [->|]; cbn; eauto.
Qed.
Lemma not_elem id (l : list nd) : existsb (fun n => fst n =? id) l = false ->
  before id l = l /\ from id l = [].
Proof.
  induction l as [|[i v] r IH]; cbn; auto. destruct (i =? id); cbn; [discriminate|].
  intros H. destruct (IH H) as [-> ->]. auto.
Qed.

Lemma pos_of_app id (l r : list nd) :
  pos_of (l ++ r) id =
  if existsb (fun n => fst n =? id) l then Some (length (before id l))
  else match pos_of r id with Some p => Some (length l + p) | None => None end.
Proof.
  induction l as [|[i v] l IH]; cbn [app pos_of existsb before fst].
  - destruct (pos_of r id); reflexivity.
  - destruct (i =? id); cbn [orb length]; auto. rewrite IH.
    destruct (existsb _ l); auto. destruct (pos_of r id); reflexivity.
Qed.
Lemma pos_of_elems id (l : list nd) : pos_of l id =
  if existsb (fun n => fst n =? id) l then Some (length (before id l)) else None.
Proof. rewrite <- (app_nil_r l) at 1. rewrite pos_of_app. cbn. reflexivity. Qed.

(** abstraction *)
Record R (s : SL) (p : Plain) : Prop := {
  R_nodes : nodes s = elems p ++ [(p_end p, d)];
  R_end : my_end s = p_end p;
  R_fresh : fresh s = p_next p;
  R_ids : NoDup (map fst (nodes s));
  R_lt : Forall (fun n => fst n < fresh s) (nodes s) }.

Lemma end_not_elem s p : R s p -> is_elem p (p_end p) = false.
Proof.
  intros H. destruct (is_elem p (p_end p)) eqn:E; auto. exfalso.
  pose proof (R_ids _ _ H) as N. rewrite (R_nodes _ _ H), map_app in N. cbn in N.
  apply NoDup_remove_2 in N. apply N. rewrite app_nil_r. unfold is_elem in E.
  apply existsb_exists in E as ([i v] & I & E). apply Nat.eqb_eq in E. cbn in E. subst.
  apply (in_map fst) in I. exact I.
Qed.

(** positions *)
Lemma pos_spec s p id : R s p ->
  pos_of (nodes s) id =
    if is_elem p id then Some (length (before id (elems p)))
    else if id =? p_end p then Some (length (elems p)) else None.
Proof.
  intros H. rewrite (R_nodes _ _ H), pos_of_app. unfold is_elem.
  destruct (existsb _ (elems p)); auto. cbn. rewrite (Nat.eqb_sym id).
  destruct (p_end p =? id); rewrite ?Nat.add_0_r; auto.
Qed.
(** cutting at a position *)
Lemma cut_spec s p id : R s p -> is_pos p id = true ->
  exists q, pos_of (nodes s) id = Some q /\ q = length (before id (elems p)) /\
    firstn q (nodes s) = before id (elems p) /\
    skipn q (nodes s) = from id (elems p) ++ [(p_end p, d)].
Proof.
  intros H P. rewrite (pos_spec _ _ _ H). unfold is_pos in P.
  assert (N : nodes s = before id (elems p) ++ (from id (elems p) ++ [(p_end p, d)])).
  { rewrite app_assoc, before_from. apply (R_nodes _ _ H). }
  destruct (is_elem p id) eqn:E.
  - eexists. split; [reflexivity|]. rewrite N. rewrite firstn_app_len, skipn_app_len. auto.
  - cbn in P. rewrite P. eexists. split; [reflexivity|].
    destruct (not_elem id (elems p) E) as [E1 E2]. rewrite E1, E2 in *. split; auto.
    rewrite N, firstn_app_len, skipn_app_len. auto.
Qed.

Lemma lt_insert (a b : list nd) n v : Forall (fun x => fst x < n) (a ++ b) ->
  Forall (fun x => fst x < S n) (a ++ (n, v) :: b).
Proof.
  rewrite !Forall_app, Forall_cons_iff. intros [A B]. conjs.
  - eapply Forall_impl; [|exact A]. cbn. lia.
  - cbn. lia.
  - eapply Forall_impl; [|exact B]. cbn. lia.
Qed.
Lemma nodup_insert (a b : list nd) n v : Forall (fun x => fst x < n) (a ++ b) ->
  NoDup (map fst (a ++ b)) -> NoDup (map fst (a ++ (n, v) :: b)).
Proof.
  intros F N. rewrite map_app in *. cbn [map fst]. apply NoDup_Add with (a := n) (l := map fst a ++ map fst b).
  - apply Add_app.
  - split; auto. intros I. rewrite <- map_app in I. apply in_map_iff in I as (x & E & I).
    rewrite Forall_forall in F. apply F in I. lia.
Qed.

Lemma sub_nodup (a b c : list nd) : NoDup (map fst (a ++ b ++ c)) -> NoDup (map fst (a ++ c)).
Proof.
  rewrite !map_app. intros N. induction b as [|x b IH]; auto. apply IH.
  cbn in N. now apply NoDup_remove_1 in N.
Qed.

Lemma insert_R s p pos v : R s p -> is_pos p pos = true ->
  exists s', insert_before s pos v = Ok (s', fresh s) /\
    R s' (mkPlain (before pos (elems p) ++ (p_next p, v) :: from pos (elems p)) (p_end p) (S (p_next p))).
Proof.
  intros H P. destruct (cut_spec _ _ _ H P) as (q & E & _ & F & K).
  unfold insert_before. rewrite E, F, K. eexists. split; [reflexivity|].
  pose proof (R_ids _ _ H) as N. pose proof (R_lt _ _ H) as LT.
  rewrite <- (firstn_skipn q (nodes s)), F, K in N, LT.
  constructor; cbn [nodes my_end fresh elems p_end p_next].
  - rewrite <- (R_fresh _ _ H). now rewrite <- app_assoc.
  - apply (R_end _ _ H).
  - now rewrite (R_fresh _ _ H).
  - now apply nodup_insert.
  - now apply lt_insert.
Qed.

Lemma removal_R s p (a b c : list nd) : R s p -> elems p = a ++ b ++ c ->
  R (mkSL (a ++ c ++ [(p_end p, d)]) (my_end s) (fresh s)) (mkPlain (a ++ c) (p_end p) (p_next p)).
Proof.
  intros H E. pose proof (R_nodes _ _ H) as NN. rewrite E in NN.
  constructor; cbn [nodes my_end fresh elems p_end p_next]; try apply H.
  - now rewrite app_assoc.
  - pose proof (R_ids _ _ H) as N. rewrite NN, <- !app_assoc in N. now apply sub_nodup in N.
  - pose proof (R_lt _ _ H) as L. rewrite NN, !Forall_app in L. rewrite !Forall_app. tauto.
Qed.

Lemma removelast_before (l : list nd) x : removelast (l ++ [x]) = l.
Proof. rewrite removelast_app by discriminate. cbn. apply app_nil_r. Qed.

Lemma step_R s p o p' : R s p -> plain_step d p o = Some p' ->
  exists s', sl_step d s o = Ok s' /\ R s' p'.
Proof.
  intros H. destruct o as [v|v|pos v|pos|a b| | |q]; cbn [plain_step sl_step].
  - intros [= <-]. unfold sl_push_back. rewrite (R_end _ _ H).
    pose proof (end_not_elem _ _ H) as NE.
    destruct (insert_R s p (p_end p) v H) as (s' & E & R').
    { unfold is_pos. now rewrite Nat.eqb_refl, orb_true_r. }
    rewrite E. cbn [bind]. exists s'. split; auto.
    destruct (not_elem _ _ NE) as [E1 E2]. rewrite E1, E2 in R'. exact R'.
  - intros [= <-]. eexists. split; [reflexivity|]. unfold sl_emplace_front.
    constructor; cbn [nodes my_end fresh elems p_end p_next].
    + rewrite (R_nodes _ _ H), (R_fresh _ _ H). reflexivity.
    + apply H.
    + now rewrite (R_fresh _ _ H).
    + apply (nodup_insert [] (nodes s)); apply H.
    + apply (lt_insert [] (nodes s)). apply H.
  - destruct (is_pos p pos) eqn:P; [|discriminate]. intros [= <-].
    destruct (insert_R s p pos v H P) as (s' & E & R'). rewrite E. cbn [bind]. eauto.
  - destruct (is_elem p pos) eqn:P; [|discriminate]. intros [= <-].
    assert (PP : is_pos p pos = true) by (unfold is_pos; now rewrite P).
    destruct (cut_spec _ _ _ H PP) as (q & E & _ & F & K).
    unfold erase_node. rewrite E. eexists. split; [reflexivity|].
    destruct (elem_from _ _ P) as (v & r & FR).
    assert (skipn (S q) (nodes s) = r ++ [(p_end p, d)]) as ->.
    { change (S q) with (1 + q). rewrite Nat.add_comm, <- skipn_add, K, FR. reflexivity. }
    rewrite F, FR. cbn [tl]. apply removal_R with (b := [(pos, v)]); auto.
    rewrite <- (before_from pos (elems p)) at 1. now rewrite FR.
  - destruct (is_pos p a) eqn:PA; [|discriminate]. cbn [andb].
    destruct ((b =? p_end p) || existsb (fun x => fst x =? b) (from a (elems p))) eqn:PB; [|discriminate].
    intros [= <-].
    destruct (cut_spec _ _ _ H PA) as (q & E & LQ & F & K).
    assert (B2 : is_pos p b = true /\ exists mid, from a (elems p) = mid ++ from b (elems p)).
    { apply orb_prop in PB as [PB|PB].
      - apply Nat.eqb_eq in PB. subst b. split; [unfold is_pos; now rewrite Nat.eqb_refl, orb_true_r|].
        exists (from a (elems p)). destruct (not_elem _ _ (end_not_elem _ _ H)) as [_ ->]. now rewrite app_nil_r.
      - (* b in from a *)
        assert (G : forall l, NoDup (map fst l) -> existsb (fun x => fst x =? b) (from a l) = true ->
                   existsb (fun n : nd => fst n =? b) l = true /\ exists mid, from a l = mid ++ from b l).
        { clear. induction l as [|[i v] l IH]; cbn [from existsb fst map]; [discriminate|]. intros N X.
          inversion N; subst. destruct (Nat.eqb_spec i a) as [->|].
          - split; [exact X|]. destruct (Nat.eqb_spec a b) as [->|NE].
            + exists []. cbn [from]. rewrite ?Nat.eqb_refl. reflexivity.
            + exists ((a, v) :: before b l). cbn. now rewrite before_from.
          - destruct (IH H2 X) as [I1 (mid & I2)]. rewrite I1, orb_true_r. split; auto.
            destruct (Nat.eqb_spec i b) as [->|]; [|eauto].
            exfalso. apply H1. apply existsb_exists in I1 as ([j w] & J & EJ). apply Nat.eqb_eq in EJ. cbn in EJ. subst.
            apply (in_map fst) in J. exact J. }
        assert (NoDup (map fst (elems p))) as ND.
        { pose proof (R_ids _ _ H) as N. rewrite (R_nodes _ _ H), map_app in N. now apply NoDup_app_l in N. }
        destruct (G _ ND PB) as [G1 G2]. split; auto. unfold is_pos, is_elem. now rewrite G1. }
    destruct B2 as [PB' (mid & MID)].
    destruct (cut_spec _ _ _ H PB') as (q2 & E2 & LQ2 & F2 & K2).
    unfold erase_range. rewrite E, E2.
    assert (LE : q <= q2).
    { pose proof (f_equal (@length _) (before_from a (elems p))) as L1.
      pose proof (f_equal (@length _) (before_from b (elems p))) as L2.
      rewrite app_length in L1, L2. rewrite MID, app_length in L1. lia. }
    rewrite (proj2 (Nat.leb_le _ _) LE). eexists. split; [reflexivity|]. rewrite F, K2.
    apply removal_R with (b := mid); auto. rewrite <- MID. symmetry. apply before_from.
  - destruct (elems p) as [|x l] eqn:EL using rev_ind; [discriminate|]. clear IHl.
    intros X. assert (p' = mkPlain l (p_end p) (p_next p)) as ->.
    { destruct (l ++ [x]) as [|y l'] eqn:EY; [destruct l; discriminate|]. rewrite <- EY in X.
      rewrite removelast_before in X. congruence. }
    unfold sl_pop_back, prev_node. rewrite (R_end _ _ H), (pos_spec _ _ _ H), (end_not_elem _ _ H), Nat.eqb_refl, EL.
    rewrite app_length. cbn [length]. rewrite Nat.add_1_r.
    rewrite (R_nodes _ _ H), EL, <- app_assoc. cbn [app]. rewrite nth_error_app_mid. destruct x as [i v]. cbn [bind].
    unfold erase_node. rewrite (pos_spec _ _ i H).
    assert (IE : is_elem p i = true).
    { unfold is_elem. rewrite EL, existsb_app. cbn. now rewrite Nat.eqb_refl, orb_true_r. }
    rewrite IE.
    assert (PP : is_pos p i = true) by (unfold is_pos; now rewrite IE).
    destruct (cut_spec _ _ _ H PP) as (q & E & LQ & F & K).
    rewrite <- LQ. eexists. split; [reflexivity|].
    assert (NI : existsb (fun n => fst n =? i) l = false).
    { destruct (existsb _ l) eqn:X2; auto. exfalso. apply existsb_exists in X2 as ([j w] & J & EJ).
      apply Nat.eqb_eq in EJ. cbn in EJ. subst j.
      pose proof (R_ids _ _ H) as N. rewrite (R_nodes _ _ H), EL, !map_app in N. apply NoDup_app_l in N. cbn in N.
      apply NoDup_remove_2 in N. apply N. rewrite app_nil_r. apply (in_map fst) in J. exact J. }
    assert (BF : before i (elems p) = l /\ from i (elems p) = [(i, v)]).
    { rewrite EL. clear - NI. induction l as [|[j w] l IH]; cbn.
      - now rewrite Nat.eqb_refl.
      - cbn in NI. destruct (j =? i); [discriminate|]. destruct (IH NI) as [-> ->]. auto. }
    destruct BF as [B1 B2]. rewrite F, B1.
    assert (skipn (S q) (nodes s) = [(p_end p, d)]) as ->.
    { change (S q) with (1 + q). rewrite Nat.add_comm, <- skipn_add, K, B2. reflexivity. }
    pose proof (removal_R s p l [(i, v)] [] H) as RR. cbn [app] in RR. rewrite app_nil_r in RR. apply RR. exact EL.
  - intros [= <-]. eexists. split; [reflexivity|]. unfold sl_clear, append_sentry.
    constructor; cbn; auto.
    + now rewrite (R_fresh _ _ H).
    + apply (R_fresh _ _ H).
    + now rewrite (R_fresh _ _ H).
    + constructor; auto. constructor.
  - destruct (q d) eqn:QD; [discriminate|]. intros [= <-]. unfold sl_remove_if.
    set (ns := filter (fun n : nd => negb (q (snd n))) (nodes s)).
    assert (NS : ns = filter (fun n : nd => negb (q (snd n))) (elems p) ++ [(p_end p, d)]).
    { unfold ns. rewrite (R_nodes _ _ H), filter_app. cbn. now rewrite QD. }
    destruct (is_empty ns) eqn:EM.
    { apply is_empty_true in EM. rewrite EM in NS. destruct (filter _ (elems p)); discriminate. }
    eexists. split; [reflexivity|]. constructor; cbn [nodes my_end fresh elems p_end p_next]; auto; try apply H.
    + pose proof (R_ids _ _ H) as N. unfold ns. clear - N. induction (nodes s) as [|x l IH]; cbn; [constructor|].
      inversion N; subst. destruct (negb (q (snd x))); cbn; auto. constructor; auto.
      intros I. apply H1. apply in_map_iff in I as (y & E & I). apply filter_In in I as [I _]. rewrite <- E. now apply in_map.
    + pose proof (R_lt _ _ H) as L. unfold ns. rewrite Forall_forall in *. intros x I. apply filter_In in I as [I _]. auto.
Qed.

Lemma run_R h : forall s p p', R s p -> plain_run d p h = Some p' ->
  exists s', sl_run d s h = Ok s' /\ R s' p'.
Proof.
  induction h as [|o h IH]; intros s p p' H; cbn.
  - intros [= <-]. eauto.
  - destruct (plain_step d p o) as [p1|] eqn:E; [|discriminate]. intros E2.
    destruct (step_R _ _ _ _ H E) as (s1 & -> & H1). cbn [bind]. eapply IH; eauto.
Qed.

Lemma new_R fr : R (sl_new d fr) (mkPlain [] fr (S fr)).
Proof.
  constructor; cbn; auto.
  - constructor; auto. constructor.
Qed.

Lemma safe_list_main h p : plain_run d (mkPlain [] 0 1) h = Some p ->
  exists s, sl_run d (sl_new d 0) h = Ok s /\
    my_end s = p_end p /\
    (Z.of_nat (length (elems p)) < 2 ^ 64 -> sl_size s = Z.of_nat (length (elems p)))%Z /\
    (sl_empty s = true <-> elems p = []) /\
    sl_begin s = Ok (match elems p with (i, _) :: _ => i | [] => p_end p end) /\
    (forall x, hd_error (elems p) = Some x -> sl_front s = Ok (snd x)) /\
    (forall x, hd_error (rev (elems p)) = Some x -> sl_back s = Ok (snd x)) /\
    nodes s = elems p ++ [(my_end s, d)] /\ NoDup (map fst (nodes s)).
Proof.
  intros E. destruct (run_R h (sl_new d 0) (mkPlain [] 0 1) p (new_R 0) E) as (s & ES & H).
  exists s. split; auto. pose proof (R_nodes _ _ H) as N. conjs.
  - apply (R_end _ _ H).
  - intros B. unfold sl_size. rewrite N, app_length. cbn [length].
    replace (Z.of_nat (length (elems p) + 1) - 1)%Z with (Z.of_nat (length (elems p))) by lia.
    apply Z.mod_small. lia.
  - unfold sl_empty. rewrite N, app_length. cbn [length]. rewrite Nat.ltb_lt.
    destruct (elems p); cbn; split; intros; auto; try discriminate; lia.
  - unfold sl_begin. rewrite N. destruct (elems p) as [|[i v] l]; reflexivity.
  - intros x X. unfold sl_front. rewrite N. destruct (elems p) as [|[i v] l]; [discriminate|].
    injection X as <-. reflexivity.
  - intros x X. unfold sl_back. rewrite (R_end _ _ H), (pos_spec _ _ _ H), (end_not_elem _ _ H), Nat.eqb_refl, N.
    destruct (elems p) as [|y l] using rev_ind; [discriminate|]. rewrite rev_app_distr in X. cbn in X.
    injection X as <-. rewrite app_length. cbn [length]. rewrite Nat.add_1_r, <- app_assoc. cbn [app].
    rewrite nth_error_app_mid. now destruct y.
  - now rewrite (R_end _ _ H).
  - apply (R_ids _ _ H).
Qed.

(** The values of a copy. *)
Lemma renumber_vals (ns : list nd) : forall fr, map snd (renumber ns fr) = map snd ns /\
  map fst (renumber ns fr) = seq fr (length ns).
Proof.
  induction ns as [|[i v] ns IH]; intros fr; cbn; auto. destruct (IH (S fr)) as [-> ->]. auto.
Qed.
Lemma renumber_app (a b : list nd) : forall fr,
  renumber (a ++ b) fr = renumber a fr ++ renumber b (fr + length a).
Proof.
  induction a as [|[i v] a IH]; intros fr; cbn.
  - now rewrite Nat.add_0_r.
  - rewrite IH. do 2 f_equal. f_equal. lia.
Qed.

Lemma copy_R s p fr : R s p ->
  R (sl_copy s fr) (mkPlain (renumber (elems p) fr) (fr + length (elems p)) (fr + S (length (elems p)))).
Proof.
  intros H. unfold sl_copy. rewrite (R_nodes _ _ H), renumber_app.
  destruct (renumber_vals (elems p) fr) as [V I].
  assert (length (renumber (elems p) fr) = length (elems p)) as L.
  { apply (f_equal (@length _)) in I. now rewrite map_length, seq_length in I. }
  cbn [renumber]. rewrite app_length, L. cbn [length].
  constructor; cbn [nodes my_end fresh elems p_end p_next]; auto; try lia.
  - rewrite map_app, I. change (NoDup (seq fr (length (elems p)) ++ seq (fr + length (elems p)) 1)). rewrite <- seq_app. apply seq_NoDup.
  - apply Forall_app. split.
    + apply Forall_forall. intros x X. apply (in_map fst) in X. rewrite I in X. apply in_seq in X. lia.
    + constructor; auto. cbn. lia.
Qed.

(** ** Ranges *)
Definition wf (s : @SL T) : Prop := NoDup (map fst (nodes s)).

Lemma pos_of_nodup (a b : list nd) i v : NoDup (map fst (a ++ (i, v) :: b)) ->
  pos_of (a ++ (i, v) :: b) i = Some (length a).
Proof.
  intros N. rewrite pos_of_app. assert (existsb (fun n : nd => fst n =? i) a = false) as ->.
  { destruct (existsb _ a) eqn:E; auto. exfalso. apply existsb_exists in E as ([j w] & J & EJ).
    apply Nat.eqb_eq in EJ. cbn in EJ. subst. rewrite map_app in N. cbn in N. apply NoDup_remove_2 in N.
    apply N. apply in_or_app. left. apply (in_map fst) in J. exact J. }
  cbn. rewrite Nat.eqb_refl. now rewrite Nat.add_0_r.
Qed.

Lemma pos_of_Some ns id p : pos_of ns id = Some p -> exists a (v : T) b, ns = a ++ (id, v) :: b /\ length a = p.
Proof.
  revert p; induction ns as [|[i v] ns IH]; intros p; cbn; [discriminate|].
  destruct (Nat.eqb_spec i id) as [->|].
  - intros [= <-]. exists [], v, ns. auto.
  - destruct (pos_of ns id) as [q|]; [|discriminate]. intros [= <-].
    destruct (IH q eq_refl) as (a & w & b & -> & <-). exists ((i, v) :: a), w, b. auto.
Qed.

Lemma good_next (s : @SL T) r blk : wf s -> good s r blk -> next_n s (r_begin r) (r_size r) = Ok (r_end r).
Proof.
  intros W (B & S & pre & post & e & v & N & E & H). unfold next_n. unfold wf in W. rewrite N in *.
  destruct blk as [|[i w] blk]; cbn in H; injection H as <-.
  - cbn [app] in *. rewrite (pos_of_nodup _ _ _ _ W), S. cbn [length]. rewrite Nat.add_0_r, nth_error_app_mid. now rewrite E.
  - cbn [app] in *. rewrite (pos_of_nodup _ _ _ _ W), S.
    replace (pre ++ (i, w) :: blk ++ (e, v) :: post) with ((pre ++ (i, w) :: blk) ++ (e, v) :: post) by now rewrite <- app_assoc.
    replace (length pre + length ((i, w) :: blk)) with (length (pre ++ (i, w) :: blk)) by now rewrite app_length.
    rewrite nth_error_app_mid. now rewrite E.
Qed.

Lemma good_empty (s : @SL T) r blk : wf s -> good s r blk -> r_empty s r = Ok (is_empty blk).
Proof.
  intros W G. unfold r_empty. pose proof (good_next _ _ _ W G) as X. destruct G as (B & S & _).
  rewrite B, X. cbn [bind]. rewrite Nat.eqb_refl. cbn [assert_ bind]. unfold r_empty_. rewrite B, S. cbn.
  now destruct blk.
Qed.

Lemma range_make_spec (s : @SL T) a b r : wf s -> range_make s a b = Ok r ->
  exists blk, good s r blk /\ r_begin r = a /\ r_end r = b.
Proof.
  unfold range_make, distance, wf. intros W. destruct (pos_of (nodes s) a) as [p|] eqn:PA; [|discriminate].
  destruct (pos_of (nodes s) b) as [q|] eqn:PB; [|discriminate].
  destruct (Nat.leb_spec p q) as [LE|]; [|discriminate]. cbn [bind]. intros [= <-].
  destruct (pos_of_Some _ _ _ PA) as (x & v & y & N1 & L1).
  destruct (pos_of_Some _ _ _ PB) as (x' & v' & y' & N2 & L2).
  assert (FX : firstn p x' = x).
  { transitivity (firstn p (nodes s)).
    - rewrite N2, firstn_app. replace (p - length x') with 0 by lia. cbn. now rewrite app_nil_r.
    - rewrite N1, <- L1. apply firstn_app_len. }
  exists (skipn p x'). unfold good. cbn [r_bad r_size r_begin r_end]. conjs; auto.
  - rewrite skipn_length. lia.
  - exists x, y', b, v'. conjs; auto.
    + rewrite N2, app_assoc. f_equal. rewrite <- FX. symmetry. apply firstn_skipn.
    + rewrite N2, <- (firstn_skipn p x'), FX, <- app_assoc in N1. apply app_inv_head in N1.
      destruct (skipn p x') as [|n l]; cbn in N1 |- *; injection N1 as ?; subst; reflexivity.
Qed.

Lemma range_only_spec (s : @SL T) it r : wf s -> range_only s it = Ok r ->
  exists v, good s r [(it, v)].
Proof.
  unfold range_only, next_n, wf. intros W. destruct (pos_of (nodes s) it) as [p|] eqn:PA; [|discriminate].
  destruct (pos_of_Some _ _ _ PA) as (x & v & y & N1 & L1).
  destruct (nth_error (nodes s) (p + 1)) as [[e w]|] eqn:NE; [|discriminate]. cbn [bind]. intros [= <-].
  exists v. unfold good. cbn. conjs; auto.
  rewrite N1, nth_error_app2 in NE by lia. replace (p + 1 - length x) with 1 in NE by lia. cbn in NE.
  destruct y as [|z y]; [discriminate|]. injection NE as ->. exists x, y, e, w. auto.
Qed.

Lemma range_of_list_spec (s : @SL T) p r : R s p -> range_of_list s = Ok r -> good s r (elems p).
Proof.
  intros H. unfold range_of_list, sl_begin. rewrite (R_nodes _ _ H).
  destruct (elems p ++ [(p_end p, d)]) as [|[i v] l] eqn:E; [destruct (elems p); discriminate|].
  cbn [bind]. intros [= <-]. unfold good. cbn [r_bad r_size r_begin r_end].
  conjs; auto.
  - apply (f_equal (@length _)) in E. rewrite app_length in E. cbn in E. lia.
  - exists [], [], (p_end p), d. conjs; auto. 
    + rewrite (R_nodes _ _ H). reflexivity.
    + apply (R_end _ _ H).
    + rewrite E. reflexivity.
Qed.

(** two blocks with the same begin / end *)
Lemma good_in (s : @SL T) r blk : good s r blk -> exists v, In (r_end r, v) (nodes s).
Proof.
  intros (_ & _ & pre & post & e & v & N & E & _). exists v. rewrite N, E. apply in_or_app. right.
  apply in_or_app. right. now left.
Qed.

Lemma split_unique (a b a' b' : list nd) i v v' : NoDup (map fst (a ++ (i, v) :: b)) ->
  a ++ (i, v) :: b = a' ++ (i, v') :: b' -> a = a' /\ v = v' /\ b = b'.
Proof.
  intros N E. pose proof (pos_of_nodup _ _ _ _ N) as P1. rewrite E in N, P1.
  rewrite (pos_of_nodup _ _ _ _ N) in P1. injection P1 as L.
  assert (a = a') as ->.
  { rewrite <- (firstn_app_len a ((i, v) :: b)), E, <- L. apply firstn_app_len. }
  apply app_inv_head in E. injection E as -> ->. auto.
Qed.

Lemma push_back_spec (s : @SL T) r a x y : wf s -> good s r x -> good s a y ->
  (x = [] -> y = [] -> r_push_back s r a = Ok r) /\
  (y <> [] -> x = [] -> r_push_back s r a = Ok a) /\
  (x <> [] -> y = [] -> r_push_back s r a = Ok r) /\
  (x <> [] -> y <> [] -> r_end r = r_begin a ->
     exists r', r_push_back s r a = Ok r' /\ good s r' (x ++ y) /\ r_begin r' = r_begin r /\ r_end r' = r_end a) /\
  (x <> [] -> y <> [] -> r_end r = r_end a -> r_push_back s r a = Ok r) /\
  (x <> [] -> y <> [] -> r_end r <> r_begin a -> r_end r <> r_end a -> r_push_back s r a = UB).
Proof.
  intros W GX GY. pose proof (good_empty _ _ _ W GX) as EX. pose proof (good_empty _ _ _ W GY) as EY.
  unfold r_push_back. rewrite EY, EX. cbn [bind]. conjs.
  - intros -> ->. reflexivity.
  - intros Y ->. destruct y; [congruence|]. reflexivity.
  - intros X ->. reflexivity.
  - intros X Y E. destruct y as [|[i w] y]; [congruence|]. destruct x as [|x0 x]; [congruence|]. cbn [is_empty].
    assert (NE : r_end a =? r_end r = false).
    { apply Nat.eqb_neq. intros EE. destruct GY as (_ & _ & pre & post & e & v & N & E2 & H).
      cbn in H. injection H as H. unfold wf in W. rewrite N in W.
      assert (i = e) by congruence. subst i.
      cbn [app] in W. rewrite map_app in W. cbn in W. apply NoDup_remove_2 in W. apply W.
      apply in_or_app. right. rewrite map_app. apply in_or_app. right. cbn. left. congruence. }
    rewrite NE. cbn [negb]. rewrite E, Nat.eqb_refl. cbn [assert_ bind].
    eexists. split; [reflexivity|]. cbn [r_begin r_end]. conjs; auto.
    unfold good. cbn [r_bad r_size r_begin r_end].
    destruct GX as (BX & SX & pre & post & e & v & N & E1 & H1).
    destruct GY as (BY & SY & pre' & post' & e' & v' & N' & E2 & H2).
    unfold r_get_size. rewrite BY. conjs; auto.
    + rewrite SX, SY, app_length. reflexivity.
    + cbn in H2. injection H2 as H2. 
      assert (U : pre ++ (x0 :: x) = pre' /\ v = w /\ post = y ++ (e', v') :: post').
      { apply (split_unique (pre ++ x0 :: x) post pre' (y ++ (e', v') :: post') e v w).
        - rewrite <- app_assoc. cbn [app]. unfold wf in W. rewrite N in W. exact W.
        - rewrite <- app_assoc. cbn [app]. cbn [app] in N. rewrite <- N, N'. cbn [app]. rewrite H2, <- E, E1. reflexivity. }
      destruct U as (U1 & U2 & U3).
      exists pre, post', e', v'. conjs; auto.
      rewrite N', <- U1, <- !app_assoc. reflexivity.
  - intros X Y E. destruct y; [congruence|]. destruct x; [congruence|]. cbn [is_empty]. rewrite E, Nat.eqb_refl. reflexivity.
  - intros X Y E1 E2. destruct y; [congruence|]. destruct x; [congruence|]. cbn [is_empty].
    rewrite (proj2 (Nat.eqb_neq _ _) (not_eq_sym E2)). cbn [negb]. rewrite (proj2 (Nat.eqb_neq _ _) E1). reflexivity.
Qed.

Lemma push_front_spec (s : @SL T) r a x y : wf s -> good s r x -> good s a y -> x <> [] -> y <> [] ->
  r_begin r = r_end a ->
  exists r', r_push_front s r a = Ok r' /\ good s r' (y ++ x) /\ r_begin r' = r_begin a /\ r_end r' = r_end r.
Proof.
  intros W GX GY X Y E. pose proof (good_empty _ _ _ W GX) as EX. pose proof (good_empty _ _ _ W GY) as EY.
  unfold r_push_front. rewrite EY, EX. cbn [bind].
  destruct y as [|[i w] y]; [congruence|]. destruct x as [|[j u] x]; [congruence|]. cbn [is_empty].
  destruct GX as (BX & SX & pre & post & e & v & N & E1 & H1).
  destruct GY as (BY & SY & pre' & post' & e' & v' & N' & E2 & H2).
  cbn in H1, H2. injection H1 as H1. injection H2 as H2.
  assert (NE : r_begin a =? r_begin r = false).
  { apply Nat.eqb_neq. intros EE. unfold wf in W. rewrite N' in W. cbn [app] in W. rewrite map_app in W. cbn in W.
    apply NoDup_remove_2 in W. apply W. apply in_or_app. right. rewrite map_app. apply in_or_app. right. cbn. left. congruence. }
  rewrite NE. cbn [negb]. rewrite E, Nat.eqb_refl. cbn [assert_ bind].
  eexists. split; [reflexivity|]. cbn [r_begin r_end]. conjs; auto.
  unfold good. cbn [r_bad r_size r_begin r_end]. unfold r_get_size. rewrite BY. conjs; auto.
  - rewrite SX, SY, app_length. cbn. lia.
  - assert (U : pre' ++ ((i, w) :: y) = pre /\ v' = u /\ post' = x ++ (e, v) :: post).
    { apply (split_unique (pre' ++ (i, w) :: y) post' pre (x ++ (e, v) :: post) e' v' u).
      - rewrite <- app_assoc. unfold wf in W. rewrite N' in W. exact W.
      - rewrite <- app_assoc. cbn [app]. cbn [app] in N'. rewrite <- N', N. cbn [app]. rewrite H1, E, E2. reflexivity. }
    destruct U as (U1 & U2 & U3). exists pre', post, e, v. conjs; auto.
    + rewrite N, <- U1, <- !app_assoc. reflexivity.
    + cbn. now rewrite H2.
Qed.

Lemma last_spec (s : @SL T) r blk x : wf s -> good s r (blk ++ [x]) -> r_last s r = Ok (fst x).
Proof.
  intros W G. unfold r_last. rewrite (good_empty _ _ _ W G).
  assert (is_empty (blk ++ [x]) = false) as -> by (destruct blk; reflexivity). cbn [bind negb assert_].
  destruct G as (B & S & pre & post & e & v & N & E & H). unfold next_n. unfold wf in W. rewrite N in *.
  rewrite S, app_length. cbn [length]. replace (length blk + 1 - 1) with (length blk) by lia.
  destruct blk as [|[i w] blk]; cbn in H; injection H as H; rewrite <- H.
  - destruct x as [j u]. cbn [app fst] in *. rewrite (pos_of_nodup _ _ _ _ W). cbn [length]. now rewrite Nat.add_0_r, nth_error_app_mid.
  - cbn [app] in *. rewrite (pos_of_nodup _ _ _ _ W).
    replace (pre ++ (i, w) :: (blk ++ [x]) ++ (e, v) :: post) with ((pre ++ (i, w) :: blk) ++ x :: (e, v) :: post).
    2:{ rewrite <- !app_assoc. reflexivity. }
    replace (length pre + length ((i, w) :: blk)) with (length (pre ++ (i, w) :: blk)) by now rewrite app_length.
    rewrite nth_error_app_mid. now destruct x.
Qed.

(** inserting at the end of the range and update_end *)
Lemma update_end_spec (s : @SL T) r blk v s' n : wf s -> ~ In (fresh s) (map fst (nodes s)) -> good s r blk -> blk <> [] ->
  insert_before s (r_end r) v = Ok (s', n) ->
  exists r', r_update_end s' r n = Ok r' /\ good s' r' blk /\ r_begin r' = r_begin r /\ r_end r' = n /\ wf s'.
Proof.
  intros W FR (B & SZ & pre & post & e & w & N & E & H) NE I. unfold insert_before in I.
  destruct (pos_of (nodes s) (r_end r)) as [p|] eqn:P; [|discriminate]. injection I as <- <-.
  assert (NN : nodes s = (pre ++ blk) ++ (e, w) :: post) by (rewrite <- app_assoc; exact N).
  unfold wf in W. rewrite NN, E, pos_of_nodup in P by (rewrite <- NN; exact W). injection P as <-.
  set (s' := mkSL _ _ _).
  assert (N' : nodes s' = pre ++ blk ++ (fresh s, v) :: (e, w) :: post).
  { unfold s'. cbn [nodes]. rewrite NN, firstn_app_len, skipn_app_len. now rewrite <- app_assoc. }
  assert (W' : wf s').
  { unfold wf. rewrite N', app_assoc, map_app. cbn [map fst].
    apply NoDup_Add with (a := fresh s) (l := map fst (pre ++ blk) ++ map fst ((e, w) :: post)).
    - apply Add_app.
    - rewrite <- map_app, <- NN. split; auto. }
  assert (G : good s' (mkRange (r_begin r) (r_size r) (fresh s) false) blk).
  { unfold good. cbn. conjs; auto. exists pre, ((e, w) :: post), (fresh s), v. conjs; auto.
    destruct blk; [congruence|]. exact H. }
  pose proof (good_next _ _ _ W' G) as X. cbn in X.
  unfold r_update_end, r_empty_. rewrite B, SZ. destruct blk as [|b0 blk]; [congruence|]. cbn [length Nat.eqb orb].
  change (S (length blk)) with (length (b0 :: blk)). rewrite <- SZ, X. cbn [bind]. rewrite Nat.eqb_refl. cbn [assert_ bind].
  eexists. split; [reflexivity|]. cbn. conjs; auto.
Qed.

(** inserting a node anywhere but inside the range or at its end keeps it good *)
Lemma insert_keeps (s : @SL T) pos v s' n r blk : wf s -> good s r blk -> insert_before s pos v = Ok (s', n) ->
  ~ In pos (map fst (tl blk)) -> (blk <> [] -> pos <> r_end r) ->
  good s' r blk.
Proof.
  intros W G I NI NE. unfold insert_before in I. destruct (pos_of (nodes s) pos) as [p|] eqn:P; [|discriminate].
  injection I as <- <-. destruct (pos_of_Some _ _ _ P) as (x & u & y & N1 & L1).
  rewrite N1, <- L1, firstn_app_len, skipn_app_len.
  destruct G as (B & S & pre & post & e & w & N & E & H). unfold good. conjs; auto. cbn [nodes].
  unfold wf in W.
  (* pos is in pre ++ [head of block] or in post *)
  destruct (in_dec Nat.eq_dec pos (map fst pre)) as [IP|NP].
  - apply in_map_iff in IP as ([i v1] & EI & IP). cbn in EI. subst i. apply in_split in IP as (p1 & p2 & ->).
    assert (U : x = p1 /\ u = v1 /\ y = p2 ++ blk ++ (e, w) :: post).
    { apply (split_unique x y p1 (p2 ++ blk ++ (e, w) :: post) pos u v1).
      - now rewrite <- N1.
      - rewrite <- N1, N, <- app_assoc. reflexivity. }
    destruct U as (-> & -> & ->). exists (p1 ++ (fresh s, v) :: (pos, v1) :: p2), post, e, w.
    conjs; auto. rewrite <- app_assoc. reflexivity.
  - destruct (in_dec Nat.eq_dec pos (map fst post)) as [IP|NP2].
    + apply in_map_iff in IP as ([i v1] & EI & IP). cbn in EI. subst i. apply in_split in IP as (p1 & p2 & ->).
      assert (U : x = pre ++ blk ++ (e, w) :: p1 /\ u = v1 /\ y = p2).
      { apply (split_unique x y (pre ++ blk ++ (e, w) :: p1) p2 pos u v1).
        - now rewrite <- N1.
        - rewrite <- N1, N, <- !app_assoc. cbn. now rewrite <- ?app_assoc. }
      destruct U as (-> & -> & ->). exists pre, (p1 ++ (fresh s, v) :: (pos, v1) :: p2), e, w.
      conjs; auto. rewrite <- !app_assoc. cbn. now rewrite <- ?app_assoc.
    + (* pos = begin of the range *)
      assert (X : In pos (map fst (nodes s))) by (rewrite N1, map_app; apply in_or_app; right; now left).
      rewrite N, !map_app in X. apply in_app_or in X as [X|X]; [tauto|].
      destruct blk as [|[i v1] blk].
      * cbn in X. destruct X as [X|X]; [|tauto]. subst e.
        assert (U : x = pre /\ u = w /\ y = post).
        { apply (split_unique x y pre post pos u w); [now rewrite <- N1|]. now rewrite <- N1, N, X. }
        destruct U as (-> & -> & ->). cbn in X. subst pos. exists (pre ++ [(fresh s, v)]), post, (r_end r), w.
        conjs; auto. rewrite <- app_assoc. reflexivity.
      * cbn in X. destruct X as [X|X].
        -- subst i.
           assert (U : x = pre /\ u = v1 /\ y = blk ++ (e, w) :: post).
           { apply (split_unique x y pre (blk ++ (e, w) :: post) pos u v1); [now rewrite <- N1|]. now rewrite <- N1, N. }
           destruct U as (-> & -> & ->). exists (pre ++ [(fresh s, v)]), post, e, w.
           conjs; auto. rewrite <- app_assoc. reflexivity.
        -- exfalso. apply in_app_or in X as [X|X]; [apply NI; exact X|]. cbn in X. destruct X as [X|X]; [|tauto].
           apply NE; congruence.
Qed.
End Proofs.
