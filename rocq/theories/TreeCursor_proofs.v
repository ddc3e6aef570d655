From Verif Require Import Base Tree Tree_spec Tree_proofs.
Local Open Scope nat_scope.

Section P.
Context {T : Type}.
Notation rose := (rose T).
Notation node := (node T).
Notation cnt := (count_occ Nat.eq_dec).

Lemma nodup_kid j v (ks : list rose) a c i : NoDup (ids (R j v ks)) -> nth_error ks a = Some c -> In i (ids c) ->
  i <> j /\ NoDup (ids c) /\ (forall b c', nth_error ks b = Some c' -> b <> a -> ~ In i (ids c')).
Proof.
  intros ND E I. cbn [ids] in ND. apply NoDup_cons_iff in ND as [NJ ND].
  repeat split.
  - intros ->. apply NJ. apply in_flat_map. exists c. split; [eapply nth_error_In; eauto|exact I].
  - apply nodup_cnt. intros n. pose proof (proj1 (nodup_cnt _) ND n). pose proof (cnt_kid n _ _ _ E). lia.
  - intros b c' E' N I'. pose proof (cnt_kids i _ _ _ _ _ E' E N). apply cnt_pos in I, I'.
    pose proof (proj1 (nodup_cnt _) ND i). lia.
Qed.
Lemma path_in t pi (s : rose) : at_path t pi = Some s -> In_sub s t.
Proof.
  revert t. induction pi as [|k pi IH]; intros t; cbn; [intros [= ->]; constructor|].
  destruct t as [j v ks]. cbn. destruct (nth_error ks k) as [c|] eqn:E; [|discriminate]. intros H. econstructor; eauto using nth_error_In.
Qed.
Lemma path_app t pi pi' : at_path (T := T) t (pi ++ pi') = match at_path t pi with Some s => at_path s pi' | None => None end.
Proof. revert t. induction pi as [|k pi IH]; intros t; cbn; [reflexivity|]. destruct (nth_error (r_kids t) k); auto. Qed.
Lemma path_snoc t pi k (o : rose) : at_path t pi = Some o -> at_path t (pi ++ [k]) = nth_error (r_kids o) k.
Proof. intros E. rewrite path_app, E. cbn. destruct (nth_error (r_kids o) k); reflexivity. Qed.

Lemma deref_none i p (t : rose) : ~ In i (ids t) -> deref i (realize p t) = None.
Proof.
  intros N. pose proof (deref_realize i p t) as D. destruct (sub i t) eqn:E; [|exact D].
  exfalso. apply N. pose proof (sub_id _ _ _ E). apply sub_in, in_sub_ids in E. congruence.
Qed.
Lemma owner_none i p (t : rose) : ~ In i (ids t) -> owner i (realize p t) = None.
Proof.
  revert p. induction t as [j v ks IH] using rose_ind2. intros p N. cbn [realize owner].
  assert (N' : forall k, In k ks -> ~ In i (ids k)).
  { intros k I J. apply N. cbn. right. apply in_flat_map. eauto. }
  replace (existsb (fun k => n_id k =? i) (map (realize j) ks)) with false.
  - clear N. induction IH as [|k r H _ IHr]; cbn; [reflexivity|]. rewrite H by (apply N'; now left).
    apply IHr. intros. apply N'. now right.
  - symmetry. apply not_true_is_false. intros E. apply existsb_exists in E as (x & I & E).
    apply in_map_iff in I as (k & <- & I). rewrite id_realize in E. apply Nat.eqb_eq in E.
    apply (N' k I). rewrite <- E. destruct k; now left.
Qed.

(** the parent link a node at path pi should have *)
Fixpoint par (p : nat) (t : rose) (pi : list nat) : nat :=
  match pi with
  | [] => p
  | k :: pi' => match nth_error (r_kids t) k with Some c => par (r_id t) c pi' | None => p end
  end.
Lemma par_snoc p t pi k o c : at_path t pi = Some o -> nth_error (r_kids o) k = Some c -> par p t (pi ++ [k]) = r_id o.
Proof.
  revert p t. induction pi as [|a pi IH]; intros p t; cbn.
  - intros [= ->] ->. reflexivity.
  - destruct (nth_error (r_kids t) a) as [d|]; [|discriminate]. apply IH.
Qed.

Lemma go_deref i j (ks : list rose) a c m :
  nth_error ks a = Some c -> deref i (realize j c) = Some m ->
  (forall b c', nth_error ks b = Some c' -> b <> a -> ~ In i (ids c')) ->
  (fix go (l : list node) := match l with [] => None | k :: r => match deref i k with Some m => Some m | None => go r end end)
    (map (realize j) ks) = Some m.
Proof.
  revert a. induction ks as [|x r IH]; intros [|a] E D N; try discriminate; cbn.
  - injection E as ->. now rewrite D.
  - rewrite (deref_none i j x) by (apply (N 0 x); [reflexivity|lia]). apply (IH a); auto.
    intros b c' E' NE. apply (N (S b) c'); [exact E'|lia].
Qed.
Lemma go_owner i j (ks : list rose) a c m :
  nth_error ks a = Some c -> owner i (realize j c) = Some m ->
  (forall b c', nth_error ks b = Some c' -> b <> a -> ~ In i (ids c')) ->
  (fix go (l : list node) := match l with [] => None | k :: r => match owner i k with Some m => Some m | None => go r end end)
    (map (realize j) ks) = Some m.
Proof.
  revert a. induction ks as [|x r IH]; intros [|a] E D N; try discriminate; cbn.
  - injection E as ->. now rewrite D.
  - rewrite (owner_none i j x) by (apply (N 0 x); [reflexivity|lia]). apply (IH a); auto.
    intros b c' E' NE. apply (N (S b) c'); [exact E'|lia].
Qed.

Lemma path_deref (t : rose) pi s p : NoDup (ids t) -> at_path t pi = Some s ->
  deref (r_id s) (realize p t) = Some (realize (par p t pi) s).
Proof.
  revert t p. induction pi as [|k pi IH]; intros t p ND; cbn [at_path par].
  - intros [= ->]. destruct s as [j v ks]. cbn. now rewrite Nat.eqb_refl.
  - destruct t as [j v ks]. cbn [r_kids r_id]. destruct (nth_error ks k) as [c|] eqn:E; [|discriminate]. intros P.
    pose proof (in_sub_ids _ _ (path_in _ _ _ P)) as I.
    destruct (nodup_kid _ _ _ _ _ _ ND E I) as (NJ & NDC & O).
    cbn [realize deref n_id]. destruct (Nat.eqb_spec j (r_id s)); [congruence|].
    eapply go_deref; eauto.
Qed.
Lemma owner_path (t : rose) pi o k s p : NoDup (ids t) -> at_path t pi = Some o -> nth_error (r_kids o) k = Some s ->
  exists q, owner (r_id s) (realize p t) = Some (realize q o).
Proof.
  revert t p. induction pi as [|a pi IH]; intros t p ND; cbn [at_path].
  - intros [= ->] E. exists p. destruct o as [j v ks]. cbn [realize owner]. cbn in E.
    replace (existsb (fun k0 : node => n_id k0 =? r_id s) (map (realize j) ks)) with true; [reflexivity|].
    symmetry. apply existsb_exists. exists (realize j s). split; [apply in_map; eapply nth_error_In; eauto|].
    rewrite id_realize. apply Nat.eqb_refl.
  - destruct t as [j v ks]. cbn [r_kids]. destruct (nth_error ks a) as [c|] eqn:E; [|discriminate]. intros P K.
    assert (I : In_sub s c). { pose proof (path_snoc c pi k o P) as Q. rewrite K in Q. eapply path_in; eauto. }
    pose proof (in_sub_ids _ _ I) as II.
    destruct (nodup_kid _ _ _ _ _ _ ND E II) as (NJ & NDC & O).
    destruct (IH c j NDC P K) as (q & Q). exists q. cbn [realize owner].
    replace (existsb (fun k0 : node => n_id k0 =? r_id s) (map (realize j) ks)) with false; [eapply go_owner; eauto|].
    symmetry. apply not_true_is_false. intros X. apply existsb_exists in X as (x & IX & X).
    apply in_map_iff in IX as (y & <- & IY). rewrite id_realize in X. apply Nat.eqb_eq in X.
    apply In_nth_error in IY as (b & EB). destruct (Nat.eq_dec b a) as [->|N].
    + assert (y = c) by congruence. subst y. destruct c as [jc vc kc].
      assert (IS : In (r_id s) (flat_map ids kc)).
      { cbn in X. destruct pi as [|a' pi'].
        - cbn in P. injection P as <-. cbn in K. apply in_flat_map. exists s. split; [eapply nth_error_In; eauto|destruct s; now left].
        - cbn in P. destruct (nth_error kc a') as [d|] eqn:ED; [|discriminate].
          apply in_flat_map. exists d. split; [eapply nth_error_In; eauto|].
          apply in_sub_ids. pose proof (path_snoc d pi' k o P) as Q'. rewrite K in Q'. eapply path_in; eauto. }
      cbn in X. subst jc. apply NoDup_cons_iff in NDC as [NX _]. now apply NX.
    + apply (O b y EB N). rewrite <- X. destruct y; now left.
Qed.

Lemma kid_ids_inj j v (ks : list rose) a b c d : NoDup (ids (R j v ks)) ->
  nth_error ks a = Some c -> nth_error ks b = Some d -> r_id c = r_id d -> a = b.
Proof.
  intros ND E F Q. destruct (Nat.eq_dec a b) as [|N]; [assumption|exfalso].
  assert (I : In (r_id c) (ids c)) by (destruct c; now left).
  destruct (nodup_kid _ _ _ _ _ _ ND E I) as (_ & _ & O). apply (O b d F ltac:(lia)). rewrite Q. destruct d; now left.
Qed.
Definition it_of (o : rose) (k : nat) : iter :=
  match nth_error (r_kids o) k with Some c => It (r_id c) | None => End_of (r_id o) end.
Lemma next_in_ok o q (ks : list rose) k c : nth_error ks k = Some c ->
  (forall a b c d, nth_error ks a = Some c -> nth_error ks b = Some d -> r_id c = r_id d -> a = b) ->
  next_in o (r_id c) (map (realize q) ks) = Some (match nth_error ks (S k) with Some d => It (r_id d) | None => End_of o end).
Proof.
  revert k. induction ks as [|x r IH]; intros k E INJ; [destruct k; discriminate|]. cbn [map next_in]. rewrite id_realize.
  destruct (Nat.eqb_spec (r_id x) (r_id c)) as [EQ|NE].
  - assert (0 = k) as <- by (eapply INJ; eauto; reflexivity). destruct r; cbn; [reflexivity|]. now rewrite id_realize.
  - destruct k as [|k]; [cbn in E; congruence|]. cbn [nth_error] in *. rewrite (IH k E); [reflexivity|].
    intros a b c0 d A B Q. enough (S a = S b) by lia. eapply INJ; eauto.
Qed.
Lemma prev_in_ok q (ks : list rose) k c d : nth_error ks (S k) = Some c -> nth_error ks k = Some d ->
  (forall a b c d, nth_error ks a = Some c -> nth_error ks b = Some d -> r_id c = r_id d -> a = b) ->
  prev_in (r_id c) (map (realize q) ks) = Some (r_id d).
Proof.
  revert k. induction ks as [|x r IH]; intros k E D INJ; [destruct k; discriminate|].
  destruct r as [|y r]; [destruct k; discriminate|]. cbn [map prev_in]. rewrite !id_realize.
  destruct (Nat.eqb_spec (r_id y) (r_id c)) as [EQ|NE].
  - assert (1 = S k) by (eapply INJ; eauto; reflexivity). assert (k = 0) by lia. subst. cbn in D. congruence.
  - destruct k as [|k]; [cbn in E; congruence|]. cbn [nth_error] in E, D. rewrite <- (IH k E D); [cbn [map prev_in]; rewrite ?id_realize; reflexivity|].
    intros a b c0 d0 A B Q. enough (S a = S b) by lia. eapply INJ; eauto.
Qed.
Lemma sub_nodup s (t : rose) : In_sub s t -> NoDup (ids t) -> NoDup (ids s).
Proof.
  induction 1 as [|i v ks k I _ IH]; [auto|]. intros ND. apply IH.
  apply In_nth_error in I as (a & E). assert (J : In (r_id k) (ids k)) by (destruct k; now left).
  now destruct (nodup_kid _ _ _ _ _ _ ND E J) as (_ & ? & _).
Qed.

Section One.
Variable t : rose.
Hypothesis ND : NoDup (ids t).
Notation r := (realize (r_id t) t).

Lemma at_ok pi s : at_path t pi = Some s -> at_it r (r_id s) = Ok (realize (par (r_id t) t pi) s).
Proof. intros P. unfold at_it. now rewrite (path_deref t pi s _ ND P). Qed.

Lemma kid_id_ne pi o k s : at_path t pi = Some o -> nth_error (r_kids o) k = Some s -> r_id o <> r_id s.
Proof.
  intros P E. pose proof (sub_nodup _ _ (path_in _ _ _ P) ND) as NO. destruct o as [j v ks]. cbn in *.
  assert (I : In (r_id s) (ids s)) by (destruct s; now left).
  destruct (nodup_kid _ v _ _ _ _ NO E I) as (N & _). congruence.
Qed.
Lemma root_ok pi s : at_path t pi = Some s -> is_root (realize (par (r_id t) t pi) s) = Ok (is_empty pi).
Proof.
  intros P. unfold is_root. rewrite linkedb_realize, parent_realize, self_realize. cbn [assert_ bind]. f_equal.
  destruct pi as [|k pi] using rev_ind.
  - cbn in *. injection P as ->. apply Nat.eqb_refl.
  - clear IHpi. rewrite path_app in P. destruct (at_path t pi) as [o|] eqn:PO; [|discriminate].
    cbn in P. destruct (nth_error (r_kids o) k) as [c|] eqn:E; [|discriminate]. injection P as ->.
    rewrite (par_snoc _ _ _ _ _ _ PO E). pose proof (kid_id_ne _ _ _ _ PO E).
    destruct (Nat.eqb_spec (r_id o) (r_id s)); [congruence|]. now destruct pi.
Qed.
Lemma has_up_ok pi s : at_path t pi = Some s -> has_up r (r_id s) = Ok (negb (is_empty pi)).
Proof. intros P. unfold has_up. rewrite (at_ok _ _ P). cbn [bind]. rewrite (root_ok _ _ P). reflexivity. Qed.
Lemma snoc_split pi k s : at_path t (pi ++ [k]) = Some s -> exists o, at_path t pi = Some o /\ nth_error (r_kids o) k = Some s.
Proof.
  rewrite path_app. destruct (at_path t pi) as [o|] eqn:PO; [|discriminate].
  cbn. destruct (nth_error (r_kids o) k) as [c|] eqn:E; [|discriminate]. intros [= ->]. eauto.
Qed.
Lemma snoc_nonempty {A} (pi : list A) k : is_empty (pi ++ [k]) = false. Proof. now destruct pi. Qed.
Lemma up_ok pi k s o : at_path t (pi ++ [k]) = Some s -> at_path t pi = Some o -> up1 r (r_id s) = Ok (r_id o).
Proof.
  intros P PO. unfold up1. rewrite (has_up_ok _ _ P), snoc_nonempty. cbn [bind assert_ negb].
  rewrite (at_ok _ _ P). cbn [bind]. unfold trunk. rewrite linkedb_realize, parent_realize. cbn [bind assert_].
  destruct (snoc_split _ _ _ P) as (o' & PO' & E). assert (o' = o) by congruence. subst o'.
  rewrite (par_snoc _ _ _ _ _ _ PO E), (at_ok _ _ PO). cbn [bind]. rewrite self_realize, Nat.eqb_refl. reflexivity.
Qed.
Lemma has_down_ok pi s : at_path t pi = Some s -> has_down r (r_id s) = Ok (negb (is_empty (r_kids s))).
Proof.
  intros P. unfold has_down. rewrite (at_ok _ _ P). cbn [bind]. rewrite val_realize, kids_realize. cbn [is_none negb assert_ bind].
  now destruct (r_kids s).
Qed.
Lemma down_ok pi s c : at_path t pi = Some s -> at_path t (pi ++ [0]) = Some c -> down1 r (r_id s) = Ok (r_id c).
Proof.
  intros P PC. destruct (snoc_split _ _ _ PC) as (o & PO & E). assert (o = s) by congruence. subst o.
  unfold down1. rewrite (has_down_ok _ _ P), (at_ok _ _ P). destruct (r_kids s) as [|x l] eqn:K; [discriminate|].
  cbn in E. injection E as ->. cbn [is_empty negb bind assert_]. unfold begin_of. rewrite kids_realize, K. cbn [map]. now rewrite id_realize.
Qed.
Lemma inj_kids pi o : at_path t pi = Some o ->
  (forall a b c d, nth_error (r_kids o) a = Some c -> nth_error (r_kids o) b = Some d -> r_id c = r_id d -> a = b).
Proof.
  intros P a b c d A B Q. pose proof (sub_nodup _ _ (path_in _ _ _ P) ND) as NO. destruct o as [j v ks].
  eapply kid_ids_inj; eauto.
Qed.
Lemma next_it_ok pi k s o : at_path t (pi ++ [k]) = Some s -> at_path t pi = Some o ->
  next_it r (r_id s) = Ok (match at_path t (pi ++ [S k]) with Some d => It (r_id d) | None => End_of (r_id o) end).
Proof.
  intros P PO. destruct (snoc_split _ _ _ P) as (o' & PO' & E). assert (o' = o) by congruence. subst o'.
  unfold next_it. destruct (owner_path t pi o k s (r_id t) ND PO E) as (q & ->).
  rewrite id_realize, kids_realize, (next_in_ok _ _ _ k); [|exact E|apply (inj_kids pi o PO)].
  now rewrite (path_snoc _ _ (S k) _ PO).
Qed.
Lemma has_next_ok pi k s : at_path t (pi ++ [k]) = Some s ->
  has_next r (r_id s) = Ok (match at_path t (pi ++ [S k]) with Some _ => true | None => false end).
Proof.
  intros P. destruct (snoc_split _ _ _ P) as (o & PO & E).
  unfold has_next. rewrite (at_ok _ _ P). cbn [bind]. rewrite (root_ok _ _ P), snoc_nonempty. cbn [bind].
  rewrite parent_realize, (par_snoc _ _ _ _ _ _ PO E), (at_ok _ _ PO). cbn [bind]. rewrite (next_it_ok _ _ _ _ P PO). cbn [bind].
  unfold end_of. rewrite id_realize. destruct (at_path t (pi ++ [S k])); cbn; [reflexivity|]. now rewrite Nat.eqb_refl.
Qed.
Lemma next_ok pi k s d : at_path t (pi ++ [k]) = Some s -> at_path t (pi ++ [S k]) = Some d -> next1 r (r_id s) = Ok (r_id d).
Proof.
  intros P Q. destruct (snoc_split _ _ _ P) as (o & PO & E). unfold next1. rewrite (has_next_ok _ _ _ P), Q. cbn [bind assert_].
  rewrite (next_it_ok _ _ _ _ P PO), Q. reflexivity.
Qed.
Lemma has_prev_ok pi k s : at_path t (pi ++ [k]) = Some s -> has_prev r (r_id s) = Ok (0 <? k).
Proof.
  intros P. destruct (snoc_split _ _ _ P) as (o & PO & E).
  unfold has_prev. rewrite (at_ok _ _ P). cbn [bind]. rewrite (root_ok _ _ P), snoc_nonempty. cbn [bind].
  rewrite parent_realize, (par_snoc _ _ _ _ _ _ PO E), (at_ok _ _ PO). cbn [bind]. f_equal.
  unfold begin_of. rewrite kids_realize. destruct (r_kids o) as [|x l] eqn:K; [destruct k; discriminate|]. cbn [map iter_eqb].
  rewrite id_realize. destruct (Nat.eqb_spec (r_id x) (r_id s)) as [Q|N].
  - assert (0 = k) as <-; [|reflexivity]. eapply (inj_kids pi o PO); rewrite ?K; eauto. reflexivity.
  - destruct k; [cbn in E; congruence|reflexivity].
Qed.
Lemma prev_ok pi k s d : at_path t (pi ++ [S k]) = Some s -> at_path t (pi ++ [k]) = Some d -> prev1 r (r_id s) = Ok (r_id d).
Proof.
  intros P Q. destruct (snoc_split _ _ _ P) as (o & PO & E). destruct (snoc_split _ _ _ Q) as (o' & PO' & E').
  assert (o' = o) by congruence. subst o'.
  unfold prev1. rewrite (has_prev_ok _ _ _ P). cbn [bind assert_ Nat.ltb Nat.leb].
  unfold prev_it. destruct (owner_path t pi o (S k) s (r_id t) ND PO E) as (q & ->).
  rewrite kids_realize, (prev_in_ok _ _ k s d); auto. apply (inj_kids pi o PO).
Qed.
Lemma root_no_siblings : has_next r (r_id t) = Ok false /\ has_prev r (r_id t) = Ok false.
Proof.
  unfold has_next, has_prev. rewrite (at_ok [] t eq_refl). cbn [bind]. rewrite (root_ok [] t eq_refl). auto.
Qed.

(** depth-first traversal *)
Definition climb_to (pi : list nat) (f : nat) := climb f r (match at_path t pi with Some s => r_id s | None => 0 end).
Lemma climb_root f : climb f r (r_id t) = Ok None.
Proof.
  destruct f; cbn [climb]; rewrite (proj1 root_no_siblings); cbn [bind]; rewrite (has_up_ok [] t eq_refl); reflexivity.
Qed.
Lemma climb_mono f pi s : at_path t pi = Some s -> length pi <= f -> climb f r (r_id s) = climb (length pi) r (r_id s).
Proof.
  revert f s. induction pi as [|k pi IH] using rev_ind; intros f s P L.
  - cbn in P. injection P as <-. now rewrite !climb_root.
  - rewrite app_length in *. cbn in *. destruct (snoc_split _ _ _ P) as (o & PO & E).
    destruct f as [|f]; [lia|]. replace (length pi + 1) with (S (length pi)) by lia. cbn [climb].
    rewrite (has_next_ok _ _ _ P). cbn [bind]. destruct (at_path t (pi ++ [S k])); [reflexivity|].
    rewrite (has_up_ok _ _ P). destruct (is_empty (pi ++ [k])); [reflexivity|]. cbn [negb bind]. rewrite (up_ok _ _ _ _ P PO). cbn [bind].
    apply IH; [exact PO|lia].
Qed.
Lemma climb_next f pi k s d : at_path t (pi ++ [k]) = Some s -> at_path t (pi ++ [S k]) = Some d -> climb f r (r_id s) = Ok (Some (r_id d)).
Proof.
  intros P Q. destruct f; cbn [climb]; rewrite (has_next_ok _ _ _ P), Q; cbn [bind]; rewrite (next_ok _ _ _ _ P Q); reflexivity.
Qed.
Lemma climb_up f pi k s o : at_path t (pi ++ [k]) = Some s -> at_path t (pi ++ [S k]) = None -> at_path t pi = Some o ->
  climb (S f) r (r_id s) = climb f r (r_id o).
Proof.
  intros P Q PO. cbn [climb]. rewrite (has_next_ok _ _ _ P), Q. cbn [bind]. rewrite (has_up_ok _ _ P), snoc_nonempty. cbn [bind negb].
  rewrite (up_ok _ _ _ _ P PO). reflexivity.
Qed.

Lemma path_len s pi (u : rose) : at_path u pi = Some s -> length pi < count u.
Proof.
  revert u. induction pi as [|k pi IH]; intros [i v ks]; unfold count; cbn [at_path r_kids length ids]; [lia|].
  destruct (nth_error ks k) as [c|] eqn:E; [|discriminate]. intros P. apply IH in P.
  enough (count c <= length (flat_map ids ks)) by (unfold count in *; lia).
  clear -E. revert k E. induction ks as [|x l IH]; intros [|k] E; try discriminate; cbn; rewrite app_length; unfold count in *.
  - injection E as ->. lia.
  - apply IH in E. lia.
Qed.

Variable D : nat.
Hypothesis HD : count t <= D.
Definition cont (f : nat) (c : res (option nat)) : res (list nat) :=
  n <- c ;; match n with None => Ok [] | Some j => dfs D f r j end.
Lemma dfs_sub s : forall pi f, at_path t pi = Some s ->
  dfs D (count s + f) r (r_id s) = (l <- cont f (climb (length pi) r (r_id s)) ;; Ok (ids s ++ l)).
Proof.
  induction s as [i v ks IH] using rose_ind2. intros pi f P.
  unfold count. cbn [ids length Nat.add dfs r_id].
  pose proof (path_len _ _ _ P) as PL.
  change i with (r_id (R i v ks)) at 1. unfold dfs_next. rewrite (has_down_ok _ _ P). cbn [bind r_kids].
  destruct ks as [|k0 ks'].
  - cbn [is_empty negb flat_map length Nat.add bind]. rewrite (climb_mono D _ _ P) by lia. cbn [r_id].
    unfold cont. destruct (climb (length pi) r i) as [[j|]| |]; cbn [bind]; try reflexivity.
  - cbn [is_empty negb]. set (ks := k0 :: ks') in *.
    assert (P0 : at_path t (pi ++ [0]) = Some k0) by (rewrite (path_snoc _ _ 0 _ P); reflexivity).
    pose proof (down_ok _ _ _ P P0) as DK. cbn [r_id] in DK |- *. rewrite DK. cbn [bind].
    (* from branch number k on *)
    assert (G : forall l k c, skipn k ks = c :: l ->
       dfs D (length (flat_map ids (c :: l)) + f) r (r_id c) =
       (m <- cont f (climb (length pi) r i) ;; Ok (flat_map ids (c :: l) ++ m))).
    { induction l as [|d l IHl]; intros k c SK.
      all: pose proof (skipn_length k ks) as SL; rewrite SK in SL; cbn [length] in SL.
      all: assert (LK : length (firstn k ks) = k) by (rewrite firstn_length; lia).
      all: assert (EK : nth_error ks k = Some c) by (rewrite <- (firstn_skipn k ks), SK, nth_error_app2; rewrite LK; [|lia]; now rewrite Nat.sub_diag).
      all: assert (PC : at_path t (pi ++ [k]) = Some c) by (rewrite (path_snoc _ _ k _ P); exact EK).
      all: assert (IC : In c ks) by (eapply nth_error_In; eauto).
      all: rewrite Forall_forall in IH; pose proof (fun f => IH c IC (pi ++ [k]) f PC) as IHc; unfold count in IHc.
      all: rewrite app_length in IHc; cbn [length] in IHc; rewrite Nat.add_1_r in IHc.
      - assert (PN : at_path t (pi ++ [S k]) = None) by (rewrite (path_snoc _ _ (S k) _ P); apply nth_error_None; cbn [r_kids]; lia).
        cbn [flat_map]. rewrite app_nil_r, IHc, (climb_up _ _ _ _ _ PC PN P). reflexivity.
      - assert (EN : nth_error ks (S k) = Some d) by (rewrite <- (firstn_skipn k ks), SK, nth_error_app2; rewrite LK; [|lia]; now replace (S k - k) with 1 by lia).
        assert (PN : at_path t (pi ++ [S k]) = Some d) by (rewrite (path_snoc _ _ (S k) _ P); exact EN).
        cbn [flat_map]. rewrite app_length, <- Nat.add_assoc, IHc, (climb_next _ _ _ _ _ PC PN).
        unfold cont at 1. cbn [bind]. change (ids d ++ flat_map ids l) with (flat_map ids (d :: l)).
        rewrite (IHl (S k) d).
        + destruct (cont f (climb (length pi) r i)); cbn [bind]; try reflexivity. now rewrite app_assoc.
        + clear -SK. revert SK. generalize ks. intros z. revert k. induction z as [|x z IHz]; intros [|k] H; cbn in *; try discriminate; [congruence|]. now apply IHz. }
    change (length (flat_map ids ks)) with (length (flat_map ids (k0 :: ks'))). rewrite (G ks' 0 k0 eq_refl).
    destruct (cont f (climb (length pi) r i)); reflexivity.
Qed.
Lemma dfs_ok : forall fuel, count t <= fuel -> dfs D fuel r (r_id t) = Ok (ids t).
Proof.
  intros fuel L. replace fuel with (count t + (fuel - count t)) by lia.
  rewrite (dfs_sub t [] _ eq_refl), climb_root. cbn. now rewrite app_nil_r.
Qed.
End One.

(** everything about one cursor step, by paths *)
Lemma moves (t : rose) n pi s : NoDup (ids t) -> linked_as (r_id t) n t -> at_path t pi = Some s ->
  (has_up n (r_id s) = Ok (negb (is_empty pi))) /\
  (forall pi' k o, pi = pi' ++ [k] -> at_path t pi' = Some o -> up1 n (r_id s) = Ok (r_id o)) /\
  (has_down n (r_id s) = Ok (match at_path t (pi ++ [0]) with Some _ => true | None => false end)) /\
  (forall c, at_path t (pi ++ [0]) = Some c -> down1 n (r_id s) = Ok (r_id c)) /\
  (pi = [] -> has_next n (r_id s) = Ok false /\ has_prev n (r_id s) = Ok false) /\
  (forall pi' k, pi = pi' ++ [k] ->
     has_next n (r_id s) = Ok (match at_path t (pi' ++ [S k]) with Some _ => true | None => false end) /\
     (forall d, at_path t (pi' ++ [S k]) = Some d -> next1 n (r_id s) = Ok (r_id d)) /\
     has_prev n (r_id s) = Ok (0 <? k) /\
     (forall k' d, k = S k' -> at_path t (pi' ++ [k']) = Some d -> prev1 n (r_id s) = Ok (r_id d))).
Proof.
  intros ND L P. apply linked_eq in L as ->.
  split; [now apply has_up_ok|]. split; [intros pi' k o -> PO; eapply up_ok; eauto|].
  split. { rewrite (has_down_ok t ND _ _ P), (path_snoc _ _ 0 _ P). destruct (r_kids s); reflexivity. }
  split; [intros c PC; eapply down_ok; eauto|].
  split. { intros ->. cbn in P. injection P as <-. now apply root_no_siblings. }
  intros pi' k ->. split; [now apply has_next_ok|]. split; [intros; eapply next_ok; eauto|].
  split; [eapply has_prev_ok; eauto|]. intros k' d -> Q. eapply prev_ok; eauto.
Qed.

Lemma round_trips (t : rose) n pi s : NoDup (ids t) -> linked_as (r_id t) n t -> at_path t pi = Some s ->
  (has_down n (r_id s) = Ok true -> exists c, down1 n (r_id s) = Ok c /\ up1 n c = Ok (r_id s)) /\
  (has_next n (r_id s) = Ok true -> exists c, next1 n (r_id s) = Ok c /\ prev1 n c = Ok (r_id s)) /\
  (has_prev n (r_id s) = Ok true -> exists c, prev1 n (r_id s) = Ok c /\ next1 n c = Ok (r_id s)).
Proof.
  intros ND L P. pose proof (moves t n pi s ND L P) as (_ & _ & HD & DN & RT & SB).
  split; [|split].
  - rewrite HD. destruct (at_path t (pi ++ [0])) as [c|] eqn:E; [|discriminate]. intros _. exists (r_id c). split; [auto|].
    pose proof (moves t n _ c ND L E) as (_ & U & _). eapply U; eauto.
  - destruct pi as [|k pi] using rev_ind; [destruct (RT eq_refl) as [-> _]; discriminate|]. clear IHpi.
    destruct (SB pi k eq_refl) as (HN & NX & _). rewrite HN.
    destruct (at_path t (pi ++ [S k])) as [d|] eqn:E; [|discriminate]. intros _. exists (r_id d). split; [auto|].
    pose proof (moves t n _ d ND L E) as (_ & _ & _ & _ & _ & SB'). destruct (SB' pi (S k) eq_refl) as (_ & _ & _ & PV). eapply PV; eauto.
  - destruct pi as [|k pi] using rev_ind; [destruct (RT eq_refl) as [_ ->]; discriminate|]. clear IHpi.
    destruct (SB pi k eq_refl) as (_ & _ & HP & PV). rewrite HP. destruct k as [|k]; [discriminate|]. intros _.
    destruct (at_path t (pi ++ [k])) as [d|] eqn:E.
    + exists (r_id d). split; [eauto|]. pose proof (moves t n _ d ND L E) as (_ & _ & _ & _ & _ & SB').
      destruct (SB' pi k eq_refl) as (_ & NX & _). auto.
    + exfalso. destruct (snoc_split t _ _ _ P) as (o & PO & EK). rewrite (path_snoc _ _ k _ PO) in E.
      apply nth_error_None in E. assert (nth_error (r_kids o) (S k) <> None) by congruence. apply nth_error_Some in H. lia.
Qed.

(** a move that is not available is a failed assertion; try_ variants then stay *)
Lemma no_move (n : node) i :
  (has_up n i = Ok false -> up1 n i = UB) /\ (has_down n i = Ok false -> down1 n i = UB) /\
  (has_next n i = Ok false -> next1 n i = UB) /\ (has_prev n i = Ok false -> prev1 n i = UB).
Proof. unfold up1, down1, next1, prev1. repeat split; intros ->; reflexivity. Qed.

(** try_next / try_down by paths: the cursor goes as many steps as possible *)
Lemma try_next_path (t : rose) n c : forall pi k s, NoDup (ids t) -> linked_as (r_id t) n t -> at_path t (pi ++ [k]) = Some s ->
  exists m d, m <= c /\ at_path t (pi ++ [k + m]) = Some d /\
    try_next n c (r_id s) = Ok (r_id d, m =? c) /\ (m < c -> at_path t (pi ++ [S (k + m)]) = None).
Proof.
  induction c as [|c IH]; intros pi k s ND L P.
  - exists 0, s. rewrite Nat.add_0_r. repeat split; auto; lia.
  - pose proof (moves t n _ s ND L P) as (_ & _ & _ & _ & _ & SB). destruct (SB pi k eq_refl) as (HN & NX & _).
    unfold try_next. cbn [try_times]. rewrite HN. cbn [bind].
    destruct (at_path t (pi ++ [S k])) as [d|] eqn:E.
    + rewrite (NX d eq_refl). cbn [bind]. destruct (IH pi (S k) d ND L E) as (m & e & LE & PE & TR & MX).
      exists (S m), e. replace (k + S m) with (S k + m) by lia. unfold try_next in TR. repeat split; auto; [lia|]. intros. apply MX. lia.
    + exists 0, s. rewrite Nat.add_0_r. repeat split; auto. lia.
Qed.
Lemma try_down_path (t : rose) n c : forall pi s, NoDup (ids t) -> linked_as (r_id t) n t -> at_path t pi = Some s ->
  exists m d, m <= c /\ at_path t (pi ++ repeat 0 m) = Some d /\
    try_down n c (r_id s) = Ok (r_id d, m =? c) /\ (m < c -> r_kids d = []).
Proof.
  induction c as [|c IH]; intros pi s ND L P.
  - exists 0, s. cbn. rewrite app_nil_r. repeat split; auto; lia.
  - pose proof (moves t n _ s ND L P) as (_ & _ & HD & DN & _).
    unfold try_down. cbn [try_times]. rewrite HD. cbn [bind].
    destruct (at_path t (pi ++ [0])) as [d|] eqn:E.
    + rewrite (DN d eq_refl). cbn [bind]. destruct (IH (pi ++ [0]) d ND L E) as (m & e & LE & PE & TR & MX).
      exists (S m), e. cbn [repeat]. rewrite <- app_assoc in PE. unfold try_down in TR. repeat split; auto; [lia|]. intros. apply MX. lia.
    + exists 0, s. cbn. rewrite app_nil_r. rewrite (path_snoc _ _ 0 _ P) in E. repeat split; auto; [lia|]. intros _.
      destruct (r_kids s); [reflexivity|discriminate].
Qed.
Lemma try_next_root (t : rose) n c : NoDup (ids t) -> linked_as (r_id t) n t ->
  try_next n (S c) (r_id t) = Ok (r_id t, false).
Proof.
  intros ND L. pose proof (moves t n [] t ND L eq_refl) as (_ & _ & _ & _ & RT & _).
  unfold try_next. cbn [try_times]. destruct (RT eq_refl) as [-> _]. reflexivity.
Qed.
Lemma dfs_main (t : rose) n : NoDup (ids t) -> linked_as (r_id t) n t ->
  forall height fuel, count t <= height -> count t <= fuel -> dfs height fuel n (r_id t) = Ok (ids t).
Proof. intros ND L h f H F. apply linked_eq in L as ->. now apply dfs_ok. Qed.
(** every node of a tree is at some path *)
Lemma path_of (t : rose) i : In i (ids t) -> exists pi s, at_path t pi = Some s /\ r_id s = i.
Proof.
  induction t as [j v ks IH] using rose_ind2. cbn. intros [->|I].
  - exists [], (R i v ks). auto.
  - apply in_flat_map in I as (k & IK & I). rewrite Forall_forall in IH. destruct (IH k IK I) as (pi & s & P & E).
    apply In_nth_error in IK as (a & EA). exists (a :: pi), s. cbn. now rewrite EA.
Qed.
End P.
