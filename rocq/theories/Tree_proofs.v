From Verif Require Import Base Tree Tree_spec.
From Coq Require Import Permutation.
Local Open Scope nat_scope.

Section P.
Context {T : Type}.
Notation rose := (rose T).
Notation node := (node T).

Lemma rose_ind2 (P : rose -> Prop) :
  (forall i v ks, Forall P ks -> P (R i v ks)) -> forall t, P t.
Proof.
  intros H. fix IH 1. intros [i v ks]. apply H.
  induction ks as [|k r IHr]; constructor; [apply IH|exact IHr].
Qed.

Fixpoint realize (p : nat) (t : rose) : node :=
  let 'R i v ks := t in Nd i true p i (Some v) (map (realize i) ks).

Lemma linked_realize p t : linked_as p (realize p t) t.
Proof.
  revert p. induction t as [i v ks IH] using rose_ind2. intros p. cbn. constructor.
  induction IH; cbn; constructor; auto.
Qed.
Lemma linked_eq p n t : linked_as p n t -> n = realize p t.
Proof.
  revert p n. induction t as [i v ks IH] using rose_ind2. intros p n H. inversion H; subst. cbn. f_equal.
  clear H. revert ks0 H3. induction IH; intros l0 F; inversion F; subst; cbn; [reflexivity|].
  f_equal; auto.
Qed.

Lemma id_realize p t : n_id (realize p t) = r_id t. Proof. destruct t; reflexivity. Qed.
Lemma kids_realize p t : kids (realize p t) = map (realize (r_id t)) (r_kids t). Proof. destruct t; reflexivity. Qed.
Lemma val_realize p t : val (realize p t) = Some (r_val t). Proof. destruct t; reflexivity. Qed.
Lemma self_realize p t : self (realize p t) = r_id t. Proof. destruct t; reflexivity. Qed.
Lemma parent_realize p t : parent (realize p t) = p. Proof. destruct t; reflexivity. Qed.
Lemma linkedb_realize p t : linked (realize p t) = true. Proof. destruct t; reflexivity. Qed.

Lemma set_parent_realize q p t : set_parent q (realize p t) = realize q t.
Proof. destruct t; reflexivity. Qed.
Lemma map_set_parent q p ts : map (set_parent q) (map (realize p) ts) = map (realize q) ts.
Proof. rewrite map_map. apply map_ext. intros. apply set_parent_realize. Qed.
Lemma link_moved a q p t : link_to a q (moved a (realize p t)) = realize q (rename a t).
Proof. destruct t as [i v ks]. cbn. now rewrite map_set_parent. Qed.
Lemma take_realize p q s i v ks :
  take_contents (realize q s) (realize p (R i v ks)) = realize p (R i (r_val s) (r_kids s)).
Proof. destruct s as [j w l]. cbn. now rewrite map_set_parent. Qed.

Lemma size_realize p t : size (realize p t) = count t.
Proof.
  unfold count. revert p. induction t as [i v ks IH] using rose_ind2. intros p. cbn. f_equal.
  induction IH as [|k r H _ IHr]; cbn; [reflexivity|]. rewrite app_length, H, IHr. reflexivity.
Qed.
Lemma owned_realize p t : owned (realize p t) = ids t.
Proof.
  revert p. induction t as [i v ks IH] using rose_ind2. intros p. cbn. f_equal.
  induction IH as [|k r H _ IHr]; cbn; [reflexivity|]. now rewrite H, IHr.
Qed.
Lemma check_realize p t : check (realize p t) = true.
Proof.
  revert p. induction t as [i v ks IH] using rose_ind2. intros p. cbn.
  induction IH as [|k r H _ IHr]; cbn; [reflexivity|].
  rewrite id_realize, self_realize, parent_realize, !Nat.eqb_refl, H. exact IHr.
Qed.

(** ** lookups *)
Lemma deref_realize i p t :
  match sub i t with
  | Some s => exists p', deref i (realize p t) = Some (realize p' s)
  | None => deref i (realize p t) = None
  end.
Proof.
  revert p. induction t as [j v ks IH] using rose_ind2. intros p. cbn.
  destruct (j =? i); [exists p; reflexivity|].
  induction IH as [|k r H _ IHr]; cbn; [reflexivity|].
  specialize (H j). destruct (sub i k).
  - destruct H as (p' & ->). exists p'. reflexivity.
  - rewrite H. exact IHr.
Qed.

Lemma sub_id i (t s : rose) : sub i t = Some s -> r_id s = i.
Proof.
  revert s. induction t as [j v ks IH] using rose_ind2. intros s. cbn.
  destruct (Nat.eqb_spec j i) as [->|_]; [intros [= <-]; reflexivity|].
  induction IH as [|k r H _ IHr]; cbn; [discriminate|].
  destruct (sub i k); [intros [= <-]; auto|auto].
Qed.

Inductive In_sub (s : rose) : rose -> Prop :=
| IS_here : In_sub s s
| IS_kid : forall i v ks k, In k ks -> In_sub s k -> In_sub s (R i v ks).
Lemma sub_in i (t s : rose) : sub i t = Some s -> In_sub s t.
Proof.
  revert s. induction t as [j v ks IH] using rose_ind2. intros s. cbn.
  destruct (Nat.eqb_spec j i) as [->|_]; [intros [= <-]; constructor|].
  enough (G : forall l, Forall (fun t : rose => forall s, sub i t = Some s -> In_sub s t) l -> incl l ks ->
    (fix go (l : list rose) := match l with [] => None | k :: r => match sub i k with Some s => Some s | None => go r end end) l = Some s ->
    In_sub s (R j v ks)) by (apply G; [exact IH|apply incl_refl]).
  induction 1 as [|k r H _ IHr]; cbn; [discriminate|]. intros I.
  destruct (sub i k) eqn:E.
  - intros [= ->]. eapply IS_kid; [|eauto]. apply I. now left.
  - apply IHr. intros x Hx. apply I. now right.
Qed.
Lemma in_sub_ids (s t : rose) : In_sub s t -> In (r_id s) (ids t).
Proof.
  induction 1 as [|i v ks k I _ IH]; [destruct s; now left|].
  cbn. right. apply in_flat_map. eauto.
Qed.
Lemma sub_none i (t : rose) : sub i t = None -> ~ In i (ids t).
Proof.
  induction t as [j v ks IH] using rose_ind2. cbn.
  destruct (Nat.eqb_spec j i) as [->|N]; [discriminate|].
  intros E [->|I]; [congruence|]. revert E I.
  induction IH as [|k r H _ IHr]; cbn; [intros _ []|].
  intros E I. apply in_app_iff in I.
  destruct (sub i k); [discriminate|]. destruct I; [now apply H|now apply IHr].
Qed.
Lemma sub_some i (t : rose) : In i (ids t) -> exists s, sub i t = Some s.
Proof. intros I. destruct (sub i t) eqn:E; [eauto|]. now apply sub_none in E. Qed.

Notation cnt := (count_occ Nat.eq_dec).
Lemma cnt_kid n (k : rose) ks a : nth_error ks a = Some k -> cnt (ids k) n <= cnt (flat_map ids ks) n.
Proof.
  revert a. induction ks as [|x r IH]; intros [|a] E; try discriminate; cbn; rewrite count_occ_app.
  - injection E as ->. lia.
  - apply IH in E. lia.
Qed.
Lemma cnt_kids n (k k' : rose) ks a b : nth_error ks a = Some k -> nth_error ks b = Some k' -> a <> b ->
  cnt (ids k) n + cnt (ids k') n <= cnt (flat_map ids ks) n.
Proof.
  revert a b. induction ks as [|x r IH]; intros [|a] [|b] E E' N; try discriminate; cbn; rewrite count_occ_app; try lia.
  - cbn in E, E'. injection E as ->. pose proof (cnt_kid n _ _ _ E'). lia.
  - cbn in E, E'. injection E' as ->. pose proof (cnt_kid n _ _ _ E). lia.
  - assert (a <> b) by lia. specialize (IH _ _ E E' H). lia.
Qed.
Lemma cnt_pos n (l : list nat) : In n l -> 1 <= cnt l n.
Proof. intros I. apply (count_occ_In Nat.eq_dec) in I. lia. Qed.

(** identities that occur once determine the node *)
Lemma sub_unique i (t s s' : rose) : cnt (ids t) i <= 1 -> In_sub s t -> In_sub s' t -> r_id s = i -> r_id s' = i -> s = s'.
Proof.
  induction t as [j v ks IH] using rose_ind2. intros C A B E E'.
  inversion A as [|? ? ? k I A']; subst; inversion B as [|? ? ? k' I' B']; subst.
  - reflexivity.
  - exfalso. cbn in C. destruct (Nat.eq_dec j j); [|congruence].
    assert (In j (flat_map ids ks)). { apply in_flat_map. exists k'. split; [easy|]. apply in_sub_ids in B'. cbn in E'. now rewrite E' in B'. }
    apply cnt_pos in H. lia.
  - exfalso. cbn in C, E'. subst j. destruct (Nat.eq_dec (r_id s) (r_id s)); [|congruence].
    assert (In (r_id s) (flat_map ids ks)). { apply in_flat_map. exists k. split; [easy|]. now apply in_sub_ids in A'. }
    apply cnt_pos in H. lia.
  - cbn in C. assert (C' : cnt (flat_map ids ks) (r_id s) <= 1) by (destruct (Nat.eq_dec j (r_id s)); lia).
    apply In_nth_error in I as (a & I). apply In_nth_error in I' as (b & I').
    pose proof (in_sub_ids _ _ A') as PA. pose proof (in_sub_ids _ _ B') as PB. rewrite E' in PB.
    apply cnt_pos in PA, PB.
    destruct (Nat.eq_dec a b) as [<-|N].
    + assert (k' = k) as -> by congruence. pose proof (cnt_kid (r_id s) _ _ _ I).
      apply nth_error_In in I. rewrite Forall_forall in IH. eapply (IH k I); eauto. lia.
    + pose proof (cnt_kids (r_id s) _ _ _ _ _ I I' N). lia.
Qed.

(** ** updates *)
Definition G_t := nat -> option (T * list rose -> T * list rose).
Definition agree (F : nat -> option (node -> node)) (G : G_t) (s : rose) : Prop :=
  match F (r_id s), G (r_id s) with
  | Some f, Some g => forall q, f (realize q s) = realize q (R (r_id s) (fst (g (r_val s, r_kids s))) (snd (g (r_val s, r_kids s))))
  | None, None => True
  | _, _ => False
  end.
Lemma upd_realize F (G : G_t) p t :
  (forall s, In_sub s t -> agree F G s) -> upd F (realize p t) = realize p (at_id G t).
Proof.
  revert p. induction t as [i v ks IH] using rose_ind2. intros p H.
  pose proof (H _ (IS_here _)) as A. unfold agree in A. cbn [r_id r_val r_kids] in A.
  cbn [realize upd n_id at_id]. destruct (F i), (G i) as [g|]; try contradiction.
  - specialize (A p). cbn [realize] in A. rewrite A. destruct (g (v, ks)); reflexivity.
  - clear A. cbn [realize]. f_equal. rewrite !map_map. apply map_ext_in. intros k I.
    rewrite Forall_forall in IH. apply IH; [exact I|]. intros s S. apply H. econstructor; eauto.
Qed.

Fixpoint sumD (dom : list nat) (l : list nat) (X : nat -> nat) : nat :=
  match dom with [] => 0 | d :: r => cnt l d * X d + sumD r l X end.
Lemma sumD_app dom l l' X : sumD dom (l ++ l') X = sumD dom l X + sumD dom l' X.
Proof. induction dom as [|d r IH]; cbn; [reflexivity|]. rewrite count_occ_app, IH. lia. Qed.
Lemma sumD_nil dom X : sumD dom [] X = 0.
Proof. induction dom as [|d r IH]; cbn; [reflexivity|]. exact IH. Qed.
Lemma sumD_out dom i l X : ~ In i dom -> sumD dom (i :: l) X = sumD dom l X.
Proof.
  induction dom as [|d r IH]; intros N; [reflexivity|]. cbn in N. cbn [sumD]. rewrite IH by tauto.
  cbn [count_occ]. destruct (Nat.eq_dec i d); [subst; tauto|reflexivity].
Qed.
Lemma sumD_zero dom l X : (forall d, In d dom -> cnt l d = 0) -> sumD dom l X = 0.
Proof.
  induction dom as [|d r IH]; intros Z; [reflexivity|]. cbn [sumD]. rewrite IH, Z; [reflexivity|now left|].
  intros. apply Z. now right.
Qed.
Lemma sumD_in dom i l X : NoDup dom -> In i dom -> (forall d, In d dom -> cnt l d = 0) -> sumD dom (i :: l) X = X i.
Proof.
  intros ND I Z. induction ND as [|d r N ND IH]; [destruct I|]. cbn [sumD count_occ].
  destruct (Nat.eq_dec i d) as [<-|NE].
  - rewrite sumD_out by exact N. rewrite sumD_zero by (intros; apply Z; now right). rewrite Z by now left. lia.
  - destruct I as [E|I]; [congruence|]. rewrite IH; auto; [|intros; apply Z; now right]. rewrite Z by now left. lia.
Qed.

Lemma at_id_cnt (G : G_t) dom (old new : nat -> list nat) n t :
  NoDup dom -> (forall d e, In d dom -> In e dom -> cnt (old d) e = 0) ->
  (forall s, In_sub s t ->
     match G (r_id s) with
     | Some g => In (r_id s) dom /\ flat_map ids (r_kids s) = old (r_id s) /\
                 flat_map ids (snd (g (r_val s, r_kids s))) = new (r_id s)
     | None => ~ In (r_id s) dom
     end) ->
  cnt (ids (at_id G t)) n + sumD dom (ids t) (fun d => cnt (old d) n) =
  cnt (ids t) n + sumD dom (ids t) (fun d => cnt (new d) n).
Proof.
  intros ND Z. induction t as [i v ks IH] using rose_ind2. intros H.
  pose proof (H _ (IS_here _)) as A. cbn [r_id r_val r_kids] in A.
  cbn [at_id]. destruct (G i) as [g|] eqn:E.
  - destruct A as (I & O & NW). destruct (g (v, ks)) as [v' ks']. cbn [snd] in NW. cbn [ids]. rewrite NW, O.
    assert (ZZ : forall d, In d dom -> cnt (old i) d = 0) by (intros; apply Z; auto).
    rewrite !(sumD_in dom i (old i)) by assumption.
    cbn. destruct (Nat.eq_dec i n); lia.
  - cbn [ids]. rewrite !sumD_out by exact A.
    enough (Q : cnt (flat_map ids (map (at_id G) ks)) n + sumD dom (flat_map ids ks) (fun d => cnt (old d) n) =
             cnt (flat_map ids ks) n + sumD dom (flat_map ids ks) (fun d => cnt (new d) n)).
    { cbn. destruct (Nat.eq_dec i n); lia. }
    assert (H' : forall k, In k ks -> forall s, In_sub s k ->
       match G (r_id s) with
     | Some g => In (r_id s) dom /\ flat_map ids (r_kids s) = old (r_id s) /\
                 flat_map ids (snd (g (r_val s, r_kids s))) = new (r_id s)
     | None => ~ In (r_id s) dom
     end). { intros k I s S. apply H. econstructor; eauto. }
    clear H A E. induction IH as [|k r HK _ IHr]; [cbn; rewrite !sumD_nil; reflexivity|].
    cbn [flat_map map]. rewrite !count_occ_app, !sumD_app.
    specialize (HK (H' k (or_introl eq_refl))).
    specialize (IHr (fun k I => H' k (or_intror I))). lia.
Qed.

(** ** the world *)
Definition ids_ok (a : aworld T) : Prop := NoDup (all_ids a) /\ Forall (fun i => i < a_next a) (all_ids a).
Definition Inv (w : world T) (a : aworld T) : Prop :=
  next w = a_next a /\ Forall2 holds (trees w) (a_trees a) /\ ids_ok a.

Lemma put_nth {A} (l : list A) x a b : nth_error l x = Some b ->
  exists l1 l2, l = l1 ++ b :: l2 /\ length l1 = x /\ put l x a = l1 ++ a :: l2.
Proof.
  revert x. induction l as [|y l IH]; intros [|x] E; try discriminate.
  - injection E as ->. exists [], l. repeat split.
  - cbn in E. destruct (IH _ E) as (l1 & l2 & -> & <- & P). exists (y :: l1), l2. cbn. rewrite P. repeat split.
Qed.
Lemma F2_nth {A B} (P : A -> B -> Prop) l l' x b : Forall2 P l l' -> nth_error l' x = Some b ->
  exists a, nth_error l x = Some a /\ P a b.
Proof. intros F. revert x. induction F; intros [|z] E; try discriminate; cbn in *; [injection E as ->; eauto|auto]. Qed.
Lemma F2_put {A B} (P : A -> B -> Prop) l l' x a b : Forall2 P l l' -> P a b -> Forall2 P (put l x a) (put l' x b).
Proof. intros F Q. revert x. induction F; intros [|z]; cbn; constructor; auto. Qed.

Lemma put_ids_cnt (l : list (av T)) x t u n : nth_error l x = Some u ->
  cnt (flat_map av_ids (put l x t)) n + cnt (av_ids u) n = cnt (flat_map av_ids l) n + cnt (av_ids t) n.
Proof.
  intros E. destruct (put_nth l x t u E) as (l1 & l2 & -> & _ & ->).
  rewrite !flat_map_app. cbn [flat_map]. rewrite !count_occ_app. lia.
Qed.
Lemma nodup_cnt l : NoDup l <-> forall n, cnt l n <= 1.
Proof. apply (NoDup_count_occ Nat.eq_dec). Qed.
Lemma lt_cnt l b : Forall (fun i => i < b) l <-> forall n, b <= n -> cnt l n = 0.
Proof.
  rewrite Forall_forall. split; intros H n Hn.
  - apply count_occ_not_In. intros I. apply H in I. lia.
  - destruct (le_lt_dec b n) as [C|]; [|assumption]. apply H in C. apply cnt_pos in Hn. lia.
Qed.
Lemma ids_ok_cnt a : ids_ok a <-> (forall n, cnt (all_ids a) n <= 1) /\ (forall n, a_next a <= n -> cnt (all_ids a) n = 0).
Proof. unfold ids_ok. now rewrite nodup_cnt, lt_cnt. Qed.

Lemma a_sub_split p (l : list (av T)) s : a_sub p l = Some s ->
  exists l1 t l2, l = l1 ++ ATree t :: l2 /\ sub p t = Some s.
Proof.
  induction l as [|[| | |t] r IH]; cbn; intros E; try discriminate.
  1-3: destruct (IH E) as (l1 & t & l2 & -> & S);
    match goal with |- context [?x :: _ ++ _] => exists (x :: l1), t, l2; auto end.
  destruct (sub p t) eqn:S.
  - injection E as ->. exists [], t, r. auto.
  - destruct (IH E) as (l1 & t' & l2 & -> & S'). exists (ATree t :: l1), t', l2. auto.
Qed.
(** the node found by a_sub is the only one with this identity *)
Lemma a_sub_unique (a : aworld T) p s : ids_ok a -> a_sub p (a_trees a) = Some s ->
  r_id s = p /\ cnt (all_ids a) p = 1 /\
  (forall t s', In (ATree t) (a_trees a) -> In_sub s' t -> r_id s' = p -> s' = s) /\
  (forall i, In (AHusk i) (a_trees a) -> i <> p) /\
  (forall n, cnt (ids s) n <= cnt (all_ids a) n).
Proof.
  intros O E. apply ids_ok_cnt in O as [ND _].
  destruct (a_sub_split _ _ _ E) as (l1 & t & l2 & EQ & S).
  pose proof (sub_id _ _ _ S) as ID. pose proof (sub_in _ _ _ S) as IN.
  pose proof (in_sub_ids _ _ IN) as INI. rewrite ID in INI. pose proof (cnt_pos _ _ INI) as C1.
  unfold all_ids in *. rewrite EQ in *. clear EQ.
  assert (CT : forall n, cnt (flat_map av_ids (l1 ++ ATree t :: l2)) n = cnt (flat_map av_ids l1) n + cnt (ids t) n + cnt (flat_map av_ids l2) n).
  { intros n. rewrite flat_map_app. cbn [flat_map av_ids]. rewrite !count_occ_app. lia. }
  pose proof (ND p) as NDp. rewrite CT in NDp.
  assert (OUT : forall x l, In x l -> forall n, cnt (av_ids x) n <= cnt (flat_map (@av_ids T) l) n).
  { clear. induction l as [|y l IH]; [intros []|]. intros I n. cbn. rewrite count_occ_app.
    destruct I as [->|I]; [lia|]. specialize (IH I n). lia. }
  repeat split.
  - exact ID.
  - rewrite CT. lia.
  - intros t' s' I IS EI. apply in_app_iff in I as [I|[I|I]].
    + exfalso. pose proof (OUT _ _ I p). cbn [av_ids] in H. pose proof (in_sub_ids _ _ IS). rewrite EI in H0. apply cnt_pos in H0. lia.
    + injection I as <-. eapply (sub_unique p t); eauto. lia.
    + exfalso. pose proof (OUT _ _ I p). cbn [av_ids] in H. pose proof (in_sub_ids _ _ IS). rewrite EI in H0. apply cnt_pos in H0. lia.
  - intros i I ->. apply in_app_iff in I as [I|[I|I]]; [|discriminate|].
    + pose proof (OUT _ _ I p). cbn in H. destruct (Nat.eq_dec p p); [lia|congruence].
    + pose proof (OUT _ _ I p). cbn in H. destruct (Nat.eq_dec p p); [lia|congruence].
  - intros n. rewrite CT. enough (cnt (ids s) n <= cnt (ids t) n) by lia.
    clear -IN. induction IN as [|i v ks k I _ IH]; [lia|].
    apply In_nth_error in I as (b & I). pose proof (cnt_kid n _ _ _ I). cbn. destruct (Nat.eq_dec i n); lia.
Qed.

Lemma at_addr_ok w (a : aworld T) p s : Inv w a -> a_sub p (a_trees a) = Some s -> exists q, at_addr w p = Ok (realize q s).
Proof.
  intros (_ & F & O) E. destruct (a_sub_unique _ _ _ O E) as (_ & _ & _ & NH & _).
  unfold at_addr, forest. enough (exists q, deref_l p (flat_map (fun t : tv T => match t with Some l => l | None => [] end) (trees w)) = Some (realize q s)) as (q & ->) by eauto.
  revert E NH. clear O. induction F as [|x y l l' H F IH]; [discriminate|]. intros E NH.
  assert (NH' : forall i, In (AHusk i) l' -> i <> p) by (intros; apply NH; now right).
  inversion H; subst; cbn [a_sub flat_map app deref_l] in *; auto.
  - specialize (NH _ (or_introl eq_refl)).
    replace (deref p n) with (@None node); [auto|]. destruct n as [i lk pp ss v ks]. cbn in *. subst.
    destruct (Nat.eqb_spec i p); [congruence|reflexivity].
  - apply linked_eq in H0 as ->. pose proof (deref_realize p (r_id t) t) as D.
    destruct (sub p t).
    + injection E as ->. destruct D as (q & ->). eauto.
    + rewrite D. auto.
Qed.

Lemma holds_upd F (G : G_t) l l' :
  Forall2 holds l l' ->
  (forall i, In (AHusk i) l' -> F i = None) ->
  (forall t s, In (ATree t) l' -> In_sub s t -> agree F G s) ->
  (forall t, In (ATree t) l' -> r_id (at_id G t) = r_id t) ->
  Forall2 holds (map (option_map (map (upd F))) l)
          (map (fun t => match t with ATree t => ATree (at_id G t) | t => t end) l').
Proof.
  intros H HH HT HI. induction H as [|x y l l' H F2 IH]; cbn; constructor.
  - inversion H; subst; cbn; try constructor.
    + specialize (HH _ (or_introl eq_refl)). destruct n as [i lk pp ss v ks]. cbn in *. subst. rewrite HH.
      change i with (n_id (Nd i lk pp ss (@None T) [])) at 2. now constructor.
    + apply linked_eq in H0 as ->. rewrite (upd_realize F G).
      * rewrite <- (HI t) by now left. apply linked_realize.
      * intros. eapply HT; [now left|assumption].
  - apply IH; intros; [apply HH; now right|eapply HT; [right|]; eauto|apply HI; now right].
Qed.
Lemma at_id_id (G : G_t) (t : rose) : r_id (at_id G t) = r_id t.
Proof. destruct t as [i v ks]. cbn. destruct (G i) as [g|]; [destruct (g (v, ks))|]; reflexivity. Qed.

Lemma a_map_cnt (G : G_t) dom old new n (l : list (av T)) :
  NoDup dom -> (forall d e, In d dom -> In e dom -> cnt (old d) e = 0) ->
  (forall i, In (AHusk i) l -> ~ In i dom) ->
  (forall t s, In (ATree t) l -> In_sub s t ->
     match G (r_id s) with
     | Some g => In (r_id s) dom /\ flat_map ids (r_kids s) = old (r_id s) /\
                 flat_map ids (snd (g (r_val s, r_kids s))) = new (r_id s)
     | None => ~ In (r_id s) dom
     end) ->
  cnt (flat_map av_ids (map (fun t => match t with ATree t => ATree (at_id G t) | t => t end) l)) n
    + sumD dom (flat_map av_ids l) (fun d => cnt (old d) n) =
  cnt (flat_map av_ids l) n + sumD dom (flat_map av_ids l) (fun d => cnt (new d) n).
Proof.
  intros ND Z HH HT. induction l as [|x r IH]; [cbn; rewrite !sumD_nil; reflexivity|].
  specialize (IH (fun i I => HH i (or_intror I)) (fun t s I => HT t s (or_intror I))).
  cbn [map flat_map]. rewrite !count_occ_app, !sumD_app.
  enough (cnt (av_ids (match x with ATree t => ATree (at_id G t) | t => t end)) n + sumD dom (av_ids x) (fun d => cnt (old d) n) =
     cnt (av_ids x) n + sumD dom (av_ids x) (fun d => cnt (new d) n)) by lia.
  destruct x as [| |i|t]; cbn [av_ids]; rewrite ?sumD_nil; try reflexivity.
  - rewrite !sumD_out by (apply HH; now left). rewrite !sumD_nil. reflexivity.
  - apply at_id_cnt; auto. intros s S. apply (HT t s (or_introl eq_refl) S).
Qed.

Lemma flat_ins n k (m : rose) l : cnt (flat_map ids (insert_kid k m l)) n = cnt (ids m) n + cnt (flat_map ids l) n.
Proof.
  unfold insert_kid. rewrite flat_map_app. cbn [flat_map].
  rewrite <- (firstn_skipn k l) at 3. rewrite flat_map_app, !count_occ_app. lia.
Qed.
Lemma flat_del n k (l : list rose) : cnt (flat_map ids (remove_kid k l)) n <= cnt (flat_map ids l) n.
Proof.
  unfold remove_kid. rewrite flat_map_app.
  rewrite <- (firstn_skipn k l) at 3. rewrite flat_map_app, !count_occ_app.
  enough (cnt (flat_map ids (skipn (S k) l)) n <= cnt (flat_map ids (skipn k l)) n) by lia.
  revert k. induction l as [|x r IH]; intros [|k]; cbn [skipn flat_map]; try lia.
  - rewrite count_occ_app. destruct r; cbn; [lia|]. rewrite count_occ_app. lia.
  - apply IH.
Qed.

Lemma inv_on w (a : aworld T) p s f (g : node -> node) N :
  Inv w a -> a_sub p (a_trees a) = Some s -> a_next a <= N ->
  (forall q, g (realize q s) = realize q (R p (r_val s) (f (r_kids s)))) ->
  (forall n, cnt (flat_map ids (f (r_kids s))) n <= cnt (flat_map ids (r_kids s)) n + (if n =? a_next a then N - a_next a else 0)) ->
  N <= S (a_next a) ->
  Inv (upd_w (fun i => if i =? p then Some g else None) (mkW N (trees w)))
      (a_map (on p f) (mkA N (a_trees a))).
Proof.
  intros (NX & F & O) S LE HG HC LE'. destruct (a_sub_unique _ _ _ O S) as (ID & C1 & U & NH & CS).
  assert (NOS : forall n, cnt (flat_map ids (r_kids s)) n + (if p =? n then 1 else 0) <= cnt (all_ids a) n).
  { intros n. specialize (CS n). destruct s as [j v ks]. cbn in ID. subst j. cbn in *.
    destruct (Nat.eq_dec p n), (Nat.eqb_spec p n); try congruence; lia. }
  split; [reflexivity|]. split.
  - cbn. apply holds_upd; [exact F| | |].
    + intros i I. apply NH in I. destruct (Nat.eqb_spec i p); congruence.
    + intros t s' I IS. unfold agree, on. destruct (Nat.eqb_spec (r_id s') p) as [E|]; [|exact Logic.I].
      rewrite (U t s' I IS E). intros q. rewrite ID. apply HG.
    + intros. apply at_id_id.
  - apply ids_ok_cnt. apply ids_ok_cnt in O as [ND LT]. unfold all_ids, a_map. cbn [a_next a_trees].
    assert (Q : forall n, cnt (flat_map av_ids (map (fun t => match t with ATree t => ATree (at_id (on p f) t) | t => t end) (a_trees a))) n
      + sumD [p] (all_ids a) (fun d => cnt (flat_map ids (r_kids s)) n) =
      cnt (all_ids a) n + sumD [p] (all_ids a) (fun d => cnt (flat_map ids (f (r_kids s))) n)).
    { intros n. apply (a_map_cnt (on p f) [p] (fun _ => flat_map ids (r_kids s)) (fun _ => flat_map ids (f (r_kids s)))).
      - constructor; [intros []|constructor].
      - intros d e [<-|[]] [<-|[]]. specialize (NOS p). rewrite Nat.eqb_refl in NOS. lia.
      - intros i I [->|[]]. now apply NH in I.
      - intros t s' I IS. unfold on. destruct (Nat.eqb_spec (r_id s') p) as [E|NE].
        + rewrite (U t s' I IS E). repeat split. left. auto.
        + intros [E|[]]. congruence. }
    assert (Q' : forall n, cnt (flat_map av_ids (map (fun t => match t with ATree t => ATree (at_id (on p f) t) | t => t end) (a_trees a))) n
       <= cnt (all_ids a) n + (if n =? a_next a then N - a_next a else 0)).
    { intros n. specialize (Q n). cbn [sumD] in Q. rewrite C1 in Q. specialize (HC n). lia. }
    split; intros n.
    + specialize (Q' n). specialize (ND n). destruct (Nat.eqb_spec n (a_next a)) as [->|]; [|lia]. rewrite LT in Q' by lia. lia.
    + intros GE. specialize (Q' n). rewrite LT in Q' by lia. destruct (Nat.eqb_spec n (a_next a)); lia.
Qed.

Lemma ins_realize k i q (m : rose) l : q = i ->
  ins k (realize q m) (map (realize i) l) = map (realize i) (insert_kid k m l).
Proof. intros ->. unfold ins, insert_kid. now rewrite map_app, firstn_map, map_cons, skipn_map. Qed.
Lemma del_realize k i (l : list rose) : del k (map (realize i) l) = map (realize i) (remove_kid k l).
Proof. unfold del, remove_kid. now rewrite map_app, firstn_map, skipn_map. Qed.

Lemma emplace_ok w a a' p k v : Inv w a -> a_emplace a p k v = Some a' ->
  exists w', node_emplace w p k v = Ok w' /\ Inv w' a'.
Proof.
  intros I. unfold a_emplace, node_emplace. destruct (a_sub p (a_trees a)) as [s|] eqn:S; [|discriminate].
  destruct (at_addr_ok _ _ _ _ I S) as (q & ->). cbn [bind].
  rewrite val_realize, kids_realize, map_length, linkedb_realize, self_realize.
  destruct (k <=? length (r_kids s)); [|discriminate]. intros [= <-]. cbn [bind assert_ is_none negb].
  eexists. split; [reflexivity|].
  pose proof I as (NX & _ & O). destruct (a_sub_unique _ _ _ O S) as (ID & _). rewrite NX.
  unfold a_fresh. eapply inv_on; eauto.
  - intros q'. destruct s as [j x ks]. cbn in ID. subst j. cbn [realize r_val r_kids r_id]. f_equal.
    change (link_to (a_next a) p (moved (a_next a) (Nd 0 false 0 0 (Some v) []))) with (realize p (R (a_next a) v [])).
    now apply ins_realize.
  - intros n. rewrite flat_ins. cbn [ids flat_map count_occ]. destruct (Nat.eq_dec (a_next a) n), (Nat.eqb_spec n (a_next a)); try congruence; lia.
Qed.

Lemma get_ok w a x t : Inv w a -> a_get a x = Some t -> exists u, get w x = Ok u /\ holds u t.
Proof. intros (_ & F & _) E. unfold a_get in E. destruct (F2_nth _ _ _ _ _ F E) as (u & E' & H). unfold get. rewrite E'. eauto. Qed.
Lemma put_get_same {A} (l : list A) x a b : nth_error l x = Some b -> nth_error (put l x a) x = Some a.
Proof. revert x. induction l; intros [|x]; cbn; try discriminate; auto. Qed.
Lemma put_get_other {A} (l : list A) x y a : x <> y -> nth_error (put l x a) y = nth_error l y.
Proof. revert x y. induction l as [|z l IH]; intros [|x] [|y] N; cbn; try congruence. apply IH. congruence. Qed.

(** replacing tree variables *)
Lemma inv_set w (a : aworld T) x u t old N :
  Inv w a -> a_get a x = Some old -> holds u t -> a_next a <= N ->
  (forall n, cnt (av_ids t) n <= cnt (av_ids old) n + (if n =? a_next a then N - a_next a else 0)) -> N <= S (a_next a) ->
  Inv (set_tree (mkW N (trees w)) x u) (a_set (mkA N (a_trees a)) x t).
Proof.
  intros (NX & F & O) E H L C L'. split; [reflexivity|]. split; [apply F2_put; assumption|].
  apply ids_ok_cnt. apply ids_ok_cnt in O as [ND LT]. unfold all_ids. cbn [a_trees a_next a_set].
  assert (Q : forall n, cnt (flat_map av_ids (put (a_trees a) x t)) n <= cnt (all_ids a) n + (if n =? a_next a then N - a_next a else 0)).
  { intros n. pose proof (put_ids_cnt _ _ t _ n E). specialize (C n). unfold all_ids. lia. }
  split; intros n.
  + specialize (Q n). specialize (ND n). destruct (Nat.eqb_spec n (a_next a)) as [->|]; [|lia]. rewrite LT in Q by lia. lia.
  + intros GE. specialize (Q n). rewrite LT in Q by lia. destruct (Nat.eqb_spec n (a_next a)); lia.
Qed.

Lemma graft_ok w a a' x k y lo : Inv w a -> a_graft a x k y lo = Some a' ->
  (forall ty, lo ty = ANull \/ lo ty = AHusk (r_id ty)) ->
  exists tx ty w1, a_get a x = Some (ATree tx) /\ a_get a y = Some (ATree ty) /\ x <> y /\
    get w x = Ok (Some [realize (r_id tx) tx]) /\
    graft_node w x k y = Ok (w1, realize (r_id ty) ty) /\
    a_next a' = next w1 /\
    (exists z, get w1 y = Ok z) /\
    forall u, holds u (lo ty) -> Inv (set_tree w1 y u) a'.
Proof.
  intros I. unfold a_graft. destruct (Nat.eqb_spec x y) as [|NE]; [discriminate|].
  destruct (a_get a x) as [[| | |tx]|] eqn:EX; try discriminate.
  destruct (a_get a y) as [[| | |ty]|] eqn:EY; try discriminate.
  destruct (Nat.leb_spec k (length (r_kids tx))) as [LE|]; [|discriminate]. intros [= <-] LO.
  destruct (get_ok _ _ _ _ I EX) as (ux & GX & HX). destruct (get_ok _ _ _ _ I EY) as (uy & GY & HY).
  inversion HX as [| | |nx ? LX]; subst. apply linked_eq in LX as ->.
  inversion HY as [| | |ny ? LY]; subst. apply linked_eq in LY as ->.
  exists tx, ty. unfold graft_node. rewrite GX, GY. destruct (Nat.eqb_spec x y) as [|_]; [congruence|]. cbn [negb assert_ bind root_node].
  rewrite val_realize, kids_realize, map_length. cbn [is_none negb assert_ bind].
  destruct (Nat.leb_spec k (length (r_kids tx))); [|lia]. cbn [assert_ bind].
  eexists. split; [reflexivity|]. split; [reflexivity|]. split; [assumption|]. split; [reflexivity|]. split; [reflexivity|].
  pose proof I as (NX & F & O). split; [cbn; now rewrite NX|]. split.
  { unfold get, set_tree in *. cbn [trees]. rewrite put_get_other by assumption.
    destruct (nth_error (trees w) y); [eauto|discriminate]. }
  intros u HU. rewrite self_realize, link_moved, NX.
  set (t1 := R (r_id tx) (r_val tx) (insert_kid k (rename (a_next a) ty) (r_kids tx))).
  assert (H1 : holds (Some [(fun '(Nd i l p s v ks) => Nd i l p s v (ins k (realize (r_id tx) (rename (a_next a) ty)) ks)) (realize (r_id tx) tx)]) (ATree t1)).
  { constructor. destruct tx as [j z ks]. cbn [realize r_id]. unfold t1. cbn [r_id r_val r_kids].
    rewrite (ins_realize k j j) by reflexivity. apply (linked_realize j (R j z (insert_kid k (rename (a_next a) ty) ks))). }
  split; [reflexivity|]. split; [cbn; apply F2_put; [apply F2_put; assumption|assumption]|].
  apply ids_ok_cnt. apply ids_ok_cnt in O as [ND LT]. unfold all_ids, a_set, a_fresh. cbn [a_trees a_next].
  assert (Q : forall n, cnt (flat_map av_ids (put (put (a_trees a) x (ATree t1)) y (lo ty))) n <= cnt (all_ids a) n + (if n =? a_next a then 1 else 0)).
  { intros n. unfold a_get in EX, EY.
    pose proof (put_ids_cnt _ _ (ATree t1) _ n EX) as P1.
    assert (EY' : nth_error (put (a_trees a) x (ATree t1)) y = Some (ATree ty)) by (rewrite put_get_other; assumption).
    pose proof (put_ids_cnt _ _ (lo ty) _ n EY') as P2. unfold all_ids. cbn [av_ids] in *.
    assert (C1 : cnt (ids t1) n + (if r_id ty =? n then 1 else 0) = cnt (ids tx) n + cnt (ids ty) n + (if n =? a_next a then 1 else 0)).
    { unfold t1. destruct tx as [j z ks], ty as [j' z' ks']. cbn [ids r_id r_val r_kids rename count_occ]. rewrite flat_ins. cbn [ids count_occ].
      destruct (Nat.eq_dec j n), (Nat.eq_dec (a_next a) n), (Nat.eq_dec j' n), (Nat.eqb_spec j' n), (Nat.eqb_spec n (a_next a)); try congruence; lia. }
    destruct (LO ty) as [LL|LL]; rewrite LL in *; cbn [av_ids count_occ] in *.
    - lia.
    - destruct (Nat.eq_dec (r_id ty) n), (Nat.eqb_spec (r_id ty) n); try congruence; lia. }
  split; intros n.
  + specialize (Q n). specialize (ND n). destruct (Nat.eqb_spec n (a_next a)) as [->|]; [|lia]. rewrite LT in Q by lia. lia.
  + intros GE. specialize (Q n). rewrite LT in Q by lia. destruct (Nat.eqb_spec n (a_next a)); lia.
Qed.

Lemma graft_clear_ok w a a' x k y : Inv w a -> a_graft a x k y (fun _ => ANull) = Some a' ->
  exists w', graft w x k y = Ok w' /\ Inv w' a'.
Proof.
  intros I E. destruct (graft_ok w a a' x k y _ I E ltac:(auto)) as (tx & ty & w1 & _ & _ & _ & _ & G & _ & (z & Z) & H).
  unfold graft. rewrite G. cbn [bind]. unfold tree_clear. rewrite Z. cbn [bind]. eexists. split; [reflexivity|].
  apply H. constructor.
Qed.

Lemma swap_ok w a a' i j : Inv w a -> a_step a (OSwap i j) = Some a' -> exists w', node_swap w i j = Ok w' /\ Inv w' a'.
Proof.
  intros I. cbn [a_step]. destruct (a_sub i (a_trees a)) as [ti|] eqn:SI; [|discriminate].
  destruct (a_sub j (a_trees a)) as [tj|] eqn:SJ; [|discriminate].
  destruct (at_addr_ok _ _ _ _ I SI) as (qi & AI). destruct (at_addr_ok _ _ _ _ I SJ) as (qj & AJ).
  unfold node_swap. rewrite AI, AJ. cbn [bind]. rewrite !owned_realize.
  destruct ((i =? j) || negb (existsb (Nat.eqb j) (ids ti) || existsb (Nat.eqb i) (ids tj))) eqn:B; [|discriminate].
  intros [= <-]. cbn [assert_ bind]. eexists. split; [reflexivity|].
  pose proof I as (NX & F & O).
  destruct (a_sub_unique _ _ _ O SI) as (IDI & CI & UI & HI & LI).
  destruct (a_sub_unique _ _ _ O SJ) as (IDJ & CJ & UJ & HJ & LJ).
  split; [exact NX|]. split.
  - cbn. apply holds_upd; [exact F| | |].
    + intros h H. pose proof (HI h H). pose proof (HJ h H).
      destruct (Nat.eqb_spec h i); [congruence|]. destruct (Nat.eqb_spec h j); congruence.
    + intros t s IT IS. unfold agree. destruct (Nat.eqb_spec (r_id s) i) as [E|].
      * intros q. destruct s as [n v ks]. cbn [r_id r_val r_kids] in *. apply take_realize.
      * destruct (Nat.eqb_spec (r_id s) j) as [E|]; [|exact Logic.I].
        intros q. destruct s as [n0 v ks]. cbn [r_id r_val r_kids] in *. apply take_realize.
    + intros. apply at_id_id.
  - set (G := fun n => if n =? i then Some (fun _ : T * list rose => (r_val tj, r_kids tj))
                       else if n =? j then Some (fun _ : T * list rose => (r_val ti, r_kids ti)) else None).
    enough (Q : forall n, cnt (flat_map av_ids (map (fun t => match t with ATree t => ATree (at_id G t) | t => t end) (a_trees a))) n = cnt (all_ids a) n).
    { apply ids_ok_cnt. apply ids_ok_cnt in O as [ND LT]. unfold all_ids at 1 2, a_map. cbn [a_trees a_next].
      split; intros n; [|intros L]; rewrite Q; auto. }
    intros n. destruct (Nat.eqb_spec i j) as [->|NE].
    + assert (tj = ti) as -> by congruence.
      assert (NO : cnt (flat_map ids (r_kids ti)) j = 0).
      { specialize (LI j). rewrite CI in LI. destruct ti as [i' v ks]. cbn in *. subst i'. destruct (Nat.eq_dec j j); [lia|congruence]. }
      pose proof (a_map_cnt G [j] (fun _ => flat_map ids (r_kids ti)) (fun _ => flat_map ids (r_kids ti)) n (a_trees a)) as Q.
      cbn [sumD] in Q. fold (all_ids a) in Q. enough (cnt (flat_map av_ids (map (fun t => match t with ATree t => ATree (at_id G t) | t => t end) (a_trees a))) n +
    (cnt (all_ids a) j * cnt (flat_map ids (r_kids ti)) n + 0) =
    cnt (all_ids a) n + (cnt (all_ids a) j * cnt (flat_map ids (r_kids ti)) n + 0)) by lia.
      apply Q.
      * constructor; [intros []|constructor].
      * intros d e [<-|[]] [<-|[]]. exact NO.
      * intros h H [->|[]]. now apply HI in H.
      * intros t s IT IS. unfold G. destruct (Nat.eqb_spec (r_id s) j) as [E|NE].
        -- rewrite (UI t s IT IS E). repeat split. left. congruence.
        -- intros [E|[]]. congruence.
    + cbn [orb] in B. apply negb_true_iff, orb_false_iff in B as [B1 B2].
      assert (N1 : ~ In j (ids ti)). { intros X. rewrite (proj2 (existsb_exists _ _)) in B1; [discriminate|]. exists j. split; [exact X|apply Nat.eqb_refl]. }
      assert (N2 : ~ In i (ids tj)). { intros X. rewrite (proj2 (existsb_exists _ _)) in B2; [discriminate|]. exists i. split; [exact X|apply Nat.eqb_refl]. }
      set (K := fun d => if d =? i then flat_map ids (r_kids ti) else flat_map ids (r_kids tj)).
      set (K' := fun d => if d =? i then flat_map ids (r_kids tj) else flat_map ids (r_kids ti)).
      pose proof (a_map_cnt G [i; j] K K' n (a_trees a)) as Q.
      cbn [sumD] in Q. fold (all_ids a) in Q. rewrite CI, CJ in Q.
      assert (KI : K i = flat_map ids (r_kids ti)) by (unfold K; now rewrite Nat.eqb_refl).
      assert (KI' : K' i = flat_map ids (r_kids tj)) by (unfold K'; now rewrite Nat.eqb_refl).
      assert (KJ : K j = flat_map ids (r_kids tj)) by (unfold K; destruct (Nat.eqb_spec j i); congruence).
      assert (KJ' : K' j = flat_map ids (r_kids ti)) by (unfold K'; destruct (Nat.eqb_spec j i); congruence).
      rewrite KI, KI', KJ, KJ' in Q.
      enough (cnt (flat_map av_ids (map (fun t => match t with ATree t => ATree (at_id G t) | t => t end) (a_trees a))) n +
    (1 * cnt (flat_map ids (r_kids ti)) n + (1 * cnt (flat_map ids (r_kids tj)) n + 0)) =
    cnt (all_ids a) n + (1 * cnt (flat_map ids (r_kids tj)) n + (1 * cnt (flat_map ids (r_kids ti)) n + 0))) by lia.
      assert (SUBK : forall (t : rose) m, cnt (flat_map ids (r_kids t)) m + (if r_id t =? m then 1 else 0) = cnt (ids t) m).
      { intros [x v ks] m. cbn. destruct (Nat.eq_dec x m), (Nat.eqb_spec x m); try congruence; lia. }
      assert (Z : forall (t : rose) m, ~ In m (ids t) -> cnt (flat_map ids (r_kids t)) m = 0).
      { intros t m X. apply (count_occ_not_In Nat.eq_dec) in X. specialize (SUBK t m). lia. }
      assert (ZI : cnt (flat_map ids (r_kids ti)) i = 0).
      { specialize (SUBK ti i). rewrite IDI, Nat.eqb_refl in SUBK. specialize (LI i). lia. }
      assert (ZJ : cnt (flat_map ids (r_kids tj)) j = 0).
      { specialize (SUBK tj j). rewrite IDJ, Nat.eqb_refl in SUBK. specialize (LJ j). lia. }
      apply Q; clear Q.
      * constructor; [intros [E|[]]; congruence|]. constructor; [intros []|constructor].
      * intros d e [<-|[<-|[]]] [<-|[<-|[]]]; rewrite ?KI, ?KJ; auto.
      * intros h H [->|[->|[]]]; [now apply HI in H|now apply HJ in H].
      * intros t s IT IS. unfold G. destruct (Nat.eqb_spec (r_id s) i) as [E|NE'].
        -- rewrite E, KI, KI', (UI t s IT IS E). repeat split. now left.
        -- destruct (Nat.eqb_spec (r_id s) j) as [E|NE''].
           ++ rewrite E, KJ, KJ', (UJ t s IT IS E). repeat split. right. now left.
           ++ intros [E|[E|[]]]; congruence.
Qed.

Lemma step_ok w a a' o : Inv w a -> a_step a o = Some a' -> exists w', step w o = Ok w' /\ Inv w' a'.
Proof.
  intros I. pose proof I as (NX & F & O).
  destruct o as [x v|x|x|p k v|p v|p v|p k|i j|x k y|x y|x y|x k y|x y]; try (exact (swap_ok w a a' i j I)); cbn [a_step step].
  - destruct (a_get a x) as [t|] eqn:E; [|discriminate]. intros [= <-]. destruct (get_ok _ _ _ _ I E) as (u & G & _).
    unfold tree_new. rewrite G. cbn [bind]. eexists. split; [reflexivity|]. rewrite NX. eapply inv_set; eauto.
    + constructor. apply (linked_realize (a_next a) (R (a_next a) v [])).
    + intros n. cbn [ids av_ids flat_map count_occ]. destruct (Nat.eq_dec (a_next a) n), (Nat.eqb_spec n (a_next a)); try congruence; lia.
  - destruct (a_get a x) as [t|] eqn:E; [|discriminate]. intros [= <-]. destruct (get_ok _ _ _ _ I E) as (u & G & _).
    unfold tree_false. rewrite G. cbn [bind]. eexists. split; [reflexivity|].
    destruct w as [nw tw], a as [na ta]. cbn in NX. subst nw. apply (inv_set (mkW na tw) (mkA na ta) x (Some []) ANone t na); auto.
    + constructor.
    + cbn. lia.
  - destruct (a_get a x) as [t|] eqn:E; [|discriminate]. intros [= <-]. destruct (get_ok _ _ _ _ I E) as (u & G & _).
    unfold tree_clear. rewrite G. cbn [bind]. eexists. split; [reflexivity|].
    destruct w as [nw tw], a as [na ta]. cbn in NX. subst nw. apply (inv_set (mkW na tw) (mkA na ta) x None ANull t na); auto.
    + constructor.
    + cbn. lia.
  - apply emplace_ok. exact I.
  - apply emplace_ok. exact I.
  - destruct (a_sub p (a_trees a)) as [s|] eqn:S; [|discriminate]. intros E. unfold node_emplace_back.
    destruct (at_addr_ok _ _ _ _ I S) as (q & ->). cbn [bind]. rewrite kids_realize, map_length. apply (emplace_ok w a a'); assumption.
  - destruct (a_sub p (a_trees a)) as [s|] eqn:S; [|discriminate].
    destruct (Nat.ltb_spec k (length (r_kids s))) as [LK|]; [|discriminate]. intros [= <-]. unfold node_erase.
    destruct (at_addr_ok _ _ _ _ I S) as (q & ->). cbn [bind]. rewrite val_realize, kids_realize, map_length.
    destruct (Nat.ltb_spec k (length (r_kids s))); [|lia]. cbn [is_none negb assert_ bind].
    eexists. split; [reflexivity|]. destruct (a_sub_unique _ _ _ O S) as (ID & _).
    destruct w as [nw tw], a as [na ta]. cbn in NX. subst nw.
    eapply (inv_on (mkW na tw) (mkA na ta) p s (remove_kid k) _ na); eauto.
    + intros q'. destruct s as [j x ks]. cbn in ID. subst j. cbn [realize r_val r_kids r_id]. f_equal. apply del_realize.
    + intros n. pose proof (flat_del n k (r_kids s)). lia.
  - apply graft_clear_ok. exact I.
  - apply graft_clear_ok. exact I.
  - destruct (a_get a x) as [[| | |tx]|] eqn:E; try discriminate. intros G. unfold graft_back.
    destruct (get_ok _ _ _ _ I E) as (u & -> & H). inversion H as [| | |n ? LK]; subst. apply linked_eq in LK as ->.
    cbn [bind root_node]. rewrite kids_realize, map_length. apply (graft_clear_ok w a); assumption.
  - intros E. destruct (graft_ok w a a' x k y _ I E ltac:(auto)) as (tx & ty & w1 & _ & _ & _ & GX & G & _ & (z & Z) & H).
    unfold graft_move. rewrite GX. cbn [bind root_node]. rewrite linkedb_realize. cbn [assert_ bind]. rewrite G. cbn [bind].
    eexists. split; [reflexivity|]. apply H.
    replace (r_id ty) with (n_id (husk (realize (r_id ty) ty))) at 2 by (destruct ty; reflexivity).
    constructor; destruct ty; reflexivity.
  - destruct (a_get a x) as [t|] eqn:E; [|discriminate]. destruct (a_get a y) as [u|] eqn:E'; [|discriminate]. intros [= <-].
    destruct (get_ok _ _ _ _ I E) as (t' & G & H). destruct (get_ok _ _ _ _ I E') as (u' & G' & H').
    unfold tree_swap. rewrite G, G'. cbn [bind]. eexists. split; [reflexivity|].
    split; [exact NX|]. split; [cbn; apply F2_put; [apply F2_put; assumption|assumption]|].
    apply ids_ok_cnt. apply ids_ok_cnt in O as [ND LT]. unfold all_ids, a_set. cbn [a_trees a_next].
    enough (Q : forall n, cnt (flat_map av_ids (put (put (a_trees a) x u) y t)) n = cnt (all_ids a) n)
      by (split; intros n; [|intros L]; rewrite Q; auto).
    intros n. unfold a_get in E, E'. pose proof (put_ids_cnt _ _ u _ n E) as P1.
    destruct (Nat.eq_dec x y) as [<-|N].
    + assert (E2 : nth_error (put (a_trees a) x u) x = Some u) by (eapply put_get_same; eauto).
      pose proof (put_ids_cnt _ _ t _ n E2). unfold all_ids. lia.
    + assert (E2 : nth_error (put (a_trees a) x u) y = Some u) by (rewrite put_get_other; assumption).
      pose proof (put_ids_cnt _ _ t _ n E2). unfold all_ids. lia.
Qed.

Lemma run_ok h w a a' : Inv w a -> a_run a h = Some a' -> exists w', run w h = Ok w' /\ Inv w' a'.
Proof.
  revert w a. induction h as [|o r IH]; cbn; intros w a I.
  - intros [= <-]. eauto.
  - destruct (a_step a o) as [a1|] eqn:E; [|discriminate]. destruct (step_ok _ _ _ _ I E) as (w1 & -> & I1). cbn [bind]. apply IH. exact I1.
Qed.

Definition nulls (n : nat) : world T := mkW 0 (repeat None n).
Definition a_nulls (n : nat) : aworld T := mkA 0 (repeat ANull n).
Lemma nulls_inv n : Inv (nulls n) (a_nulls n).
Proof.
  split; [reflexivity|]. cbn. assert (E : all_ids (a_nulls n) = []) by (unfold all_ids; cbn; induction n; cbn; auto).
  split; [induction n; cbn; constructor; auto; constructor|]. split; rewrite E; constructor.
Qed.
Lemma holds_obs (u : tv T) t : holds u (ATree t) -> exists n, u = Some [n] /\ linked_as (r_id t) n t /\
   tree_size u = Ok (count t) /\ tree_check u = true /\ tree_empty u = false.
Proof.
  intros H. inversion H as [| | |n ? L]; subst. exists n. split; [reflexivity|]. split; [exact L|].
  apply linked_eq in L as ->. unfold tree_size, tree_check. cbn [tree_empty root_node bind].
  rewrite val_realize, size_realize, check_realize. auto.
Qed.
End P.
