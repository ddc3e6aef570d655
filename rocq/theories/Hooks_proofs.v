(** Proofs about the links from statements to nodes. *)
From Coq Require Import Lia.
From Verif Require Import Base Base_lemmas Tags StmtRules Prgm Prgm_spec Visitor_spec Hooks Hooks_spec.
Local Open Scope nat_scope.

Fixpoint link_kids (k : nat) (l : list ptree) (w : list nat) (h : hooks) : hooks :=
  match l with [] => h | b :: r => link_kids (S k) r w (link_stmts b (k :: w) h) end.
Lemma link_node g r o b kids w h : link_stmts (PT g r o (b :: kids)) w h = link_kids 0 (b :: kids) w h.
Proof.
  cbn [link_stmts]. set (l := b :: kids).
  assert (E : forall l k h, (fix go (k : nat) (l : list ptree) (h : hooks) : hooks := match l with [] => h | b :: r => go (S k) r (link_stmts b (k :: w) h) end) k l h = link_kids k l w h).
  { clear. induction l as [|x l IH]; intros k h; [reflexivity|]. cbn [link_kids]. apply IH. }
  exact (E l 0 h).
Qed.
Definition linked (t : ptree) : Prop := forall w h i,
  (exists p, last_holds t p i /\ link_stmts t w h i = Some (rev w ++ p)) \/ (forall p, ~ holds t p i) /\ link_stmts t w h i = h i.
(** the branches from number k on *)
Definition kid_holds (k : nat) (l : list ptree) (j : nat) (p : list nat) (i : nat) : Prop := exists t, k <= j /\ nth_error l (j - k) = Some t /\ holds t p i.
Lemma kids_linked l : Forall linked l -> forall k w h i,
  (exists j p, kid_holds k l j p i /\ (forall j' p', kid_holds k l j' p' i -> j' < j \/ j' = j /\ (p' = p \/ left_of p' p)) /\ link_kids k l w h i = Some (rev w ++ j :: p)) \/
  (forall j p, ~ kid_holds k l j p i) /\ link_kids k l w h i = h i.
Proof.
  induction 1 as [|t l T _ IH]; intros k w h i; cbn [link_kids].
  - right. split; [|reflexivity]. intros j p (t & _ & N & _). destruct (j - k); discriminate.
  - assert (SH : forall j p, kid_holds k (t :: l) j p i <-> j = k /\ holds t p i \/ kid_holds (S k) l j p i).
    { intros j p. split.
      - intros (t0 & L & N & H). destruct (Nat.eq_dec j k) as [->|NE]; [left|right].
        + rewrite Nat.sub_diag in N. injection N as <-. auto.
        + exists t0. split; [lia|]. split; [|exact H]. replace (j - k) with (S (j - S k)) in N by lia. exact N.
      - intros [(-> & H)|(t0 & L & N & H)]; [exists t; rewrite Nat.sub_diag; auto|]. exists t0. split; [lia|]. split; [|exact H]. replace (j - k) with (S (j - S k)) by lia. exact N. }
    destruct (IH (S k) w (link_stmts t (k :: w) h) i) as [(j & p & H1 & H2 & H3)|(H1 & H2)].
    + left. exists j, p. split; [apply SH; right; exact H1|]. split; [|exact H3]. intros j' p' H. apply SH in H. destruct H as [(-> & _)|H]; [left; destruct H1 as (t0 & L & _); lia|apply H2; exact H].
    + rewrite H2. destruct (T (k :: w) h i) as [(p & (L1 & L2) & L3)|(L1 & L2)].
      * left. exists k, p. split; [apply SH; left; auto|]. split.
        -- intros j' p' H. apply SH in H. destruct H as [(-> & H)|H]; [right; split; [reflexivity|apply L2; exact H]|exfalso; apply (H1 _ _ H)].
        -- rewrite L3. cbn [rev]. rewrite <- app_assoc. reflexivity.
      * right. split; [|exact L2]. intros j p H. apply SH in H. destruct H as [(_ & H)|H]; [apply (L1 _ H)|apply (H1 _ _ H)].
Qed.
Lemma all_linked : forall t, linked t.
Proof.
  fix F 1. intros [g r o kids]. destruct kids as [|b kids].
  - intros w h i. cbn [link_stmts]. destruct o as [i0|].
    + unfold set_hook. destruct (Nat.eqb_spec i i0) as [->|N].
      * left. exists []. rewrite app_nil_r. split; [|reflexivity]. split; [eexists; repeat split|]. intros q (u & U & _). destruct q as [|a q]; [left; reflexivity|]. cbn [node_at g_kids] in U. destruct a; discriminate.
      * right. split; [|reflexivity]. intros [|a p] (u & U & K & S); cbn [node_at g_kids] in U; [injection U as <-; cbn [g_stmt] in S; congruence|destruct a; discriminate].
    + right. split; [|reflexivity]. intros [|a p] (u & U & K & S); cbn [node_at g_kids] in U; [injection U as <-; discriminate|destruct a; discriminate].
  - assert (A : Forall linked (b :: kids)).
    { set (l := b :: kids). clearbody l. revert l. fix G 1. intros [|x l]; constructor; [apply F|apply G]. }
    intros w h i. rewrite link_node.
    assert (SH : forall p, holds (PT g r o (b :: kids)) p i <-> exists j q, p = j :: q /\ kid_holds 0 (b :: kids) j q i).
    { intros p. split.
      - intros (u & U & K & S). destruct p as [|j q]; cbn [node_at g_kids] in U; [injection U as <-; discriminate|]. destruct (nth_error (b :: kids) j) as [x|] eqn:N; [|discriminate].
        exists j, q. split; [reflexivity|]. exists x. split; [lia|]. rewrite Nat.sub_0_r. split; [exact N|]. exists u. auto.
      - intros (j & q & -> & x & _ & N & u & U & K & S). rewrite Nat.sub_0_r in N. exists u. cbn [node_at g_kids]. rewrite N. auto. }
    destruct (kids_linked _ A 0 w h i) as [(j & p & H1 & H2 & H3)|(H1 & H2)].
    + left. exists (j :: p). split; [|exact H3]. split; [apply SH; eauto|]. intros q Q. apply SH in Q. destruct Q as (j' & p' & -> & Q). destruct (H2 _ _ Q) as [LT|(-> & [->|(c & a & b' & x & y & -> & -> & LT)])].
      * right. exists [], j', j, p', p. auto.
      * left. reflexivity.
      * right. exists (j :: c), a, b', x, y. auto.
    + right. split; [|exact H2]. intros p P. apply SH in P. destruct P as (j & q & _ & P). apply (H1 _ _ P).
Qed.
Lemma hooks_last t i : (exists p, last_holds t p i /\ hooks_of t i = Some p) \/ (forall p, ~ holds t p i) /\ hooks_of t i = None.
Proof. exact (all_linked t [] no_hooks i). Qed.
(** the leaves of a tree as a list, and its ways *)
Lemma leaves_held : forall t sh i f, (forall u, node_of u t -> g_stmt u <> None -> g_kids u = []) -> In (i, f) (g_leaves sh t) -> exists p, holds t p i.
Proof.
  fix F 1. intros [g r o kids] sh i f L I. destruct o as [i0|].
  - cbn [g_leaves] in I. destruct I as [I|[]]. injection I as <- _. exists []. exists (PT g r (Some i0) kids). split; [reflexivity|]. split; [|reflexivity]. apply (L _ (node_root _)). discriminate.
  - cbn [g_leaves] in I. assert (LK : forall k, In k kids -> forall u, node_of u k -> g_stmt u <> None -> g_kids u = []) by (intros k K u U; apply L; econstructor; eauto).
    assert (exists j p x, nth_error kids j = Some x /\ holds x p i) as (j & p & x & N & H).
    { clear L. revert kids I LK. fix G 1. intros [|k kids] I LK; cbn [flat_map] in I; [destruct I|]. apply in_app_or in I. destruct I as [I|I].
      - destruct (F k _ i f (LK k (or_introl eq_refl)) I) as (p & P). exists 0, p, k. split; [reflexivity|exact P].
      - destruct (G kids I (fun k' K => LK k' (or_intror K))) as (j & p & x & N & P). exists (S j), p, x. split; [exact N|exact P]. }
    exists (j :: p). destruct H as (u & U & K & S). exists u. cbn [node_at g_kids]. rewrite N. auto.
Qed.
(** ways that part lead to two places in the list of leaves *)
Lemma held_leaf : forall p t sh i, (forall u, node_of u t -> g_stmt u <> None -> g_kids u = []) -> holds t p i -> In i (map fst (g_leaves sh t)).
Proof.
  induction p as [|a p IH]; intros [g r o kids] sh i L (u & U & K & S); cbn [node_at g_kids] in U.
  - injection U as <-. cbn [g_stmt] in S. subst o. left. reflexivity.
  - destruct (nth_error kids a) as [x|] eqn:N; [|discriminate]. destruct o as [i0|].
    + assert (E : kids = []) by (apply (L _ (node_root _)); discriminate). subst. destruct a; discriminate.
    + cbn [g_leaves]. apply nth_error_In in N. assert (H : In i (map fst (g_leaves (g =? PG_DO_TERM_SHARED_STMT)%Z x))).
      { apply IH; [intros v V; apply L; econstructor; eauto|]. exists u. auto. }
      apply in_map_iff in H. destruct H as (y & <- & Y). apply in_map. apply in_flat_map. eauto.
Qed.
Lemma nodup_apart {A} (l1 l2 : list A) x : NoDup (l1 ++ l2) -> In x l1 -> In x l2 -> False.
Proof.
  induction l1 as [|a l1 IH]; cbn; intros N I J; [destruct I|]. inversion N as [|? ? N1 N2]; subst. destruct I as [->|I]; [apply N1; apply in_or_app; auto|apply (IH N2 I J)].
Qed.
Lemma nodup_right {A} (l1 l2 : list A) : NoDup (l1 ++ l2) -> NoDup l2.
Proof. induction l1 as [|a l1 IH]; cbn; intro N; [exact N|]. inversion N; auto. Qed.
Lemma nodup_left {A} (l1 l2 : list A) : NoDup (l1 ++ l2) -> NoDup l1.
Proof. induction l1 as [|a l1 IH]; cbn; intro N; [constructor|]. inversion N; subst. constructor; [|auto]. intro. apply H1. apply in_or_app. auto. Qed.
Lemma parted_twice : forall c t sh i a b p q, (forall u, node_of u t -> g_stmt u <> None -> g_kids u = []) ->
  holds t (c ++ a :: p) i -> holds t (c ++ b :: q) i -> a < b -> ~ NoDup (map fst (g_leaves sh t)).
Proof.
  induction c as [|d c IH]; intros [g r o kids] sh i a b p q L (u & U & K & S) (v & V & K' & S') LT ND.
  - cbn [app node_at g_kids] in U, V. destruct (nth_error kids a) as [x|] eqn:N; [|discriminate]. destruct (nth_error kids b) as [y|] eqn:N'; [|discriminate].
    destruct o as [i0|]; [assert (E : kids = []) by (apply (L _ (node_root _)); discriminate); subst; destruct a; discriminate|]. cbn [g_leaves] in ND.
    apply nth_error_split in N. destruct N as (l1 & l2 & E & E1). rewrite E, nth_error_app2 in N' by lia. replace (b - length l1) with (Datatypes.S (b - length l1 - 1)) in N' by lia. cbn [nth_error] in N'.
    apply nth_error_In in N'. rewrite E, flat_map_app, map_app in ND. apply nodup_right in ND. cbn [flat_map] in ND. rewrite map_app in ND.
    apply (nodup_apart _ _ i ND).
    + apply (held_leaf p); [intros w W; apply L; econstructor; [|exact W]; rewrite E; apply in_or_app; right; left; reflexivity|]. exists u. auto.
    + assert (H : In i (map fst (g_leaves (g =? PG_DO_TERM_SHARED_STMT)%Z y))) by (apply (held_leaf q); [intros w W; apply L; econstructor; [|exact W]; rewrite E; apply in_or_app; right; right; exact N'|exists v; auto]).
      apply in_map_iff in H. destruct H as (z & <- & Z). apply in_map. apply in_flat_map. eauto.
  - cbn [app node_at g_kids] in U, V. destruct (nth_error kids d) as [x|] eqn:N; [|discriminate].
    destruct o as [i0|]; [assert (E : kids = []) by (apply (L _ (node_root _)); discriminate); subst; destruct d; discriminate|]. cbn [g_leaves] in ND.
    apply (IH x (g =? PG_DO_TERM_SHARED_STMT)%Z i a b p q); [| exists u; auto|exists v; auto|exact LT|].
    + intros w W. apply L. econstructor; [|exact W]. apply nth_error_In in N. exact N.
    + apply nth_error_split in N. destruct N as (l1 & l2 & E & _). rewrite E, flat_map_app, map_app in ND. apply nodup_right in ND. cbn [flat_map] in ND. rewrite map_app in ND. apply nodup_left in ND. exact ND.
Qed.
Lemma left_irrefl p : ~ left_of p p.
Proof. intros (c & a & b & x & y & E & E' & LT). rewrite E in E'. apply app_inv_head in E'. injection E' as -> _. lia. Qed.
Lemma left_asym p q : left_of p q -> left_of q p -> False.
Proof.
  intros (c & a & b & x & y & -> & -> & LT) (c' & a' & b' & x' & y' & E & E' & LT'). revert c' E E'. induction c as [|d c IH]; intros [|d' c'] E E'; cbn in E, E'.
  - injection E as -> _. injection E' as -> _. lia.
  - injection E as -> _. injection E' as -> _. lia.
  - injection E as -> _. injection E' as -> _. lia.
  - injection E as -> E. injection E' as E'. apply (IH c' E E').
Qed.
Lemma last_one t p q i : last_holds t p i -> last_holds t q i -> p = q.
Proof. intros (H1 & H2) (G1 & G2). destruct (H2 _ G1) as [E|E]; [auto|]. destruct (G2 _ H1) as [F|F]; [auto|]. exfalso. apply (left_asym _ _ E F). Qed.
