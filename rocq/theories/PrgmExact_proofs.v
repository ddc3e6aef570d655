(** When no program parser gives up, nothing is lost. *)
From Coq Require Import Lia.
From Verif Require Import Base Tags Token StmtRules Peg LabelStack Prgm Prgm_spec Prgm_proofs.
Local Open Scope nat_scope.

Lemma exactly_app a l1 b : exactly a l1 b -> forall l2 c, exactly b l2 c -> exactly a (l1 ++ l2) c.
Proof. induction 1; intros l2 c H2; cbn; [exact H2|constructor; auto|apply exactly_again; auto]. Qed.
Lemma exactly_raise l l' : Forall2 raised l l' -> forall a b, exactly a l b -> exactly a l' b.
Proof.
  induction 1 as [|[i f] [j g] l l' [H1 H2] H IH]; intros a b Hx; [exact Hx|].
  cbn in *. subst j. inversion Hx; subst; [constructor; auto|]. rewrite (H2 eq_refl). apply exactly_again; auto.
Qed.
Lemma exactly_le a l b : exactly a l b -> a <= b.
Proof. induction 1; lia. Qed.
Lemma exactly_steps a l b : exactly a l b -> steps l.
Proof.
  induction 1 as [b|b f l e H IH|b l e H IH]; [constructor| |].
  - inversion H; subst; constructor; auto.
  - inversion H; subst; constructor; auto.
Qed.
Lemma exactly_in a l b : exactly a l b -> forall i, a <= i < b -> In i (map fst l).
Proof.
  induction 1 as [b|b f l e H IH|b l e H IH]; intros i Hi; [lia| |].
  - destruct (Nat.eq_dec i b) as [->|]; [left; reflexivity|right; apply IH; lia].
  - right. apply IH. lia.
Qed.
Lemma exactly_range a l b : exactly a l b -> forall i f, In (i, f) l -> a <= i /\ (i < b \/ (i = b /\ f = true)).
Proof.
  induction 1 as [b|b f l e H IH|b l e H IH]; intros i g Hi; [destruct Hi| |].
  - pose proof (exactly_le _ _ _ H). destruct Hi as [Hi|Hi]; [inversion Hi; subst; lia|]. apply IH in Hi as [? ?]; split; [lia|auto].
  - pose proof (exactly_le _ _ _ H). destruct Hi as [Hi|Hi].
    + inversion Hi; subst. split; auto. destruct (Nat.eq_dec i e); [right; auto|left; lia].
    + apply IH in Hi as [? ?]; split; [lia|auto].
Qed.

(** the statement parsers that a combinator uses *)
Section Uses.
Variable Q : rule -> bool.
Fixpoint uses (p : gexp) : bool :=
  match p with
  | GAlts _ ps | GOptSeq _ ps | GSeq _ ps => forallb uses ps
  | GSeqIf _ p0 ps => uses p0 && forallb uses ps
  | GOpt q | GPlus _ q | GStar q | GTag _ q => uses q
  | GStmt r => Q r
  | GEnd | GCall _ => true
  end.
Definition uses_body (b : gbody) : bool := match b with GBody p | GExec p => uses p | GDo => true end.
End Uses.

Definition real (t : ptree) : Prop := g_stmt t = None \/ g_tag t <> HOIST.
Definition traised (a b : nat * bool * Z) : Prop :=
  let '(i, f, g) := a in let '(j, h, k) := b in i = j /\ g = k /\ (f = true -> h = true).
Lemma traised_refl l : Forall2 traised l l.
Proof. induction l as [|[[i f] g] l IH]; constructor; auto. cbn. auto. Qed.
Lemma tags_raise sh t : Forall2 traised (g_tags false t) (g_tags sh t).
Proof.
  destruct t as [g r [i|] kids]; cbn [g_tags]; [|apply traised_refl]. constructor; auto. cbn. repeat split; auto. discriminate.
Qed.
Definition ktags (kids : list ptree) : list (nat * bool * Z) := flat_map (g_tags false) kids.
Lemma ktags_raise g r kids : Forall2 traised (ktags kids) (g_tags false (PT g r None kids)).
Proof.
  unfold ktags. cbn [g_tags]. induction kids as [|t kids IH]; cbn [flat_map]; [constructor|].
  apply Forall2_app; auto. apply tags_raise.
Qed.

Section Exact.
Variable body : grule -> gbody.
Variable x : stmts.
Variable Q : rule -> bool.
Hypothesis HQ : forall r i t, Q r = true -> x_parse x i r = Done (Some t) -> t_tag t <> HOIST.
Hypothesis Hbody : forall r, uses_body Q (body r) = true.
Hypothesis Hdo : Q r_do_stmt = true /\ Q r_end_do_stmt = true /\ Q r_end_do = true /\ Q r_action_stmt = true.

(** the trees attached while moving from p to q *)
Definition attached (p : nat) (new : list (nat * stree)) (q : nat) : Prop :=
  rev (map fst new) = seq p (q - p) /\ p <= q /\ forall i t, In (i, t) new -> exists r, x_parse x i r = Done (Some t).
Definition tagged (new : list (nat * stree)) (l : list (nat * bool * Z)) : Prop :=
  forall i f g, In (i, f, g) l ->
    (exists r t, x_parse x i r = Done (Some t) /\ t_tag t = g) /\
    (f = false -> exists t, In (i, t) new /\ t_tag t = g).

Lemma attached_nil p : attached p [] p.
Proof using. split; [rewrite Nat.sub_diag; reflexivity|]. split; auto. intros i t []. Qed.
Lemma attached_app p n1 m n2 q : attached p n1 m -> attached m n2 q -> attached p (n2 ++ n1) q.
Proof using.
  intros [H1 [H2 H3]] [H4 [H5 H6]]. split; [|split; [lia|]].
  - rewrite map_app, rev_app_distr, H1, H4. replace (q - p) with ((m - p) + (q - m)) by lia.
    rewrite seq_app. do 2 f_equal. lia.
  - intros i t Hi. apply in_app_or in Hi as [Hi|Hi]; eauto.
Qed.
Lemma attached_one i r t : x_parse x i r = Done (Some t) -> attached i [(i, t)] (S i).
Proof using.
  intro H. split; [|split; [lia|]].
  - replace (S i - i) with 1 by lia. reflexivity.
  - intros j u [Hj|[]]. inversion Hj; subst. eauto.
Qed.
Lemma tagged_app n l1 l2 : tagged n l1 -> tagged n l2 -> tagged n (l1 ++ l2).
Proof using. intros H1 H2 i f g Hi. apply in_app_or in Hi as [Hi|Hi]; eauto. Qed.
Lemma tagged_more n n' l : tagged n l -> incl n n' -> tagged n' l.
Proof using.
  intros H Hi i f g Hl. destruct (H _ _ _ Hl) as [H1 H2]. split; auto. intro Hf. destruct (H2 Hf) as [t [Ht Hg]]. eauto.
Qed.
Lemma tagged_raise n l l' : Forall2 traised l l' -> tagged n l -> tagged n l'.
Proof using.
  intros H Ht i f g Hi.
  assert (K : exists f0, In (i, f0, g) l /\ (f0 = true -> f = true)).
  { clear Ht. induction H as [|[[j h] k] [[j' h'] k'] l l' [E1 [E2 E3]] H IH]; [destruct Hi|].
    subst. destruct Hi as [Hi|Hi]; [inversion Hi; subst; exists h; split; [left; reflexivity|auto]|].
    destruct (IH Hi) as [f0 [Hf Hg]]. exists f0. split; [right; exact Hf|exact Hg]. }
  destruct K as [f0 [K1 K2]]. destruct (Ht _ _ _ K1) as [H1 H2]. split; auto.
  intros ->. apply H2. destruct f0; auto. discriminate (K2 eq_refl).
Qed.

(** what has happened between two states *)
Definition kids_x (s0 s : pstate) (kids : list ptree) : Prop :=
  exactly (p_pos s0) (kleaves kids) (p_pos s) /\
  exists new, p_trees s = new ++ p_trees s0 /\ attached (p_pos s0) new (p_pos s) /\ tagged new (ktags kids).
Definition tree_x (s0 s : pstate) (t : option ptree) : Prop :=
  exactly (p_pos s0) (match t with Some t => g_leaves false t | None => [] end) (p_pos s) /\
  exists new, p_trees s = new ++ p_trees s0 /\ attached (p_pos s0) new (p_pos s) /\
    tagged new (match t with Some t => g_tags false t | None => [] end).
Definition res_x (s : pstate) (m : bool) (t : option ptree) (s' : pstate) : Prop :=
  p_left s <= p_left s' /\
  (forall t0, t = Some t0 -> real t0) /\
  (m = false -> t = None) /\
  (p_left s' = p_left s -> tree_x s s' t).

Lemma kids_x_nil s : kids_x s s [].
Proof using. split; [constructor|]. exists []. split; [reflexivity|]. split; [apply attached_nil|]. intros i f g []. Qed.
Lemma tree_x_none s : tree_x s s None.
Proof using. split; [constructor|]. exists []. split; [reflexivity|]. split; [apply attached_nil|]. intros i f g []. Qed.
Lemma hoist_leaves kids d : real d -> kleaves (g_hoist kids d) = kleaves kids ++ g_leaves false d.
Proof using.
  intro Hr. unfold g_hoist. destruct (g_tag d =? HOIST)%Z eqn:E.
  - apply Z.eqb_eq in E. destruct d as [g r [i|] ks]; cbn in *; [destruct Hr as [Hr|Hr]; cbn in *; congruence|].
    subst g. rewrite kleaves_app. reflexivity.
  - rewrite kleaves_app. unfold kleaves at 2. cbn [flat_map]. rewrite app_nil_r. reflexivity.
Qed.
Lemma hoist_tags kids d : real d -> ktags (g_hoist kids d) = ktags kids ++ g_tags false d.
Proof using.
  intro Hr. unfold g_hoist. destruct (g_tag d =? HOIST)%Z eqn:E.
  - apply Z.eqb_eq in E. destruct d as [g r [i|] ks]; cbn in *; [destruct Hr as [Hr|Hr]; cbn in *; congruence|].
    subst g. unfold ktags. rewrite flat_map_app. reflexivity.
  - unfold ktags. rewrite flat_map_app. cbn [flat_map]. rewrite app_nil_r. reflexivity.
Qed.
Lemma attach_x s0 s1 s2 kids t : kids_x s0 s1 kids -> (forall d, t = Some d -> real d) -> tree_x s1 s2 t ->
  kids_x s0 s2 (g_attach kids t).
Proof using.
  intros [H1 [n1 [H2 [H3 H4]]]] Hr [H5 [n2 [H6 [H7 H8]]]].
  assert (Ha : p_trees s2 = (n2 ++ n1) ++ p_trees s0) by (rewrite H6, H2, app_assoc; reflexivity).
  destruct t as [d|]; cbn [g_attach].
  - specialize (Hr d eq_refl). split.
    + rewrite hoist_leaves by exact Hr. eapply exactly_app; eauto.
    + exists (n2 ++ n1). split; [exact Ha|]. split; [eapply attached_app; eauto|]. rewrite hoist_tags by exact Hr.
      apply tagged_app; eapply tagged_more; eauto using incl_appl, incl_appr, incl_refl.
  - split.
    + rewrite <- (app_nil_r (kleaves kids)). eapply exactly_app; eauto.
    + exists (n2 ++ n1). split; [exact Ha|]. split; [eapply attached_app; eauto|].
      eapply tagged_more; eauto using incl_appr, incl_refl.
Qed.
Lemma tree_x_trans s s1 s2 t : tree_x s s1 None -> tree_x s1 s2 t -> tree_x s s2 t.
Proof using.
  intros [A1 [n1 [A2 [A3 A4]]]] [B1 [n2 [B2 [B3 B4]]]]. split.
  - eapply (exactly_app _ [] _ A1). exact B1.
  - exists (n2 ++ n1). split; [rewrite B2, A2, app_assoc; reflexivity|]. split; [eapply attached_app; eauto|].
    eapply tagged_more; eauto using incl_appl, incl_refl.
Qed.
Lemma cover_x s0 s kids g r t : kids_x s0 s kids -> g_cover (PT g r None kids) = Done t -> tree_x s0 s (Some t).
Proof using.
  intros [H1 [n1 [H2 [H3 H4]]]] H. cbn [g_cover] in H. ob H. injection H as <-. split.
  - eapply exactly_raise; [|exact H1]. apply (kleaves_raise g kids).
  - exists n1. split; [auto|]. split; [auto|]. eapply tagged_raise; [apply ktags_raise|exact H4].
Qed.
Lemma cover_leaves t t' : g_cover t = Done t' -> g_leaves false t' = g_leaves false t /\ g_tags false t' = g_tags false t /\ (real t -> real t').
Proof using.
  destruct t as [g r [i|] kids]; cbn [g_cover]; intro H; [injection H as <-; auto|]. ob H. injection H as <-. auto.
Qed.
Lemma real_node g r kids : real (PT g r None kids).
Proof using. left. reflexivity. Qed.
Lemma cover_real g r kids t : g_cover (PT g r None kids) = Done t -> real t.
Proof using. intro H. eapply cover_leaves; eauto. apply real_node. Qed.

Section Step.
Variable R : gexp -> pstate -> out gresult.
Hypothesis HR : forall p s m t s', uses Q p = true -> R p s = Done (m, t, s') -> res_x s m t s'.

Lemma g_seq_x ps : forall kids s m kids' s', forallb (uses Q) ps = true ->
  g_seq R ps kids s = Done (m, kids', s') ->
  p_left s <= p_left s' /\ forall s0, p_left s' = p_left s -> kids_x s0 s kids -> kids_x s0 s' kids'.
Proof using HR.
  clear -HR.
  induction ps as [|p ps IH]; intros kids s m kids' s' Hu H; cbn [g_seq] in H.
  - injection H as <- <- <-. auto.
  - cbn [forallb] in Hu. apply andb_true_iff in Hu as [Hu1 Hu2]. ob H. destruct a as [[m1 t1] s1].
    apply HR in E as [H1 [H2 [H3 H4]]]; auto.
    destruct m1.
    + apply IH in H as [H5 H6]; auto. split; [lia|]. intros s0 Hl Hk. apply H6; [lia|]. eapply attach_x; eauto. apply H4. lia.
    + injection H as <- <- <-. split; auto. intros s0 Hl Hk. eapply attach_x; eauto.
Qed.
Lemma g_alts_x ps : forall s m t s', forallb (uses Q) ps = true -> g_alts R ps s = Done (m, t, s') -> res_x s m t s'.
Proof using HR.
  clear -HR.
  induction ps as [|p ps IH]; intros s m t s' Hu H; cbn [g_alts] in H.
  - injection H as <- <- <-. split; [auto|]. split; [discriminate|]. split; auto. intro. apply tree_x_none.
  - cbn [forallb] in Hu. apply andb_true_iff in Hu as [Hu1 Hu2]. ob H. destruct a as [[m1 t1] s1].
    apply HR in E as [H1 [H2 [H3 H4]]]; auto.
    destruct m1; [injection H as <- <- <-; repeat split; auto; apply H4; auto|].
    apply IH in H as [H5 [H6 [H7 H8]]]; auto. split; [lia|]. split; auto. split; auto. intro Hl.
    specialize (H3 eq_refl). subst t1. specialize (H4 ltac:(lia)). specialize (H8 ltac:(lia)).
    eapply tree_x_trans; eauto.
Qed.
Lemma g_star_x k p : uses Q p = true -> forall kids s kids' s',
  g_star x R k p kids s = Done (kids', s') ->
  p_left s <= p_left s' /\ forall s0, p_left s' = p_left s -> kids_x s0 s kids -> kids_x s0 s' kids'.
Proof using HR.
  clear -HR. intro Hu.
  induction k as [|k IH]; intros kids s kids' s' H; cbn [g_star] in H; [discriminate|].
  destruct (at_end x s); [injection H as <- <-; auto|]. ob H. destruct a as [[m1 t1] s1].
  apply HR in E as [H1 [H2 [H3 H4]]]; auto. destruct m1.
  - apply IH in H as [H5 H6]. split; [lia|]. intros s0 Hl Hk. apply H6; [lia|]. eapply attach_x; eauto. apply H4. lia.
  - injection H as <- <-. split; auto. intros s0 Hl Hk. eapply attach_x; eauto.
Qed.
Lemma g_do_body_x k : forall kids s kids' s',
  g_do_body R k kids s = Done (kids', s') ->
  p_left s <= p_left s' /\ forall s0, p_left s' = p_left s -> kids_x s0 s kids -> kids_x s0 s' kids'.
Proof using HR.
  clear -HR.
  induction k as [|k IH]; intros kids s kids' s' H; cbn [g_do_body] in H; [discriminate|].
  ob H. destruct a as [[m1 t1] s1].
  apply HR in E as [H1 [H2 [H3 H4]]]; auto. destruct t1 as [t1|].
  - apply IH in H as [H5 H6]. split; [lia|]. intros s0 Hl Hk. apply H6; [lia|].
    apply (attach_x s0 s s1 kids (Some t1)); auto. apply H4. lia.
  - injection H as <- <-. split; auto. intros s0 Hl Hk. apply (attach_x s0 s s1 kids None); auto.
Qed.
Lemma advance_left s : p_left (advance x s) = p_left s.
Proof using. unfold advance. destruct (_ <? _); reflexivity. Qed.
Lemma advance_trees s : p_trees (advance x s) = p_trees s.
Proof using. unfold advance. destruct (_ <? _); reflexivity. Qed.
Lemma g_do_end_x s r s' : g_do_end x s = Done (r, s') -> p_left s' = p_left s /\
  match r with
  | None => True
  | Some (c, pg, sg) => exists rr t, Q rr = true /\ x_parse x (p_pos s) rr = Done (Some t) /\ t_tag t = sg /\
     ((p_pos s' = S (p_pos s) /\ p_trees s' = (p_pos s, t) :: p_trees s)
      \/ (p_pos s' = p_pos s /\ p_trees s' = p_trees s /\ pg = PG_DO_TERM_SHARED_STMT))
  end.
Proof using Hdo.
  clear -Hdo. destruct Hdo as [D1 [D2 [D3 D4]]].
  unfold g_do_end. intro H. ob H. apply cur_pos in E as [-> Hlt].
  assert (HA : forall st t, let s1 := advance x (set_tree (set_stack s st) (p_pos s) t) in
     p_left s1 = p_left s /\ p_pos s1 = S (p_pos s) /\ p_trees s1 = (p_pos s, t) :: p_trees s).
  { intros st t. cbn zeta. rewrite advance_left, advance_pos, advance_trees by (cbn; auto). auto. }
  destruct (negb _).
  { ob H. destruct a as [t|]; injection H as <- <-; [|auto].
    specialize (HA (p_stack s) t). replace (set_stack s (p_stack s)) with s in HA by (destruct s; reflexivity).
    destruct HA as [A1 [A2 A3]]. split; auto. exists r_end_do_stmt, t. auto 7. }
  destruct (ls_level _ _) as [st level].
  ob H. ob H. destruct a0 as [r1 s1].
  assert (K : p_left s1 = p_left s /\
  match r1 with
  | None => True
  | Some (c, pg, sg) => exists rr t, Q rr = true /\ x_parse x (p_pos s) rr = Done (Some t) /\ t_tag t = sg /\
     ((p_pos s1 = S (p_pos s) /\ p_trees s1 = (p_pos s, t) :: p_trees s)
      \/ (p_pos s1 = p_pos s /\ p_trees s1 = p_trees s /\ pg = PG_DO_TERM_SHARED_STMT))
  end).
  { destruct (0 <? level)%Z.
    - ob E0. destruct a0 as [t|]; [|injection E0 as <- <-; auto]. destruct (HA st t) as [A1 [A2 A3]].
      destruct (level =? 1)%Z; injection E0 as <- <-; split; auto; exists r_action_stmt, t; auto 8.
    - ob E0. destruct a0 as [t|].
      { destruct (HA st t) as [A1 [A2 A3]]. injection E0 as <- <-; split; auto; exists r_end_do, t; auto 8. }
      ob E0. destruct a0 as [t|]; [|injection E0 as <- <-; auto]. destruct (HA st t) as [A1 [A2 A3]].
      injection E0 as <- <-; split; auto; exists r_action_stmt, t; auto 8. }
  destruct K as [K0 K]. destruct r1 as [[[c pg] sg]|].
  - ob H. injection H as <- <-. auto.
  - injection H as <- <-. auto.
Qed.
Lemma leaf_x s s' rr t : Q rr = true -> x_parse x (p_pos s) rr = Done (Some t) ->
  p_pos s' = S (p_pos s) -> p_trees s' = (p_pos s, t) :: p_trees s ->
  real (stmt_leaf (t_tag t) (p_pos s)) /\ tree_x s s' (Some (stmt_leaf (t_tag t) (p_pos s))).
Proof using HQ.
  clear -HQ. intros Hr Hp H1 H2. split; [right; cbn; eapply HQ; eauto|]. split.
  - rewrite H1. cbn. repeat constructor.
  - exists [(p_pos s, t)]. split; [exact H2|]. split; [rewrite H1; eapply attached_one; eauto|].
    intros i f g [Hi|[]]. cbn in Hi. inversion Hi; subst. split; [eauto|]. intros _. exists t. split; [left|]; auto.
Qed.
Lemma hoist_x s0 s1 s2 kids d : kids_x s0 s1 kids -> real d -> tree_x s1 s2 (Some d) -> kids_x s0 s2 (g_hoist kids d).
Proof using. intros H1 H2 H3. apply (attach_x s0 s1 s2 kids (Some d)); auto. intros d0 E. congruence. Qed.
Lemma term_x s s' c pg sg t : g_do_end x s = Done (Some (c, pg, sg), s') ->
  g_cover (PT pg None None (g_hoist [] (stmt_leaf sg (p_pos s)))) = Done t -> real t /\ tree_x s s' (Some t).
Proof using Hdo HQ.
  clear -Hdo HQ. intros H Hc. split; [eapply cover_real; eauto|].
  apply g_do_end_x in H as [_ [rr [u [Hr [Hp [<- K]]]]]]. destruct K as [[K1 K2]|[K1 [K2 ->]]].
  - eapply cover_x; eauto. destruct (leaf_x s s' rr u) as [L1 L2]; auto. eapply hoist_x; eauto. apply kids_x_nil.
  - assert (Ht : t_tag u <> HOIST) by eauto. unfold g_hoist in Hc. cbn [g_tag stmt_leaf] in Hc.
    apply Z.eqb_neq in Ht. rewrite Ht in Hc. cbn [g_cover app] in Hc. ob Hc. injection Hc as <-. split.
    + rewrite K1. cbn. apply exactly_again. constructor.
    + exists []. split; [exact K2|]. split; [rewrite K1; apply attached_nil|].
      intros i f g [Hi|[]]. inversion Hi; subst. split; [eauto|discriminate].
Qed.
Lemma g_do_x k s m t s' : g_do x R k s = Done (m, t, s') -> res_x s m t s'.
Proof using HR Hdo HQ.
  clear Hbody. intro H. unfold g_do in H. ob H. apply cur_pos in E as [-> Hlt].
  ob H. destruct a as [t0|].
  2: { injection H as <- <- <-. split; [auto|]. split; [discriminate|]. split; auto. intro. apply tree_x_none. }
  ob H.
  match type of H with obind (g_do_body _ _ _ ?st) _ = _ => set (s1 := st) in * end.
  assert (H1 : p_pos s1 = S (p_pos s) /\ p_trees s1 = (p_pos s, t0) :: p_trees s /\ p_left s1 = p_left s).
  { unfold s1. rewrite advance_pos, advance_trees, advance_left; destruct (0 <? a)%Z; auto. }
  destruct H1 as [H1 [H2 H3]].
  ob H. destruct a0 as [kids s2]. apply g_do_body_x in E1 as [B1 B2].
  ob H. destruct a0 as [r s3]. pose proof E1 as EE. apply g_do_end_x in E1 as [L3 Hr].
  destruct r as [[[c pg] sg]|].
  2: { injection H as <- <- <-. split; [cbn; lia|]. split; [discriminate|]. split; auto. intro Hl. cbn in Hl. lia. }
  ob H. injection H as <- <- <-. split; [lia|]. unfold g_do_tree in E1.
  set (sub_tag := if (c =? PG_DO_CONSTRUCT)%Z then HOIST else c) in *.
  set (ctag := if (c =? PG_DO_CONSTRUCT)%Z then c else PG_NONBLOCK_DO_CONSTRUCT) in *.
  ob E1. ob E1. ob E1.
  split; [intros t1 Et; injection Et as <-; eapply cover_real; eauto|]. split; [discriminate|]. intro Hl.
  destruct (leaf_x s s1 r_do_stmt t0) as [D1 D2]; auto; [apply Hdo|].
  specialize (B2 s1 ltac:(lia) (kids_x_nil s1)).
  pose proof (cover_x _ _ _ _ _ _ B2 E2) as Hblock. pose proof (cover_real _ _ _ _ E2) as Rblock.
  destruct (term_x _ _ _ _ _ _ EE E3) as [Rterm Hterm].
  eapply cover_x; [|exact E1]. eapply hoist_x; [apply kids_x_nil|eapply cover_real; exact E4|].
  eapply cover_x; [|exact E4]. eapply hoist_x; [|exact Rterm|exact Hterm]. eapply hoist_x; [|exact Rblock|exact Hblock].
  eapply hoist_x; [apply kids_x_nil|exact D1|exact D2].
Qed.
Lemma fail_x s : res_x s false None s.
Proof using. split; [auto|]. split; [discriminate|]. split; auto. intro. apply tree_x_none. Qed.
Lemma g_call_x k r s m t s' : g_call body x R k r s = Done (m, t, s') -> res_x s m t s'.
Proof using HR Hdo HQ Hbody.
  intro H. unfold g_call in H. pose proof (Hbody r) as Hb. destruct (body r) as [p|p|]; cbn [uses_body] in Hb.
  - eapply HR; eauto.
  - ob H. destruct (ls_is_top _ _); [injection H as <- <- <-; apply fail_x|eapply HR; eauto].
  - eapply g_do_x; eauto.
Qed.
End Step.

Lemma complain_x s0 s m t s' : p_left s0 <= p_left s -> complain x s = Done (m, t, s') -> res_x s0 m t s'.
Proof using.
  unfold complain. intros H0 H. ob H. injection H as <- <- <-. split; [cbn; lia|]. split; [discriminate|]. split; auto.
  cbn. lia.
Qed.
Lemma fail2_x s m t s' : res_x s m t s' -> m = false -> res_x s false None s'.
Proof using. intros [H1 [H2 [H3 H4]]] ->. split; auto. split; [discriminate|]. split; auto. rewrite (H3 eq_refl) in H4. exact H4. Qed.
Lemma cover_res s s' kids g r t : p_left s <= p_left s' -> (p_left s' = p_left s -> kids_x s s' kids) ->
  g_cover (PT g r None kids) = Done t -> res_x s true (Some t) s'.
Proof using.
  intros H1 H2 H. split; auto. split; [intros t0 E; injection E as <-; eapply cover_real; eauto|]. split; [discriminate|].
  intro Hl. eapply cover_x; eauto.
Qed.
Theorem grun_x n : forall p s m t s', uses Q p = true -> grun body x n p s = Done (m, t, s') -> res_x s m t s'.
Proof using HQ Hbody Hdo.
  induction n as [|n IH]; intros p s m t s' Hu H; [discriminate|].
  cbn [grun] in H. destruct p as [tag ps| |q|tag ps|tag q|tag ps|tag p0 ps|q|r|tag q|r]; cbn [uses] in Hu.
  - ob H. destruct a as [[m1 t1] s1]. apply (g_alts_x _ IH) in E; auto.
    destruct m1; [|injection H as <- <- <-; eapply fail2_x; eauto]. destruct E as [H1 [H2 [H3 H4]]].
    destruct t1 as [t1|]; [|discriminate]. ob H. injection H as <- <- <-.
    eapply cover_res; [exact H1|intro Hl|exact E]. eapply hoist_x; [apply kids_x_nil|apply H2; reflexivity|apply H4; exact Hl].
  - destruct (at_end x s); injection H as <- <- <-; (split; [cbn; lia|]); (split; [discriminate|]); split; auto.
    + intro. apply tree_x_none.
    + cbn. lia.
  - ob H. destruct a as [[m1 t1] s1]. apply IH in E as [H1 [H2 [H3 H4]]]; auto.
    destruct t1 as [t1|].
    + ob H. injection H as <- <- <-. destruct (cover_leaves _ _ E) as [L1 [L2 L3]]. split; auto.
      split; [intros t0 Et; injection Et as <-; auto|]. split; [discriminate|]. intro Hl.
      unfold tree_x. rewrite L1, L2. apply H4. exact Hl.
    + injection H as <- <- <-. repeat split; auto; discriminate || (apply H4; assumption).
  - ob H. destruct a as [[m1 kids] s1]. apply (g_seq_x _ IH) in E as [H1 H2]; auto.
    ob H. injection H as <- <- <-. eapply cover_res; [exact H1|intro Hl; apply H2; [exact Hl|apply kids_x_nil]|exact E].
  - destruct (at_end x s); [injection H as <- <- <-; apply fail_x|].
    ob H. destruct a as [[m1 t1] s1]. apply IH in E; auto.
    destruct m1; [|injection H as <- <- <-; eapply fail2_x; eauto]. destruct E as [H1 [H2 [H3 H4]]].
    ob H. destruct a as [kids s2]. apply (g_star_x _ IH) in E as [H5 H6]; auto.
    ob H. injection H as <- <- <-. eapply cover_res; eauto; [lia|]. intro Hl. apply H6; [lia|].
    eapply attach_x; [apply kids_x_nil|exact H2|]. apply H4. lia.
  - ob H. destruct a as [[m1 kids] s1]. apply (g_seq_x _ IH) in E as [H1 H2]; auto.
    destruct m1; [|eapply complain_x; eauto].
    ob H. injection H as <- <- <-. eapply cover_res; [exact H1|intro Hl; apply H2; [exact Hl|apply kids_x_nil]|exact E].
  - apply andb_true_iff in Hu as [Hu1 Hu2]. ob H. destruct a as [[m1 t1] s1]. apply IH in E; auto.
    destruct m1; [|injection H as <- <- <-; eapply fail2_x; eauto]. destruct E as [H1 [H2 [H3 H4]]].
    ob H. destruct a as [[m2 kids] s2]. apply (g_seq_x _ IH) in E as [H5 H6]; auto.
    destruct m2; [|eapply complain_x; [|exact H]; lia].
    ob H. injection H as <- <- <-. eapply cover_res; eauto; [lia|]. intro Hl. apply H6; [lia|].
    eapply attach_x; [apply kids_x_nil|exact H2|]. apply H4. lia.
  - ob H. destruct a as [kids s1]. apply (g_star_x _ IH) in E as [H1 H2]; auto.
    ob H. injection H as <- <- <-. eapply cover_res; [exact H1|intro Hl; apply H2; [exact Hl|apply kids_x_nil]|exact E].
  - ob H. apply cur_pos in E as [-> Hlt]. ob H.
    destruct a as [t0|]; injection H as <- <- <-; [|apply fail_x].
    destruct (leaf_x s (set_tree (advance x s) (p_pos s) t0) r t0) as [L1 L2]; auto;
      [cbn; apply advance_pos; auto|cbn; rewrite advance_trees; reflexivity|].
    split; [cbn; rewrite advance_left; auto|]. split; [congruence|]. split; [discriminate|]. auto.
  - ob H. destruct a as [[m1 t1] s1]. apply IH in E as [H1 [H2 [H3 H4]]]; auto.
    destruct t1 as [t1|]; [|injection H as <- <- <-; split; auto].
    ob H. injection H as <- <- <-. destruct m1; [|specialize (H3 eq_refl); discriminate].
    eapply cover_res; [exact H1|intro Hl|exact E]. eapply hoist_x; [apply kids_x_nil|apply H2; reflexivity|apply H4; exact Hl].
  - eapply g_call_x; eauto.
Qed.
End Exact.
