(** The program parsers' trees are built as the grammar says. *)
From Coq Require Import Lia.
From Verif Require Import Base Base_lemmas Tags Token TTStream StmtRules Peg StmtGrammar StmtDispatch_proofs LabelStack Prgm Prgm_spec Prgm_proofs
  PrgmSource PrgmSource_proofs PrgmTree_spec.
Local Open Scope nat_scope.

Definition stmt_tag (r : rule) : Z := match root_body (grammar r) with Some g => g | None => 0%Z end.
Definition body_tag (b : gbody) : rx :=
  match b with
  | GBody (GAlts g _) | GBody (GSeq g _) | GBody (GSeqIf g _ _) | GBody (GTag g _) => T g
  | GExec (GAlts g _) => T g
  | GDo => do_part
  | _ => Eps
  end.

(** ** What an expression contributes to its parent *)
Section Lang.
Variable body : grule -> gbody.
(** expressions that never fail and never come back without a tree *)
Fixpoint yields (p : gexp) : bool :=
  match p with
  | GStar _ | GOptSeq _ _ => true
  | GTag _ q | GOpt q => yields q
  | GSeq _ ps => forallb (fun q => match q with GOpt _ => true | _ => yields q end) ps
  | _ => false
  end.
Definition call_yields (p : gexp) : bool :=
  match p with
  | GCall r => match body r with GBody p => yields p | _ => false end
  | _ => false
  end.
Fixpoint lang (p : gexp) : rx :=
  match p with
  | GAlts g ps => if (g =? HOIST)%Z then one_of (map lang ps) else T g
  | GEnd => Eps
  | GOpt q => if call_yields q then lang q else opt (lang q)
  | GOptSeq g ps => if (g =? HOIST)%Z then fold_right (fun p a => opt (Cat (lang p) a)) Eps ps else T g
  | GPlus g q => if (g =? HOIST)%Z then some_of (lang q) else T g
  | GSeq g ps => if (g =? HOIST)%Z then sq (map lang ps) else T g
  | GSeqIf g p0 ps => if (g =? HOIST)%Z then sq (lang p0 :: map lang ps) else T g
  | GStar q => Many (lang q)
  | GStmt r => T (stmt_tag r)
  | GTag g q => if (g =? HOIST)%Z then lang q else T g
  | GCall r => body_tag (body r)
  end.
(** what the node of an expression consists of *)
Definition inside (p : gexp) : rx :=
  match p with
  | GAlts _ ps => one_of (map lang ps)
  | GOptSeq _ ps => fold_right (fun p a => opt (Cat (lang p) a)) Eps ps
  | GPlus _ q => some_of (lang q)
  | GSeq _ ps => sq (map lang ps)
  | GSeqIf _ p0 ps => sq (lang p0 :: map lang ps)
  | GTag _ q => lang q
  | _ => Eps
  end.
End Lang.

Fixpoint rx_eqb (a b : rx) : bool :=
  match a, b with
  | Eps, Eps => true
  | T g, T h => (g =? h)%Z
  | Cat a1 a2, Cat b1 b2 => rx_eqb a1 b1 && rx_eqb a2 b2
  | Or a1 a2, Or b1 b2 => rx_eqb a1 b1 && rx_eqb a2 b2
  | Many a, Many b => rx_eqb a b
  | _, _ => false
  end.
Lemma rx_eqb_eq a : forall b, rx_eqb a b = true -> a = b.
Proof.
  induction a; intros [] H; cbn in H; try discriminate H; auto.
  - apply Z.eqb_eq in H. now subst.
  - apply andb_true_iff in H as [H1 H2]. f_equal; auto.
  - apply andb_true_iff in H as [H1 H2]. f_equal; auto.
  - f_equal; auto.
Qed.
Definition produced (g : Z) (e : rx) : bool := existsb (fun q => (fst q =? g)%Z && rx_eqb (snd q) e) productions.
Lemma produced_in g e : produced g e = true -> In (g, e) productions.
Proof.
  unfold produced. intros H. apply existsb_exists in H as ([g' e'] & H & E). apply andb_true_iff in E as [E1 E2].
  apply Z.eqb_eq in E1. apply rx_eqb_eq in E2. cbn [fst snd] in *. now subst.
Qed.
Definition no_part (g : Z) : bool := forallb (fun q => negb (fst q =? g)%Z) productions.
Lemma no_part_in g : no_part g = true -> forall e, ~ In (g, e) productions.
Proof.
  unfold no_part. intros H e I. rewrite forallb_forall in H. apply H in I. cbn [fst] in I. rewrite Z.eqb_refl in I. discriminate.
Qed.

(** the check of the grammar *)
Definition stmt_fine (r : rule) : bool :=
  for_statements r && match root_body (grammar r) with Some g => no_part g && negb (g =? HOIST)%Z | None => false end.
Section Check.
Variable body : grule -> gbody.
Definition tag_here (p : gexp) (g : Z) : bool := (g =? HOIST)%Z || produced g (inside body p).
Fixpoint exp_good (p : gexp) : bool :=
  match p with
  | GAlts g ps => tag_here p g && forallb exp_good ps && negb (is_empty ps)
  | GEnd => true
  | GOpt q => exp_good q
  | GOptSeq g ps => tag_here p g && forallb exp_good ps
  | GPlus g q => tag_here p g && exp_good q
  | GSeq g ps => tag_here p g && forallb exp_good ps
  | GSeqIf g p0 ps => tag_here p g && exp_good p0 && forallb exp_good ps
  | GStar q => exp_good q
  | GStmt r => stmt_fine r
  | GTag g q => tag_here p g && exp_good q && match q with GStar _ => true | _ => false end
  | GCall _ => true
  end.
Definition body_good (b : gbody) : bool :=
  match b with
  | GBody p | GExec p => exp_good p && rx_eqb (lang body p) (body_tag b)
  | GDo => true
  end.
End Check.
Lemma prgm_good : forall r, body_good prgm_grammar (prgm_grammar r) = true.
Proof. destruct r; vm_compute; reflexivity. Qed.

(** ** Trees *)
Section Tree.
Variable body : grule -> gbody.
Variable x : stmts.
Hypothesis roots : forall r i t, for_statements r = true -> x_parse x i r = Done (Some t) -> root_body (grammar r) = Some (t_tag t).
Hypothesis good : forall r, body_good body (body r) = true.
Hypothesis good_epc : body g_execution_part_construct = prgm_grammar g_execution_part_construct.
Notation ok := (derives x).
Notation kids_of t := (g_attach [] t).

(** a result: nothing when there is no match; else what the expression contributes *)
Definition fine (p : gexp) (m : bool) (t : option ptree) : Prop :=
  if m then Forall ok (kids_of t) /\ spells (lang body p) (map g_tag (kids_of t)) else t = None.


Lemma attach_kids kids t : g_attach kids t = kids ++ kids_of t.
Proof using. destruct t as [t|]; cbn [g_attach]; [|now rewrite app_nil_r]. unfold g_hoist. destruct (_ =? _)%Z; reflexivity. Qed.
Lemma kids_hoist t : g_hoist [] t = kids_of (Some t).
Proof using. reflexivity. Qed.
Lemma no_hoist e : ~ In (HOIST, e) productions.
Proof using. apply no_part_in. vm_compute. reflexivity. Qed.
Lemma node_kids g r kids : g <> HOIST -> kids_of (Some (PT g r None kids)) = [PT g r None kids].
Proof using. intros H. cbn [g_attach]. unfold g_hoist. cbn [g_tag]. apply Z.eqb_neq in H. now rewrite H. Qed.

Lemma cover_part p g r0 kids t : tag_here body p g = true -> Forall ok kids -> spells (inside body p) (map g_tag kids) ->
  g_cover (PT g r0 None kids) = Done t ->
  Forall ok (kids_of (Some t)) /\ spells (if (g =? HOIST)%Z then inside body p else T g) (map g_tag (kids_of (Some t))).
Proof using.
  intros H F S C. cbn [g_cover] in C. ob C. injection C as <-. unfold tag_here in H. destruct (Z.eqb_spec g HOIST) as [->|N].
  - cbn [g_attach]. unfold g_hoist. cbn [g_tag g_kids]. rewrite Z.eqb_refl. auto.
  - cbn [orb] in H. apply produced_in in H. rewrite node_kids by exact N. split; [|constructor].
    constructor; [|constructor]. econstructor; eauto.
Qed.
Lemma cover_same t t' : g_cover t = Done t' -> Forall ok (kids_of (Some t)) ->
  Forall ok (kids_of (Some t')) /\ map g_tag (kids_of (Some t')) = map g_tag (kids_of (Some t)).
Proof using.
  intros C. assert (E : g_tag t' = g_tag t /\ g_kids t' = g_kids t) by (destruct t as [g r [i|] k]; cbn [g_cover] in C; [|ob C]; injection C as <-; auto).
  destruct E as [E1 E2]. cbn [g_attach]. unfold g_hoist. rewrite E1, E2. destruct (_ =? _)%Z; [auto|]. cbn [app map]. rewrite E1.
  intros F. apply Forall_inv in F. split; [|reflexivity]. constructor; [|constructor].
  inversion F as [g i L ST NP E|g e r kids I S K E]; subst t.
  - injection C as <-. exact F.
  - cbn [g_cover] in C. ob C. injection C as <-. econstructor; eauto.
Qed.
Lemma leaf_fine r i t s : cur x s = Done i -> stmt_fine r = true -> x_parse x i r = Done (Some t) ->
  kids_of (Some (stmt_leaf (t_tag t) i)) = [stmt_leaf (t_tag t) i] /\ ok (stmt_leaf (t_tag t) i) /\ t_tag t = stmt_tag r.
Proof using roots.
  intros C F P. unfold stmt_fine in F. apply andb_true_iff in F as [F1 F2]. pose proof (roots _ _ _ F1 P) as E.
  rewrite E in F2. apply andb_true_iff in F2 as [F2 F3]. apply negb_true_iff in F3.
  unfold cur in C. destruct (Nat.ltb_spec (p_pos s) (x_num x)); [|discriminate]. injection C as <-.
  split; [|split].
  - cbn [g_attach]. unfold g_hoist. cbn [g_tag stmt_leaf]. now rewrite F3.
  - constructor; auto; [exists r, t; auto|now apply no_part_in].
  - unfold stmt_tag. now rewrite E.
Qed.

Section Step.
Variable R : gexp -> pstate -> out gresult.
Hypothesis HR : forall p s m t s', exp_good body p = true -> R p s = Done (m, t, s') -> fine p m t.

Lemma seq_fine ps : forall kids s kids' s', forallb (exp_good body) ps = true -> g_seq R ps kids s = Done (true, kids', s') ->
  exists new, kids' = kids ++ new /\ Forall ok new /\ spells (sq (map (lang body) ps)) (map g_tag new).
Proof using HR.
  induction ps as [|p ps IH]; intros kids s kids' s' F H; cbn [g_seq] in H.
  - injection H as <- <-. exists []. rewrite app_nil_r. split; [auto|split; [constructor|constructor]].
  - cbn [forallb] in F. apply andb_true_iff in F as [F1 F2]. ob H. destruct a as [[m t] s1]. apply HR in E; auto.
    destruct m; [|discriminate]. destruct E as [E1 E2]. apply IH in H as (new & -> & N1 & N2); auto. rewrite attach_kids.
    exists (kids_of t ++ new). rewrite <- app_assoc. split; [auto|]. split; [apply Forall_app; auto|]. rewrite map_app. cbn [map sq fold_right]. now constructor.
Qed.
Lemma opt_seq_fine ps : forall kids s m kids' s', forallb (exp_good body) ps = true -> g_seq R ps kids s = Done (m, kids', s') ->
  exists new, kids' = kids ++ new /\ Forall ok new /\ spells (fold_right (fun p a => opt (Cat (lang body p) a)) Eps ps) (map g_tag new).
Proof using HR.
  induction ps as [|p ps IH]; intros kids s m kids' s' F H; cbn [g_seq] in H.
  - injection H as <- <- <-. exists []. rewrite app_nil_r. split; [auto|split; [constructor|constructor]].
  - cbn [forallb] in F. apply andb_true_iff in F as [F1 F2]. ob H. destruct a as [[m1 t] s1]. apply HR in E; auto.
    rewrite attach_kids in H. destruct m1.
    + destruct E as [E1 E2]. apply IH in H as (new & -> & N1 & N2); auto.
      exists (kids_of t ++ new). rewrite <- app_assoc. split; [auto|]. split; [apply Forall_app; auto|]. rewrite map_app. cbn [fold_right].
      apply sp_right. now constructor.
    + cbn [fine] in E. subst t. injection H as <- <- <-. exists []. cbn [g_attach]. split; [auto|]. split; [constructor|]. apply sp_left. constructor.
Qed.
Lemma alts_fine ps : forall s m t s', forallb (exp_good body) ps = true -> g_alts R ps s = Done (m, t, s') ->
  if m then Forall ok (kids_of t) /\ spells (one_of (map (lang body) ps)) (map g_tag (kids_of t)) else t = None.
Proof using HR.
  induction ps as [|p ps IH]; intros s m t s' F H; cbn [g_alts] in H.
  - injection H as <- <- <-. reflexivity.
  - cbn [forallb] in F. apply andb_true_iff in F as [F1 F2]. ob H. destruct a as [[m1 t1] s1]. destruct m1.
    + injection H as <- <- <-. apply HR in E; auto. destruct E as [E1 E2]. split; [auto|].
      destruct ps as [|q ps]; [exact E2|]. apply sp_left. exact E2.
    + destruct ps as [|q ps]; [cbn [g_alts] in H; injection H as <- <- <-; reflexivity|].
      apply IH in H; auto. destruct m; [|exact H]. destruct H as [H1 H2]. split; [auto|]. apply sp_right. exact H2.
Qed.

Lemma star_fine k p : forall kids s kids' s', exp_good body p = true -> g_star x R k p kids s = Done (kids', s') ->
  exists new, kids' = kids ++ new /\ Forall ok new /\ spells (Many (lang body p)) (map g_tag new).
Proof using HR.
  induction k as [|k IH]; intros kids s kids' s' F H; cbn [g_star] in H; [discriminate|].
  destruct (at_end x s). { injection H as <- <-. exists []. rewrite app_nil_r. split; [auto|split; [constructor|constructor]]. }
  ob H. destruct a as [[m t] s1]. apply HR in E; auto. rewrite attach_kids in H. destruct m.
  - destruct E as [E1 E2]. apply IH in H as (new & -> & N1 & N2); auto. exists (kids_of t ++ new). rewrite <- app_assoc.
    split; [auto|]. split; [apply Forall_app; auto|]. rewrite map_app. now constructor.
  - cbn [fine] in E. subst t. injection H as <- <-. exists []. split; [reflexivity|]. split; constructor.
Qed.
Lemma body_fine k : forall kids s kids' s', g_do_body R k kids s = Done (kids', s') ->
  exists new, kids' = kids ++ new /\ Forall ok new /\ spells (Many (T PG_EXECUTION_PART_CONSTRUCT)) (map g_tag new).
Proof using HR good_epc.
  induction k as [|k IH]; intros kids s kids' s' H; cbn [g_do_body] in H; [discriminate|].
  ob H. destruct a as [[m t] s1]. apply HR in E; [|reflexivity]. destruct t as [t|].
  - destruct m; [|discriminate E]. destruct E as [E1 E2]. cbn [lang] in E2. rewrite good_epc in E2. change (body_tag (prgm_grammar g_execution_part_construct)) with (T PG_EXECUTION_PART_CONSTRUCT) in E2.
    apply IH in H as (new & -> & N1 & N2); auto. change (g_hoist kids t) with (g_attach kids (Some t)). rewrite attach_kids.
    exists (kids_of (Some t) ++ new). rewrite <- app_assoc. split; [auto|]. split; [apply Forall_app; auto|]. rewrite map_app. now constructor.
  - injection H as <- <-. exists []. rewrite app_nil_r. split; [reflexivity|]. split; constructor.
Qed.

Lemma leaf_at r i t s : cur x s = Done i -> stmt_fine r = true -> x_parse x i r = Done (Some t) -> ok (stmt_leaf (stmt_tag r) i) /\ t_tag t = stmt_tag r.
Proof using roots. intros A B C. destruct (leaf_fine r i t s A B C) as (_ & D & E). now rewrite <- E. Qed.
Lemma do_end_fine s c pg sg s' : g_do_end x s = Done (Some (c, pg, sg), s') -> ok (stmt_leaf sg (p_pos s)) /\
  ((c = PG_DO_CONSTRUCT /\ pg = HOIST /\ (sg = SG_END_DO_STMT \/ sg = SG_END_DO)) \/
   (sg = SG_ACTION_STMT /\ ((c = PG_ACTION_TERM_DO_CONSTRUCT /\ pg = PG_DO_TERM_ACTION_STMT) \/
     ((c = PG_OUTER_SHARED_DO_CONSTRUCT \/ c = PG_INNER_SHARED_DO_CONSTRUCT) /\ pg = PG_DO_TERM_SHARED_STMT)))).
Proof using roots.
  unfold g_do_end. intros H. ob H. pose proof E as C. apply cur_pos in E as [-> L].
  destruct (negb _).
  - ob H. destruct a as [t|]; [|discriminate]. injection H as <- <- <- _.
    apply (leaf_at _ _ _ _ C) in E as [A ->]; [|vm_compute; reflexivity]. split; [exact A|]. left. conjs; auto.
  - destruct (ls_level _ _) as [st lv]. ob H. ob H. destruct a0 as [r s1]. destruct r as [p|]; [|discriminate].
    ob H. injection H as -> <-. clear E1. destruct (0 <? lv)%Z.
    + ob E0. destruct a1 as [t|]; [|discriminate].
      apply (leaf_at _ _ _ _ C) in E1 as [A TG]; [|vm_compute; reflexivity]. rewrite TG in E0.
      destruct (lv =? 1)%Z; injection E0 as <- <- <- _; (split; [exact A|]); right; (split; [reflexivity|]); right; auto.
    + ob E0. destruct a1 as [t|].
      * injection E0 as <- <- <- _. apply (leaf_at _ _ _ _ C) in E1 as [A ->]; [|vm_compute; reflexivity]. split; [exact A|]. left. conjs; auto.
      * ob E0. destruct a1 as [t|]; [|discriminate]. injection E0 as <- <- <- _.
        apply (leaf_at _ _ _ _ C) in E2 as [A ->]; [|vm_compute; reflexivity]. split; [exact A|].
        right; (split; [reflexivity|]); left; auto.
Qed.
Lemma cover_node g e r0 kids t : In (g, e) productions -> Forall ok kids -> spells e (map g_tag kids) ->
  g_cover (PT g r0 None kids) = Done t -> ok t /\ g_tag t = g.
Proof using. intros I F S C. cbn [g_cover] in C. ob C. injection C as <-. split; [econstructor; eauto|reflexivity]. Qed.
Lemma hoist_node kids t : g_tag t <> HOIST -> g_hoist kids t = kids ++ [t].
Proof using. intros H. unfold g_hoist. apply Z.eqb_neq in H. now rewrite H. Qed.
Lemma spells_one a : spells (T a) [a]. Proof using. constructor. Qed.
Lemma spells_cons a e u : spells e u -> spells (Cat (T a) e) (a :: u).
Proof using. intros H. change (a :: u) with ([a] ++ u). constructor; [constructor|exact H]. Qed.
Lemma spells_last e u : spells e u -> spells (Cat e Eps) u.
Proof using. intros H. rewrite <- (app_nil_r u). constructor; [exact H|constructor]. Qed.

Lemma hoist_hoist kids r k : g_hoist kids (PT HOIST r None k) = kids ++ k.
Proof using. reflexivity. Qed.
Lemma do_fine k s m t s' : g_do x R k s = Done (m, t, s') ->
  if m then Forall ok (kids_of t) /\ spells do_part (map g_tag (kids_of t)) else t = None.
Proof using HR roots good_epc.
  unfold g_do. intros H. ob H. ob H. destruct a0 as [t0|]; [|injection H as <- <- <-; reflexivity].
  ob H. ob H. destruct a1 as [kids s1]. ob H. destruct a1 as [r s2]. destruct r as [[[c pg] sg]|]; [|injection H as <- <- <-; reflexivity].
  ob H. injection H as <- <- <-. apply body_fine in E2 as (new & EK & N1 & N2). cbn [app] in EK. subst new.
  apply do_end_fine in E3 as (LT & TT).
  apply (leaf_at _ _ _ _ E) in E0 as [LF TG]; [|vm_compute; reflexivity].
  unfold g_do_tree in E4. rewrite TG in E4. change (stmt_tag r_do_stmt) with SG_DO_STMT in *.
  rewrite (hoist_node [] (stmt_leaf SG_DO_STMT a)) in E4 by (vm_compute; discriminate). cbn [app] in E4.
  assert (SH : sg <> HOIST) by (destruct TT as [(_ & _ & [->| ->])|(-> & _)]; vm_compute; discriminate).
  rewrite (hoist_node [] (stmt_leaf sg (p_pos s1))) in E4 by exact SH. cbn [app] in E4.
  destruct TT as [(-> & -> & ES)|(-> & TT)].
  - assert (PB : In (PG_BLOCK, Many (T PG_EXECUTION_PART_CONSTRUCT)) productions) by (apply produced_in; vm_compute; reflexivity).
    assert (PC : In (PG_DO_CONSTRUCT, sq [T SG_DO_STMT; T PG_BLOCK; one_of [T SG_END_DO_STMT; T SG_END_DO]]) productions) by (apply produced_in; vm_compute; reflexivity).
    rewrite Z.eqb_refl in E4. change (PG_DO_CONSTRUCT =? PG_NONBLOCK_DO_CONSTRUCT)%Z with false in E4.
    ob E4. eapply cover_node in E0 as [B1 B2]; [|exact PB|exact N1|exact N2].
    ob E4. cbn [g_cover] in E0. ob E0. injection E0 as <-. rewrite (hoist_node _ a2) in E4 by (rewrite B2; vm_compute; discriminate).
    rewrite hoist_hoist in E4. cbn [app] in E4.
    ob E4. cbn [g_cover] in E0. ob E0. injection E0 as <-.
    rewrite hoist_hoist in E4. cbn [app] in E4.
    eapply cover_node in E4 as [C1 C2]; [|exact PC| |].
    + match goal with |- Forall ok (kids_of (Some ?z)) /\ _ => change (kids_of (Some z)) with (g_hoist [] z) end.
      rewrite hoist_node by (rewrite C2; vm_compute; discriminate). cbn [app map]. rewrite C2.
      split; [auto|]. apply sp_left. constructor.
    + constructor; [exact LF|]. constructor; [exact B1|]. constructor; [exact LT|constructor].
    + cbn [map g_tag stmt_leaf]. rewrite B2. apply spells_cons. apply spells_cons. apply spells_last.
      destruct ES as [->| ->]; [apply sp_left|apply sp_right]; constructor.
  - assert (CN : (c =? PG_DO_CONSTRUCT)%Z = false /\ (c =? HOIST)%Z = false /\ (pg =? HOIST)%Z = false /\
      In (c, sq [T SG_DO_STMT; T PG_DO_BODY; T pg]) productions /\ In (pg, T SG_ACTION_STMT) productions /\ spells (one_of [T PG_ACTION_TERM_DO_CONSTRUCT; T PG_OUTER_SHARED_DO_CONSTRUCT; T PG_INNER_SHARED_DO_CONSTRUCT]) [c]).
    { destruct TT as [[-> ->]|[[->| ->] ->]]; (split; [reflexivity|]); (split; [reflexivity|]); (split; [reflexivity|]);
        (split; [apply produced_in; vm_compute; reflexivity|]); (split; [apply produced_in; vm_compute; reflexivity|]).
      - apply sp_left; constructor.
      - apply sp_right, sp_left; constructor.
      - apply sp_right, sp_right; constructor. }
    assert (PB : In (PG_DO_BODY, Many (T PG_EXECUTION_PART_CONSTRUCT)) productions) by (apply produced_in; vm_compute; reflexivity).
    assert (PC : In (PG_NONBLOCK_DO_CONSTRUCT, one_of [T PG_ACTION_TERM_DO_CONSTRUCT; T PG_OUTER_SHARED_DO_CONSTRUCT; T PG_INNER_SHARED_DO_CONSTRUCT]) productions)
      by (apply produced_in; vm_compute; reflexivity).
    destruct CN as (K1 & K2 & K3 & K4 & K5 & K6). rewrite K1, Z.eqb_refl in E4. apply Z.eqb_neq in K2, K3.
    ob E4. eapply cover_node in E0 as [B1 B2]; [|exact PB|exact N1|exact N2].
    ob E4. eapply cover_node in E0 as [D1 D2]; [|exact K5|constructor; [exact LT|constructor]|constructor].
    rewrite (hoist_node _ a2) in E4 by (rewrite B2; vm_compute; discriminate).
    rewrite (hoist_node _ a3) in E4 by (rewrite D2; exact K3). cbn [app] in E4.
    ob E4. eapply cover_node in E0 as [F1 F2]; [|exact K4| |].
    + rewrite hoist_node in E4 by (rewrite F2; exact K2). cbn [app] in E4.
      eapply cover_node in E4 as [C1 C2]; [|exact PC|constructor; [exact F1|constructor]|cbn [map]; rewrite F2; exact K6].
      match goal with |- Forall ok (kids_of (Some ?z)) /\ _ => change (kids_of (Some z)) with (g_hoist [] z) end.
      rewrite hoist_node by (rewrite C2; vm_compute; discriminate). cbn [app map]. rewrite C2. split; [auto|]. apply sp_right. constructor.
    + constructor; [exact LF|]. constructor; [exact B1|]. constructor; [exact D1|constructor].
    + cbn [map g_tag stmt_leaf]. rewrite B2, D2. apply spells_cons, spells_cons, spells_cons. constructor.
Qed.
Lemma call_fine k r s m t s' : g_call body x R k r s = Done (m, t, s') -> fine (GCall r) m t.
Proof using HR roots good good_epc.
  unfold g_call, fine. intros H. specialize (good r). cbn [lang]. destruct (body r) as [p|p|] eqn:EB; cbn [body_good] in good.
  - apply andb_true_iff in good as [G1 G2]. apply rx_eqb_eq in G2. rewrite <- G2. eapply HR; eauto.
  - apply andb_true_iff in good as [G1 G2]. apply rx_eqb_eq in G2. rewrite <- G2.
    ob H. destruct (ls_is_top _ _); [injection H as <- <- <-; reflexivity|eapply HR in H; eauto].
  - eapply do_fine; eauto.
Qed.
End Step.

Lemma complain_fine p s m t s' : complain x s = Done (m, t, s') -> fine p m t.
Proof using. unfold complain. intros H. ob H. injection H as <- <- <-. reflexivity. Qed.
Lemma lang_tag p g : (match p with GAlts g' _ | GOptSeq g' _ | GPlus g' _ | GSeq g' _ | GSeqIf g' _ _ | GTag g' _ => g' = g | _ => False end) ->
  lang body p = if (g =? HOIST)%Z then inside body p else T g.
Proof using. destruct p; intros H; try contradiction; subst; reflexivity. Qed.
Lemma star_true n q s m t s' : grun body x n (GStar q) s = Done (m, t, s') -> m = true /\ exists u, t = Some u.
Proof using. destruct n; [discriminate|]. cbn [grun]. intros H. ob H. destruct a. ob H. injection H as <- <- <-. eauto. Qed.

Lemma seq_true R ps : (forall p s m t s', In p ps -> R p s = Done (m, t, s') -> m = true) ->
  forall kids s m kids' s', g_seq R ps kids s = Done (m, kids', s') -> m = true.
Proof using.
  induction ps as [|p ps IH]; intros HR kids s m kids' s' H; cbn [g_seq] in H; [now injection H|].
  ob H. destruct a as [[m1 t1] s1]. assert (m1 = true) as -> by (eapply HR; [left; reflexivity|exact E]). eapply IH in H; eauto. intros; eapply HR; [right|]; eauto.
Qed.
Lemma opt_true n q s m t s' : grun body x n (GOpt q) s = Done (m, t, s') -> m = true.
Proof using. destruct n; [discriminate|]. cbn [grun]. intros H. ob H. destruct a as [[m1 [t1|]] s1]; [ob H|]; now injection H as <- <- <-. Qed.
Lemma yields_some n : forall p s m t s', yields p = true -> grun body x n p s = Done (m, t, s') -> m = true /\ t <> None.
Proof using.
  induction n as [|n IH]; intros p s m t s' Y H; [discriminate|].
  destruct p; try discriminate Y; cbn [grun yields] in *; ob H.
  - destruct a as [[m1 t1] s1]. apply IH in E as [-> E]; auto. destruct t1; [|contradiction]. ob H. injection H as <- <- <-. split; [auto|discriminate].
  - destruct a as [[m1 k1] s1]. ob H. injection H as <- <- <-. split; [auto|discriminate].
  - destruct a as [[m1 k1] s1]. apply seq_true in E.
    + subst m1. ob H. injection H as <- <- <-. split; [auto|discriminate].
    + intros p s2 m2 t2 s3 I G. rewrite forallb_forall in Y. apply Y in I.
      assert (Z : (exists q, p = GOpt q) \/ yields p = true) by (destruct p; eauto).
      destruct Z as [[q ->]|Z]; [eapply opt_true; eauto|eapply IH; eauto].
  - destruct a as [k1 s1]. ob H. injection H as <- <- <-. split; [auto|discriminate].
  - destruct a as [[m1 t1] s1]. apply IH in E as [-> E]; auto. destruct t1; [|contradiction]. ob H. injection H as <- <- <-. split; [auto|discriminate].
Qed.
Lemma call_yields_some n p s m t s' : call_yields body p = true -> grun body x n p s = Done (m, t, s') -> m = true /\ t <> None.
Proof using.
  intros Y H. destruct p; try discriminate Y. destruct n; [discriminate|]. cbn [grun call_yields] in *. unfold g_call in H.
  destruct (body r); try discriminate Y. eapply yields_some; eauto.
Qed.

Ltac fin p := match goal with G : g_cover _ = Done _ |- fine _ true _ => unfold fine; rewrite (lang_tag p _ eq_refl); refine (cover_part p _ _ _ _ _ _ _ G); auto end.
Theorem grun_fine n : forall p s m t s', exp_good body p = true -> grun body x n p s = Done (m, t, s') -> fine p m t.
Proof using roots good good_epc.
  induction n as [|n IH]; intros p s m t s' F H; [discriminate|].
  cbn [grun] in H. destruct p as [tag ps| |q|tag ps|tag q|tag ps|tag p0 ps|q|r|tag q|r]; cbn [exp_good] in F.
  - apply andb_true_iff in F as [F F2]. apply andb_true_iff in F as [F0 F1].
    ob H. destruct a as [[m1 t1] s1]. destruct m1; [|injection H as <- <- <-; reflexivity].
    eapply alts_fine in E; eauto. destruct t1 as [t1|]; [|discriminate]. ob H. injection H as <- <- <-. destruct E as [E1 E2].
    fin (GAlts tag ps).
  - destruct (at_end x s); injection H as <- <- <-; [|reflexivity]. split; constructor.
  - ob H. destruct a as [[m1 t1] s1]. pose proof E as EG. apply IH in E; auto. destruct t1 as [t1|].
    + ob H. injection H as <- <- <-. destruct m1; [|discriminate E]. destruct E as [E1 E2].
      destruct (cover_same _ _ E0 E1) as [C1 C2]. split; [exact C1|]. rewrite C2. cbn [lang]. destruct (call_yields body q); [exact E2|]. apply sp_right. exact E2.
    + injection H as <- <- <-. split; [constructor|]. cbn [lang]. destruct (call_yields body q) eqn:Y; [|apply sp_left; constructor].
      destruct (call_yields_some _ _ _ _ _ _ Y EG) as [_ N]. now destruct N.
  - apply andb_true_iff in F as [F0 F1].
    ob H. destruct a as [[m1 kids] s1]. eapply opt_seq_fine in E as (new & EK & N1 & N2); eauto. cbn [app] in EK. subst new.
    ob H. injection H as <- <- <-. fin (GOptSeq tag ps).
  - apply andb_true_iff in F as [F0 F1].
    destruct (at_end x s); [injection H as <- <- <-; reflexivity|]. ob H. destruct a as [[m1 t1] s1]. apply IH in E; auto.
    destruct m1; [|injection H as <- <- <-; reflexivity]. destruct E as [E1 E2]. ob H. destruct a as [kids s2].
    eapply star_fine in E as (new & -> & N1 & N2); eauto. ob H. injection H as <- <- <-. fin (GPlus tag q).
    + apply Forall_app; auto.
    + rewrite map_app. constructor; auto.
  - apply andb_true_iff in F as [F0 F1].
    ob H. destruct a as [[m1 kids] s1].
    destruct m1; [|eapply complain_fine; eauto]. eapply seq_fine in E as (new & EK & N1 & N2); eauto. cbn [app] in EK. subst new.
    ob H. injection H as <- <- <-. fin (GSeq tag ps).
  - apply andb_true_iff in F as [F F3]. apply andb_true_iff in F as [F0 F1].
    ob H. destruct a as [[m1 t1] s1]. destruct m1; [|injection H as <- <- <-; reflexivity].
    ob H. destruct a as [[m2 kids] s2]. destruct m2; [|eapply complain_fine; eauto].
    ob H. injection H as <- <- <-. apply IH in E; auto. destruct E as [P1 P2].
    eapply seq_fine in E0 as (new & -> & N1 & N2); eauto. fin (GSeqIf tag p0 ps).
    + apply Forall_app; auto.
    + rewrite map_app. constructor; auto.
  - ob H. destruct a as [kids s1]. eapply star_fine in E as (new & EK & N1 & N2); eauto. cbn [app] in EK. subst new.
    ob H. injection H as <- <- <-. cbn [g_cover] in E. ob E. injection E as <-. unfold fine. cbn [g_attach]. unfold g_hoist. cbn [g_tag g_kids]. rewrite Z.eqb_refl. auto.
  - ob H. ob H. destruct a0 as [u|]; injection H as <- <- <-; [|reflexivity].
    destruct (leaf_fine _ _ _ _ E F E0) as (A & B & C). unfold fine. rewrite A. split; [auto|]. cbn [map lang]. cbn [g_tag stmt_leaf]. rewrite C. constructor.
  - apply andb_true_iff in F as [F F2]. apply andb_true_iff in F as [F0 F1].
    ob H. destruct a as [[m1 t1] s1]. destruct q as [| | | | | | |q| | |]; try discriminate.
    destruct (star_true _ _ _ _ _ _ E) as [-> [u ->]]. apply IH in E; auto. destruct E as [E1 E2].
    ob H. injection H as <- <- <-. fin (GTag tag (GStar q)).
  - eapply call_fine; eauto.
Qed.
End Tree.

Lemma source_tags exts m l r i t : for_statements r = true -> x_parse (of_source exts m l) i r = Done (Some t) -> root_body (grammar r) = Some (t_tag t).
Proof.
  intros Hr H. cbn [x_parse of_source] in H. destruct (nth_error l i) as [q|]; [|discriminate].
  destruct (rule_roots r Hr) as (g & H1 & H2). destruct (parse_rule _ _ _ _ _) as [[o s']| |] eqn:E; try discriminate H.
  cbn [obind] in H. injection H as ->. rewrite (root_rule _ _ _ _ _ _ _ _ H1 E). exact H1.
Qed.
Lemma one_tag r l : spells (body_tag (prgm_grammar r)) l -> exists g, l = [g] /\ In g (parts_of r).
Proof.
  intros H. destruct r; cbn in H; try (inversion H; subst; eexists; split; [reflexivity|left; reflexivity]).
  inversion H as [| | |? ? ? A|? ? ? A| |]; subst; inversion A; subst; eexists; (split; [reflexivity|]); cbn; auto.
Qed.

Lemma cover_tag t t' : g_cover t = Done t' -> g_tag t' = g_tag t.
Proof. intros C. destruct t as [g r [i|] k]; cbn [g_cover] in C; [|ob C]; injection C as <-; auto. Qed.
Definition top_tag (p : gexp) : option Z :=
  match p with GAlts g _ | GSeq g _ | GSeqIf g _ _ | GTag g _ => Some g | _ => None end.
Lemma grun_tag body x n p g s m t s' : top_tag p = Some g -> grun body x n p s = Done (m, Some t, s') -> g_tag t = g.
Proof.
  intros P H. destruct n; [discriminate|]. assert (CC : forall s, complain x s <> Done (m, Some t, s')).
  { intros z Z. unfold complain in Z. ob Z. }
  destruct p; try discriminate P; injection P as ->; cbn [grun] in H; ob H; destruct a as [[m1 t1] s1].
  - destruct m1; [|discriminate]. destruct t1; [|discriminate]. ob H. injection H as <- <- <-. now apply cover_tag in E0.
  - destruct m1; [|now apply CC in H]. ob H. injection H as <- <- <-. now apply cover_tag in E0.
  - destruct m1; [|discriminate]. ob H. destruct a as [[m2 k2] s2]. destruct m2; [|now apply CC in H]. ob H. injection H as <- <- <-. now apply cover_tag in E1.
  - destruct t1; [|discriminate]. ob H. injection H as <- <- <-. now apply cover_tag in E0.
Qed.
Lemma root_not_hoist x n r s m t s' : grun prgm_grammar x n (GCall r) s = Done (m, Some t, s') -> g_tag t <> HOIST.
Proof.
  intros H. destruct n; [discriminate|]. cbn [grun] in H. unfold g_call in H.
  assert (CK : match prgm_grammar r with GBody p | GExec p => exists g, top_tag p = Some g /\ g <> HOIST | GDo => True end)
    by (destruct r; cbn [prgm_grammar top_tag]; auto; eexists; (split; [reflexivity|]); vm_compute; discriminate).
  destruct (prgm_grammar r) as [p|p|].
  - destruct CK as (g & T & N). now rewrite (grun_tag _ _ _ _ _ _ _ _ _ T H).
  - destruct CK as (g & T & N). ob H. destruct (ls_is_top _ _); [discriminate|]. now rewrite (grun_tag _ _ _ _ _ _ _ _ _ T H).
  - unfold g_do in H. ob H. ob H. destruct a0; [|discriminate]. ob H. ob H. destruct a1. ob H. destruct a1 as [[tg|] s2]; [|discriminate].
    ob H. injection H as <- <- <-. destruct tg as [[c pg] sg]. unfold g_do_tree in E4. ob E4. ob E4. ob E4. apply cover_tag in E4. rewrite E4. cbn [g_tag].
    destruct (Z.eqb_spec c PG_DO_CONSTRUCT) as [->|]; vm_compute; discriminate.
Qed.
Theorem prgm_derives exts m l n r mm t s' : parse_prgm (of_source exts m l) n r = Done (mm, Some t, s') ->
  mm = true /\ derives (of_source exts m l) t /\ In (g_tag t) (parts_of r).
Proof.
  intros H. unfold parse_prgm in H. pose proof (root_not_hoist _ _ _ _ _ _ _ H) as NH. apply Z.eqb_neq in NH.
  pose proof (grun_fine prgm_grammar (of_source exts m l) (source_tags exts m l) prgm_good eq_refl n (GCall r) _ _ _ _ eq_refl H) as F.
  unfold fine in F. destruct mm; [|discriminate]. destruct F as [F1 F2]. cbn [lang] in F2. apply one_tag in F2 as (g & E & I).
  split; [reflexivity|]. cbn [g_attach] in *. unfold g_hoist in *. rewrite NH in *.
  cbn [app map] in *. injection E as <-. split; [|exact I]. now apply Forall_inv in F1.
Qed.
