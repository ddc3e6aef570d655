(** The shape of the program parsers' trees, as far as indentation needs it. *)
From Coq Require Import Lia.
From Verif Require Import Base Base_lemmas Tags Token StmtRules Peg LabelStack Prgm Prgm_spec Prgm_proofs Indent Indent_spec.
Local Open Scope nat_scope.

Inductive shaped (N : nat) : ptree -> Prop :=
| shaped_leaf tag i : i < N -> tag <> HOIST -> shaped N (stmt_leaf tag i)
| shaped_node tag r kids :
    pg_index tag = true ->
    (bracketed tag = true -> exists a i b j mid, kids = stmt_leaf a i :: mid ++ [stmt_leaf b j]) ->
    Forall (shaped N) kids -> shaped N (PT tag r None kids).
Definition part (N : nat) (t : ptree) : Prop :=
  shaped N t \/ exists r kids, t = PT HOIST r None kids /\ Forall (shaped N) kids.
Definition opart (N : nat) (t : option ptree) : Prop := match t with Some t => part N t | None => True end.

(** the grammar: tags, and what brackets a construct *)
Definition tag_fine (tag : Z) : bool := (tag =? HOIST)%Z || pg_index tag.
Definition is_stmt_p (p : gexp) : bool := match p with GStmt _ => true | _ => false end.
Definition last_stmt (ps : list gexp) : bool := match rev ps with p :: _ => is_stmt_p p | [] => false end.
Fixpoint exp_fine (p : gexp) : bool :=
  match p with
  | GAlts tag ps => tag_fine tag && negb (bracketed tag) && forallb exp_fine ps
  | GEnd => true
  | GOpt q => exp_fine q
  | GOptSeq tag ps => tag_fine tag && negb (bracketed tag) && forallb exp_fine ps
  | GPlus tag q => tag_fine tag && negb (bracketed tag) && exp_fine q
  | GSeq tag ps => tag_fine tag && negb (bracketed tag) && forallb exp_fine ps
  | GSeqIf tag p0 ps => tag_fine tag && (negb (bracketed tag) || (is_stmt_p p0 && last_stmt ps)) && exp_fine p0 && forallb exp_fine ps
  | GStar q => exp_fine q
  | GStmt r => for_statements r
  | GTag tag q => tag_fine tag && negb (bracketed tag) && exp_fine q
  | GCall _ => true
  end.
Definition body_fine (b : gbody) : bool := match b with GBody p | GExec p => exp_fine p | GDo => true end.
Lemma prgm_fine r : body_fine (prgm_grammar r) = true.
Proof. destruct r; vm_compute; reflexivity. Qed.

Section Shape.
Variable body : grule -> gbody.
Variable x : stmts.
Hypothesis roots : roots_real x.
Hypothesis fine : forall r, body_fine (body r) = true.
Let N := x_num x.

Lemma hoist_part kids t : Forall (shaped N) kids -> part N t -> Forall (shaped N) (g_hoist kids t).
Proof using.
  intros K [H|(r & k & -> & H)].
  - unfold g_hoist. assert (g_tag t <> HOIST) as E.
    { inversion H as [tag i L T|tag r k P _ _]; subst; cbn [g_tag stmt_leaf]; auto. intros ->. vm_compute in P. discriminate. }
    apply Z.eqb_neq in E. rewrite E. apply Forall_app. auto.
  - unfold g_hoist. cbn [g_tag g_kids]. rewrite Z.eqb_refl. apply Forall_app. auto.
Qed.
Lemma attach_part kids t : Forall (shaped N) kids -> opart N t -> Forall (shaped N) (g_attach kids t).
Proof using. intros K H. destruct t; cbn; auto. now apply hoist_part. Qed.
Lemma cover_node tag r0 kids t : tag_fine tag = true -> bracketed tag = false -> Forall (shaped N) kids ->
  g_cover (PT tag r0 None kids) = Done t -> part N t.
Proof using.
  intros T B K H. cbn [g_cover] in H. ob H. injection H as <-. apply orb_true_iff in T as [T|T].
  - apply Z.eqb_eq in T as ->. right. eauto.
  - left. constructor; auto. congruence.
Qed.
Lemma cover_again t t' : part N t -> g_cover t = Done t' -> part N t'.
Proof using.
  intros [H|(r & k & -> & H)] C.
  - inversion H as [tag i L T|tag r k P B F]; subst.
    + injection C as <-. now left.
    + cbn [g_cover] in C. ob C. injection C as <-. left. now constructor.
  - cbn [g_cover] in C. ob C. injection C as <-. right. eauto.
Qed.
Lemma leaf_part r i t s : cur x s = Done i -> for_statements r = true -> x_parse x i r = Done (Some t) -> shaped N (stmt_leaf (t_tag t) i).
Proof using roots.
  intros C F P. unfold cur in C. destruct (Nat.ltb_spec (p_pos s) (x_num x)); [|discriminate]. injection C as <-.
  constructor; auto. eapply roots; eauto.
Qed.

Section Step.
Variable R : gexp -> pstate -> out gresult.
Hypothesis HR : forall p s m t s', exp_fine p = true -> R p s = Done (m, t, s') -> opart N t.
Hypothesis HS : forall r s m t s', for_statements r = true -> R (GStmt r) s = Done (m, t, s') -> m = true -> exists a i, t = Some (stmt_leaf a i) /\ a <> HOIST.

Lemma seq_part ps : forall kids s m kids' s', forallb exp_fine ps = true -> Forall (shaped N) kids ->
  g_seq R ps kids s = Done (m, kids', s') -> Forall (shaped N) kids'.
Proof using HR.
  clear HS. induction ps as [|p ps IH]; intros kids s m kids' s' F K H; cbn [g_seq] in H; [injection H as <- <- <-; auto|].
  cbn [forallb] in F. apply andb_true_iff in F as [F1 F2]. ob H. destruct a as [[m1 t1] s1]. apply HR in E; auto.
  destruct m1; [refine (IH _ _ _ _ _ F2 _ H); now apply attach_part|injection H as <- <- <-; now apply attach_part].
Qed.
Lemma attach_app kids t : exists k, g_attach kids t = kids ++ k.
Proof using.
  clear. destruct t as [t|]; cbn [g_attach]; [|exists []; now rewrite app_nil_r].
  unfold g_hoist. destruct (_ =? _)%Z; eauto.
Qed.
Lemma seq_app ps : forall kids s m kids' s', g_seq R ps kids s = Done (m, kids', s') -> exists k, kids' = kids ++ k.
Proof using.
  clear. induction ps as [|p ps IH]; intros kids s m kids' s' H; cbn [g_seq] in H.
  - injection H as <- <- <-. exists []. now rewrite app_nil_r.
  - ob H. destruct a as [[m1 t1] s1]. destruct (attach_app kids t1) as (k1 & E1). rewrite E1 in H.
    destruct m1; [|injection H as <- <- <-; eauto]. apply IH in H as (k & ->). exists (k1 ++ k). now rewrite <- app_assoc.
Qed.
Lemma seq_last ps r : for_statements r = true -> forall kids s kids' s', g_seq R (ps ++ [GStmt r]) kids s = Done (true, kids', s') ->
  exists mid a i, kids' = kids ++ mid ++ [stmt_leaf a i].
Proof using HS.
  clear HR. intros F. induction ps as [|p ps IH]; intros kids s kids' s' H; cbn [g_seq app] in H.
  - ob H. destruct a as [[m1 t1] s1]. destruct m1; [|discriminate]. injection H as <- <-.
    destruct (HS _ _ _ _ _ F E eq_refl) as (a & i & -> & T). exists [], a, i. cbn [g_attach]. unfold g_hoist.
    apply Z.eqb_neq in T. cbn [g_tag stmt_leaf]. now rewrite T.
  - ob H. destruct a as [[m1 t1] s1]. destruct m1; [|discriminate]. apply IH in H as (mid & a & i & ->).
    destruct (attach_app kids t1) as (k1 & ->). exists (k1 ++ mid), a, i. now rewrite <- !app_assoc.
Qed.
Lemma alts_part ps : forall s m t s', forallb exp_fine ps = true -> g_alts R ps s = Done (m, t, s') -> opart N t.
Proof using HR.
  clear HS. induction ps as [|p ps IH]; intros s m t s' F H; cbn [g_alts] in H; [injection H as <- <- <-; exact I|].
  cbn [forallb] in F. apply andb_true_iff in F as [F1 F2]. ob H. destruct a as [[m1 t1] s1].
  destruct m1; [injection H as <- <- <-; eapply HR; eauto|eapply IH; eauto].
Qed.
Lemma star_part k p : forall kids s kids' s', exp_fine p = true -> Forall (shaped N) kids ->
  g_star x R k p kids s = Done (kids', s') -> Forall (shaped N) kids'.
Proof using HR.
  clear HS. induction k as [|k IH]; intros kids s kids' s' F K H; cbn [g_star] in H; [discriminate|].
  destruct (at_end x s); [injection H as <- <-; auto|]. ob H. destruct a as [[m1 t1] s1]. apply HR in E; auto.
  destruct m1; [refine (IH _ _ _ _ F _ H); now apply attach_part|injection H as <- <-; now apply attach_part].
Qed.
Lemma do_body_part k : forall kids s kids' s', Forall (shaped N) kids ->
  g_do_body R k kids s = Done (kids', s') -> Forall (shaped N) kids'.
Proof using HR.
  clear HS. induction k as [|k IH]; intros kids s kids' s' K H; cbn [g_do_body] in H; [discriminate|].
  ob H. destruct a as [[m1 t1] s1]. apply HR in E; auto.
  destruct t1; [refine (IH _ _ _ _ _ H); now apply hoist_part|injection H as <- <-; auto].
Qed.
Lemma do_end_tags s c pg sg s' : g_do_end x s = Done (Some (c, pg, sg), s') -> p_pos s < N /\ sg <> HOIST /\
  ((c = PG_DO_CONSTRUCT /\ pg = HOIST) \/ (pg_index c = true /\ bracketed c = false /\ pg_index pg = true /\ bracketed pg = false /\ c <> PG_DO_CONSTRUCT)).
Proof using roots.
  unfold g_do_end. intros H. ob H. apply cur_pos in E as [-> L]. split; [exact L|].
  destruct (negb _).
  - ob H. destruct a as [t|]; [|discriminate]. injection H as <- <- <- _. split; [eapply roots; eauto; reflexivity|]. auto.
  - destruct (ls_level _ _) as [st lv]. ob H. ob H. destruct a0 as [r s1]. destruct r as [p|]; [|discriminate].
    ob H. injection H as -> <-. clear E1. destruct (0 <? lv)%Z.
    + ob E0. destruct a1 as [t|]; [|discriminate].
      destruct (lv =? 1)%Z; injection E0 as <- <- <- _; (split; [eapply roots; eauto; reflexivity|]); right; vm_compute; conjs; auto; discriminate.
    + ob E0. destruct a1 as [t|].
      * injection E0 as <- <- <- _. split; [eapply roots; eauto; reflexivity|]. auto.
      * ob E0. destruct a1 as [t|]; [|discriminate]. injection E0 as <- <- <- _. split; [eapply roots; eauto; reflexivity|].
        right; vm_compute; conjs; auto; discriminate.
Qed.
Lemma do_part k s m t s' : g_do x R k s = Done (m, t, s') -> opart N t.
Proof using HR roots.
  clear HS. unfold g_do. intros H. ob H. ob H. destruct a0 as [t0|]; [|injection H as <- <- <-; exact I].
  ob H. ob H. destruct a1 as [kids s1]. ob H. destruct a1 as [r s2]. destruct r as [[[c pg] sg]|]; [|injection H as <- <- <-; exact I].
  ob H. injection H as <- <- <-. apply do_body_part in E2; auto. apply do_end_tags in E3 as (L & SG & T).
  pose proof (leaf_part r_do_stmt _ _ _ E eq_refl E0) as LF.
  assert (NH : t_tag t0 <> HOIST) by (eapply roots; eauto; reflexivity).
  assert (LT : shaped N (stmt_leaf sg (p_pos s1))) by now constructor.
  unfold g_do_tree in E4. cbn [opart].
  assert (HL : forall kk g j, g <> HOIST -> g_hoist kk (stmt_leaf g j) = kk ++ [stmt_leaf g j]).
  { intros kk g j X. unfold g_hoist. cbn [g_tag stmt_leaf]. apply Z.eqb_neq in X. now rewrite X. }
  rewrite !HL in E4 by auto. cbn [app] in E4.
  destruct T as [[-> ->]|(P1 & B1 & P2 & B2 & ND)].
  - rewrite Z.eqb_refl in E4. change (PG_DO_CONSTRUCT =? PG_NONBLOCK_DO_CONSTRUCT)%Z with false in E4. cbn [negb] in E4.
    ob E4. ob E4. ob E4. cbn [g_cover] in E3, E5, E6, E4. ob E3. injection E3 as <-. ob E5. injection E5 as <-.
    unfold g_hoist in E6. cbn [g_tag g_kids] in E6. change (HOIST =? HOIST)%Z with true in E6. change (PG_BLOCK =? HOIST)%Z with false in E6.
    cbn [app] in E6. ob E6. injection E6 as <-. unfold g_hoist in E4. cbn [g_tag g_kids] in E4. change (HOIST =? HOIST)%Z with true in E4. cbn [app] in E4. ob E4. injection E4 as <-.
    left. constructor; [reflexivity| |].
    + intros _. eexists _, _, _, _, [_]. reflexivity.
    + constructor; [exact LF|]. constructor; [|constructor; auto].
      apply shaped_node; [reflexivity|intros X; vm_compute in X; discriminate|exact E2].
  - apply Z.eqb_neq in ND. rewrite ND in E4. rewrite Z.eqb_refl in E4.
    ob E4. ob E4. ob E4. apply cover_node in E3; [|reflexivity|reflexivity|exact E2].
    apply cover_node in E5; [|unfold tag_fine; now rewrite P2, orb_true_r|exact B2|auto].
    apply cover_node in E6; [|unfold tag_fine; now rewrite P1, orb_true_r|exact B1|apply hoist_part; [apply hoist_part|]; auto].
    apply cover_node in E4; [exact E4|reflexivity|reflexivity|]. apply hoist_part; auto.
Qed.
Lemma call_part k r s m t s' : g_call body x R k r s = Done (m, t, s') -> opart N t.
Proof using HR roots fine.
  clear HS. unfold g_call. intros H. specialize (fine r). destruct (body r) as [p|p|]; cbn [body_fine] in fine.
  - eapply HR; eauto.
  - ob H. destruct (ls_is_top _ _); [injection H as <- <- <-; exact I|eapply HR; eauto].
  - eapply do_part; eauto.
Qed.
End Step.

Lemma run_stmt n r s m t s' : for_statements r = true -> grun body x n (GStmt r) s = Done (m, t, s') -> m = true -> exists a i, t = Some (stmt_leaf a i) /\ a <> HOIST.
Proof using roots.
  intros F H ->. destruct n; [discriminate|]. cbn [grun] in H. ob H. ob H. destruct a0 as [u|]; [|discriminate].
  injection H as <- _. exists (t_tag u), a. split; auto. eapply roots; eauto.
Qed.
Lemma complain_part s m t s' : complain x s = Done (m, t, s') -> opart N t.
Proof using. clear. unfold complain. intros H. ob H. injection H as <- <- <-. exact I. Qed.

Ltac cn A B := match goal with G : g_cover _ = Done _ |- _ => refine (cover_node _ _ _ _ A B _ G) end; try assumption.
Theorem grun_shaped n : forall p s m t s', exp_fine p = true -> grun body x n p s = Done (m, t, s') -> opart N t.
Proof using roots fine.
  induction n as [|n IH]; intros p s m t s' F H; [discriminate|].
  cbn [grun] in H. destruct p as [tag ps| |q|tag ps|tag q|tag ps|tag p0 ps|q|r|tag q|r]; cbn [exp_fine] in F.
  - apply andb_true_iff in F as [F F2]. apply andb_true_iff in F as [F0 F1]. apply negb_true_iff in F1.
    ob H. destruct a as [[m1 t1] s1]. destruct m1; [|injection H as <- <- <-; exact I].
    eapply alts_part in E; eauto. destruct t1 as [t1|]; [|discriminate]. ob H. injection H as <- <- <-.
    cn F0 F1. apply hoist_part; auto.
  - destruct (at_end x s); injection H as <- <- <-; exact I.
  - ob H. destruct a as [[m1 t1] s1]. apply IH in E; auto. destruct t1 as [t1|]; [|injection H as <- <- <-; exact I].
    ob H. injection H as <- <- <-. eapply cover_again; eauto.
  - apply andb_true_iff in F as [F F2]. apply andb_true_iff in F as [F0 F1]. apply negb_true_iff in F1.
    ob H. destruct a as [[m1 kids] s1]. eapply seq_part in E; eauto. ob H. injection H as <- <- <-. cn F0 F1.
  - apply andb_true_iff in F as [F F2]. apply andb_true_iff in F as [F0 F1]. apply negb_true_iff in F1.
    destruct (at_end x s); [injection H as <- <- <-; exact I|]. ob H. destruct a as [[m1 t1] s1]. apply IH in E; auto.
    destruct m1; [|injection H as <- <- <-; exact I]. ob H. destruct a as [kids s2].
    eapply star_part in E0; eauto; [|now apply attach_part]. ob H. injection H as <- <- <-. cn F0 F1.
  - apply andb_true_iff in F as [F F2]. apply andb_true_iff in F as [F0 F1]. apply negb_true_iff in F1.
    ob H. destruct a as [[m1 kids] s1]. eapply seq_part in E; eauto.
    destruct m1; [|eapply complain_part; eauto]. ob H. injection H as <- <- <-. cn F0 F1.
  - apply andb_true_iff in F as [F F3]. apply andb_true_iff in F as [F F2]. apply andb_true_iff in F as [F0 F1].
    ob H. destruct a as [[m1 t1] s1]. destruct m1; [|injection H as <- <- <-; exact I].
    ob H. destruct a as [[m2 kids] s2]. destruct m2; [|eapply complain_part; eauto].
    ob H. injection H as <- <- <-. pose proof (IH _ _ _ _ _ F2 E) as P1.
    assert (K : Forall (shaped N) kids) by (refine (seq_part _ IH _ _ _ _ _ _ F3 _ E0); now apply attach_part).
    destruct (bracketed tag) eqn:B; [|match goal with G : g_cover _ = Done _ |- _ => refine (cover_node _ _ _ _ F0 B _ G) end; exact K].
    cbn [negb orb] in F1. apply andb_true_iff in F1 as [F1 F4]. destruct p0 as [| | | | | | | |r0| |]; try discriminate.
    cbn [exp_fine] in F2. destruct (run_stmt _ _ _ _ _ _ F2 E eq_refl) as (a1 & i1 & -> & NH).
    unfold last_stmt in F4. destruct (rev ps) as [|pl rps] eqn:ER; [discriminate|]. destruct pl as [| | | | | | | |r1| |]; try discriminate.
    assert (ps = rev rps ++ [GStmt r1]) as EP by (rewrite <- (rev_involutive ps), ER; reflexivity).
    rewrite EP in E0, F3. rewrite forallb_app in F3. apply andb_true_iff in F3 as [_ F3]. cbn [forallb exp_fine] in F3. rewrite andb_true_r in F3.
    apply seq_last in E0 as (mid & a2 & i2 & EK); auto; [|intros; eapply run_stmt; eauto].
    cbn [g_cover] in E1. ob E1. injection E1 as <-. apply orb_true_iff in F0 as [F0|F0].
    { apply Z.eqb_eq in F0 as ->. vm_compute in B. discriminate. }
    left. constructor; auto. intros _. cbn [g_attach] in EK. unfold g_hoist in EK. cbn [g_tag stmt_leaf] in EK.
    apply Z.eqb_neq in NH. rewrite NH in EK. cbn [app] in EK. exists a1, i1, a2, i2, mid. exact EK.
  - ob H. destruct a as [kids s1]. eapply star_part in E; eauto. ob H. injection H as <- <- <-. cn (eq_refl (tag_fine HOIST)) (eq_refl (bracketed HOIST)).
  - ob H. ob H. destruct a0 as [u|]; injection H as <- <- <-; [|exact I]. left. eapply leaf_part; eauto.
  - apply andb_true_iff in F as [F F2]. apply andb_true_iff in F as [F0 F1]. apply negb_true_iff in F1.
    ob H. destruct a as [[m1 t1] s1]. apply IH in E; auto. destruct t1 as [t1|]; [|injection H as <- <- <-; exact I].
    ob H. injection H as <- <- <-. cn F0 F1. apply hoist_part; auto.
  - eapply call_part; eauto.
Qed.
End Shape.

Theorem prgm_shaped x n r m t s' : roots_real x -> parse_prgm x n r = Done (m, Some t, s') -> part (x_num x) t.
Proof. intros Hx H. unfold parse_prgm in H. exact (grun_shaped prgm_grammar x Hx prgm_fine n (GCall r) _ _ _ _ eq_refl H). Qed.
