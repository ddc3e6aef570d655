(** Dispatch, extensions, the expression scanner. *)
From Verif Require Import Base Tags SyntaxTags Token TTStream TTStream_spec StmtRules Peg Peg_spec Peg_proofs PegCover_proofs
  PegTerm_proofs PegSafe_proofs PegOk_proofs PegEnd_proofs StmtGrammar StmtParser Stmt_spec StmtTables_proofs StmtSafe_proofs.
Local Open Scope nat_scope.

(** ** the tag of the root *)
Definition root_exp (p : pexp) : option Z :=
  match p with PSeq g _ | PAlts g _ | PTag g _ => Some g | _ => None end.
Definition root_body (b : rbody) : option Z :=
  match b with
  | RExp p => root_exp p
  | RExt _ g p => match root_exp p with Some h => if (g =? h)%Z then Some g else None | None => None end
  | _ => None
  end.
Lemma covered_tag g r kids t : covered (ST g r kids) = Done t -> t_tag t = g.
Proof.
  unfold covered, cover. destruct (first_nonempty kids); [intros [= <-]; reflexivity|].
  destruct (rng_push_all (t_rng s) l); cbn [bind lift]; [|discriminate..]. intros [= <-]. reflexivity.
Qed.
Lemma covered_kids g r kids t : covered (ST g r kids) = Done t -> t_kids t = kids.
Proof.
  unfold covered, cover. destruct (first_nonempty kids); [intros [= <-]; reflexivity|].
  destruct (rng_push_all (t_rng s) l); cbn [bind lift]; [|discriminate..]. intros [= <-]. reflexivity.
Qed.
Lemma root_run body exts n p g s m t s' : root_exp p = Some g -> run body exts n p s = Done (m, Some t, s') -> t_tag t = g.
Proof.
  intros H E. destruct n as [|n]; [discriminate|]. destruct p; try discriminate H; injection H as ->; cbn [run] in E.
  - step3 E m1 t1 s1. destruct m1; [|discriminate]. destruct (covered _) eqn:EC; cbn [obind] in E; try discriminate.
    injection E as _ <- _. eapply covered_tag; eauto.
  - step3 E m1 t1 s1. destruct m1; [|discriminate]. destruct (covered _) eqn:EC; cbn [obind] in E; try discriminate.
    injection E as _ <- _. eapply covered_tag; eauto.
  - step3 E m1 t1 s1. destruct t1 as [t1|]; [|discriminate]. destruct (covered _) eqn:EC; cbn [obind] in E; try discriminate.
    injection E as _ <- _. eapply covered_tag; eauto.
Qed.
Lemma ext_root tag m es : forall s b t s', ext_loop tag m es s = Done (b, Some t, s') -> t_tag t = tag.
Proof.
  induction es as [|e es IH]; intros s b t s' H; cbn [ext_loop] in H; [discriminate|].
  step2 H o s1. destruct o as [x|]; [|eauto]. destruct (covered _) eqn:EC; cbn [obind] in H; try discriminate.
  injection H as _ <- _. eapply covered_tag; eauto.
Qed.
Lemma root_rule body exts n r g s t s' : root_body (body r) = Some g -> parse_rule body exts n r s = Done (Some t, s') -> t_tag t = g.
Proof.
  unfold parse_rule, call_rule. intros H E. destruct (body r); cbn [root_body] in H; try discriminate H.
  - step3 E m t1 s1. injection E as -> ->. eapply root_run; eauto.
  - destruct (root_exp p) as [h|] eqn:EP; [|discriminate]. destruct (Z.eqb_spec tag h); [|discriminate]. injection H as ->. subst h.
    step3 E m t1 s1. destruct m.
    + injection E as -> ->. eapply root_run; eauto.
    + step3 E m t2 s2. injection E as -> ->. eapply ext_root; eauto.
Qed.
Lemma find_in (A : Type) (f : A -> bool) l x : find f l = Some x -> In x l /\ f x = true.
Proof. intro H. split; [eapply find_some; eauto|eapply find_some; eauto]. Qed.
Lemma dispatch_in tag r : dispatch_rule tag = Some r -> In (tag, r) dispatch_table.
Proof.
  unfold dispatch_rule. destruct (find _ _) as [(g & q)|] eqn:E; [|discriminate]. intros [= ->].
  apply find_some in E. destruct E as (E1 & E2). cbn [fst] in E2. apply Z.eqb_eq in E2. subst. exact E1.
Qed.
Definition eq_oz (a : option Z) (b : Z) : bool := match a with Some x => (x =? b)%Z | None => false end.
Lemma dispatch_roots tag r : dispatch_rule tag = Some r -> tag <> SG_SYNC_IMAGES_STMT -> root_body (grammar r) = Some tag.
Proof.
  intros H N. apply dispatch_in in H.
  assert (G : forallb (fun p => (fst p =? SG_SYNC_IMAGES_STMT)%Z || eq_oz (root_body (grammar (snd p))) (fst p)) dispatch_table = true)
    by (vm_compute; reflexivity).
  rewrite forallb_forall in G. apply G in H. cbn [fst snd] in H. apply orb_true_iff in H. destruct H as [H|H].
  - apply Z.eqb_eq in H. contradiction.
  - unfold eq_oz in H. destruct (root_body (grammar r)); [|discriminate]. apply Z.eqb_eq in H. congruence.
Qed.

(** ** extensions *)
Lemma ext_order tag es : forall s m o s', Forall ext_same es -> ext_loop tag (mark s) es s = Done (m, o, s') ->
  (m = true /\ exists u e v t x, es = u ++ e :: v /\ Forall (declines s) u /\ e s = Done (Some t, s') /\
      o = Some x /\ t_tag x = tag /\ t_kids x = hoist [] (Some t)) \/
  (m = false /\ Forall (declines s) es /\ o = None /\ s' = s).
Proof.
  induction es as [|e es IH]; intros s m o s' Hs H; cbn [ext_loop] in H.
  - injection H as <- <- <-. right. auto.
  - inversion Hs as [|? ? H1 H2]; subst. step2 H o1 s1. destruct o1 as [t|].
    + destruct (covered _) as [x| |] eqn:EC; cbn [obind] in H; try discriminate. injection H as <- <- <-. left. split; [reflexivity|].
      exists [], e, es, t, x. repeat split; auto; [eapply covered_tag; eauto|eapply covered_kids; eauto].
    + assert (DE : declines s e) by (exists s1; exact E).
      apply H1 in E. unfold mark in H. rewrite same_rewind in H by exact E. apply IH in H; auto.
      destruct H as [(-> & u & e1 & v & t & x & -> & HU & HE & HO)|(-> & HU & HO)].
      * left. split; [reflexivity|]. exists (e :: u), e1, v, t, x. repeat split; try apply HO; auto.
      * right. split; [reflexivity|]. split; [constructor; auto|exact HO].
Qed.

(** ** procedure_designator is the only rule of its kind *)
Lemma not_des r : r <> r_procedure_designator -> not_designator (grammar r) = true.
Proof.
  intro H. destruct (not_designator (grammar r)) eqn:E; [reflexivity|]. exfalso. apply H. apply des_rule. unfold is_des. rewrite E. reflexivity.
Qed.
Lemma plain_avoids r : g_plainset r = true -> avoids_designator r.
Proof. intro H. exists g_plainset. split; [exact H|]. intros q Hq. split; [apply g_nodes; exact Hq|]. intros p Hp. eapply g_calls; eauto. Qed.
Lemma avoids_ok exts n r s : exts_ok exts -> avoids_designator r -> sound s -> okf False s (parse_rule grammar exts n r s).
Proof.
  intros He (A & HA & HH) Hs. unfold parse_rule.
  assert (H1 : forall a, Forall ext_ok (exts a)) by (intro a; apply He). assert (H2 : forall a, Forall ext_safe (exts a)) by (intro a; apply He).
  assert (HC : forall r p, A r = true -> false = false -> body_exp (grammar r) = Some p -> calls A p = true) by (intros q p HQ _; apply HH; exact HQ).
  assert (HD : forall r, A r = true -> false = false -> not_designator (grammar r) = true) by (intros q HQ _; apply HH; exact HQ).
  assert (RO : forall n p s, okp A p -> sound s -> True -> okr False s (run grammar exts n p s)).
  { intros. eapply (run_ok False grammar exts A (fun _ => false) (fun _ => True)); eauto using g_clean, g_plain, g_firm, g_lit.
    discriminate. }
  eapply (call_ok False grammar exts A (fun _ => false) (fun _ => True)); eauto using g_clean, g_plain, g_firm, g_lit.
  discriminate.
Qed.

(** ** expr *)
Lemma expr_exact exts n s o s' : exts_ok exts -> sound s -> parse_rule grammar exts n r_expr s = Done (o, s') ->
  forall k, expr_length (rest s) k ->
  match nth_error (rest s) 0, nth_error (rest s) k with
  | Some a, b =>
      if (tok a =? TK_ASTERISK)%Z || (tok a =? TK_SLASHF)%Z || (k =? 0) || match b with Some b => (tok b =? TK_EQUAL)%Z | None => false end
      then o = None /\ s' = s
      else exists t, o = Some t /\ t_tag t = SG_EXPR /\ same s s' /\ pos s' = pos s + k /\ tree_ok s t (pos s) (pos s')
  | None, _ => o = None /\ s' = s
  end.
Proof.
  intros He Hs H k Hk.
  pose proof (avoids_ok exts n r_expr s He (plain_avoids r_expr eq_refl) Hs) as OK. rewrite H in OK. destruct OK as (OS & OE & OT).
  assert (Hk' : k = xlen 1 (rest s)).
  { apply (expr_length_unique (rest s)); [exact Hk|]. apply xlen_length. destruct Hs as (_ & _ & HT). eapply Forall_impl; [|exact HT]. intros t (X & _). exact X. }
  unfold parse_rule, call_rule in H. change (grammar r_expr) with (RBreak SG_EXPR [TK_ASTERISK; TK_SLASHF]) in H. cbn iota in H.
  assert (UB : forall t, peek s = Ok t -> (exists a, tok a = t) ->
    until_break (fun s => '(m, t, s') <~ run grammar exts n (PRule r_real_literal_constant) s ;; Done (t, s')) n SG_EXPR s = Done (o, s') ->
    if (k =? 0) || match nth_error (rest s) k with Some b => (tok b =? TK_EQUAL)%Z | None => false end then o = None /\ s' = s
    else exists t, o = Some t /\ t_tag t = SG_EXPR /\ same s s' /\ pos s' = pos s + k /\ tree_ok s t (pos s) (pos s')).
  { intros t _ _ HU. unfold until_break in HU. step2 HU b s1.
    assert (HL : (level2 (rest s) <= 0)%Z) by (destruct Hs as (_ & HC & _); apply (HC []); reflexivity).
    eapply (break_exact grammar exts g_lit) in E; [|exact Hs|lia|lia]. rewrite <- Hk' in E.
    destruct E as (E1 & E2 & E3 & E4 & E5). destruct b as [kids|].
    - assert (NE : match nth_error (rest s) k with Some b => (tok b =? TK_EQUAL)%Z | None => false end = false).
      { destruct (nth_error (rest s) k) as [b|] eqn:EN; [|reflexivity]. apply Z.eqb_neq. intro X.
        destruct E4 as (_ & E4). discriminate E4. eauto. }
      rewrite NE, orb_false_r. destruct (E5 _ eq_refl) as (new & EK & EN). cbn [app] in EK. subst new.
      destruct kids as [|x kids].
      + injection HU as <- <-. replace (k =? 0) with true by (symmetry; apply Nat.eqb_eq; tauto). split; [reflexivity|].
        assert (K0 : k = 0) by tauto. rewrite K0, Nat.add_0_r in E2. destruct s, s1, E1 as (? & ? & ?); cbn in *; subst; reflexivity.
      + destruct (Nat.eqb_spec k 0) as [K0|K0]; [apply EN in K0; discriminate|].
        destruct (covered _) as [t1| |] eqn:EC; cbn [obind] in HU; try discriminate. injection HU as <- <-.
        exists t1. repeat split; try apply E1; auto. all: try (eapply covered_tag; eauto). all: apply OT.
    - injection HU as <- <-. assert (NE : match nth_error (rest s) k with Some b => (tok b =? TK_EQUAL)%Z | None => false end = true).
      { destruct E4 as (E4 & _). destruct (E4 eq_refl) as (b & -> & X). apply Z.eqb_eq. exact X. }
      rewrite NE, orb_true_r. split; [reflexivity|]. apply same_rewind. exact E1. }
  unfold peek_o in H. destruct (peek_sound s Hs) as [(HE & HB & _ & HR)|(HP & t & HT & HNB & _ & _ & HR)].
  - rewrite HB in H. cbn [lift obind] in H. change (existsb _ _) with false in H. cbn iota in H.
    rewrite HR. cbn [nth_error]. apply (UB _ HB) in H; [|exists default_token; reflexivity].
    destruct Hk as (Hk & _). rewrite HR in Hk. cbn in Hk. replace (k =? 0) with true in H by (symmetry; apply Nat.eqb_eq; lia). exact H.
  - rewrite HT in H. cbn [lift obind existsb] in H. assert (H0 : nth_error (rest s) 0 = Some t) by (rewrite HR; reflexivity). rewrite H0.
    destruct (tok t =? TK_ASTERISK)%Z; cbn [orb] in *; [injection H as <- <-; auto|].
    destruct (tok t =? TK_SLASHF)%Z; cbn [orb] in *; [injection H as <- <-; auto|].
    apply (UB _ HT) in H; eauto.
Qed.

(** ** termination *)
Lemma rule_terminates exts r s : (forall a, Forall ext_ok (exts a)) -> s_end s <= length (frags s) ->
  exists n0, forall n, n0 <= n -> parse_rule grammar exts n r s <> Fuel.
Proof.
  intros He Hs. exists (S g_height + need g_maxrank g_height (ahead s) (S (g_rank r))). intros n Hn. unfold parse_rule.
  assert (NM : need g_maxrank g_height (ahead s) (g_rank r) <= need g_maxrank g_height (ahead s) (S (g_rank r))) by (unfold need; nia).
  eapply (call_nf grammar exts) with (N := g_eats) (rank := g_rank) (K := g_maxrank) (H0 := g_height);
    eauto using g_clean, g_eats_ok, g_stars, g_left, g_rank_le, g_height_le, g_break.
  - vm_compute. lia.
  - intros. eapply (run_nf grammar exts) with (N := g_eats) (rank := g_rank) (K := g_maxrank) (H0 := g_height);
      eauto using g_clean, g_eats_ok, g_stars, g_left, g_rank_le, g_height_le, g_break. vm_compute. lia.
  - lia.
  - lia.
Qed.
