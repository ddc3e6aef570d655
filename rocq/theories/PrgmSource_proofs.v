From Coq Require Import Lia.
From Verif Require Import Base Tags Token TTStream StmtRules Peg Peg_spec Peg_proofs StmtGrammar StmtParser StmtTables_proofs StmtDispatch_proofs Props_Stmt
  LabelStack Prgm Prgm_spec Prgm_proofs PrgmExact_proofs PrgmTerm_proofs PrgmSource.
Local Open Scope nat_scope.

Lemma rule_roots : forall r, for_statements r = true -> exists g, root_body (grammar r) = Some g /\ g <> HOIST.
Proof.
  intro r. assert (H : (negb (for_statements r) || match root_body (grammar r) with Some g => negb (g =? HOIST)%Z | None => false end) = true).
  { revert r. apply by_rules. vm_compute. reflexivity. }
  intro F. rewrite F in H. cbn [negb orb] in H. destruct (root_body (grammar r)) as [g|]; [|discriminate].
  exists g. split; [reflexivity|]. apply negb_true_iff, Z.eqb_neq in H. exact H.
Qed.
Lemma source_roots exts m l : roots_real (of_source exts m l).
Proof.
  intros r i t Hr H. cbn [x_parse of_source] in H. destruct (nth_error l i) as [q|]; [|discriminate].
  destruct (rule_roots r Hr) as (g & H1 & H2). destruct (parse_rule _ _ _ _ _) as [[o s']| |] eqn:E; try discriminate H.
  cbn [obind] in H. injection H as ->. rewrite (root_rule _ _ _ _ _ _ _ _ H1 E). exact H2.
Qed.

(** with enough fuel the statement parsers have results *)
Definition well (l : list source_stmt) : Prop := Forall (fun q => ss_end q <= length (ss_frags q)) l.
Lemma list_max {A} (P : A -> nat -> Prop) : (forall a n m, n <= m -> P a n -> P a m) ->
  forall l, Forall (fun a => exists n, P a n) l -> exists n, Forall (fun a => P a n) l.
Proof.
  intros Hm l H. induction H as [|a l [n Hn] H [m IH]]; [exists 0; constructor|].
  exists (n + m). constructor; [eapply Hm; [|exact Hn]; lia|]. eapply Forall_impl; [|exact IH]. intros b Hb. eapply Hm; [|exact Hb]. lia.
Qed.
Definition settled exts r s (n0 : nat) : Prop := exists x, x <> Fuel /\ forall n, n0 <= n -> parse_rule grammar exts n r s = x.
Lemma settled_mono exts r s n m : n <= m -> settled exts r s n -> settled exts r s m.
Proof. intros Hn (x & H1 & H2). exists x. split; [exact H1|]. intros k Hk. apply H2. lia. Qed.
Lemma all_settled exts l : (forall a, Forall ext_ok (exts a)) -> well l ->
  exists n0, Forall (fun q => Forall (fun r => settled exts r (stream_of (ss_frags q) (ss_beg q) (ss_end q)) n0) all_rules) l.
Proof.
  intros He Hw. apply (list_max (fun q n0 => Forall (fun r => settled exts r (stream_of (ss_frags q) (ss_beg q) (ss_end q)) n0) all_rules)).
  - intros q n m Hn. apply Forall_impl. intro r. apply settled_mono. exact Hn.
  - eapply Forall_impl; [|exact Hw]. intros q Hq. apply (list_max (fun r n0 => settled exts r _ n0)).
    + intros r n m. apply settled_mono.
    + apply Forall_forall. intros r _. destruct (C25_terminates exts r (stream_of (ss_frags q) (ss_beg q) (ss_end q)) He Hq) as (n0 & x & H1 & H2).
      exists n0, x. auto.
Qed.
Lemma source_settled exts l : (forall a, Forall ext_ok (exts a)) -> well l ->
  exists n0, forall m, n0 <= m -> (forall i r, x_parse (of_source exts m l) i r <> Fuel) /\
    forall i r, x_parse (of_source exts m l) i r = x_parse (of_source exts n0 l) i r.
Proof.
  intros He Hw. destruct (all_settled exts l He Hw) as [n0 H]. exists n0. intros m Hm.
  assert (K : forall i r, x_parse (of_source exts m l) i r <> Fuel /\ x_parse (of_source exts m l) i r = x_parse (of_source exts n0 l) i r).
  { intros i r. cbn [x_parse of_source]. destruct (nth_error l i) as [q|] eqn:E; [|split; [discriminate|reflexivity]].
    apply nth_error_In in E. rewrite Forall_forall in H. apply H in E. rewrite Forall_forall in E. destruct (E r (rules_all r)) as (x & H1 & H2).
    rewrite (H2 m Hm), (H2 n0 (le_n _)). split; [|reflexivity]. destruct x as [[o s]| |]; [discriminate|discriminate|congruence]. }
  split; intros i r; apply K.
Qed.

(** ** the result depends on the results of the statement parsers only *)
Section Ext.
Variables (body : grule -> gbody) (x y : stmts).
Hypothesis Hn : x_num x = x_num y.
Hypothesis Hl : forall i, x_label x i = x_label y i.
Hypothesis Hp : forall i r, x_parse x i r = x_parse y i r.
Hypothesis Ht : forall i, x_toks x i = x_toks y i.
Lemma obind_ext {A B} (a : out A) (f g : A -> out B) : (forall v, f v = g v) -> obind a f = obind a g.
Proof using. intro H. destruct a; cbn [obind]; auto. Qed.
Lemma cur_ext s : cur x s = cur y s.
Proof using Hn. unfold cur. rewrite Hn. reflexivity. Qed.
Lemma adv_ext s : advance x s = advance y s.
Proof using Hn. unfold advance. rewrite Hn. reflexivity. Qed.
Lemma end_ext s : at_end x s = at_end y s.
Proof using Hn. unfold at_end. rewrite Hn. reflexivity. Qed.
Lemma do_end_ext s : g_do_end x s = g_do_end y s.
Proof using Hn Hl Hp.
  unfold g_do_end. rewrite cur_ext. apply obind_ext. intro i. rewrite Hl. destruct (negb _).
  - rewrite Hp. apply obind_ext. intros [t|]; [rewrite adv_ext|]; reflexivity.
  - destruct (ls_level _ _) as [st level]. apply obind_ext. intros _. f_equal.
    destruct (0 <? level)%Z.
    + rewrite Hp. apply obind_ext. intros [t|]; [|reflexivity]. rewrite adv_ext. reflexivity.
    + rewrite Hp. apply obind_ext. intros [t|]; [rewrite adv_ext; reflexivity|]. rewrite Hp. apply obind_ext.
      intros [t|]; [rewrite adv_ext|]; reflexivity.
Qed.
Section R.
Variables R R' : gexp -> pstate -> out gresult.
Hypothesis HR : forall p s, R p s = R' p s.
Lemma seq_ext ps : forall kids s, g_seq R ps kids s = g_seq R' ps kids s.
Proof using HR. induction ps as [|p ps IH]; intros kids s; cbn [g_seq]; [reflexivity|]. rewrite HR. apply obind_ext. intros [[[] t] s']; auto. Qed.
Lemma alts_ext ps : forall s, g_alts R ps s = g_alts R' ps s.
Proof using HR. induction ps as [|p ps IH]; intros s; cbn [g_alts]; [reflexivity|]. rewrite HR. apply obind_ext. intros [[[] t] s']; auto. Qed.
Lemma star_ext k p : forall kids s, g_star x R k p kids s = g_star y R' k p kids s.
Proof using HR Hn.
  induction k as [|k IH]; intros kids s; cbn [g_star]; [reflexivity|]. rewrite end_ext. destruct (at_end y s); [reflexivity|].
  rewrite HR. apply obind_ext. intros [[[] t] s']; auto.
Qed.
Lemma do_body_ext k : forall kids s, g_do_body R k kids s = g_do_body R' k kids s.
Proof using HR. induction k as [|k IH]; intros kids s; cbn [g_do_body]; [reflexivity|]. rewrite HR. apply obind_ext. intros [[m [t|]] s']; auto. Qed.
Lemma do_ext k s : g_do x R k s = g_do y R' k s.
Proof using HR Hn Hp Ht Hl.
  unfold g_do. rewrite cur_ext. apply obind_ext. intro i. rewrite Hp. apply obind_ext. intros [t|]; [|reflexivity].
  rewrite Ht. apply obind_ext. intro l. rewrite adv_ext, do_body_ext. apply obind_ext. intros [kids s']. rewrite do_end_ext. reflexivity.
Qed.
Lemma call_ext k r s : g_call body x R k r s = g_call body y R' k r s.
Proof using HR Hn Hp Ht Hl.
  unfold g_call. destruct (body r) as [p|p|]; [apply HR| |apply do_ext]. rewrite cur_ext. apply obind_ext. intro i. rewrite Hl. destruct (ls_is_top _ _); auto.
Qed.
End R.
Lemma grun_ext n : forall p s, grun body x n p s = grun body y n p s.
Proof using Hn Hp Ht Hl.
  induction n as [|n IH]; intros p s; [reflexivity|].
  assert (C : forall s, complain x s = complain y s) by (intro s0; unfold complain; rewrite cur_ext; reflexivity).
  cbn [grun]. destruct p as [tag ps| |q|tag ps|tag q|tag ps|tag p0 ps|q|r|tag q|r].
  - rewrite (alts_ext _ _ IH). reflexivity.
  - rewrite end_ext. reflexivity.
  - rewrite IH. reflexivity.
  - rewrite (seq_ext _ _ IH). reflexivity.
  - rewrite end_ext. destruct (at_end y s); [reflexivity|]. rewrite IH. apply obind_ext. intros [[[] t] s']; [|reflexivity].
    rewrite (star_ext _ _ IH). reflexivity.
  - rewrite (seq_ext _ _ IH). apply obind_ext. intros [[[] t] s']; auto.
  - rewrite IH. apply obind_ext. intros [[[] t] s']; [|reflexivity]. rewrite (seq_ext _ _ IH). apply obind_ext. intros [[[] kids] s'']; auto.
  - rewrite (star_ext _ _ IH). reflexivity.
  - rewrite cur_ext. apply obind_ext. intro i. rewrite Hp. apply obind_ext. intros [t|]; [rewrite adv_ext|]; reflexivity.
  - rewrite IH. reflexivity.
  - apply call_ext. exact IH.
Qed.
End Ext.

Lemma source_terminates exts l r : (forall a, Forall ext_ok (exts a)) -> well l ->
  exists n0 res, res <> Fuel /\ forall m n, n0 <= m -> n0 <= n -> parse_prgm (of_source exts m l) n r = res.
Proof.
  intros He Hw. destruct (source_settled exts l He Hw) as [m0 H].
  assert (Hn : exists n0, parse_prgm (of_source exts m0 l) n0 r <> Fuel) by (eexists; apply prgm_terminates; [apply (H m0 (le_n _))|apply le_n]).
  destruct Hn as [n0 Hn].
  exists (m0 + n0), (parse_prgm (of_source exts m0 l) n0 r). split; [exact Hn|]. intros m n Hm Hn'.
  unfold parse_prgm at 1. rewrite (grun_ext prgm_grammar (of_source exts m l) (of_source exts m0 l)); try reflexivity.
  - apply parse_prgm_mono; [lia|exact Hn].
  - apply (H m). lia.
Qed.

(** ** leaves *)
Lemma ordp_in l : forall p q i f, ordp p l q -> In (i, f) l -> p <= i /\ (i < q \/ (f = true /\ i = q)).
Proof.
  induction l as [|[j g] l IH]; intros p q i f H Hi; [destruct Hi|]. cbn [ordp] in H. destruct H as [H1 H2].
  destruct Hi as [Hi|Hi].
  - injection Hi as -> ->. split; [exact H1|]. apply ordp_le in H2. unfold nxt in H2. destruct f; [|left; lia].
    destruct (Nat.eq_dec i q); [right; auto|left; lia].
  - eapply IH in H2; [|exact Hi]. unfold nxt in H2. destruct g; (split; [lia|apply H2]).
Qed.
Lemma steps_last a l : steps (a :: l) -> forall d, fst a <= fst (last (a :: l) d).
Proof.
  revert a. induction l as [|b l IH]; intros a H d; [cbn; lia|]. inversion H as [| |i f j g l0 Hij H4]; subst. specialize (IH _ H4 d).
  change (last ((i, f) :: (j, g) :: l) d) with (last ((j, g) :: l) d). cbn [fst] in *.
  assert (i <= j) by (destruct Hij as [->|[_ ->]]; lia). lia.
Qed.
Lemma tiled_range t b e : tiled t -> g_rng t = Some (b, e) -> b < e.
Proof.
  intros H E. inversion H as [tag j E'|tag kids F1 F2 E']; subst t; cbn [g_rng stmt_leaf] in E; [injection E as <- <-; lia|].
  destruct (leaves_of (PT tag None None kids)) as [|[i f] l]; [discriminate|]. cbn [span] in E. injection E as <- <-.
  pose proof (steps_last _ _ F2 (i, false)) as G. unfold lt. apply le_n_S. exact G.
Qed.
Lemma tiled_end t l i f : tiled t -> leaves_of t = l ++ [(i, f)] -> exists b, g_rng t = Some (b, S i) /\ b <= i.
Proof.
  intros Ht H2. assert (Hb : exists b, g_rng t = Some (b, S i)).
  { inversion Ht as [tag j E|tag kids F1 F2 E]; subst t.
    - cbn in H2. destruct l as [|a l]; [|destruct l; discriminate]. injection H2 as <- <-. eexists. reflexivity.
    - cbn [g_rng]. change (leaves_of (PT tag (span (leaves_of (PT tag None None kids))) None kids)) with (leaves_of (PT tag None None kids)) in H2.
      rewrite H2. destruct l as [|[j g] l]; [eexists; reflexivity|]. cbn [app span]. exists j. f_equal. f_equal. f_equal.
      change ((j, g) :: l ++ [(i, f)]) with (((j, g) :: l) ++ [(i, f)]). rewrite last_last. reflexivity. }
  destruct Hb as [b Hb]. exists b. split; [exact Hb|]. apply tiled_range with (b := b) in Hb; [lia|exact Ht].
Qed.
Lemma tiled_begin t i f l : tiled t -> leaves_of t = (i, f) :: l -> exists e, g_rng t = Some (i, e).
Proof.
  intros Ht H2. inversion Ht as [tag j E|tag kids F1 F2 E]; subst t.
  - cbn in H2. injection H2 as <- <- <-. eexists. reflexivity.
  - cbn [g_rng]. change (leaves_of (PT tag (span (leaves_of (PT tag None None kids))) None kids)) with (leaves_of (PT tag None None kids)) in H2.
    rewrite H2. cbn [span]. eexists. reflexivity.
Qed.
Lemma exactly_once b l e : exactly b l e -> Forall (fun p => snd p = false) l -> map fst l = seq b (e - b).
Proof.
  induction 1 as [b|b f l e H IH|b l e H IH]; intro F.
  - rewrite Nat.sub_diag. reflexivity.
  - apply Forall_cons_iff in F as [_ F]. apply PrgmExact_proofs.exactly_le in H. replace (e - b) with (S (e - S b)) by lia.
    cbn [map fst seq]. rewrite IH by exact F. reflexivity.
  - apply Forall_cons_iff in F as [F _]. discriminate.
Qed.
Lemma exactly_head b l e : exactly b l e -> l <> [] -> exists f l', l = (b, f) :: l'.
Proof. intros H N. destruct H; [congruence|eauto|eauto]. Qed.
