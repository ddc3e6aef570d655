(** Where matches and failures of the program parsers end; the program rule. *)
From Coq Require Import Lia.
From Verif Require Import Base Tags Token StmtRules Peg LabelStack Prgm Prgm_spec Prgm_proofs PrgmExact_proofs.
Local Open Scope nat_scope.

Definition last_is (f : gexp -> bool) : list gexp -> bool :=
  fix go ps := match ps with [] => false | p :: r => match r with [] => f p | _ => go r end end.
(** parsers whose failure leaves a current statement *)
Fixpoint hard (p : gexp) : bool :=
  match p with
  | GStmt _ | GSeq _ _ | GCall _ | GOpt _ | GOptSeq _ _ | GStar _ => true
  | GSeqIf _ p0 _ => hard p0
  | GAlts _ ps => last_is hard ps
  | GTag _ q => hard q
  | GEnd => true
  | GPlus _ _ => false
  end.
Definition hard_body (b : gbody) : bool := match b with GBody p | GExec p => hard p | GDo => true end.

Section Hard.
Variable body : grule -> gbody.
Variable x : stmts.
Hypothesis Hb : forall r, hard_body (body r) = true.

Lemma last_is_cons f p q r : last_is f (p :: q :: r) = last_is f (q :: r).
Proof. reflexivity. Qed.
Lemma alts_hard R : (forall p s t s', hard p = true -> p_pos s <= x_num x -> R p s = Done (false, t, s') -> p_pos s' < x_num x) ->
  (forall p s m t s', p_pos s <= x_num x -> R p s = Done (m, t, s') -> res_ok x s m t s') ->
  forall ps s t s', last_is hard ps = true -> p_pos s <= x_num x -> g_alts R ps s = Done (false, t, s') -> p_pos s' < x_num x.
Proof using.
  intros HR HO. induction ps as [|p ps IH]; intros s t s' Hl Hn H; [discriminate|].
  cbn [g_alts] in H. ob H. destruct a as [[m1 t1] s1]. destruct m1; [discriminate|].
  destruct ps as [|q ps]; [cbn in H; injection H as <- <-; eapply HR; eauto|].
  eapply IH; [| |exact H]; auto. apply HO in E as [_ [? _]]; auto.
Qed.
Lemma do_hard R k s t s' : (forall p s m t s', p_pos s <= x_num x -> R p s = Done (m, t, s') -> res_ok x s m t s') ->
  p_pos s <= x_num x -> g_do x R k s = Done (false, t, s') -> p_pos s' < x_num x.
Proof using.
  intros HO Hn H. unfold g_do in H. ob H. apply cur_pos in E as [-> Hlt].
  ob H. destruct a as [t0|]; [|injection H as <- <-; auto]. ob H. ob H. destruct a0 as [kids s2].
  ob H. destruct a0 as [r s3]. apply g_do_end_ok in E2 as [Hlt2 Hr]. destruct r as [tags|].
  - ob H.
  - injection H as <- <-. cbn. lia.
Qed.
Lemma grun_hard n : forall p s t s', hard p = true -> p_pos s <= x_num x -> grun body x n p s = Done (false, t, s') -> p_pos s' < x_num x.
Proof using Hb.
  induction n as [|n IH]; intros p s t s' Hh Hn H; [discriminate|].
  pose proof (fun p s m t s' => grun_ok body x n p s m t s') as HO.
  cbn [grun] in H. destruct p as [tag ps| |q|tag ps|tag q|tag ps|tag p0 ps|q|r|tag q|r]; cbn [hard] in Hh; try discriminate Hh.
  - ob H. destruct a as [[m1 t1] s1]. destruct m1.
    + destruct t1; [|discriminate]. ob H.
    + injection H as <- <-. eapply alts_hard; eauto.
  - destruct (at_end x s) eqn:E; [discriminate|]. injection H as <- <-. unfold at_end in E. apply negb_false_iff, Nat.ltb_lt in E. exact E.
  - ob H. destruct a as [[m1 t1] s1]. destruct t1; [ob H|]; discriminate.
  - ob H. destruct a as [[m1 kids] s1]. ob H.
  - ob H. destruct a as [[m1 kids] s1]. destruct m1; [ob H|].
    eapply complain_ok with (s0 := s1) in H as [_ ?]; auto.
  - ob H. destruct a as [[m1 t1] s1]. destruct m1; [|injection H as <- <-; eapply IH; eauto].
    ob H. destruct a as [[m2 kids] s2]. destruct m2; [ob H|].
    eapply complain_ok with (s0 := s2) in H as [_ ?]; auto.
  - ob H. destruct a as [kids s1]. ob H.
  - ob H. apply cur_pos in E as [-> Hlt]. ob H. destruct a; [discriminate|]. injection H as <- <-. auto.
  - ob H. destruct a as [[m1 t1] s1]. destruct t1; [ob H|]; injection H as -> <- <-; eapply IH; eauto.
  - unfold g_call in H. specialize (Hb r). destruct (body r) as [p|p|]; cbn in Hb.
    + eapply IH; eauto.
    + ob H. apply cur_pos in E as [-> Hlt]. destruct (ls_is_top _ _); [injection H as <- <-; auto|eapply IH; eauto].
    + eapply do_hard; eauto.
Qed.
End Hard.

(** parsers whose match ends with the statement before the new position *)
Section Tight.
Variable T : grule -> bool.
Fixpoint tight (p : gexp) : bool :=
  match p with
  | GStmt _ => true
  | GSeq _ ps | GSeqIf _ _ ps => last_is tight ps
  | GAlts _ ps => forallb tight ps
  | GTag _ q => tight q
  | GCall r => T r
  | _ => false
  end.
Definition tight_body (b : gbody) : bool := match b with GBody p | GExec p => tight p | GDo => false end.
End Tight.
Definition ends_at (l : list (nat * bool)) (q : nat) : Prop := exists l' i f, l = l' ++ [(i, f)] /\ q = S i.
Lemma ends_raise l l' q : Forall2 raised l l' -> ends_at l q -> ends_at l' q.
Proof.
  intros H [l0 [i [f [-> ->]]]]. apply Forall2_app_inv_l in H as [l1 [l2 [H1 [H2 ->]]]].
  inversion H2 as [|a b c d [R1 _] H3]; subst. inversion H3; subst. destruct b as [j g]. cbn in R1. subst j.
  exists l1, i, g. auto.
Qed.
Lemma ends_app l1 l q : ends_at l q -> ends_at (l1 ++ l) q.
Proof. intros [l' [i [f [-> ->]]]]. exists (l1 ++ l'), i, f. rewrite app_assoc. auto. Qed.

Section TightRun.
Variable body : grule -> gbody.
Variable x : stmts.
Variable Q : rule -> bool.
Hypothesis HQ : forall r i t, Q r = true -> x_parse x i r = Done (Some t) -> t_tag t <> HOIST.
Hypothesis Hbody : forall r, uses_body Q (body r) = true.
Hypothesis Hdo : Q r_do_stmt = true /\ Q r_end_do_stmt = true /\ Q r_end_do = true /\ Q r_action_stmt = true.
Variable T : grule -> bool.
Hypothesis HT : forall r, T r = true -> tight_body T (body r) = true.

Definition tight_res (t : option ptree) (s' : pstate) : Prop :=
  exists t0, t = Some t0 /\ real t0 /\ ends_at (g_leaves false t0) (p_pos s').

Lemma attach_ends kids t s' : tight_res t s' -> ends_at (kleaves (g_attach kids t)) (p_pos s').
Proof using.
  intros [t0 [-> [Hr He]]]. cbn [g_attach]. rewrite hoist_leaves by exact Hr. apply ends_app. exact He.
Qed.
Lemma cover_ends kids g r t s' : ends_at (kleaves kids) (p_pos s') -> g_cover (PT g r None kids) = Done t -> tight_res (Some t) s'.
Proof using.
  intros He H. exists t. split; auto. split; [eapply cover_real; eauto|].
  cbn [g_cover] in H. ob H. injection H as <-. eapply ends_raise; [|exact He]. apply (kleaves_raise g kids).
Qed.
Lemma seq_tight R : (forall p s t s', tight T p = true -> uses Q p = true -> R p s = Done (true, t, s') -> tight_res t s') ->
  forall ps kids s kids' s', last_is (tight T) ps = true -> forallb (uses Q) ps = true ->
  g_seq R ps kids s = Done (true, kids', s') -> ends_at (kleaves kids') (p_pos s').
Proof using.
  intros HR. induction ps as [|p ps IH]; intros kids s kids' s' Hl Hu H; [discriminate|].
  cbn [forallb] in Hu. apply andb_true_iff in Hu as [Hu1 Hu2].
  cbn [g_seq] in H. ob H. destruct a as [[m1 t1] s1]. destruct m1; [|discriminate].
  destruct ps as [|q ps].
  - cbn in H, Hl. injection H as <- <-. apply attach_ends. eapply HR; eauto.
  - eapply IH; [| |exact H]; auto.
Qed.
Lemma alts_tight R : (forall p s t s', tight T p = true -> uses Q p = true -> R p s = Done (true, t, s') -> tight_res t s') ->
  forall ps s t s', forallb (tight T) ps = true -> forallb (uses Q) ps = true ->
  g_alts R ps s = Done (true, t, s') -> tight_res t s'.
Proof using.
  intros HR. induction ps as [|p ps IH]; intros s t s' Hl Hu H; [discriminate|].
  cbn [forallb] in Hu, Hl. apply andb_true_iff in Hu as [Hu1 Hu2]. apply andb_true_iff in Hl as [Hl1 Hl2].
  cbn [g_alts] in H. ob H. destruct a as [[m1 t1] s1]. destruct m1; [injection H as <- <-; eapply HR; eauto|].
  eapply IH; [| |exact H]; auto.
Qed.
Lemma grun_tight n : forall p s t s', tight T p = true -> uses Q p = true -> grun body x n p s = Done (true, t, s') -> tight_res t s'.
Proof using HQ Hbody HT.
  induction n as [|n IH]; intros p s t s' Hp Hu H; [discriminate|].
  cbn [grun] in H. destruct p as [tag ps| |q|tag ps|tag q|tag ps|tag p0 ps|q|r|tag q|r]; cbn [tight] in Hp; try discriminate Hp; cbn [uses] in Hu.
  - ob H. destruct a as [[m1 t1] s1]. destruct m1; [|discriminate]. apply (alts_tight _ IH) in E; auto.
    destruct t1 as [t1|]; [|discriminate]. ob H. injection H as <- <-. eapply cover_ends; [|exact E0].
    apply (attach_ends [] (Some t1) s1). exact E.
  - ob H. destruct a as [[m1 kids] s1]. destruct m1; [|unfold complain in H; ob H].
    apply (seq_tight _ IH) in E; auto. ob H. injection H as <- <-. eapply cover_ends; [|exact E0]. exact E.
  - apply andb_true_iff in Hu as [Hu1 Hu2].
    ob H. destruct a as [[m1 t1] s1]. destruct m1; [|discriminate].
    ob H. destruct a as [[m2 kids] s2]. destruct m2; [|unfold complain in H; ob H].
    apply (seq_tight _ IH) in E0; auto. ob H. injection H as <- <-. eapply cover_ends; [|exact E1]. exact E0.
  - ob H. apply cur_pos in E as [-> Hlt]. ob H. destruct a as [t0|]; [|discriminate]. injection H as <- <-.
    eexists. split; [reflexivity|]. split; [right; cbn; eapply HQ; eauto|].
    cbn [set_tree p_pos]. rewrite advance_pos by exact Hlt. exists [], (p_pos s), false. auto.
  - ob H. destruct a as [[m1 t1] s1]. destruct t1 as [t1|]; [|injection H as -> <- <-; apply IH in E; auto].
    ob H. injection H as -> <- <-. apply IH in E; auto. eapply cover_ends; [|exact E0].
    apply (attach_ends [] (Some t1) s1). exact E.
  - unfold g_call in H. specialize (HT r Hp). specialize (Hbody r). destruct (body r) as [p|p|]; cbn in HT, Hbody; try discriminate HT.
    + eapply IH; eauto.
    + ob H. destruct (ls_is_top _ _); [discriminate|eapply IH; eauto].
Qed.
End TightRun.

(** ** the rules of Prgm_Parsers_impl.hh *)
Lemma prgm_uses : forall r, uses_body for_statements (prgm_grammar r) = true.
Proof. intro r. destruct r; reflexivity. Qed.
Lemma prgm_do : for_statements r_do_stmt = true /\ for_statements r_end_do_stmt = true /\ for_statements r_end_do = true /\ for_statements r_action_stmt = true.
Proof. auto. Qed.
Lemma prgm_hard : forall r, hard_body (prgm_grammar r) = true.
Proof. intro r. destruct r; reflexivity. Qed.
Definition prgm_tight (r : grule) : bool :=
  match r with
  | g_program_unit | g_external_subprogram | g_function_subprogram | g_subroutine_subprogram | g_module | g_main_program => true
  | _ => false
  end.
Lemma prgm_tight_ok : forall r, prgm_tight r = true -> tight_body prgm_tight (prgm_grammar r) = true.
Proof. intro r. destruct r; intro H; try discriminate H; reflexivity. Qed.

Section Program.
Variable x : stmts.
Hypothesis Hx : roots_real x.
Notation G := (grun prgm_grammar x).

Lemma unit_ends n s t s' : G n (GCall g_program_unit) s = Done (true, t, s') -> tight_res t s'.
Proof using Hx.
  apply (grun_tight prgm_grammar x for_statements) with (T := prgm_tight); auto using prgm_uses, prgm_tight_ok.
Qed.
Lemma unit_star n k : forall kids s kids' s', p_pos s <= x_num x -> ends_at (kleaves kids) (p_pos s) ->
  g_star x (G n) k (GCall g_program_unit) kids s = Done (kids', s') ->
  p_pos s' <= x_num x /\ (p_pos s' < x_num x \/ ends_at (kleaves kids') (p_pos s')).
Proof using Hx.
  induction k as [|k IH]; intros kids s kids' s' Hn He H; [discriminate|]. cbn [g_star] in H.
  destruct (at_end x s); [injection H as <- <-; auto|]. ob H. destruct a as [[m1 t1] s1].
  pose proof E as E'. apply grun_ok in E' as [_ [Hn1 _]]; auto.
  destruct m1; [apply IH in H; auto; apply attach_ends; eapply unit_ends; eauto|].
  injection H as <- <-. split; auto. left. eapply grun_hard in E; eauto. exact prgm_hard.
Qed.
Lemma program_ends n t s' : parse_prgm x n g_program = Done (true, t, s') ->
  p_pos s' = x_num x /\ tight_res t s'.
Proof using Hx.
  unfold parse_prgm. destruct n as [|n]; [discriminate|]. cbn [grun g_call prgm_grammar].
  destruct n as [|n]; [discriminate|]. cbn [grun]. intro H. ob H. destruct a as [[m kids] s1].
  destruct m; [|unfold complain in H; ob H]. ob H. injection H as <- <-.
  cbn [g_seq] in E. ob E. destruct a0 as [[m2 t2] s2]. destruct m2; [|discriminate].
  ob E. destruct a0 as [[m3 t3] s3]. destruct m3; [|discriminate]. injection E as <- <-.
  destruct n as [|n]; [discriminate|].
  cbn [grun] in E2. destruct (at_end x s2) eqn:Ee; [|discriminate]. injection E2 as <- <-.
  unfold at_end in Ee. apply negb_true_iff, Nat.ltb_ge in Ee.
  cbn [g_attach]. cbn [grun] in E1.
  destruct (at_end x p_init); [discriminate|]. ob E1. destruct a0 as [[m4 t4] s4]. destruct m4; [|discriminate].
  pose proof E as E'. apply grun_ok in E' as [_ [Hn4 _]]; [|cbn; lia].
  ob E1. destruct a0 as [kids4 s5]. ob E1. injection E1 as <- <-.
  apply unit_star in E2 as [Hn5 K]; auto; [|apply attach_ends; eapply unit_ends; eauto].
  destruct K as [K|K]; [lia|]. split; [lia|]. eapply cover_ends; [|exact E0].
  apply (attach_ends [] (Some a0) s5). eapply cover_ends; eauto.
Qed.
End Program.
