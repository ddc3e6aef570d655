(** Nests of loops and IF constructs are parsed into their trees. *)
From Coq Require Import Lia.
From Verif Require Import Base Tags Token StmtRules Peg LabelStack Prgm Prgm_spec Prgm_proofs PrgmTerm_proofs PrgmLoops_spec.
Local Open Scope nat_scope.

Section Loops.
Variable x : stmts.
Hypothesis Hx : roots_real x.
Notation G := (grun prgm_grammar x).

(** ** evaluation *)
Definition ev (p : gexp) (s : pstate) (r : gresult) : Prop := exists n0, forall n, n0 <= n -> G n p s = Done r.
Definition ev_a (ps : list gexp) (s : pstate) (r : gresult) : Prop := exists n0, forall n, n0 <= n -> g_alts (G n) ps s = Done r.
Definition ev_s (ps : list gexp) (kids : list ptree) (s : pstate) (r : bool * list ptree * pstate) : Prop :=
  exists n0, forall n, n0 <= n -> g_seq (G n) ps kids s = Done r.
Definition ev_st (p : gexp) (kids : list ptree) (s : pstate) (r : list ptree * pstate) : Prop :=
  exists n0, forall n, n0 <= n -> g_star x (G n) n p kids s = Done r.

Ltac fuel2 H1 H2 := destruct H1 as [n1 H1]; destruct H2 as [n2 H2]; exists (S (n1 + n2)).

Lemma ev_call r p s res : prgm_grammar r = GBody p -> ev p s res -> ev (GCall r) s res.
Proof using.
  intros E [n0 H]. exists (S n0). intros n Hn. destruct n as [|n]; [lia|]. cbn [grun]. unfold g_call. rewrite E. apply H. lia.
Qed.
Lemma ev_exec p s res : prgm_grammar g_executable_construct = GExec p -> p_pos s < x_num x ->
  ls_is_top (p_stack s) (x_label x (p_pos s)) = false -> ev p s res -> ev (GCall g_executable_construct) s res.
Proof using.
  intros E Hp Ht [n0 H]. exists (S n0). intros n Hn. destruct n as [|n]; [lia|]. cbn [grun]. unfold g_call. rewrite E.
  unfold cur. apply Nat.ltb_lt in Hp. rewrite Hp. cbn [obind]. rewrite Ht. apply H. lia.
Qed.
Lemma ev_exec_top s : p_pos s < x_num x ->
  ls_is_top (p_stack s) (x_label x (p_pos s)) = true -> ev (GCall g_executable_construct) s (false, None, s).
Proof using.
  intros Hp Ht. exists 1. intros n Hn. destruct n as [|n]; [lia|]. cbn [grun]. unfold g_call.
  destruct (prgm_grammar g_executable_construct) as [p|p|] eqn:E; try discriminate E.
  unfold cur. apply Nat.ltb_lt in Hp. rewrite Hp. cbn [obind]. rewrite Ht. reflexivity.
Qed.
Lemma ev_a_nil s : ev_a [] s (false, None, s).
Proof using. exists 0. reflexivity. Qed.
Lemma ev_a_hit p ps s t s' : ev p s (true, t, s') -> ev_a (p :: ps) s (true, t, s').
Proof using. intros [n0 H]. exists n0. intros n Hn. cbn [g_alts]. rewrite H by lia. reflexivity. Qed.
Lemma ev_a_miss p ps s t s1 r : ev p s (false, t, s1) -> ev_a ps s1 r -> ev_a (p :: ps) s r.
Proof using. intros H1 H2. fuel2 H1 H2. intros n Hn. cbn [g_alts]. rewrite H1 by lia. cbn [obind]. apply H2. lia. Qed.
Lemma ev_alts tag ps s t s' r : ev_a ps s (true, Some t, s') -> g_cover (PT tag None None (g_hoist [] t)) = Done r ->
  ev (GAlts tag ps) s (true, Some r, s').
Proof using.
  intros [n0 H] Hc. exists (S n0). intros n Hn. destruct n as [|n]; [lia|]. cbn [grun]. rewrite H by lia. cbn [obind].
  rewrite Hc. reflexivity.
Qed.
Lemma ev_alts_no tag ps s t s' : ev_a ps s (false, t, s') -> ev (GAlts tag ps) s (false, None, s').
Proof using. intros [n0 H]. exists (S n0). intros n Hn. destruct n as [|n]; [lia|]. cbn [grun]. rewrite H by lia. reflexivity. Qed.
Lemma ev_s_nil kids s : ev_s [] kids s (true, kids, s).
Proof using. exists 0. reflexivity. Qed.
Lemma ev_s_cons p ps kids s t s1 r : ev p s (true, t, s1) -> ev_s ps (g_attach kids t) s1 r -> ev_s (p :: ps) kids s r.
Proof using. intros H1 H2. fuel2 H1 H2. intros n Hn. cbn [g_seq]. rewrite H1 by lia. cbn [obind]. apply H2. lia. Qed.
Lemma ev_seqif tag p ps s t s1 kids s2 r : ev p s (true, t, s1) -> ev_s ps (g_attach [] t) s1 (true, kids, s2) ->
  g_cover (PT tag None None kids) = Done r -> ev (GSeqIf tag p ps) s (true, Some r, s2).
Proof using.
  intros H1 H2 Hc. fuel2 H1 H2. intros n Hn. destruct n as [|n]; [lia|]. cbn [grun]. rewrite H1 by lia. cbn [obind].
  rewrite H2 by lia. cbn [obind]. rewrite Hc. reflexivity.
Qed.
Lemma ev_seqif_no tag p ps s t s1 : ev p s (false, t, s1) -> ev (GSeqIf tag p ps) s (false, None, s1).
Proof using. intros [n0 H]. exists (S n0). intros n Hn. destruct n as [|n]; [lia|]. cbn [grun]. rewrite H by lia. reflexivity. Qed.
Lemma ev_opt_no p s s1 m : ev p s (m, None, s1) -> ev (GOpt p) s (true, None, s1).
Proof using. intros [n0 H]. exists (S n0). intros n Hn. destruct n as [|n]; [lia|]. cbn [grun]. rewrite H by lia. reflexivity. Qed.
Lemma ev_opt p s t s1 m r : ev p s (m, Some t, s1) -> g_cover t = Done r -> ev (GOpt p) s (true, Some r, s1).
Proof using. intros [n0 H] Hc. exists (S n0). intros n Hn. destruct n as [|n]; [lia|]. cbn [grun]. rewrite H by lia. cbn [obind]. rewrite Hc. reflexivity. Qed.
Lemma ev_tag tag p s t s1 m r : ev p s (m, Some t, s1) -> g_cover (PT tag None None (g_hoist [] t)) = Done r -> ev (GTag tag p) s (m, Some r, s1).
Proof using. intros [n0 H] Hc. exists (S n0). intros n Hn. destruct n as [|n]; [lia|]. cbn [grun]. rewrite H by lia. cbn [obind]. rewrite Hc. reflexivity. Qed.
Lemma ev_star p s kids s' r : ev_st p [] s (kids, s') -> g_cover (PT HOIST None None kids) = Done r -> ev (GStar p) s (true, Some r, s').
Proof using. intros [n0 H] Hc. exists (S n0). intros n Hn. destruct n as [|n]; [lia|]. cbn [grun]. rewrite H by lia. cbn [obind]. rewrite Hc. reflexivity. Qed.

(** the state after a statement has been taken *)
Definition take (s : pstate) (t : stree) : pstate := set_tree (advance x s) (p_pos s) t.
Lemma take_pos s t : p_pos s < x_num x -> p_pos (take s t) = S (p_pos s).
Proof using. intro H. unfold take. cbn. apply advance_pos. exact H. Qed.
Lemma take_stack s t : p_stack (take s t) = p_stack s.
Proof using. unfold take, advance. destruct (_ <? _); reflexivity. Qed.
Lemma take_left s t : p_left (take s t) = p_left s.
Proof using. unfold take, advance. destruct (_ <? _); reflexivity. Qed.
Lemma cur_ok s : p_pos s < x_num x -> cur x s = Done (p_pos s).
Proof using. intro H. unfold cur. apply Nat.ltb_lt in H. rewrite H. reflexivity. Qed.
Lemma ev_stmt r s t : p_pos s < x_num x -> x_parse x (p_pos s) r = Done (Some t) ->
  ev (GStmt r) s (true, Some (stmt_leaf (t_tag t) (p_pos s)), take s t).
Proof using.
  intros Hp H. exists 1. intros n Hn. destruct n as [|n]; [lia|]. cbn [grun]. rewrite cur_ok by auto. cbn [obind]. rewrite H. reflexivity.
Qed.
Lemma ev_stmt_no r s : p_pos s < x_num x -> x_parse x (p_pos s) r = Done None -> ev (GStmt r) s (false, None, s).
Proof using.
  intros Hp H. exists 1. intros n Hn. destruct n as [|n]; [lia|]. cbn [grun]. rewrite cur_ok by auto. cbn [obind]. rewrite H. reflexivity.
Qed.

(** a construct whose first statement does not match *)
Lemma construct_no r tag p0 ps s : prgm_grammar r = GBody (GSeqIf tag (GStmt p0) ps) ->
  p_pos s < x_num x -> x_parse x (p_pos s) p0 = Done None -> ev (GCall r) s (false, None, s).
Proof using. intros E Hp H. eapply ev_call; [exact E|]. eapply ev_seqif_no, ev_stmt_no; auto. Qed.
Lemma do_no s : p_pos s < x_num x -> x_parse x (p_pos s) r_do_stmt = Done None -> ev (GCall g_do_construct) s (false, None, s).
Proof using.
  intros Hp H. exists 1. intros n Hn. destruct n as [|n]; [lia|]. cbn [grun]. unfold g_call. cbn [prgm_grammar].
  unfold g_do. rewrite cur_ok by auto. cbn [obind]. rewrite H. reflexivity.
Qed.

(** ** where the execution part stops *)
Notation EPC := (GCall g_execution_part_construct).
Definition stops (s : pstate) : Prop := ev EPC s (false, None, s).
Lemma others_no s : is_none x (p_pos s) others -> forall ps r, r = (false, @None ptree, s) ->
  ps = [GStmt r_format_stmt; GStmt r_data_stmt; GStmt r_entry_stmt] -> ev_a ps s r.
Proof using.
  intros [Hp Hn] ps r -> ->. unfold others in Hn. repeat match goal with H : Forall _ (_ :: _) |- _ => inversion H; clear H; subst end.
  repeat (eapply ev_a_miss; [apply ev_stmt_no; auto|]). apply ev_a_nil.
Qed.
Lemma stop_top s : p_pos s < x_num x -> ls_is_top (p_stack s) (x_label x (p_pos s)) = true -> is_none x (p_pos s) others -> stops s.
Proof using.
  intros Hp Ht Ho. eapply ev_call; [reflexivity|]. eapply ev_alts_no. eapply ev_a_miss; [apply ev_exec_top; auto|].
  eapply others_no; eauto.
Qed.
Definition top (st : LStack) : option Z := match st with [] => None | (m, _) :: _ => Some m end.
Lemma top_is st l : ls_is_top st l = true <-> top st = Some l.
Proof using.
  destruct st as [|[m v] st]; cbn; [split; discriminate|]. rewrite Z.eqb_eq. split; congruence.
Qed.
Lemma free_not s : free x (top (p_stack s)) (p_pos s) -> ls_is_top (p_stack s) (x_label x (p_pos s)) = false.
Proof using. unfold free. intro H. destruct (ls_is_top _ _) eqn:E; [|reflexivity]. apply top_is in E. contradiction. Qed.
Ltac inv_forall := repeat match goal with H : Forall _ (_ :: _) |- _ => apply Forall_cons_iff in H as [? H] end.
Lemma exec_no s : free x (top (p_stack s)) (p_pos s) -> is_none x (p_pos s) openers -> ev (GCall g_executable_construct) s (false, None, s).
Proof using.
  intros Hf [Hp Ho]. unfold openers, before_do in Ho. cbn [app] in Ho. inv_forall.
  eapply ev_exec; [reflexivity|auto|apply free_not; auto|]. eapply ev_alts_no.
  eapply ev_a_miss; [apply ev_stmt_no; auto|].
  eapply ev_a_miss; [eapply construct_no; [reflexivity|auto|auto]|].
  eapply ev_a_miss; [eapply construct_no; [reflexivity|auto|auto]|].
  eapply ev_a_miss; [eapply construct_no; [reflexivity|auto|auto]|].
  eapply ev_a_miss; [apply do_no; auto|].
  repeat (eapply ev_a_miss; [eapply construct_no; [reflexivity|auto|auto]|]). apply ev_a_nil.
Qed.
Lemma stop_closes s : closes x (top (p_stack s)) (p_pos s) -> stops s.
Proof using.
  intros [Hf [Hp Ho]]. apply Forall_app in Ho as [Ho1 Ho2]. eapply ev_call; [reflexivity|]. eapply ev_alts_no.
  eapply ev_a_miss; [apply exec_no; auto; split; auto|]. eapply others_no; eauto. split; auto.
Qed.

(** ** ranges *)
Definition rg (i j : nat) : option (nat * nat) := if i <? j then Some (i, j) else None.
Lemma rg_lt i j : i < j -> rg i j = Some (i, j).
Proof using. intro H. unfold rg. apply Nat.ltb_lt in H. rewrite H. reflexivity. Qed.
Lemma rg_nil i : rg i i = None.
Proof using. unfold rg. rewrite Nat.ltb_irrefl. reflexivity. Qed.
Fixpoint chained (i : nat) (ts : list ptree) (j : nat) : Prop :=
  match ts with
  | [] => i = j
  | t :: ts' => exists m, i <= m /\ g_rng t = rg i m /\ g_tag t <> HOIST /\ chained m ts' j
  end.
Lemma chained_app ts us i m j : chained i ts m -> chained m us j -> chained i (ts ++ us) j.
Proof using.
  revert i. induction ts as [|t ts IH]; intros i H1 H2; cbn in *; [subst; auto|]. destruct H1 as [k [A [B [C D]]]]. exists k. auto.
Qed.
Lemma chained_split ts us i j : chained i (ts ++ us) j -> exists m, chained i ts m /\ chained m us j.
Proof using.
  revert i. induction ts as [|t ts IH]; intros i H; cbn [app chained] in *; [eauto|]. destruct H as [k [A [B [C D]]]].
  destruct (IH k D) as [m [H1 H2]]. exists m. split; [exists k; auto|auto].
Qed.
Lemma chained_cons t i m ts j : i <= m -> g_rng t = rg i m -> g_tag t <> HOIST -> chained m ts j -> chained i (t :: ts) j.
Proof using. intros. cbn. exists m. auto. Qed.
Lemma chained_one t i m : i <= m -> g_rng t = rg i m -> g_tag t <> HOIST -> chained i [t] m.
Proof using. intros. eapply chained_cons; eauto. reflexivity. Qed.
Lemma leaf_rng g i : g_rng (stmt_leaf g i) = rg i (S i).
Proof using. rewrite rg_lt by lia. reflexivity. Qed.
Lemma node_rng tag i j kids : g_rng (node tag i j kids) = rg i j.
Proof using. reflexivity. Qed.
Lemma push_rg b i m : b <= i -> i <= m -> rng_push (rg b i) (rg i m) = Ok (rg b m).
Proof using.
  intros Hb Hm. destruct (Nat.eq_dec i m) as [<-|N]; [rewrite rg_nil; destruct (rg b i) as [[? ?]|]; reflexivity|].
  rewrite (rg_lt i m) by lia. rewrite (rg_lt b m) by lia. unfold rng_push, rng_empty.
  replace (i =? m) with false by (symmetry; apply Nat.eqb_neq; lia).
  destruct (Nat.eq_dec b i) as [<-|N2]; [rewrite rg_nil; reflexivity|]. rewrite (rg_lt b i) by lia.
  replace (b =? i) with false by (symmetry; apply Nat.eqb_neq; lia).
  replace (m =? i) with false by (symmetry; apply Nat.eqb_neq; lia). rewrite Nat.eqb_refl. reflexivity.
Qed.
Lemma push_chained ts : forall b i j, b <= i -> chained i ts j -> g_push_all (rg b i) ts = Ok (rg b j).
Proof using.
  induction ts as [|t ts IH]; intros b i j Hb H; cbn in H; [subst; reflexivity|].
  destruct H as [m [H1 [H2 [_ H3]]]]. cbn [g_push_all]. rewrite H2, push_rg by auto. cbn [bind]. apply IH; auto. lia.
Qed.
Lemma cover_chained tag i ts j : chained i ts j -> g_cover (PT tag None None ts) = Done (node tag i j ts).
Proof using.
  intro H. pose proof (push_chained ts i i j (le_n i) H) as E. cbn [g_cover]. rewrite rg_nil in E. rewrite E. reflexivity.
Qed.
(** a last branch that ends where the branches so far end *)
Lemma cover_again tag i ts j t : i < j -> chained i ts (S j) -> g_rng t = rg j (S j) ->
  g_cover (PT tag None None (ts ++ [t])) = Done (node tag i (S j) (ts ++ [t])).
Proof using.
  intros Hi H Ht. assert (E : g_push_all None (ts ++ [t]) = Ok (rg i (S j))).
  { pose proof (push_chained ts i i (S j) (le_n i) H) as E. rewrite rg_nil in E.
    assert (A : forall ts a, g_push_all a (ts ++ [t]) = (r <- g_push_all a ts ;; g_push_all r [t])).
    { clear. induction ts as [|u ts IH]; intros a; cbn [app g_push_all]; [reflexivity|].
      destruct (rng_push a (g_rng u)); cbn [bind]; auto. }
    rewrite A, E. cbn [bind g_push_all]. rewrite Ht, !rg_lt by lia.
    unfold rng_push, rng_empty. replace (j =? S j) with false by (symmetry; apply Nat.eqb_neq; lia).
    replace (i =? S j) with false by (symmetry; apply Nat.eqb_neq; lia). rewrite Nat.eqb_refl. reflexivity. }
  cbn [g_cover]. rewrite E. reflexivity.
Qed.
Lemma hoist_one kids t : g_tag t <> HOIST -> g_hoist kids t = kids ++ [t].
Proof using. intro H. unfold g_hoist. apply Z.eqb_neq in H. rewrite H. reflexivity. Qed.
Lemma hoist_node kids i j ts : g_hoist kids (node HOIST i j ts) = kids ++ ts.
Proof using. unfold g_hoist. cbn [node g_tag g_kids]. rewrite Z.eqb_refl. reflexivity. Qed.
Lemma hoist_app kids t : g_hoist kids t = kids ++ g_hoist [] t.
Proof using. unfold g_hoist. destruct (_ =? _)%Z; reflexivity. Qed.
Lemma cover_wrap tag t i j : i <= j -> g_rng t = rg i j -> g_tag t <> HOIST -> g_cover (PT tag None None (g_hoist [] t)) = Done (node tag i j [t]).
Proof using. intros Hi H1 H2. rewrite hoist_one by exact H2. cbn [app]. apply cover_chained. apply chained_one; auto. Qed.
Lemma tag_ne tag i j kids : (tag =? HOIST)%Z = false -> g_tag (node tag i j kids) <> HOIST.
Proof using. intro H. cbn [node g_tag]. apply Z.eqb_neq. exact H. Qed.
Lemma leaf_ne i r g : for_statements r = true -> is_a x i r g -> g_tag (stmt_leaf g i) <> HOIST.
Proof using Hx. intros Hr [_ [t [H <-]]]. eapply Hx; eauto. Qed.
Lemma do_ne i g l : is_do x i g l -> g_tag (stmt_leaf g i) <> HOIST.
Proof using Hx. intros [_ [t [H [<- _]]]]. eapply Hx; eauto. reflexivity. Qed.

(** ** repetition *)
Inductive rep (p : gexp) : pstate -> list ptree -> pstate -> Prop :=
| rep_nil s : rep p s [] s
| rep_cons s t s1 ts s2 : p_pos s < x_num x -> ev p s (true, Some t, s1) -> rep p s1 ts s2 -> rep p s (g_hoist [] t ++ ts) s2.
Lemma rep_app p s ts s1 us s2 : rep p s ts s1 -> rep p s1 us s2 -> rep p s (ts ++ us) s2.
Proof using. induction 1; intro H2; cbn [app]; [exact H2|]. rewrite <- app_assoc. econstructor; eauto. Qed.
Lemma rep_one s t s1 : p_pos s < x_num x -> g_tag t <> HOIST -> ev EPC s (true, Some t, s1) -> forall ts s2, rep EPC s1 ts s2 -> rep EPC s (t :: ts) s2.
Proof using.
  intros Hp Ht He ts s2 H. change (t :: ts) with ([t] ++ ts). replace [t] with (g_hoist [] t); [econstructor; eauto|].
  rewrite hoist_one by exact Ht. reflexivity.
Qed.
Lemma rep_star_gen p s ts s' : rep p s ts s' -> ev p s' (false, None, s') -> forall kids, exists n0, forall n k, n0 <= n -> n0 <= k ->
  g_star x (G n) k p kids s = Done (kids ++ ts, s').
Proof using.
  induction 1 as [s|s t s1 ts s2 Hp He Hc IH]; intros Hs kids.
  - destruct Hs as [n0 Hs]. exists (S n0). intros n k Hn Hk. destruct k as [|k]; [lia|]. cbn [g_star].
    rewrite app_nil_r. destruct (at_end x s); [reflexivity|]. rewrite Hs by lia. reflexivity.
  - destruct (IH Hs (g_hoist kids t)) as [n1 H1]. destruct He as [n2 He]. exists (S (n1 + n2)). intros n k Hn Hk.
    destruct k as [|k]; [lia|]. cbn [g_star]. unfold at_end. apply Nat.ltb_lt in Hp. rewrite Hp. cbn [negb].
    rewrite He by lia. cbn [obind g_attach]. rewrite H1 by lia. rewrite (hoist_app kids), <- app_assoc. reflexivity.
Qed.
Lemma rep_star p s ts s' : rep p s ts s' -> ev p s' (false, None, s') -> ev_st p [] s (ts, s').
Proof using. intros H Hs. destruct (rep_star_gen _ _ _ _ H Hs []) as [n0 H0]. exists n0. intros n Hn. apply H0; lia. Qed.
Lemma rep_body s ts s' : rep EPC s ts s' -> stops s' -> forall kids, exists n0, forall n k, n0 <= n -> n0 <= k ->
  g_do_body (G n) k kids s = Done (kids ++ ts, s').
Proof using.
  induction 1 as [s|s t s1 ts s2 Hp He Hc IH]; intros Hs kids.
  - destruct Hs as [n0 Hs]. exists (S n0). intros n k Hn Hk. destruct k as [|k]; [lia|]. cbn [g_do_body].
    rewrite app_nil_r. rewrite Hs by lia. reflexivity.
  - destruct (IH Hs (g_hoist kids t)) as [n1 H1]. destruct He as [n2 He]. exists (S (n1 + n2)). intros n k Hn Hk.
    destruct k as [|k]; [lia|]. cbn [g_do_body].
    rewrite He by lia. cbn [obind]. rewrite H1 by lia. rewrite (hoist_app kids), <- app_assoc. reflexivity.
Qed.
(** block *)
Lemma ev_block s ts s' i j : rep EPC s ts s' -> stops s' -> chained i ts j ->
  ev (GCall g_block) s (true, Some (node PG_BLOCK i j ts), s').
Proof using.
  intros H Hs Hc. eapply ev_call; [reflexivity|]. eapply ev_tag.
  - eapply ev_star; [eapply rep_star; eauto|]. apply cover_chained; eauto.
  - rewrite hoist_node. cbn [app]. apply cover_chained. exact Hc.
Qed.

(** an executable construct inside an execution part *)
Lemma ev_epc s t i j s' : i <= j -> ev (GCall g_executable_construct) s (true, Some (node PG_EXECUTABLE_CONSTRUCT i j [t]), s') ->
  ev EPC s (true, Some (exec t i j), s').
Proof using.
  intros Hij H. eapply ev_call; [reflexivity|]. eapply ev_alts; [eapply ev_a_hit; exact H|].
  apply cover_wrap; auto. apply tag_ne; reflexivity.
Qed.

(** ** loops *)
Lemma advance_set s i t : advance x (set_tree s i t) = set_tree (advance x s) i t.
Proof using. unfold advance, set_tree. cbn [p_pos]. destruct (_ <? _); reflexivity. Qed.
Lemma ev_do s t l ts s1 tags s2 t' :
  p_pos s < x_num x -> x_parse x (p_pos s) r_do_stmt = Done (Some t) -> do_label (x_toks x (p_pos s)) t = Ok l ->
  rep EPC (take (if (0 <? l)%Z then set_stack s (ls_push (p_stack s) l) else s) t) ts s1 -> stops s1 ->
  g_do_end x s1 = Done (Some tags, s2) -> g_do_tree tags (t_tag t) (p_pos s) ts (p_pos s1) = Done t' ->
  ev (GCall g_do_construct) s (true, Some t', s2).
Proof using.
  intros Hp H1 H2 Hr Hs He Ht. destruct (rep_body _ _ _ Hr Hs []) as [n0 H0]. exists (S n0). intros n Hn.
  destruct n as [|n]; [lia|]. cbn [grun]. unfold g_call. cbn [prgm_grammar]. unfold g_do. rewrite cur_ok by auto. cbn [obind].
  rewrite H1. cbn [obind]. rewrite H2. cbn [obind lift]. rewrite advance_set.
  assert (E : forall q, p_pos (if (0 <? l)%Z then set_stack s q else s) = p_pos s) by (intro; destruct (_ <? _)%Z; reflexivity).
  specialize (H0 n n). unfold take in H0. rewrite E in H0. rewrite H0 by lia. cbn [obind app]. rewrite He. cbn [obind]. rewrite Ht. reflexivity.
Qed.
Lemma ev_exec_do s t s' i j : i <= j -> i = p_pos s -> free x (top (p_stack s)) i -> is_none x i before_do ->
  g_rng t = rg i j -> g_tag t <> HOIST ->
  ev (GCall g_do_construct) s (true, Some t, s') -> ev EPC s (true, Some (exec t i j), s').
Proof using.
  intros Hij -> Hf [Hp Ho] H1 H2 H. apply ev_epc; [auto|]. unfold before_do in Ho. inv_forall.
  eapply ev_exec; [reflexivity|auto|apply free_not; auto|]. eapply ev_alts; [|apply cover_wrap; eauto].
  eapply ev_a_miss; [apply ev_stmt_no; auto|].
  eapply ev_a_miss; [eapply construct_no; [reflexivity|auto|auto]|].
  eapply ev_a_miss; [eapply construct_no; [reflexivity|auto|auto]|].
  eapply ev_a_miss; [eapply construct_no; [reflexivity|auto|auto]|].
  eapply ev_a_hit. exact H.
Qed.

(** *** the terminating statement *)
Definition after (s s' : pstate) (j : nat) (st : LStack) : Prop := p_pos s' = j /\ p_stack s' = st /\ p_left s' = p_left s.
Lemma end_block s j h : p_pos s = j -> x_label x j = 0%Z -> is_a x j r_end_do_stmt h ->
  exists s', g_do_end x s = Done (Some (PG_DO_CONSTRUCT, HOIST, h), s') /\ after s s' (S j) (p_stack s).
Proof using.
  intros <- Hl [Hp [t [H <-]]]. unfold g_do_end. rewrite cur_ok by auto. cbn [obind]. rewrite Hl.
  change (negb (0 <? 0)%Z) with true. cbv iota. rewrite H. cbn [obind]. eexists. split; [reflexivity|].
  rewrite advance_set. repeat split; [apply take_pos; auto|apply take_stack|apply take_left].
Qed.
Lemma top_run st l : top st <> Some l -> run_len st l = 0.
Proof using.
  destruct st as [|[m v] st]; [reflexivity|]. cbn [top run_len]. intro H. destruct (m =? l)%Z eqn:E; [|reflexivity].
  apply Z.eqb_eq in E. congruence.
Qed.
Lemma level_one l st : top st <> Some l -> ls_level ((l, -1) :: st)%Z l = (((l, 0) :: st), 0)%Z.
Proof using.
  intro H. unfold ls_level. rewrite Z.eqb_refl. cbn [negb]. change (-1 =? -1)%Z with true. cbv iota.
  cbn [run_len]. rewrite Z.eqb_refl, top_run by auto. reflexivity.
Qed.
(** the entries of loops that share a terminating statement, after the level has been asked for *)
Fixpoint known (l : Z) (k : nat) (st : LStack) : LStack :=
  match k with O => st | S k' => (l, Z.of_nat k) :: known l k' st end.
Fixpoint fresh (l : Z) (k : nat) (st : LStack) : LStack :=
  match k with O => st | S k' => (l, -1)%Z :: fresh l k' st end.
Lemma run_fresh l k st : top st <> Some l -> run_len (fresh l k st) l = k.
Proof using. intro H. induction k; cbn [fresh run_len]; [apply top_run; auto|]. rewrite Z.eqb_refl. congruence. Qed.
Lemma assign_fresh l k st : assign (fresh l k st) k = known l k st.
Proof using. induction k; cbn [fresh known assign]; [destruct st as [|[]]; reflexivity|]. rewrite IHk. reflexivity. Qed.
Lemma level_fresh l k st : top st <> Some l -> ls_level (fresh l (S (S k)) st) l = (known l (S (S k)) st, Z.of_nat (S (S k))).
Proof using.
  intro H. unfold ls_level. cbn [fresh]. rewrite Z.eqb_refl. cbn [negb]. change (-1 =? -1)%Z with true. cbv iota.
  change ((l, -1)%Z :: (l, -1)%Z :: fresh l k st) with (fresh l (S (S k)) st). rewrite run_fresh by auto.
  change (S (S k) =? 1) with false. cbv iota. rewrite assign_fresh. reflexivity.
Qed.
Lemma level_known l k st : ls_level (known l (S k) st) l = (known l (S k) st, Z.of_nat (S k)).
Proof using.
  unfold ls_level. cbn [known]. rewrite Z.eqb_refl. cbn [negb]. destruct (Z.of_nat (S k) =? -1)%Z eqn:E; [apply Z.eqb_eq in E; lia|]. reflexivity.
Qed.
Ltac end_start Hl Hp :=
  unfold g_do_end; rewrite cur_ok by auto; cbn [obind];
  match goal with |- context [negb (0 <? ?l)%Z] => replace (0 <? l)%Z with true by (symmetry; apply Z.ltb_lt; lia) end;
  cbn [negb].
Lemma end_label s l j h st : p_pos s = j -> (0 < l)%Z -> ends x l j -> is_a x j r_end_do h ->
  p_stack s = ((l, -1)%Z :: st) -> top st <> Some l ->
  exists s', g_do_end x s = Done (Some (PG_DO_CONSTRUCT, HOIST, h), s') /\ after s s' (S j) st.
Proof using.
  intros <- Hl [He _] [Hp [t [H <-]]] Hst Ht. subst l. end_start Hl Hp.
  rewrite Hst, level_one by auto. change (-1 <? 0)%Z with true. change (0 <? 0)%Z with false. cbn [assert_ lift obind].
  rewrite H. cbn [obind]. rewrite advance_set. unfold advance. cbn [p_pos set_stack]. pose proof Hp as Hq. apply Nat.ltb_lt in Hq. rewrite Hq.
  cbn. eexists. split; [reflexivity|]. repeat split; reflexivity.
Qed.
Lemma end_action s l j h st : p_pos s = j -> (0 < l)%Z -> ends x l j -> is_none x j [r_end_do] -> is_a x j r_action_stmt h ->
  p_stack s = ((l, -1)%Z :: st) -> top st <> Some l ->
  exists s', g_do_end x s = Done (Some (PG_ACTION_TERM_DO_CONSTRUCT, PG_DO_TERM_ACTION_STMT, h), s') /\ after s s' (S j) st.
Proof using.
  intros <- Hl [He _] [_ Hn] [Hp [t [H <-]]] Hst Ht. inv_forall. subst l.  end_start Hl Hp.
  rewrite Hst, level_one by auto. change (-1 <? 0)%Z with true. change (0 <? 0)%Z with false. cbn [assert_ lift obind].
  match goal with E : x_parse x (p_pos s) r_end_do = _ |- _ => rewrite E end. cbn [obind]. rewrite H. cbn [obind].
  rewrite advance_set. unfold advance. cbn [p_pos set_stack]. pose proof Hp as Hq. apply Nat.ltb_lt in Hq. rewrite Hq.
  cbn. eexists. split; [reflexivity|]. repeat split; reflexivity.
Qed.
Lemma end_outer s l j h st : p_pos s = j -> (0 < l)%Z -> ends x l j -> is_a x j r_action_stmt h ->
  p_stack s = known l 1 st ->
  exists s', g_do_end x s = Done (Some (PG_OUTER_SHARED_DO_CONSTRUCT, PG_DO_TERM_SHARED_STMT, h), s') /\ after s s' (S j) st.
Proof using.
  intros <- Hl [He _] [Hp [t [H <-]]] Hst. subst l. end_start Hl Hp.
  rewrite Hst, level_known. change (Z.of_nat 1) with 1%Z. change (-1 <? 1)%Z with true. change (0 <? 1)%Z with true.
  change (1 =? 1)%Z with true. cbn [assert_ lift obind].
  rewrite H. cbn [obind]. rewrite advance_set. unfold advance. cbn [p_pos set_stack]. pose proof Hp as Hq. apply Nat.ltb_lt in Hq. rewrite Hq.
  cbn. eexists. split; [reflexivity|]. repeat split; reflexivity.
Qed.
Lemma end_inner s l j h st k q : p_pos s = j -> (0 < l)%Z -> ends x l j -> is_a x j r_action_stmt h ->
  ls_level (p_stack s) l = (known l (S (S k)) st, q) -> q = Z.of_nat (S (S k)) ->
  exists s', g_do_end x s = Done (Some (PG_INNER_SHARED_DO_CONSTRUCT, PG_DO_TERM_SHARED_STMT, h), s') /\ after s s' j (known l (S k) st).
Proof using.
  intros <- Hl [He _] [Hp [t [H <-]]] Hst Eq. subst l. end_start Hl Hp.
  rewrite Hst. replace (-1 <? q)%Z with true by (symmetry; apply Z.ltb_lt; lia). replace (0 <? q)%Z with true by (symmetry; apply Z.ltb_lt; lia).
  replace (q =? 1)%Z with false by (symmetry; apply Z.eqb_neq; lia). cbn [assert_ lift obind].
  rewrite H. cbn [obind]. cbn. eexists. split; [reflexivity|]. repeat split; reflexivity.
Qed.

(** *** the tree of a loop *)
Lemma tree_do g i ts j h : S i <= j -> g_tag (stmt_leaf g i) <> HOIST -> g_tag (stmt_leaf h j) <> HOIST -> chained (S i) ts j ->
  g_do_tree (PG_DO_CONSTRUCT, HOIST, h) g i ts j =
  Done (node PG_DO_CONSTRUCT i (S j) [stmt_leaf g i; node PG_BLOCK (S i) j ts; stmt_leaf h j]).
Proof using.
  intros Hij Hg Hh Hc. unfold g_do_tree. rewrite Z.eqb_refl. change (PG_DO_CONSTRUCT =? PG_NONBLOCK_DO_CONSTRUCT)%Z with false. cbv iota.
  rewrite (cover_chained PG_BLOCK _ _ _ Hc). cbn [obind].
  rewrite (cover_wrap HOIST (stmt_leaf h j) j (S j)) by (auto using leaf_rng). cbn [obind].
  rewrite hoist_node, (hoist_one [] _ Hg). cbn [app]. rewrite hoist_one by (apply tag_ne; reflexivity). cbn [app].
  assert (C : chained i [stmt_leaf g i; node PG_BLOCK (S i) j ts; stmt_leaf h j] (S j)).
  { eapply chained_cons; [|apply leaf_rng|auto|]; [lia|]. eapply chained_cons; [|apply node_rng|apply tag_ne; reflexivity|]; [lia|].
    apply chained_one; auto using leaf_rng. }
  rewrite (cover_chained HOIST _ _ _ C). cbn [obind]. rewrite hoist_node. cbn [app]. apply cover_chained. exact C.
Qed.
Lemma tree_nonblock ctag pg g i ts j h : (ctag =? PG_DO_CONSTRUCT)%Z = false -> (ctag =? HOIST)%Z = false -> (pg =? HOIST)%Z = false ->
  S i <= j -> g_tag (stmt_leaf g i) <> HOIST -> g_tag (stmt_leaf h j) <> HOIST -> chained (S i) ts j ->
  g_do_tree (ctag, pg, h) g i ts j =
  Done (nonblock ctag i (S j) [stmt_leaf g i; node PG_DO_BODY (S i) j ts; node pg j (S j) [stmt_leaf h j]]).
Proof using.
  intros Hc0 Hc1 Hp Hij Hg Hh Hc. unfold g_do_tree. rewrite Hc0, Z.eqb_refl.
  rewrite (cover_chained PG_DO_BODY _ _ _ Hc). cbn [obind].
  rewrite (cover_wrap pg (stmt_leaf h j) j (S j)) by (auto using leaf_rng). cbn [obind].
  rewrite (hoist_one [] _ Hg). cbn [app]. rewrite (hoist_one _ (node PG_DO_BODY _ _ _)) by (apply tag_ne; reflexivity). cbn [app].
  rewrite hoist_one by (apply tag_ne; auto). cbn [app].
  erewrite (cover_chained ctag i _ (S j)); cycle 1.
  { eapply chained_cons; [|apply leaf_rng|auto|]; [lia|]. eapply chained_cons; [|apply node_rng|apply tag_ne; reflexivity|]; [lia|].
    eapply chained_one; [|apply node_rng|apply tag_ne; auto]; lia. }
  cbn [obind]. apply cover_wrap; [lia|apply node_rng|apply tag_ne; auto].
Qed.
Lemma tree_shared ctag pg g i ts j h : (ctag =? PG_DO_CONSTRUCT)%Z = false -> (ctag =? HOIST)%Z = false -> (pg =? HOIST)%Z = false ->
  S i <= j -> g_tag (stmt_leaf g i) <> HOIST -> g_tag (stmt_leaf h j) <> HOIST -> chained (S i) ts (S j) ->
  g_do_tree (ctag, pg, h) g i ts j =
  Done (nonblock ctag i (S j) [stmt_leaf g i; node PG_DO_BODY (S i) (S j) ts; node pg j (S j) [stmt_leaf h j]]).
Proof using.
  intros Hc0 Hc1 Hp Hij Hg Hh Hc. unfold g_do_tree. rewrite Hc0, Z.eqb_refl.
  rewrite (cover_chained PG_DO_BODY _ _ _ Hc). cbn [obind].
  rewrite (cover_wrap pg (stmt_leaf h j) j (S j)) by (auto using leaf_rng). cbn [obind].
  rewrite (hoist_one [] _ Hg). cbn [app]. rewrite (hoist_one _ (node PG_DO_BODY _ _ _)) by (apply tag_ne; reflexivity). cbn [app].
  rewrite hoist_one by (apply tag_ne; auto).
  erewrite (cover_again ctag i _ j); [|lia| |apply node_rng].
  - cbn [obind app]. apply cover_wrap; [lia|apply node_rng|apply tag_ne; auto].
  - eapply chained_cons; [|apply leaf_rng|auto|]; [lia|]. eapply chained_one; [|apply node_rng|apply tag_ne; reflexivity]; lia.
Qed.

(** ** the induction *)
Notation ELSEIF := (GSeqIf HOIST (GStmt r_else_if_stmt) [GCall g_block]).
Notation ELSE := (GSeqIf HOIST (GStmt r_else_stmt) [GCall g_block]).
Definition P_items (tp : option Z) (i : nat) (ts : list ptree) (j : nat) : Prop :=
  i <= j /\ chained i ts j /\ forall s, p_pos s = i -> top (p_stack s) = tp -> exists s', rep EPC s ts s' /\ after s s' j (p_stack s).
Definition P_tail (tp : option Z) (i : nat) (us : list ptree) (j : nat) : Prop :=
  i < j /\ chained i us j /\ forall s, p_pos s = i -> top (p_stack s) = tp -> stops s /\
    exists a s1 b s', us = a ++ b /\ rep ELSEIF s a s1 /\ ev ELSEIF s1 (false, None, s1) /\
      (forall kids, ev_s [GOpt ELSE; GStmt r_end_if_stmt] kids s1 (true, kids ++ b, s')) /\ after s s' j (p_stack s).
Definition P_loop (tp : option Z) (i : nat) (t : ptree) (j : nat) : Prop :=
  i < j /\ i < x_num x /\ forall s, p_pos s = i -> top (p_stack s) = tp ->
    exists s', ev EPC s (true, Some (exec t i j), s') /\ after s s' j (p_stack s).
Definition P_share (l : Z) (i : nat) (t : ptree) (j : nat) : Prop :=
  i < j /\ i < x_num x /\ ends x l j /\ forall s k st, (0 < l)%Z -> p_pos s = i -> p_stack s = fresh l (S k) st -> top st <> Some l ->
    exists s', ev EPC s (true, Some (exec t i (S j)), s') /\ after s s' j (known l (S k) st).

Lemma exec_chained t i m ts j : i <= m -> chained m ts j -> chained i (exec t i m :: ts) j.
Proof using. intros H1 H2. eapply chained_cons; eauto. apply tag_ne. reflexivity. Qed.
Lemma stmt_here s r g : is_a x (p_pos s) r g -> exists s', ev (GStmt r) s (true, Some (stmt_leaf g (p_pos s)), s') /\ after s s' (S (p_pos s)) (p_stack s).
Proof using.
  intros [Hp [t [H <-]]]. eexists. split; [apply ev_stmt; eauto|]. repeat split; [apply take_pos; auto|apply take_stack|apply take_left].
Qed.
Lemma stop_ends s l : top (p_stack s) = Some l -> ends x l (p_pos s) -> stops s.
Proof using.
  intros Ht [He Ho]. apply stop_top; [apply Ho| |exact Ho]. apply top_is. congruence.
Qed.
Lemma after_trans s s1 s2 j k st st' : after s s1 j st -> after s1 s2 k st' -> after s s2 k st'.
Proof using. unfold after. intuition congruence. Qed.

Scheme items_m := Induction for items Sort Prop
with tail_m := Induction for tail Sort Prop
with loop_m := Induction for loop Sort Prop
with share_m := Induction for share Sort Prop.
Combined Scheme nest_ind from items_m, tail_m, loop_m, share_m.

(** the start of a loop *)
Lemma do_start s g l : is_do x (p_pos s) g l ->
  exists t s0, x_parse x (p_pos s) r_do_stmt = Done (Some t) /\ do_label (x_toks x (p_pos s)) t = Ok l /\ t_tag t = g /\
    take (if (0 <? l)%Z then set_stack s (ls_push (p_stack s) l) else s) t = s0 /\
    after s s0 (S (p_pos s)) (if (0 <? l)%Z then (l, -1)%Z :: p_stack s else p_stack s).
Proof using.
  intros [Hp [t [H1 [H2 H3]]]]. eexists t, _. repeat split; auto.
  - rewrite take_pos; destruct (0 <? l)%Z; auto.
  - rewrite take_stack. destruct (0 <? l)%Z; auto.
  - rewrite take_left. destruct (0 <? l)%Z; auto.
Qed.

Lemma nests : (forall tp i ts j, items x tp i ts j -> P_items tp i ts j) /\
  (forall tp i us j, tail x tp i us j -> P_tail tp i us j) /\
  (forall tp i t j, loop x tp i t j -> P_loop tp i t j) /\
  (forall l i t j, share x l i t j -> P_share l i t j).
Proof using Hx.
  apply (nest_ind x (fun tp i ts j _ => P_items tp i ts j) (fun tp i ts j _ => P_tail tp i ts j)
    (fun tp i t j _ => P_loop tp i t j) (fun l i t j _ => P_share l i t j)).
  - (* nothing *)
    intros tp i. split; [lia|]. split; [reflexivity|]. intros s Hp Ht. exists s. split; [constructor|]. repeat split; auto.
  - (* action *)
    intros tp i g ts j Hf Ha _ (Hij & Hc & IH). split; [lia|]. split; [apply exec_chained; auto|]. intros s <- <-.
    destruct (stmt_here s _ _ Ha) as (s1 & H1 & A1). destruct A1 as (A1 & A2 & A3).
    destruct (IH s1 A1 ltac:(congruence)) as (s2 & H2 & B1 & B2 & B3).
    exists s2. split.
    + eapply rep_one; [apply Ha|apply tag_ne; reflexivity| |exact H2]. apply ev_epc; [lia|].
      eapply ev_exec; [reflexivity|apply Ha|apply free_not; auto|].
      eapply ev_alts; [eapply ev_a_hit; exact H1|]. apply cover_wrap; [lia|apply leaf_rng|].
      eapply leaf_ne; [|exact Ha]. reflexivity.
    + repeat split; congruence.
  - (* format *)
    intros tp i g ts j Hf Hn Ha _ (Hij & Hc & IH). split; [lia|].
    split; [eapply chained_cons; [|apply node_rng|apply tag_ne; reflexivity|exact Hc]; lia|]. intros s <- <-.
    destruct (stmt_here s _ _ Ha) as (s1 & H1 & A1). destruct A1 as (A1 & A2 & A3).
    destruct (IH s1 A1 ltac:(congruence)) as (s2 & H2 & B1 & B2 & B3).
    exists s2. split.
    + eapply rep_one; [apply Ha|apply tag_ne; reflexivity| |exact H2].
      eapply ev_call; [reflexivity|]. eapply ev_alts; [eapply ev_a_miss; [apply exec_no; auto|eapply ev_a_hit; exact H1]|].
      apply cover_wrap; [lia|apply leaf_rng|]. eapply leaf_ne; [|exact Ha]. reflexivity.
    + repeat split; congruence.
  - (* loop *)
    intros tp i t m ts j _ (Him & Hi & IH1) _ (Hmj & Hc & IH2). split; [lia|]. split; [apply exec_chained; auto; lia|]. intros s <- <-.
    destruct (IH1 s eq_refl eq_refl) as (s1 & H1 & A1 & A2 & A3).
    destruct (IH2 s1 A1 ltac:(congruence)) as (s2 & H2 & B1 & B2 & B3).
    exists s2. split; [eapply rep_one; [exact Hi|apply tag_ne; reflexivity|exact H1|exact H2]|]. repeat split; congruence.
  - (* IF *)
    intros tp i g bs m us n ts j Hf Hn Ha _ (Him & Hc & IH1) _ (Hmn & Hcu & IH2) _ (Hnj & Hct & IH3).
    assert (HG : g_tag (stmt_leaf g i) <> HOIST) by (eapply leaf_ne; [|exact Ha]; reflexivity).
    split; [lia|]. split; [apply exec_chained; auto; lia|]. intros s <- <-.
    destruct (stmt_here s _ _ Ha) as (s1 & H1 & A1 & A2 & A3).
    destruct (IH1 s1 A1 ltac:(congruence)) as (s2 & H2 & B1 & B2 & B3).
    destruct (IH2 s2 B1 ltac:(congruence)) as (Hst & a & s3 & b & s4 & -> & H3 & H4 & H5 & C1 & C2 & C3).
    destruct (IH3 s4 C1 ltac:(congruence)) as (s5 & H6 & D1 & D2 & D3).
    exists s5. split; [|repeat split; congruence].
    destruct (chained_split _ _ _ _ Hcu) as [q [Q _]].
    destruct Hn as [Hp Hn]. unfold before_do in Hn. cbn [app] in Hn. inv_forall.
    eapply rep_one; [auto|apply tag_ne; reflexivity| |exact H6]. apply ev_epc; [lia|].
    eapply ev_exec; [reflexivity|auto|apply free_not; auto|]. eapply ev_alts.
    + eapply ev_a_miss; [apply ev_stmt_no; auto|].
      eapply ev_a_miss; [eapply construct_no; [reflexivity|auto|auto]|].
      eapply ev_a_miss; [eapply construct_no; [reflexivity|auto|auto]|].
      eapply ev_a_miss; [eapply construct_no; [reflexivity|auto|auto]|].
      eapply ev_a_miss; [apply do_no; auto|].
      eapply ev_a_hit. eapply ev_call; [reflexivity|]. eapply ev_seqif; [exact H1| |].
      * eapply ev_s_cons; [eapply ev_block; [exact H2|exact Hst|exact Hc]|].
        cbn [g_attach]. rewrite (hoist_one [] _ HG), hoist_one by (apply tag_ne; reflexivity). cbn [app].
        eapply ev_s_cons; [eapply ev_star; [eapply rep_star; [exact H3|exact H4]|]|].
        -- apply (cover_chained HOIST m _ q Q).
        -- cbn [g_attach]. rewrite hoist_node. apply H5.
      * cbn [app]. apply cover_chained with (i := p_pos s) (j := n).
        eapply chained_cons; [|apply leaf_rng|auto|]; [lia|]. eapply chained_cons; [|apply node_rng|apply tag_ne; reflexivity|]; [lia|]. exact Hcu.
    + apply cover_wrap; [lia|apply node_rng|apply tag_ne; reflexivity].
  - (* END IF *)
    intros tp j h Hcl Hn Ha. assert (HG : g_tag (stmt_leaf h j) <> HOIST) by (eapply leaf_ne; [|exact Ha]; reflexivity).
    split; [lia|]. split; [apply chained_one; auto using leaf_rng|]. intros s <- <-. split; [apply stop_closes; auto|].
    destruct (stmt_here s _ _ Ha) as (s1 & H1 & A1). destruct Hn as [Hp Hn]. inv_forall.
    exists [], s, [stmt_leaf h (p_pos s)], s1. repeat split; try apply A1; [constructor|eapply ev_seqif_no, ev_stmt_no; auto|].
    intros kids. eapply ev_s_cons; [eapply ev_opt_no, ev_seqif_no, ev_stmt_no; auto|]. cbn [g_attach].
    eapply ev_s_cons; [exact H1|]. cbn [g_attach]. rewrite hoist_one by auto. apply ev_s_nil.
  - (* ELSE IF *)
    intros tp j h bs k us e Hcl Ha _ (Hjk & Hc & IH1) _ (Hke & Hcu & IH2).
    assert (HG : g_tag (stmt_leaf h j) <> HOIST) by (eapply leaf_ne; [|exact Ha]; reflexivity).
    split; [lia|]. split.
    { eapply chained_cons; [|apply leaf_rng|auto|]; [lia|]. eapply chained_cons; [|apply node_rng|apply tag_ne; reflexivity|]; [lia|]. exact Hcu. }
    intros s <- <-. split; [apply stop_closes; auto|].
    destruct (stmt_here s _ _ Ha) as (s1 & H1 & A1 & A2 & A3).
    destruct (IH1 s1 A1 ltac:(congruence)) as (s2 & H2 & B1 & B2 & B3).
    destruct (IH2 s2 B1 ltac:(congruence)) as (Hst & a & s3 & b & s4 & -> & H3 & H4 & H5 & C1 & C2 & C3).
    exists (stmt_leaf h (p_pos s) :: node PG_BLOCK (S (p_pos s)) k bs :: a), s3, b, s4.
    repeat split; auto; try congruence.
    change (rep ELSEIF s ([stmt_leaf h (p_pos s); node PG_BLOCK (S (p_pos s)) k bs] ++ a) s3).
    replace [stmt_leaf h (p_pos s); node PG_BLOCK (S (p_pos s)) k bs]
      with (g_hoist [] (node HOIST (p_pos s) k [stmt_leaf h (p_pos s); node PG_BLOCK (S (p_pos s)) k bs])) by apply hoist_node.
    econstructor; [apply Ha| |exact H3]. eapply ev_seqif; [exact H1| |].
    + eapply ev_s_cons; [eapply ev_block; [exact H2|exact Hst|exact Hc]|]. apply ev_s_nil.
    + cbn [g_attach]. rewrite (hoist_one [] _ HG), hoist_one by (apply tag_ne; reflexivity). cbn [app]. apply cover_chained.
      eapply chained_cons; [|apply leaf_rng|auto|]; [lia|]. apply chained_one; [lia|apply node_rng|apply tag_ne; reflexivity].
  - (* ELSE *)
    intros tp j h bs k h' Hcl Hn Ha _ (Hjk & Hc & IH1) Hcl' Ha'.
    assert (HG : g_tag (stmt_leaf h j) <> HOIST) by (eapply leaf_ne; [|exact Ha]; reflexivity).
    assert (HG' : g_tag (stmt_leaf h' k) <> HOIST) by (eapply leaf_ne; [|exact Ha']; reflexivity).
    split; [lia|]. split.
    { eapply chained_cons; [|apply leaf_rng|auto|]; [lia|]. eapply chained_cons; [|apply node_rng|apply tag_ne; reflexivity|]; [lia|].
      apply chained_one; auto using leaf_rng. }
    intros s <- <-. split; [apply stop_closes; auto|].
    destruct (stmt_here s _ _ Ha) as (s1 & H1 & A1 & A2 & A3).
    destruct (IH1 s1 A1 ltac:(congruence)) as (s2 & H2 & B1 & B2 & B3).
    subst k. destruct (stmt_here s2 _ _ Ha') as (s3 & H3 & C1 & C2 & C3).
    destruct Hn as [Hp Hn]. inv_forall.
    exists [], s, [stmt_leaf h (p_pos s); node PG_BLOCK (S (p_pos s)) (p_pos s2) bs; stmt_leaf h' (p_pos s2)], s3.
    repeat split; try congruence; [constructor|eapply ev_seqif_no, ev_stmt_no; auto|].
    intros kids.
    assert (C : chained (p_pos s) [stmt_leaf h (p_pos s); node PG_BLOCK (S (p_pos s)) (p_pos s2) bs] (p_pos s2)).
    { eapply chained_cons; [|apply leaf_rng|auto|]; [lia|]. apply chained_one; [lia|apply node_rng|apply tag_ne; reflexivity]. }
    eapply ev_s_cons; [eapply ev_opt; [eapply ev_seqif; [exact H1| |]|]|].
    + eapply ev_s_cons; [eapply ev_block; [exact H2| |exact Hc]|apply ev_s_nil]. apply stop_closes. replace (top (p_stack s2)) with (top (p_stack s)) by congruence. exact Hcl'.
    + cbn [g_attach]. rewrite (hoist_one [] _ HG), hoist_one by (apply tag_ne; reflexivity). cbn [app]. apply (cover_chained HOIST _ _ _ C).
    + exact (cover_chained HOIST _ _ _ C).
    + cbn [g_attach]. rewrite hoist_node. eapply ev_s_cons; [exact H3|]. cbn [g_attach]. rewrite (hoist_one _ _ HG').
      rewrite <- app_assoc. apply ev_s_nil.
  - (* DO ... END DO *)
    intros tp i g ts j h Hf Hn Hd _ (Hij & Hc & IH) Hcl Hl Ha.
    assert (HG : g_tag (stmt_leaf g i) <> HOIST) by (eapply do_ne; exact Hd).
    assert (HG' : g_tag (stmt_leaf h j) <> HOIST) by (eapply leaf_ne; [|exact Ha]; reflexivity).
    split; [lia|]. split; [apply Hd|]. intros s <- <-.
    destruct (do_start s g 0 Hd) as (t & s0 & H1 & H2 & <- & E0 & A1 & A2 & A3). change (0 <? 0)%Z with false in A2.
    destruct (IH _ A1 (f_equal top A2)) as (s1 & H3 & B1 & B2 & B3).
    subst j. destruct (end_block s1 _ _ eq_refl Hl Ha) as (s2 & H4 & C1 & C2 & C3).
    exists s2. split; [|repeat split; congruence].
    eapply ev_exec_do; [lia|reflexivity|auto|auto|apply node_rng|apply tag_ne; reflexivity|].
    eapply ev_do; [apply Hd|exact H1|exact H2|rewrite E0; exact H3| |exact H4|].
    + apply stop_closes. replace (top (p_stack s1)) with (top (p_stack s)) by congruence. exact Hcl.
    + apply tree_do; auto.
  - (* DO l ... l CONTINUE *)
    intros tp i g l ts j h Hf Hn Hl0 Htp Hd _ (Hij & Hc & IH) He Ha.
    assert (HG : g_tag (stmt_leaf g i) <> HOIST) by (eapply do_ne; exact Hd).
    assert (HG' : g_tag (stmt_leaf h j) <> HOIST) by (eapply leaf_ne; [|exact Ha]; reflexivity).
    split; [lia|]. split; [apply Hd|]. intros s <- <-.
    destruct (do_start s g l Hd) as (t & s0 & H1 & H2 & <- & E0 & A1 & A2 & A3).
    pose proof Hl0 as Hl. apply Z.ltb_lt in Hl. rewrite Hl in A2.
    destruct (IH _ A1 (f_equal top A2)) as (s1 & H3 & B1 & B2 & B3).
    subst j. destruct (end_label s1 l _ _ (p_stack s) eq_refl Hl0 He Ha ltac:(congruence) Htp) as (s2 & H4 & C1 & C2 & C3).
    exists s2. split; [|repeat split; congruence].
    eapply ev_exec_do; [lia|reflexivity|auto|auto|apply node_rng|apply tag_ne; reflexivity|].
    eapply ev_do; [apply Hd|exact H1|exact H2|rewrite E0; exact H3| |exact H4|].
    + apply stop_ends with (l := l); [rewrite B2, A2; reflexivity|exact He].
    + apply tree_do; auto.
  - (* DO l ... l action *)
    intros tp i g l ts j h Hf Hn Hl0 Htp Hd _ (Hij & Hc & IH) He Hne Ha.
    assert (HG : g_tag (stmt_leaf g i) <> HOIST) by (eapply do_ne; exact Hd).
    assert (HG' : g_tag (stmt_leaf h j) <> HOIST) by (eapply leaf_ne; [|exact Ha]; reflexivity).
    split; [lia|]. split; [apply Hd|]. intros s <- <-.
    destruct (do_start s g l Hd) as (t & s0 & H1 & H2 & <- & E0 & A1 & A2 & A3).
    pose proof Hl0 as Hl. apply Z.ltb_lt in Hl. rewrite Hl in A2.
    destruct (IH _ A1 (f_equal top A2)) as (s1 & H3 & B1 & B2 & B3).
    subst j. destruct (end_action s1 l _ _ (p_stack s) eq_refl Hl0 He Hne Ha ltac:(congruence) Htp) as (s2 & H4 & C1 & C2 & C3).
    exists s2. split; [|repeat split; congruence].
    eapply ev_exec_do; [lia|reflexivity|auto|auto|apply node_rng|apply tag_ne; reflexivity|].
    eapply ev_do; [apply Hd|exact H1|exact H2|rewrite E0; exact H3| |exact H4|].
    + apply stop_ends with (l := l); [rewrite B2, A2; reflexivity|exact He].
    + apply tree_nonblock; auto.
  - (* DO l ... DO l ... l action *)
    intros tp i g l ts m u j h Hf Hn Hl0 Htp Hd _ (Him & Hc & IH) _ (Hmj & Hm & He & IH2) Ha.
    assert (HG : g_tag (stmt_leaf g i) <> HOIST) by (eapply do_ne; exact Hd).
    assert (HG' : g_tag (stmt_leaf h j) <> HOIST) by (eapply leaf_ne; [|exact Ha]; reflexivity).
    split; [lia|]. split; [apply Hd|]. intros s <- <-.
    destruct (do_start s g l Hd) as (t & s0 & H1 & H2 & <- & E0 & A1 & A2 & A3).
    pose proof Hl0 as Hl. apply Z.ltb_lt in Hl. rewrite Hl in A2.
    destruct (IH _ A1 (f_equal top A2)) as (s1 & H3 & B1 & B2 & B3).
    destruct (IH2 s1 0 (p_stack s) Hl0 B1 ltac:(rewrite B2, A2; reflexivity) Htp) as (s2 & H4 & C1 & C2 & C3).
    subst j. destruct (end_outer s2 l _ _ (p_stack s) eq_refl Hl0 He Ha C2) as (s3 & H5 & D1 & D2 & D3).
    exists s3. split; [|repeat split; congruence].
    eapply ev_exec_do; [lia|reflexivity|auto|auto|apply node_rng|apply tag_ne; reflexivity|].
    eapply ev_do with (ts := ts ++ [exec u m (S (p_pos s2))]); [apply Hd|exact H1|exact H2| | |exact H5|].
    + rewrite E0; eapply rep_app; [exact H3|]. eapply rep_one; [rewrite B1; exact Hm|apply tag_ne; reflexivity|exact H4|constructor].
    + apply stop_ends with (l := l); [rewrite C2; reflexivity|exact He].
    + apply tree_shared; auto; [lia|]. eapply chained_app; [exact Hc|]. apply exec_chained; [lia|reflexivity].
  - (* the innermost of loops with the same last statement *)
    intros l i g ts j h Hf Hn Hd _ (Hij & Hc & IH) He Ha.
    assert (HG : g_tag (stmt_leaf g i) <> HOIST) by (eapply do_ne; exact Hd).
    assert (HG' : g_tag (stmt_leaf h j) <> HOIST) by (eapply leaf_ne; [|exact Ha]; reflexivity).
    split; [lia|]. split; [apply Hd|]. split; [exact He|]. intros s k st Hl0 <- Hst Hts.
    destruct (do_start s g l Hd) as (t & s0 & H1 & H2 & <- & E0 & A1 & A2 & A3).
    pose proof Hl0 as Hl. apply Z.ltb_lt in Hl. rewrite Hl in A2.
    destruct (IH _ A1 (f_equal top A2)) as (s1 & H3 & B1 & B2 & B3).
    assert (E : p_stack s1 = fresh l (S (S k)) st) by (rewrite B2, A2, Hst; reflexivity).
    subst j. destruct (end_inner s1 l _ _ st k _ eq_refl Hl0 He Ha ltac:(rewrite E; apply level_fresh; exact Hts) eq_refl) as (s2 & H4 & C1 & C2 & C3).
    exists s2. split; [|repeat split; congruence].
    eapply ev_exec_do; [lia|reflexivity|rewrite Hst; cbn [fresh top]; unfold free; congruence|auto|apply node_rng|apply tag_ne; reflexivity|].
    eapply ev_do; [apply Hd|exact H1|exact H2|rewrite E0; exact H3| |exact H4|].
    + apply stop_ends with (l := l); [rewrite E; reflexivity|exact He].
    + apply tree_nonblock; auto.
  - (* one further out *)
    intros l i g ts m u j h Hf Hn Hd _ (Him & Hc & IH) _ (Hmj & Hm & He & IH2) Ha.
    assert (HG : g_tag (stmt_leaf g i) <> HOIST) by (eapply do_ne; exact Hd).
    assert (HG' : g_tag (stmt_leaf h j) <> HOIST) by (eapply leaf_ne; [|exact Ha]; reflexivity).
    split; [lia|]. split; [apply Hd|]. split; [exact He|]. intros s k st Hl0 <- Hst Hts.
    destruct (do_start s g l Hd) as (t & s0 & H1 & H2 & <- & E0 & A1 & A2 & A3).
    pose proof Hl0 as Hl. apply Z.ltb_lt in Hl. rewrite Hl in A2.
    destruct (IH _ A1 (f_equal top A2)) as (s1 & H3 & B1 & B2 & B3).
    assert (E : p_stack s1 = fresh l (S (S k)) st) by (rewrite B2, A2, Hst; reflexivity).
    destruct (IH2 s1 (S k) st Hl0 B1 E Hts) as (s2 & H4 & C1 & C2 & C3).
    subst j. destruct (end_inner s2 l _ _ st k _ eq_refl Hl0 He Ha ltac:(rewrite C2; apply level_known) eq_refl) as (s3 & H5 & D1 & D2 & D3).
    exists s3. split; [|repeat split; congruence].
    eapply ev_exec_do; [lia|reflexivity|rewrite Hst; cbn [fresh top]; unfold free; congruence|auto|apply node_rng|apply tag_ne; reflexivity|].
    eapply ev_do with (ts := ts ++ [exec u m (S (p_pos s2))]); [apply Hd|exact H1|exact H2| | |exact H5|].
    + rewrite E0; eapply rep_app; [exact H3|]. eapply rep_one; [rewrite B1; exact Hm|apply tag_ne; reflexivity|exact H4|constructor].
    + apply stop_ends with (l := l); [rewrite C2; reflexivity|exact He].
    + apply tree_shared; auto; [lia|]. eapply chained_app; [exact Hc|]. apply exec_chained; [lia|reflexivity].
Qed.

(** a block, from the beginning *)
Lemma block_nest ts j : items x None 0 ts j -> closes x None j ->
  exists n0 s', (forall n, n0 <= n -> parse_prgm x n g_block = Done (true, Some (node PG_BLOCK 0 j ts), s')) /\
    p_pos s' = j /\ p_stack s' = [] /\ p_left s' = 0.
Proof using Hx.
  intros H Hc. destruct nests as (Hi & _). destruct (Hi _ _ _ _ H) as (_ & C & IH).
  destruct (IH p_init eq_refl eq_refl) as (s' & Hr & A1 & A2 & A3).
  assert (Hs : stops s') by (apply stop_closes; rewrite A2, A1; exact Hc).
  destruct (ev_block _ _ _ _ _ Hr Hs C) as [n0 E]. exists n0, s'. split; [exact E|]. auto.
Qed.
End Loops.
