(** Taking runs of the parsers for IF and CALL statements apart. *)
From Coq Require Import Lia.
From Verif Require Import Base Base_lemmas Tags SyntaxTags Token TTStream TTStream_spec TTStream_proofs StmtRules Peg Peg_spec Peg_proofs PegCover_proofs PegSafe_proofs PegOk_proofs
  Nest_proofs Stmt_spec StmtGrammar StmtParser StmtTables_proofs StmtSafe_proofs StmtDispatch_proofs StmtRoots_proofs StmtTree_spec StmtTree_proofs StmtWalk_spec StmtWalk_proofs Props_Stmt.
Local Open Scope nat_scope.

(** ** Which alternative gave the tree *)
Lemma alts_run exts n ps : (forall a, Forall ext_same (exts a)) -> forallb clean ps = true -> forall s t s',
  alts_loop (run grammar exts n) ps s = Done (true, t, s') -> exists p, In p ps /\ run grammar exts n p s = Done (true, t, s').
Proof.
  intros HX. induction ps as [|p ps IH]; intros C s t s' H; cbn [alts_loop forallb] in *; [discriminate|].
  apply andb_true_iff in C as (C1 & C2). step3 H m t1 s1. destruct m.
  - injection H as -> ->. exists p. split; [left; reflexivity|exact E].
  - destruct (run_restores _ _ g_clean HX _ _ _ _ C1 E) as (_ & X). destruct (X eq_refl) as (_ & ->).
    destruct (IH C2 _ _ _ H) as (q & Q1 & Q2). exists q. split; [right; exact Q1|exact Q2].
Qed.
Lemma action_run exts n s t s' k ks : (forall a, Forall ext_same (exts a)) ->
  parse_rule grammar exts n r_action_stmt s = Done (Some t, s') -> t_kids t = k :: ks -> foreign exts (t_tag k) ->
  t_tag t = SG_ACTION_STMT /\ ks = [] /\ exists r0 n', In (PRule r0) action_alts /\ parse_rule grammar exts n' r0 s = Done (Some k, s').
Proof.
  intros HX H K F. pose proof (any_root_ok grammar exts n r_action_stmt SG_ACTION_STMT s t s' eq_refl H) as TG. split; [exact TG|].
  unfold parse_rule, call_rule in H. change (grammar r_action_stmt) with (RExt true SG_ACTION_STMT (PAlts SG_ACTION_STMT action_alts)) in H. cbn iota in H.
  step3 H m t1 s1. destruct m.
  - injection H as -> ->. destruct n as [|n]; [discriminate|]. cbn [run] in E. step3 E m t1 s1. destruct m; [|discriminate].
    destruct (covered _) as [x| |] eqn:EC in E; cbn [obind] in E; try discriminate. injection E as -> ->.
    apply cover_shape in EC. destruct EC as (_ & EC). cbn [t_kids] in EC. rewrite K in EC.
    apply alts_run in E0; [|exact HX|reflexivity]. destruct E0 as (p & I & R).
    assert (exists r0, p = PRule r0) as (r0 & ->). { clear - I. cbn [action_alts grammar] in I. unfold action_alts in I. cbn [grammar b_action_stmt In] in I. repeat (destruct I as [<-|I]; [eexists; reflexivity|]). contradiction. }
    destruct n as [|n]; [discriminate|]. cbn [run] in R. step2 R o s2. destruct o as [y|]; [|discriminate]. injection R as <- <-.
    pose proof (grammar_gives _ _ _ _ _ _ HX E) as GV. destruct (shape_alt _ _ _ _ I GV) as (x1 & X1 & X2). rewrite X1 in EC. injection EC as -> ->.
    split; [reflexivity|]. exists r0, n. split; [exact I|]. destruct y as [g rr kk]. cbn [hoist] in X1. destruct (g =? HOIST)%Z eqn:EG; [|injection X1 as <-; exact E].
    exfalso. apply Z.eqb_eq in EG. subst g. apply has_root_ok in E. cbn [t_tag] in E. clear - E I.
    unfold action_alts in I. cbn [grammar b_action_stmt In] in I. repeat (destruct I as [I|I]; [injection I as <-; vm_compute in E; discriminate|]). contradiction.
  - step3 H m t2 s2. injection H as -> ->. clear - E0 K F.
    assert (G : forall es m0, incl es (exts true) -> forall s1, ext_loop SG_ACTION_STMT m0 es s1 = Done (m, Some t, s') -> False).
    { induction es as [|e es IH]; intros m0 I s2 H; cbn [ext_loop] in H; [discriminate|]. step2 H o s3. destruct o as [y|].
      - destruct (covered _) as [x| |] eqn:EC in H; cbn [obind] in H; try discriminate. injection H as <- -> ->. apply cover_shape in EC. destruct EC as (_ & EC). cbn [t_kids] in EC. rewrite K in EC.
        destruct (F _ _ _ _ (I _ (or_introl eq_refl)) E) as (F1 & F2). destruct y as [g rr kk]. cbn [hoist t_tag] in *. apply Z.eqb_neq in F2. rewrite F2 in EC. cbn [app] in EC. injection EC as -> ->. cbn [t_tag] in F1. congruence.
      - eapply IH; [|exact H]. intros z Z. apply I. right. exact Z. }
    exfalso. eapply G; [|exact E0]. apply incl_refl.
Qed.
Definition alt_roots (g : Z) : list rule := filter (fun r => has_root r g) (flat_map (fun p => match p with PRule r => [r] | _ => [] end) action_alts).
Lemma action_kind exts n s t s' k ks r0 : (forall a, Forall ext_same (exts a)) -> parse_rule grammar exts n r_action_stmt s = Done (Some t, s') -> t_kids t = k :: ks -> foreign exts (t_tag k) ->
  alt_roots (t_tag k) = [r0] -> t_tag t = SG_ACTION_STMT /\ ks = [] /\ exists n', parse_rule grammar exts n' r0 s = Done (Some k, s').
Proof.
  intros HX H K F A. destruct (action_run _ _ _ _ _ _ _ HX H K F) as (T & -> & r1 & n' & I & P). split; [exact T|]. split; [reflexivity|].
  assert (J : In r1 (alt_roots (t_tag k))).
  { apply filter_In. split; [|eapply has_root_ok; exact P]. apply in_flat_map. exists (PRule r1). split; [exact I|left; reflexivity]. }
  rewrite A in J. destruct J as [<-|[]]. eauto.
Qed.

(** ** Runs of sequences *)
Lemma run_seq exts n g ps s t s' : run grammar exts n (PSeq g ps) s = Done (true, t, s') ->
  exists n' kids x, n = S n' /\ seq_loop (run grammar exts n') ps [] s = Done (true, kids, s') /\ t = Some x /\ t_tag x = g /\ t_kids x = kids.
Proof.
  intros H. destruct n as [|n]; [discriminate|]. cbn [run] in H. step3 H m kids s1. destruct m; [|discriminate].
  destruct (covered _) as [x| |] eqn:EC in H; cbn [obind] in H; try discriminate. injection H as <- <-. apply cover_shape in EC. cbn [t_tag t_kids] in EC. destruct EC as (E1 & E2). exists n, kids, x. auto.
Qed.
Lemma run_exp exts n r p s t s' : (forall a, Forall ext_same (exts a)) -> grammar r = RExp p -> solid p = true -> clean p = true -> parse_rule grammar exts n r s = Done (Some t, s') -> run grammar exts n p s = Done (true, Some t, s').
Proof.
  intros HX B SO C H. unfold parse_rule, call_rule in H. rewrite B in H. step3 H m t1 s1. injection H as -> ->. destruct m; [exact E|].
  destruct (run_restores _ _ g_clean HX _ _ _ _ C E) as (_ & X). destruct (X eq_refl). discriminate.
Qed.
Lemma run_rule exts n r s t s' : run grammar exts n (PRule r) s = Done (true, t, s') -> exists n' x, t = Some x /\ parse_rule grammar exts n' r s = Done (Some x, s').
Proof.
  intros H. destruct n as [|n]; [discriminate|]. cbn [run] in H. step2 H o s1. destruct o as [x|]; [|discriminate]. injection H as <- <-. exists n, x. auto.
Qed.
Lemma run_tok exts n g s t s' : run grammar exts n (PTok g) s = Done (true, t, s') -> g <> BAD -> t = Some (leaf_at g (pos s)) /\ s' = set_pos s (S (pos s)) /\ tok_at (frags s) (pos s) (fun x => tok x = g) /\ peek s = Ok g.
Proof.
  intros H NB. destruct n as [|n]; [discriminate|]. cbn [run] in H. step H. destruct (g =? a)%Z eqn:EG; cbn [negb] in H; [|discriminate]. apply Z.eqb_eq in EG. subst a.
  step2 H x s1. injection H as <- <-. apply leaf_inv in E0. destruct E0 as (-> & -> & _). split; [reflexivity|]. split; [reflexivity|]. split; [|exact E]. apply peek_at; auto.
Qed.

(** ** Parentheses *)
Lemma xlen_level l : forall d, (1 <= d)%Z -> (forall j : nat, j <= xlen d l -> (1 <= d + level2 (firstn j l))%Z) /\
  forall c, nth_error l (xlen d l) = Some c -> is_close (tok c) = true -> (d + level2 (firstn (xlen d l) l) = 1)%Z.
Proof.
  induction l as [|t l IH]; intros d D; cbn [xlen].
  - split; [intros j _; rewrite firstn_nil; cbn; lia|intros c C; discriminate].
  - pose proof (decide_level d (tok t)) as HD. pose proof (decide_ge1 d (tok t) D) as HG. destruct (decide d (tok t)) as [| |d'] eqn:ED.
    + split; [intros j J; assert (j = 0) as -> by lia; cbn; lia|]. cbn [nth_error firstn]. intros c [= <-] C. change (level2 []) with 0%Z. unfold decide, is_close in *.
      repeat match type of ED with context [if ?b then _ else _] => destruct b eqn:?; try discriminate ED end; cbn [orb] in C; try discriminate C; try (rewrite Heqb in C; discriminate C).
      all: repeat match goal with H : (_ =? _)%Z = true |- _ => apply Z.eqb_eq in H end; lia.
    + split; [intros j J; assert (j = 0) as -> by lia; cbn; lia|]. cbn [nth_error firstn]. intros c [= <-] C. exfalso. unfold decide, is_close in *.
      repeat match type of ED with context [if ?b then _ else _] => destruct b eqn:?; try discriminate ED end; cbn [orb] in C; discriminate C.
    + destruct (IH d' HG) as (I1 & I2). split.
      * intros [|j] J; [cbn; lia|]. cbn [firstn]. rewrite level2_cons. specialize (I1 j ltac:(lia)). lia.
      * cbn [nth_error firstn]. intros c C1 C2. rewrite level2_cons. specialize (I2 c C1 C2). lia.
Qed.
(** the open parentheses after a list of tokens *)
Fixpoint bal (st : list bool) (l : list Token) : option (list bool) :=
  match l with
  | [] => Some st
  | t :: r =>
      if (tok t =? TK_PARENL)%Z then bal (true :: st) r
      else if (tok t =? TK_BRACKETL)%Z then bal (false :: st) r
      else if (tok t =? TK_PARENR)%Z then match st with true :: st' => bal st' r | _ => None end
      else if (tok t =? TK_BRACKETR)%Z then match st with false :: st' => bal st' r | _ => None end
      else bal st r
  end.
Lemma bal_app a : forall st b, bal st (a ++ b) = match bal st a with Some st' => bal st' b | None => None end.
Proof.
  induction a as [|t a IH]; intros st b; [reflexivity|]. cbn [app bal].
  repeat match goal with |- context [if ?x then _ else _] => destruct x; auto end; destruct st as [|[] st]; auto.
Qed.
Lemma nested_bal l : nested l -> forall st, bal st l = Some st.
Proof.
  induction 1 as [|t l O C N IH|a l b r A B N1 I1 N2 I2|a l b r A B N1 I1 N2 I2]; intros st; [reflexivity|..].
  - unfold is_open in O. unfold is_close in C. apply orb_false_iff in O as (O1 & O2). apply orb_false_iff in C as (C1 & C2). cbn [bal]. rewrite O1, O2, C1, C2. apply IH.
  - cbn [bal]. rewrite A. cbn. rewrite bal_app, I1. cbn [bal]. rewrite B. cbn. apply I2.
  - cbn [bal]. rewrite A. cbn. rewrite bal_app, I1. cbn [bal]. rewrite B. cbn. apply I2.
Qed.
Definition parens_in (st : list bool) : Z := Z.of_nat (length (filter (fun b => b) st)).
Lemma bal_level l : forall st st', bal st l = Some st' -> (level2 l = Z.of_nat (length st') - Z.of_nat (length st) /\ level TK_PARENL TK_PARENR l = parens_in st' - parens_in st)%Z.
Proof.
  induction l as [|t l IH]; intros st st' H; cbn [bal] in H.
  - injection H as <-. cbn [level]. change (level2 []) with 0%Z. lia.
  - rewrite level2_cons. cbn [level]. unfold is_open, is_close.
    destruct (tok t =? TK_PARENL)%Z eqn:E1; [apply IH in H; cbn [length parens_in filter] in H; unfold parens_in in *; cbn [filter length orb] in *; lia|].
    destruct (tok t =? TK_BRACKETL)%Z eqn:E2; [apply IH in H; unfold parens_in in *; apply Z.eqb_eq in E2; rewrite E2; change (TK_BRACKETL =? TK_PARENR)%Z with false; cbn [filter length orb] in *; lia|].
    destruct (tok t =? TK_PARENR)%Z eqn:E3; [destruct st as [|[] st]; try discriminate; apply IH in H; unfold parens_in in *; cbn [filter length orb] in *; lia|].
    destruct (tok t =? TK_BRACKETR)%Z eqn:E4; [destruct st as [|[] st]; try discriminate; apply IH in H; unfold parens_in in *; cbn [filter length orb] in *; lia|].
    apply IH in H. cbn [orb]. lia.
Qed.
(** nothing that was open before is closed: the stack below stays *)
Lemma bal_above w : forall st0 st st', bal (st ++ st0) w = Some st' -> (forall j : nat, j <= length w -> (0 <= Z.of_nat (length st) + level2 (firstn j w))%Z) -> exists st1, st' = st1 ++ st0 /\ bal st w = Some st1.
Proof.
  induction w as [|t w IH]; intros st0 st st' H L.
  - injection H as <-. eauto.
  - cbn [bal] in *.
    assert (N : forall d (stn : list bool), (if is_open (tok t) then 1 else if is_close (tok t) then -1 else 0)%Z = d -> (Z.of_nat (length st) + d = Z.of_nat (length stn))%Z -> forall j, j <= length w -> (0 <= Z.of_nat (length stn) + level2 (firstn j w))%Z).
    { intros d stn D Q j J. specialize (L (S j) ltac:(cbn; lia)). cbn [firstn] in L. rewrite level2_cons, D in L. lia. }
    pose proof (L 1 ltac:(cbn; lia)) as L1. cbn [firstn] in L1. rewrite level2_cons in L1. change (level2 []) with 0%Z in L1. unfold is_open, is_close in *.
    destruct (tok t =? TK_PARENL)%Z eqn:E1; [apply (IH st0 (true :: st)); [exact H|apply (N 1%Z); [reflexivity|cbn [length]; lia]]|].
    destruct (tok t =? TK_BRACKETL)%Z eqn:E2; [apply (IH st0 (false :: st)); [exact H|apply (N 1%Z); [cbn; reflexivity|cbn [length]; lia]]|].
    destruct (tok t =? TK_PARENR)%Z eqn:E3.
    { cbn [orb] in *. destruct st as [|b st]; [cbn [length] in L1; lia|]. cbn [app] in H. destruct b; [|discriminate]. apply (IH st0 st); [exact H|]. apply (N (-1)%Z); [reflexivity|cbn [length]; lia]. }
    destruct (tok t =? TK_BRACKETR)%Z eqn:E4.
    { cbn [orb] in *. destruct st as [|b st]; [cbn [length] in L1; lia|]. cbn [app] in H. destruct b; [discriminate|]. apply (IH st0 st); [exact H|]. apply (N (-1)%Z); [reflexivity|cbn [length]; lia]. }
    apply (IH st0 st); [exact H|]. apply (N 0%Z); [cbn [orb]; reflexivity|lia].
Qed.
Lemma segment_matched u a w c v : nested (u ++ a :: w ++ c :: v) -> tok a = TK_PARENL -> tok c = TK_PARENR ->
  (forall j : nat, j <= length w -> (0 <= level2 (firstn j w))%Z) -> level2 w = 0%Z -> matched TK_PARENL TK_PARENR (a :: w ++ c :: v) (length w + 2).
Proof.
  intros N A C L L0. pose proof (nested_bal _ N []) as B. rewrite bal_app in B. destruct (bal [] u) as [st0|]; [|discriminate].
  cbn [bal] in B. rewrite A in B. cbn in B. rewrite bal_app in B. destruct (bal (true :: st0) w) as [st1|] eqn:BW; [|discriminate].
  destruct (bal_above w (true :: st0) [] st1 BW) as (st2 & -> & B2); [intros j J; specialize (L j J); cbn; lia|].
  assert (PRE : forall j, j <= length w -> (0 <= level TK_PARENL TK_PARENR (firstn j w))%Z).
  { intros j J. rewrite <- (firstn_skipn j w) in B2. rewrite bal_app in B2. destruct (bal [] (firstn j w)) as [s1|] eqn:BJ; [|discriminate]. apply bal_level in BJ. unfold parens_in in BJ. cbn [filter length] in BJ. lia. }
  assert (ALL : level TK_PARENL TK_PARENR w = 0%Z).
  { apply bal_level in B2. destruct B2 as (X1 & X2). cbn [length] in X1. destruct st2; [|cbn [length] in X1; lia]. unfold parens_in in X2. cbn in X2. lia. }
  assert (F : forall j, firstn j (a :: w ++ c :: v) = match j with 0 => [] | S j => a :: firstn j w ++ firstn (j - length w) (c :: v) end).
  { intros [|j]; [reflexivity|]. cbn [firstn]. rewrite firstn_app. reflexivity. }
  split; [cbn [length]; rewrite app_length; cbn [length]; lia|]. split.
  - rewrite F. replace (length w + 2) with (S (S (length w))) by lia. rewrite firstn_all2 by lia. replace (S (length w) - length w) with 1 by lia. cbn [firstn level]. rewrite level_app, ALL. cbn [level]. rewrite A, C. reflexivity.
  - intros [|j] J; [lia|]. rewrite F. replace (j - length w) with 0 by lia. cbn [firstn]. rewrite app_nil_r. cbn [level]. rewrite A. specialize (PRE j ltac:(lia)). rewrite Z.eqb_refl. lia.
Qed.

(** ** IF statements *)
Lemma proper_move s s' : proper_stmt s -> same s s' -> pos s <= pos s' -> pos s' <= s_end s -> proper_stmt s'.
Proof.
  intros (H1 & (H2 & H3) & H4 & H5) (F1 & F2 & F3) L1 L2. unfold proper_stmt, stmt_toks, on_stmt. rewrite F1, F2, F3. repeat split; try lia; auto.
Qed.
Lemma exts_same_of exts : exts_ok exts -> forall a, Forall ext_same (exts a).
Proof. intros He a. destruct (He a) as (X & _). eapply Forall_impl; [|exact X]. intros e (Y & _). exact Y. Qed.
Lemma expr_len exts n s t s' : exts_ok exts -> proper_stmt s -> parse_rule grammar exts n r_expr s = Done (Some t, s') -> pos s' = pos s + xlen 1 (rest s).
Proof.
  intros He Hs H. apply proper_in in Hs. destruct Hs as (Hs & _). unfold parse_rule, call_rule in H. change (grammar r_expr) with b_expr in H. cbn [b_expr] in H.
  step H. destruct (existsb _ _); [discriminate|]. unfold until_break in H. step2 H o s1.
  apply (break_exact grammar exts g_lit) in E0; [|exact Hs|lia|].
  - destruct E0 as (_ & P & _). destruct o as [[|k ks]|]; try discriminate. destruct (covered _) eqn:CV in H; cbn [obind] in H; try discriminate. injection H as <- <-. exact P.
  - destruct Hs as (_ & C & _). destruct (C [] (rest s) eq_refl). lia.
Qed.
Lemma logical_len exts n s t s' : exts_ok exts -> proper_stmt s -> parse_rule grammar exts n r_logical_expr s = Done (Some t, s') -> pos s' = pos s + xlen 1 (rest s).
Proof.
  intros He Hs H. apply (run_exp _ _ _ (PTag SG_LOGICAL_EXPR (PRule r_expr))) in H; [|apply exts_same_of; exact He|reflexivity..].
  destruct n as [|n]; [discriminate|]. cbn [run] in H. step3 H m t1 s1. destruct t1 as [t1|]; [|discriminate].
  destruct (covered _) eqn:CV in H; cbn [obind] in H; try discriminate. injection H as -> <- <-. apply run_rule in E. destruct E as (n' & x & _ & E). eapply expr_len; eauto.
Qed.
Lemma rest_cons s x : nth_error (frags s) (pos s) = Some x -> pos s < s_end s -> rest s = x :: rest (set_pos s (S (pos s))).
Proof.
  intros H L. unfold rest. cbn [set_pos s_end pos frags]. replace (s_end s - pos s) with (S (s_end s - S (pos s))) by lia. rewrite (skipn_cons_nth _ _ _ H). reflexivity.
Qed.
Lemma rest_skip s k : k <= s_end s - pos s -> skipn k (rest s) = rest (set_pos s (pos s + k)).
Proof. intros L. unfold rest. cbn [set_pos s_end pos frags]. rewrite skipn_firstn_comm, skipn_add. f_equal. lia. Qed.
Lemma peek_lt s x : peek s = Ok x -> x <> BAD -> pos s <> s_end s.
Proof. unfold peek. intros H N E. apply Nat.eqb_eq in E. rewrite E in H. congruence. Qed.
Lemma rule_le exts n r s t s' : exts_ok exts -> proper_stmt s -> parse_rule grammar exts n r s = Done (Some t, s') -> same s s' /\ pos s <= pos s' <= s_end s /\ proper_stmt s'.
Proof.
  intros He Hs H. destruct (C24_grammar _ _ _ _ _ _ He Hs H) as (S & L & C & _). apply covers_rng in C. destruct C as (C & _). repeat split; try apply S; try lia; eapply proper_move; eauto.
Qed.
Lemma root_kids t : t_tag t <> HOIST -> hoist [] (Some t) = [t].
Proof. destruct t as [g r k]. cbn [t_tag hoist]. intros N. apply Z.eqb_neq in N. rewrite N. reflexivity. Qed.
Lemma if_run exts n s t s' : exts_ok exts -> proper_stmt s -> parse_rule grammar exts n r_if_stmt s = Done (Some t, s') ->
  exists k n' x e, t_tag t = SG_IF_STMT /\
   t_kids t = [leaf_at KW_IF (pos s); leaf_at TK_PARENL (S (pos s)); e; leaf_at TK_PARENR (pos s + k); x] /\
   tok_at (frags s) (pos s) (fun y => tok y = KW_IF) /\ matched TK_PARENL TK_PARENR (rest (set_pos s (S (pos s)))) k /\
   parse_rule grammar exts n' r_action_stmt (set_pos s (pos s + 1 + k)) = Done (Some x, s') /\ pos s' = s_end s.
Proof.
  intros He Hs H. pose proof (exts_same_of _ He) as HX.
  apply (run_exp _ _ _ (PSeq SG_IF_STMT [PTok KW_IF; h_parens [PRule r_logical_expr]; PRule r_action_stmt; p_eol])) in H; [|exact HX|reflexivity..].
  apply run_seq in H. destruct H as (n1 & kids & x & -> & H & [= <-] & TG & KD). cbn [seq_loop] in H.
  step3 H m t1 s1. destruct m; [|discriminate]. apply run_tok in E; [|vm_compute; discriminate]. destruct E as (-> & -> & TIF & PK).
  pose proof Hs as (HB & (HL & HL2) & HT & HN).
  assert (P1 : pos s < s_end s) by (apply peek_lt in PK; [lia|vm_compute; discriminate]).
  assert (Hs1 : proper_stmt (set_pos s (S (pos s)))) by (eapply proper_move; [exact Hs|apply same_set|cbn; lia..]).
  step3 H m t1 s2. destruct m; [|discriminate]. apply run_seq in E. destruct E as (n2 & kp & xp & -> & E & -> & TP & KP). cbn [seq_loop app] in E.
  step3 E m t2 s3. destruct m; [|discriminate]. apply run_tok in E0; [|vm_compute; discriminate]. destruct E0 as (-> & -> & TPL & PK1). cbn [pos set_pos frags] in TPL.
  assert (P2 : S (pos s) < s_end s) by (apply peek_lt in PK1; [cbn in PK1; lia|vm_compute; discriminate]).
  change (set_pos (set_pos s (S (pos s))) (S (pos (set_pos s (S (pos s)))))) with (set_pos s (S (S (pos s)))) in E.
  assert (Hs2 : proper_stmt (set_pos s (S (S (pos s))))) by (eapply proper_move; [exact Hs|apply same_set|cbn; lia..]).
  step3 E m t3 s4. destruct m; [|discriminate]. apply run_rule in E0. destruct E0 as (n4 & e & -> & E0).
  pose proof (logical_len _ _ _ _ _ He Hs2 E0) as LEN. destruct (rule_le _ _ _ _ _ _ He Hs2 E0) as (S4 & (L4 & L5) & Hs4). cbn [set_pos pos s_end] in L4, L5, LEN.
  pose proof (any_root_ok grammar exts n4 r_logical_expr SG_LOGICAL_EXPR _ _ _ eq_refl E0) as TE.
  step3 E m t3 s5. destruct m; [|discriminate]. apply run_tok in E1; [|vm_compute; discriminate]. destruct E1 as (-> & -> & TPR & PK2).
  injection E as <- <-.
  assert (SS : same s s4) by (eapply same_trans; [apply same_set|exact S4]). pose proof SS as (F1 & F2 & F3).
  assert (P3 : pos s4 < s_end s) by (apply peek_lt in PK2; [rewrite F3 in PK2; lia|vm_compute; discriminate]).
  step3 H m t4 s6. destruct m; [|discriminate]. apply run_rule in E. destruct E as (n5 & xa & -> & E).
  pose proof (any_root_ok grammar exts n5 r_action_stmt SG_ACTION_STMT _ _ _ eq_refl E) as TA.
  assert (Hs5 : proper_stmt (set_pos s4 (S (pos s4)))) by (eapply proper_move; [exact Hs|eapply same_trans; [exact SS|apply same_set]|cbn; lia..]).
  destruct (rule_le _ _ _ _ _ _ He Hs5 E) as (S6 & (L6 & L7) & Hs6).
  step3 H m t5 s7. destruct m; [|discriminate]. injection H as <- <-. unfold p_eol in E1. cbn [run] in E1. step E1. assert (EB : (BAD =? a)%Z = true) by congruence. assert (t5 = None) as -> by congruence. assert (s7 = s6) as -> by congruence. clear E1. apply Z.eqb_eq in EB. subst a.
  exists (xlen 1 (rest (set_pos s (S (S (pos s))))) + 2), n5, xa, e. split; [exact TG|]. split.
  { clear E E0. rewrite KD. destruct xp as [gp rp kp'], xa as [ga ra ka], e as [ge re ke]. cbn [t_tag t_kids] in TP, KP, TE, TA. subst gp ga ge kp'.
    change (HOIST =? HOIST)%Z with true. change (SG_ACTION_STMT =? HOIST)%Z with false. change (SG_LOGICAL_EXPR =? HOIST)%Z with false. cbn iota. cbn [hoist app]. unfold leaf_at.
    rewrite LEN. cbn [set_pos pos]. replace (S (S (pos s)) + xlen 1 (rest (set_pos s (S (S (pos s)))))) with (pos s + (xlen 1 (rest (set_pos s (S (S (pos s))))) + 2)) by lia. reflexivity. }
  split; [exact TIF|]. split; [|split].
  - destruct TPL as (a & A1 & A2), TPR as (c & C1 & C2). rewrite F1 in C1.
    rewrite (rest_cons (set_pos s (S (pos s))) a) by (cbn; auto; lia). change (set_pos (set_pos s (S (pos s))) (S (pos (set_pos s (S (pos s)))))) with (set_pos s (S (S (pos s)))).
    set (s2 := set_pos s (S (S (pos s)))) in *. set (k := xlen 1 (rest s2)) in *.
    assert (RW : rest s2 = firstn k (rest s2) ++ c :: rest (set_pos s (S (pos s4)))).
    { rewrite <- (firstn_skipn k (rest s2)) at 1. f_equal. rewrite rest_skip by (subst s2; cbn [set_pos pos s_end]; lia). cbn [s2 pos set_pos].
      replace (set_pos s2 (S (S (pos s)) + k)) with (set_pos s (pos s4)) by (unfold s2; rewrite LEN; reflexivity). rewrite (rest_cons (set_pos s (pos s4)) c) by (cbn; auto; lia). reflexivity. }
    assert (LK : length (firstn k (rest s2)) = k).
    { rewrite firstn_length. unfold rest. cbn [s2 set_pos pos s_end frags]. rewrite slice_len by lia. lia. }
    destruct (xlen_level (rest s2) 1%Z ltac:(lia)) as (X1 & X2).
    assert (NC : nth_error (rest s2) k = Some c). { rewrite RW. rewrite nth_error_app2 by lia. rewrite LK, Nat.sub_diag. reflexivity. }
    specialize (X2 c NC ltac:(rewrite C2; reflexivity)). fold k in X1, X2. rewrite RW.
    replace (k + 2) with (length (firstn k (rest s2)) + 2) by lia.
    apply (segment_matched (firstn (S (pos s) - s_beg s) (skipn (s_beg s) (frags s)))); [|exact A2|exact C2| |lia].
    + rewrite <- RW. replace (a :: rest s2) with (rest (set_pos s (S (pos s)))) by (rewrite (rest_cons (set_pos s (S (pos s))) a) by (cbn; auto; lia); reflexivity).
      unfold stmt_toks in HN. rewrite (slice_app _ (s_beg s) (S (pos s)) (s_end s)) in HN by lia. exact HN.
    + intros j J. rewrite LK in J. rewrite firstn_firstn. replace (Nat.min j k) with j by lia. specialize (X1 j J). lia.
  - cbn [pos set_pos] in E. rewrite (set_pos_same s s4) in E by exact SS. rewrite LEN in E. replace (pos s + 1 + (xlen 1 (rest (set_pos s (S (S (pos s))))) + 2)) with (S (S (S (pos s)) + xlen 1 (rest (set_pos s (S (S (pos s))))))) by lia. exact E.
  - apply peek_bad in E2; [|apply proper_in in Hs6; apply Hs6]. destruct S6 as (_ & _ & S6). rewrite E2, S6. cbn [set_pos s_end]. exact F3.
Qed.

(** ** CALL statements *)
Lemma des_end exts n s d s' : proper_stmt s -> parse_rule grammar exts n r_procedure_designator s = Done (Some d, s') ->
  pos s' = s_end s \/ exists k, matched TK_PARENR TK_PARENL (rev (rest s)) k /\ pos s' = s_end s - k.
Proof.
  intros Hp H. pose proof Hp as (HB & (HO & HO2) & HT & HN). unfold parse_rule, call_rule in H. change (grammar r_procedure_designator) with b_procedure_designator in H. unfold b_procedure_designator, designator in H.
  set (s0 := consume_until_eol s) in H. set (whole := stmt_toks s) in *.
  assert (HW : whole = firstn (pos s - s_beg s) (skipn (s_beg s) (frags s)) ++ rest s) by (apply slice_app; lia).
  assert (NBw : no_bad whole) by (eapply Forall_impl; [|exact HT]; intros t (X & _); exact X).
  assert (LW : length whole = s_end s - s_beg s) by (apply slice_len; lia).
  assert (CUT : at_cut s0 whole []).
  { exists (firstn (s_beg s) (frags s)), (skipn (s_end s) (frags s)). cbn [app]. unfold s0, consume_until_eol. cbn [frags set_pos s_beg pos s_end].
    rewrite firstn_length, LW. cbn [length]. repeat split; try lia.
    rewrite <- (firstn_skipn (s_beg s) (frags s)) at 1. f_equal.
    rewrite <- (firstn_skipn (s_end s - s_beg s) (skipn (s_beg s) (frags s))) at 1. unfold whole, stmt_toks. f_equal.
    rewrite skipn_add. f_equal. lia. }
  destruct (open_paren_ok s0 whole [] CUT NBw) as (OP1 & OP2 & OP3).
  destruct (Z.eq_dec (tok (last whole default_token)) TK_PARENR) as [EP|NP].
  - destruct (dec_matched _ EP) as [(k0 & M)|U].
    + right. destruct (OP2 k0 M EP) as (s1 & E1 & CUT1). rewrite E1 in H. cbn [lift obind] in H.
      destruct (put_back_ok _ _ _ CUT1) as (s2 & E2 & CUT2). rewrite E2 in H. cbn [lift obind] in H.
      assert (HS2 : same s s2) by (eapply same_trans; [|eapply put_back_same; exact E2]; eapply same_trans; [|eapply to_open_same; exact E1]; apply same_set).
      pose proof M as ((HK1 & HK2) & _). rewrite rev_length, LW in HK2.
      assert (HP2 : pos s2 = s_end s - k0) by (destruct CUT2 as (pre & post & _ & X1 & X2 & _); destruct HS2 as (_ & F2 & _); rewrite !firstn_length in X2; lia).
      destruct (pos s2 <? pos s) eqn:EL; [discriminate|]. apply Nat.ltb_ge in EL. step3 H m t1 s3. injection H as -> <-.
      exists k0. split; [|exact HP2]. rewrite <- (app_nil_r (rev (rest s))). rewrite HW, rev_app_distr in M. eapply matched_prefix; [exact M|].
      rewrite rev_length. unfold rest. rewrite slice_len by lia. lia.
    + exfalso. destruct (OP3 U EP) as (s1 & E1 & CUT1). rewrite E1 in H. cbn [lift obind] in H.
      assert (M : exists k, matched TK_PARENR TK_PARENL (rev whole) k).
      { destruct (nested_snoc _ HN) as [W|[(x & t & W & _ & T2 & _)|[(y & a & w & c & W & Y1 & Y2 & Y3 & Y4)|(y & a & w & c & W & Y1 & Y2 & Y3 & Y4)]]]; rewrite W in EP |- *.
        - vm_compute in EP. discriminate.
        - rewrite last_last in EP. rewrite EP in T2. discriminate.
        - exists (S (S (length w))). replace (rev (y ++ a :: w ++ [c])) with ((c :: rev w ++ [a]) ++ rev y) by (rewrite rev_app_distr; cbn [rev]; rewrite rev_app_distr; cbn [rev app]; rewrite <- !app_assoc; reflexivity).
          assert (LN : length (c :: rev w ++ [a]) = S (S (length w))) by (cbn [length]; rewrite app_length, rev_length; cbn [length]; lia).
          assert (FN : forall j, j <= S (S (length w)) -> firstn j ((c :: rev w ++ [a]) ++ rev y) = firstn j (c :: rev w ++ [a])).
          { intros j J. rewrite firstn_app. rewrite LN. replace (j - S (S (length w))) with 0 by lia. cbn [firstn]. apply app_nil_r. }
          split; [rewrite app_length; lia|]. split.
          + rewrite FN by lia. rewrite firstn_all2 by lia. cbn [level]. rewrite level_app, level_rev. cbn [level]. rewrite Y1, Y2. rewrite level_swap by (vm_compute; discriminate). rewrite (proj1 (nested_level _ Y4)). reflexivity.
          + intros j J. rewrite FN by lia. apply nested_matched_group; auto.
        - rewrite app_comm_cons, app_assoc, last_last in EP. rewrite EP in Y2. vm_compute in Y2. discriminate. }
      destruct M as (k & M). eapply U; eauto.
  - left. rewrite (OP1 NP) in H. cbn [lift obind] in H. destruct (_ <? _); [discriminate|]. step3 H m t1 s3. injection H as -> <-. reflexivity.
Qed.
(** consecutive pieces *)
Lemma list_app s l1 l2 : forall b e, covers_list s (l1 ++ l2) b e -> exists c, covers_list s l1 b c /\ covers_list s l2 c e.
Proof.
  induction l1 as [|x l1 IH]; intros b e H; [exists b; split; [constructor|exact H]|]. cbn [app] in H. inversion H; subst.
  match goal with X : covers_list _ (l1 ++ l2) _ _ |- _ => apply IH in X; destruct X as (c1 & X1 & X2) end. exists c1. split; [econstructor; eauto|exact X2].
Qed.
Lemma leaf_covers s g p b e : covers s (leaf_at g p) b e -> b = p /\ e = S p.
Proof.
  unfold leaf_at. intros H. inversion H; subst; [auto|]. match goal with X : covers_list _ [] _ _ |- _ => inversion X; subst end.
  match goal with X : Some _ = _ |- _ => rewrite Nat.ltb_irrefl in X; discriminate end.
Qed.
Lemma leaf_list s g p l b e : covers_list s (leaf_at g p :: l) b e -> b = p /\ covers_list s l (S p) e.
Proof. intros H. inversion H; subst. match goal with X : covers _ (leaf_at _ _) _ _ |- _ => apply leaf_covers in X; destruct X as (-> & ->) end. auto. Qed.
Lemma node_list s g r k b e : k <> [] -> covers s (ST g r k) b e -> covers_list s k b e.
Proof. intros N H. inversion H; subst; [congruence|assumption]. Qed.
Lemma call_run exts n s t s' : exts_ok exts -> proper_stmt s -> parse_rule grammar exts n r_call_stmt s = Done (Some t, s') ->
  exists r rd parts q rest', t = ST SG_CALL_STMT r (leaf_at KW_CALL (pos s) :: ST SG_PROCEDURE_DESIGNATOR rd (parts ++ [leaf_at TK_NAME q]) :: rest') /\ part_list parts /\
   tok_at (frags s) (pos s) (fun y => tok y = KW_CALL) /\ pos s < q < s_end s /\ name_at (frags s) q (fun _ => True) /\
   (S q = s_end s \/ matched TK_PARENR TK_PARENL (rev (rest s)) (s_end s - S q)).
Proof.
  intros He Hs H. pose proof (exts_same_of _ He) as HX. destruct (C24_grammar _ _ _ _ _ _ He Hs H) as (S0 & L0 & CV & _).
  pose proof (grammar_gives _ _ _ _ _ _ HX H) as GV. rewrite root_kids in GV by (rewrite (any_root_ok grammar exts n r_call_stmt SG_CALL_STMT _ _ _ eq_refl H); vm_compute; discriminate).
  apply shape_call in GV. destruct GV as (r & a & d & rst & -> & TC & GD & RS). apply shape_designator in GD. destruct GD as (rd & parts & q & [= ->] & PL & NM).
  apply node_list in CV; [|discriminate]. apply leaf_list in CV. destruct CV as (<- & CV).
  inversion CV as [|x l b c e CD CR]; subst. apply node_list in CD; [|destruct parts; discriminate]. apply list_app in CD. destruct CD as (c' & C1 & C2). apply leaf_list in C2. destruct C2 as (-> & C2). inversion C2; subst.
  exists r, rd, parts, q, rst. split; [reflexivity|]. split; [exact PL|]. split; [exact TC|].
  pose proof (covers_list_le _ _ _ _ C1) as LQ. pose proof (covers_list_le _ _ _ _ CR) as LR. split; [lia|]. split; [exact NM|].
  (* the run *)
  apply (run_exp _ _ _ (PSeq SG_CALL_STMT [PTok KW_CALL; PRule r_procedure_designator; POpt (h_parens [POpt (p_list SG_ACTUAL_ARG_SPEC_LIST (PRule r_actual_arg_spec))]); p_eol])) in H; [|exact HX|reflexivity..].
  apply run_seq in H. destruct H as (n1 & kids & x & -> & H & [= <-] & _ & KD). cbn [seq_loop t_kids] in H, KD.
  step3 H m t1 s1. destruct m; [|discriminate]. apply run_tok in E; [|vm_compute; discriminate]. destruct E as (-> & -> & _ & PK).
  assert (P1 : pos s < s_end s) by (destruct Hs as (_ & (X & _) & _); apply peek_lt in PK; [lia|vm_compute; discriminate]).
  assert (Hs1 : proper_stmt (set_pos s (S (pos s)))) by (eapply proper_move; [exact Hs|apply same_set|cbn; lia..]).
  step3 H m t1 s2. destruct m; [|discriminate]. apply run_rule in E. destruct E as (n2 & d & -> & E).
  destruct (C24_grammar _ _ _ _ _ _ He Hs1 E) as (S2 & L2 & CV2 & _). pose proof (grammar_gives _ _ _ _ _ _ HX E) as GD.
  pose proof (any_root_ok grammar exts n2 r_procedure_designator SG_PROCEDURE_DESIGNATOR _ _ _ eq_refl E) as TD.
  assert (d = ST SG_PROCEDURE_DESIGNATOR rd (parts ++ [leaf_at TK_NAME q])) as ->.
  { clear - H KD TD. destruct d as [gd rr kd]. cbn [t_tag] in TD. subst gd. cbn [hoist] in H. change (SG_PROCEDURE_DESIGNATOR =? HOIST)%Z with false in H. cbn [app] in H.
    change (KW_CALL =? HOIST)%Z with false in H. cbn iota in H. cbn [app] in H. step3 H m t s3. destruct m; [|discriminate]. step3 H m u s4. destruct m; [|discriminate]. injection H as H _.
    rewrite (hoist_app _ u), (hoist_app _ t) in H. cbn [app] in H. rewrite <- KD in H. injection H as H1 H2. congruence. }
  assert (PE : pos s2 = S q).
  { apply node_list in CV2; [|destruct parts; discriminate]. apply list_app in CV2. destruct CV2 as (c2 & X1 & X2). apply leaf_list in X2. destruct X2 as (_ & X2). inversion X2; subst. reflexivity. }
  destruct (des_end _ _ _ _ _ Hs1 E) as [DE|(k & M & DE)]; [left; cbn [set_pos s_end] in DE; lia|]. right. cbn [set_pos s_end] in DE.
  assert (RC : exists y, rest s = y :: rest (set_pos s (S (pos s)))) by (destruct TC as (y & Y & _); exists y; apply rest_cons; auto).
  destruct RC as (y & RC). rewrite RC. cbn [rev].
  assert (s_end s - S q = k) as -> by (destruct M as (M & _); cbn [set_pos s_end pos] in L2; unfold rest in M; rewrite rev_length, slice_len in M by (destruct Hs as (_ & (_ & X) & _); exact X); cbn [set_pos s_end pos] in M; lia).
  rewrite <- (app_nil_r (rev (rest _))) in M. eapply matched_prefix; [exact M|]. destruct M as (M & _). rewrite app_nil_r in M. lia.
Qed.

(** ** First statements of procedures *)
Lemma seq_more R ps : forall kids s kids' s', seq_loop R ps kids s = Done (true, kids', s') -> exists more, kids' = kids ++ more.
Proof.
  induction ps as [|p ps IH]; intros kids s kids' s' H; cbn [seq_loop] in H.
  - injection H as <- <-. exists []. symmetry. apply app_nil_r.
  - step3 H m t s1. destruct m; [|discriminate]. apply IH in H. destruct H as (more & ->). rewrite hoist_app, <- app_assoc. eauto.
Qed.
Lemma run_name exts n s t s' : run grammar exts n PName s = Done (true, t, s') -> t = Some (leaf_at TK_NAME (pos s)) /\ s' = set_pos s (S (pos s)) /\ name_at (frags s) (pos s) (fun _ => True).
Proof.
  intros H. destruct n as [|n]; [discriminate|]. cbn [run] in H. step H. destruct (is_name_tag a) as [b| |] eqn:N; cbn [lift obind] in H; try discriminate. destruct b; cbn [negb] in H; [|discriminate].
  step2 H x s1. injection H as <- <-. apply leaf_inv in E0. destruct E0 as (-> & -> & _). split; [reflexivity|]. split; [reflexivity|]. eapply peek_name; eauto.
Qed.
(** the prefix is made of prefix-specs from here to the stream's new position *)
Lemma prefix_run exts n s x s' : exts_ok exts -> proper_stmt s -> parse_rule grammar exts n r_prefix s = Done (Some x, s') ->
  exists r specs, x = ST SG_PREFIX r specs /\ covers_list s specs (pos s) (pos s') /\ Forall (is_spec (frags s)) specs.
Proof.
  intros He Hs H. pose proof (exts_same_of _ He) as HX. destruct (C24_grammar _ _ _ _ _ _ He Hs H) as (S0 & L0 & CV & _).
  pose proof (grammar_gives _ _ _ _ _ _ HX H) as GV. rewrite root_kids in GV by (rewrite (any_root_ok grammar exts n r_prefix SG_PREFIX _ _ _ eq_refl H); vm_compute; discriminate).
  assert (MP : maybe_prefix (frags s) [x]) by (apply (shape_prefix (frags s) (made exts)); apply g_opt; apply g_rule; exact GV).
  destruct MP as [MP|(r & specs & [= ->] & F)]; [discriminate|]. exists r, specs. split; [reflexivity|]. split; [|exact F].
  destruct specs as [|y specs]; [|apply node_list in CV; [exact CV|discriminate]].
  assert (r = None) as ->.
  { apply (run_exp _ _ _ (PTag SG_PREFIX (PStar (PRule r_prefix_spec)))) in H; [|exact HX|reflexivity..]. destruct n as [|n]; [discriminate|]. cbn [run] in H. step3 H m t1 s1. destruct t1 as [t1|]; [|discriminate].
    destruct (covered _) as [z| |] eqn:CO in H; cbn [obind] in H; try discriminate. injection H as -> -> ->. destruct n as [|n]; [discriminate|]. cbn [run] in E. step2 E kids s2.
    destruct (covered (ST HOIST None kids)) as [z| |] eqn:CO2 in E; cbn [obind] in E; try discriminate. injection E as -> ->.
    pose proof (cover_shape _ _ CO2) as (C1 & C2). cbn [t_tag t_kids] in C1, C2. destruct t1 as [g1 r1 k1]. cbn [t_tag t_kids] in C1, C2. subst g1 k1.
    cbn [hoist t_rng] in CO. rewrite Z.eqb_refl in CO. cbn [app] in CO. pose proof (cover_shape _ _ CO) as (_ & C3). cbn [t_kids] in C3. subst kids.
    vm_compute in CO2. injection CO2 as <-. vm_compute in CO. injection CO as <-. reflexivity. }
  inversion CV; subst. assumption.
Qed.
Definition maybe (p : option stree) : list stree := match p with Some x => [x] | None => [] end.
Lemma headed_run exts n r g kw tl s t s' : exts_ok exts -> proper_stmt s -> kw <> BAD -> kw <> HOIST -> g <> HOIST ->
  grammar r = RExp (PSeq g (POpt (PRule r_prefix) :: PTok kw :: PName :: tl)) -> clean (PSeq g (POpt (PRule r_prefix) :: PTok kw :: PName :: tl)) = true ->
  parse_rule grammar exts n r s = Done (Some t, s') ->
  exists k pre specs more, t_kids t = maybe pre ++ leaf_at kw k :: leaf_at TK_NAME (S k) :: more /\
    (pre = None /\ specs = [] \/ exists rp, pre = Some (ST SG_PREFIX rp specs)) /\ covers_list s specs (pos s) k /\ Forall (is_spec (frags s)) specs /\
    tok_at (frags s) k (fun y => tok y = kw) /\ name_at (frags s) (S k) (fun _ => True).
Proof.
  intros He Hs NB NH NG B CL H. pose proof (exts_same_of _ He) as HX. apply (run_exp _ _ _ _ _ _ _ HX B eq_refl CL) in H.
  apply run_seq in H. destruct H as (n1 & kids & x & -> & H & [= <-] & _ & KD). cbn [seq_loop] in H.
  step3 H m t1 s1. destruct m; [|discriminate]. destruct n1 as [|n1]; [discriminate|]. cbn [run] in E. fold (run grammar exts) in E. step3 E m1 t2 s2. injection E as -> ->.
  assert (PRE : same s s1 /\ exists specs, (t1 = None /\ specs = [] \/ exists rp, t1 = Some (ST SG_PREFIX rp specs)) /\ covers_list s specs (pos s) (pos s1) /\ Forall (is_spec (frags s)) specs).
  { change (run grammar exts n1 (PRule r_prefix) s = Done (m1, t1, s1)) in E0. destruct m1.
    - apply run_rule in E0. destruct E0 as (n2 & x & -> & E0). destruct (rule_le _ _ _ _ _ _ He Hs E0) as (SS & _). split; [exact SS|]. destruct (prefix_run _ _ _ _ _ He Hs E0) as (rp & specs & -> & C & F). exists specs. eauto 6.
    - destruct (run_restores _ _ g_clean HX _ (PRule r_prefix) _ _ eq_refl E0) as (_ & X). destruct (X eq_refl) as (-> & ->). split; [apply same_refl|]. exists []. repeat split; auto. constructor. }
  destruct PRE as ((F1 & F2 & F3) & specs & PR & CV & SP).
  step3 H m t3 s3. destruct m; [|discriminate]. apply run_tok in E; [|exact NB]. destruct E as (-> & -> & TK & _). rewrite F1 in TK.
  step3 H m t4 s4. destruct m; [|discriminate]. apply run_name in E. destruct E as (-> & -> & NM). cbn [pos set_pos frags] in NM. rewrite F1 in NM.
  apply seq_more in H. destruct H as (more & ->). exists (pos s1), t1, specs, more. split; [|auto 6].
  rewrite KD. rewrite (hoist_app _ (Some (leaf_at TK_NAME _))), (hoist_app _ (Some (leaf_at kw _))). rewrite !root_kids by (cbn; first [exact NH|discriminate]). cbn [pos set_pos]. rewrite <- !app_assoc. cbn [app]. f_equal.
  destruct PR as [(-> & _)|(rp & ->)]; reflexivity.
Qed.
(** ** The whole statement *)
Lemma whole_rule exts n r s t s' : exts_ok exts -> exts_end exts -> proper_stmt s -> g_ends r = true -> parse_rule grammar exts n r s = Done (Some t, s') -> pos s' = s_end s.
Proof.
  intros He Hee Hs GE H. pose proof (exts_same_of _ He) as HX. pose proof (PegEnd_proofs.parse_rule_ends grammar exts g_ends g_clean HX Hee g_ends_ok n r s t s' GE H) as HB.
  destruct (rule_le _ _ _ _ _ _ He Hs H) as ((F1 & F2 & F3) & L & Hs'). rewrite <- F3. apply peek_bad; [|exact HB]. apply proper_in in Hs'. apply Hs'.
Qed.
