(** C23, C24, C26, C44: the statement parser combinators, for every grammar. *)
From Verif Require Import Base Tags SyntaxTags Token TTStream StmtRules Peg Peg_spec Peg_proofs PegCover_proofs PegEnd_proofs
  StmtGrammar StmtParser Stmt_spec StmtTables_proofs StmtSafe_proofs StmtDispatch_proofs.
Local Open Scope nat_scope.

Definition T (t : Z) (w : string) : Token := new_token (L w) t 1 1.
Definition S_of (l : list Token) : stream := stream_of l 0 (length l).
Definition no_exts : bool -> list ext := fun _ => [].

(** C23.  Whatever the parser functions are, a combinator expression that does
    not match leaves the stream as it was. *)
Theorem C23_expressions : forall body exts n p s t s',
  (forall r, clean_body (body r) = true) -> exts_same exts -> clean p = true ->
  run body exts n p s = Done (false, t, s') -> s' = s /\ t = None.
Proof. intros body exts n p s t s' Hb He Hc H. apply run_restores in H; auto. destruct H as (_ & H). destruct (H eq_refl). auto. Qed.
Print Assumptions C23_expressions.
(** Every parser function of the grammar is clean, and so is every rule(...). *)
Theorem C23_grammar : forall exts n r s o s',
  exts_same exts -> r <> r_procedure_designator ->
  parse_rule grammar exts n r s = Done (o, s') -> same s s' /\ (o = None -> s' = s).
Proof. intros exts n r s o s' He Hr H. eapply parse_rule_restores; eauto using g_clean, g_solid, not_des. Qed.
Print Assumptions C23_grammar.
Theorem C23_rule_parser : forall exts n r s t s',
  exts_same exts -> run grammar exts n (PRule r) s = Done (false, t, s') -> s' = s.
Proof. intros exts n r s t s' He H. eapply C23_expressions in H; eauto using g_clean. apply H. Qed.
Print Assumptions C23_rule_parser.

(** Not true of neg by itself, nor of procedure_designator called directly. *)
Theorem C23_neg_refuted : exists p s s', clean p = true /\
  run grammar no_exts 5 (PNeg p) s = Done (false, Some (ST TK_COMMA (Some (0, 1)) []), s') /\ s' <> s.
Proof.
  exists (PTok TK_COMMA), (S_of [T TK_COMMA ","]), (set_pos (S_of [T TK_COMMA ","]) 1).
  split; [reflexivity|]. split; [vm_compute; reflexivity|]. intro H. vm_compute in H. discriminate H.
Qed.
Print Assumptions C23_neg_refuted.
Theorem C23_procedure_designator_refuted : exists s s',
  parse_rule grammar no_exts 20 r_procedure_designator s = Done (None, s') /\ s' <> s.
Proof.
  exists (S_of [T TK_PLUS "+"; T TK_NAME "b"]), (set_pos (S_of [T TK_PLUS "+"; T TK_NAME "b"]) 2).
  split; [vm_compute; reflexivity|]. intro H. vm_compute in H. discriminate H.
Qed.
Print Assumptions C23_procedure_designator_refuted.
(** "cycle a b" is no cycle_stmt; its parser read "cycle a" and puts it back. *)
Example C23_ex : parse_rule grammar no_exts 20 r_cycle_stmt (S_of [T KW_CYCLE "cycle"; T TK_NAME "a"; T TK_NAME "b"]) =
  Done (None, S_of [T KW_CYCLE "cycle"; T TK_NAME "a"; T TK_NAME "b"]).
Proof. vm_compute. reflexivity. Qed.

(** C24.  For every grammar whose parsers are combinator expressions (no
    procedure_designator), every stream: the tree covers what was consumed. *)
Theorem C24_expressions : forall body exts n p s m t s',
  (forall r, clean_body (body r) = true /\ not_designator (body r) = true) ->
  (forall r q, body_exp (body r) = Some q -> plain q = true) ->
  (forall a, Forall ext_same (exts a) /\ Forall ext_covers (exts a)) -> clean p = true -> plain p = true ->
  run body exts n p s = Done (m, Some t, s') ->
  covers s t (pos s) (pos s') /\ leaf_positions t = seq (pos s) (pos s' - pos s).
Proof.
  intros body exts n p s m t s' Hb Hp He Hc Hpp H.
  assert (X : forall q, calls (fun _ => true) q = true) by exact every_calls.
  eapply (run_tiled body exts (fun _ => true)) in H; auto.
  - destruct H as (_ & H & _). split; [exact H|]. apply (covers_leaves s). exact H.
  - apply Hb.
  - intros r _. apply Hb.
  - apply He.
  - apply He.
  - repeat split; auto using clean_sclean.
Qed.
Print Assumptions C24_expressions.
Example C24_ex : run grammar no_exts 20 (p_list SG_ACCESS_ID_LIST PName) (S_of [T TK_NAME "a"; T TK_COMMA ","; T TK_NAME "b"; T TK_COMMA ","; T TK_PLUS "+"]) =
  Done (true, Some (ST SG_ACCESS_ID_LIST (Some (0, 3)) [ST TK_NAME (Some (0, 1)) []; ST TK_COMMA (Some (1, 2)) []; ST TK_NAME (Some (2, 3)) []]),
        set_pos (S_of [T TK_NAME "a"; T TK_COMMA ","; T TK_NAME "b"; T TK_COMMA ","; T TK_PLUS "+"]) 3).
Proof. vm_compute. reflexivity. Qed.

(** C26.  Expressions mean what they mean in a parsing expression grammar, and
    this meaning is unique. *)
Theorem C26_meaning : forall exts n p s m t s',
  exts_same exts -> clean p = true -> run grammar exts n p s = Done (m, t, s') ->
  peg grammar (behaves grammar exts) p s (if m then Some s' else None).
Proof. intros exts n p s m t s' He Hc H. eapply run_agrees in H; eauto using g_clean, g_solid. Qed.
Print Assumptions C26_meaning.
Theorem C26_unique : forall exts p s o1 o2,
  peg grammar (behaves grammar exts) p s o1 -> peg grammar (behaves grammar exts) p s o2 -> o1 = o2.
Proof.
  intros exts p s o1 o2 H1 H2. eapply peg_det; eauto. clear. intros r s o1 o2 (n & m & t & s' & H & ->) (n2 & m2 & t2 & s2 & H2 & ->).
  pose proof (run_det _ _ _ _ _ _ _ _ H H2) as E. injection E as <- <- <-. reflexivity.
Qed.
Print Assumptions C26_unique.

(** C26.  What this says of the combinators. *)
Theorem C26_alts : forall body prim g ps s o,
  peg body prim (PAlts g ps) s o <->
  (exists u p v s', ps = u ++ p :: v /\ Forall (fun q => peg body prim q s None) u /\ peg body prim p s (Some s') /\ o = Some s') \/
  (Forall (fun q => peg body prim q s None) ps /\ o = None).
Proof.
  intros body prim g ps s o. split.
  - induction ps as [|p ps IH]; intro H; inversion H; subst.
    + right. auto.
    + left. exists [], p, ps, s'. auto.
    + destruct (IH ltac:(assumption)) as [(u & q & v & s' & -> & HU & HQ & ->)|(HA & ->)].
      * left. exists (p :: u), q, v, s'. auto.
      * right. auto.
  - intros [(u & p & v & s' & -> & HU & HP & ->)|(HA & ->)].
    + induction HU; cbn [app]; [apply peg_alt_take; auto|apply peg_alt_skip; auto].
    + induction HA; [apply peg_alt_none|apply peg_alt_skip; auto].
Qed.
Print Assumptions C26_alts.
Theorem C26_opt : forall body prim p s o,
  peg body prim (POpt p) s o <-> (exists s', peg body prim p s (Some s') /\ o = Some s') \/ (peg body prim p s None /\ o = Some s).
Proof.
  intros body prim p s o. split.
  - intro H; inversion H; subst; eauto.
  - intros [(s' & H & ->)|(H & ->)]; [apply peg_opt_take|apply peg_opt_skip]; auto.
Qed.
Print Assumptions C26_opt.
Theorem C26_star : forall body prim p s o,
  peg body prim (PStar p) s o <->
  exists s', successive (fun a b => peg body prim p a (Some b)) s s' /\ peg body prim p s' None /\ o = Some s'.
Proof.
  intros body prim p s o. split.
  - intro H. remember (PStar p) as q eqn:EQ. induction H; try discriminate EQ; injection EQ as ->.
    + destruct IHpeg2 as (s2 & H2 & H3 & ->); [reflexivity|]. exists s2. split; [econstructor; eauto|auto].
    + exists s. split; [constructor|auto].
  - intros (s' & H1 & H2 & ->). induction H1; [apply peg_star_stop; auto|eapply peg_star_go; eauto].
Qed.
Print Assumptions C26_star.
Theorem C26_list : forall body prim g p s o,
  peg body prim (p_list g p) s o <->
  (peg body prim p s None /\ o = None) \/
  exists s1 s', peg body prim p s (Some s1) /\
    successive (fun a b => exists c, next_is a (fun t => t = TK_COMMA) /\ moved a c /\ peg body prim p c (Some b)) s1 s' /\
    peg body prim (PSeq HOIST [PTok TK_COMMA; p]) s' None /\ o = Some s'.
Proof.
  intros body prim g p s o. unfold p_list.
  assert (X : forall a b, peg body prim (PSeq HOIST [PTok TK_COMMA; p]) a (Some b) <->
    exists c, next_is a (fun t => t = TK_COMMA) /\ moved a c /\ peg body prim p c (Some b)).
  { intros a b. split.
    - intro H. inversion H; subst. match goal with X : peg _ _ (PTok _) _ _ |- _ => inversion X; subst end.
      match goal with X : peg _ _ (PSeq _ [p]) _ _ |- _ => inversion X; subst end.
      match goal with X : peg _ _ (PSeq _ []) _ _ |- _ => inversion X; subst end. eauto.
    - intros (c & H1 & H2 & H3). eapply peg_seq_go; [apply peg_tok_yes; eauto|]. eapply peg_seq_go; [exact H3|apply peg_seq_nil]. }
  split.
  - intro H. inversion H; subst; [right|left; auto].
    match goal with X : peg _ _ (PSeq g [PStar _]) _ _ |- _ => inversion X; subst end.
    + match goal with X : peg _ _ (PSeq g []) _ _ |- _ => inversion X; subst end.
      match goal with X : peg _ _ (PStar _) _ _ |- _ => apply C26_star in X; destruct X as (s2 & H2 & H3 & [= ->]) end.
      eexists _, s2. split; [eassumption|]. split; [|split; [exact H3|reflexivity]].
      clear -H2 X. induction H2; [constructor|]. econstructor; [|exact IHsuccessive]. apply X. assumption.
    + match goal with X : peg _ _ (PStar _) _ _ |- _ => apply C26_star in X; destruct X as (s2 & _ & _ & X); discriminate X end.
  - intros [(H & ->)|(s1 & s' & H1 & H2 & H3 & ->)].
    + apply peg_seq_stop. exact H.
    + eapply peg_seq_go; [exact H1|]. eapply peg_seq_go; [|apply peg_seq_nil]. apply C26_star. exists s'. split; [|auto].
      clear -H2 X. induction H2; [constructor|]. econstructor; [|exact IHsuccessive]. apply X. assumption.
Qed.
Print Assumptions C26_list.

(** C26.  The tree: alts(tag, ...) puts the tree of the first alternative that
    matches under a node with its tag. *)
Theorem C26_alts_tree : forall body exts n g ps s t s',
  (forall r, clean_body (body r) = true) -> exts_same exts -> clean (PAlts g ps) = true ->
  run body exts (S n) (PAlts g ps) s = Done (true, t, s') ->
  exists u p v t1 x, ps = u ++ p :: v /\ Forall (fun q => run body exts n q s = Done (false, None, s)) u /\
    run body exts n p s = Done (true, t1, s') /\ t = Some x /\ t_tag x = g /\ t_kids x = hoist [] t1.
Proof.
  intros body exts n g ps s t s' Hb He Hc H. cbn [run] in H. step3 H m t1 s1. destruct m; [|discriminate].
  destruct (covered _) as [x| |] eqn:EC; cbn [obind] in H; try discriminate. injection H as <- <-.
  cbn [clean] in Hc. revert E. induction ps as [|p ps IH]; intro E; cbn [alts_loop] in E; [discriminate|].
  cbn [forallb] in Hc. apply andb_true_iff in Hc. destruct Hc as (Hc1 & Hc2). step3 E m t2 s2. destruct m.
  - injection E as -> ->. exists [], p, ps, t1, x. repeat split; auto; [eapply covered_tag; eauto|eapply covered_kids; eauto].
  - pose proof (run_restores _ _ Hb He _ _ _ _ Hc1 E0) as (_ & R). destruct (R eq_refl) as (-> & ->).
    destruct (IH Hc2 E) as (u & q & v & t3 & y & -> & HU & HQ & HY). exists (p :: u), q, v, t3, y. auto.
Qed.
Print Assumptions C26_alts_tree.
Example C26_ex : peg grammar (behaves grammar no_exts) (PAlts HOIST [PTok TK_COMMA; PName; PTok TK_NAME]) (S_of [T TK_NAME "a"; T TK_COMMA ","])
  (Some (set_pos (S_of [T TK_NAME "a"; T TK_COMMA ","]) 1)).
Proof. apply (C26_meaning no_exts 5 _ _ true (Some (ST HOIST (Some (0, 1)) [ST TK_NAME (Some (0, 1)) []]))); [intro; constructor|reflexivity|vm_compute; reflexivity]. Qed.

(** C44.  A parser function with extensions gives what its built-in parser
    gives; if that fails, the first extension that accepts, under the tag of
    the function; if all decline, nothing, and the stream is as it was. *)
Theorem C44_order : forall body exts n r a g p s o s',
  (forall r, clean_body (body r) = true) -> exts_same exts -> body r = RExt a g p -> solid p = true ->
  parse_rule body exts n r s = Done (o, s') ->
  (run body exts n p s = Done (true, o, s') /\ o <> None) \/
  run body exts n p s = Done (false, None, s) /\
  ((exists u e v t x, exts a = u ++ e :: v /\ Forall (declines s) u /\ e s = Done (Some t, s') /\
      o = Some x /\ t_tag x = g /\ t_kids x = hoist [] (Some t)) \/
   (Forall (declines s) (exts a) /\ o = None /\ s' = s)).
Proof.
  intros body exts n r a g p s o s' Hb He Hr Hs H. unfold parse_rule, call_rule in H. rewrite Hr in H.
  pose proof (Hb r) as Hc. rewrite Hr in Hc. unfold clean_body in Hc. cbn [body_exp] in Hc.
  step3 H m t s1. destruct m.
  - injection H as <- <-. left. split; [exact E|]. eapply run_solid; eauto.
  - apply run_restores in E as E1; auto. destruct E1 as (_ & E1). destruct (E1 eq_refl) as (-> & ->). right. split; [exact E|].
    step3 H m t s2. injection H as <- <-. apply ext_order in E0; [|apply He]. destruct E0 as [(_ & E0)|(_ & E0)]; auto.
Qed.
Print Assumptions C44_order.
(** The two parser functions with extensions. *)
Theorem C44_which : forall r a g p, grammar r = RExt a g p ->
  solid p = true /\ ((r = r_action_stmt /\ a = true /\ g = SG_ACTION_STMT) \/
                     (r = r_other_specification_stmt /\ a = false /\ g = SG_OTHER_SPECIFICATION_STMT)).
Proof.
  intros r a g p H. split.
  - pose proof (g_solid r) as G. rewrite H in G. exact G.
  - assert (G : match grammar r with
              | RExt a g _ => ((rule_idx r =? rule_idx r_action_stmt) && a && (g =? SG_ACTION_STMT)%Z) ||
                              ((rule_idx r =? rule_idx r_other_specification_stmt) && negb a && (g =? SG_OTHER_SPECIFICATION_STMT)%Z)
              | _ => true end = true).
    { clear. revert r. apply (by_rules (fun r => match grammar r with
              | RExt a g _ => ((rule_idx r =? rule_idx r_action_stmt) && a && (g =? SG_ACTION_STMT)%Z) ||
                              ((rule_idx r =? rule_idx r_other_specification_stmt) && negb a && (g =? SG_OTHER_SPECIFICATION_STMT)%Z)
              | _ => true end)). vm_compute. reflexivity. }
    rewrite H in G. apply orb_true_iff in G. destruct G as [G|G]; apply andb_true_iff in G; destruct G as (G & G3);
      apply andb_true_iff in G; destruct G as (G1 & G2); apply Z.eqb_eq in G3; subst g.
    + left. destruct r; try discriminate G1. auto.
    + right. destruct r; try discriminate G1. apply negb_true_iff in G2. auto.
Qed.
Print Assumptions C44_which.
(** Two extensions, the first of which declines after moving the stream. *)
Definition ext_no : ext := fun s => Done (None, set_pos s (S (pos s))).
Definition ext_yes : ext := fun s => '(x, s') <~ leaf TK_NAME s ;; Done (Some x, s').
Example C44_ex : parse_rule grammar (fun a => if a then [ext_no; ext_yes] else []) 40 r_action_stmt (S_of [T TK_NAME "foo"; T TK_NAME "bar"]) =
  Done (Some (ST SG_ACTION_STMT (Some (0, 1)) [ST TK_NAME (Some (0, 1)) []]), set_pos (S_of [T TK_NAME "foo"; T TK_NAME "bar"]) 1).
Proof. vm_compute. reflexivity. Qed.
