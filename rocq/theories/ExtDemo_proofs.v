(** Extensions that add nothing change nothing; the extension of the demo adds
    the WRITE statements with a comma. *)
From Verif Require Import Base Base_lemmas Tags SyntaxTags Token TTStream TTStream_spec StmtRules Peg Peg_spec Peg_proofs StmtGrammar Stmt_spec StmtTables_proofs StmtDispatch_proofs.
From Verif Require Import StmtRun_proofs LabelStack Prgm PrgmSource PrgmSource_proofs ParseSame_spec ParseSame_proofs ExtDemo ExtDemo_spec.
Local Open Scope nat_scope.

Notation none := (fun _ : bool => @nil ext).

(** ** the tokens stay *)
Lemma alike_refl l : Forall2 alike l l.
Proof. induction l; constructor; auto. split; reflexivity. Qed.
Definition just (f : list Token) (a b : list Token) : Prop := a = f /\ b = f.
Lemma just_alike f a b : just f a b -> Forall2 alike a b.
Proof. intros [-> ->]. apply alike_refl. Qed.
Lemma run_frags n p s m t s' : run grammar none n p s = Done (m, t, s') -> frags s' = frags s.
Proof.
  intro H. assert (S0 : sim (just (frags s)) s s) by (unfold sim, just; auto).
  pose proof (run_sim (just (frags s)) (just_alike (frags s)) grammar none (fun _ => Forall_nil _) n p s s S0) as K.
  rewrite H in K. cbn in K. apply K.
Qed.

(** ** extensions that add nothing *)
Lemma obind_ext2 A B (x : out A) (f g : A -> out B) : (forall a, x = Done a -> f a = g a) -> obind x f = obind x g.
Proof. intros H. destruct x; cbn; auto. Qed.
Lemma rewind_same s s1 : same s s1 -> rewind s1 (mark s) = s.
Proof. destruct s, s1. unfold same, rewind, mark, set_pos. cbn. now intros (-> & -> & ->). Qed.
Lemma ext_none tag es s : Forall ext_same es -> Forall (declines s) es -> ext_loop tag (mark s) es s = Done (false, None, s).
Proof.
  induction 1 as [|e es E F IH]; intros D; [reflexivity|]. apply Forall_cons_iff in D as [(s1 & D) D2]. cbn [ext_loop]. rewrite D. cbn [obind].
  apply E in D. rewrite (rewind_same _ _ D). auto.
Qed.

Section Inert.
Variable exts : bool -> list ext.
Variable K : nat.
Variable f : list Token.
Hypothesis Hsame : exts_same exts.
Hypothesis Hnone : adds_nothing exts K f.

Section Loops.
Variables R R' : pexp -> stream -> out presult.
Hypothesis HR : forall p s, frags s = f -> R p s = R' p s.
Hypothesis HF : forall p s m t s', R' p s = Done (m, t, s') -> frags s' = frags s.
Lemma seq_inert ps : forall kids s, frags s = f -> seq_loop R ps kids s = seq_loop R' ps kids s.
Proof using HR HF.
  induction ps as [|p ps IH]; intros kids s Hs; cbn [seq_loop]; [reflexivity|]. rewrite HR by exact Hs. apply obind_ext2. intros [[m t] s1] E.
  apply HF in E. destruct m; [apply IH; congruence|reflexivity].
Qed.
Lemma alts_inert ps : forall s, frags s = f -> alts_loop R ps s = alts_loop R' ps s.
Proof using HR HF.
  induction ps as [|p ps IH]; intros s Hs; cbn [alts_loop]; [reflexivity|]. rewrite HR by exact Hs. apply obind_ext2. intros [[m t] s1] E.
  apply HF in E. destruct m; [reflexivity|apply IH; congruence].
Qed.
Lemma star_inert k p : forall kids s, frags s = f -> star_loop R k p kids s = star_loop R' k p kids s.
Proof using HR HF.
  induction k as [|k IH]; intros kids s Hs; cbn [star_loop]; [reflexivity|]. rewrite HR by exact Hs. apply obind_ext2. intros [[m t] s1] E.
  apply HF in E. destruct m; [apply IH; congruence|reflexivity].
Qed.
Lemma designator_inert p s : frags s = f -> designator R p s = designator R' p s.
Proof using HR HF.
  intros Hs. unfold designator. apply obind_ext2. intros [s1 ok] E. apply obind_ext2. intros s2 E2.
  assert (F2 : frags s2 = f).
  { assert (F1 : frags s1 = f).
    { apply lift_done in E. clear -E Hs. apply (f_equal (fun x => match x with Ok (s, _) => Some (frags s) | _ => None end)) in E.
      assert (S0 : sim (just f) (consume_until_eol s) (consume_until_eol s)) by (unfold sim, just, consume_until_eol, set_pos; cbn; auto).
      pose proof (open_sim (just f) (just_alike f) _ _ S0) as X. destruct (move_to_open_paren (consume_until_eol s)) as [[a b]| |]; try discriminate. cbn in X. injection E as E. rewrite <- E. apply X. }
    destruct ok; [|now injection E2 as <-]. apply lift_done in E2. unfold put_back in E2. destruct (negb _); [|now injection E2 as <-].
    apply bind_Ok in E2 as (q & _ & E2). now injection E2 as <-. }
  destruct (pos s2 <? pos s); [reflexivity|]. rewrite HR by exact F2. reflexivity.
Qed.
Lemma break_inert lit lit' k : (forall s, frags s = f -> lit s = lit' s) -> (forall s o s', lit' s = Done (o, s') -> frags s' = frags s) ->
  forall kids d s, frags s = f -> break_loop lit k kids d s = break_loop lit' k kids d s.
Proof using.
  intros HL HG. induction k as [|k IH]; intros kids d s Hs; cbn [break_loop]; [reflexivity|]. destruct (d <=? 0)%Z; [reflexivity|].
  apply obind_ext2. intros t _. destruct (decide d t); try reflexivity. destruct (t =? SG_SIGNIFICAND)%Z.
  - rewrite HL by exact Hs. apply obind_ext2. intros [o s1] E. apply HG in E. destruct o; [apply IH; congruence|reflexivity].
  - apply obind_ext2. intros [x s1] E. apply IH. unfold leaf, digest in E. destruct (next_n s (pos s) 1); try discriminate. cbn in E. injection E as _ <-. exact Hs.
Qed.
Lemma call_inert k r s : frags s = f ->
  (forall a g p t s1, grammar r = RExt a g p -> R' p s = Done (false, t, s1) -> Forall (declines s1) (exts a)) ->
  call_rule grammar exts R k r s = call_rule grammar none R' k r s.
Proof using HR HF Hsame.
  intros Hs HD. unfold call_rule. destruct (grammar r) as [p|action tag p|tag no| | |p].
  - now rewrite HR.
  - rewrite HR by exact Hs. apply obind_ext2. intros [[m t] s1] E. destruct m; [reflexivity|]. rewrite ext_none; [|apply Hsame|eapply HD; eauto].
    reflexivity.
  - apply obind_ext2. intros t _. destruct (existsb _ _); [reflexivity|]. unfold until_break.
    rewrite (break_inert (fun s0 => ' (_, t0, s') <~ R (PRule r_real_literal_constant) s0;; Done (t0, s'))
                         (fun s0 => ' (_, t0, s') <~ R' (PRule r_real_literal_constant) s0;; Done (t0, s'))); auto.
    + intros s0 H0. now rewrite HR.
    + intros s0 o s' E. destruct (R' _ s0) as [[[m t0] s1]| |] eqn:E1; try discriminate. cbn in E. injection E as <- <-. eapply HF; eauto.
  - reflexivity.
  - reflexivity.
  - now apply designator_inert.
Qed.
End Loops.
Lemma run_inert n : n <= K -> forall p s, frags s = f -> run grammar exts n p s = run grammar none n p s.
Proof using Hsame Hnone.
  induction n as [|n IH]; intros L p s Hs; [reflexivity|]. specialize (IH ltac:(lia)).
  assert (HF : forall p s m t s', run grammar none n p s = Done (m, t, s') -> frags s' = frags s) by (intros; eapply run_frags; eauto).
  cbn [run]. destruct p as [tag ps| |txt| |q|q|x|r|tag ps|q|tag q|x]; try reflexivity.
  - now rewrite (alts_inert _ _ IH HF).
  - now rewrite IH.
  - now rewrite IH.
  - rewrite (call_inert _ _ IH HF); auto. intros a g p t s1 G E. apply (Hnone n r a g p s t s1); auto; lia.
  - now rewrite (seq_inert _ _ IH HF).
  - now rewrite (star_inert _ _ IH HF).
  - now rewrite IH.
Qed.
Lemma rule_inert n r s : n <= K -> frags s = f -> parse_rule grammar exts n r s = parse_rule grammar none n r s.
Proof using Hsame Hnone.
  intros L Hs. unfold parse_rule. apply call_inert; auto.
  - intros p s0 H0. now apply run_inert.
  - intros. eapply run_frags; eauto.
  - intros a g p t s1 G E. eapply Hnone; eauto.
Qed.
End Inert.

Lemma prgm_inert exts m l n r : exts_same exts -> Forall (fun q => adds_nothing exts m (ss_frags q)) l ->
  parse_prgm (of_source exts m l) n r = parse_prgm (of_source none m l) n r.
Proof.
  intros HS HA. unfold parse_prgm. rewrite (grun_ext prgm_grammar (of_source exts m l) (of_source none m l)); try reflexivity.
  intros i q. unfold of_source. cbn [x_parse]. destruct (nth_error l i) as [x|] eqn:E; [|reflexivity]. apply nth_error_In in E. rewrite Forall_forall in HA. apply HA in E.
  rewrite (rule_inert exts m (ss_frags x)); auto.
Qed.

(** ** the extension of the demo *)
Lemma comma_same tag m : ext_same (comma_ext tag m).
Proof.
  intros s o s' H. unfold comma_ext in H. destruct (run _ _ _ _ s) as [[[b t] s1]| |] eqn:E; try discriminate. cbn in H. injection H as <- <-.
  apply run_restores in E; [apply E|apply g_clean|intros; constructor|reflexivity].
Qed.
Lemma demo_same tag m : exts_same (demo_exts tag m).
Proof. intros []; [constructor; [apply comma_same|]|]; constructor. Qed.


Definition tlevel (t : Z) : Z := (if t =? TK_PARENL then 1 else if t =? TK_PARENR then -1 else 0)%Z.
Lemma plevel_cons a l : plevel (a :: l) = (tlevel (tok a) + plevel l)%Z.
Proof. reflexivity. Qed.
Lemma peek_at s x : peek s = Ok x -> x <> BAD -> exists a, nth_error (frags s) (pos s) = Some a /\ tok a = x /\ skipn (pos s) (frags s) = a :: skipn (S (pos s)) (frags s).
Proof.
  intros H N. unfold peek in H. destruct (pos s =? s_end s); [injection H as <-; contradiction|]. unfold deref in H.
  destruct (nth_error (frags s) (pos s)) as [a|] eqn:E; cbn [bind] in H.
  - injection H as <-. exists a. conjs; auto. now apply skipn_cons_nth.
  - destruct (pos s =? length (frags s)); [injection H as <-; contradiction|discriminate].
Qed.
Lemma parens_group k : forall kids d s kids' s', (0 <= d)%Z -> parens_loop k kids d s = Done (kids', s') ->
  exists y, skipn (pos s) (frags s) = y ++ skipn (pos s') (frags s) /\ pos s' = pos s + length y /\ plevel y = (- d)%Z /\ forall u v, y = u ++ v -> v <> [] -> (0 < d + plevel u)%Z.
Proof.
  induction k as [|k IH]; intros kids d s kids' s' D H; cbn [parens_loop] in H; [discriminate|].
  destruct (d <=? 0)%Z eqn:DZ.
  - apply Z.leb_le in DZ. injection H as <- <-. exists []. conjs; [reflexivity|cbn; lia|cbn; lia|]. intros u v E N. symmetry in E. apply app_eq_nil in E as [-> ->]. contradiction.
  - apply Z.leb_gt in DZ. step H. step H. rename a into t, a0 into d'.
    assert (t <> BAD /\ d' = d + tlevel t)%Z as (NB & DE).
    { unfold tlevel. destruct (Z.eqb_spec t TK_PARENL) as [->|]; [injection E0 as <-; split; [discriminate|reflexivity]|].
      destruct (Z.eqb_spec t TK_PARENR) as [->|]; [injection E0 as <-; split; [discriminate|lia]|].
      destruct (Z.eqb_spec t BAD); [discriminate|]. injection E0 as <-. split; [assumption|lia]. }
    step2 H x s1. apply leaf_inv in E1 as (_ & -> & _). apply peek_at in E as (a & _ & TA & SK); [|exact NB].
    apply IH in H as (y & Y1 & Y0 & Y2 & Y3).
    + cbn [pos frags set_pos] in Y1. exists (a :: y). rewrite SK, Y1. conjs; [reflexivity|cbn [length pos set_pos] in *; lia|rewrite plevel_cons, TA; lia|].
      intros [|b u] v EQ N; [cbn; lia|]. injection EQ as <- EQ. rewrite plevel_cons, TA. specialize (Y3 _ _ EQ N). lia.
    + unfold tlevel in DE. destruct (_ =? _)%Z; [lia|]. destruct (_ =? _)%Z; lia.
Qed.
Lemma group_parens k s x s' : consume_parens k s = Done (Some x, s') ->
  exists g, skipn (pos s) (frags s) = g ++ skipn (pos s') (frags s) /\ pos s' = pos s + length g /\ paren_group g.
Proof.
  intro H. unfold consume_parens in H. step H. destruct (Z.eqb_spec a TK_PARENL) as [->|]; cbn [negb] in H; [|discriminate].
  step2 H y s1. step2 H kids s2. step H. injection H as <- <-. apply leaf_inv in E0 as (_ & -> & _). apply peek_at in E as (a1 & _ & TA & SK); [|discriminate].
  apply parens_group in E1 as (g & G1 & G0 & G2 & G3); [|lia]. cbn [pos frags set_pos] in G1, G0. exists (a1 :: g). rewrite SK, G1. split; [reflexivity|]. split; [cbn [length]; lia|]. split; [eauto|].
  rewrite plevel_cons, TA, G2. split; [reflexivity|]. intros [|b u] v EQ NU NV; [contradiction|]. injection EQ as <- EQ. rewrite plevel_cons, TA.
  specialize (G3 _ _ EQ NV). unfold tlevel. rewrite Z.eqb_refl. lia.
Qed.

Lemma alts_all R ps : (forall p s m t s', In p ps -> R p s = Done (m, t, s') -> restores s (m, t, s')) -> forall s t s', alts_loop R ps s = Done (false, t, s') ->
  s' = s /\ forall p, In p ps -> R p s = Done (false, None, s).
Proof.
  induction ps as [|p ps IH]; intros HR s t s' H; cbn [alts_loop] in H; [injection H as _ <-; split; [reflexivity|]; intros ? []|].
  step3 H m t1 s1. destruct m; [discriminate|]. pose proof (HR _ _ _ _ _ (or_introl eq_refl) E) as (_ & X). destruct (X eq_refl) as (-> & ->).
  apply IH in H as (-> & H); [|intros; eapply HR; eauto; now right]. split; [reflexivity|]. intros q [<-|I]; auto.
Qed.

(** the parts of the built-in WRITE statement *)
Definition p_write : pexp := PSeq SG_WRITE_STMT [PTok KW_WRITE; PTag SG_IO_CONTROL_SPEC_LIST (PRule r_consume_parens);
  POpt (p_list SG_OUTPUT_ITEM_LIST (PRule r_output_item)); p_eol].
Lemma items_peek n s x : run grammar none n (POpt (p_list SG_OUTPUT_ITEM_LIST (PRule r_output_item))) s = Done x -> exists t, peek s = Ok t.
Proof.
  intro H. destruct n as [|n]; [discriminate|]. cbn [run] in H. step3 H m t s1. clear H.
  destruct n as [|n]; [discriminate|]. unfold p_list in E. cbn [run] in E. step3 E m1 kids s2. clear E. cbn [seq_loop] in E0. step3 E0 m2 t2 s3. clear E0.
  destruct n as [|n]; [discriminate|]. cbn [run] in E. step2 E o s4. clear E. unfold call_rule in E0. change (grammar r_output_item) with b_output_item in E0. unfold b_output_item in E0. step3 E0 m5 t5 s5. clear E0.
  destruct n as [|n]; [discriminate|]. cbn [run] in E. step3 E m6 t6 s6. clear E. cbn [alts_loop] in E0. step3 E0 m7 t7 s7. clear E0.
  destruct n as [|n]; [discriminate|]. cbn [run] in E. step2 E o8 s8. clear E. unfold call_rule in E0. change (grammar r_io_implied_do) with b_io_implied_do in E0. unfold b_io_implied_do, p_parens in E0. step3 E0 m9 t9 s9. clear E0.
  destruct n as [|n]; [discriminate|]. cbn [run] in E. step3 E m10 t10 s10. clear E. cbn [app seq_loop] in E0. step3 E0 m11 t11 s11. clear E0.
  destruct n as [|n]; [discriminate|]. cbn [run] in E. step E. eauto.
Qed.
Lemma parens_run n s t s' : run grammar none n (PTag SG_IO_CONTROL_SPEC_LIST (PRule r_consume_parens)) s = Done (true, t, s') ->
  exists g, skipn (pos s) (frags s) = g ++ skipn (pos s') (frags s) /\ pos s' = pos s + length g /\ paren_group g.
Proof.
  intro H. destruct n as [|n]; [discriminate|]. cbn [run] in H. step3 H m1 t1 s1.
  assert (m1 = true /\ s1 = s') as (-> & ->) by (destruct t1; [step H|]; injection H as <- _ <-; auto). clear H.
  destruct n as [|n]; [discriminate|]. cbn [run] in E. step2 E o s2. destruct o as [x|]; [|discriminate]. injection E as _ <-. unfold call_rule in E0.
  change (grammar r_consume_parens) with RParens in E0. cbn iota in E0. now apply group_parens in E0.
Qed.
Lemma tok_run n x s m t s' : x <> BAD -> run grammar none n (PTok x) s = Done (m, t, s') ->
  if m then exists a, skipn (pos s) (frags s) = a :: skipn (pos s') (frags s) /\ tok a = x /\ s' = set_pos s (S (pos s)) else exists y, peek s = Ok y /\ y <> x.
Proof.
  intros NB H. destruct n as [|n]; [discriminate|]. cbn [run] in H. step H. destruct (Z.eqb_spec x a) as [->|N]; cbn [negb] in H.
  - step2 H y s1. injection H as <- <- <-. apply leaf_inv in E0 as (_ & -> & _). apply peek_at in E as (b & _ & TB & SK); [|exact NB]. exists b. auto.
  - injection H as <- <- <-. exists a. auto.
Qed.

Lemma write_declines tag n m s : n <= m -> run grammar none n (PRule r_write_stmt) s = Done (false, None, s) -> ~ comma_write (skipn (pos s) (frags s)) ->
  exists s1, comma_ext tag m s = Done (None, s1).
Proof.
  intros L H NC. destruct n as [|n]; [discriminate|]. cbn [run] in H. step2 H o s1. destruct o; [discriminate|]. clear H.
  unfold call_rule in E. change (grammar r_write_stmt) with (RExp p_write) in E. cbn iota in E. step3 E b t s2. injection E as -> ->.
  destruct n as [|n]; [discriminate|]. unfold p_write in E0. cbn [run] in E0. step3 E0 b1 kids s3. destruct b1; [step E0; discriminate|]. clear E0.
  destruct m as [|m]; [lia|]. assert (LM : n <= m) by lia.
  assert (MO : forall p s x, run grammar none n p s = Done x -> run grammar none m p s = Done x).
  { intros p s4 x X. rewrite (run_mono grammar none n m p s4 LM); [exact X|rewrite X; discriminate]. }
  unfold comma_ext, p_comma. cbn [run].
  cbn [seq_loop] in *. step3 E b4 t4 s4. assert (NZ : n <> 0) by (intros ->; discriminate E0). rewrite (MO _ _ _ E0). cbn [obind]. destruct b4; [|cbn; eauto].
  step3 E b5 t5 s5. rewrite (MO _ _ _ E1). cbn [obind]. destruct b5; [|cbn; eauto].
  step3 E b6 t6 s6. clear E. apply items_peek in E2 as (y & PY).
  apply tok_run in E0 as (a & A1 & A2 & ->); [|discriminate]. pose proof E1 as PR. apply parens_run in E1 as (g & G1 & _ & G2). cbn [pos frags set_pos] in *.
  apply run_frags in PR. cbn [frags set_pos] in PR.
  destruct (Z.eqb_spec y TK_COMMA) as [->|N].
  - exfalso. apply NC. apply peek_at in PY as (c & _ & TC & SK); [|discriminate]. rewrite PR in SK. exists a, g, c, (skipn (S (pos s5)) (frags s)). conjs; auto. now rewrite A1, G1, SK.
  - assert (N1 : (TK_COMMA =? y)%Z = false) by (apply Z.eqb_neq; auto). destruct m as [|m]; [lia|].
    cbn [run]. unfold peek_o. rewrite PY. cbn [lift obind]. rewrite N1. cbn. eauto.
Qed.

(** A statement without such a WRITE. *)
Lemma demo_adds_nothing tag m f : no_comma_write f -> adds_nothing (demo_exts tag m) m f.
Proof.
  intros NC n r a g p s t s1 L Hs G H. destruct a; [|constructor]. constructor; [|constructor].
  assert (exists ps, p = PAlts SG_ACTION_STMT ps /\ In (PRule r_write_stmt) ps /\ forallb clean ps = true) as (ps & -> & I & C).
  { assert (r = r_action_stmt) as -> by (clear - G; destruct r; try discriminate G; reflexivity).
    unfold grammar, b_action_stmt in G. injection G as <- <-. eexists. split; [reflexivity|]. split; [cbn; tauto|reflexivity]. }
  destruct n as [|n]; [discriminate|]. cbn [run] in H. step3 H b t1 s2. destruct b; [step H; discriminate|]. injection H as <- <-.
  apply alts_all in E as (-> & E).
  - eapply write_declines; [|apply E; exact I|]; [lia|]. apply (NC (firstn (pos s) (frags s))). rewrite <- Hs. symmetry. apply firstn_skipn.
  - intros q s3 b t2 s4 IQ X. assert (CQ : clean q = true) by (rewrite forallb_forall in C; auto). eapply run_restores in X; eauto using g_clean; intros; constructor.
Qed.

(** ** what the extension accepts *)
Lemma cover_tag t t' : cover t = Ok t' -> t_tag t' = t_tag t.
Proof. destruct t as [g r kids]. unfold cover. destruct (first_nonempty kids); intro H; [now injection H as <-|]. apply bind_Ok in H as (q & _ & H). now injection H as <-. Qed.
Lemma comma_accepts tag m s t s' : comma_ext tag m s = Done (Some t, s') ->
  comma_write (skipn (pos s) (frags s)) /\ t_tag t = tag /\ peek s' = Ok BAD.
Proof.
  unfold comma_ext. intro H. step3 H b t0 s1. injection H as -> <-. destruct m as [|m]; [discriminate|]. unfold p_comma in E. cbn [run] in E.
  step3 E b1 kids s2. destruct b1; [|discriminate]. step E. injection E as _ <- <-. cbn [seq_loop] in E0.
  step3 E0 b4 t4 s4. destruct b4; [|discriminate]. step3 E0 b5 t5 s5. destruct b5; [|discriminate]. step3 E0 b6 t6 s6. destruct b6; [|discriminate].
  step3 E0 b7 t7 s7. destruct b7; [|discriminate]. step3 E0 b8 t8 s8. destruct b8; [|discriminate]. injection E0 as _ <-.
  apply tok_run in E as (w & W1 & W2 & ->); [|discriminate]. pose proof E2 as PR. apply parens_run in E2 as (g & G1 & _ & G2). cbn [pos frags set_pos] in *.
  apply run_frags in PR. cbn [frags set_pos] in PR. apply tok_run in E3 as (c & C1 & C2 & _); [|discriminate]. rewrite PR in C1. split; [|split].
  - exists w, g, c, (skipn (pos s6) (frags s)). conjs; auto. now rewrite W1, G1, C1.
  - unfold covered in E1. apply cover_tag in E1. exact E1.
  - destruct m as [|m]; [discriminate|]. unfold p_eol in E5. cbn [run] in E5. step E5. destruct (Z.eqb_spec BAD a0) as [<-|]; [|discriminate]. injection E5 as _ <-. exact E.
Qed.

Lemma group_unique g g' u v : paren_group g -> paren_group g' -> g ++ u = g' ++ v -> g = g'.
Proof.
  assert (X : forall g g' z, paren_group g -> paren_group g' -> g' = g ++ z -> z = []).
  { intros a b z ((x & y & -> & _) & A & _) (_ & _ & B) E. destruct z as [|q z]; [reflexivity|]. assert (0 < plevel (x :: y))%Z by (eapply B; [exact E| |]; discriminate). lia. }
  intros G G' E. destruct (Nat.le_ge_cases (length g) (length g')) as [L|L].
  - pose proof (f_equal (firstn (length g')) E) as F. rewrite (firstn_app (length g') g' v), Nat.sub_diag, firstn_all, app_nil_r, firstn_app, firstn_all2 in F by lia.
    symmetry in F. rewrite (X _ _ _ G G' F), app_nil_r in F. auto.
  - pose proof (f_equal (firstn (length g)) E) as F. rewrite (firstn_app (length g) g u), Nat.sub_diag, firstn_all, app_nil_r, firstn_app, firstn_all2 in F by lia.
    rewrite (X _ _ _ G' G F), app_nil_r in F. auto.
Qed.
Lemma rest_peek s t l : rest s = t :: l -> peek s = Ok (tok t) /\ rest (set_pos s (S (pos s))) = l.
Proof.
  intro H. unfold rest in H. assert (P : pos s < s_end s) by (destruct (s_end s - pos s) eqn:E; [discriminate|lia]).
  destruct (nth_error (frags s) (pos s)) as [a|] eqn:E.
  - assert (H1 : rest s = t :: l) by exact H. rewrite (rest_cons s a E P) in H1. injection H1 as <- H1. split; [|exact H1]. unfold peek. replace (pos s =? s_end s) with false by (symmetry; apply Nat.eqb_neq; lia).
    unfold deref. rewrite E. reflexivity.
  - apply nth_error_None in E. rewrite skipn_all2, firstn_nil in H by exact E. discriminate.
Qed.
Lemma rest_ahead s : exists z, skipn (pos s) (frags s) = rest s ++ z.
Proof. exists (skipn (s_end s - pos s) (skipn (pos s) (frags s))). unfold rest. now rewrite firstn_skipn. Qed.
Lemma run_det n n' p s x y : run grammar none n p s = Done x -> run grammar none n' p s = Done y -> x = y.
Proof.
  intros A B. destruct (Nat.le_ge_cases n n') as [L|L].
  - rewrite (run_mono grammar none n n' p s L) in B by (rewrite A; discriminate). congruence.
  - rewrite (run_mono grammar none n' n p s L) in A by (rewrite B; discriminate). congruence.
Qed.
(** the beginning of both: WRITE and the control list *)
Lemma head_runs n s w g r m1 t1 s1 : rest s = w :: g ++ r -> tok w = KW_WRITE -> run grammar none n (PTok KW_WRITE) s = Done (m1, t1, s1) -> m1 = true /\ s1 = set_pos s (S (pos s)).
Proof.
  intros RS TW H. apply rest_peek in RS as (P & _). apply tok_run in H; [|discriminate]. destruct m1; [destruct H as (a & _ & _ & ->); auto|].
  destruct H as (y & PY & N). congruence.
Qed.
Lemma spec_runs n s g r m1 t1 s1 : rest s = g ++ r -> paren_group g -> run grammar none n (PTag SG_IO_CONTROL_SPEC_LIST (PRule r_consume_parens)) s = Done (m1, t1, s1) ->
  m1 = true /\ s1 = set_pos s (pos s + length g).
Proof.
  intros RS G H. pose proof H as H0. destruct G as ((a & y & -> & TA) & G). pose proof RS as RS1. cbn [app] in RS1. apply rest_peek in RS1 as (P & _).
  assert (G1 : paren_group (a :: y)) by (split; eauto).
  assert (m1 = true) as ->.
  { destruct n as [|n]; [discriminate|]. cbn [run] in H. step3 H m t s2. assert (m = m1) as <- by (destruct t; [step H|]; injection H as -> _ _; reflexivity).
    destruct n as [|n]; [discriminate|]. cbn [run] in E. step2 E o s3. destruct o; [injection E as <- _ _; reflexivity|]. exfalso. clear E H. unfold call_rule in E0.
    change (grammar r_consume_parens) with RParens in E0. cbn iota in E0. unfold consume_parens, peek_o in E0. rewrite P, TA in E0. cbn [lift obind] in E0. rewrite Z.eqb_refl in E0. cbn [negb] in E0.
    step2 E0 x1 s4. step2 E0 kids s5. step E0. discriminate. }
  split; [reflexivity|]. apply parens_run in H as (g' & E1 & E2 & G2). destruct (rest_ahead s) as (z & Z1). rewrite Z1, RS, <- app_assoc in E1.
  apply group_unique in E1; auto. subst g'. apply run_restores in H0; [|apply g_clean|intros; constructor|reflexivity]. destruct H0 as ((A & B & C) & _).
  clear - A B C E2. destruct s1 as [f1 b1 e1 p1], s as [f2 b2 e2 p2]. cbn [frags s_beg s_end pos set_pos] in *. subst. reflexivity.
Qed.
Lemma items_done n q kids b kids' s' : seq_loop (run grammar none n) [POpt (p_list SG_OUTPUT_ITEM_LIST (PRule r_output_item)); p_eol] kids q = Done (b, kids', s') ->
  b = true <-> items_to_end q.
Proof.
  intro H. cbn [seq_loop] in H. step3 H b1 t1 s1. assert (b1 = true) as -> by (destruct n as [|n]; [discriminate|]; cbn [run] in E; step3 E b2 t2 s2; injection E as <- _ _; reflexivity).
  step3 H b2 t2 s2. assert (K : b = b2 /\ (b2 = true <-> peek s1 = Ok BAD)).
  { split; [destruct b2; now injection H|]. destruct n as [|n]; [discriminate|]. unfold p_eol in E0. cbn [run] in E0. step E0. assert (X : b2 = (BAD =? a)%Z) by (inversion E0; reflexivity). rewrite X, E1.
    destruct (Z.eqb_spec BAD a); split; intro; congruence. }
  destruct K as (-> & K). rewrite K. split.
  - intro P. exists n, (true, t1), s1. auto.
  - intros (n' & x & s3 & R & P). pose proof (run_det _ _ _ _ _ _ E R) as D. injection D as <- <-. exact P.
Qed.
Lemma comma_items tag m s w g c r o s' : rest s = w :: g ++ c :: r -> tok w = KW_WRITE -> paren_group g -> tok c = TK_COMMA ->
  comma_ext tag m s = Done (o, s') -> o <> None <-> items_to_end (set_pos s (pos s + length g + 2)).
Proof.
  intros RS TW G TC H. unfold comma_ext in H. step3 H b t0 s1. injection H as -> <-. destruct m as [|m]; [discriminate|]. unfold p_comma in E. cbn [run] in E.
  step3 E b1 kids s2. assert (K : o <> None <-> b1 = true) by (destruct b1; [step E; injection E as <- <- <-; split; congruence|injection E as <- <- <-; split; congruence]). rewrite K. clear E K.
  cbn [seq_loop] in E0. step3 E0 b3 t3 s3. eapply head_runs in E as (-> & ->); eauto. apply rest_peek in RS as (_ & RS).
  step3 E0 b4 t4 s4. destruct (spec_runs _ _ _ _ _ _ _ RS G E) as (X1 & X2). subst b4 s4. cbn [set_pos pos] in *.
  step3 E0 b5 t5 s5. assert (b5 = true /\ s5 = set_pos s (pos s + length g + 2)) as (-> & ->).
  { assert (RC : rest (set_pos s (S (pos s) + length g)) = c :: r).
    { assert (LG : length g <= s_end s - S (pos s)). { apply (f_equal (@length Token)) in RS. rewrite app_length in RS. unfold rest in RS. rewrite firstn_length in RS. cbn [set_pos pos s_end] in RS. lia. }
      pose proof (rest_skip (set_pos s (S (pos s))) (length g) LG) as X. rewrite RS, skipn_app, skipn_all, Nat.sub_diag in X. cbn in X. rewrite X. reflexivity. }
    apply rest_peek in RC as (P & _). apply tok_run in E1; [|discriminate]. destruct b5; [|destruct E1 as (y & PY & N); change (peek (set_pos s (S (pos s) + length g)) = Ok y) in PY; rewrite PY in P; congruence].
    destruct E1 as (a & _ & _ & ->). split; [reflexivity|]. unfold set_pos. cbn. f_equal. lia. }
  now apply items_done in E0.
Qed.
Lemma write_items m s w g r o s' : rest s = w :: g ++ r -> tok w = KW_WRITE -> paren_group g ->
  parse_rule grammar none m r_write_stmt s = Done (o, s') -> o <> None <-> items_to_end (set_pos s (pos s + length g + 1)).
Proof.
  intros RS TW G H. unfold parse_rule, call_rule in H. change (grammar r_write_stmt) with (RExp p_write) in H. cbn iota in H.
  step3 H b t0 s1. injection H as -> <-. destruct m as [|m]; [discriminate|]. unfold p_write in E. cbn [run] in E.
  step3 E b1 kids s2. assert (K : o <> None <-> b1 = true) by (destruct b1; [step E; injection E as <- <- <-; split; congruence|injection E as <- <- <-; split; congruence]). rewrite K. clear E K.
  cbn [seq_loop] in E0. step3 E0 b3 t3 s3. eapply head_runs in E as (-> & ->); eauto. apply rest_peek in RS as (_ & RS).
  step3 E0 b4 t4 s4. destruct (spec_runs _ _ _ _ _ _ _ RS G E) as (X1 & X2). subst b4 s4. cbn [set_pos pos] in *.
  apply items_done in E0. replace (pos s + length g + 1) with (S (pos s) + length g) by lia. exact E0.
Qed.
