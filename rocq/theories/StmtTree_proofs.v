(** The parsers return derivation trees. *)
From Coq Require Import Lia.
From Verif Require Import Base Base_lemmas Tags SyntaxTags Token TTStream StmtRules Peg Peg_spec Peg_proofs StmtGrammar StmtTables_proofs
  StmtApart_spec StmtApart_proofs StmtRoots_proofs StmtTree_spec.
Local Open Scope nat_scope.

Lemma hoist_app kids t : hoist kids t = kids ++ hoist [] t.
Proof. destruct t as [[g r k]|]; cbn [hoist app]; [destruct (_ =? _)%Z; reflexivity|symmetry; apply app_nil_r]. Qed.
Lemma cover_shape t t' : covered t = Done t' -> t_tag t' = t_tag t /\ t_kids t' = t_kids t.
Proof.
  unfold covered. intros H. apply lift_done in H. destruct t as [g r k]. cbn [cover] in H. destruct (first_nonempty k); [injection H as <-; auto|].
  destruct (rng_push_all _ _); cbn [bind] in H; try discriminate. injection H as <-. auto.
Qed.
Lemma node_hoist g r k t : covered (ST g r k) = Done t -> is_node g k (hoist [] (Some t)).
Proof.
  intros H. apply cover_shape in H. destruct t as [g' r' k']. cbn [t_tag t_kids] in H. destruct H as (-> & ->). unfold is_node. cbn [hoist app].
  destruct (_ =? _)%Z; [reflexivity|]. eauto.
Qed.

Section Main.
Variable body : rule -> rbody.
Variable exts : bool -> list ext.
Hypothesis Hbody : forall r, clean_body (body r) = true.
Hypothesis Hexts : forall a, Forall ext_same (exts a).
(** no tok(BAD) or tok(HOIST), no tag over something without a tree *)
Fixpoint tidy (p : pexp) : bool :=
  match p with
  | PAlts _ ps | PSeq _ ps => forallb tidy ps
  | PNeg q | POpt q | PStar q => tidy q
  | PTag _ q => solid q && tidy q
  | PTok t => negb (t =? BAD)%Z && negb (t =? HOIST)%Z
  | PLetter | PLiteral _ | PName | PPeek _ | PRule _ => true
  end.
Hypothesis Htidy : forall r p, body_exp (body r) = Some p -> tidy p = true.
Hypothesis Hreal : exists g, g <> HOIST /\ any_root (body r_real_literal_constant) = Some g.
Notation G := (fun fr p l => gives body fr (made exts) p l).

Definition ok (s : stream) (p : pexp) (t : option stree) : Prop := G (frags s) p (hoist [] t).

Lemma peek_at s x : peek s = Ok x -> x <> BAD -> tok_at (frags s) (pos s) (fun k => tok k = x).
Proof using.
  clear. unfold peek. intros H N. destruct (_ =? _); [congruence|]. unfold deref in H. destruct (nth_error _ _) eqn:E.
  - cbn [bind] in H. injection H as <-. eexists. eauto.
  - destruct (_ =? _); cbn [bind] in H; [|discriminate]. injection H as <-. exfalso. apply N. reflexivity.
Qed.
Lemma name_not_bad x : is_name_tag x = Ok true -> x <> BAD.
Proof using. clear. intros H ->. vm_compute in H. discriminate. Qed.
Lemma peek_name s x : peek s = Ok x -> is_name_tag x = Ok true -> name_at (frags s) (pos s) (fun _ => True).
Proof using. clear. intros H N. destruct (peek_at _ _ H (name_not_bad _ N)) as (k & K1 & K2). exists k. subst. auto. Qed.
Lemma peek_tt_name s x k : peek s = Ok x -> is_name_tag x = Ok true -> peek_tt s 1 = Ok k -> forall P : str -> Prop, P (tk_text k) -> name_at (frags s) (pos s) P.
Proof using.
  clear. intros H N K P HP. destruct (peek_at _ _ H (name_not_bad _ N)) as (k' & K1 & K2). exists k'. split; [exact K1|]. subst x. split; [exact N|].
  unfold peek_tt, next_n in K. replace (1 - 1)%Z with 0%Z in K by lia. destruct (_ && _); cbn [bind] in K; [|discriminate].
  replace (Z.to_nat (Z.of_nat (pos s) + 0)) with (pos s) in K by lia. unfold peek in H. destruct (_ =? _) eqn:EQ; cbn [negb] in K.
  - exfalso. injection H as H. rewrite <- H in N. vm_compute in N. discriminate.
  - unfold deref in K. rewrite K1 in K. injection K as <-. exact HP.
Qed.

Lemma G_seq fr ps1 l1 : gives_seq body fr (made exts) ps1 l1 -> forall p l, G fr p l -> gives_seq body fr (made exts) (ps1 ++ [p]) (l1 ++ l).
Proof using.
  clear. induction 1 as [|q ps m m' Hq Hs IH]; intros p l H; cbn [app].
  - rewrite <- (app_nil_r l). repeat constructor; exact H.
  - rewrite <- app_assoc. constructor; auto.
Qed.
Lemma G_star fr p l1 : gives_star body fr (made exts) p l1 -> forall l, G fr p l -> gives_star body fr (made exts) p (l1 ++ l).
Proof using.
  clear. induction 1 as [q|q m m' Hq Hs IH]; intros l H.
  - cbn [app]. rewrite <- (app_nil_r l). repeat constructor; exact H.
  - rewrite <- app_assoc. constructor; auto.
Qed.
Lemma items_app fr l1 : gives_items body fr (made exts) l1 -> forall l2, gives_items body fr (made exts) l2 -> gives_items body fr (made exts) (l1 ++ l2).
Proof using. clear. induction 1; intros; cbn [app]; [assumption|constructor 2; auto|constructor 3; auto]. Qed.

Lemma ok_same s s' p t : same s s' -> ok s' p t -> ok s p t.
Proof using. clear. intros (H & _). unfold ok. rewrite H. auto. Qed.

Section Step.
Variable R : pexp -> stream -> out presult.
Hypothesis HR : forall p s t s', sclean p = true -> tidy p = true -> R p s = Done (true, t, s') -> ok s p t.
Hypothesis HRr : forall p s m t s', clean p = true -> R p s = Done (m, t, s') -> restores s (m, t, s').
Hypothesis HRs : forall p s m t s', sclean p = true -> R p s = Done (m, t, s') -> same s s'.
Hypothesis HRroot : forall s t s', R (PRule r_real_literal_constant) s = Done (true, Some t, s') -> t_tag t <> HOIST.
Hypothesis HRsolid : forall p s t s', solid p = true -> R p s = Done (true, t, s') -> t <> None.

Lemma seq_gives s0 ps : forall ps0 kids s kids' s', forallb sclean ps = true -> forallb tidy ps = true -> same s0 s ->
  gives_seq body (frags s0) (made exts) ps0 kids -> seq_loop R ps kids s = Done (true, kids', s') ->
  gives_seq body (frags s0) (made exts) (ps0 ++ ps) kids'.
Proof using HR HRs.
  induction ps as [|p ps IH]; intros ps0 kids s kids' s' C T S K H; cbn [seq_loop forallb] in *.
  - injection H as <- <-. rewrite app_nil_r. exact K.
  - apply andb_true_iff in C, T. destruct C as (C1 & C2), T as (T1 & T2). step3 H m t s1. destruct m; [|discriminate].
    replace (ps0 ++ p :: ps) with ((ps0 ++ [p]) ++ ps) by (rewrite <- app_assoc; reflexivity).
    eapply IH; [exact C2|exact T2| | |exact H].
    + eapply same_trans; [exact S|]. eapply HRs; eauto.
    + rewrite hoist_app. apply G_seq; [exact K|]. apply (ok_same s0 s); [exact S|]. eapply HR; eauto.
Qed.
Lemma alts_gives ps : forall s t s', forallb clean ps = true -> forallb tidy ps = true -> alts_loop R ps s = Done (true, t, s') ->
  exists p, In p ps /\ ok s p t.
Proof using HR HRr.
  induction ps as [|p ps IH]; intros s t s' C T H; cbn [alts_loop forallb] in *; [discriminate|].
  apply andb_true_iff in C, T. destruct C as (C1 & C2), T as (T1 & T2). step3 H m t1 s1. destruct m.
  - injection H as <- <-. exists p. split; [left; reflexivity|]. eapply HR; eauto. destruct p; auto; discriminate.
  - destruct (HRr _ _ _ _ _ C1 E) as (_ & R2). destruct (R2 eq_refl) as (_ & ->). destruct (IH _ _ _ C2 T2 H) as (q & Q1 & Q2). exists q. split; [right; exact Q1|exact Q2].
Qed.
Lemma star_gives s0 p : clean p = true -> tidy p = true -> forall k kids s kids' s', same s0 s ->
  gives_star body (frags s0) (made exts) p kids -> star_loop R k p kids s = Done (kids', s') -> gives_star body (frags s0) (made exts) p kids'.
Proof using HR HRr.
  intros C T. induction k as [|k IH]; intros kids s kids' s' S K H; cbn [star_loop] in H; [discriminate|]. step3 H m t s1. destruct (HRr _ _ _ _ _ C E) as (S1 & R2).
  destruct m.
  - eapply IH; [| |exact H].
    + eapply same_trans; eauto.
    + rewrite hoist_app. apply G_star; [exact K|]. apply (ok_same s0 s); [exact S|]. eapply HR; eauto. destruct p; auto; discriminate.
  - destruct (R2 eq_refl) as (-> & ->). injection H as <- <-. exact K.
Qed.
Lemma break_gives s0 k : forall kids d s kids' s', same s0 s -> gives_items body (frags s0) (made exts) kids ->
  break_loop (fun s => '(m, t, s') <~ R (PRule r_real_literal_constant) s ;; Done (t, s')) k kids d s = Done (Some kids', s') ->
  gives_items body (frags s0) (made exts) kids'.
Proof using HR HRr HRroot.
  induction k as [|k IH]; intros kids d s kids' s' S K H; cbn [break_loop] in H; [discriminate|].
  destruct (d <=? 0)%Z; [injection H as <- <-; exact K|]. step H. destruct (decide d a); [injection H as <- <-; exact K|discriminate|].
  destruct (_ =? _)%Z.
  - step2 H o s1. step3 E0 m t s2. injection E0 as <- <-. destruct (HRr (PRule r_real_literal_constant) _ _ _ _ eq_refl E1) as (S1 & R2).
    destruct t as [t|]; [|discriminate]. destruct m; [|destruct (R2 eq_refl); discriminate].
    pose proof (HR _ _ _ _ (eq_refl : sclean (PRule r_real_literal_constant) = true) eq_refl E1) as O. apply (ok_same s0 s) in O; [|exact S].
    apply HRroot in E1. unfold ok in O. destruct t as [g r kk]. cbn [t_tag] in E1. cbn [hoist app] in O. apply Z.eqb_neq in E1. rewrite E1 in O. inversion O; subst.
    eapply IH; [| |exact H]; [eapply same_trans; eauto|]. apply items_app; [exact K|]. apply gi_real; [assumption|constructor].
  - step2 H x s1. pose proof (leaf_same _ _ _ _ E0) as S1. apply leaf_inv in E0. destruct E0 as (-> & _).
    eapply IH; [| |exact H]; [eapply same_trans; eauto|]. apply items_app; [exact K|]. apply gi_leaf; [eexists _, _; reflexivity|constructor].
Qed.
Lemma parens_gives k : forall kids d s kids' s' t, parens_loop k (t :: kids) d s = Done (kids', s') -> Forall is_leaf kids ->
  exists l, kids' = t :: l /\ Forall is_leaf l.
Proof using.
  clear. induction k as [|k IH]; intros kids d s kids' s' t H K; cbn [parens_loop] in H; [discriminate|].
  destruct (d <=? 0)%Z; [injection H as <- <-; eauto|]. step H. step H. step2 H x s1. apply leaf_inv in E1. destruct E1 as (-> & _).
  cbn [app] in H. eapply IH; [exact H|]. apply Forall_app. split; [exact K|]. constructor; [eexists _, _; reflexivity|constructor].
Qed.
Lemma ext_gives g es : forall s t s', (forall e, In e es -> exists a, In e (exts a)) -> ext_loop g (pos s) es s = Done (true, t, s') ->
  exists t0 e s1 s2, In e es /\ e s1 = Done (Some t0, s2) /\ is_node g (hoist [] (Some t0)) (hoist [] t).
Proof using.
  clear. intros s. generalize (pos s) as m. revert s. induction es as [|e es IH]; intros s m t s' Hin H; cbn [ext_loop] in H; [discriminate|].
  step2 H o s1. destruct o as [t0|].
  - destruct (covered _) eqn:C in H; cbn [obind] in H; try discriminate. injection H as <- <-. exists t0, e, s, s1. split; [left; reflexivity|]. split; [exact E|]. eapply node_hoist; eauto.
  - destruct (IH (rewind s1 m) m t s') as (x1 & x2 & x3 & x4 & I & X); [intros; apply Hin; right; assumption|exact H|]. exists x1, x2, x3, x4. split; [right; exact I|exact X].
Qed.
Lemma call_gives k r s t s' : call_rule body exts R k r s = Done (Some t, s') -> gives_rule body (frags s) (made exts) r (hoist [] (Some t)).
Proof using HR HRr HRroot Hbody Htidy.
  intros H. unfold call_rule in H. pose proof (Hbody r) as C. pose proof (Htidy r) as T. unfold clean_body, body_exp in *. destruct (body r) eqn:B.
  - step3 H m t1 s1. injection H as -> <-. destruct (HRr _ _ _ _ _ C E) as (_ & R2). destruct m; [|destruct (R2 eq_refl); discriminate].
    eapply gu_exp; [exact B|]. eapply (HR p); [destruct p; auto; discriminate|apply T; reflexivity|exact E].
  - step3 H m t1 s1. destruct (HRr _ _ _ _ _ C E) as (_ & R2). destruct m.
    + injection H as -> <-. eapply gu_own; [exact B|]. eapply (HR p); [destruct p; auto; discriminate|apply T; reflexivity|exact E].
    + destruct (R2 eq_refl) as (-> & ->). step3 H m2 t2 s2. injection H as -> <-.
      destruct m2; [|exfalso; clear -E0; revert E0; generalize (mark s) as m; generalize s at 1; induction (exts action) as [|e es IH]; intros s0 m E0; cbn [ext_loop] in E0; [discriminate|];
        step2 E0 o s1; destruct o; [destruct (covered _); discriminate|eauto]].
      apply ext_gives in E0; [|intros; eauto]. destruct E0 as (t0 & e & s3 & s4 & I & X & N). eapply gu_ext; [exact B|eexists _, _, _; split; [exact I|exact X]|exact N].
  - step H. destruct (existsb _ _); [discriminate|]. unfold until_break in H. step2 H o s1. destruct o as [[|x kids]|]; try discriminate.
    destruct (covered _) eqn:CV in H; cbn [obind] in H; try discriminate. injection H as <- <-.
    eapply gu_break; [exact B| |eapply break_gives; [apply same_refl|constructor|exact E0]|eapply node_hoist; exact CV]. discriminate.
  - unfold consume_parens in H. step H. destruct (a =? TK_PARENL)%Z eqn:EA; cbn [negb] in H; [|discriminate]. apply Z.eqb_eq in EA. subst a.
    step2 H x s1. apply leaf_inv in E0. destruct E0 as (-> & _). step2 H kids s2. apply parens_gives in E0; [|constructor]. destruct E0 as (l & -> & L1).
    destruct (covered _) eqn:CV in H; cbn [obind] in H; try discriminate. injection H as <- <-. apply node_hoist in CV. unfold is_node in CV. cbn [Z.eqb] in CV. rewrite Z.eqb_refl in CV. rewrite CV.
    eapply gu_parens; [exact B| |exact L1]. eapply peek_at; [exact E|]. vm_compute. discriminate.
  - unfold list_name in H. step H. step H. destruct a0; [|discriminate]. step H. destruct (existsb _ _); [|discriminate].
    step2 H x s1. injection H as <- <-. apply leaf_inv in E2. destruct E2 as (-> & _). cbn [hoist app]. change (TK_NAME =? HOIST)%Z with false. cbn [negb].
    apply gu_list_name; [exact B|]. eapply peek_name; [|exact E0]. apply PegCover_proofs.peek_off1. exact E.
  - unfold designator in H. step2 H o s1. pose proof (to_open_same _ _ _ E) as S1. step H.
    assert (S2 : same s a) by (eapply same_trans; [apply same_set|]; eapply same_trans; [exact S1|]; destruct s1; [apply lift_done in E0; apply put_back_same in E0; exact E0|injection E0 as <-; apply same_refl]).
    destruct (_ <? _); [discriminate|]. step3 H m t1 s2. injection H as -> <-. destruct (HRr _ _ _ _ _ C E1) as (_ & R2). destruct m; [|destruct (R2 eq_refl); discriminate].
    eapply gu_designator; [exact B|]. replace (frags s) with (frags a) by apply S2. apply (HR p (stream_of (frags a) (pos s) (pos a)) (Some t) s2); [destruct p; auto; discriminate|apply T; reflexivity|exact E1].
Qed.
End Step.

Lemma run_gives n : forall p s t s', sclean p = true -> tidy p = true -> run body exts n p s = Done (true, t, s') -> ok s p t.
Proof using All.
  induction n as [|n IH]; intros p s t s' C T H; [discriminate|].
  assert (IR : forall p s m t s', clean p = true -> run body exts n p s = Done (m, t, s') -> restores s (m, t, s')) by (intros; eapply run_restores; eauto).
  assert (IS : forall p s m t s', sclean p = true -> run body exts n p s = Done (m, t, s') -> same s s').
  { intros q s0 m t0 s0' Hq HH. destruct q; try (apply IR in HH; [apply HH|exact Hq]).
    destruct n as [|n]; [discriminate|]. cbn [run] in HH. cbn [sclean] in Hq. step3 HH m1 t1 s1. injection HH as <- <- <-.
    assert (E' : run body exts (S n) (POpt q) s0 = Done (true, t1, s1)) by (cbn [run]; rewrite E; reflexivity).
    apply IR in E'; [apply E'|exact Hq]. }
  assert (IRoot : forall s t s', run body exts n (PRule r_real_literal_constant) s = Done (true, Some t, s') -> t_tag t <> HOIST).
  { intros s0 t0 s0' HH. destruct n as [|n']; [discriminate|]. cbn [run] in HH. step2 HH o s1. destruct o as [t1|]; [|discriminate]. injection HH as <- <-.
    destruct Hreal as (g & N & RR). pose proof (any_root_ok _ exts n' _ _ _ _ _ RR E) as <-. exact N. }
  assert (ISo : forall p s t s', solid p = true -> run body exts n p s = Done (true, t, s') -> t <> None) by (intros; eapply run_solid; eauto).
  cbn [run] in H. destruct p; cbn [sclean clean tidy] in C, T.
  - step3 H m t1 s1. destruct m; [|discriminate]. destruct (covered _) eqn:CV in H; cbn [obind] in H; try discriminate. injection H as <- <-.
    destruct (alts_gives _ IH IR _ _ _ _ C T E) as (p & P1 & P2). eapply g_alts; [exact P1|exact P2|]. eapply node_hoist; eauto.
  - step H. step H. destruct a0; cbn [negb] in H; [|discriminate]. step H. destruct (_ =? _) eqn:EL; cbn [negb] in H; [|discriminate]. step2 H x s1. injection H as <- <-. apply leaf_inv in E2. destruct E2 as (-> & _).
    apply g_letter. eapply peek_tt_name; eauto. apply Nat.eqb_eq. exact EL.
  - step H. step H. destruct a0; cbn [negb] in H; [|discriminate]. step H. destruct (list_eq_dec _ _ _) as [EL|]; cbn [negb] in H; [|discriminate]. step2 H x s1. injection H as <- <-. apply leaf_inv in E2. destruct E2 as (-> & _).
    apply g_literal. eapply peek_tt_name; eauto.
  - step H. step H. destruct a0; cbn [negb] in H; [|discriminate]. step2 H x s1. injection H as <- <-. apply leaf_inv in E1. destruct E1 as (-> & _).
    apply g_name. eapply peek_name; eauto.
  - step3 H m t1 s1. destruct m; [discriminate|]. injection H as <- <-. destruct (IR _ _ _ _ _ C E) as (_ & R2). destruct (R2 eq_refl) as (-> & _). apply g_neg.
  - step3 H m t1 s1. injection H as <- <-. destruct m.
    + apply g_opt. eapply IH; [|exact T|exact E]. destruct p; auto; discriminate.
    + destruct (IR _ _ _ _ _ C E) as (_ & R2). destruct (R2 eq_refl) as (-> & _). apply g_opt_no.
  - step H. destruct (_ =? _)%Z; [|discriminate]. injection H as <- <-. apply g_peek.
  - step2 H o s1. destruct o as [t1|]; [|discriminate]. injection H as <- <-. apply g_rule. eapply call_gives; eauto.
  - step3 H m kids s1. destruct m; [|discriminate]. destruct (covered _) eqn:CV in H; cbn [obind] in H; try discriminate. injection H as <- <-.
    eapply g_seq; [|eapply node_hoist; exact CV]. change (gives_seq body (frags s) (made exts) ([] ++ ps) kids). eapply (seq_gives _ IH IS); [exact C|exact T|apply same_refl|constructor|exact E].
  - step2 H kids s1. destruct (covered _) eqn:CV in H; cbn [obind] in H; try discriminate. injection H as <- <-. apply node_hoist in CV. unfold is_node in CV. rewrite Z.eqb_refl in CV. unfold ok. rewrite CV.
    apply g_star. eapply (star_gives _ IH IR); [exact C|exact T|apply same_refl|constructor|exact E].
  - apply andb_true_iff in T. destruct T as (T0 & T). step3 H m t1 s1. destruct t1 as [t1|].
    + destruct (covered _) eqn:CV in H; cbn [obind] in H; try discriminate. injection H as -> <- <-. eapply g_tag; [|eapply node_hoist; exact CV]. eapply IH; [|exact T|exact E]. destruct p; auto; discriminate.
    + injection H as -> <- <-. exfalso. eapply ISo; eauto.
  - step H. destruct (t0 =? a)%Z eqn:EQ; cbn [negb] in H; [|discriminate]. apply Z.eqb_eq in EQ. subst a. step2 H x s1. injection H as <- <-. apply leaf_inv in E0. destruct E0 as (-> & _).
    apply andb_true_iff in T. destruct T as (T1 & T2). apply negb_true_iff in T1, T2. unfold ok. cbn [hoist app]. rewrite T2.
    apply g_tok. apply peek_at; [exact E|]. apply Z.eqb_neq in T1. exact T1.
Qed.
Lemma rule_gives n r s t s' : parse_rule body exts n r s = Done (Some t, s') -> gives_rule body (frags s) (made exts) r (hoist [] (Some t)).
Proof using All.
  intros H. apply (call_gives (run body exts n)) with (k := n) (s' := s').
  - intros. eapply run_gives; eauto.
  - intros. eapply run_restores; eauto.
  - intros s0 t0 s0' HH. destruct n as [|n']; [discriminate|]. cbn [run] in HH. step2 HH o s1. destruct o as [t1|]; [|discriminate]. injection HH as <- <-.
    destruct Hreal as (g & N & RR). pose proof (any_root_ok _ exts n' _ _ _ _ _ RR E) as <-. exact N.
  - exact H.
Qed.
End Main.

Lemma grammar_tidy r p : body_exp (grammar r) = Some p -> tidy p = true.
Proof.
  intros H. assert (F : forallb (fun r => match body_exp (grammar r) with Some p => tidy p | None => true end) all_rules = true) by (vm_compute; reflexivity).
  rewrite forallb_forall in F. specialize (F r (in_rules r)). rewrite H in F. exact F.
Qed.
Lemma grammar_gives exts n r s t s' : (forall a, Forall ext_same (exts a)) -> parse_rule grammar exts n r s = Done (Some t, s') ->
  gives_rule grammar (frags s) (made exts) r (hoist [] (Some t)).
Proof.
  intros He. apply rule_gives; [exact g_clean|exact He|exact grammar_tidy|]. exists SG_REAL_LITERAL_CONSTANT. split; [vm_compute; discriminate|reflexivity].
Qed.
