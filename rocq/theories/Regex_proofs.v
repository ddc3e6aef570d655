(** The matcher finds the longest prefix in the language. *)
From Verif Require Import Base Regex.
Local Open Scope nat_scope.

Lemma lang_emp : forall s, ~ lang Emp s.
Proof. intros s H; inversion H. Qed.
Lemma lang_eps : forall s, lang Eps s <-> s = [].
Proof. split; [intro H; inversion H; reflexivity | intro; subst; constructor]. Qed.
Lemma lang_cls : forall p s, lang (Cls p) s <-> exists c, s = [c] /\ p c = true.
Proof.
  split; [intro H; inversion H; subst; eauto | intros (c & -> & H); constructor; exact H].
Qed.
Lemma lang_cat : forall a b s, lang (Cat a b) s <-> exists u v, s = u ++ v /\ lang a u /\ lang b v.
Proof.
  split; [intro H; inversion H; subst; eauto 6 | intros (u & v & -> & Ha & Hb); constructor; auto].
Qed.
Lemma lang_or : forall a b s, lang (Or a b) s <-> lang a s \/ lang b s.
Proof.
  split; [intro H; inversion H; subst; auto | intros [H|H]; [apply L_orl|apply L_orr]; exact H].
Qed.
Lemma lang_opt : forall a s, lang (Opt a) s <-> s = [] \/ lang a s.
Proof. intros; unfold Opt; rewrite lang_or, lang_eps; tauto. Qed.

Lemma star_cls : forall p s, lang (Star (Cls p)) s <-> Forall (fun c => p c = true) s.
Proof.
  intros p s; split.
  - intro H. remember (Star (Cls p)) as r eqn:E. induction H; try discriminate E.
    + constructor.
    + inversion E; subst. apply lang_cls in H as (c & -> & Hc). constructor; auto.
  - induction 1; [constructor|].
    change (x :: l) with ([x] ++ l). constructor; [constructor|]; assumption.
Qed.
Lemma plus_cls : forall p s, lang (Plus (Cls p)) s <-> s <> [] /\ Forall (fun c => p c = true) s.
Proof.
  intros p s; unfold Plus; rewrite lang_cat; split.
  - intros (u & v & -> & Hu & Hv). apply lang_cls in Hu as (c & -> & Hc). apply star_cls in Hv.
    split; [discriminate | constructor; assumption].
  - intros [Hn Hf]. destruct s as [|c s]; [contradiction|]. inversion Hf; subst.
    exists [c], s. repeat split; [constructor; assumption | apply star_cls; assumption].
Qed.
Lemma lang_lit : forall w s, lang (Lit w) s <-> s = w.
Proof.
  induction w as [|c w IH]; intro s; cbn [Lit].
  - apply lang_eps.
  - rewrite lang_cat; split.
    + intros (u & v & -> & Hu & Hv). apply lang_cls in Hu as (d & -> & Hd).
      apply IH in Hv. subst v. apply Ascii.eqb_eq in Hd. subst d. reflexivity.
    + intros ->. exists [c], w. repeat split; [constructor; apply Ascii.eqb_refl | apply IH; reflexivity].
Qed.

Lemma nullable_spec : forall r, nullable r = true <-> lang r [].
Proof.
  induction r; cbn [nullable].
  - split; [discriminate | intro H; inversion H].
  - split; [constructor|reflexivity].
  - split; [discriminate | intro H; inversion H].
  - rewrite andb_true_iff, IHr1, IHr2, lang_cat. split.
    + intros [H1 H2]. exists [], []. auto.
    + intros (u & v & E & H1 & H2). symmetry in E. apply app_eq_nil in E as [-> ->]. auto.
  - rewrite orb_true_iff, IHr1, IHr2, lang_or. tauto.
  - split; [constructor|reflexivity].
Qed.

Lemma cat_spec : forall a b s, lang (cat a b) s <-> lang (Cat a b) s.
Proof.
  intros a b s. destruct a; cbn [cat]; try reflexivity.
  - split; intro H; [inversion H|]. apply lang_cat in H as (u & v & _ & H & _). inversion H.
  - rewrite lang_cat. split.
    + intro H. exists [], s. repeat split; [constructor|exact H].
    + intros (u & v & -> & Hu & Hv). apply lang_eps in Hu. subst u. exact Hv.
Qed.
Lemma alt_spec : forall a b s, lang (alt a b) s <-> lang (Or a b) s.
Proof.
  intros a b s. rewrite lang_or.
  destruct a; destruct b; cbn [alt]; rewrite ?lang_or; try reflexivity;
    (split; intro H; [auto | destruct H as [H|H]; auto; inversion H]).
Qed.

Lemma deriv_spec : forall r c s, lang (deriv c r) s <-> lang r (c :: s).
Proof.
  induction r as [| |p|a IHa b IHb|a IHa b IHb|a IHa]; intros c s; cbn [deriv].
  - split; intro H; inversion H.
  - split; intro H; inversion H.
  - destruct (p c) eqn:E.
    + rewrite lang_eps, lang_cls. split.
      * intros ->. eauto.
      * intros (d & Hd & _). inversion Hd. reflexivity.
    + split; intro H; [inversion H|]. apply lang_cls in H as (d & Hd & Hp). inversion Hd; subst. congruence.
  - assert (X : lang (Cat a b) (c :: s) <-> lang (Cat (deriv c a) b) s \/ (lang a [] /\ lang (deriv c b) s)).
    { rewrite (lang_cat (deriv c a)). rewrite lang_cat. split.
      - intros (u & v & E & Hu & Hv). destruct u as [|d u]; cbn in E.
        + right. subst v. rewrite IHb. auto.
        + left. inversion E; subst. exists u, v. rewrite IHa. auto.
      - intros [(u & v & -> & Hu & Hv)|[H1 H2]].
        + apply IHa in Hu. exists (c :: u), v. auto.
        + apply IHb in H2. exists [], (c :: s). auto. }
    destruct (nullable a) eqn:E.
    + apply nullable_spec in E. rewrite alt_spec, lang_or, cat_spec, X. tauto.
    + rewrite cat_spec, X. split; [auto|]. intros [H|[H _]]; [exact H|].
      apply nullable_spec in H. congruence.
  - rewrite alt_spec, !lang_or, IHa, IHb. tauto.
  - rewrite cat_spec, lang_cat. split.
    + intros (u & v & -> & Hu & Hv). apply IHa in Hu.
      change (c :: u ++ v) with ((c :: u) ++ v). constructor; assumption.
    + intro H. remember (Star a) as r eqn:E. remember (c :: s) as t eqn:Et.
      revert s Et. induction H; intros s0 Et; try discriminate E; try discriminate Et.
      inversion E; subst a0. destruct u as [|d u].
      * apply IHlang2; auto.
      * cbn in Et. inversion Et; subst. exists u, v. rewrite IHa. auto.
Qed.

Lemma longest_from_spec : forall s r n best, 
  match longest_from r s n best with
  | Some m =>
      (exists k, m = n + k /\ k <= length s /\ lang r (firstn k s) /\
        forall j, k < j -> j <= length s -> ~ lang r (firstn j s)) \/
      (best = Some m /\ forall j, j <= length s -> ~ lang r (firstn j s))
  | None => best = None /\ forall j, j <= length s -> ~ lang r (firstn j s)
  end.
Proof.
  induction s as [|c s IH]; intros r n best.
  - cbn [longest_from]. destruct (nullable r) eqn:E.
    + apply nullable_spec in E. left. exists 0. cbn. repeat split; auto with arith. intros; lia.
    + assert (X : ~ lang r []) by (rewrite <- nullable_spec; congruence).
      assert (Y : forall j, j <= 0 -> ~ lang r (@firstn ascii j [])) by (intros j _; rewrite firstn_nil; exact X).
      destruct best; [right|]; split; auto.
  - set (best' := if nullable r then Some n else best).
    assert (Z : match longest_from (deriv c r) s (S n) best' with
                | Some m => (exists k, m = S n + k /\ k <= length s /\ lang r (c :: firstn k s) /\
                              forall j, k < j -> j <= length s -> ~ lang r (c :: firstn j s)) \/
                            (best' = Some m /\ forall j, j <= length s -> ~ lang r (c :: firstn j s))
                | None => best' = None /\ forall j, j <= length s -> ~ lang r (c :: firstn j s)
                end).
    { specialize (IH (deriv c r) (S n) best').
      destruct (longest_from (deriv c r) s (S n) best').
      - destruct IH as [(k & H1 & H2 & H3 & H4)|[H1 H2]].
        + left. exists k. repeat split; auto; [apply deriv_spec; exact H3|].
          intros j Hj Hl. rewrite <- deriv_spec. auto.
        + right. split; auto. intros j Hj. rewrite <- deriv_spec. auto.
      - destruct IH as [H1 H2]. split; auto. intros j Hj. rewrite <- deriv_spec. auto. }
    assert (W : longest_from r (c :: s) n best = longest_from (deriv c r) s (S n) best' \/
                (longest_from r (c :: s) n best = best' /\ forall j, j <= length s -> ~ lang r (c :: firstn j s))).
    { cbn [longest_from]. fold best'. destruct (deriv c r) eqn:E; auto.
      right. split; [reflexivity|]. intros j _. rewrite <- deriv_spec, E. apply lang_emp. }
    assert (V : match longest_from r (c :: s) n best with
                | Some m => (exists k, m = S n + k /\ k <= length s /\ lang r (c :: firstn k s) /\
                              forall j, k < j -> j <= length s -> ~ lang r (c :: firstn j s)) \/
                            (best' = Some m /\ forall j, j <= length s -> ~ lang r (c :: firstn j s))
                | None => best' = None /\ forall j, j <= length s -> ~ lang r (c :: firstn j s)
                end).
    { destruct W as [W|[W1 W2]].
      - rewrite W. exact Z.
      - rewrite W1. destruct best'; [right|]; split; auto. }
    clear Z W IH. unfold best' in V.
    assert (N : forall P : nat -> Prop,
      (nullable r = true -> False) -> (forall j, j <= length s -> ~ lang r (c :: firstn j s)) ->
      forall j, j <= length (c :: s) -> ~ lang r (firstn j (c :: s))).
    { intros _ H1 H2 j Hj. destruct j; cbn [firstn].
      - rewrite <- nullable_spec. intro X; auto.
      - apply H2. cbn in Hj. lia. }
    destruct (nullable r) eqn:E.
    + assert (E' := E). apply nullable_spec in E'.
      destruct (longest_from r (c :: s) n best).
      * left. destruct V as [(k & H1 & H2 & H3 & H4)|[H1 H2]].
        -- exists (S k). cbn [firstn length]. repeat split; auto; try lia.
           intros j Hj Hl. destruct j; [lia|]. cbn [firstn]. apply H4; lia.
        -- exists 0. inversion H1; subst. cbn [firstn length]. repeat split; auto; try lia.
           intros j Hj Hl. destruct j; [lia|]. cbn [firstn]. apply H2. lia.
      * destruct V; discriminate.
    + destruct (longest_from r (c :: s) n best).
      * destruct V as [(k & H1 & H2 & H3 & H4)|[H1 H2]].
        -- left. exists (S k). cbn [firstn length]. repeat split; auto; try lia.
           intros j Hj Hl. destruct j; [lia|]. cbn [firstn]. apply H4; lia.
        -- right. split; auto. apply (N (fun _ => True)); auto; discriminate.
      * destruct V as [H1 H2]. split; auto. apply (N (fun _ => True)); auto; discriminate.
Qed.

Lemma longest_some : forall r s n, longest r s = Some n ->
  n <= length s /\ lang r (firstn n s) /\ forall j, n < j -> j <= length s -> ~ lang r (firstn j s).
Proof.
  intros r s n H. pose proof (longest_from_spec s r 0 None) as X. unfold longest in H. rewrite H in X.
  destruct X as [(k & -> & X1 & X2 & X3)|[X _]]; [|discriminate]. auto.
Qed.
Lemma longest_none : forall r s, longest r s = None <-> forall j, j <= length s -> ~ lang r (firstn j s).
Proof.
  intros r s. pose proof (longest_from_spec s r 0 None) as X. unfold longest.
  destruct (longest_from r s 0 None).
  - destruct X as [(k & -> & X1 & X2 & X3)|[X _]]; [|discriminate]. split; [discriminate|].
    intro H. exfalso. exact (H k X1 X2).
  - split; [intros _; exact (proj2 X) | reflexivity].
Qed.
Lemma longest_intro : forall r s n, n <= length s -> lang r (firstn n s) ->
  (forall j, n < j -> j <= length s -> ~ lang r (firstn j s)) -> longest r s = Some n.
Proof.
  intros r s n H1 H2 H3. destruct (longest r s) as [m|] eqn:E.
  - apply longest_some in E as (X1 & X2 & X3). f_equal.
    destruct (Nat.lt_trichotomy m n) as [H|[H|H]]; [|exact H|].
    + exfalso. exact (X3 n H H1 H2).
    + exfalso. exact (H3 m H X1 X2).
  - apply longest_none with (j := n) in E; [contradiction|exact H1].
Qed.
(** A prefix in the language is at most as long as the longest. *)
Lemma longest_ge : forall r u v, lang r u -> exists n, longest r (u ++ v) = Some n /\ length u <= n.
Proof.
  intros r u v H. destruct (longest r (u ++ v)) as [n|] eqn:E.
  - exists n. split; [reflexivity|]. apply longest_some in E as (X1 & X2 & X3).
    destruct (le_lt_dec (length u) n); [assumption|]. exfalso.
    apply (X3 (length u)); [assumption|rewrite app_length; lia|].
    rewrite firstn_app, firstn_all, Nat.sub_diag, firstn_O, app_nil_r. exact H.
  - exfalso. rewrite longest_none in E. apply (E (length u)); [rewrite app_length; lia|].
    rewrite firstn_app, firstn_all, Nat.sub_diag, firstn_O, app_nil_r. exact H.
Qed.
Lemma longest_split : forall r s n, longest r s = Some n ->
  exists u v, s = u ++ v /\ length u = n /\ lang r u /\ u = firstn n s /\ v = skipn n s.
Proof.
  intros r s n H. apply longest_some in H as (H1 & H2 & _).
  exists (firstn n s), (skipn n s). rewrite firstn_skipn, firstn_length_le by assumption. auto.
Qed.
