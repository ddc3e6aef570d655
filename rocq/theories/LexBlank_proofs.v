(** A blank put between two tokens leaves the tokens as they are, unless both
    are parts of a real literal. *)
From Verif Require Import Base Tags Smash Peg Regex Regex_proofs LexTab Lexer Lexer_spec Lexer_proofs
  LexForm_proofs LexLongest_proofs LexWord_proofs LexPos_spec LexPos_proofs.
Local Open Scope nat_scope.

Definition sp : ascii := " "%char.

(** * Rules that match no blank *)
Fixpoint noblank (r : re) : bool :=
  match r with
  | Emp | Eps => true
  | Cls p => negb (p sp)
  | Cat a b | Or a b => noblank a && noblank b
  | Star a => noblank a
  end.
Definition single (r : re) : bool :=
  match r with Cls _ => true | Or (Cls _) (Cls _) => true | _ => false end.

Lemma noblank_lang : forall r s, lang r s -> noblank r = true -> ~ In sp s.
Proof.
  intros r s H. induction H; cbn [noblank]; intro B; try apply andb_true_iff in B as [B1 B2]; auto.
  - intros [X|[]]. subst c. rewrite H in B. discriminate B.
  - rewrite in_app_iff. intros [X|X]; [apply IHlang1 in X|apply IHlang2 in X]; auto.
  - rewrite in_app_iff. intros [X|X]; [apply IHlang1 in X|apply IHlang2 in X]; auto.
Qed.
Lemma single_lang : forall r s, lang r s -> single r = true -> length s = 1.
Proof.
  intros r s H B. destruct r; try discriminate B.
  - apply lang_cls in H as (c & -> & _). reflexivity.
  - destruct r1; try discriminate B. destruct r2; try discriminate B.
    apply lang_or in H as [H|H]; apply lang_cls in H as (c & -> & _); reflexivity.
Qed.

Lemma rule_kinds : forall x r a, In (r, a) (rules x) ->
  noblank r = true \/ single r = true \/
  (exists q, (q = "'"%char \/ q = "034"%char) /\ r = Cat r_kind_opt (r_quoted q)).
Proof.
  intros x r a H. destruct x.
  - cbn [rules] in H. unfold initial_rules in H. rewrite !in_app_iff in H.
    assert (K : forall l, forallb (fun p => noblank (fst p)) l = true -> In (r, a) l -> noblank r = true)
      by (intros l Hl Hin; exact (proj1 (forallb_forall _ _) Hl _ Hin)).
    destruct H as [H|[H|H]].
    + left. eapply K; [|exact H]. vm_compute. reflexivity.
    + left. eapply K; [|exact H]. vm_compute. reflexivity.
    + cbn [In] in H. repeat (destruct H as [H|H]; [inversion H; subst; try (left; vm_compute; reflexivity);
        try (right; left; reflexivity); right; right; eexists; (split; [|reflexivity]); auto|]). destruct H.
  - cbn [rules real_rules In] in H. destruct H as [E|[E|[E|[E|[E|[]]]]]]; inversion E; subst;
      try (left; vm_compute; reflexivity); right; left; reflexivity.
  - cbn [rules exp_rules In] in H. destruct H as [E|[E|[]]]; inversion E; subst; left; vm_compute; reflexivity.
  - cbn [rules kind_rules In] in H. destruct H as [E|[E|[]]]; inversion E; subst; left; vm_compute; reflexivity.
Qed.

Lemma body_split : forall q b1 b2, q <> sp -> quoted_body q (b1 ++ sp :: b2) -> quoted_body q b1 /\ quoted_body q b2.
Proof.
  intros q b1 b2 Hq H. remember (b1 ++ sp :: b2) as b eqn:E. revert b1 E.
  induction H; intros b1 E.
  - destruct b1; discriminate E.
  - destruct b1 as [|x b1]; cbn in E; inversion E; subst; [split; [constructor|exact H0]|].
    destruct (IHquoted_body _ eq_refl). split; [constructor; auto|auto].
  - destruct b1 as [|x b1]; cbn [app] in E; injection E as E1 E2; [subst; contradiction|].
    destruct b1 as [|y b1]; cbn [app] in E2; injection E2 as E2 E3; [subst; contradiction|].
    subst. destruct (IHquoted_body _ eq_refl). split; [apply qb_twice; auto|auto].
Qed.
Lemma body_app : forall q a b, quoted_body q a -> quoted_body q b -> quoted_body q (a ++ b).
Proof. intros q a b H Hb. induction H; cbn [app]; [exact Hb|constructor; auto|apply qb_twice; auto]. Qed.

Lemma name_solid_sp : ~ name_char sp.
Proof. intros [[H|H]|[H|H]]; [vm_compute in H; lia|vm_compute in H; lia|vm_compute in H; lia|discriminate H]. Qed.
(** a literal stays one without one of its blanks *)
Lemma quoted_less : forall q u z, (q = "'"%char \/ q = "034"%char) -> u <> [] ->
  lang (Cat r_kind_opt (r_quoted q)) (low (u ++ sp :: z)) -> lang (Cat r_kind_opt (r_quoted q)) (low (u ++ z)) /\ z <> [].
Proof.
  intros q u z Hq Hu H. apply (charlit_low q) in H; [|exact Hq]. destruct H as (k & b & E & Hk & Hb).
  assert (Q : q <> sp) by (destruct Hq as [-> | ->]; discriminate).
  assert (E' := E). symmetry in E'. apply app_split in E' as [[k2 E']|[t E']].
  { exfalso. subst k. apply prefix_all in Hk. rewrite Forall_forall in Hk.
    specialize (Hk sp ltac:(apply in_app_iff; right; left; reflexivity)).
    apply name_solid_sp in Hk. exact Hk. }
  subst u. rewrite <- app_assoc in E. apply app_inv_head in E.
  destruct t as [|c t]; cbn [app] in E; inversion E; subst; [contradiction|]. clear E. rename H1 into E.
  assert (E' := E). symmetry in E'. apply app_split in E' as [[b2 ->]|[t2 ->]].
  2:{ exfalso. rewrite <- app_assoc in E. apply app_inv_head in E. destruct t2 as [|x [|]]; inversion E; subst; contradiction. }
  rewrite <- app_assoc in E. apply app_inv_head in E. cbn [app] in E. inversion E; subst.
  apply body_split in Hb as [B1 B2]; [|exact Q]. split.
  - apply charlit_low; [exact Hq|]. exists k, (t ++ b2). split; [|split; [exact Hk|apply body_app; auto]].
    cbn [app]. rewrite <- !app_assoc. reflexivity.
  - intro X. apply app_eq_nil in X as [_ X]. discriminate X.
Qed.

(** * One step of the scanner *)
Lemma pick_ext : forall rs s s', (forall r a, In (r, a) rs -> longest r s = longest r s') -> pick rs s = pick rs s'.
Proof.
  induction rs as [|[r a] rs IH]; intros s s' H; [reflexivity|].
  cbn [pick]. rewrite (H r a) by (left; reflexivity). rewrite (IH s s') by (intros; apply (H r0 a0); right; auto).
  reflexivity.
Qed.

Lemma firstn_in : forall (u r : str) j, j <= length u -> firstn j (u ++ r) = firstn j u.
Proof. intros u r j H. rewrite firstn_app. replace (j - length u) with 0 by lia. cbn [firstn]. apply app_nil_r. Qed.
Lemma firstn_out : forall (u r : str) j, length u <= j -> firstn j (u ++ r) = u ++ firstn (j - length u) r.
Proof. intros u r j H. rewrite firstn_app, firstn_all2 by exact H. reflexivity. Qed.

Lemma longest_same : forall x r a u v, In (r, a) (rules x) -> u <> [] ->
  (forall m, longest r (low (u ++ v)) = Some m -> m <= length u) ->
  longest r (low (u ++ sp :: v)) = longest r (low (u ++ v)).
Proof.
  intros x r a u v Hin Hu Hm.
  assert (X : forall j, j <= length (u ++ v) -> length u < j -> ~ lang r (firstn j (low (u ++ v)))).
  { intros j Hj Hlt Hl. destruct (longest r (low (u ++ v))) as [m|] eqn:E.
    - specialize (Hm _ eq_refl). apply longest_some in E as (_ & _ & E). eapply E; [| |exact Hl]; [lia|].
      rewrite map_length. exact Hj.
    - rewrite longest_none in E. apply (E j); [rewrite map_length; exact Hj|exact Hl]. }
  assert (Y : forall j, j <= length (u ++ sp :: v) -> length u < j -> ~ lang r (firstn j (low (u ++ sp :: v)))).
  { intros j Hj Hlt Hl. rewrite firstn_map, firstn_out in Hl by lia.
    destruct (j - length u) as [|i] eqn:Ei; [lia|]. cbn [firstn] in Hl.
    destruct (rule_kinds _ _ _ Hin) as [B|[B|(q & Hq & ->)]].
    - apply (noblank_lang _ _ Hl B). rewrite map_app, in_app_iff. right. left. reflexivity.
    - apply single_lang in Hl; [|exact B]. rewrite map_length, app_length in Hl. cbn [length] in Hl.
      destruct u; [contradiction|]. cbn [length] in Hl. lia.
    - apply quoted_less in Hl as [Hl Hz]; auto.
      apply (X (length u + length (firstn i v))).
      + rewrite app_length. rewrite firstn_length. lia.
      + destruct (firstn i v); [contradiction|]. cbn [length]. lia.
      + rewrite firstn_map, firstn_out by lia.
        replace (length u + length (firstn i v) - length u) with (length (firstn i v)) by lia.
        replace (firstn (length (firstn i v)) v) with (firstn i v); [exact Hl|].
        rewrite firstn_length. destruct (Nat.le_gt_cases i (length v)).
        * rewrite Nat.min_l by lia. reflexivity.
        * rewrite Nat.min_r by lia. rewrite firstn_all, firstn_all2 by lia. reflexivity. }
  assert (Z : forall j, j <= length u -> firstn j (low (u ++ sp :: v)) = firstn j (low (u ++ v))).
  { intros j Hj. rewrite !firstn_map, !firstn_in by exact Hj. reflexivity. }
  destruct (longest r (low (u ++ v))) as [m|] eqn:E.
  - specialize (Hm _ eq_refl). apply longest_some in E as (E1 & E2 & E3). apply longest_intro.
    + rewrite map_length, app_length. lia.
    + rewrite Z by exact Hm. exact E2.
    + intros j Hj Hl. destruct (Nat.le_gt_cases j (length u)).
      * rewrite Z by assumption. apply E3; [exact Hj|]. rewrite map_length, app_length. lia.
      * apply Y; [rewrite map_length in Hl; exact Hl|assumption].
  - apply longest_none. intros j Hl. rewrite map_length in Hl. destruct (Nat.le_gt_cases j (length u)).
    + rewrite Z by assumption. rewrite longest_none in E. apply E. rewrite map_length, app_length. lia.
    + apply Y; assumption.
Qed.

Lemma pick_same : forall x u v n a, u <> [] -> pick (rules x) (low (u ++ v)) = Some (n, a) -> n <= length u ->
  pick (rules x) (low (u ++ sp :: v)) = Some (n, a).
Proof.
  intros x u v n a Hu P Hn. rewrite <- P. apply pick_ext. intros r b Hin.
  apply (longest_same x r b); auto. intros m Hm.
  apply pick_some in P as (l1 & r1 & l2 & E & Hl & H1 & H2). rewrite E in Hin. apply in_app_iff in Hin as [Hin|[Hin|Hin]].
  - specialize (H1 _ _ _ Hin Hm). lia.
  - inversion Hin; subst. rewrite Hl in Hm. inversion Hm. lia.
  - specialize (H2 _ _ _ Hin Hm). lia.
Qed.

(** * The rest of a real literal *)
Definition LSR : LS := mkLS real_parse [].
Definition LSE : LS := mkLS exp_parse [real_parse].
Definition LSK : LS := mkLS kind_parse [real_parse].
Definition tail_re (st : LS) : re :=
  match ls_start st, ls_stack st with
  | real_parse, [] => Cat (Opt r_EXPONENT) r_opt_kind
  | exp_parse, [real_parse] => Cat r_signed r_opt_kind
  | kind_parse, [real_parse] => r_KIND
  | _, _ => Emp
  end.
(** the next [m] characters are the rest of a real literal *)
Definition part (st : LS) (s : str) (m : nat) : Prop :=
  0 < m <= length s /\ lang (tail_re st) (low (firstn m s)).

Lemma pick_max : forall rs s n a r b m, pick rs s = Some (n, a) -> In (r, b) rs -> longest r s = Some m -> m <= n.
Proof.
  intros rs s n a r b m P Hin Hm. apply pick_some in P as (l1 & r1 & l2 & E & Hl & H1 & H2). rewrite E in Hin.
  apply in_app_iff in Hin as [Hin|[Hin|Hin]].
  - specialize (H1 _ _ _ Hin Hm). lia.
  - inversion Hin; subst. rewrite Hl in Hm. inversion Hm. lia.
  - specialize (H2 _ _ _ Hin Hm). lia.
Qed.

Definition call1 (st : LS) (s : str) (t : Z) (j : nat) (st' : LS) : Prop :=
  1 <= j <= length s /\
  forall f pos, yylex (S (S f)) st s pos = Done (Some (t, firstn j s), st', skipn j s, (pos + Z.of_nat j)%Z).

Lemma opt_kind_first : forall s, lang r_opt_kind s -> s = [] \/ exists t, s = "_"%char :: t /\ lang r_KIND t.
Proof.
  intros s H. apply lang_opt in H as [H|H]; [left; exact H|]. right. apply lang_cat in H as (a & b & -> & Ha & Hb).
  apply lang_cls in Ha as (c & -> & Hc). apply Ascii.eqb_eq in Hc. subst c. exists b. split; [reflexivity|exact Hb].
Qed.

(** the call that starts with an exponent letter in real_parse *)
Lemma real_exp : forall s, starts r_EXPONENT (low s) -> call1 LSR s SG_EXPONENT_LETTER 1 LSE.
Proof.
  intros s H. destruct (starts_exponent _ H) as (c & t & E & Hc & Ht).
  destruct s as [|c0 s]; [discriminate E|].
  split; [cbn [length]; lia|]. intros f pos.
  assert (P1 : pick exp_rules (low (c0 :: s)) = Some (1, a_return SG_EXPONENT_LETTER))
    by (rewrite E; apply pick_exp1; exact Hc).
  assert (P0 : exists n, pick real_rules (low (c0 :: s)) = Some (n, a_less_push exp_parse)).
  { assert (D : c = "e"%char \/ c = "d"%char) by (apply is_ed_inv; exact Hc).
    assert (Hc0 : lower_b c0 = c) by (cbn [map] in E; inversion E; reflexivity).
    destruct (pick_real (lower_b c0) (low s)) as [[X _]|[(_ & _ & X)|[(_ & X & _)|(_ & X)]]].
    - exfalso. assert (Y : exists u v, lower_b c0 :: low s = u ++ v /\ (lang r_SIGNIFICAND u \/ lang (Plus r_DIGIT) u))
        by (destruct X as [(u & v & X0 & Y)|(u & v & X0 & Y)]; eauto).
      destruct Y as (u & v & X1 & X2). apply significand_first in X2 as (d & w & -> & X3).
      cbn in X1. inversion X1; subst d. rewrite Hc0 in X3. destruct D as [-> | ->]; vm_compute in X3; intuition congruence.
    - exact X.
    - exfalso. apply starts_under in X as (u & X & _). inversion X as [[X1 X2]]. rewrite Hc0 in X1.
      destruct D; congruence.
    - exfalso. destruct (starts_longest _ _ H) as [m Hm].
      assert (m <= 1) by (eapply pick_max; [exact X| |exact Hm]; cbn; auto).
      apply longest_split in Hm as (u & v & _ & Hu & Hl & _). unfold r_EXPONENT in Hl.
      apply lang_cat in Hl as (a & b & -> & Ha & Hb). apply lang_cls in Ha as (d & -> & _).
      apply signed_first in Hb as (d2 & w & -> & _). cbn in Hu. lia. }
  destruct P0 as (n & P0). remember (S f) as g. cbn [yylex ls_start rules LSR]. rewrite P0. subst g.
  cbn [yylex ls_start rules ls_stack]. rewrite P1.
  replace (pos + Z.of_nat n - Z.of_nat n)%Z with pos by lia. reflexivity.
Qed.
Lemma real_kind : forall s, starts (Cat r_under r_KIND) (low s) -> call1 LSR s TK_UNDERSCORE 1 LSK.
Proof.
  intros s H. destruct (starts_under _ H) as (t & E & Ht).
  destruct s as [|c0 s]; [discriminate E|].
  split; [cbn [length]; lia|]. intros f pos.
  assert (P1 : pick kind_rules (low (c0 :: s)) = Some (1, a_return TK_UNDERSCORE))
    by (rewrite E; apply pick_kind1).
  assert (P0 : exists n, pick real_rules (low (c0 :: s)) = Some (n, a_less_push kind_parse)).
  { assert (Hc0 : lower_b c0 = "_"%char) by (cbn [map] in E; inversion E; reflexivity).
    destruct (pick_real (lower_b c0) (low s)) as [[X _]|[(_ & X & _)|[(_ & _ & X)|(_ & X)]]].
    - exfalso. assert (Y : exists u v, lower_b c0 :: low s = u ++ v /\ (lang r_SIGNIFICAND u \/ lang (Plus r_DIGIT) u))
        by (destruct X as [(u & v & X0 & Y)|(u & v & X0 & Y)]; eauto).
      destruct Y as (u & v & X1 & X2). apply significand_first in X2 as (d & w & -> & X3).
      cbn in X1. inversion X1; subst d. rewrite Hc0 in X3. vm_compute in X3; intuition congruence.
    - exfalso. apply starts_exponent in X as (d & u & X & Hd & _). inversion X as [[X1 X2]]. rewrite Hc0 in X1. subst d.
      discriminate Hd.
    - exact X.
    - exfalso. destruct (starts_longest _ _ H) as [m Hm].
      assert (m <= 1) by (eapply pick_max; [exact X| |exact Hm]; cbn; auto).
      apply longest_split in Hm as (u & v & _ & Hu & Hl & _).
      apply lang_cat in Hl as (a & b & -> & Ha & Hb). apply lang_cls in Ha as (d & -> & _).
      apply kind_first in Hb as (d2 & w & -> & _). cbn in Hu. lia. }
  destruct P0 as (n & P0). remember (S f) as g. cbn [yylex ls_start rules LSR]. rewrite P0. subst g.
  cbn [yylex ls_start rules ls_stack]. rewrite P1.
  replace (pos + Z.of_nat n - Z.of_nat n)%Z with pos by lia. reflexivity.
Qed.

(** the longest match of a class of characters ends where another character is *)
Lemma longest_stop : forall r s a c b n, longest r s = Some n -> s = a ++ c :: b -> lang r a ->
  (forall w, lang r w -> ~ In c w) -> n = length a.
Proof.
  intros r s a c b n H -> Ha Hc. destruct (longest_ge r a (c :: b) Ha) as (m & Hm & Hle). rewrite H in Hm. inversion Hm; subst m.
  destruct (Nat.eq_dec n (length a)) as [E|E]; [exact E|]. exfalso.
  apply longest_some in H as (H1 & H2 & _). apply (Hc _ H2).
  rewrite firstn_app, firstn_all2 by lia. destruct (n - length a) as [|k] eqn:Ek; [lia|]. cbn [firstn].
  apply in_app_iff. right. left. reflexivity.
Qed.
Lemma signed_no_under : forall w, lang r_signed w -> ~ In "_"%char w.
Proof.
  intros w H X. apply lang_cat in H as (a & b & -> & Ha & Hb). apply in_app_iff in X as [X|X].
  - apply lang_opt in Ha as [->|Ha]; [destruct X|]. apply lang_cls in Ha as (c & -> & Hc). destruct X as [->|[]]. discriminate Hc.
  - apply plus_cls in Hb as [_ Hb]. rewrite Forall_forall in Hb. apply Hb in X. discriminate X.
Qed.

Lemma low_length : forall s, length (low s) = length s.
Proof. intros s. apply map_length. Qed.

Lemma part_step : forall st s m, part st s m -> exists t j st', call1 st s t j st' /\ real_part t /\
  (m <= j \/ (j < m /\ part st' (skipn j s) (m - j))).
Proof.
  intros [x k] s m [Hm H].
  assert (W : low s = low (firstn m s) ++ low (skipn m s)) by (rewrite <- map_app, firstn_skipn; reflexivity).
  assert (Lm : length (low (firstn m s)) = m) by (rewrite map_length; apply firstn_length_le; lia).
  assert (SK : forall j, j <= m -> low (firstn (m - j) (skipn j s)) = skipn j (low (firstn m s))).
  { intros j Hj. rewrite <- firstn_map, <- !skipn_map, <- firstn_map. rewrite firstn_skipn_comm. do 2 f_equal. lia. }
  assert (LS' : forall j, j < m -> 0 < m - j <= length (skipn j s)) by (intros j Hj; rewrite skipn_length; lia).
  destruct x; unfold tail_re in H; cbn [ls_start ls_stack] in H.
  - destruct (lang_emp _ H).
  - destruct k; [|destruct (lang_emp _ H)]. apply lang_cat in H as (a & b & E & Ha & Hb).
    apply lang_opt in Ha as [->|Ha].
    + cbn [app] in E. apply opt_kind_first in Hb as [->|(t & -> & Ht)]; [rewrite E in Lm; cbn in Lm; lia|].
      exists TK_UNDERSCORE, 1, LSK. split.
      { apply real_kind. rewrite W, E. exists ("_"%char :: t), (low (skipn m s)). split; [reflexivity|].
        apply (L_cat _ _ ["_"%char] t); [constructor; reflexivity|exact Ht]. }
      split; [cbn; auto 8|]. rewrite E in Lm. cbn [length] in Lm.
      destruct (Nat.le_gt_cases m 1); [left; assumption|right]. split; [assumption|]. split; [apply LS'; assumption|].
      rewrite SK by lia. rewrite E. exact Ht.
    + exists SG_EXPONENT_LETTER, 1, LSE. split.
      { apply real_exp. rewrite W, E. exists a, (b ++ low (skipn m s)). split; [rewrite app_assoc; reflexivity|exact Ha]. }
      split; [cbn; auto 8|]. unfold r_EXPONENT in Ha. apply lang_cat in Ha as (a1 & a2 & -> & Ha1 & Ha2).
      apply lang_cls in Ha1 as (c & -> & Hc). assert (X := Ha2). apply signed_first in X as (d & w & -> & _).
      rewrite E in Lm. cbn [length app] in Lm. right. split; [lia|]. split; [apply LS'; lia|].
      rewrite SK by lia. rewrite E. cbn [app skipn]. apply (L_cat _ _ (d :: w) b); [exact Ha2|exact Hb].
  - destruct k as [|[] [|]]; try (destruct (lang_emp _ H); fail). apply lang_cat in H as (a & b & E & Ha & Hb).
    assert (St : starts r_signed (low s)) by (rewrite W, E; exists a, (b ++ low (skipn m s)); split; [rewrite app_assoc; reflexivity|exact Ha]).
    destruct (pick_exp2 _ St) as (j & P & Hj). exists SG_EXPONENT, j, LSR.
    pose proof (longest_some _ _ _ Hj) as (J1 & J2 & _). rewrite map_length in J1.
    assert (J0 : 1 <= j).
    { destruct j; [|lia]. cbn [firstn] in J2. apply signed_first in J2 as (d & w & X & _). discriminate X. }
    split.
    { split; [lia|]. intros f pos. destruct s as [|c0 s]; [cbn in J1; lia|].
      remember (S f) as g. cbn [yylex ls_start rules]. rewrite P. reflexivity. }
    split; [cbn; auto 8|].
    apply opt_kind_first in Hb as [->|(t & -> & Ht)].
    + left. rewrite app_nil_r in E. destruct (longest_ge r_signed a (low (skipn m s)) Ha) as (j' & Hj' & Hle).
      rewrite <- E, <- W in Hj'. rewrite Hj in Hj'. inversion Hj'; subst j'. rewrite <- E in Hle. lia.
    + assert (j = length a).
      { eapply (longest_stop r_signed (low s) a "_"%char (t ++ low (skipn m s))); [exact Hj| |exact Ha|exact signed_no_under].
        rewrite W, E, <- app_assoc. reflexivity. }
      subst j. right. rewrite E, app_length in Lm. cbn [length] in Lm. split; [lia|]. split; [apply LS'; lia|].
      rewrite SK by lia. rewrite E, skipn_app, skipn_all, Nat.sub_diag. cbn [skipn app].
      apply (L_cat _ _ [] ("_"%char :: t)).
      * apply lang_opt. left. reflexivity.
      * apply lang_opt. right. apply (L_cat _ _ ["_"%char] t); [constructor; reflexivity|exact Ht].
  - destruct k as [|[] [|]]; try (destruct (lang_emp _ H); fail).
    assert (St : starts r_KIND (low s)) by (rewrite W; exists (low (firstn m s)), (low (skipn m s)); auto).
    destruct (pick_kind2 _ St) as (j & P & Hj). exists SG_KIND_PARAM, j, LSR.
    pose proof (longest_some _ _ _ Hj) as (J1 & J2 & _). rewrite map_length in J1.
    destruct (longest_ge r_KIND (low (firstn m s)) (low (skipn m s)) H) as (j' & Hj' & Hle).
    rewrite <- W in Hj'. rewrite Hj in Hj'. inversion Hj'; subst j'. rewrite Lm in Hle.
    split.
    { split; [lia|]. intros f pos. destruct s as [|c0 s]; [cbn in J1; lia|].
      remember (S f) as g. cbn [yylex ls_start rules]. rewrite P. reflexivity. }
    split; [cbn; auto 8|]. left. exact Hle.
Qed.

(** * Calls, whatever the bound *)
Definition result : Type := option (Z * str) * LS * str * Z.
Definition ycall (st : LS) (s : str) (pos : Z) (x : result) : Prop := exists f, yylex f st s pos = Done x.

Lemma yylex_le : forall f g st s pos x, f <= g -> yylex f st s pos = Done x -> yylex g st s pos = Done x.
Proof. intros f g st s pos x H. induction H; auto. intro E. apply yylex_mono. auto. Qed.
Lemma ycall_det : forall st s pos x y, ycall st s pos x -> ycall st s pos y -> x = y.
Proof.
  intros st s pos x y [f Hf] [g Hg]. apply (yylex_le f (f + g)) in Hf; [|lia]. apply (yylex_le g (f + g)) in Hg; [|lia].
  congruence.
Qed.
Lemma ycall_ok : forall st s pos o st' s' p', good st s -> ycall st s pos (o, st', s', p') ->
  call_ok st s pos o st' s' p'.
Proof.
  intros st s pos o st' s' p' G H. destruct (yylex_answers (length s + 2) st s pos G) as (o1 & a & b & c & E & C); [lia|].
  assert (X : (o, st', s', p') = (o1, a, b, c)) by (eapply ycall_det; [exact H|eexists; exact E]).
  inversion X; subst. exact C.
Qed.
Lemma call1_ycall : forall st s t j st' pos, call1 st s t j st' ->
  ycall st s pos (Some (t, firstn j s), st', skipn j s, (pos + Z.of_nat j)%Z).
Proof. intros st s t j st' pos [_ H]. exists 2. apply H. Qed.
Lemma yc_ret : forall st s pos n t, s <> [] -> pick (rules (ls_start st)) (low s) = Some (n, a_return t) ->
  ycall st s pos (Some (t, firstn n s), st, skipn n s, (pos + Z.of_nat n)%Z).
Proof. intros st s pos n t Hs P. exists 1. destruct s; [contradiction|]. cbn [yylex]. rewrite P. reflexivity. Qed.
Lemma yc_pop : forall st s pos n t x k, s <> [] -> pick (rules (ls_start st)) (low s) = Some (n, a_pop_return t) ->
  ls_stack st = x :: k ->
  ycall st s pos (Some (t, firstn n s), mkLS x k, skipn n s, (pos + Z.of_nat n)%Z).
Proof. intros st s pos n t x k Hs P E. exists 1. destruct s; [contradiction|]. cbn [yylex]. rewrite P, E. reflexivity. Qed.
Lemma yc_begin : forall st s pos n x res, s <> [] -> pick (rules (ls_start st)) (low s) = Some (n, a_less_begin x) ->
  (ycall (mkLS x (ls_stack st)) s pos res <-> ycall st s pos res).
Proof.
  intros st s pos n x res Hs P. destruct s as [|c s]; [contradiction|]. 
  assert (Z : (pos + Z.of_nat n - Z.of_nat n)%Z = pos) by lia. split; intros [f H].
  - exists (S f). cbn [yylex]. rewrite P. rewrite Z. exact H.
  - destruct f as [|f]; [discriminate H|]. cbn [yylex] in H. rewrite P in H. rewrite Z in H. exists f. exact H.
Qed.
Lemma yc_eat : forall st s pos n res, s <> [] -> pick (rules (ls_start st)) (low s) = Some (n, a_eat) ->
  (ycall st (skipn n s) (pos + Z.of_nat n) res <-> ycall st s pos res).
Proof.
  intros st s pos n res Hs P. destruct s as [|c s]; [contradiction|]. split; intros [f H].
  - exists (S f). cbn [yylex]. rewrite P. exact H.
  - destruct f as [|f]; [discriminate H|]. cbn [yylex] in H. rewrite P in H. exists f. exact H.
Qed.
Lemma yl_begin : forall f st s pos n x res, s <> [] -> pick (rules (ls_start st)) (low s) = Some (n, a_less_begin x) ->
  yylex (S f) st s pos = res -> yylex f (mkLS x (ls_stack st)) s pos = res.
Proof.
  intros f st s pos n x res Hs P H. destruct s as [|c s]; [contradiction|]. cbn [yylex] in H. rewrite P in H.
  replace (pos + Z.of_nat n - Z.of_nat n)%Z with pos in H by lia. exact H.
Qed.
Lemma yl_eat : forall f st s pos n res, s <> [] -> pick (rules (ls_start st)) (low s) = Some (n, a_eat) ->
  yylex (S f) st s pos = res -> yylex f st (skipn n s) (pos + Z.of_nat n) = res.
Proof.
  intros f st s pos n res Hs P H. destruct s as [|c s]; [contradiction|]. cbn [yylex] in H. rewrite P in H. exact H.
Qed.
Lemma pick_initial_some : forall c s, c <> c_nl -> pick initial_rules (low (c :: s)) <> None.
Proof.
  intros c s Hc P. pose proof (pick_none _ _ P r_any (a_return UNKNOWN)) as X.
  rewrite longest_none in X. specialize (X ltac:(unfold initial_rules; rewrite !in_app_iff; cbn; auto 20)).
  specialize (X 1). cbn [map length firstn] in X. apply X; [lia|]. constructor.
  destruct (ceq c_nl (lower_b c)) eqn:Ec; [|reflexivity]. apply Ascii.eqb_eq in Ec. exfalso. apply Hc. apply lower_nl. auto.
Qed.

(** * A blank after the next token *)
Lemma sig_no_tail : forall w c, lang r_SIGNIFICAND w \/ lang (Plus r_DIGIT) w -> is_ed c = true \/ c = "_"%char -> ~ In c w.
Proof.
  intros w c H Hc.
  assert (D : is_digit_b c = false /\ ceq "."%char c = false).
  { destruct Hc as [Hc | ->]; [apply is_ed_inv in Hc as [-> | ->]|]; split; reflexivity. }
  destruct D as [D1 D2].
  assert (F : forall v, Forall (fun c => is_digit_b c = true) v -> ~ In c v).
  { intros v Hv X. rewrite Forall_forall in Hv. apply Hv in X. congruence. }
  destruct H as [H|H]; [apply lang_or in H as [H|H]|].
  - apply lang_cat in H as (a & b & -> & Ha & Hb). apply lang_cat in Hb as (d & e & -> & Hd & He).
    apply plus_cls in Ha as [_ Ha]. apply star_cls in He. apply lang_cls in Hd as (x & -> & Hx).
    rewrite !in_app_iff. intros [X|[[X|[]]|X]]; [exact (F _ Ha X)|subst; congruence|exact (F _ He X)].
  - apply lang_cat in H as (a & b & -> & Ha & Hb). apply lang_cls in Ha as (x & -> & Hx).
    apply plus_cls in Hb as [_ Hb]. rewrite !in_app_iff. intros [[X|[]]|X]; [subst; congruence|exact (F _ Hb X)].
  - apply plus_cls in H as [_ H]. apply F. exact H.
Qed.
Lemma tail_first : forall d, lang (Cat (Opt r_EXPONENT) r_opt_kind) d -> d <> [] ->
  exists c d', d = c :: d' /\ (is_ed c = true \/ c = "_"%char).
Proof.
  intros d H Hn. apply lang_cat in H as (a & b & -> & Ha & Hb). apply lang_opt in Ha as [->|Ha].
  - apply opt_kind_first in Hb as [->|(t & -> & _)]; [contradiction|]. exists "_"%char, t. auto.
  - unfold r_EXPONENT in Ha. apply lang_cat in Ha as (a1 & a2 & -> & Ha1 & _). apply lang_cls in Ha1 as (c & -> & Hc).
    exists c, (a2 ++ b). auto.
Qed.
Lemma begin_rule : forall r x w, In (r, a_less_begin x) initial_rules -> lang r w ->
  exists a d, w = a ++ d /\ (lang r_SIGNIFICAND a \/ lang (Plus r_DIGIT) a) /\ lang (Cat (Opt r_EXPONENT) r_opt_kind) d.
Proof.
  intros r x w H Hw. unfold initial_rules in H. rewrite !in_app_iff in H.
  assert (F : forall l, ~ In (r, a_less_begin x) (map fixed l)).
  { intros l Hin. apply in_map_iff in Hin as (e & Hin & _). discriminate Hin. }
  destruct H as [H|[H|H]]; [exfalso; eapply F; eauto|exfalso; eapply F; eauto|].
  cbn [In] in H. repeat (destruct H as [H|H]; [try discriminate H|]); [| |destruct H].
  - inversion H; subst. apply lang_cat in Hw as (a & d & -> & Ha & Hd). exists a, d. auto.
  - inversion H; subst. apply lang_cat in Hw as (a & d & -> & Ha & Hd). exists a, d. split; [reflexivity|]. split; [auto|].
    apply lang_cat in Hd as (e & k & -> & He & Hk). constructor; [|exact Hk]. apply lang_opt. right. exact He.
Qed.

(** The significand of a real literal that goes on after [u]. *)
Lemma real_cross : forall s n a d, 1 <= n <= length s -> low (firstn n s) = a ++ d ->
  lang r_SIGNIFICAND a \/ lang (Plus r_DIGIT) a -> lang (Cat (Opt r_EXPONENT) r_opt_kind) d ->
  exists j, call1 LSR s SG_SIGNIFICAND j LSR /\ (n <= j \/ (j < n /\ part LSR (skipn j s) (n - j))).
Proof.
  intros s n a d Hn E Ha Hd.
  assert (W : low s = a ++ d ++ low (skipn n s)) by (rewrite app_assoc, <- E, <- map_app, firstn_skipn; reflexivity).
  assert (Ln : length (low (firstn n s)) = n) by (rewrite map_length; apply firstn_length_le; lia).
  destruct s as [|c s]; [cbn in Hn; lia|].
  assert (St : starts_real (low (c :: s))).
  { rewrite W. destruct Ha as [Ha|Ha]; [left|right]; exists a, (d ++ low (skipn n (c :: s))); auto. }
  destruct (pick_real (lower_b c) (low s)) as [[_ (j & P)]|[[N _]|[[N _]|[N _]]]]; try contradiction.
  exists j. destruct (pick_rule real_parse _ _ _ P) as (r & Hin & Hl & Hla & Hj).
  assert (Hr : r = r_SIGNIFICAND \/ r = Plus r_DIGIT).
  { cbn [rules real_rules In] in Hin. destruct Hin as [X|[X|[X|[X|[X|[]]]]]]; inversion X; auto. }
  assert (Hj1 : length a <= j).
  { destruct Ha as [Ha|Ha]; destruct (longest_ge _ _ (d ++ low (skipn n (c :: s))) Ha) as (k & Hk & Hle);
      rewrite <- W in Hk; (eapply Nat.le_trans; [exact Hle|]); (eapply pick_max; [exact P| |exact Hk]); cbn; auto. }
  change (lower_b c :: low s) with (low (c :: s)) in *. rewrite map_length in Hj.
  split.
  { split; [exact Hj|]. intros f pos. remember (S f) as g. cbn [yylex ls_start rules LSR]. rewrite P. reflexivity. }
  destruct d as [|x d].
  { left. rewrite E, app_nil_r in Ln. lia. }
  assert (D := Hd). apply tail_first in D as (c0 & d' & D & Hc0); [|discriminate]. inversion D; subst x d'. clear D.
  assert (Ej : j = length a).
  { destruct (Nat.eq_dec j (length a)) as [X|X]; [exact X|]. exfalso.
    assert (Hw : lang r_SIGNIFICAND (firstn j (low (c :: s))) \/ lang (Plus r_DIGIT) (firstn j (low (c :: s))))
      by (destruct Hr; subst r; auto).
    apply (sig_no_tail _ _ Hw Hc0). rewrite W. rewrite firstn_app, firstn_all2 by lia.
    destruct (j - length a) as [|k] eqn:Ek; [lia|]. cbn [firstn app]. apply in_app_iff. right. left. reflexivity. }
  subst j. right. rewrite E, app_length in Ln. cbn [length] in Ln. split; [lia|]. split.
  - rewrite skipn_length. cbn [length] in *. lia.
  - change (tail_re LSR) with (Cat (Opt r_EXPONENT) r_opt_kind).
    replace (low (firstn (n - length a) (skipn (length a) (c :: s)))) with (c0 :: d); [exact Hd|].
    rewrite <- firstn_map, <- skipn_map, firstn_skipn_comm.
    replace (length a + (n - length a)) with n by lia. rewrite firstn_map, E, skipn_app, skipn_all, Nat.sub_diag. reflexivity.
Qed.

Definition after_ins (st : LS) (u r : str) (pos : Z) (t : Z) (w : str) (st1 : LS) (s1 : str) (p1 : Z) : Prop :=
  exists v, s1 = v ++ r /\
   (ycall st (u ++ sp :: r) pos (Some (t, w), st1, v ++ sp :: r, p1) \/
    (real_part t /\ exists m, length v < m /\ part st1 s1 m)).

Lemma skipn_in : forall (u r : str) j, j <= length u -> skipn j (u ++ r) = skipn j u ++ r.
Proof. intros u r j H. rewrite skipn_app. replace (j - length u) with 0 by lia. reflexivity. Qed.
Lemma not_past : forall (u r : str) n, n <= length (u ++ r) -> length r <= length (skipn n (u ++ r)) -> n <= length u.
Proof. intros u r n H. rewrite skipn_length, app_length in *. lia. Qed.

Lemma after_ret : forall st u r pos n t w st1 s1 p1, u <> [] -> good st (u ++ r) ->
  pick (rules (ls_start st)) (low (u ++ r)) = Some (n, a_return t) \/
  pick (rules (ls_start st)) (low (u ++ r)) = Some (n, a_pop_return t) ->
  ycall st (u ++ r) pos (Some (t, w), st1, s1, p1) -> length r <= length s1 ->
  after_ins st u r pos t w st1 s1 p1.
Proof.
  intros st u r pos n t w st1 s1 p1 Hu G P C Hr.
  assert (Hs : u ++ r <> []) by (destruct u; [contradiction|discriminate]).
  assert (Hs' : u ++ sp :: r <> []) by (destruct u; [contradiction|discriminate]).
  assert (Hn : n <= length (u ++ r)) by (destruct P as [P|P]; apply pick_rule in P as (? & _ & _ & _ & P); rewrite map_length in P; lia).
  destruct P as [P|P].
  - pose proof (ycall_det _ _ _ _ _ C (yc_ret _ _ pos _ _ Hs P)) as X. inversion X; subst. clear X.
    assert (N : n <= length u) by (eapply not_past; eauto).
    exists (skipn n u). rewrite skipn_in by exact N. split; [reflexivity|]. left.
    rewrite firstn_in by exact N. rewrite <- (firstn_in u (sp :: r)) by exact N. rewrite <- (skipn_in u (sp :: r)) by exact N.
    apply yc_ret; [exact Hs'|]. apply pick_same; auto.
  - destruct (ls_stack st) as [|x k] eqn:Ek.
    { exfalso. destruct C as [[|f] C]; [discriminate C|]. destruct (u ++ r); [contradiction|]. cbn [yylex] in C.
      rewrite P, Ek in C. discriminate C. }
    pose proof (ycall_det _ _ _ _ _ C (yc_pop _ _ pos _ _ _ _ Hs P Ek)) as X. inversion X; subst. clear X.
    assert (N : n <= length u) by (eapply not_past; eauto).
    exists (skipn n u). rewrite skipn_in by exact N. split; [reflexivity|]. left.
    rewrite firstn_in by exact N. rewrite <- (firstn_in u (sp :: r)) by exact N. rewrite <- (skipn_in u (sp :: r)) by exact N.
    apply yc_pop; [exact Hs'| |exact Ek]. apply pick_same; auto.
Qed.

Definition ins_at (f : nat) (st : LS) (u r : str) : Prop := forall pos t w st1 s1 p1,
  good st (u ++ r) -> ~ In c_nl (u ++ r) ->
  yylex f st (u ++ r) pos = Done (Some (t, w), st1, s1, p1) -> length r <= length s1 ->
  after_ins st u r pos t w st1 s1 p1.

Lemma ins_INITIAL : forall f k c u r, (forall st u r, ins_at f st u r) -> ins_at (S f) (mkLS INITIAL k) (c :: u) r.
Proof.
  intros f k c u r IH pos t w st1 s1 p1 G NL H Hr.
  assert (C : ycall (mkLS INITIAL k) ((c :: u) ++ r) pos (Some (t, w), st1, s1, p1)) by (exists (S f); exact H).
  assert (Hu : c :: u <> []) by discriminate.
  destruct k; [|destruct G].
  destruct (pick initial_rules (low ((c :: u) ++ r))) as [[n a]|] eqn:P.
  2:{ exfalso. apply (pick_initial_some c (u ++ r)); [|exact P]. intros ->. apply NL. left. reflexivity. }
  destruct (pick_rule INITIAL _ _ _ P) as (r0 & Hin & Hl & Hla & Hn). rewrite map_length in Hn.
  destruct (initial_plain _ _ Hin) as [[t0 ->]|[->|[-> ->]]].
  - cut (t0 = t). { intros ->. eapply after_ret; eauto. }
    pose proof (ycall_det _ _ _ _ _ C (yc_ret (mkLS INITIAL []) ((c :: u) ++ r) pos _ _ ltac:(discriminate) P)) as X. inversion X. reflexivity.
  - assert (H' : yylex f LSR ((c :: u) ++ r) pos = Done (Some (t, w), st1, s1, p1)).
    { exact (yl_begin f (mkLS INITIAL []) ((c :: u) ++ r) pos n real_parse _ ltac:(discriminate) P H). }
    destruct (Nat.le_gt_cases n (length (c :: u))) as [N|N].
    + destruct (IH LSR (c :: u) r pos t w st1 s1 p1 I NL H' Hr) as (v & Ev & [D|D]); exists v; (split; [exact Ev|]); [left|right; exact D].
      assert (P' : pick initial_rules (low ((c :: u) ++ sp :: r)) = Some (n, a_less_begin real_parse))
        by (apply (pick_same INITIAL); auto).
      apply (yc_begin (mkLS INITIAL []) _ pos n real_parse); [discriminate|exact P'|exact D].
    + rewrite firstn_map in Hla. destruct (begin_rule _ _ _ Hin Hla) as (a & d & E & Ha & Hd).
      destruct (real_cross _ _ _ _ Hn E Ha Hd) as (j & Cj & Hj).
      pose proof (ycall_det _ _ _ _ _ (ex_intro _ f H') (call1_ycall _ _ _ _ _ pos Cj)) as X. inversion X; subst. clear X.
      destruct Cj as [Cj _].
      assert (N2 : j <= length (c :: u)) by (eapply not_past; [|exact Hr]; lia).
      change (c :: u ++ r) with ((c :: u) ++ r) in *. exists (skipn j (c :: u)). rewrite skipn_in by exact N2. split; [reflexivity|]. right. split; [cbn; auto|].
      destruct Hj as [Hj|[Hj Q]]; [lia|]. exists (n - j). split; [rewrite skipn_length; lia|].
      rewrite <- skipn_in by exact N2. exact Q.
  - apply lang_cls in Hla as (d & E & Hd).
    assert (n = 1). { apply f_equal with (f := @length ascii) in E. rewrite firstn_length_le in E by (rewrite map_length; lia). exact E. }
    subst n.
    assert (H' : yylex f (mkLS INITIAL []) (u ++ r) (pos + 1) = Done (Some (t, w), st1, s1, p1)).
    { exact (yl_eat f (mkLS INITIAL []) ((c :: u) ++ r) pos 1 _ ltac:(discriminate) P H). }
    destruct (IH (mkLS INITIAL []) u r (pos + 1)%Z t w st1 s1 p1 I) as (v & Ev & D); auto.
    { intro X. apply NL. right. exact X. }
    exists v. split; [exact Ev|]. destruct D as [D|D]; [left|right; exact D].
    assert (P' : pick initial_rules (low ((c :: u) ++ sp :: r)) = Some (1, a_eat))
      by (apply (pick_same INITIAL); auto; cbn; lia).
    apply (yc_eat (mkLS INITIAL []) _ pos 1); [discriminate|exact P'|exact D].
Qed.
Lemma ins_real_parse : forall f k c u r, (forall st u r, ins_at f st u r) -> ins_at (S f) (mkLS real_parse k) (c :: u) r.
Proof.
  intros f k c u r IH pos t w st1 s1 p1 G NL H Hr.
  assert (C : ycall (mkLS real_parse k) ((c :: u) ++ r) pos (Some (t, w), st1, s1, p1)) by (exists (S f); exact H).
  assert (Hu : c :: u <> []) by discriminate.
  destruct k; [|destruct G].
  destruct (pick_real (lower_b c) (low (u ++ r))) as [(_ & n & P)|[(_ & X & n & P)|[(_ & X & n & P)|(_ & P)]]].
  - cut (SG_SIGNIFICAND = t). { intros <-. eapply after_ret; eauto. }
    pose proof (ycall_det _ _ _ _ _ C (yc_ret (mkLS real_parse []) ((c :: u) ++ r) pos _ _ ltac:(discriminate) P)) as X. inversion X. reflexivity.
  - pose proof (real_exp ((c :: u) ++ r) X) as C1.
    pose proof (ycall_det _ _ _ _ _ C (call1_ycall _ _ _ _ _ pos C1)) as Y. inversion Y; subst. clear Y.
    cbn [skipn app] in *. exists u. split; [reflexivity|].
    destruct (pick_rule real_parse _ _ _ P) as (r0 & Hin & Hl & Hla & Hn).
    cbn [rules real_rules In] in Hin. destruct Hin as [Y|[Y|[Y|[Y|[Y|[]]]]]]; inversion Y; subst r0. clear Y.
    destruct (Nat.le_gt_cases n (length (c :: u))) as [N|N].
    + left. assert (P' : pick real_rules (low ((c :: u) ++ sp :: r)) = Some (n, a_less_push exp_parse))
        by (apply (pick_same real_parse); auto; discriminate).
      destruct (pick_rule real_parse _ _ _ P') as (r0 & Hin & Hl' & _).
      cbn [rules real_rules In] in Hin. destruct Hin as [Y|[Y|[Y|[Y|[Y|[]]]]]]; inversion Y; subst r0. clear Y.
      apply longest_starts in Hl'. apply real_exp in Hl'. apply call1_ycall with (pos := pos) in Hl'. exact Hl'.
    + right. split; [cbn; auto|]. exists (n - 1). cbn [length] in N, Hn. rewrite map_length in Hn. split; [lia|]. split; [lia|].
      change (tail_re LSE) with (Cat r_signed r_opt_kind).
      destruct n as [|n]; [lia|]. cbn [firstn] in Hla. rewrite firstn_map in Hla.
      apply lang_cat in Hla as (a & b & E & Ha & Hb). apply lang_cls in Ha as (d & -> & _). cbn [app] in E. inversion E as [[E1 E2]].
      cbn [Nat.sub]. rewrite Nat.sub_0_r, E2. rewrite <- (app_nil_r b). constructor; [exact Hb|]. apply lang_opt. left. reflexivity.
  - pose proof (real_kind ((c :: u) ++ r) X) as C1.
    pose proof (ycall_det _ _ _ _ _ C (call1_ycall _ _ _ _ _ pos C1)) as Y. inversion Y; subst. clear Y.
    cbn [skipn app] in *. exists u. split; [reflexivity|].
    destruct (pick_rule real_parse _ _ _ P) as (r0 & Hin & Hl & Hla & Hn).
    cbn [rules real_rules In] in Hin. destruct Hin as [Y|[Y|[Y|[Y|[Y|[]]]]]]; inversion Y; subst r0. clear Y.
    destruct (Nat.le_gt_cases n (length (c :: u))) as [N|N].
    + left. assert (P' : pick real_rules (low ((c :: u) ++ sp :: r)) = Some (n, a_less_push kind_parse))
        by (apply (pick_same real_parse); auto; discriminate).
      destruct (pick_rule real_parse _ _ _ P') as (r0 & Hin & Hl' & _).
      cbn [rules real_rules In] in Hin. destruct Hin as [Y|[Y|[Y|[Y|[Y|[]]]]]]; inversion Y; subst r0. clear Y.
      apply longest_starts in Hl'. apply real_kind in Hl'. apply call1_ycall with (pos := pos) in Hl'. exact Hl'.
    + right. split; [cbn; auto 8|]. exists (n - 1). cbn [length] in N, Hn. rewrite map_length in Hn. split; [lia|]. split; [lia|].
      change (tail_re LSK) with r_KIND.
      destruct n as [|n]; [lia|]. cbn [firstn] in Hla. rewrite firstn_map in Hla.
      apply lang_cat in Hla as (a & b & E & Ha & Hb). apply lang_cls in Ha as (d & -> & _). cbn [app] in E. inversion E as [[E1 E2]].
      cbn [Nat.sub]. rewrite Nat.sub_0_r, E2. exact Hb.
  - change (lower_b c :: low (u ++ r)) with (low ((c :: u) ++ r)) in P.
    assert (H' : yylex f (mkLS INITIAL []) ((c :: u) ++ r) pos = Done (Some (t, w), st1, s1, p1)).
    { exact (yl_begin f (mkLS real_parse []) ((c :: u) ++ r) pos 1 INITIAL _ ltac:(discriminate) P H). }
    destruct (IH (mkLS INITIAL []) (c :: u) r pos t w st1 s1 p1 I NL H' Hr) as (v & Ev & [D|D]); exists v; (split; [exact Ev|]); [left|right; exact D].
    assert (P' : pick real_rules (low ((c :: u) ++ sp :: r)) = Some (1, a_less_begin INITIAL))
      by (apply (pick_same real_parse); auto; cbn; lia).
    apply (yc_begin (mkLS real_parse []) _ pos 1 INITIAL); [discriminate|exact P'|exact D].
Qed.
Lemma ins_exp_parse : forall f k c u r, (forall st u r, ins_at f st u r) -> ins_at (S f) (mkLS exp_parse k) (c :: u) r.
Proof.
  intros f k c u r IH pos t w st1 s1 p1 G NL H Hr.
  assert (C : ycall (mkLS exp_parse k) ((c :: u) ++ r) pos (Some (t, w), st1, s1, p1)) by (exists (S f); exact H).
  assert (Hu : c :: u <> []) by discriminate.
  destruct k as [|[] [|]]; try (destruct G; fail).
  assert (P : exists n t0, pick exp_rules (low ((c :: u) ++ r)) = Some (n, a_return t0) \/ pick exp_rules (low ((c :: u) ++ r)) = Some (n, a_pop_return t0)).
  { destruct G as [G|G].
    - apply starts_exponent in G as (d & s & E & Hd & _). rewrite E. rewrite pick_exp1 by exact Hd. eauto.
    - apply pick_exp2 in G as (n & P & _). eauto. }
  destruct P as (n & t0 & P). cut (t0 = t). { intros ->. eapply after_ret; eauto. }
  destruct P as [P|P].
  - pose proof (ycall_det _ _ _ _ _ C (yc_ret (mkLS exp_parse [real_parse]) ((c :: u) ++ r) pos _ _ ltac:(discriminate) P)) as X. inversion X. reflexivity.
  - pose proof (ycall_det _ _ _ _ _ C (yc_pop (mkLS exp_parse [real_parse]) ((c :: u) ++ r) pos _ _ _ _ ltac:(discriminate) P eq_refl)) as X. inversion X. reflexivity.
Qed.
Lemma ins_kind_parse : forall f k c u r, (forall st u r, ins_at f st u r) -> ins_at (S f) (mkLS kind_parse k) (c :: u) r.
Proof.
  intros f k c u r IH pos t w st1 s1 p1 G NL H Hr.
  assert (C : ycall (mkLS kind_parse k) ((c :: u) ++ r) pos (Some (t, w), st1, s1, p1)) by (exists (S f); exact H).
  assert (Hu : c :: u <> []) by discriminate.
  destruct k as [|[] [|]]; try (destruct G; fail).
  assert (P : exists n t0, pick kind_rules (low ((c :: u) ++ r)) = Some (n, a_return t0) \/ pick kind_rules (low ((c :: u) ++ r)) = Some (n, a_pop_return t0)).
  { destruct G as [G|G].
    - apply starts_under in G as (s & E & _). rewrite E. rewrite pick_kind1. eauto.
    - apply pick_kind2 in G as (n & P & _). eauto. }
  destruct P as (n & t0 & P). cut (t0 = t). { intros ->. eapply after_ret; eauto. }
  destruct P as [P|P].
  - pose proof (ycall_det _ _ _ _ _ C (yc_ret (mkLS kind_parse [real_parse]) ((c :: u) ++ r) pos _ _ ltac:(discriminate) P)) as X. inversion X. reflexivity.
  - pose proof (ycall_det _ _ _ _ _ C (yc_pop (mkLS kind_parse [real_parse]) ((c :: u) ++ r) pos _ _ _ _ ltac:(discriminate) P eq_refl)) as X. inversion X. reflexivity.
Qed.

Lemma call_ins : forall f st u r, ins_at f st u r.
Proof.
  induction f as [|f IH]; intros st u r; [intros pos t w st1 s1 p1 G NL H Hr; discriminate H|].
  destruct u as [|c u].
  - intros pos t w st1 s1 p1 G NL H Hr. exfalso.
    assert (C : ycall st r pos (Some (t, w), st1, s1, p1)) by (exists (S f); exact H).
    pose proof (ycall_ok _ _ _ _ _ _ _ G C) as (g & _ & E & Hw & _). assert (E2 := f_equal (@length ascii) E).
    rewrite !app_length in E2. destruct w; [contradiction|]. cbn [length] in E2. lia.
  - destruct st as [x k]. destruct x; [apply ins_INITIAL|apply ins_real_parse|apply ins_exp_parse|apply ins_kind_parse]; exact IH.
Qed.

(** * All calls *)
Inductive toks : LS -> str -> Z -> list lexeme -> LS -> Prop :=
| toks_end : forall st s pos st' s' p', ycall st s pos (None, st', s', p') -> toks st s pos [] st'
| toks_tok : forall st s pos t w st1 s1 p1 l st', ycall st s pos (Some (t, w), st1, s1, p1) ->
    toks st1 s1 p1 l st' -> toks st s pos ((t, w, p1) :: l) st'.

Lemma toks_inv : forall st s pos t w e l st', toks st s pos ((t, w, e) :: l) st' ->
  exists st1 s1, ycall st s pos (Some (t, w), st1, s1, e) /\ toks st1 s1 e l st'.
Proof. intros st s pos t w e l st' H. inversion H; subst. eauto. Qed.
Lemma toks_det : forall st s pos l st1, toks st s pos l st1 -> forall l' st2, toks st s pos l' st2 -> l = l' /\ st1 = st2.
Proof.
  intros st s pos l st1 H. induction H; intros l' st2 H2; inversion H2; subst.
  - pose proof (ycall_det _ _ _ _ _ H H0) as X. inversion X. auto.
  - pose proof (ycall_det _ _ _ _ _ H H0) as X. discriminate X.
  - pose proof (ycall_det _ _ _ _ _ H H1) as X. discriminate X.
  - pose proof (ycall_det _ _ _ _ _ H H1) as X. inversion X; subst. destruct (IHtoks _ _ H3) as [-> ->]. auto.
Qed.
Lemma scan_toks : forall f st s pos l st', good st s -> scan f st s pos = Done (l, st') -> toks st s pos l st'.
Proof.
  induction f as [|f IH]; intros st s pos l st' G H; [discriminate H|]. cbn [scan] in H.
  destruct (yylex (S f) st s pos) as [[[[o st1] s1] p1]| |] eqn:E; cbn [obind] in H; try discriminate H.
  assert (C : ycall st s pos (o, st1, s1, p1)) by (exists (S f); exact E).
  destruct o as [[t w]|].
  - pose proof (ycall_ok _ _ _ _ _ _ _ G C) as (g & _ & _ & _ & _ & G1 & x & Hx).
    rewrite (chosen_tag _ _ _ _ Hx) in H.
    destruct (scan f st1 s1 p1) as [[l1 st2]| |] eqn:E1; cbn [obind] in H; try discriminate H. inversion H; subst.
    econstructor; [exact C|]. eapply IH; eauto.
  - inversion H; subst. econstructor. exact C.
Qed.
Lemma toks_scan : forall st s pos l st', good st s -> toks st s pos l st' -> scan (scan_fuel s) st s pos = Done (l, st').
Proof.
  intros st s pos l st' G H. destruct (scan_ok (scan_fuel s) st s pos G (Nat.le_refl _)) as (l2 & st2 & E & _).
  destruct (toks_det _ _ _ _ _ H _ _ (scan_toks _ _ _ _ _ _ G E)) as [-> ->]. exact E.
Qed.
Lemma toks_total : forall st s pos, good st s -> exists l st', toks st s pos l st' /\ idle st'.
Proof.
  intros st s pos G. destruct (scan_ok (scan_fuel s) st s pos G (Nat.le_refl _)) as (l2 & st2 & E & _ & I2).
  exists l2, st2. split; [|exact I2]. eapply scan_toks; eauto.
Qed.

Lemma yylex_shift : forall d f st s pos o st' s' p', yylex f st s pos = Done (o, st', s', p') ->
  yylex f st s (pos + d) = Done (o, st', s', (p' + d)%Z).
Proof.
  intros d. induction f as [|f IH]; intros st s pos o st' s' p' H; [discriminate H|].
  destruct s as [|c s]; [cbn [yylex] in *; inversion H; subst; reflexivity|].
  cbn [yylex] in *. destruct (pick (rules (ls_start st)) (low (c :: s))) as [[n a]|].
  - destruct a.
    + inversion H; subst. replace (pos + d + Z.of_nat n)%Z with (pos + Z.of_nat n + d)%Z by lia. reflexivity.
    + destruct (ls_stack st); [discriminate H|]. inversion H; subst.
      replace (pos + d + Z.of_nat n)%Z with (pos + Z.of_nat n + d)%Z by lia. reflexivity.
    + replace (pos + d + Z.of_nat n - Z.of_nat n)%Z with (pos + Z.of_nat n - Z.of_nat n + d)%Z by lia. auto.
    + replace (pos + d + Z.of_nat n - Z.of_nat n)%Z with (pos + Z.of_nat n - Z.of_nat n + d)%Z by lia. auto.
    + replace (pos + d + Z.of_nat n)%Z with (pos + Z.of_nat n + d)%Z by lia. auto.
  - replace (pos + d + 1)%Z with (pos + 1 + d)%Z by lia. auto.
Qed.
Definition shifted (d : Z) (x : lexeme) : lexeme := let '(t, w, e) := x in (t, w, (e + d)%Z).
Lemma toks_shift : forall d st s pos l st', toks st s pos l st' -> toks st s (pos + d) (map (shifted d) l) st'.
Proof.
  intros d st s pos l st' H. induction H.
  - destruct H as [f H]. econstructor. exists f. eapply yylex_shift; eauto.
  - destruct H as [f H]. cbn [map shifted]. econstructor; [|exact IHtoks]. exists f. apply yylex_shift. exact H.
Qed.

(** * Gaps *)
Lemma eat_gap : forall c s, gap_char c -> c <> c_nl -> pick initial_rules (low (c :: s)) = Some (1, a_eat).
Proof.
  intros c s Hc NL. destruct (pick initial_rules (low (c :: s))) as [[n a]|] eqn:P.
  2:{ exfalso. exact (pick_initial_some _ _ NL P). }
  destruct (pick_rule INITIAL _ _ _ P) as (r & Hin & Hl & Hla & Hn). rewrite map_length in Hn.
  destruct (initial_plain _ _ Hin) as [[t ->]|[->|[-> ->]]].
  - exfalso. assert (X : chosen INITIAL t (firstn n (c :: s)) (skipn n (c :: s))).
    { exists (a_return t). rewrite firstn_skipn, firstn_length_le by lia. split; [exact P|left; reflexivity]. }
    apply chosen_form in X as [X _]. destruct n as [|n]; [lia|].
    exact (form_first _ _ _ _ X eq_refl Hc).
  - exfalso. destruct (initial_begin _ _ Hin) as [_ Hr]. specialize (Hr _ Hla).
    assert (Y : exists u v, firstn n (low (c :: s)) = u ++ v /\ (lang r_SIGNIFICAND u \/ lang (Plus r_DIGIT) u))
      by (destruct Hr as [(u & v & X0 & Y)|(u & v & X0 & Y)]; eauto).
    destruct Y as (u & v & X1 & X2). apply significand_first in X2 as (d & w & -> & X3).
    destruct n as [|n]; [lia|]. cbn in X1. inversion X1; subst d.
    destruct Hc as [<-|[<-|[<-|[<-|[]]]]]; vm_compute in X3; intuition discriminate.
  - apply lang_cls in Hla as (d & E & _). apply f_equal with (f := @length ascii) in E.
    rewrite firstn_length_le in E by (rewrite map_length; lia). cbn in E. subst n. reflexivity.
Qed.
Lemma real_gap : forall c s, gap_char c -> pick real_rules (low (c :: s)) = Some (1, a_less_begin INITIAL).
Proof.
  intros c s Hc. cbn [map].
  destruct (pick_real (lower_b c) (low s)) as [[X _]|[(_ & X & _)|[(_ & X & _)|(_ & X)]]]; [| | |exact X]; exfalso.
  - assert (Y : exists u v, lower_b c :: low s = u ++ v /\ (lang r_SIGNIFICAND u \/ lang (Plus r_DIGIT) u))
      by (destruct X as [(u & v & X0 & Y)|(u & v & X0 & Y)]; eauto).
    destruct Y as (u & v & X1 & X2). apply significand_first in X2 as (d & w & -> & X3).
    cbn in X1. inversion X1; subst d.
    destruct Hc as [<-|[<-|[<-|[<-|[]]]]]; vm_compute in X3; intuition discriminate.
  - apply starts_exponent in X as (d & u & X & Hd & _). inversion X; subst d.
    destruct Hc as [<-|[<-|[<-|[<-|[]]]]]; discriminate Hd.
  - apply starts_under in X as (u & X & _). inversion X as [[X1 X2]].
    destruct Hc as [<-|[<-|[<-|[<-|[]]]]]; discriminate X1.
Qed.
Lemma gap_ycall : forall st c s pos res, gap_char c -> c <> c_nl -> idle st ->
  (ycall st (c :: s) pos res <-> ycall ls_init s (pos + 1) res).
Proof.
  intros st c s pos res Hc NL Hst.
  assert (A : ycall ls_init (c :: s) pos res <-> ycall ls_init s (pos + 1) res)
    by (symmetry; apply (yc_eat ls_init (c :: s) pos 1); [discriminate|apply eat_gap; assumption]).
  destruct Hst as [-> | ->]; [exact A|].
  rewrite <- A. symmetry. apply (yc_begin (mkLS real_parse []) (c :: s) pos 1 INITIAL); [discriminate|apply real_gap; assumption].
Qed.
Lemma same_toks : forall st s pos st2 s2 pos2 l st', (forall res, ycall st s pos res -> ycall st2 s2 pos2 res) ->
  toks st s pos l st' -> toks st2 s2 pos2 l st'.
Proof. intros st s pos st2 s2 pos2 l st' H T. destruct T; econstructor; eauto. Qed.
Lemma gap_toks : forall st c s pos l st', gap_char c -> c <> c_nl -> idle st ->
  (toks st (c :: s) pos l st' <-> toks ls_init s (pos + 1) l st').
Proof.
  intros st c s pos l st' Hc NL Hst. split; apply same_toks; intros res; apply gap_ycall; assumption.
Qed.
Lemma gaps_toks : forall g st s pos l st', g <> [] -> Forall gap_char g -> ~ In c_nl g -> idle st ->
  (toks st (g ++ s) pos l st' <-> toks ls_init s (pos + zlen g) l st').
Proof.
  induction g as [|c g IH]; intros st s pos l st' Hn Hg NL Hst; [contradiction|].
  inversion Hg; subst. assert (c <> c_nl) by (intros ->; apply NL; left; reflexivity).
  cbn [app]. rewrite gap_toks by assumption. destruct g as [|c2 g].
  - cbn [app]. replace (pos + zlen [c])%Z with (pos + 1)%Z by (unfold zlen; cbn; lia). reflexivity.
  - rewrite IH; [| discriminate | assumption | intro X; apply NL; right; exact X | left; reflexivity].
    replace (pos + 1 + zlen (c2 :: g))%Z with (pos + zlen (c :: c2 :: g))%Z by (unfold zlen; cbn [length]; lia). reflexivity.
Qed.

(** * The rest of a literal across the joint *)
Definition ends_by (b : Z) (l : list lexeme) : Prop := Forall (fun x => let '(_, _, e) := x in e <= b)%Z l.
Definition starts_at (b : Z) (l : list lexeme) : Prop :=
  match l with [] => True | (_, w, e) :: _ => (b <= e - zlen w)%Z end.
Definition first_real (l : list lexeme) : Prop := match l with [] => False | (t, _, _) :: _ => real_part t end.
Definition last_real (l : list lexeme) : Prop := exists l0 t w e, l = l0 ++ [(t, w, e)] /\ real_part t.

Lemma cross_run : forall l1 st v r m pos l2 st', part st (v ++ r) m -> length v < m ->
  toks st (v ++ r) pos (l1 ++ l2) st' -> ends_by (pos + zlen v) l1 -> first_real l2 /\ (l1 = [] \/ last_real l1).
Proof.
  induction l1 as [|[[t w] e] l1 IH]; intros st v r m pos l2 st' P Hm T E.
  - split; [|auto]. destruct (part_step _ _ _ P) as (t & j & st1 & C & Ht & _).
    apply call1_ycall with (pos := pos) in C. cbn [app] in T. inversion T; subst.
    + pose proof (ycall_det _ _ _ _ _ C H) as X. discriminate X.
    + pose proof (ycall_det _ _ _ _ _ C H) as X. inversion X; subst. exact Ht.
  - destruct (part_step _ _ _ P) as (t' & j & st1 & C & Ht & D). assert (C' := C).
    apply call1_ycall with (pos := pos) in C. cbn [app] in T.
    apply toks_inv in T as (st2 & s2 & H6 & H8).
    pose proof (ycall_det _ _ _ _ _ C H6) as X. inversion X; subst. clear X.
    inversion E as [|? ? E1 E2]; subst. unfold zlen in E1. destruct D as [D|[D1 D2]]; [lia|].
    assert (J : j <= length v) by lia. rewrite skipn_in in D2, H8 by exact J.
    destruct (IH _ _ _ _ _ _ _ D2 ltac:(rewrite skipn_length; lia) H8) as [F Hl].
    + replace (pos + Z.of_nat j + zlen (skipn j v))%Z with (pos + zlen v)%Z by (unfold zlen; rewrite skipn_length; lia). exact E2.
    + split; [exact F|]. right. destruct Hl as [->|(l0 & t0 & w0 & e0 & -> & Hr)].
      * eexists [], t, _, _. split; [reflexivity|exact Ht].
      * exists ((t, firstn j (v ++ r), (pos + Z.of_nat j)%Z) :: l0), t0, w0, e0. auto.
Qed.

Lemma gap_prefix : forall (u r g s : str), u ++ r = g ++ s -> length u <= length g -> exists g2, g = u ++ g2 /\ r = g2 ++ s.
Proof.
  induction u as [|c u IH]; intros r g s E H; [exists g; auto|].
  destruct g as [|d g]; [cbn in H; lia|]. cbn in E. inversion E; subst. destruct (IH _ _ _ H2) as (g2 & -> & ->); [cbn in H; lia|].
  exists g2. auto.
Qed.
Lemma good_gap : forall st c s, good st (c :: s) -> gap_char c -> idle st.
Proof.
  intros [x k] c s G Hc. unfold good in G. cbn [ls_start ls_stack] in G. destruct x.
  - destruct k; [left; reflexivity|destruct G].
  - destruct k; [right; reflexivity|destruct G].
  - exfalso. destruct k as [|[] [|]]; try (destruct G; fail). destruct G as [G|G].
    + apply starts_exponent in G as (d & u & X & Hd & _). inversion X; subst d.
      destruct Hc as [<-|[<-|[<-|[<-|[]]]]]; discriminate Hd.
    + destruct G as (u & v & X & Hu). apply signed_first in Hu as (d & w & -> & Hd). cbn in X. inversion X; subst d.
      destruct Hc as [<-|[<-|[<-|[<-|[]]]]]; vm_compute in Hd; intuition discriminate.
  - exfalso. destruct k as [|[] [|]]; try (destruct G; fail). destruct G as [G|G].
    + apply starts_under in G as (u & X & _). inversion X as [[X1 X2]].
      destruct Hc as [<-|[<-|[<-|[<-|[]]]]]; discriminate X1.
    + destruct G as (u & v & X & Hu). apply kind_first in Hu as (d & w & -> & Hd). cbn in X. inversion X; subst d.
      destruct Hc as [<-|[<-|[<-|[<-|[]]]]]; vm_compute in Hd; intuition discriminate.
Qed.

(** what a call returns in the states of a real literal *)
Lemma mid_real : forall st s pos o st' s' p', good st s -> s <> [] -> ~ idle st ->
  ycall st s pos (o, st', s', p') -> exists t w, o = Some (t, w) /\ real_part t.
Proof.
  intros [x k] s pos o st' s' p' G Hs NI C. unfold good in G. cbn [ls_start ls_stack] in G. destruct x.
  - destruct k; [|destruct G]. exfalso. apply NI. left. reflexivity.
  - destruct k; [|destruct G]. exfalso. apply NI. right. reflexivity.
  - destruct k as [|[] [|]]; try (destruct G; fail). destruct G as [G|G].
    + apply starts_exponent in G as (d & u & E & Hd & _).
      pose proof (ycall_det _ _ _ _ _ C (yc_ret (mkLS exp_parse [real_parse]) s pos _ _ Hs ltac:(rewrite E; apply pick_exp1; exact Hd))) as X.
      inversion X; subst. do 2 eexists. split; [reflexivity|]. cbn; auto.
    + apply pick_exp2 in G as (n & P & _).
      pose proof (ycall_det _ _ _ _ _ C (yc_pop (mkLS exp_parse [real_parse]) s pos _ _ _ _ Hs P eq_refl)) as X.
      inversion X; subst. do 2 eexists. split; [reflexivity|]. cbn; auto.
  - destruct k as [|[] [|]]; try (destruct G; fail). destruct G as [G|G].
    + apply starts_under in G as (u & E & _).
      pose proof (ycall_det _ _ _ _ _ C (yc_ret (mkLS kind_parse [real_parse]) s pos _ _ Hs ltac:(rewrite E; apply pick_kind1))) as X.
      inversion X; subst. do 2 eexists. split; [reflexivity|]. cbn; auto 8.
    + apply pick_kind2 in G as (n & P & _).
      pose proof (ycall_det _ _ _ _ _ C (yc_pop (mkLS kind_parse [real_parse]) s pos _ _ _ _ Hs P eq_refl)) as X.
      inversion X; subst. do 2 eexists. split; [reflexivity|]. cbn; auto 8.
Qed.
(** a scanner that is still in a real literal has returned a part of one *)
Lemma left_real : forall f st s pos t w st1 s1 p1, yylex f st s pos = Done (Some (t, w), st1, s1, p1) ->
  ls_start st1 <> INITIAL -> real_part t.
Proof.
  assert (R : forall x r t, In (r, a_return t) (rules x) -> x <> INITIAL -> real_part t).
  { intros x r t H Hx. destruct x; [contradiction| | |].
    - cbn [rules real_rules In] in H. destruct H as [E|[E|[E|[E|[E|[]]]]]]; inversion E; subst; cbn; auto.
    - cbn [rules exp_rules In] in H. destruct H as [E|[E|[]]]; inversion E; subst; cbn; auto.
    - cbn [rules kind_rules In] in H. destruct H as [E|[E|[]]]; inversion E; subst; cbn; auto 8. }
  induction f as [|f IH]; intros st s pos t w st1 s1 p1 H Hst; [discriminate H|].
  destruct s as [|c s]; [discriminate H|]. cbn [yylex] in H.
  destruct (pick (rules (ls_start st)) (low (c :: s))) as [[n a]|] eqn:P; [|eapply IH; eauto].
  apply pick_rule in P as (r & Hin & _). pose proof (rules_shape _ _ _ Hin) as X. destruct a; try (eapply IH; eauto; fail).
  - inversion H; subst. eapply R; eauto.
  - destruct (ls_stack st); [discriminate H|]. inversion H; subst. exact X.
Qed.
Lemma good_initial : forall st s, good st s -> ls_start st = INITIAL -> st = ls_init.
Proof. intros [x k] s G E. cbn in E. subst x. destruct k; [reflexivity|destruct G]. Qed.

(** * One blank *)
(** the tokens at the end of [l1] and the beginning of [l2] are not both parts of a real literal *)
Definition joint_free (l1 l2 : list lexeme) : Prop := ~ (last_real l1 /\ first_real l2).

Lemma first_is : forall st s pos t w st1 s1 p1 l st', ycall st s pos (Some (t, w), st1, s1, p1) ->
  toks st s pos l st' -> real_part t -> first_real l.
Proof.
  intros st s pos t w st1 s1 p1 l st' C T Ht. inversion T; subst.
  - pose proof (ycall_det _ _ _ _ _ C H) as X. discriminate X.
  - pose proof (ycall_det _ _ _ _ _ C H) as X. inversion X; subst. exact Ht.
Qed.
Lemma fresh_toks : forall s pos l st', s <> [] -> ~ first_real l -> toks LSR s pos l st' -> toks ls_init s pos l st'.
Proof.
  intros s pos l st' Hs N T. destruct s as [|c s]; [contradiction|].
  destruct (pick_real (lower_b c) (low s)) as [(_ & n & P)|[(_ & X & _)|[(_ & X & _)|(_ & P)]]].
  - exfalso. apply N. eapply first_is; [exact (yc_ret LSR (c :: s) pos _ _ ltac:(discriminate) P)|exact T|]. cbn; auto.
  - exfalso. apply N. eapply first_is; [exact (call1_ycall _ _ _ _ _ pos (real_exp (c :: s) X))|exact T|]. cbn; auto.
  - exfalso. apply N. eapply first_is; [exact (call1_ycall _ _ _ _ _ pos (real_kind (c :: s) X))|exact T|]. cbn; auto 8.
  - revert T. apply same_toks. intros res C.
    apply (yc_begin LSR (c :: s) pos 1 INITIAL); [discriminate|exact P|exact C].
Qed.
Lemma idle_first : forall st s pos l st', good st s -> s <> [] -> ~ first_real l -> toks st s pos l st' -> idle st.
Proof.
  intros st s pos l st' G Hs N T.
  assert (D : idle st \/ ~ idle st).
  { destruct st as [[] [|]]; try (left; left; reflexivity); try (left; right; reflexivity); right; intros [X|X]; discriminate X. }
  destruct D as [D|NI]; [exact D|]. exfalso. inversion T; subst.
  - destruct (mid_real _ _ _ _ _ _ _ G Hs NI H) as (? & ? & X & _). discriminate X.
  - destruct (mid_real _ _ _ _ _ _ _ G Hs NI H) as (? & ? & X & Y). inversion X; subst. apply N. exact Y.
Qed.

Lemma toks_ins : forall l1 st u r pos l2 st', good st (u ++ r) -> ~ In c_nl (u ++ r) -> r <> [] ->
  toks st (u ++ r) pos (l1 ++ l2) st' -> ends_by (pos + zlen u) l1 -> starts_at (pos + zlen u) l2 ->
  joint_free l1 l2 -> (l1 = [] -> u = [] -> st = ls_init \/ ~ first_real l2) ->
  toks st (u ++ sp :: r) pos (l1 ++ map (shifted 1) l2) st'.
Proof.
  induction l1 as [|[[t w] e] l1 IH]; intros st u r pos l2 st' G NL Hr T E B J F.
  - cbn [app] in *.
    destruct u as [|c u].
    + (* nothing before the blank *)
      cbn [app] in *. destruct (F eq_refl eq_refl) as [->|N].
      { apply gap_toks; [left; reflexivity|discriminate|left; reflexivity|]. apply toks_shift. exact T. }
      pose proof (idle_first _ _ _ _ _ G Hr N T) as I0.
      apply gap_toks; [left; reflexivity|discriminate|exact I0|]. apply toks_shift.
      destruct I0 as [-> | ->]; [exact T|]. apply fresh_toks; assumption.
    + (* only a gap before the blank *)
      assert (Gu : Forall gap_char (c :: u)).
      { inversion T; subst.
        - pose proof (ycall_ok _ _ _ _ _ _ _ G H) as (g & Hg & Eg & _). rewrite <- Eg in Hg.
          apply Forall_app in Hg as [Hg _]. exact Hg.
        - pose proof (ycall_ok _ _ _ _ _ _ _ G H) as (g & Hg & Eg & _ & Ep & _). cbn [starts_at] in B.
          destruct (gap_prefix (c :: u) r g (w ++ s1) Eg) as (g2 & -> & _); [unfold zlen in *; lia|].
          apply Forall_app in Hg as [Hg _]. exact Hg. }
      assert (I0 : idle st) by (inversion Gu; subst; eapply good_gap; [exact G|assumption]).
      assert (NLu : ~ In c_nl (c :: u)) by (intro X; apply NL; apply in_app_iff; left; exact X).
      apply gaps_toks in T; [|discriminate|exact Gu|exact NLu|exact I0].
      apply gaps_toks; [discriminate|exact Gu|exact NLu|exact I0|].
      apply gap_toks; [left; reflexivity|discriminate|left; reflexivity|]. apply toks_shift. exact T.
  - cbn [app] in T |- *. apply toks_inv in T as (st1 & s1 & C & T1).
    inversion E as [|? ? E1 E2]; subst.
    pose proof (ycall_ok _ _ _ _ _ _ _ G C) as (g & Hg & Eg & Hw & Ep & G1 & _).
    assert (Hlen : length r <= length s1).
    { apply f_equal with (f := @length ascii) in Eg. rewrite !app_length in Eg. unfold zlen in *. lia. }
    assert (C' := C). destruct C' as [f C'].
    destruct (call_ins f st u r pos t w st1 s1 e G NL C' Hlen) as (v & -> & [D|(Ht & m & Hm & P)]).
    + assert (Hp : (e + zlen v = pos + zlen u)%Z).
      { apply f_equal with (f := @length ascii) in Eg. rewrite !app_length in Eg. unfold zlen in *. lia. }
      econstructor; [exact D|]. apply IH.
      * exact G1.
      * intro X. apply NL. rewrite Eg. apply in_app_iff. right. apply in_app_iff. right. exact X.
      * exact Hr.
      * exact T1.
      * rewrite Hp. exact E2.
      * rewrite Hp. exact B.
      * intros [(l0 & t0 & w0 & e0 & -> & X1) X2]. apply J. split; [|exact X2].
        exists ((t, w, e) :: l0), t0, w0, e0. auto.
      * intros -> ->. destruct (ls_start st1) eqn:Es.
        -- left. eapply good_initial; eauto.
        -- right. intro X. apply J. split; [|exact X]. exists [], t, w, e. split; [reflexivity|].
           eapply left_real; [exact C'|congruence].
        -- right. intro X. apply J. split; [|exact X]. exists [], t, w, e. split; [reflexivity|].
           eapply left_real; [exact C'|congruence].
        -- right. intro X. apply J. split; [|exact X]. exists [], t, w, e. split; [reflexivity|].
           eapply left_real; [exact C'|congruence].
    + exfalso.
      assert (Hp : (e + zlen v = pos + zlen u)%Z).
      { apply f_equal with (f := @length ascii) in Eg. rewrite !app_length in Eg. unfold zlen in *. lia. }
      destruct (cross_run l1 st1 v r m e l2 st' P Hm T1) as [X Y]; [rewrite Hp; exact E2|].
      apply J. split; [|exact X]. destruct Y as [->|(l0 & t0 & w0 & e0 & -> & Y)].
      * exists [], t, w, e. auto.
      * exists ((t, w, e) :: l0), t0, w0, e0. auto.
Qed.
