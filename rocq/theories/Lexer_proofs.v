(** The scanner: totality, tiling. *)
From Verif Require Import Base Tags Peg Regex Regex_proofs LexTab Lexer Lexer_spec.
Local Open Scope nat_scope.

(** * Picking a rule *)
Lemma pick_some : forall rs s n a, pick rs s = Some (n, a) ->
  exists l1 r l2, rs = l1 ++ (r, a) :: l2 /\ longest r s = Some n /\
    (forall r' a' m, In (r', a') l1 -> longest r' s = Some m -> m < n) /\
    (forall r' a' m, In (r', a') l2 -> longest r' s = Some m -> m <= n).
Proof.
  induction rs as [|[r a0] rs IH]; intros s n a H; cbn [pick] in H; [discriminate|].
  assert (X : forall m b, pick rs s = Some (m, b) -> forall r' a' k, In (r', a') rs -> longest r' s = Some k -> k <= m).
  { intros m b Hp r' a' k Hin Hl. destruct (IH _ _ _ Hp) as (l1 & r1 & l2 & -> & H1 & H2 & H3).
    apply in_app_iff in Hin as [Hin|[Hin|Hin]].
    - specialize (H2 _ _ _ Hin Hl). lia.
    - inversion Hin; subst. rewrite Hl in H1. inversion H1. lia.
    - exact (H3 _ _ _ Hin Hl). }
  assert (Y : pick rs s = None -> forall r' a' k, In (r', a') rs -> longest r' s = Some k -> False).
  { clear. induction rs as [|[r a] rs IH]; intros Hp r' a' k Hin Hl; [destruct Hin|].
    cbn [pick] in Hp. destruct (longest r s) eqn:E.
    - destruct (pick rs s) as [[m b]|]; [destruct (m <=? n)|]; discriminate.
    - destruct Hin as [Hin|Hin]; [inversion Hin; subst; congruence|]. eapply IH; eauto. }
  destruct (longest r s) as [k|] eqn:E.
  - destruct (pick rs s) as [[m b]|] eqn:Ep.
    + destruct (m <=? k) eqn:Em.
      * inversion H; subst. apply Nat.leb_le in Em. exists [], r, rs.
        repeat split; auto; [intros ? ? ? []|]. intros r' a' q Hin Hl.
        specialize (X _ _ eq_refl _ _ _ Hin Hl). lia.
      * apply Nat.leb_gt in Em. inversion H; subst.
        destruct (IH _ _ _ Ep) as (l1 & r1 & l2 & -> & H1 & H2 & H3).
        exists ((r, a0) :: l1), r1, l2. repeat split; auto.
        intros r' a' q [Hin|Hin] Hl; [inversion Hin; subst|]; [|eauto]. rewrite E in Hl. inversion Hl. lia.
    + inversion H; subst. exists [], r, rs. repeat split; auto; [intros ? ? ? []|].
      intros r' a' q Hin Hl. exfalso. eapply Y; eauto.
  - destruct (IH _ _ _ H) as (l1 & r1 & l2 & -> & H1 & H2 & H3).
    exists ((r, a0) :: l1), r1, l2. repeat split; auto.
    intros r' a' q [Hin|Hin] Hl; [inversion Hin; subst; congruence|eauto].
Qed.

Lemma pick_none : forall rs s, pick rs s = None -> forall r a, In (r, a) rs -> longest r s = None.
Proof.
  induction rs as [|[r0 a0] rs IH]; intros s Hp r a Hin; [destruct Hin|].
  cbn [pick] in Hp. destruct (longest r0 s) eqn:E.
  - destruct (pick rs s) as [[m b]|]; [destruct (m <=? n)|]; discriminate.
  - destruct Hin as [Hin|Hin]; [inversion Hin; subst; exact E|]. eapply IH; eauto.
Qed.

Lemma pick_intro : forall l1 r a l2 s n,
  longest r s = Some n ->
  (forall r' a' m, In (r', a') l1 -> longest r' s = Some m -> m < n) ->
  (forall r' a' m, In (r', a') l2 -> longest r' s = Some m -> m <= n) ->
  pick (l1 ++ (r, a) :: l2) s = Some (n, a).
Proof.
  intros l1 r a l2 s n H H1 H2. destruct (pick (l1 ++ (r, a) :: l2) s) as [[m b]|] eqn:E.
  2:{ rewrite (pick_none _ _ E r a) in H; [discriminate|]. apply in_app_iff. right. left. reflexivity. }
  apply pick_some in E as (k1 & q & k2 & E & Hq & P1 & P2).
  assert (G : (exists t, l1 = k1 ++ (q, b) :: t) \/ (l1 = k1 /\ q = r /\ b = a) \/ (exists t, k1 = l1 ++ (r, a) :: t)).
  { clear - E. revert k1 E. induction l1 as [|x l1 IH]; intros [|y k1] E; cbn in E.
    - inversion E; subst. auto.
    - inversion E; subst. right. right. exists k1. reflexivity.
    - inversion E; subst. left. exists l1. reflexivity.
    - injection E as E1 E2. subst y. destruct (IH _ E2) as [[t ->]|[(-> & -> & ->)|[t ->]]];
        [left; exists t; reflexivity | right; left; auto | right; right; exists t; reflexivity]. }
  destruct G as [[t G]|[(G1 & G2 & G3)|[t G]]].
  - exfalso. subst l1. rewrite <- app_assoc in E. apply app_inv_head in E. cbn in E. inversion E; subst k2.
    assert (m < n) by (apply (H1 q b); [apply in_app_iff; right; left; reflexivity|exact Hq]).
    assert (n <= m) by (apply (P2 r a); [apply in_app_iff; right; left; reflexivity|exact H]). lia.
  - subst. rewrite H in Hq. inversion Hq. reflexivity.
  - exfalso. subst k1. rewrite <- app_assoc in E. apply app_inv_head in E. cbn in E. inversion E; subst l2.
    assert (n < m) by (apply (P1 r a); [apply in_app_iff; right; left; reflexivity|exact H]).
    assert (m <= n) by (apply (H2 q b); [apply in_app_iff; right; left; reflexivity|exact Hq]). lia.
Qed.

Lemma rules_nonnull : forall st r a, In (r, a) (rules st) -> nullable r = false.
Proof.
  assert (H : forall st, forallb (fun p => negb (nullable (fst p))) (rules st) = true)
    by (intros []; vm_compute; reflexivity).
  intros st r a Hin. pose proof (proj1 (forallb_forall _ _) (H st) _ Hin) as X. cbn in X.
  destruct (nullable r); [discriminate|reflexivity].
Qed.

Lemma pick_rule : forall st s n a, pick (rules st) s = Some (n, a) ->
  exists r, In (r, a) (rules st) /\ longest r s = Some n /\ lang r (firstn n s) /\ 1 <= n <= length s.
Proof.
  intros st s n a H. apply pick_some in H as (l1 & r & l2 & E & Hl & _ & _).
  assert (Hin : In (r, a) (rules st)) by (rewrite E; apply in_app_iff; right; left; reflexivity).
  exists r. destruct (longest_some _ _ _ Hl) as (H1 & H2 & _). repeat split; auto.
  destruct n; [|lia]. cbn in H2. apply nullable_spec in H2. rewrite (rules_nonnull _ _ _ Hin) in H2. discriminate.
Qed.

(** * Characters *)
Ltac by_chars := intros c; destruct c as [[] [] [] [] [] [] [] []]; vm_compute; auto; intuition congruence.

Lemma lower_idem : forall c, lower_b (lower_b c) = lower_b c.
Proof. intros c; destruct c as [[] [] [] [] [] [] [] []]; reflexivity. Qed.
Lemma upper_lower : forall c, upper_b (lower_b c) = upper_b c.
Proof. intros c; destruct c as [[] [] [] [] [] [] [] []]; reflexivity. Qed.
Lemma lower_upper : forall c, lower_b (upper_b c) = lower_b c.
Proof. intros c; destruct c as [[] [] [] [] [] [] [] []]; reflexivity. Qed.
Lemma lower_nl : forall c, lower_b c = c_nl -> c = c_nl.
Proof. intros c; destruct c as [[] [] [] [] [] [] [] []]; vm_compute; intro H; try discriminate H; reflexivity. Qed.

(** * Steps of the exclusive start conditions *)
Definition starts (r : re) (s : str) : Prop := exists u v, s = u ++ v /\ lang r u.
Definition r_signed : re := Cat (Opt (Cls is_sign)) (Plus r_DIGIT).

Lemma longest_starts : forall r s n, longest r s = Some n -> starts r s.
Proof. intros r s n H. apply longest_split in H as (u & v & E & _ & H & _). exists u, v. auto. Qed.
Lemma starts_longest : forall r s, starts r s -> exists n, longest r s = Some n.
Proof. intros r s (u & v & -> & H). destruct (longest_ge r u v H) as (n & Hn & _). eauto. Qed.

Lemma is_ed_inv : forall c, is_ed c = true -> c = "e"%char \/ c = "d"%char.
Proof.
  intros c H. apply orb_true_iff in H as [H|H]; apply Ascii.eqb_eq in H; auto.
Qed.
Lemma is_sign_inv : forall c, is_sign c = true -> c = "-"%char \/ c = "+"%char.
Proof.
  intros c H. apply orb_true_iff in H as [H|H]; apply Ascii.eqb_eq in H; auto.
Qed.

Lemma starts_exponent : forall s, starts r_EXPONENT s ->
  exists c t, s = c :: t /\ is_ed c = true /\ starts r_signed t.
Proof.
  intros s (u & v & -> & H). unfold r_EXPONENT in H. apply lang_cat in H as (a & b & -> & Ha & Hb).
  apply lang_cls in Ha as (c & -> & Hc). exists c, (b ++ v). repeat split; auto. exists b, v. auto.
Qed.
Lemma starts_under : forall s, starts (Cat r_under r_KIND) s ->
  exists t, s = "_"%char :: t /\ starts r_KIND t.
Proof.
  intros s (u & v & -> & H). apply lang_cat in H as (a & b & -> & Ha & Hb).
  apply lang_cls in Ha as (c & -> & Hc). apply Ascii.eqb_eq in Hc. subst c.
  exists (b ++ v). repeat split; auto. exists b, v. auto.
Qed.

Lemma pick_exp1 : forall c t, is_ed c = true -> pick exp_rules (c :: t) = Some (1, a_return SG_EXPONENT_LETTER).
Proof.
  intros c t H. apply is_ed_inv in H as [-> | ->]; destruct t; reflexivity.
Qed.

(** first characters *)
Lemma signed_first : forall s, lang r_signed s -> exists c t, s = c :: t /\ (is_sign c = true \/ is_digit_b c = true).
Proof.
  intros s H. apply lang_cat in H as (a & b & -> & Ha & Hb). apply lang_opt in Ha as [->|Ha].
  - apply plus_cls in Hb as [Hn Hb]. destruct b as [|c b]; [contradiction|]. inversion Hb; subst. exists c, b. auto.
  - apply lang_cls in Ha as (c & -> & Hc). exists c, b. auto.
Qed.
Lemma signed_not_ed : forall c, is_sign c = true \/ is_digit_b c = true -> is_ed c = false.
Proof.
  intros c. destruct c as [[] [] [] [] [] [] [] []]; vm_compute; intuition congruence.
Qed.
Lemma pick_exp2 : forall s, starts r_signed s -> exists n, pick exp_rules s = Some (n, a_pop_return SG_EXPONENT) /\
  longest r_signed s = Some n.
Proof.
  intros s H. destruct (starts_longest _ _ H) as [n Hn]. exists n. split; [|exact Hn].
  unfold exp_rules. apply (pick_intro [(Cls is_ed, a_return SG_EXPONENT_LETTER)]); [exact Hn| |intros ? ? ? []].
  intros r' a' m [E|[]] Hm. inversion E; subst. exfalso.
  apply longest_starts in Hm as (u & v & -> & Hu). apply lang_cls in Hu as (c & -> & Hc).
  destruct H as (u & v' & E' & Hu). apply signed_first in Hu as (d & t & -> & Hd).
  cbn in E'. inversion E'; subst d. apply signed_not_ed in Hd. congruence.
Qed.
Lemma pick_kind1 : forall t, pick kind_rules ("_"%char :: t) = Some (1, a_return TK_UNDERSCORE).
Proof. intros t. destruct t; reflexivity. Qed.
Lemma kind_first : forall s, lang r_KIND s -> exists c t, s = c :: t /\ (is_alpha_l c = true \/ is_digit_b c = true).
Proof.
  intros s H. apply lang_or in H as [H|H].
  - apply plus_cls in H as [Hn Hb]. destruct s as [|c b]; [contradiction|]. inversion Hb; subst. eauto.
  - apply lang_cat in H as (a & b & -> & Ha & Hb). apply lang_cls in Ha as (c & -> & Hc). exists c, b. auto.
Qed.
Lemma pick_kind2 : forall s, starts r_KIND s -> exists n, pick kind_rules s = Some (n, a_pop_return SG_KIND_PARAM) /\
  longest r_KIND s = Some n.
Proof.
  intros s H. destruct (starts_longest _ _ H) as [n Hn]. exists n. split; [|exact Hn].
  unfold kind_rules. apply (pick_intro [(r_under, a_return TK_UNDERSCORE)]); [exact Hn| |intros ? ? ? []].
  intros r' a' m [E|[]] Hm. inversion E; subst. exfalso.
  apply longest_starts in Hm as (u & v & -> & Hu). apply lang_cls in Hu as (c & -> & Hc).
  destruct H as (u & v' & E' & Hu). apply kind_first in Hu as (d & t & -> & Hd).
  cbn in E'. inversion E'; subst d. apply Ascii.eqb_eq in Hc. subst c. vm_compute in Hd. intuition congruence.
Qed.

(** a real literal starts like a significand of real_parse *)
Definition starts_real (s : str) : Prop := starts r_SIGNIFICAND s \/ starts (Plus r_DIGIT) s.

Lemma significand_first : forall u, lang r_SIGNIFICAND u \/ lang (Plus r_DIGIT) u ->
  exists c t, u = c :: t /\ (is_digit_b c = true \/ c = "."%char).
Proof.
  assert (D : forall u, lang (Plus r_DIGIT) u -> exists c t, u = c :: t /\ (is_digit_b c = true \/ c = "."%char)).
  { intros u H. apply plus_cls in H as [Hn Hb]. destruct u as [|c b]; [contradiction|]. inversion Hb; subst. eauto. }
  intros u [H|H]; [|auto]. apply lang_or in H as [H|H]; apply lang_cat in H as (a & b & -> & Ha & Hb).
  - apply D in Ha as (c & t & -> & Hc). exists c, (t ++ b). auto.
  - apply lang_cls in Ha as (c & -> & Hc). apply Ascii.eqb_eq in Hc. subst c. exists "."%char, b. auto.
Qed.

Lemma real_last : forall c t, longest (Or r_any (Cls (ceq c_nl))) (c :: t) = Some 1.
Proof.
  intros c t. apply longest_intro.
  - cbn. lia.
  - cbn [firstn]. apply lang_or. destruct (ceq c_nl c) eqn:E.
    + right. constructor. exact E.
    + left. constructor. rewrite E. reflexivity.
  - intros j Hj Hl H. assert (length (firstn j (c :: t)) = j) by (apply firstn_length_le; exact Hl).
    apply lang_or in H as [H|H]; apply lang_cls in H as (d & E & _); rewrite E in H0; cbn in H0; lia.
Qed.

(** what real_parse does on a text that is not empty *)
Lemma pick_real : forall c t, let s := c :: t in
  (starts_real s /\ exists n, pick real_rules s = Some (n, a_return SG_SIGNIFICAND)) \/
  (~ starts_real s /\ starts r_EXPONENT s /\ exists n, pick real_rules s = Some (n, a_less_push exp_parse)) \/
  (~ starts_real s /\ starts (Cat r_under r_KIND) s /\ exists n, pick real_rules s = Some (n, a_less_push kind_parse)) \/
  (~ starts_real s /\ pick real_rules s = Some (1, a_less_begin INITIAL)).
Proof.
  intros c t s.
  destruct (pick real_rules s) as [[n a]|] eqn:Hp.
  2:{ pose proof (pick_none _ _ Hp (Or r_any (Cls (ceq c_nl))) (a_less_begin INITIAL)) as X.
      unfold s in X. rewrite real_last in X. discriminate X. cbn. auto 8. }
  assert (Hp' := Hp). apply pick_some in Hp' as (l1 & r & l2 & E & Hl & H1 & H2).
  (* rules tried before the chosen one that match need a shorter match *)
  assert (S1 : longest r_SIGNIFICAND s = None -> longest (Plus r_DIGIT) s = None -> ~ starts_real s).
  { intros Ha Hb [X|X]; apply starts_longest in X as [k X]; congruence. }
  assert (Hd : forall d u, s = d :: u -> d = c) by (intros d u X; inversion X; reflexivity).
  assert (NR : is_digit_b c = false -> c <> "."%char -> ~ starts_real s).
  { intros Ha Hb X. assert (Y : exists u v, s = u ++ v /\ (lang r_SIGNIFICAND u \/ lang (Plus r_DIGIT) u))
      by (destruct X as [(u & v & X0 & Y)|(u & v & X0 & Y)]; eauto).
    destruct Y as (u & v & X1 & X2). apply significand_first in X2 as (d & w & -> & [X3|X3]);
    cbn in X1; apply Hd in X1; subst d; congruence. }
  pose proof (longest_starts _ _ _ Hl) as Hs.
  destruct l1 as [|p1 l1]; cbn [app] in E; injection E as E1 E.
  { inversion E1; subst. left. split; [left; exact Hs|eauto]. }
  destruct l1 as [|p2 l1]; cbn [app] in E; injection E as E2 E.
  { inversion E2; subst. left. split; [right; exact Hs|eauto]. }
  destruct l1 as [|p3 l1]; cbn [app] in E; injection E as E3 E.
  { inversion E3; subst. right. left. split; [|eauto].
    apply starts_exponent in Hs as (d & u & X & Y & _). apply Hd in X. subst d.
    apply is_ed_inv in Y as [-> | ->]; apply NR; vm_compute; congruence. }
  destruct l1 as [|p4 l1]; cbn [app] in E; injection E as E4 E.
  { inversion E4; subst. right. right. left. split; [|eauto].
    apply starts_under in Hs as (u & X & _). apply Hd in X. subst c. apply NR; vm_compute; congruence. }
  destruct l1 as [|p5 l1]; cbn [app] in E.
  2:{ injection E as _ E. destruct l1; discriminate E. }
  injection E as E5 E6. subst. right. right. right.
  unfold s in Hl. rewrite real_last in Hl. inversion Hl; subst n.
  split; [|reflexivity].
  assert (Z : forall r' a', In (r', a') [(r_SIGNIFICAND, a_return SG_SIGNIFICAND);
      (Plus r_DIGIT, a_return SG_SIGNIFICAND)] -> longest r' s = None).
  { intros r' a' Hin. destruct (longest r' s) as [m|] eqn:Em; [|reflexivity]. exfalso.
    assert (In (r', a') real_rules) as Hr by (destruct Hin as [Hin|[Hin|[]]]; inversion Hin; subst; cbn; auto).
    assert (m < 1) by (apply (H1 r' a'); [destruct Hin as [Hin|[Hin|[]]]; inversion Hin; subst; cbn; auto|exact Em]).
    assert (m = 0) by lia. subst m. apply longest_some in Em as (_ & Em & _). cbn in Em.
    apply nullable_spec in Em. rewrite (rules_nonnull real_parse _ _ Hr) in Em. discriminate. }
  apply S1; eapply Z; cbn; auto.
Qed.

(** a rule of the initial state that switches to real_parse *)
Lemma initial_begin : forall r x, In (r, a_less_begin x) initial_rules ->
  x = real_parse /\ forall u, lang r u -> starts_real u.
Proof.
  intros r x H. unfold initial_rules in H. rewrite !in_app_iff in H.
  assert (F : forall l, ~ In (r, a_less_begin x) (map fixed l)).
  { intros l Hin. apply in_map_iff in Hin as (e & Hin & _). discriminate Hin. }
  destruct H as [H|[H|H]]; [exfalso; eapply F; eauto|exfalso; eapply F; eauto|].
  cbn [In] in H. repeat (destruct H as [H|H]; [try discriminate H|]); [| |destruct H].
  - inversion H; subst. split; [reflexivity|]. intros u Hu. apply lang_cat in Hu as (a & b & -> & Ha & _).
    left. exists a, b. auto.
  - inversion H; subst. split; [reflexivity|]. intros u Hu. apply lang_cat in Hu as (a & b & -> & Ha & _).
    right. exists a, b. auto.
Qed.
Lemma initial_plain : forall r a, In (r, a) initial_rules ->
  (exists t, a = a_return t) \/ a = a_less_begin real_parse \/ (a = a_eat /\ r = Cls (fun c => mem c set_str)).
Proof.
  intros r a H. unfold initial_rules in H. rewrite !in_app_iff in H.
  assert (F : forall l, In (r, a) (map fixed l) -> exists t, a = a_return t).
  { intros l Hin. apply in_map_iff in Hin as (e & Hin & _). inversion Hin; subst. eauto. }
  destruct H as [H|[H|H]]; eauto.
  cbn [In] in H. repeat (destruct H as [H|H]; [inversion H; subst; eauto|]). destruct H.
Qed.
Lemma starts_real_app : forall u v, starts_real u -> starts_real (u ++ v).
Proof.
  intros u v [(a & b & -> & H)|(a & b & -> & H)]; [left|right]; exists a, (b ++ v); rewrite app_assoc; auto.
Qed.

(** * The state between two calls *)
Definition good (st : LS) (s : str) : Prop :=
  match ls_start st, ls_stack st with
  | INITIAL, [] => True
  | real_parse, [] => True
  | exp_parse, [real_parse] => starts r_EXPONENT (map lower_b s) \/ starts r_signed (map lower_b s)
  | kind_parse, [real_parse] => starts (Cat r_under r_KIND) (map lower_b s) \/ starts r_KIND (map lower_b s)
  | _, _ => False
  end.
Definition idle (st : LS) : Prop := st = ls_init \/ st = mkLS real_parse [].

(** The token a rule of some state returned. *)
Definition chosen (x : start) (t : Z) (w rest : str) : Prop :=
  exists a, pick (rules x) (map lower_b (w ++ rest)) = Some (length w, a) /\
    (a = a_return t \/ a = a_pop_return t).

Definition call_ok (st : LS) (s : str) (pos : Z) (o : option (Z * str)) (st' : LS) (s' : str) (pos' : Z) : Prop :=
  exists g, Forall gap_char g /\
    match o with
    | None => s = g /\ s' = [] /\ pos' = (pos + zlen g)%Z /\ idle st'
    | Some (t, w) => s = g ++ w ++ s' /\ w <> [] /\ pos' = (pos + zlen g + zlen w)%Z /\ good st' s' /\
        exists x, chosen x t w s'
    end.

Lemma call_return : forall st s pos n t st',
  pick (rules (ls_start st)) (map lower_b s) = Some (n, a_return t) \/
  pick (rules (ls_start st)) (map lower_b s) = Some (n, a_pop_return t) ->
  good st' (skipn n s) ->
  call_ok st s pos (Some (t, firstn n s)) st' (skipn n s) (pos + Z.of_nat n).
Proof.
  intros st s pos n t st' H G.
  assert (H' : exists a, pick (rules (ls_start st)) (map lower_b s) = Some (n, a) /\ (a = a_return t \/ a = a_pop_return t))
    by (destruct H; eauto).
  destruct H' as (a & Hp & Ha). destruct (pick_rule _ _ _ _ Hp) as (r & _ & _ & _ & Hn).
  rewrite map_length in Hn.
  exists []. split; [constructor|]. cbn [app]. rewrite firstn_skipn.
  assert (E : length (firstn n s) = n) by (apply firstn_length_le; lia).
  repeat split; auto.
  - intro X. rewrite X in E. cbn in E. lia.
  - unfold zlen. rewrite E. cbn. lia.
  - exists (ls_start st). exists a. rewrite firstn_skipn, E. auto.
Qed.
Lemma call_gap : forall st1 st2 c s pos o st' s' pos', gap_char c ->
  call_ok st1 s (pos + 1) o st' s' pos' -> call_ok st2 (c :: s) pos o st' s' pos'.
Proof.
  intros st1 st2 c s pos o st' s' pos' Hc (g & Hg & H). exists (c :: g). split; [constructor; auto|].
  destruct o as [[t w]|].
  - destruct H as (-> & H1 & -> & H2 & H3). split; [reflexivity|]. split; [exact H1|]. split; [|auto].
    unfold zlen. cbn [length]. lia.
  - destruct H as (-> & -> & -> & H2). repeat split; auto. unfold zlen. cbn [length]. lia.
Qed.
Lemma call_state : forall st1 st2 s pos o st' s' pos',
  call_ok st1 s pos o st' s' pos' -> call_ok st2 s pos o st' s' pos'.
Proof. intros st1 st2 s pos o st' s' pos' H. exact H. Qed.

Definition answers (f : nat) (st : LS) (s : str) (pos : Z) : Prop :=
  exists o st' s' pos', yylex f st s pos = Done (o, st', s', pos') /\ call_ok st s pos o st' s' pos'.

Lemma skip_starts : forall r u s n, map lower_b s = u -> starts r (skipn n u) -> starts r (map lower_b (skipn n s)).
Proof. intros r u s n <- H. rewrite skipn_map in H. exact H. Qed.

Lemma starts_ne : forall r, nullable r = false -> forall s, starts r s -> s <> [].
Proof.
  intros r Hr s (u & v & E & H) ->. symmetry in E. apply app_eq_nil in E as [-> ->].
  apply nullable_spec in H. congruence.
Qed.

Lemma exp1_answers : forall f s pos, starts r_EXPONENT (map lower_b s) ->
  answers (S f) (mkLS exp_parse [real_parse]) s pos.
Proof.
  intros f s pos H. destruct (starts_exponent _ H) as (c & t & E & Hc & Ht).
  destruct s as [|c0 s]; [discriminate E|].
  assert (P : pick exp_rules (map lower_b (c0 :: s)) = Some (1, a_return SG_EXPONENT_LETTER))
    by (rewrite E; apply pick_exp1; exact Hc).
  do 4 eexists. split.
  - cbn [yylex ls_start rules]. rewrite P. reflexivity.
  - apply call_return; [left; exact P|]. cbn. right. cbn in E. inversion E; subst. exact Ht.
Qed.
Lemma exp2_answers : forall f s pos, starts r_signed (map lower_b s) ->
  answers (S f) (mkLS exp_parse [real_parse]) s pos.
Proof.
  intros f s pos H. destruct (pick_exp2 _ H) as (n & P & _).
  destruct s as [|c0 s]; [exfalso; eapply starts_ne; [| exact H|]; reflexivity|].
  do 4 eexists. split.
  - cbn [yylex ls_start rules]. rewrite P. cbn [ls_stack]. reflexivity.
  - apply call_return; [right; exact P|]. exact I.
Qed.
Lemma kind1_answers : forall f s pos, starts (Cat r_under r_KIND) (map lower_b s) ->
  answers (S f) (mkLS kind_parse [real_parse]) s pos.
Proof.
  intros f s pos H. destruct (starts_under _ H) as (t & E & Ht).
  destruct s as [|c0 s]; [discriminate E|].
  assert (P : pick kind_rules (map lower_b (c0 :: s)) = Some (1, a_return TK_UNDERSCORE))
    by (rewrite E; apply pick_kind1).
  do 4 eexists. split.
  - cbn [yylex ls_start rules]. rewrite P. reflexivity.
  - apply call_return; [left; exact P|]. cbn. right. cbn in E. inversion E; subst. exact Ht.
Qed.
Lemma kind2_answers : forall f s pos, starts r_KIND (map lower_b s) ->
  answers (S f) (mkLS kind_parse [real_parse]) s pos.
Proof.
  intros f s pos H. destruct (pick_kind2 _ H) as (n & P & _).
  destruct s as [|c0 s]; [exfalso; eapply starts_ne; [| exact H|]; reflexivity|].
  do 4 eexists. split.
  - cbn [yylex ls_start rules]. rewrite P. cbn [ls_stack]. reflexivity.
  - apply call_return; [right; exact P|]. exact I.
Qed.
Lemma real_sig_answers : forall f s pos, starts_real (map lower_b s) ->
  answers (S f) (mkLS real_parse []) s pos.
Proof.
  intros f s pos H.
  destruct s as [|c0 s].
  { exfalso. destruct H as [H|H]; eapply starts_ne in H; try reflexivity; apply H; reflexivity. }
  destruct (pick_real (lower_b c0) (map lower_b s)) as [[_ (n & P)]|[[N _]|[[N _]|[N _]]]]; try contradiction.
  do 4 eexists. split.
  - cbn [yylex ls_start rules]. cbn [map]. rewrite P. reflexivity.
  - apply call_return; [left; exact P|]. exact I.
Qed.

Lemma gap_str : forall c, mem (lower_b c) set_str = true -> gap_char c.
Proof.
  intros c. destruct c as [[] [] [] [] [] [] [] []]; vm_compute; intro H; try discriminate H; auto.
Qed.

Lemma initial_answers : forall f s pos, length s + 1 <= f ->
  answers f ls_init s pos.
Proof.
  induction f as [|f IH]; intros s pos Hf; [lia|].
  destruct s as [|c s].
  { do 4 eexists. split; [reflexivity|]. exists []. repeat split; auto. unfold zlen; cbn; lia. left; reflexivity. }
  destruct (pick initial_rules (map lower_b (c :: s))) as [[n a]|] eqn:P.
  - destruct (pick_rule INITIAL _ _ _ P) as (r & Hin & Hl & Hla & Hn).
    assert (Hla' := Hla).
    destruct (initial_plain _ _ Hin) as [[t ->]|[->|[-> ->]]].
    + do 4 eexists. split.
      * cbn [yylex ls_start rules ls_init]. rewrite P. reflexivity.
      * apply call_return; [left; exact P|]. exact I.
    + destruct (initial_begin _ _ Hin) as [_ Hr]. specialize (Hr _ Hla).
      assert (A : answers f (mkLS real_parse []) (c :: s) pos).
      { destruct f; [cbn in Hf; lia|]. apply real_sig_answers.
        rewrite <- (firstn_skipn n (map lower_b (c :: s))). apply starts_real_app. exact Hr. }
      destruct A as (o & st' & s' & pos' & A1 & A2).
      exists o, st', s', pos'. split; [|exact A2].
      cbn [yylex ls_start rules ls_init]. rewrite P. cbn [ls_stack].
      replace (pos + Z.of_nat n - Z.of_nat n)%Z with pos by lia. exact A1.
    + apply lang_cls in Hla as (d & E & Hd).
      assert (n = 1). { apply f_equal with (f := @length ascii) in E. rewrite firstn_length_le in E by lia. exact E. }
      subst n. cbn [map firstn] in E. inversion E; subst d.
      destruct (IH s (pos + 1)%Z) as (o & st' & s' & pos' & A1 & A2); [cbn in Hf; lia|].
      exists o, st', s', pos'. split.
      * cbn [yylex ls_start rules ls_init]. rewrite P. cbn [skipn]. exact A1.
      * apply (call_gap ls_init); [apply gap_str; exact Hd|exact A2].
  - assert (E : c = c_nl).
    { pose proof (pick_none _ _ P r_any (a_return UNKNOWN)) as X.
      rewrite longest_none in X. specialize (X ltac:(unfold initial_rules; rewrite !in_app_iff; cbn; auto 20)).
      specialize (X 1). cbn [map length firstn] in X.
      destruct (ceq c_nl (lower_b c)) eqn:Ec.
      - apply Ascii.eqb_eq in Ec. apply lower_nl. auto.
      - exfalso. apply X; [lia|]. constructor. rewrite Ec. reflexivity. }
    subst c.
    destruct (IH s (pos + 1)%Z) as (o & st' & s' & pos' & A1 & A2); [cbn in Hf; lia|].
    exists o, st', s', pos'. split.
    + cbn [yylex ls_start rules ls_init]. rewrite P. exact A1.
    + apply (call_gap ls_init); [unfold gap_char; cbn; auto|exact A2].
Qed.

Lemma real_answers : forall f s pos, length s + 2 <= f -> answers f (mkLS real_parse []) s pos.
Proof.
  intros f s pos Hf. destruct f as [|f]; [lia|]. destruct s as [|c s].
  { do 4 eexists. split; [reflexivity|]. exists []. repeat split; auto. unfold zlen; cbn; lia. right; reflexivity. }
  cbn [length] in Hf.
  assert (Z : forall n, (pos + Z.of_nat n - Z.of_nat n = pos)%Z) by (intro; lia).
  destruct (pick_real (lower_b c) (map lower_b s)) as [[H _]|[(_ & H & n & P)|[(_ & H & n & P)|(H & P)]]].
  - apply real_sig_answers. exact H.
  - destruct f as [|f]; [lia|].
    destruct (exp1_answers f (c :: s) pos H) as (o & st' & s' & pos' & A1 & A2).
    exists o, st', s', pos'. split; [|exact A2].
    cbn [yylex ls_start rules map]. rewrite P. cbn [ls_stack ls_start]. rewrite Z. exact A1.
  - destruct f as [|f]; [lia|].
    destruct (kind1_answers f (c :: s) pos H) as (o & st' & s' & pos' & A1 & A2).
    exists o, st', s', pos'. split; [|exact A2].
    cbn [yylex ls_start rules map]. rewrite P. cbn [ls_stack ls_start]. rewrite Z. exact A1.
  - destruct (initial_answers f (c :: s) pos) as (o & st' & s' & pos' & A1 & A2); [cbn [length]; lia|].
    exists o, st', s', pos'. split; [|exact A2].
    cbn [yylex ls_start rules map]. rewrite P. cbn [ls_stack ls_start]. rewrite Z. exact A1.
Qed.

Lemma yylex_answers : forall f st s pos, good st s -> length s + 2 <= f -> answers f st s pos.
Proof.
  intros f st s pos G Hf. destruct f as [|f]; [lia|]. destruct st as [x k]. unfold good in G. cbn in G.
  destruct x.
  - destruct k; [|destruct G]. apply initial_answers. lia.
  - destruct k; [|destruct G]. apply real_answers. lia.
  - destruct k as [|[] [|]]; try destruct G as [G|G]; try (destruct G; fail).
    + apply exp1_answers; exact G.
    + apply exp2_answers; exact G.
  - destruct k as [|[] [|]]; try destruct G as [G|G]; try (destruct G; fail).
    + apply kind1_answers; exact G.
    + apply kind2_answers; exact G.
Qed.

(** * All calls *)
Inductive tiled : Z -> str -> list (Z * str * Z) -> Prop :=
| tiled_end : forall p g, Forall gap_char g -> tiled p g []
| tiled_tok : forall p g t w r l x, Forall gap_char g -> w <> [] -> chosen x t w r ->
    tiled (p + zlen g + zlen w)%Z r l ->
    tiled p (g ++ w ++ r) ((t, w, (p + zlen g + zlen w)%Z) :: l).

Lemma rules_tags : forall x r a t, In (r, a) (rules x) -> a = a_return t \/ a = a_pop_return t -> (t =? EOL)%Z = false.
Proof.
  assert (H : forall x, forallb (fun p => match snd p with a_return t | a_pop_return t => negb (t =? EOL)%Z | _ => true end) (rules x) = true)
    by (intros []; vm_compute; reflexivity).
  intros x r a t Hin Ha. pose proof (proj1 (forallb_forall _ _) (H x) _ Hin) as X. cbn [snd] in X.
  destruct Ha as [-> | ->]; apply negb_true_iff in X; exact X.
Qed.
Lemma chosen_tag : forall x t w r, chosen x t w r -> (t =? EOL)%Z = false.
Proof.
  intros x t w r (a & P & Ha). destruct (pick_rule _ _ _ _ P) as (q & Hin & _). eapply rules_tags; eauto.
Qed.

Lemma scan_ok : forall f st s pos, good st s -> length s + 2 <= f ->
  exists l st', scan f st s pos = Done (l, st') /\ tiled pos s l /\ idle st'.
Proof.
  induction f as [|f IH]; intros st s pos G Hf; [lia|].
  destruct (yylex_answers (S f) st s pos G Hf) as (o & st' & s' & pos' & A1 & g & Hg & A2).
  cbn [scan]. rewrite A1. cbn [obind]. destruct o as [[t w]|].
  - destruct A2 as (-> & Hw & -> & G' & x & Hx). rewrite (chosen_tag _ _ _ _ Hx).
    destruct (IH st' s' (pos + zlen g + zlen w)%Z G') as (l & st2 & B1 & B2 & B3).
    { rewrite !app_length in Hf. destruct w; [contradiction|]. cbn in Hf. lia. }
    rewrite B1. cbn [obind]. do 2 eexists. split; [reflexivity|]. split; auto.
    econstructor; eauto.
  - destruct A2 as (-> & -> & -> & Hi). exists [], st'. repeat split; auto. constructor; auto.
Qed.
