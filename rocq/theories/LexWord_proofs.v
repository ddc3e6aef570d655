(** Names, keywords and character literals; letter case; the start condition at
    the beginning of a line. *)
From Verif Require Import Base Tags Smash Peg Regex Regex_proofs LexTab Lexer Lexer_spec Lexer_proofs
  LexForm_proofs LexLongest_proofs.
Local Open Scope nat_scope.

(** * A token text that cannot be extended is the next token *)
Lemma pick_exact : forall w rest, token_text w -> longest_token w rest ->
  exists r a, pick initial_rules (low (w ++ rest)) = Some (length w, a) /\ In (r, a) initial_rules /\ lang r (low w).
Proof.
  intros w rest Hw Hlong. destruct (text_rule _ Hw) as (r0 & a0 & Hin & Hl).
  destruct (low_longest _ _ rest Hl) as (m & Hm & Hle).
  destruct (pick initial_rules (low (w ++ rest))) as [[n a]|] eqn:P.
  2:{ rewrite (pick_none _ _ P _ _ Hin) in Hm. discriminate. }
  assert (P' := P). apply pick_some in P' as (l1 & r & l2 & E & Hr & H1 & H2).
  assert (Hr' : In (r, a) initial_rules) by (rewrite E; apply in_app_iff; right; left; reflexivity).
  assert (Hge : m <= n).
  { rewrite E in Hin. apply in_app_iff in Hin as [Hin|[Hin|Hin]].
    - specialize (H1 _ _ _ Hin Hm). lia.
    - inversion Hin; subst. rewrite Hm in Hr. inversion Hr. lia.
    - exact (H2 _ _ _ Hin Hm). }
  destruct (longest_some _ _ _ Hr) as (Hn & Hla & _).
  rewrite firstn_map in Hla. apply (rule_text _ _ _ Hr') in Hla.
  assert (n <= length w).
  { specialize (Hlong _ (skipn n (w ++ rest)) (eq_sym (firstn_skipn n (w ++ rest))) Hla).
    rewrite map_length in Hn. rewrite firstn_length_le in Hlong by exact Hn. exact Hlong. }
  assert (n = length w) by lia. subst n. exists r, a. repeat split; auto. eapply longest_low; eauto.
Qed.

(** * Characters of tokens *)
Lemma keyword_chars : forall t s, keyword t s -> is_name s.
Proof.
  assert (C : forallb (fun e => match L (fst e) with
      | c :: r => is_alpha_l c && forallb is_name_l r | [] => false end)%bool keyword_rules = true)
    by (vm_compute; reflexivity).
  intros t s H. apply keyword_has_rule in H as (k & Hk & E).
  pose proof (proj1 (forallb_forall _ _) C _ Hk) as X. cbn [fst] in X. rewrite <- E in X.
  destruct s as [|c s]; [discriminate X|]. cbn [map] in X. apply andb_true_iff in X as [X1 X2].
  exists c, s. split; [reflexivity|]. split; [apply alpha_iff; exact X1|].
  apply Forall_forall. intros d Hd. apply name_char_iff.
  rewrite forallb_forall in X2. apply X2. apply in_map; exact Hd.
Qed.
Lemma symbol_chars : forall t s, symbol t s ->
  (exists c r, s = c :: r /\ ~ name_char c) /\ Forall (fun c => ~ quote_char c) s.
Proof.
  assert (C : forallb (fun e => match L (fst e) with
      | c :: r => negb (is_name_l c) | [] => false end &&
      forallb (fun c => negb (ceq "'" c) && negb (ceq "034" c)) (L (fst e)))%bool symbol_rules = true)
    by (vm_compute; reflexivity).
  intros t s H. apply symbol_has_rule in H as (k & Hk & E).
  pose proof (proj1 (forallb_forall _ _) C _ Hk) as X. cbn [fst] in X. rewrite <- E in X.
  apply andb_true_iff in X as [X1 X2]. split.
  - destruct s as [|c s]; [discriminate X1|]. cbn [map] in X1. exists c, s. split; [reflexivity|].
    rewrite <- name_char_iff. apply negb_true_iff in X1. congruence.
  - apply Forall_forall. intros d Hd Hq. rewrite forallb_forall in X2.
    specialize (X2 _ (in_map lower_b _ _ Hd)). destruct Hq as [-> | ->]; discriminate X2.
Qed.
Lemma upper_dot : forall c, upper_b c = "."%char -> c = "."%char.
Proof. intros c; destruct c as [[] [] [] [] [] [] [] []]; vm_compute; intro H; try discriminate H; reflexivity. Qed.
Lemma dot_plain : ~ name_char "."%char /\ ~ quote_char "."%char.
Proof.
  split.
  - rewrite <- name_char_iff. vm_compute. discriminate.
  - intros [H|H]; discriminate H.
Qed.
Lemma letter_name : forall c, letter c -> name_char c.
Proof. intros c H. left. exact H. Qed.
Lemma digit_name : forall c, digit c -> name_char c.
Proof. intros c H. right. left. exact H. Qed.
Lemma name_unquote : forall c, name_char c -> ~ quote_char c.
Proof. intros c H [-> | ->]; apply name_char_iff in H; vm_compute in H; discriminate H. Qed.
Lemma digit_letter : forall c, digit c -> letter c -> False.
Proof. unfold digit, letter. intros. lia. Qed.
Lemma name_all : forall s, is_name s -> s <> [] /\ Forall name_char s.
Proof.
  intros s (c & r & -> & Hc & Hr). split; [discriminate|]. constructor; [left; exact Hc|exact Hr].
Qed.
Lemma kind_all : forall s, is_kind s -> s <> [] /\ Forall name_char s.
Proof.
  intros s [[H1 H2]|H]; [|apply name_all; exact H]. split; [exact H1|].
  eapply Forall_impl; [|exact H2]. intros a. apply digit_name.
Qed.
Lemma prefix_all : forall s, kind_prefix s -> Forall name_char s.
Proof.
  intros s [->|(k & -> & H)]; [constructor|]. apply Forall_app. split; [apply kind_all; exact H|].
  constructor; [|constructor]. right. right. reflexivity.
Qed.
Lemma suffix_all : forall s, kind_suffix s -> Forall name_char s.
Proof.
  intros s [->|(k & -> & H)]; [constructor|]. constructor; [right; right; reflexivity|]. apply kind_all; exact H.
Qed.
Lemma Forall_unquote : forall s, Forall name_char s -> Forall (fun c => ~ quote_char c) s.
Proof. intros s H. eapply Forall_impl; [|exact H]. apply name_unquote. Qed.
Lemma digits_unquote : forall s, Forall digit s -> Forall (fun c => ~ quote_char c) s.
Proof. intros s H. apply Forall_unquote. eapply Forall_impl; [|exact H]. intros a. apply digit_name. Qed.
Lemma logical_chars : forall v s, logical_literal v s -> v = L ".TRUE." \/ v = L ".FALSE." ->
  (exists r, s = "."%char :: r) /\ Forall (fun c => ~ quote_char c) s.
Proof.
  intros v s (w & k & -> & Hw & Hk) Hv. split.
  - destruct w as [|c w]; [destruct Hv as [-> | ->]; discriminate Hw|].
    assert (upper_b c = "."%char) by (destruct Hv as [-> | ->]; cbn in Hw; inversion Hw; reflexivity).
    apply upper_dot in H. subst c. eexists; reflexivity.
  - apply Forall_app. split; [|apply Forall_unquote, suffix_all; exact Hk].
    apply Forall_forall. intros c Hc Hq. apply (in_map upper_b) in Hc. rewrite Hw in Hc.
    destruct Hq as [-> | ->]; destruct Hv as [-> | ->]; vm_compute in Hc; intuition discriminate.
Qed.
Lemma real_chars : forall s, is_real s ->
  (exists c r, s = c :: r /\ ~ letter c) /\ Forall (fun c => ~ quote_char c) s.
Proof.
  intros s (a & b & k & -> & Ha & Hk & Hb).
  assert (Hdot : ~ letter "."%char) by (intro H; apply (proj1 dot_plain); left; exact H).
  assert (Hfirst : exists c r, a = c :: r /\ ~ letter c).
  { destruct Ha as [[Hn Ha]|[(x & y & -> & [Hn Hx] & Hy)|(y & -> & Hy)]].
    - destruct a as [|c a]; [contradiction|]. inversion Ha; subst. exists c, a. split; [reflexivity|].
      intro X. eapply digit_letter; eauto.
    - destruct x as [|c x]; [contradiction|]. inversion Hx; subst. exists c, (x ++ "."%char :: y). split; [reflexivity|].
      intro X. eapply digit_letter; eauto.
    - exists "."%char, y. auto. }
  split.
  - destruct Hfirst as (c & r & -> & Hc). exists c, (r ++ b ++ k). auto.
  - apply Forall_app. split; [|apply Forall_app; split; [|apply Forall_unquote, suffix_all; exact Hk]].
    + destruct Ha as [[Hn Ha]|[(x & y & -> & [Hn Hx] & Hy)|(y & -> & Hn & Hy)]].
      * apply digits_unquote; exact Ha.
      * apply Forall_app. split; [apply digits_unquote; exact Hx|].
        constructor; [apply dot_plain|apply digits_unquote; exact Hy].
      * constructor; [apply dot_plain|apply digits_unquote; exact Hy].
    + destruct Hb as [(l & x & -> & Hl & g & d & -> & Hg & Hn & Hd)|[-> _]]; [|constructor].
      apply Forall_app. split.
      * cbn [In is_exponent_letter] in Hl. destruct Hl as [<-|[<-|[<-|[<-|[]]]]];
          (constructor; [intros [H|H]; discriminate H|constructor]).
      * apply Forall_app. split; [|apply digits_unquote; exact Hd].
        destruct Hg as [->|[->| ->]]; [constructor| |]; (constructor; [intros [H|H]; discriminate H|constructor]).
Qed.

(** * Runs of name characters *)

Lemma run_bound : forall (P : ascii -> Prop) w rest u v, w ++ rest = u ++ v -> Forall P u -> not_first P rest ->
  length u <= length w.
Proof.
  intros P w. induction w as [|c w IH]; intros rest u v E Hu Hr.
  - destruct u as [|d u]; [cbn; lia|]. cbn in E. subst rest. inversion Hu; subst. cbn in Hr. contradiction.
  - destruct u as [|d u]; [cbn; lia|]. cbn in E. inversion E; subst. inversion Hu; subst.
    specialize (IH _ _ _ H1 H3 Hr). cbn. lia.
Qed.
Lemma run_same : forall k q X k' q' Y, k ++ q :: X = k' ++ q' :: Y ->
  Forall name_char k -> Forall name_char k' -> ~ name_char q -> ~ name_char q' -> k = k' /\ q = q' /\ X = Y.
Proof.
  induction k as [|c k IH]; intros q X k' q' Y E Hk Hk' Hq Hq'.
  - destruct k' as [|d k']; cbn in E; inversion E; subst; auto. inversion Hk'; subst. contradiction.
  - destruct k' as [|d k']; cbn in E; inversion E; subst.
    + inversion Hk; subst. contradiction.
    + inversion Hk; subst. inversion Hk'; subst. destruct (IH _ _ _ _ _ H1 H3 H5 Hq Hq') as (-> & -> & ->). auto.
Qed.


Lemma word_longest : forall w rest, is_name w -> not_first name_char rest ->
  ~ (ends_under w /\ ~ not_first quote_char rest) -> longest_token w rest.
Proof.
  intros w rest Hw Hr Hq u v E Hu. assert (Hw' := Hw). destruct Hw' as (c & w' & -> & Hc & Hw').
  assert (First : forall d r, u = d :: r -> d = c) by (intros d r ->; cbn in E; inversion E; reflexivity).
  assert (Name : Forall name_char u -> length u <= length (c :: w'))
    by (intro X; eapply run_bound; [exact E|exact X|exact Hr]).
  destruct Hu.
  - apply Name. apply name_all. eapply keyword_chars; eauto.
  - destruct (symbol_chars _ _ H) as [(d & r & -> & Hd) _]. rewrite (First _ _ eq_refl) in Hd.
    exfalso. apply Hd. left. exact Hc.
  - apply Name. apply name_all. exact H.
  - exfalso. specialize (First _ _ eq_refl). apply (proj1 dot_plain). rewrite First. left. exact Hc.
  - exfalso. destruct (logical_chars _ _ H) as [(r & ->) _]; [auto|]. specialize (First _ _ eq_refl).
    apply (proj1 dot_plain). rewrite First. left. exact Hc.
  - exfalso. destruct (logical_chars _ _ H) as [(r & ->) _]; [auto|]. specialize (First _ _ eq_refl).
    apply (proj1 dot_plain). rewrite First. left. exact Hc.
  - exfalso. destruct H as (k & q & b & -> & Hk & Hqc & Hb).
    assert (Nq : ~ name_char q) by (intro X; apply (name_unquote _ X); exact Hqc).
    rewrite <- !app_assoc in E. cbn [app] in E.
    assert (Hk' := prefix_all _ Hk).
    destruct rest as [|e rest].
    + rewrite app_nil_r in E. assert (F : Forall name_char (c :: w')) by (apply name_all; exact Hw).
      rewrite E in F. apply Forall_app in F as [_ F]. inversion F; subst. contradiction.
    + cbn in Hr.
      assert (F : Forall name_char (c :: w')) by (apply name_all; exact Hw).
      change (c :: w' ++ e :: rest) with ((c :: w') ++ e :: rest) in E.
      destruct (run_same _ _ _ _ _ _ E F Hk' Hr Nq) as (E1 & E2 & _).
      apply Hq. subst e. split; [|cbn; intro X; apply X; exact Hqc].
      destruct Hk as [Hk|(k0 & Hk & _)]; [rewrite Hk in E1; discriminate E1|].
      exists k0. rewrite E1. exact Hk.
  - exfalso. destruct H as [Hn Hd]. destruct d as [|x d]; [contradiction|]. inversion Hd; subst.
    specialize (First _ _ eq_refl). subst x. eapply digit_letter; eauto.
  - exfalso. destruct (real_chars _ H) as [(d & r & -> & Hd) _]. rewrite (First _ _ eq_refl) in Hd. contradiction.
  - cbn. lia.
Qed.

(** the rules between keywords and NAME do not match names *)
Lemma name_rule : forall t w rest a r, is_name w -> pick initial_rules (low (w ++ rest)) = Some (length w, a) ->
  In (r, a) initial_rules -> lang r (low w) -> (forall t', ~ keyword t' w) -> t = TK_NAME -> a = a_return t.
Proof.
  intros t w rest a r Hw P Hin Hl Hn ->.
  assert (Hl' : lang r_NAME (low w)) by (apply name_low; exact Hw).
  destruct (low_longest _ _ rest Hl') as (m & Hm & Hle).
  rewrite initial_parts, app_assoc in P.
  assert (Hi : In (r_NAME, a_return TK_NAME) (rules_first ++ rules_mid)) by (rewrite in_app_iff; cbn; auto 20).
  destruct (pick_first _ _ _ _ _ _ _ _ P Hi Hm Hle) as (r1 & Hr1 & Hl1).
  apply (fun H => longest_low _ _ _ _ H eq_refl) in Hl1. clear r Hin Hl.
  assert (F : Forall name_char w) by (apply name_all; exact Hw).
  destruct Hw as (c & w' & -> & Hc & Hw').
  assert (Nodot : forall x, lower_b c :: x <> [] -> ~ (exists y, c :: w' = "."%char :: y)).
  { intros x _ (y & E). inversion E; subst. apply (proj1 dot_plain). left. exact Hc. }
  unfold rules_first in Hr1. rewrite !in_app_iff in Hr1. destruct Hr1 as [[Hr1|[Hr1|Hr1]]|Hr1].
  - exfalso. apply in_map_iff in Hr1 as ([k t] & E & Hk). inversion E; subst. cbn [fst] in Hl1.
    apply (Hn t). eapply keyword_rule; [exact Hk|]. apply lit_low; exact Hl1.
  - exfalso. apply in_map_iff in Hr1 as ([k t] & E & Hk). inversion E; subst. cbn [fst] in Hl1.
    apply lit_low in Hl1. destruct (symbol_chars _ _ (symbol_rule _ _ _ Hk Hl1)) as [(d & x & E' & Hd) _].
    inversion E'; subst. apply Hd. left. exact Hc.
  - exfalso. cbn [In rules_text] in Hr1. destruct Hr1 as [E|[E|[]]]; inversion E; subst; clear E.
    + apply (proj1 (logical_low (L ".false.") (L ".FALSE.") _ eq_refl eq_refl)) in Hl1.
      destruct (logical_chars _ _ Hl1) as [X _]; [auto|]. apply (Nodot []); [discriminate|exact X].
    + apply (proj1 (logical_low (L ".true.") (L ".TRUE.") _ eq_refl eq_refl)) in Hl1.
      destruct (logical_chars _ _ Hl1) as [X _]; [auto|]. apply (Nodot []); [discriminate|exact X].
  - cbn [In rules_mid] in Hr1. destruct Hr1 as [E|[E|[E|[E|[E|[E|[E|[]]]]]]]]; inversion E; subst; clear E; auto; exfalso.
    + apply charlit_low in Hl1 as (k & b & E & _); [|auto]. rewrite E in F. apply Forall_app in F as [_ F].
      inversion F; subst. apply (name_unquote _ H1). right. reflexivity.
    + apply charlit_low in Hl1 as (k & b & E & _); [|auto]. rewrite E in F. apply Forall_app in F as [_ F].
      inversion F; subst. apply (name_unquote _ H1). left. reflexivity.
    + apply or_introl with (B := lang (Cat (Plus r_DIGIT) (Cat r_EXPONENT r_opt_kind)) (low (c :: w'))) in Hl1.
      apply is_real_iff in Hl1. destruct (real_chars _ Hl1) as [(d & x & E & Hd) _]. inversion E; subst. contradiction.
    + apply or_intror with (A := lang (Cat r_SIGNIFICAND (Cat (Opt r_EXPONENT) r_opt_kind)) (low (c :: w'))) in Hl1.
      apply is_real_iff in Hl1. destruct (real_chars _ Hl1) as [(d & x & E & Hd) _]. inversion E; subst. contradiction.
    + apply int_low in Hl1 as (d & k & E & [Hd1 Hd2] & _). destruct d as [|x d]; [contradiction|].
      inversion E; subst. inversion Hd2; subst. eapply digit_letter; eauto.
    + apply defop_low in Hl1 as (x & E & _). apply (Nodot []); [discriminate|]. eexists; exact E.
Qed.
(** if a keyword has the text the chosen rule is a keyword *)
Lemma keyword_chosen : forall t' w rest a, keyword t' w -> pick initial_rules (low (w ++ rest)) = Some (length w, a) ->
  exists t, a = a_return t /\ keyword t w.
Proof.
  intros t' w rest a Hk P. apply keyword_has_rule in Hk as (k & Hk & E).
  assert (Hl' : lang (Lit (L k)) (low w)) by (apply lit_low; exact E).
  destruct (low_longest _ _ rest Hl') as (m & Hm & Hle).
  rewrite initial_parts in P. unfold rules_first in P. rewrite <- app_assoc in P.
  assert (Hi : In (Lit (L k), a_return t') (map fixed keyword_rules)) by (apply (in_map fixed) in Hk; exact Hk).
  destruct (pick_first _ _ _ _ _ _ _ _ P Hi Hm Hle) as (r1 & Hr1 & Hl1).
  apply (fun H => longest_low _ _ _ _ H eq_refl) in Hl1.
  apply in_map_iff in Hr1 as ([k1 t1] & E1 & Hk1). inversion E1; subst. cbn [fst] in Hl1.
  exists t1. split; [reflexivity|]. eapply keyword_rule; [exact Hk1|]. apply lit_low; exact Hl1.
Qed.
Lemma keyword_dec : forall w, (exists t, keyword t w) \/ (forall t, ~ keyword t w).
Proof.
  intros w. destruct (existsb (fun e => seqb (low w) (L (fst e))) keyword_rules) eqn:E.
  - left. apply existsb_exists in E as ([k t] & Hin & E). apply seqb_eq in E. exists t. eapply keyword_rule; eauto.
  - right. intros t Hk. apply keyword_has_rule in Hk as (k & Hk & Hl).
    assert (X : existsb (fun e => seqb (low w) (L (fst e))) keyword_rules = true).
    { apply existsb_exists. exists (k, t). split; [exact Hk|]. apply seqb_eq. exact Hl. }
    congruence.
Qed.

Lemma yylex_initial_return : forall f w rest pos t, w <> [] ->
  pick initial_rules (low (w ++ rest)) = Some (length w, a_return t) ->
  yylex (S f) ls_init (w ++ rest) pos = Done (Some (t, w), ls_init, rest, pos + zlen w)%Z.
Proof.
  intros f w rest pos t Hw P. cbn [yylex]. destruct (w ++ rest) as [|c s] eqn:E.
  - apply app_eq_nil in E as [E _]. contradiction.
  - cbn [ls_start ls_init rules]. rewrite P. rewrite <- E.
    rewrite firstn_app, firstn_all, Nat.sub_diag, firstn_O, app_nil_r.
    rewrite skipn_app, skipn_all, Nat.sub_diag, skipn_O. reflexivity.
Qed.

Lemma word_token : forall f w rest pos, is_name w -> not_first name_char rest ->
  ~ (ends_under w /\ ~ not_first quote_char rest) ->
  exists t, yylex (S f) ls_init (w ++ rest) pos = Done (Some (t, w), ls_init, rest, pos + zlen w)%Z /\
    (keyword t w \/ t = TK_NAME /\ forall t', ~ keyword t' w).
Proof.
  intros f w rest pos Hw Hr Hq.
  destruct (pick_exact w rest (tt_name _ Hw) (word_longest _ _ Hw Hr Hq)) as (r & a & P & Hin & Hl).
  destruct (keyword_dec w) as [[t' Hk]|Hk].
  - destruct (keyword_chosen _ _ _ _ Hk P) as (t & -> & Ht). exists t. split; [|auto].
    apply yylex_initial_return; [apply name_all; exact Hw|exact P].
  - assert (a = a_return TK_NAME) by (eapply name_rule; eauto). subst a.
    exists TK_NAME. split; [|auto]. apply yylex_initial_return; [apply name_all; exact Hw|exact P].
Qed.

(** * Character literals *)
Lemma body_bound : forall q b, quoted_body q b -> forall b' v rest, quoted_body q b' ->
  not_first (eq q) rest -> b' ++ q :: v = b ++ q :: rest -> length b' <= length b.
Proof.
  induction 1 as [|c s Hc H IH|s H IH]; intros b' v rest Hb' Hr E; cbn [app] in E.
  - destruct Hb' as [|c' s' Hc' Hs'|s' Hs']; cbn [app] in E; [cbn; lia| |]; inversion E; subst; [contradiction|].
    cbn in Hr. exfalso. apply Hr. reflexivity.
  - destruct Hb' as [|c' s' Hc' Hs'|s' Hs']; cbn [app] in E; [cbn; lia| |]; inversion E; subst.
    + specialize (IH _ _ _ Hs' Hr H2). cbn. lia.
    + contradiction.
  - destruct Hb' as [|c' s' Hc' Hs'|s' Hs']; cbn [app] in E; [cbn; lia| |]; inversion E; subst.
    + contradiction.
    + specialize (IH _ _ _ Hs' Hr H1). cbn. lia.
Qed.

Lemma literal_longest : forall k q b rest, kind_prefix k -> quote_char q -> quoted_body q b ->
  not_first (eq q) rest -> longest_token (k ++ [q] ++ b ++ [q]) rest.
Proof.
  intros k q b rest Hk Hq Hb Hr u v E Hu.
  assert (Nq : ~ name_char q) by (intro X; apply (name_unquote _ X); exact Hq).
  assert (Hk' := prefix_all _ Hk).
  assert (NoQ : Forall (fun c => ~ quote_char c) u -> length u <= length (k ++ [q] ++ b ++ [q])).
  { intro X. rewrite <- !app_assoc in E. eapply run_bound with (w := k) in E; [|exact X|].
    - rewrite app_length. lia.
    - cbn. auto. }
  destruct Hu.
  - apply NoQ, Forall_unquote, name_all. eapply keyword_chars; eauto.
  - apply NoQ. eapply symbol_chars; eauto.
  - apply NoQ, Forall_unquote, name_all, H.
  - apply NoQ. constructor; [apply dot_plain|]. apply Forall_app. split.
    + apply Forall_unquote. eapply Forall_impl; [|exact H0]. apply letter_name.
    + constructor; [apply dot_plain|constructor].
  - apply NoQ. eapply logical_chars; eauto.
  - apply NoQ. eapply logical_chars; eauto.
  - destruct H as (k' & q' & b' & -> & Hk2 & Hq2 & Hb2).
    rewrite <- !app_assoc in E. cbn [app] in E.
    assert (Nq' : ~ name_char q') by (intro X; apply (name_unquote _ X); exact Hq2).
    destruct (run_same _ _ _ _ _ _ E Hk' (prefix_all _ Hk2) Nq Nq') as (-> & -> & E2).
    pose proof (body_bound _ _ Hb _ _ _ Hb2 Hr (eq_sym E2)) as X.
    rewrite !app_length. cbn [length]. lia.
  - apply NoQ. apply Forall_app. split; [apply digits_unquote; apply H|apply Forall_unquote, suffix_all; exact H0].
  - apply NoQ. apply real_chars. exact H.
  - rewrite !app_length. cbn. lia.
Qed.

Lemma literal_token : forall f k q b rest pos, kind_prefix k -> quote_char q -> quoted_body q b ->
  not_first (eq q) rest -> let w := k ++ [q] ++ b ++ [q] in
  yylex (S f) ls_init (w ++ rest) pos =
    Done (Some (SG_CHAR_LITERAL_CONSTANT, w), ls_init, rest, pos + zlen w)%Z.
Proof.
  intros f k q b rest pos Hk Hq Hb Hr w.
  assert (Hc : is_char_literal w) by (exists k, q, b; auto).
  assert (Hne : w <> []) by (unfold w; destruct k; discriminate).
  destruct (pick_exact w rest (tt_char _ Hc) (literal_longest _ _ _ _ Hk Hq Hb Hr)) as (r & a & P & Hin & Hl).
  assert (a = a_return SG_CHAR_LITERAL_CONSTANT); [|subst a; apply yylex_initial_return; assumption].
  assert (Hw : ~ Forall (fun c => ~ quote_char c) w).
  { unfold w. intro X. apply Forall_app in X as [_ X]. inversion X; subst. contradiction. }
  assert (Hlen : 2 <= length w) by (unfold w; rewrite !app_length; cbn [length]; lia).
  apply in_initial in Hin as [(kk & z & Hz & -> & ->)|[(kk & z & Hz & -> & ->)|H]].
  - exfalso. apply Hw. apply Forall_unquote, name_all. eapply keyword_chars, keyword_rule; [exact Hz|].
    apply lit_low; exact Hl.
  - exfalso. apply Hw. eapply symbol_chars, symbol_rule; [exact Hz|]. apply lit_low; exact Hl.
  - cbn [In app rules_text rules_mid rules_last] in H.
    destruct H as [E|[E|[E|[E|[E|[E|[E|[E|[E|[E|[E|[]]]]]]]]]]]]; injection E as Er Ea; subst a; auto; subst r; exfalso.
    + apply Hw. apply (proj1 (logical_low (L ".false.") (L ".FALSE.") w eq_refl eq_refl)) in Hl. eapply logical_chars; eauto.
    + apply Hw. apply (proj1 (logical_low (L ".true.") (L ".TRUE.") w eq_refl eq_refl)) in Hl. eapply logical_chars; eauto.
    + apply Hw. apply real_chars, is_real_iff. auto.
    + apply Hw. apply real_chars, is_real_iff. auto.
    + apply Hw. apply int_low in Hl as (d & kk & -> & Hd & Hkk).
      apply Forall_app. split; [apply digits_unquote; apply Hd|apply Forall_unquote, suffix_all; exact Hkk].
    + apply Hw. apply defop_low in Hl as (x & -> & _ & Hx). constructor; [apply dot_plain|]. apply Forall_app. split.
      * apply Forall_unquote. eapply Forall_impl; [|exact Hx]. apply letter_name.
      * constructor; [apply dot_plain|constructor].
    + apply Hw. apply Forall_unquote, name_all, name_low, Hl.
    + apply cls_low in Hl as (c & E & _). rewrite E in Hlen. cbn in Hlen. lia.
    + apply any_low in Hl as (c & E & _). rewrite E in Hlen. cbn in Hlen. lia.
Qed.

(** * Letter case *)
Lemma yylex_low : forall f st s pos,
  yylex f st (low s) pos =
  match yylex f st s pos with
  | Done (o, st', s', p) => Done (match o with Some (t, w) => Some (t, low w) | None => None end, st', low s', p)
  | Bad => Bad | Fuel => Fuel
  end.
Proof.
  induction f as [|f IH]; intros st s pos; [reflexivity|].
  destruct s as [|c s]; [reflexivity|].
  cbn [yylex]. change (low (c :: s)) with (lower_b c :: low s) at 1. cbn iota.
  rewrite low_low. destruct (pick (rules (ls_start st)) (low (c :: s))) as [[n a]|]; [|apply IH].
  destruct a.
  - rewrite firstn_map, skipn_map. reflexivity.
  - destruct (ls_stack st); [reflexivity|]. rewrite firstn_map, skipn_map. reflexivity.
  - apply IH.
  - apply IH.
  - rewrite skipn_map. apply IH.
Qed.
Lemma scan_low : forall f st s pos,
  scan f st (low s) pos =
  match scan f st s pos with
  | Done (l, st') => Done (map (fun e => let '(t, w, p) := e in (t, low w, p)) l, st')
  | Bad => Bad | Fuel => Fuel
  end.
Proof.
  induction f as [|f IH]; intros st s pos; [reflexivity|].
  cbn [scan]. rewrite yylex_low.
  destruct (yylex (S f) st s pos) as [[[[o st'] s'] p]| |]; cbn [obind]; [|reflexivity|reflexivity].
  destruct o as [[t w]|]; [|reflexivity]. destruct (t =? EOL)%Z; [reflexivity|].
  rewrite IH. destruct (scan f st' s' p) as [[l st2]| |]; reflexivity.
Qed.
Lemma c_str_low : forall s, c_str (low s) = low (c_str s).
Proof.
  induction s as [|c s IH]; [reflexivity|]. cbn [map c_str].
  assert (E : ceq (lower_b c) c_nul = ceq c c_nul) by (destruct c as [[] [] [] [] [] [] [] []]; reflexivity).
  rewrite E. destruct (ceq c c_nul); [reflexivity|]. cbn [map]. rewrite IH. reflexivity.
Qed.
Lemma scan_string_low : forall st s,
  scan_string st (low s) =
  match scan_string st s with
  | Done (l, st') => Done (map (fun e => let '(t, w, p) := e in (t, low w, p)) l, st')
  | Bad => Bad | Fuel => Fuel
  end.
Proof.
  intros st s. unfold scan_string, scan_fuel. rewrite c_str_low, map_length. apply scan_low.
Qed.

Lemma tags_low : forall l : list lexeme,
  map (fun '(t, _, e) => (t, e)) (map (fun x => let '(t, w, p) := x in (t, low w, p)) l) = map (fun '(t, _, e) => (t, e)) l.
Proof. intros l. rewrite map_map. apply map_ext. intros [[t w] e]. reflexivity. Qed.

(** * The start condition at the beginning of a line *)
Lemma yylex_mono : forall f st s pos x, yylex f st s pos = Done x -> yylex (S f) st s pos = Done x.
Proof.
  induction f as [|f IH]; intros st s pos x H; [discriminate H|].
  destruct s as [|c s]; [exact H|].
  cbn [yylex] in H. remember (S f) as g. cbn [yylex]. subst g.
  destruct (pick (rules (ls_start st)) (low (c :: s))) as [[n a]|]; [|apply IH; exact H].
  destruct a; auto.
Qed.

Lemma fresh_call : forall f s pos, s <> [] -> ~ starts_real (low s) -> ~ starts r_EXPONENT (low s) ->
  ~ starts (Cat r_under r_KIND) (low s) -> length s + 1 <= f ->
  yylex (S f) (mkLS real_parse []) s pos = yylex (S f) ls_init s pos.
Proof.
  intros f s pos Hn N1 N2 N3 Hf. destruct s as [|c s]; [contradiction|].
  destruct (pick_real (lower_b c) (low s)) as [[H _]|[(_ & H & _)|[(_ & H & _)|(_ & P)]]];
    try (exfalso; auto; fail).
  destruct (initial_answers f (c :: s) pos Hf) as (o & st' & s' & p & A & _).
  rewrite (yylex_mono _ _ _ _ _ A). cbn [yylex ls_start rules]. cbn [map]. rewrite P. cbn [ls_stack].
  replace (pos + Z.of_nat 1 - Z.of_nat 1)%Z with pos by lia. exact A.
Qed.

Lemma starts_low : forall r s, starts r (low s) -> exists u v, s = u ++ v /\ lang r (low u).
Proof.
  intros r s (u & v & E & H). apply map_eq_app in E as (u' & v' & -> & <- & <-). eauto.
Qed.
Lemma fresh_scan : forall s, ~ continues_real (c_str s) -> c_str s <> [] ->
  scan_string (mkLS real_parse []) s = scan_string ls_init s.
Proof.
  intros s H Hn. unfold scan_string, scan_fuel.
  replace (length (c_str s) + 2) with (S (length (c_str s) + 1)) by lia. cbn [scan].
  rewrite fresh_call; auto.
  - intros [X|X]; apply starts_low in X as (u & v & E & X); apply H; exists u, v; (split; [exact E|]); left.
    + apply sig_low in X. right. exact X.
    + apply digits_low in X. left. exact X.
  - intro X. apply starts_low in X as (u & v & E & X). apply H. exists u, v. split; [exact E|]. right. left.
    apply exppart_low. exact X.
  - intro X. apply starts_low in X as (u & v & E & X). apply H. exists u, v. split; [exact E|]. right. right.
    apply cat_low in X as (a & b & -> & Ha & Hb). apply one_low in Ha; [|ink]. subst a.
    exists b. split; [reflexivity|]. apply kind_low. exact Hb.
Qed.

(** When the scanner is left in real_parse. *)
Lemma real_never_none : forall c t, pick real_rules (c :: t) <> None.
Proof.
  intros c t H. pose proof (pick_none _ _ H (Or r_any (Cls (ceq c_nl))) (a_less_begin INITIAL)) as X.
  rewrite real_last in X. discriminate X. cbn. auto 8.
Qed.
Lemma rules_shape : forall x r a, In (r, a) (rules x) ->
  match a with
  | a_return t => x = real_parse -> real_part t
  | a_pop_return t => real_part t
  | a_eat => x <> real_parse
  | _ => True
  end.
Proof.
  intros x r a H. destruct x.
  - destruct (initial_plain _ _ H) as [[t ->]|[->|[-> _]]]; [discriminate|exact I|discriminate].
  - cbn [rules real_rules In] in H. destruct H as [E|[E|[E|[E|[E|[]]]]]]; inversion E; subst; auto; intros _; cbn; auto.
  - cbn [rules exp_rules In] in H. destruct H as [E|[E|[]]]; inversion E; subst; [intro X; discriminate X|cbn; auto].
  - cbn [rules kind_rules In] in H. destruct H as [E|[E|[]]]; inversion E; subst; [intro X; discriminate X|cbn; auto 8].
Qed.
Lemma yylex_left : forall f st s pos o st' s' p, yylex f st s pos = Done (o, st', s', p) -> ls_start st' = real_parse ->
  match o with
  | Some (t, w) => real_part t
  | None => s = [] /\ st' = st
  end.
Proof.
  induction f as [|f IH]; intros st s pos o st' s' p H Hst; [discriminate H|].
  destruct s as [|c s].
  { cbn in H. inversion H; subst. auto. }
  cbn [yylex] in H. destruct (pick (rules (ls_start st)) (low (c :: s))) as [[n a]|] eqn:P.
  - apply pick_rule in P as (r & Hin & _). pose proof (rules_shape _ _ _ Hin) as X. destruct a.
    + inversion H; subst. apply X. exact Hst.
    + destruct (ls_stack st); [discriminate H|]. inversion H; subst. exact X.
    + specialize (IH _ _ _ _ _ _ _ H Hst). destruct o as [[t w]|]; [exact IH|]. destruct IH as [E _]. discriminate E.
    + specialize (IH _ _ _ _ _ _ _ H Hst). destruct o as [[t w]|]; [exact IH|]. destruct IH as [E _]. discriminate E.
    + specialize (IH _ _ _ _ _ _ _ H Hst). destruct o as [[t w]|]; [exact IH|]. destruct IH as [E E'].
      subst st'. contradiction.
  - specialize (IH _ _ _ _ _ _ _ H Hst). destruct o as [[t w]|]; [exact IH|]. destruct IH as [E E'].
    subst st'. exfalso. rewrite Hst in P. apply real_never_none in P. exact P.
Qed.
Lemma scan_left : forall f st s pos l st', good st s -> length s + 2 <= f ->
  scan f st s pos = Done (l, st') -> ls_start st' = real_parse ->
  (s = [] /\ st' = st /\ l = []) \/
  (exists l0 t w, l = l0 ++ [(t, w, pos + zlen s)%Z] /\ real_part t).
Proof.
  induction f as [|f IH]; intros st s pos l st' G Hf H Hst; [lia|].
  destruct (yylex_answers (S f) st s pos G Hf) as (o & st1 & s1 & p1 & A1 & g & Hg & A2).
  cbn [scan] in H. rewrite A1 in H. cbn [obind] in H.
  destruct o as [[t w]|].
  - destruct A2 as (-> & Hw & -> & G' & x & Hx). rewrite (chosen_tag _ _ _ _ Hx) in H.
    destruct (scan f st1 s1 (pos + zlen g + zlen w)) as [[l1 st2]| |] eqn:E; cbn [obind] in H; try discriminate H.
    inversion H; subst. right.
    assert (Hf1 : length s1 + 2 <= f) by (rewrite !app_length in Hf; destruct w; [contradiction|]; cbn in Hf; lia).
    destruct (IH _ _ _ _ _ G' Hf1 E Hst) as [(-> & -> & ->)|(l0 & t' & w' & -> & Hr)].
    + exists [], t, w. split; [cbn [app]; do 2 f_equal; unfold zlen; rewrite !app_length; cbn [length]; lia|].
      exact (yylex_left _ _ _ _ _ _ _ _ A1 Hst).
    + exists ((t, w, (pos + zlen g + zlen w)%Z) :: l0), t', w'. split; [|exact Hr].
      cbn [app]. do 4 f_equal. unfold zlen. rewrite !app_length. lia.
  - inversion H; subst. left. destruct (yylex_left _ _ _ _ _ _ _ _ A1 Hst) as [-> ->]. auto.
Qed.
