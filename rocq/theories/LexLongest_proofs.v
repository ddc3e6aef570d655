(** Tokens have the form of their kind and are as long as possible. *)
From Verif Require Import Base Tags Smash Peg Regex Regex_proofs LexTab Lexer Lexer_spec Lexer_proofs LexForm_proofs.
Local Open Scope nat_scope.

(** * Order of the rules *)
Lemma app_split : forall (T : Type) (A B l1 l2 : list T) x, A ++ B = l1 ++ x :: l2 ->
  (exists A2, A = l1 ++ x :: A2) \/ (exists t, l1 = A ++ t).
Proof.
  induction A as [|y A IH]; intros B l1 l2 x E.
  - right. exists l1. reflexivity.
  - destruct l1 as [|z l1]; cbn in E.
    + injection E as E1 E2. subst y. left. exists A. reflexivity.
    + injection E as E1 E2. subst z. destruct (IH _ _ _ _ E2) as [[A2 ->]|[t ->]];
        [left; exists A2|right; exists t]; reflexivity.
Qed.
(** If a rule of the first part matches at least as much as the chosen rule,
    the chosen rule is one of the first part. *)
Lemma pick_first : forall A B s n a r' a' m, pick (A ++ B) s = Some (n, a) ->
  In (r', a') A -> longest r' s = Some m -> n <= m -> exists r, In (r, a) A /\ longest r s = Some n.
Proof.
  intros A B s n a r' a' m P Hin Hm Hle. apply pick_some in P as (l1 & r & l2 & E & Hl & H1 & H2).
  destruct (app_split _ _ _ _ _ _ E) as [[A2 ->]|[t ->]].
  - exists r. split; [|exact Hl]. apply in_app_iff. right. left. reflexivity.
  - assert (m < n); [|lia]. apply (H1 r' a'); [|exact Hm]. apply in_app_iff. left. exact Hin.
Qed.

Definition rules_text : list (re * action) :=
  [ (Cat (Lit (L ".false.")) r_opt_kind, a_return TK_FALSE_CONSTANT);
    (Cat (Lit (L ".true.")) r_opt_kind, a_return TK_TRUE_CONSTANT) ].
Definition rules_first : list (re * action) :=
  map fixed keyword_rules ++ map fixed symbol_rules ++ rules_text.
Definition rules_mid : list (re * action) :=
  [ (Cat r_kind_opt (r_quoted c_dquote), a_return SG_CHAR_LITERAL_CONSTANT);
    (Cat r_kind_opt (r_quoted c_squote), a_return SG_CHAR_LITERAL_CONSTANT);
    (Cat r_SIGNIFICAND (Cat (Opt r_EXPONENT) r_opt_kind), a_less_begin real_parse);
    (Cat (Plus r_DIGIT) (Cat r_EXPONENT r_opt_kind), a_less_begin real_parse);
    (Cat (Plus r_DIGIT) r_opt_kind, a_return SG_INT_LITERAL_CONSTANT);
    (Cat r_dot (Cat (Plus (Cls is_alpha_l)) r_dot), a_return TK_DEF_OP);
    (r_NAME, a_return TK_NAME) ].
Definition rules_last : list (re * action) :=
  [ (Cls (fun c => mem c set_str), a_eat);
    (r_any, a_return UNKNOWN) ].
Lemma initial_parts : initial_rules = rules_first ++ rules_mid ++ rules_last.
Proof. unfold initial_rules, rules_first. rewrite <- !app_assoc. reflexivity. Qed.

Lemma in_initial : forall r a, In (r, a) initial_rules ->
  (exists k t, In (k, t) keyword_rules /\ r = Lit (L k) /\ a = a_return t) \/
  (exists k t, In (k, t) symbol_rules /\ r = Lit (L k) /\ a = a_return t) \/
  In (r, a) (rules_text ++ rules_mid ++ rules_last).
Proof.
  intros r a H. rewrite initial_parts in H. unfold rules_first in H. rewrite !in_app_iff in H.
  assert (F : forall l, In (r, a) (map fixed l) -> exists k t, In (k, t) l /\ r = Lit (L k) /\ a = a_return t).
  { intros l Hin. apply in_map_iff in Hin as ([k t] & E & Hin). inversion E; subst. exists k, t. auto. }
  rewrite !in_app_iff. destruct H as [[H|[H|H]]|H]; auto.
Qed.

(** * Every text of a rule is a token text, and the other way round *)
Lemma upper_of : forall u w, low u = w -> map upper_b u = map upper_b w.
Proof. intros u w <-. symmetry. apply upper_low. Qed.

Lemma mem_str : forall c, mem (lower_b c) set_str = true <-> In c [" "; "009"; "013"]%char.
Proof.
  intros c. split.
  - destruct c as [[] [] [] [] [] [] [] []]; vm_compute; intro H; try discriminate H; auto.
  - cbn [In]. intros [<-|[<-|[<-|[]]]]; reflexivity.
Qed.

Lemma charlit_low : forall q s, q = "'"%char \/ q = "034"%char ->
  (lang (Cat r_kind_opt (r_quoted q)) (low s) <->
   exists k b, s = k ++ [q] ++ b ++ [q] /\ kind_prefix k /\ quoted_body q b).
Proof.
  intros q s Hq. rewrite cat_low. split.
  - intros (u & v & -> & Hu & Hv). apply (proj1 (quoted_low _ _ Hq)) in Hv as (b & -> & Hb).
    exists u, b. repeat split; [|exact Hb]. apply prefix_low; exact Hu.
  - intros (k & b & -> & Hk & Hb). exists k, ([q] ++ b ++ [q]). repeat split; [apply prefix_low; exact Hk|].
    apply quoted_low; eauto.
Qed.
Lemma defop_low : forall s, lang (Cat r_dot (Cat (Plus (Cls is_alpha_l)) r_dot)) (low s) <->
  exists w, s = "."%char :: w ++ ["."%char] /\ w <> [] /\ Forall letter w.
Proof.
  intros s. rewrite cat_low. split.
  - intros (u & v & -> & Hu & Hv). apply one_low in Hu; [|ink]. subst u.
    apply cat_low in Hv as (w & e & -> & Hw & He). apply one_low in He; [|ink]. subst e.
    exists w. apply plus_low in Hw as [Hn Hw]. repeat split; auto.
    eapply Forall_impl; [|exact Hw]. intros a. apply alpha_iff.
  - intros (w & -> & Hn & Hw). exists ["."%char], (w ++ ["."%char]). repeat split.
    + apply one_low; [ink|reflexivity].
    + apply cat_low. exists w, ["."%char]. repeat split.
      * apply plus_low. split; [exact Hn|]. eapply Forall_impl; [|exact Hw]. intros a. apply alpha_iff.
      * apply one_low; [ink|reflexivity].
Qed.
Lemma dotted_not_digits : forall s, dotted_sig s -> ~ is_digits s.
Proof.
  assert (D : ~ digit "."%char) by (unfold digit; vm_compute; lia).
  intros s [(a & b & -> & Ha & Hb)|(b & -> & Hb)] [_ H].
  - apply Forall_app in H as [_ H]. inversion H; subst. contradiction.
  - inversion H; subst. contradiction.
Qed.
Lemma real1_low : forall s, lang (Cat r_SIGNIFICAND (Cat (Opt r_EXPONENT) r_opt_kind)) (low s) <->
  exists a b k, s = a ++ b ++ k /\ dotted_sig a /\ kind_suffix k /\ (exponent_part b \/ b = []).
Proof.
  intros s. rewrite cat_low. split.
  - intros (u & v & -> & Hu & Hv). apply cat_low in Hv as (b & k & -> & Hb & Hk).
    exists u, b, k. repeat split; [apply sig_low; exact Hu|apply suffix_low; exact Hk|].
    apply opt_low in Hb as [Hb|Hb]; [auto|left; apply exppart_low; exact Hb].
  - intros (a & b & k & -> & Ha & Hk & Hb). exists a, (b ++ k). repeat split; [apply sig_low; exact Ha|].
    apply cat_low. exists b, k. repeat split; [|apply suffix_low; exact Hk].
    apply opt_low. destruct Hb as [Hb|Hb]; [right; apply exppart_low; exact Hb|auto].
Qed.
Lemma real2_low : forall s, lang (Cat (Plus r_DIGIT) (Cat r_EXPONENT r_opt_kind)) (low s) <->
  exists a b k, s = a ++ b ++ k /\ is_digits a /\ kind_suffix k /\ exponent_part b.
Proof.
  intros s. rewrite cat_low. split.
  - intros (u & v & -> & Hu & Hv). apply cat_low in Hv as (b & k & -> & Hb & Hk).
    exists u, b, k. repeat split; try (apply digits_low; exact Hu); [apply suffix_low; exact Hk|apply exppart_low; exact Hb].
  - intros (a & b & k & -> & Ha & Hk & Hb). exists a, (b ++ k). repeat split; [apply digits_low; exact Ha|].
    apply cat_low. exists b, k. repeat split; [apply exppart_low; exact Hb|apply suffix_low; exact Hk].
Qed.
Lemma int_low : forall s, lang (Cat (Plus r_DIGIT) r_opt_kind) (low s) <->
  exists d k, s = d ++ k /\ is_digits d /\ kind_suffix k.
Proof.
  intros s. rewrite cat_low. split; intros (u & v & -> & Hu & Hv); exists u, v; repeat split;
  try (apply digits_low; exact Hu); apply suffix_low; exact Hv.
Qed.
Lemma logical_low : forall w v s, v = map upper_b w -> low w = w ->
  (lang (Cat (Lit w) r_opt_kind) (low s) <-> logical_literal v s).
Proof.
  intros w v s -> Hw. rewrite cat_low. unfold logical_literal. split.
  - intros (u & k & -> & Hu & Hk). exists u, k. repeat split; [|apply suffix_low; exact Hk].
    apply upper_of. apply lit_low. exact Hu.
  - intros (u & k & -> & Hu & Hk). exists u, k. repeat split; [|apply suffix_low; exact Hk].
    apply lit_low. rewrite <- (low_upper u), Hu, low_upper. exact Hw.
Qed.
Lemma any_low : forall s, lang r_any (low s) <-> exists c, s = [c] /\ c <> "010"%char.
Proof.
  intros s. unfold r_any. rewrite cls_low. split; intros (c & -> & Hc); exists c; (split; [reflexivity|]).
  - intros ->. discriminate Hc.
  - apply negb_true_iff. destruct (ceq c_nl (lower_b c)) eqn:E; [|reflexivity].
    exfalso. apply Hc. apply lower_fix in E; [exact E|ink].
Qed.

Lemma is_real_iff : forall s, is_real s <->
  lang (Cat r_SIGNIFICAND (Cat (Opt r_EXPONENT) r_opt_kind)) (low s) \/
  lang (Cat (Plus r_DIGIT) (Cat r_EXPONENT r_opt_kind)) (low s).
Proof.
  intros s. rewrite real1_low, real2_low. unfold is_real, is_significand. split.
  - intros (a & b & k & -> & Ha & Hk & Hb). destruct Ha as [Ha|Ha].
    + destruct Hb as [Hb|[_ Hb]]; [|contradiction]. right. exists a, b, k. auto.
    + left. exists a, b, k. repeat split; auto. destruct Hb as [Hb|[Hb _]]; auto.
  - intros [(a & b & k & -> & Ha & Hk & Hb)|(a & b & k & -> & Ha & Hk & Hb)]; exists a, b, k.
    + repeat split; auto. destruct Hb as [Hb|Hb]; auto. right. split; [exact Hb|].
      apply dotted_not_digits; exact Ha.
    + repeat split; auto.
Qed.

Lemma rule_text : forall r a s, In (r, a) initial_rules -> lang r (low s) -> token_text s.
Proof.
  intros r a s H Hl. apply in_initial in H as [(k & t & Hk & -> & ->)|[(k & t & Hk & -> & ->)|H]].
  - eapply tt_keyword, keyword_rule; [exact Hk|]. apply lit_low; exact Hl.
  - eapply tt_symbol, symbol_rule; [exact Hk|]. apply lit_low; exact Hl.
  - cbn [In app rules_text rules_mid rules_last] in H.
    destruct H as [E|[E|[E|[E|[E|[E|[E|[E|[E|[E|[E|[]]]]]]]]]]]]; inversion E; subst; clear E.
    + apply tt_false. exact (proj1 (logical_low (L ".false.") (L ".FALSE.") s eq_refl eq_refl) Hl).
    + apply tt_true. exact (proj1 (logical_low (L ".true.") (L ".TRUE.") s eq_refl eq_refl) Hl).
    + apply charlit_low in Hl as (k & b & -> & Hk & Hb); [|auto]. apply tt_char. exists k, c_dquote, b. auto.
    + apply charlit_low in Hl as (k & b & -> & Hk & Hb); [|auto]. apply tt_char. exists k, c_squote, b. auto.
    + apply tt_real, is_real_iff. auto.
    + apply tt_real, is_real_iff. auto.
    + apply int_low in Hl as (d & k & -> & Hd & Hk). apply tt_int; assumption.
    + apply defop_low in Hl as (w & -> & Hn & Hw). apply tt_def_op; assumption.
    + apply tt_name, name_low, Hl.
    + apply cls_low in Hl as (c & -> & Hc). apply mem_str in Hc. apply tt_other.
      intros ->. cbn in Hc. intuition discriminate.
    + apply any_low in Hl as (c & -> & Hc). apply tt_other; exact Hc.
Qed.

Ltac in_rules := rewrite initial_parts; unfold rules_first; rewrite !in_app_iff; cbn [In rules_text rules_mid rules_last]; auto 20.
Lemma text_rule : forall s, token_text s -> exists r a, In (r, a) initial_rules /\ lang r (low s).
Proof.
  intros s H. destruct H.
  - apply keyword_has_rule in H as (k & Hk & E). exists (Lit (L k)), (a_return t). split; [|apply lit_low; exact E].
    rewrite initial_parts. unfold rules_first. rewrite !in_app_iff. left. left.
    apply (in_map fixed) in Hk. exact Hk.
  - apply symbol_has_rule in H as (k & Hk & E). exists (Lit (L k)), (a_return t). split; [|apply lit_low; exact E].
    rewrite initial_parts. unfold rules_first. rewrite !in_app_iff. left. right. left.
    apply (in_map fixed) in Hk. exact Hk.
  - exists r_NAME, (a_return TK_NAME). split; [in_rules|apply name_low; exact H].
  - exists (Cat r_dot (Cat (Plus (Cls is_alpha_l)) r_dot)), (a_return TK_DEF_OP). split; [in_rules|].
    apply defop_low. eauto.
  - exists (Cat (Lit (L ".true.")) r_opt_kind), (a_return TK_TRUE_CONSTANT). split; [in_rules|].
    apply (logical_low (L ".true.") (L ".TRUE.")); auto.
  - exists (Cat (Lit (L ".false.")) r_opt_kind), (a_return TK_FALSE_CONSTANT). split; [in_rules|].
    apply (logical_low (L ".false.") (L ".FALSE.")); auto.
  - destruct H as (k & q & b & -> & Hk & Hq & Hb).
    exists (Cat r_kind_opt (r_quoted q)), (a_return SG_CHAR_LITERAL_CONSTANT).
    split; [destruct Hq as [-> | ->]; in_rules|]. apply charlit_low; eauto.
  - exists (Cat (Plus r_DIGIT) r_opt_kind), (a_return SG_INT_LITERAL_CONSTANT). split; [in_rules|].
    apply int_low. eauto.
  - apply is_real_iff in H as [H|H].
    + eexists. exists (a_less_begin real_parse). split; [|exact H]. in_rules.
    + eexists. exists (a_less_begin real_parse). split; [|exact H]. in_rules.
  - exists r_any, (a_return UNKNOWN). split; [in_rules|]. apply any_low. eauto.
Qed.

(** * The chosen token *)
Lemma longest_low : forall r w rest n, longest r (low (w ++ rest)) = Some n -> n = length w -> lang r (low w).
Proof.
  intros r w rest n H ->. apply longest_some in H as (_ & H & _).
  rewrite map_app, firstn_app, map_length, Nat.sub_diag, firstn_O, app_nil_r in H.
  rewrite <- (map_length lower_b), firstn_all in H. exact H.
Qed.
Lemma low_longest : forall r w rest, lang r (low w) -> exists m, longest r (low (w ++ rest)) = Some m /\ length w <= m.
Proof.
  intros r w rest H. rewrite map_app. destruct (longest_ge r (low w) (low rest) H) as (m & H1 & H2).
  rewrite map_length in H2. eauto.
Qed.
Lemma chosen_rule : forall x t w rest, chosen x t w rest ->
  exists r a, In (r, a) (rules x) /\ lang r (low w) /\ (a = a_return t \/ a = a_pop_return t).
Proof.
  intros x t w rest (a & P & Ha). apply pick_rule in P as (r & Hin & Hl & _).
  exists r, a. split; [exact Hin|]. split; [eapply longest_low; eauto|exact Ha].
Qed.

Lemma chosen_longest : forall t w rest, chosen INITIAL t w rest -> longest_token w rest.
Proof.
  intros t w rest (a & P & _) u v E Hu. apply text_rule in Hu as (r & b & Hin & Hl).
  destruct (low_longest _ _ v Hl) as (m & Hm & Hle). rewrite <- E in Hm.
  apply pick_some in P as (l1 & r1 & l2 & Er & Hl1 & H1 & H2). cbn [rules] in Er. rewrite Er in Hin.
  apply in_app_iff in Hin as [Hin|[Hin|Hin]].
  - specialize (H1 _ _ _ Hin Hm). lia.
  - inversion Hin; subst. rewrite Hm in Hl1. inversion Hl1. lia.
  - specialize (H2 _ _ _ Hin Hm). lia.
Qed.

(** no earlier rule has the text *)
Lemma not_earlier : forall A B t w rest, initial_rules = A ++ B -> chosen INITIAL t w rest ->
  (forall r, ~ In (r, a_return t) A) -> (forall r, ~ In (r, a_pop_return t) A) ->
  forall r a, In (r, a) A -> ~ lang r (low w).
Proof.
  intros A B t w rest E (a & P & Ha) N1 N2 r b Hin Hl.
  destruct (low_longest _ _ rest Hl) as (m & Hm & Hle). cbn [rules] in P. rewrite E in P.
  destruct (pick_first _ _ _ _ _ _ _ _ P Hin Hm Hle) as (r1 & Hr & _).
  destruct Ha as [-> | ->]; [apply (N1 r1)|apply (N2 r1)]; exact Hr.
Qed.
Definition tag_of (a : action) : option Z :=
  match a with a_return t | a_pop_return t => Some t | _ => None end.
Lemma no_tag : forall t (A : list (re * action)), forallb (fun p => match tag_of (snd p) with Some z => negb (z =? t)%Z | None => true end) A = true ->
  (forall r, ~ In (r, a_return t) A) /\ (forall r, ~ In (r, a_pop_return t) A).
Proof.
  intros t A H. rewrite forallb_forall in H. split; intros r Hin; apply H in Hin; cbn in Hin;
  rewrite Z.eqb_refl in Hin; discriminate.
Qed.

Lemma not_earlier_tag : forall A B t w rest, initial_rules = A ++ B -> chosen INITIAL t w rest ->
  forallb (fun p => match tag_of (snd p) with Some z => negb (z =? t)%Z | None => true end) A = true ->
  forall r a, In (r, a) A -> ~ lang r (low w).
Proof. intros A B t w rest E C H. destruct (no_tag _ _ H) as [N1 N2]. eapply not_earlier; eauto. Qed.

Lemma initial_form : forall t w rest, chosen INITIAL t w rest -> lexeme_form t w.
Proof.
  intros t w rest C. destruct (chosen_rule _ _ _ _ C) as (r & a & Hin & Hl & Ha). cbn [rules] in Hin.
  apply in_initial in Hin as [(k & z & Hk & -> & E)|[(k & z & Hk & -> & E)|H]].
  - assert (z = t) by (destruct Ha; congruence). subst z.
    apply lf_keyword. eapply keyword_rule; [exact Hk|]. apply lit_low; exact Hl.
  - assert (z = t) by (destruct Ha; congruence). subst z.
    apply lf_symbol. eapply symbol_rule; [exact Hk|]. apply lit_low; exact Hl.
  - cbn [In app rules_text rules_mid rules_last] in H.
    destruct H as [E|[E|[E|[E|[E|[E|[E|[E|[E|[E|[E|[]]]]]]]]]]]]; inversion E; subst; clear E;
      destruct Ha as [Ha|Ha]; inversion Ha; subst; clear Ha.
    + apply lf_false. exact (proj1 (logical_low (L ".false.") (L ".FALSE.") w eq_refl eq_refl) Hl).
    + apply lf_true. exact (proj1 (logical_low (L ".true.") (L ".TRUE.") w eq_refl eq_refl) Hl).
    + apply charlit_low in Hl as (k & b & -> & Hk & Hb); [|auto]. apply lf_char. exists k, c_dquote, b. auto.
    + apply charlit_low in Hl as (k & b & -> & Hk & Hb); [|auto]. apply lf_char. exists k, c_squote, b. auto.
    + apply int_low in Hl as (d & k & -> & Hd & Hk). apply lf_int; assumption.
    + apply defop_low in Hl as (u & -> & Hn & Hu).
      assert (N : forall r a, In (r, a) rules_first -> ~ lang r (low ("."%char :: u ++ ["."%char])))
        by (eapply not_earlier_tag; [exact initial_parts|exact C|vm_compute; reflexivity]).
      eapply lf_def_op; eauto.
      * intros t Hs. apply symbol_has_rule in Hs as (k & Hk & E).
        apply (N (Lit (L k)) (a_return t)); [|apply lit_low; exact E].
        unfold rules_first. rewrite !in_app_iff. right. left. apply (in_map fixed) in Hk. exact Hk.
      * intro E. apply (N (Cat (Lit (L ".true.")) r_opt_kind) (a_return TK_TRUE_CONSTANT)).
        -- unfold rules_first. rewrite !in_app_iff. cbn. auto.
        -- apply (logical_low (L ".true.") (L ".TRUE.")); [reflexivity|reflexivity|].
           eexists. exists []. rewrite app_nil_r. split; [reflexivity|]. split; [exact E|left; reflexivity].
      * intro E. apply (N (Cat (Lit (L ".false.")) r_opt_kind) (a_return TK_FALSE_CONSTANT)).
        -- unfold rules_first. rewrite !in_app_iff. cbn. auto.
        -- apply (logical_low (L ".false.") (L ".FALSE.")); [reflexivity|reflexivity|].
           eexists. exists []. rewrite app_nil_r. split; [reflexivity|]. split; [exact E|left; reflexivity].
    + apply name_low in Hl. apply lf_name; [exact Hl|].
      assert (N : forall r a, In (r, a) rules_first -> ~ lang r (low w))
        by (eapply not_earlier_tag; [exact initial_parts|exact C|vm_compute; reflexivity]).
      intros t Hs. apply keyword_has_rule in Hs as (k & Hk & E).
      apply (N (Lit (L k)) (a_return t)); [|apply lit_low; exact E].
      unfold rules_first. rewrite !in_app_iff. left. apply (in_map fixed) in Hk. exact Hk.
    + apply any_low in Hl as (c & -> & Hc).
      assert (N : forall r a, In (r, a) (rules_first ++ rules_mid ++ [(Cls (fun c => mem c set_str), a_eat)]) -> ~ lang r (low [c])).
      { eapply not_earlier_tag; [|exact C|vm_compute; reflexivity].
        rewrite initial_parts, <- !app_assoc. reflexivity. }
      apply lf_unknown.
      * intro X. apply (N r_NAME (a_return TK_NAME)); [rewrite !in_app_iff; cbn; auto 20|].
        apply name_low. exists c, []. auto.
      * intro X. apply (N (Cat (Plus r_DIGIT) r_opt_kind) (a_return SG_INT_LITERAL_CONSTANT)).
        -- rewrite !in_app_iff; cbn; auto 20.
        -- apply int_low. exists [c], []. repeat split; [discriminate|constructor; auto|left; reflexivity].
      * intros t Hs. apply symbol_has_rule in Hs as (k & Hk & E).
        apply (N (Lit (L k)) (a_return t)); [|apply lit_low; exact E].
        unfold rules_first. rewrite !in_app_iff. left. right. left. apply (in_map fixed) in Hk. exact Hk.
      * intro X. assert (Y : In c [" "; "009"; "013"]%char) by (cbn in X |- *; intuition congruence).
        apply (N (Cls (fun c => mem c set_str)) a_eat); [rewrite !in_app_iff; cbn; auto 20|].
        apply cls_low. exists c. split; [reflexivity|]. apply mem_str. exact Y.
Qed.

Lemma chosen_form : forall x t w rest, chosen x t w rest -> lexeme_form t w /\ (real_part t \/ longest_token w rest).
Proof.
  intros x t w rest C. destruct x.
  - split; [eapply initial_form; eauto|right; eapply chosen_longest; eauto].
  - destruct (chosen_rule _ _ _ _ C) as (r & a & Hin & Hl & Ha). cbn [rules real_rules In] in Hin.
    destruct Hin as [E|[E|[E|[E|[E|[]]]]]]; inversion E; subst; clear E;
      destruct Ha as [Ha|Ha]; inversion Ha; subst; clear Ha; (split; [|left; cbn; auto]); apply lf_significand.
    + apply sig_low in Hl. right. exact Hl.
    + apply digits_low in Hl. left. exact Hl.
  - destruct (chosen_rule _ _ _ _ C) as (r & a & Hin & Hl & Ha). cbn [rules exp_rules In] in Hin.
    destruct Hin as [E|[E|[]]]; inversion E; subst; clear E;
      destruct Ha as [Ha|Ha]; inversion Ha; subst; clear Ha; (split; [|left; cbn; auto]).
    + apply lf_letter, letter_low, Hl.
    + apply lf_exponent, exponent_low, Hl.
  - destruct (chosen_rule _ _ _ _ C) as (r & a & Hin & Hl & Ha). cbn [rules kind_rules In] in Hin.
    destruct Hin as [E|[E|[]]]; inversion E; subst; clear E;
      destruct Ha as [Ha|Ha]; inversion Ha; subst; clear Ha; (split; [|left; cbn; auto 8]).
    + apply one_low in Hl; [|ink]. subst w. apply lf_under.
    + apply lf_kind, kind_low, Hl.
Qed.

Lemma tiled_lexed : forall p s l, tiled p s l -> lexed p s l.
Proof.
  induction 1 as [p g Hg|p g t w r l x Hg Hw C H IH]; [constructor; exact Hg|].
  destruct (chosen_form _ _ _ _ C) as [F1 F2]. constructor; assumption.
Qed.

Lemma scan_string_ok : forall st s, idle st ->
  exists l st', scan_string st s = Done (l, st') /\ lexed 0 (c_str s) l /\ idle st'.
Proof.
  intros st s Hi. unfold scan_string, scan_fuel.
  destruct (scan_ok (length (c_str s) + 2) st (c_str s) 0) as (l & st' & H1 & H2 & H3).
  - destruct Hi as [-> | ->]; exact I.
  - lia.
  - exists l, st'. split; [exact H1|]. split; [apply tiled_lexed; exact H2|exact H3].
Qed.
