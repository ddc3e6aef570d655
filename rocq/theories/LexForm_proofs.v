(** The rules of the scanner describe the lexemes of Lexer_spec. *)
From Verif Require Import Base Tags Smash Peg Regex Regex_proofs LexTab Lexer Lexer_spec Lexer_proofs.
Local Open Scope nat_scope.

Notation low := (map lower_b).

(** * Languages of lower-cased texts *)
Lemma cat_low : forall a b s, lang (Cat a b) (low s) <-> exists u v, s = u ++ v /\ lang a (low u) /\ lang b (low v).
Proof.
  intros a b s. rewrite lang_cat. split.
  - intros (u & v & E & Ha & Hb). apply map_eq_app in E as (u' & v' & -> & <- & <-). eauto.
  - intros (u & v & -> & Ha & Hb). exists (low u), (low v). rewrite map_app. auto.
Qed.
Lemma cls_low : forall p s, lang (Cls p) (low s) <-> exists c, s = [c] /\ p (lower_b c) = true.
Proof.
  intros p s. rewrite lang_cls. split.
  - intros (c & E & Hc). destruct s as [|d [|]]; try discriminate E. inversion E; subst. eauto.
  - intros (c & -> & Hc). exists (lower_b c). auto.
Qed.
Lemma opt_low : forall a s, lang (Opt a) (low s) <-> s = [] \/ lang a (low s).
Proof.
  intros a s. rewrite lang_opt. split; (intros [H|H]; [left|right]; auto).
  - destruct s; [reflexivity|discriminate H].
  - subst s. reflexivity.
Qed.
Lemma star_low : forall p s, lang (Star (Cls p)) (low s) <-> Forall (fun c => p (lower_b c) = true) s.
Proof. intros p s. rewrite star_cls, Forall_map. reflexivity. Qed.
Lemma plus_low : forall p s, lang (Plus (Cls p)) (low s) <-> s <> [] /\ Forall (fun c => p (lower_b c) = true) s.
Proof.
  intros p s. rewrite plus_cls, Forall_map. split; intros [H1 H2]; split; auto; intro E; apply H1.
  - subst s; reflexivity.
  - destruct s; [reflexivity|discriminate E].
Qed.
Lemma lit_low : forall w s, lang (Lit w) (low s) <-> low s = w.
Proof. intros; apply lang_lit. Qed.

(** * Characters *)
Lemma alpha_iff : forall c, is_alpha_l (lower_b c) = true <-> letter c.
Proof.
  intros c. unfold letter.
  assert (H : is_alpha_l (lower_b c) = ((65 <=? code c) && (code c <=? 90) || (97 <=? code c) && (code c <=? 122))%bool)
    by (destruct c as [[] [] [] [] [] [] [] []]; reflexivity).
  rewrite H, orb_true_iff, !andb_true_iff, !Nat.leb_le. lia.
Qed.
Lemma digit_iff : forall c, is_digit_b (lower_b c) = true <-> digit c.
Proof.
  intros c. unfold digit.
  assert (H : is_digit_b (lower_b c) = is_digit_b c)
    by (destruct c as [[] [] [] [] [] [] [] []]; reflexivity).
  rewrite H. unfold is_digit_b. rewrite andb_true_iff, !Nat.leb_le. lia.
Qed.
Lemma lower_fix : forall k c, In k [("_"%char); ("."%char); ("-"%char); ("+"%char); ("'"%char); ("034"%char); c_nl] ->
  (ceq k (lower_b c) = true <-> c = k).
Proof.
  intros k c H. unfold ceq. rewrite Ascii.eqb_eq.
  cbn [In] in H. repeat (destruct H as [<-|H]; [|]); try contradiction;
  (split; [|intros ->; reflexivity]);
  destruct c as [[] [] [] [] [] [] [] []]; vm_compute; intro H0; try discriminate H0; reflexivity.
Qed.
Lemma name_char_iff : forall c, is_name_l (lower_b c) = true <-> name_char c.
Proof.
  intros c. unfold is_name_l, name_char. rewrite !orb_true_iff, alpha_iff, digit_iff.
  assert (H : ceq (lower_b c) "_"%char = true <-> c = "_"%char).
  { unfold ceq. rewrite Ascii.eqb_sym. apply (lower_fix "_"%char c). cbn; auto. }
  rewrite H. tauto.
Qed.
Lemma Forall_iff : forall (A : Type) (P Q : A -> Prop) l, (forall x, P x <-> Q x) -> (Forall P l <-> Forall Q l).
Proof. intros A P Q l H. split; intro F; (eapply Forall_impl; [|exact F]); intros a Ha; apply H; exact Ha. Qed.

(** * Lexemes *)
Lemma digits_low : forall s, lang (Plus r_DIGIT) (low s) <-> is_digits s.
Proof.
  intros s. unfold r_DIGIT. rewrite plus_low. unfold is_digits.
  rewrite (@Forall_iff _ _ digit s); [reflexivity|apply digit_iff].
Qed.
Lemma digits0_low : forall s, lang (Star r_DIGIT) (low s) <-> Forall digit s.
Proof. intros s. unfold r_DIGIT. rewrite star_low. apply Forall_iff. apply digit_iff. Qed.
Lemma name_low : forall s, lang r_NAME (low s) <-> is_name s.
Proof.
  intros s. unfold r_NAME, is_name. rewrite cat_low. split.
  - intros (u & v & -> & Hu & Hv). apply cls_low in Hu as (c & -> & Hc). apply star_low in Hv.
    exists c, v. repeat split; [apply alpha_iff; exact Hc|].
    eapply Forall_impl; [|exact Hv]. intros a. apply name_char_iff.
  - intros (c & r & -> & Hc & Hr). exists [c], r. repeat split.
    + apply cls_low. exists c. split; [reflexivity|]. apply alpha_iff; exact Hc.
    + apply star_low. eapply Forall_impl; [|exact Hr]. intros a. apply name_char_iff.
Qed.
Lemma kind_low : forall s, lang r_KIND (low s) <-> is_kind s.
Proof. intros s. unfold r_KIND, is_kind. rewrite lang_or, digits_low, name_low. reflexivity. Qed.

Lemma one_low : forall k s, In k [("_"%char); ("."%char); ("-"%char); ("+"%char); ("'"%char); ("034"%char); c_nl] ->
  (lang (Cls (ceq k)) (low s) <-> s = [k]).
Proof.
  intros k s Hk. rewrite cls_low. split.
  - intros (c & -> & Hc). apply lower_fix in Hc; [subst; reflexivity|exact Hk].
  - intros ->. exists k. split; [reflexivity|]. apply lower_fix; [exact Hk|reflexivity].
Qed.
Ltac ink := cbn; auto 10.
Lemma suffix_low : forall s, lang r_opt_kind (low s) <-> kind_suffix s.
Proof.
  intros s. unfold r_opt_kind, kind_suffix. rewrite opt_low, cat_low. split.
  - intros [H|(u & v & -> & Hu & Hv)]; [auto|right]. apply one_low in Hu; [|ink]. subst u.
    exists v. split; [reflexivity|]. apply kind_low; exact Hv.
  - intros [H|(k & -> & Hk)]; [auto|right]. exists ["_"%char], k. repeat split.
    + apply one_low; [ink|reflexivity].
    + apply kind_low; exact Hk.
Qed.
Lemma prefix_low : forall s, lang r_kind_opt (low s) <-> kind_prefix s.
Proof.
  intros s. unfold r_kind_opt, kind_prefix. rewrite opt_low, cat_low. split.
  - intros [H|(u & v & -> & Hu & Hv)]; [auto|right]. apply one_low in Hv; [|ink]. subst v.
    exists u. split; [reflexivity|]. apply kind_low; exact Hu.
  - intros [H|(k & -> & Hk)]; [auto|right]. exists k, ["_"%char]. repeat split.
    + apply kind_low; exact Hk.
    + apply one_low; [ink|reflexivity].
Qed.

Definition dotted_sig (s : str) : Prop :=
  (exists a b, s = a ++ "."%char :: b /\ is_digits a /\ Forall digit b) \/
  (exists b, s = "."%char :: b /\ is_digits b).
Lemma sig_low : forall s, lang r_SIGNIFICAND (low s) <-> dotted_sig s.
Proof.
  intros s. unfold r_SIGNIFICAND, dotted_sig. rewrite lang_or, !cat_low. split.
  - intros [(u & v & -> & Hu & Hv)|(u & v & -> & Hu & Hv)]; [left|right].
    + apply cat_low in Hv as (d & b & -> & Hd & Hb). apply one_low in Hd; [|ink]. subst d.
      exists u, b. repeat split; try (apply digits_low; exact Hu). apply digits0_low; exact Hb.
    + apply one_low in Hu; [|ink]. subst u. exists v. split; [reflexivity|]. apply digits_low; exact Hv.
  - intros [(a & b & -> & Ha & Hb)|(b & -> & Hb)]; [left|right].
    + exists a, ("."%char :: b). repeat split; [apply digits_low; exact Ha|].
      change ("."%char :: b) with (["."%char] ++ b). apply cat_low. exists ["."%char], b. repeat split.
      * apply one_low; [ink|reflexivity].
      * apply digits0_low; exact Hb.
    + exists ["."%char], b. repeat split; [apply one_low; [ink|reflexivity]|apply digits_low; exact Hb].
Qed.
Lemma letter_low : forall s, lang (Cls is_ed) (low s) <-> is_exponent_letter s.
Proof.
  intros s. rewrite cls_low. unfold is_exponent_letter. split.
  - intros (c & -> & Hc). revert Hc. destruct c as [[] [] [] [] [] [] [] []]; vm_compute; intro H; try discriminate H; auto.
  - intros H. cbn [In] in H. destruct H as [<-|[<-|[<-|[<-|[]]]]]; eexists; split; reflexivity.
Qed.
Lemma exponent_low : forall s, lang r_signed (low s) <-> is_exponent s.
Proof.
  intros s. unfold r_signed, is_exponent. rewrite cat_low. split.
  - intros (u & v & -> & Hu & Hv). exists u, v. repeat split; try (apply digits_low in Hv; apply Hv).
    apply opt_low in Hu as [Hu|Hu]; [auto|right]. apply cls_low in Hu as (c & -> & Hc).
    revert Hc. destruct c as [[] [] [] [] [] [] [] []]; vm_compute; intro H; try discriminate H; auto.
  - intros (g & d & -> & Hg & Hd). exists g, d. repeat split; [|apply digits_low; exact Hd].
    apply opt_low. destruct Hg as [->|[->| ->]]; [left; reflexivity|right|right]; apply cls_low; eexists; split; reflexivity.
Qed.
Lemma exppart_low : forall s, lang r_EXPONENT (low s) <-> exponent_part s.
Proof.
  intros s. unfold r_EXPONENT, exponent_part. rewrite cat_low. split; intros (u & v & -> & Hu & Hv); exists u, v;
  repeat split; try (apply letter_low; exact Hu); apply exponent_low; exact Hv.
Qed.

Lemma body_low : forall q s, q = "'"%char \/ q = "034"%char ->
  (lang (Star (Or (Cat (Cls (ceq q)) (Cls (ceq q))) (Cls (fun c => negb (ceq q c))))) (low s) <-> quoted_body q s).
Proof.
  intros q s Hq.
  assert (Hk : In q [("_"%char); ("."%char); ("-"%char); ("+"%char); ("'"%char); ("034"%char); c_nl])
    by (destruct Hq as [-> | ->]; ink).
  split.
  - set (A := Or _ _). intro H. remember (Star A) as r eqn:E. remember (low s) as u eqn:Eu.
    revert s Eu. induction H; try discriminate E; intros s Eu.
    + destruct s; [constructor|discriminate Eu].
    + inversion E; subst a. symmetry in Eu. apply map_eq_app in Eu as (u1 & v1 & -> & <- & <-).
      specialize (IHlang2 eq_refl v1 eq_refl).
      apply lang_or in H as [H|H].
      * apply cat_low in H as (x & y & -> & Hx & Hy). apply one_low in Hx; [|exact Hk].
        apply one_low in Hy; [|exact Hk]. subst x y. cbn [app]. apply qb_twice. exact IHlang2.
      * apply cls_low in H as (c & -> & Hc). cbn [app]. constructor; [|exact IHlang2].
        intros ->. apply negb_true_iff in Hc.
        assert (X : ceq q (lower_b q) = true) by (apply lower_fix; [exact Hk|reflexivity]). congruence.
  - induction 1 as [|c s Hc H IH|s H IH].
    + constructor.
    + change (low (c :: s)) with ([lower_b c] ++ low s). constructor; [|exact IH].
      apply lang_or. right. constructor. apply negb_true_iff. destruct (ceq q (lower_b c)) eqn:E; [|reflexivity].
      exfalso. apply Hc. apply lower_fix in E; auto.
    + change (low (q :: q :: s)) with ([lower_b q; lower_b q] ++ low s). constructor; [|exact IH].
      apply lang_or. left. change [lower_b q; lower_b q] with (low [q; q]).
      change [q; q] with ([q] ++ [q]). apply cat_low. exists [q], [q].
      repeat split; apply one_low; auto.
Qed.
Lemma quoted_low : forall q s, q = "'"%char \/ q = "034"%char ->
  (lang (r_quoted q) (low s) <-> exists b, s = [q] ++ b ++ [q] /\ quoted_body q b).
Proof.
  intros q s Hq.
  assert (Hk : In q [("_"%char); ("."%char); ("-"%char); ("+"%char); ("'"%char); ("034"%char); c_nl])
    by (destruct Hq as [-> | ->]; ink).
  unfold r_quoted. rewrite cat_low. split.
  - intros (u & v & -> & Hu & Hv). apply one_low in Hu; [|exact Hk]. subst u.
    apply cat_low in Hv as (b & e & -> & Hb & He). apply one_low in He; [|exact Hk]. subst e.
    exists b. split; [reflexivity|]. apply body_low; assumption.
  - intros (b & -> & Hb). exists [q], (b ++ [q]). repeat split; [apply one_low; auto|].
    apply cat_low. exists b, [q]. repeat split; [apply body_low; assumption|apply one_low; auto].
Qed.

(** * The tables *)
Lemma seqb_eq : forall a b, seqb a b = true <-> a = b.
Proof.
  induction a as [|x a IH]; intros [|y b]; cbn [seqb]; split; intro H; try discriminate H; auto.
  - apply andb_true_iff in H as [H1 H2]. apply Ascii.eqb_eq in H1. apply IH in H2. subst; reflexivity.
  - inversion H; subst. apply andb_true_iff. split; [apply Ascii.eqb_refl|apply IH; reflexivity].
Qed.
Lemma upper_low : forall s, map upper_b (low s) = map upper_b s.
Proof. intros s. rewrite map_map. apply map_ext. apply upper_lower. Qed.
Lemma low_upper : forall s, low (map upper_b s) = low s.
Proof. intros s. rewrite map_map. apply map_ext. apply lower_upper. Qed.
Lemma low_low : forall s, low (low s) = low s.
Proof. intros s. rewrite map_map. apply map_ext. apply lower_idem. Qed.

Lemma keyword_rule : forall k t s, In (k, t) keyword_rules -> low s = L k -> keyword t s.
Proof.
  assert (C : forallb (fun e => (0 <=? snd e)%Z &&
      match nth_error tag_table (Z.to_nat (snd e)) with
      | Some (l, y) => seqb l (map upper_b (L (fst e))) && (y =? 4)%Z
      | None => false end)%bool keyword_rules = true) by (vm_compute; reflexivity).
  intros k t s Hin Hs. pose proof (proj1 (forallb_forall _ _) C _ Hin) as X. cbn [fst snd] in X.
  apply andb_true_iff in X as [X1 X2]. unfold keyword. split; [apply Z.leb_le; exact X1|].
  destruct (nth_error tag_table (Z.to_nat t)) as [[l y]|]; [|discriminate].
  apply andb_true_iff in X2 as [X2 X3]. apply seqb_eq in X2. apply Z.eqb_eq in X3. subst l y.
  rewrite <- Hs, upper_low. reflexivity.
Qed.
Lemma keyword_has_rule : forall t s, keyword t s -> exists k, In (k, t) keyword_rules /\ low s = L k.
Proof.
  assert (C : forallb (fun i => match nth_error tag_table i with
      | Some (l, y) => if (y =? 4)%Z then
          existsb (fun e => (snd e =? Z.of_nat i)%Z && seqb (L (fst e)) (low l)) keyword_rules else true
      | None => true end)%bool (seq 0 (length tag_table)) = true) by (vm_compute; reflexivity).
  intros t s [Ht Hk].
  assert (Hin : In (Z.to_nat t) (seq 0 (length tag_table))).
  { apply in_seq. split; [apply Nat.le_0_l|]. rewrite Nat.add_0_l. apply nth_error_Some. congruence. }
  pose proof (proj1 (forallb_forall _ _) C _ Hin) as X. cbn beta in X. rewrite Hk in X.
  change (4 =? 4)%Z with true in X. cbn iota in X.
  apply existsb_exists in X as ([k t'] & Hi & X). cbn [fst snd] in X.
  apply andb_true_iff in X as [X2 X1]. apply seqb_eq in X1. apply Z.eqb_eq in X2.
  rewrite Z2Nat.id in X2 by exact Ht. subst t'. exists k. split; [exact Hi|].
  rewrite X1, low_upper. reflexivity.
Qed.
Lemma symbol_rule : forall k t s, In (k, t) symbol_rules -> low s = L k -> symbol t s.
Proof.
  assert (C : forallb (fun e =>
      (existsb (Z.eqb (snd e)) symbol_tags &&
       match nth_error tag_table (Z.to_nat (snd e)) with
       | Some (l, y) => seqb l (map upper_b (L (fst e))) && (y =? 3)%Z
       | None => false end) ||
      existsb (fun d => seqb (fst d) (map upper_b (L (fst e))) && (snd d =? snd e)%Z) dotted)%bool
      symbol_rules = true) by (vm_compute; reflexivity).
  intros k t s Hin Hs. pose proof (proj1 (forallb_forall _ _) C _ Hin) as X. cbn [fst snd] in X.
  unfold symbol. apply orb_true_iff in X as [X|X]; [left|right].
  - apply andb_true_iff in X as [X1 X2]. apply existsb_exists in X1 as (z & Hz & X1). apply Z.eqb_eq in X1. subst z.
    split; [exact Hz|]. destruct (nth_error tag_table (Z.to_nat t)) as [[l y]|]; [|discriminate].
    apply andb_true_iff in X2 as [X2 X3]. apply seqb_eq in X2. apply Z.eqb_eq in X3. subst l y.
    rewrite <- Hs, upper_low. reflexivity.
  - apply existsb_exists in X as ([d z] & Hd & X). cbn [fst snd] in X. apply andb_true_iff in X as [X1 X2].
    apply seqb_eq in X1. apply Z.eqb_eq in X2. subst d z. rewrite <- Hs, upper_low in Hd. exact Hd.
Qed.
Lemma symbol_has_rule : forall t s, symbol t s -> exists k, In (k, t) symbol_rules /\ low s = L k.
Proof.
  assert (C1 : forallb (fun t => match nth_error tag_table (Z.to_nat t) with
      | Some (l, y) => existsb (fun e => seqb (L (fst e)) (low l) && (snd e =? t)%Z) symbol_rules
      | None => true end)%bool symbol_tags = true) by (vm_compute; reflexivity).
  assert (C2 : forallb (fun d => existsb (fun e => seqb (L (fst e)) (low (fst d)) && (snd e =? snd d)%Z) symbol_rules)%bool
      dotted = true) by (vm_compute; reflexivity).
  intros t s [[Ht Hk]|Hd].
  - pose proof (proj1 (forallb_forall _ _) C1 _ Ht) as X. cbn beta in X. rewrite Hk in X.
    apply existsb_exists in X as ([k t'] & Hi & X). cbn [fst snd] in X.
    apply andb_true_iff in X as [X1 X2]. apply seqb_eq in X1. apply Z.eqb_eq in X2. subst t'.
    exists k. split; [exact Hi|]. rewrite X1, low_upper. reflexivity.
  - pose proof (proj1 (forallb_forall _ _) C2 _ Hd) as X. cbn [fst snd] in X.
    apply existsb_exists in X as ([k t'] & Hi & X). cbn [fst snd] in X.
    apply andb_true_iff in X as [X1 X2]. apply seqb_eq in X1. apply Z.eqb_eq in X2. subst t'.
    exists k. split; [exact Hi|]. rewrite X1, low_upper. reflexivity.
Qed.
