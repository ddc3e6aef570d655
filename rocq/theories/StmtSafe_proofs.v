(** The statement parsers stay inside the statement. *)
From Verif Require Import Base Base_lemmas Tags SyntaxTags Token TTStream TTStream_spec TTStream_proofs StmtRules Peg Peg_spec Peg_proofs PegCover_proofs
  PegTerm_proofs PegSafe_proofs PegOk_proofs Nest_proofs StmtGrammar StmtParser StmtTables_proofs.
Local Open Scope nat_scope.

(** a sequence that ends with eol() *)
Lemma seq_eol R n body exts : R = run body exts n -> forall ps kids s kids' s',
  seq_loop R (ps ++ [p_eol]) kids s = Done (true, kids', s') -> peek s' = Ok BAD.
Proof.
  intros ->. induction ps as [|p ps IH]; intros kids s kids' s' H; cbn [app seq_loop] in H.
  - step3 H m t s1. destruct m; [|discriminate]. injection H as <- <-. destruct n as [|n]; [discriminate|]. cbn [run p_eol] in E.
    unfold peek_o in E. destruct (peek s) as [x| |] eqn:EP; cbn [lift obind] in E; try discriminate.
    destruct (Z.eqb_spec BAD x) as [HB|]; [|discriminate]. injection E as <- <-. congruence.
  - step3 H m t s1. destruct m; [|discriminate]. eauto.
Qed.
Lemma peek_bad s : sound s -> peek s = Ok BAD -> pos s = s_end s.
Proof.
  intros Hs H. destruct (peek_sound s Hs) as [(HE & _)|(_ & t & HT & HB & _)]; [exact HE|].
  rewrite HT in H. injection H as H. contradiction.
Qed.
Lemma rest_sub s : rest (stream_of (frags s) (pos s) (s_end s)) = rest s.
Proof. reflexivity. Qed.

Lemma matched_prefix o c l x y k : matched o c (l ++ x) k -> k <= length l -> matched o c (l ++ y) k.
Proof.
  intros (H1 & H2 & H3) HK. assert (X : forall j z, j <= k -> firstn j (l ++ z) = firstn j l).
  { intros j z Hj. rewrite firstn_app. replace (j - length l) with 0 by lia. rewrite firstn_O. apply app_nil_r. }
  split; [rewrite app_length; lia|]. rewrite X in * by lia. split; [exact H2|]. intros j Hj. specialize (H3 j Hj). rewrite X in * by lia. exact H3.
Qed.
Lemma dec_matched l : tok (last l default_token) = TK_PARENR ->
  (exists k, matched TK_PARENR TK_PARENL (rev l) k) \/ unmatched TK_PARENR TK_PARENL (rev l).
Proof.
  induction l as [|c x _] using rev_ind; intro EP; [discriminate EP|]. rewrite last_last in EP.
  rewrite rev_app_distr. cbn [rev app]. destruct (scan_matched TK_PARENR TK_PARENL c (rev x) EP) as (M1 & M2 & _).
  destruct (scan TK_PARENR TK_PARENL 1 (rev x)) as [k1|] eqn:SC; [left; eauto|right; auto].
Qed.
Lemma last_app_ne (A : Type) (u l : list A) d : l <> [] -> last (u ++ l) d = last l d.
Proof. induction l as [|c x _] using rev_ind; [congruence|]. intros _. rewrite app_assoc, !last_last. reflexivity. Qed.

Section Exts.
Variable exts : bool -> list ext.
Hypothesis Hexts : forall a, Forall ext_ok (exts a).
Hypothesis Hextf : forall a, Forall ext_safe (exts a).

(** all rules, if the statement does not end in ")" *)
Definition every (r : rule) : bool := true.
Definition is_des (r : rule) : bool := negb (not_designator (grammar r)).
Lemma every_calls p : calls every p = true.
Proof using.
  clear. revert p. assert (X : forall n p, height p <= n -> calls every p = true).
  { induction n as [|n IH]; intros p H; [destruct p; cbn in H; lia|].
    destruct p; cbn [calls]; auto; try (apply IH; cbn in H; lia).
    - apply forallb_forall. intros q Hq. apply IH. apply (height_in _ _ 0%Z) in Hq. cbn [height] in *. lia.
    - apply forallb_forall. intros q Hq. apply IH. apply (height_in _ _ 0%Z) in Hq. cbn [height] in *. lia. }
  intro p. eapply X. reflexivity.
Qed.
Lemma des_rule r : is_des r = true -> r = r_procedure_designator.
Proof using.
  clear. intro HD. assert (G : (negb (is_des r) || (rule_idx r =? rule_idx r_procedure_designator)) = true).
  { clear. revert r. apply by_rules. vm_compute. reflexivity. }
  rewrite HD in G. cbn [negb orb] in G. destruct r; try discriminate G; reflexivity.
Qed.
(** the name between the current position and e *)
Lemma des_step B (Inv : stream -> Prop) n s e ps : ps = [POpt (h_seq [PStar (h_seq [PRule r_part_ref; PTok TK_PERCENT])]); PName; p_eol] ->
  (forall p s, okp every p -> sound s -> Inv s -> okr B s (run grammar exts n p s)) ->
  let sub := stream_of (frags s) (pos s) e in
  sound s -> sound sub -> Inv sub -> e <= s_end s ->
  okf B s ('(m, t, _) <~ run grammar exts n (PSeq SG_PROCEDURE_DESIGNATOR ps) sub ;; Done (t, set_pos s e)).
Proof using.
  clear. intros Eps IH sub Hs HS1 HS2 He.
  assert (HOK : okp every (PSeq SG_PROCEDURE_DESIGNATOR ps)) by (subst ps; repeat split).
  pose proof (IH _ sub HOK HS1 HS2) as H.
  destruct (run grammar exts n (PSeq SG_PROCEDURE_DESIGNATOR ps) sub) as [((m & t) & s1)| |] eqn:E; cbn [obind]; auto.
  destruct H as (H1 & H2 & H3). split; [apply same_set|]. split; [cbn; lia|]. destruct t as [t|]; [|exact I].
  cbn [pos set_pos]. destruct n as [|n]; [discriminate|]. cbn [run] in E. step3 E m1 kids s2.
  destruct m1; [|discriminate]. step E. injection E as <- <- <-. rewrite Eps in E0.
  change [POpt (h_seq [PStar (h_seq [PRule r_part_ref; PTok TK_PERCENT])]); PName; p_eol]
    with ([POpt (h_seq [PStar (h_seq [PRule r_part_ref; PTok TK_PERCENT])]); PName] ++ [p_eol]) in E0.
  pose proof (seq_eol _ _ _ _ eq_refl _ _ _ _ _ E0) as HB.
  assert (HS3 : sound s2) by (apply (sound_move sub); auto; apply tiled_le in H3; exact H3).
  apply peek_bad in HB; [|exact HS3]. destruct H1 as (F1 & F2 & F3). unfold tiled' in H3. rewrite HB, F3 in H3. cbn [s_end sub stream_of] in H3.
  eapply (tree_ok_part sub s); [reflexivity|cbn; lia|lia|exact H3].
Qed.
Lemma des_ok n k r s : is_des r = true ->
  (forall p s, okp every p -> sound s -> no_paren_end s -> okr False s (run grammar exts n p s)) ->
  sound s -> no_paren_end s -> okf False s (call_rule grammar exts (run grammar exts n) k r s).
Proof using.
  clear. intros HD IH Hs Hi. unfold call_rule. apply des_rule in HD. subst r. cbn [grammar]. unfold b_procedure_designator, designator.
  rewrite no_open_paren by assumption. cbn [lift obind]. unfold consume_until_eol. cbn [set_pos pos frags].
  pose proof Hs as ((HO & HO2) & _). replace (s_end s <? pos s) with false by (symmetry; apply Nat.ltb_ge; lia).
  eapply des_step; [reflexivity|exact IH|exact Hs| | |lia].
  - destruct Hs as (_ & HC & HT). split; [split; assumption|split; assumption].
  - destruct Hi as (HB & HP). split; [cbn; lia|]. intros (HX & HY). cbn in HX, HY. apply HP. split; [lia|exact HY].
Qed.
Lemma all_ok n p s : sclean p = true -> plain p = true -> firm p = true -> sound s -> no_paren_end s ->
  okr False s (run grammar exts n p s).
Proof using Hexts Hextf.
  intros H1 H2 H3 Hs Hi. eapply (run_ok False grammar exts every is_des no_paren_end); eauto using g_clean, g_plain, g_firm, g_lit, every_calls.
  - intros r _ H. unfold is_des in H. apply negb_false_iff in H. exact H.
  - intros. eapply no_paren_move; eauto.
  - intros. apply des_ok; auto.
  - repeat split; auto using every_calls.
Qed.
Lemma rule_ok n r s : sound s -> no_paren_end s -> okf False s (parse_rule grammar exts n r s).
Proof using Hexts Hextf.
  intros Hs Hi. unfold parse_rule.
  eapply (call_ok False grammar exts every is_des no_paren_end); eauto using g_clean, g_plain, g_firm, g_lit, every_calls.
  - intros r' _ H. unfold is_des in H. apply negb_false_iff in H. exact H.
  - intros. eapply no_paren_move; eauto.
  - intros. apply des_ok; auto.
  - intros p s' ((P1 & P2 & _) & P3) Hs' Hi'. apply all_ok; auto.
Qed.

(** the rules that do not come to procedure_designator, on all statements *)
Lemma plain_rule_ok n r s : g_plainset r = true -> sound s -> okf False s (parse_rule grammar exts n r s).
Proof using Hexts Hextf.
  intros HP Hs. unfold parse_rule.
  assert (RO : forall n p s, okp g_plainset p -> sound s -> True -> okr False s (run grammar exts n p s)).
  { intros. eapply (run_ok False grammar exts g_plainset (fun _ => false) (fun _ => True)); eauto using g_clean, g_plain, g_firm, g_lit, g_calls, g_nodes.
    discriminate. }
  eapply (call_ok False grammar exts g_plainset (fun _ => false) (fun _ => True)); eauto using g_clean, g_plain, g_firm, g_lit, g_calls, g_nodes.
  discriminate.
Qed.

(** all rules, on nested statements, if they return *)
Definition in_nest (s : stream) : Prop :=
  s_beg s <= pos s /\ no_bad (firstn (pos s - s_beg s) (skipn (s_beg s) (frags s))) /\ exists u, nested (u ++ rest s).
Lemma slice_app (l : list Token) b c e : b <= c -> c <= e ->
  firstn (e - b) (skipn b l) = firstn (c - b) (skipn b l) ++ firstn (e - c) (skipn c l).
Proof using.
  clear. intros H1 H2. replace (e - b) with ((c - b) + (e - c)) by lia.
  assert (X : forall a k (m : list Token), firstn (a + k) m = firstn a m ++ firstn k (skipn a m)).
  { induction a as [|a IHa]; intros k m; [reflexivity|]. destruct m; cbn; [rewrite firstn_nil; reflexivity|]. rewrite IHa. reflexivity. }
  rewrite X. rewrite skipn_add. replace (b + (c - b)) with c by lia. reflexivity.
Qed.
Lemma in_nest_move s s' : sound s -> in_nest s -> same s s' -> pos s <= pos s' -> pos s' <= s_end s -> in_nest s'.
Proof using.
  clear. intros Hs (H1 & H2 & u & H3) (F1 & F2 & F3) H4 H5. split; [lia|]. rewrite F1, F2.
  assert (HR : rest s = firstn (pos s' - pos s) (skipn (pos s) (frags s)) ++ rest s').
  { unfold rest. rewrite F1, F3. apply slice_app; lia. }
  split.
  - rewrite (slice_app _ (s_beg s) (pos s) (pos s')) by lia. apply Forall_app. split; [exact H2|].
    destruct Hs as (_ & _ & HT). rewrite HR in HT. apply Forall_app in HT. destruct HT as (HT & _).
    eapply Forall_impl; [|exact HT]. intros t (X & _). exact X.
  - exists (u ++ firstn (pos s' - pos s) (skipn (pos s) (frags s))). rewrite <- app_assoc, <- HR. exact H3.
Qed.
Lemma slice_len (l : list Token) b e : e <= length l -> length (firstn (e - b) (skipn b l)) = e - b.
Proof using. clear. intro H. rewrite firstn_length, skipn_length. lia. Qed.
Lemma des_nest n k r s : is_des r = true ->
  (forall p s, okp every p -> sound s -> in_nest s -> okr True s (run grammar exts n p s)) ->
  sound s -> in_nest s -> okf True s (call_rule grammar exts (run grammar exts n) k r s).
Proof using.
  clear. intros HD IH Hs Hi. unfold call_rule. apply des_rule in HD. subst r. cbn [grammar]. unfold b_procedure_designator, designator.
  pose proof Hs as ((HO & HO2) & HC & HT). pose proof Hi as (HB & HNB & u & HN).
  set (s0 := consume_until_eol s).
  set (whole := firstn (s_end s - s_beg s) (skipn (s_beg s) (frags s))).
  assert (HW : whole = firstn (pos s - s_beg s) (skipn (s_beg s) (frags s)) ++ rest s) by (apply slice_app; lia).
  assert (NBw : no_bad whole).
  { rewrite HW. apply Forall_app. split; [exact HNB|]. eapply Forall_impl; [|exact HT]. intros t (X & _). exact X. }
  assert (LW : length whole = s_end s - s_beg s) by (apply slice_len; lia).
  assert (CUT : at_cut s0 whole []).
  { exists (firstn (s_beg s) (frags s)), (skipn (s_end s) (frags s)). cbn [app]. unfold s0, consume_until_eol. cbn [frags set_pos s_beg pos s_end].
    rewrite firstn_length, LW. cbn [length]. repeat split; try lia.
    rewrite <- (firstn_skipn (s_beg s) (frags s)) at 1. f_equal.
    rewrite <- (firstn_skipn (s_end s - s_beg s) (skipn (s_beg s) (frags s))) at 1. unfold whole. f_equal.
    rewrite skipn_add. f_equal. lia. }
  destruct (open_paren_ok s0 whole [] CUT NBw) as (OP1 & OP2 & OP3).
  (* what the second half does *)
  assert (FIN : forall e s1, same s s1 -> pos s1 = e -> e <= s_end s ->
    (pos s <= e -> sound (stream_of (frags s) (pos s) e) /\ in_nest (stream_of (frags s) (pos s) e)) ->
    okf True s (if pos s1 <? pos s then Bad else
       '(m, t, _) <~ run grammar exts n (PSeq SG_PROCEDURE_DESIGNATOR [POpt (h_seq [PStar (h_seq [PRule r_part_ref; PTok TK_PERCENT])]); PName; p_eol])
          (stream_of (frags s1) (pos s) (pos s1)) ;; Done (t, s1))).
  { intros e s1 (F1 & F2 & F3) He Hle Hsub. destruct (pos s1 <? pos s) eqn:EL; [exact I|]. apply Nat.ltb_ge in EL.
    destruct (Hsub ltac:(lia)) as (Hsub1 & Hsub2). rewrite F1, He.
    assert (HX : s1 = set_pos s e) by (destruct s, s1; cbn in *; subst; reflexivity). rewrite HX.
    eapply des_step; [reflexivity|exact IH|exact Hs|exact Hsub1|exact Hsub2|exact Hle]. }
  assert (HALL : okf True s (if pos s0 <? pos s then Bad else
       '(m, t, _) <~ run grammar exts n (PSeq SG_PROCEDURE_DESIGNATOR [POpt (h_seq [PStar (h_seq [PRule r_part_ref; PTok TK_PERCENT])]); PName; p_eol])
          (stream_of (frags s0) (pos s) (pos s0)) ;; Done (t, s0))).
  { apply (FIN (s_end s)); [apply same_set|reflexivity|lia|]. intros _. split.
    - split; [split; assumption|split; assumption].
    - split; [cbn; lia|]. cbn [s_beg stream_of pos frags]. rewrite Nat.sub_diag. split; [constructor|]. exists u. exact HN. }
  destruct (Z.eq_dec (tok (last whole default_token)) TK_PARENR) as [EP|NP].
  2: { rewrite (OP1 NP). cbn [lift obind]. exact HALL. }
  assert (DEC : (exists k, matched TK_PARENR TK_PARENL (rev whole) k) \/ unmatched TK_PARENR TK_PARENL (rev whole)).
  { apply dec_matched. exact EP. }
  destruct DEC as [(k0 & M)|U].
  - destruct (OP2 k0 M EP) as (s1 & E1 & CUT1). rewrite E1. cbn [lift obind].
    destruct (put_back_ok _ _ _ CUT1) as (s2 & E2 & CUT2). rewrite E2. cbn [lift obind].
    assert (HS2 : same s s2).
    { eapply same_trans; [|eapply put_back_same; exact E2]. eapply same_trans; [|eapply to_open_same; exact E1]. apply same_set. }
    pose proof M as ((HK1 & HK2) & _). rewrite rev_length, LW in HK2.
    assert (HP2 : pos s2 = s_end s - k0).
    { destruct CUT2 as (pre & post & _ & X1 & X2 & _). destruct HS2 as (_ & F2 & _). rewrite !firstn_length in X2. lia. }
    apply (FIN (s_end s - k0)); [exact HS2|exact HP2|lia|]. intro Hle.
    assert (LR : length (rest s) = s_end s - pos s) by (apply slice_len; lia).
    assert (RS : rest (stream_of (frags s) (pos s) (s_end s - k0)) = firstn (length (rest s) - k0) (rest s)).
    { unfold rest at 1. cbn [stream_of s_end pos frags]. rewrite LR. unfold rest. rewrite firstn_firstn. f_equal. lia. }
    assert (NST : nested (u ++ firstn (length (rest s) - k0) (rest s))).
    { assert (M' : matched TK_PARENR TK_PARENL (rev (u ++ rest s)) k0).
      { rewrite HW in M. rewrite rev_app_distr in M |- *. eapply matched_prefix; [exact M|]. rewrite rev_length. lia. }
      assert (EL : tok (last (u ++ rest s) default_token) = TK_PARENR).
      { rewrite HW in EP. rewrite last_app_ne in EP |- * by (intro X; rewrite X in LR; cbn in LR; lia). exact EP. }
      pose proof (nested_back _ _ HN M' EL) as X. rewrite app_length in X.
      rewrite firstn_app in X. replace (length u + length (rest s) - k0 - length u) with (length (rest s) - k0) in X by lia.
      rewrite firstn_all2 in X by lia. exact X. }
    split.
    + split; [split; cbn; lia|]. rewrite RS. split; [eapply closed_suffix, nested_closed; exact NST|]. 
      unfold tagged in *. rewrite <- (firstn_skipn (length (rest s) - k0) (rest s)) in HT. apply Forall_app in HT. apply HT.
    + split; [cbn; lia|]. cbn [s_beg stream_of pos frags]. rewrite Nat.sub_diag. split; [constructor|]. exists u. rewrite RS. exact NST.
  - destruct (OP3 U EP) as (s1 & E1 & CUT1). rewrite E1. cbn [lift obind].
    assert (HS1 : same s s1) by (eapply same_trans; [apply same_set|eapply to_open_same; exact E1]).
    assert (HP1 : pos s1 = s_beg s).
    { destruct CUT1 as (pre & post & _ & X1 & X2 & _). destruct HS1 as (_ & F2 & _). cbn [length] in X2. lia. }
    apply (FIN (s_beg s)); [exact HS1|exact HP1|lia|]. intro Hle.
    assert (RS : rest (stream_of (frags s) (pos s) (s_beg s)) = []).
    { unfold rest. cbn [stream_of s_end pos frags]. replace (s_beg s - pos s) with 0 by lia. reflexivity. }
    split.
    + split; [split; cbn; lia|]. rewrite RS. split; [apply nested_closed; constructor|constructor].
    + split; [cbn; lia|]. cbn [s_beg stream_of pos frags]. rewrite Nat.sub_diag. split; [constructor|]. exists []. rewrite RS. constructor.
Qed.
Lemma nest_ok n p s : sclean p = true -> plain p = true -> firm p = true -> sound s -> in_nest s ->
  okr True s (run grammar exts n p s).
Proof using Hexts Hextf.
  intros H1 H2 H3 Hs Hi. eapply (run_ok True grammar exts every is_des in_nest); eauto using g_clean, g_plain, g_firm, g_lit, every_calls.
  - intros r _ H. unfold is_des in H. apply negb_false_iff in H. exact H.
  - intros. eapply in_nest_move; eauto.
  - intros. apply des_nest; auto.
  - repeat split; auto using every_calls.
Qed.
Lemma nest_rule_ok n r s : sound s -> in_nest s -> okf True s (parse_rule grammar exts n r s).
Proof using Hexts Hextf.
  intros Hs Hi. unfold parse_rule.
  eapply (call_ok True grammar exts every is_des in_nest); eauto using g_clean, g_plain, g_firm, g_lit, every_calls.
  - intros r' _ H. unfold is_des in H. apply negb_false_iff in H. exact H.
  - intros. eapply in_nest_move; eauto.
  - intros. apply des_nest; auto.
  - intros p s' ((P1 & P2 & _) & P3) Hs' Hi'. apply nest_ok; auto.
Qed.
Lemma proper_in s : proper_stmt s -> sound s /\ in_nest s.
Proof using.
  clear. intros (H1 & (H2 & H3) & H4 & H5). unfold stmt_toks in *.
  rewrite (slice_app _ (s_beg s) (pos s) (s_end s)) in H4, H5 by lia. fold (rest s) in H4, H5.
  unfold tagged in H4. apply Forall_app in H4. destruct H4 as (H4 & H6). split.
  - split; [split; assumption|]. split; [eapply closed_suffix, nested_closed; exact H5|exact H6].
  - split; [exact H1|]. split; [|eexists; exact H5]. eapply Forall_impl; [|exact H4]. intros t (X & _). exact X.
Qed.
End Exts.
