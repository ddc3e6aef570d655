(** Positions of tokens. *)
From Verif Require Import Base Tags Token SmashTab Smash Smash_spec Smash_proofs Peg LineAccum LineAccum_spec LineAccum_proofs
  Lexer Lexer_spec Lexer_proofs LexForm_proofs LexLongest_proofs LexWord_proofs LexPos_spec.
Local Open Scope nat_scope.

(** * First and last characters of tokens *)
Definition solid (s : str) : Prop := Forall (fun c => ~ gap_char c) s.
Lemma name_solid : forall c, name_char c -> ~ gap_char c.
Proof. intros c H X. apply name_char_iff in H. cbn in X. intuition (subst; vm_compute in H; discriminate H). Qed.
Lemma names_solid : forall s, Forall name_char s -> solid s.
Proof. intros s H. eapply Forall_impl; [|exact H]. apply name_solid. Qed.
Lemma digits_solid : forall s, Forall digit s -> solid s.
Proof. intros s H. apply names_solid. eapply Forall_impl; [|exact H]. intros a. apply digit_name. Qed.
Lemma dot_solid : ~ gap_char "."%char.
Proof. intro H. cbn in H. intuition discriminate. Qed.
Lemma symbol_solid : forall t s, symbol t s -> s <> [] /\ solid s.
Proof.
  assert (C : forallb (fun e => match L (fst e) with [] => false | _ => true end &&
      forallb (fun c => negb (ceq " " c) && negb (ceq "009" c) && negb (ceq "013" c) && negb (ceq "010" c)) (L (fst e)))%bool
      LexTab.symbol_rules = true) by (vm_compute; reflexivity).
  intros t s H. apply symbol_has_rule in H as (k & Hk & E).
  pose proof (proj1 (forallb_forall _ _) C _ Hk) as X. cbn [fst] in X. rewrite <- E in X.
  apply andb_true_iff in X as [X1 X2]. split.
  - intros ->. discriminate X1.
  - apply Forall_forall. intros d Hd Hq. rewrite forallb_forall in X2.
    specialize (X2 _ (in_map lower_b _ _ Hd)). cbn in Hq. intuition (subst; discriminate X2).
Qed.
Lemma logical_solid : forall v s, logical_literal v s -> v = L ".TRUE." \/ v = L ".FALSE." -> s <> [] /\ solid s.
Proof.
  intros v s (w & k & -> & Hw & Hk) Hv. split.
  - destruct w; [|discriminate]. destruct Hv as [-> | ->]; discriminate Hw.
  - apply Forall_app. split; [|apply names_solid, suffix_all; exact Hk].
    apply Forall_forall. intros c Hc Hq. apply (in_map upper_b) in Hc. rewrite Hw in Hc.
    cbn in Hq. destruct Hq as [<-|[<-|[<-|[<-|[]]]]]; destruct Hv as [-> | ->]; vm_compute in Hc; intuition discriminate.
Qed.
Lemma sig_solid : forall s, is_significand s -> solid s.
Proof.
  intros s [[Hn Ha]|[(x & y & -> & [Hn Hx] & Hy)|(y & -> & Hn & Hy)]].
  - apply digits_solid; exact Ha.
  - apply Forall_app. split; [apply digits_solid; exact Hx|]. constructor; [apply dot_solid|apply digits_solid; exact Hy].
  - constructor; [apply dot_solid|apply digits_solid; exact Hy].
Qed.

Lemma form_solid : forall t w, lexeme_form t w -> solid w \/ is_char_literal w.
Proof.
  intros t w H. destruct H; auto; left.
  - apply names_solid, name_all. eapply keyword_chars; eauto.
  - eapply symbol_solid; eauto.
  - apply names_solid, name_all; auto.
  - subst s. constructor; [apply dot_solid|]. apply Forall_app. split.
    + apply names_solid. eapply Forall_impl; [|exact H1]. apply letter_name.
    + constructor; [apply dot_solid|constructor].
  - eapply logical_solid; eauto.
  - eapply logical_solid; eauto.
  - apply Forall_app. split; [apply digits_solid; apply H|apply names_solid, suffix_all; exact H0].
  - apply sig_solid; exact H.
  - destruct H as [<-|[<-|[<-|[<-|[]]]]]; (constructor; [intro X; cbn in X; intuition discriminate|constructor]).
  - destruct H as (g & d & -> & Hg & Hn & Hd). apply Forall_app. split; [|apply digits_solid; exact Hd].
    destruct Hg as [->|[->| ->]]; [constructor| |]; (constructor; [intro X; cbn in X; intuition discriminate|constructor]).
  - constructor; [intro X; cbn in X; intuition discriminate|constructor].
  - apply names_solid, kind_all; exact H.
  - constructor; [exact H2|constructor].
Qed.
Lemma quote_solid : forall q, q = "'"%char \/ q = "034"%char -> ~ gap_char q.
Proof. intros q [-> | ->] X; cbn in X; intuition discriminate. Qed.
Lemma form_first : forall t w c r, lexeme_form t w -> w = c :: r -> ~ gap_char c.
Proof.
  intros t w c r H ->. apply form_solid in H as [H|(k & q & b & E & Hk & Hq & _)]; [inversion H; auto|].
  destruct k as [|d k]; cbn in E; inversion E; subst; [apply quote_solid; exact Hq|].
  apply prefix_all in Hk. inversion Hk; subst. apply name_solid. auto.
Qed.
Lemma form_last : forall t w c r, lexeme_form t w -> w = r ++ [c] -> ~ gap_char c.
Proof.
  intros t w c r H ->. apply form_solid in H as [H|(k & q & b & E & Hk & Hq & _)].
  - apply Forall_app in H as [_ H]. inversion H; auto.
  - rewrite app_assoc, app_assoc in E. apply app_inj_tail in E as [_ ->]. apply quote_solid; exact Hq.
Qed.

(** * Blanks *)
Lemma plain_white : forall c, plain c -> ctype_ok c = true /\ (is_space_b c = true <-> white c) /\ (gap_char c <-> white c).
Proof.
  intros c [H1 H2].
  destruct c as [[] [] [] [] [] [] [] []];
    try (exfalso; vm_compute in H1; lia); try (exfalso; apply H2; vm_compute; tauto);
    (split; [reflexivity|]); unfold gap_char, white; cbn [In]; split; split; intro X; cbv in X |- *;
    intuition (try discriminate; auto).
Qed.
Lemma blanks_gap : forall g s, Forall plain (g ++ s) -> Forall white g ->
  (forall c r, s = c :: r -> ~ white c) -> blanks (g ++ s) = Ok (length g).
Proof.
  induction g as [|c g IH]; intros s P W N.
  - destruct s as [|c s]; [reflexivity|]. cbn [app blanks]. inversion P; subst.
    destruct (plain_white c H1) as (A & B & _). unfold c_isspace. rewrite A. cbn [bind].
    destruct (is_space_b c) eqn:E; [|reflexivity]. exfalso. eapply N; [reflexivity|]. apply B; reflexivity.
  - cbn [app blanks]. inversion P; subst. inversion W; subst.
    destruct (plain_white c H1) as (A & B & _). unfold c_isspace. rewrite A. cbn [bind].
    rewrite (proj2 B H3). rewrite IH by assumption. reflexivity.
Qed.
Lemma split_white : forall s, Forall plain s -> exists g r, s = g ++ r /\ Forall white g /\ (forall c t, r = c :: t -> ~ white c).
Proof.
  induction s as [|c s IH]; intros P.
  - exists [], []. repeat split; [constructor|]. intros; discriminate.
  - inversion P; subst. destruct (IH H2) as (g & r & -> & W & N).
    destruct (in_dec ascii_dec c [" "; "009"; "013"]%char) as [X|X].
    + exists (c :: g), r. repeat split; auto.
    + exists [], (c :: g ++ r). repeat split; [constructor|]. intros d t E. inversion E; subst. exact X.
Qed.
Lemma nth_mid : forall (a g r : str) o, length a <= o < length a + length g ->
  exists c, nth_error (a ++ g ++ r) o = Some c /\ In c g.
Proof.
  intros a g r o H. destruct (nth_error g (o - length a)) as [c|] eqn:E.
  - exists c. split; [|eapply nth_error_In; eauto]. rewrite nth_error_app2 by lia. rewrite nth_error_app1 by lia. exact E.
  - apply nth_error_None in E. lia.
Qed.
Lemma run_from_intro : forall a g r, Forall white g -> (forall c t, r = c :: t -> ~ white c) ->
  run_from (a ++ g ++ r) (length a) (length g).
Proof.
  intros a g r W N. split.
  - intros o H. destruct (nth_mid a g r o H) as (c & E & I). exists c. split; [exact E|].
    rewrite Forall_forall in W. auto.
  - destruct r as [|c r].
    + left. rewrite !app_length. cbn. lia.
    + right. exists c. split; [|eapply N; reflexivity].
      rewrite app_assoc, nth_error_app2; rewrite app_length; [|lia].
      rewrite Nat.sub_diag. reflexivity.
Qed.
Lemma run_to_intro : forall a g r, Forall white g -> (forall u c, a = u ++ [c] -> ~ white c) ->
  run_to (a ++ g ++ r) (length a + length g) (length g).
Proof.
  intros a g r W N. split; [lia|]. split.
  - intros o H. destruct (nth_mid a g r o) as (c & E & I); [lia|]. exists c. split; [exact E|].
    rewrite Forall_forall in W. auto.
  - destruct a as [|c a] using rev_ind; [left; reflexivity|]. right. exists c. split; [|eapply N; reflexivity].
    rewrite app_length. cbn [length]. replace (length a + 1 + length g - length g - 1) with (length a) by lia.
    rewrite <- !app_assoc, nth_error_app2 by lia. rewrite Nat.sub_diag. reflexivity.
Qed.

(** * Places *)
Lemma black_place : forall ls o c, nth_error (joined ls) o = Some c -> ~ white c ->
  exists i l k, place ls o i l k.
Proof.
  intros ls o c H N. assert (LT : o < length (joined ls)) by (apply nth_error_Some; congruence).
  destruct (joined_cover ls o LT) as [(i & l & k & A & B & C)|X].
  - exists i, l, k. repeat split; auto.
  - exfalso. apply N. rewrite X in H. inversion H. left. reflexivity.
Qed.
Lemma place_linecol : forall ls o i l k, Forall (fun l => l_main l <> [] -> 0 < l_col l)%Z ls -> place ls o i l k ->
  linecolno (accum_of ls) (Z.of_nat o) = Ok (Some (l_no l, l_col l + Z.of_nat k, Z.of_nat i, Z.of_nat k))%Z.
Proof.
  intros ls o i l k C (A & B & ->). destruct (nth_error (l_main l) k) as [c|] eqn:E.
  - apply (linecolno_char ls i l k c A E). rewrite Forall_forall in C. apply C; [eapply nth_error_In; eauto|].
    intro X. rewrite X in B. cbn in B. lia.
  - apply nth_error_None in E. lia.
Qed.

(** * unsmash on a fresh token *)
Lemma unsmash_fresh : forall fr w li ci,
  (unsmash (fr ++ [new_token w TK_NAME li ci]) = Ok (fr ++ [new_token w TK_NAME li ci]) /\
     forall w1 t1 w2 t2, ~ is_smashed (map lower_b w) w1 t1 w2 t2) \/
  (exists w1 t1 w2 t2 a b, is_smashed (map lower_b w) w1 t1 w2 t2 /\ a ++ b = w /\
     map lower_b a = w1 /\ map lower_b b = w2 /\
     unsmash (fr ++ [new_token w TK_NAME li ci]) =
       Ok (fr ++ [mkTok t1 li ci a None None None None None (Some 0%Z);
                  mkTok t2 li (ci + zlen w1) b None None None None (Some 0%Z) None])).
Proof.
  intros fr w li ci. destruct (unsmash_ok fr (new_token w TK_NAME li ci)) as (r & E & H).
  cbn [tok tk_text tk_line tk_pos new_token] in H.
  destruct H as [(H & _)|[(_ & H & ->)|(_ & w1 & t1 & w2 & t2 & x1 & x2 & Hs & -> & H1 & H2 & H3 & H4 & H5 & H6 & H7 & H8 & H9 & H10 & H11)]].
  - exfalso. apply H. reflexivity.
  - left. split; [exact E|exact H].
  - right. exists w1, t1, w2, t2, (tk_text x1), (tk_text x2). repeat split; auto.
    rewrite E. clear Hs. unfold unsmash in E. rewrite rev_unit in E. cbn [tok new_token] in E.
    change (negb (TK_NAME =? TK_NAME)%Z) with false in E. cbn iota in E. cbn [tk_text new_token] in E.
    destruct (in_word_set (map lower_b w)) as [[y|]| |]; cbn [bind] in E; try discriminate E.
    + destruct (erase_from w (splitpos y)); cbn [bind] in E; try discriminate E.
      destruct (erase_n w 0 (splitpos y)); cbn [bind] in E; try discriminate E.
      inversion E as [E']. rewrite rev_involutive in E'. apply app_inv_head in E'. inversion E'; subst x1 x2.
      cbn in H1, H2, H3, H4, H5, H8, H9 |- *. subst. rewrite H9, rev_involutive. reflexivity.
    + inversion E as [E']. apply app_inv_head in E'. discriminate E'.
Qed.

(** * The loop *)
Lemma gap_whites : forall g, Forall plain g -> Forall gap_char g -> Forall white g.
Proof.
  intros g P G. rewrite Forall_forall in *. intros c Hc. apply (plain_white c (P c Hc)). auto.
Qed.
Lemma set_back_snoc : forall fr x f, set_back (fr ++ [x]) f = Ok (fr ++ [f x]).
Proof. intros. unfold set_back. rewrite rev_unit. cbn [rev]. rewrite rev_involutive. reflexivity. Qed.

Section Loop.
  Variable ls : list line.
  Hypothesis Cols : Forall (fun l => l_main l <> [] -> 0 < l_col l)%Z ls.
  Hypothesis Plain : Forall plain (joined ls).

  Lemma tok_loop_ok : forall p s l, lexed p s l -> forall a n fr,
    joined ls = a ++ s -> p = zlen a -> blanks s = Ok n ->
    (a = [] -> n = 0) -> (forall u c, a = u ++ [c] -> ~ white c) ->
    exists fss, tok_loop (accum_of ls) l (p + Z.of_nat n) (Z.of_nat n) fr = Ok (fr ++ concat fss) /\
      Forall2 (fragments_of ls) l fss.
  Proof using Cols Plain.
    induction 1 as [p g Hg|p g t w r l Hg Hw Hform Hlong Hl IH]; intros a n fr ET Ep Hb Ha Hlast.
    { exists []. cbn. rewrite app_nil_r. split; [reflexivity|constructor]. }
    assert (Pr : Forall plain (a ++ g ++ w ++ r)) by (rewrite <- ET; exact Plain).
    assert (Pgwr : Forall plain (g ++ w ++ r)) by (apply Forall_app in Pr as [_ Pr]; exact Pr).
    assert (Pg : Forall plain g) by (apply Forall_app in Pgwr; tauto).
    assert (Pw : Forall plain w) by (apply Forall_app in Pgwr as [_ X]; apply Forall_app in X; tauto).
    assert (Prr : Forall plain r) by (apply Forall_app in Pgwr as [_ X]; apply Forall_app in X; tauto).
    assert (Wg := gap_whites g Pg Hg).
    assert (First : forall c t', w ++ r = c :: t' -> ~ white c).
    { intros c t' E Hc. destruct w as [|d w']; [contradiction|]. cbn in E. inversion E; subst.
      apply (form_first _ _ _ _ Hform eq_refl). inversion Pw; subst. apply (plain_white c); assumption. }
    assert (Last : forall u c, w = u ++ [c] -> ~ white c).
    { intros u c E Hc. apply (form_last _ _ _ _ Hform E). subst w. apply Forall_app in Pw as [_ Pw]. inversion Pw; subst.
      apply (plain_white c); assumption. }
    rewrite (blanks_gap g (w ++ r) Pgwr Wg First) in Hb. inversion Hb; subst n. clear Hb.
    assert (Hwl : 0 < length w) by (destruct w; [contradiction|cbn; lia]).
    destruct (split_white r Prr) as (g' & r' & Er & Wg' & Ng').
    assert (Hb' : blanks r = Ok (length g')).
    { rewrite Er. apply blanks_gap; auto. rewrite <- Er. exact Prr. }
    set (b := length a + length g). set (e := b + length w).
    assert (ET3 : joined ls = (a ++ g ++ w) ++ r) by (rewrite <- !app_assoc; exact ET).
    assert (Pb : exists i li k, place ls b i li k).
    { destruct w as [|d w']; [contradiction|]. apply black_place with (c := d).
      - rewrite ET. unfold b. rewrite app_assoc, nth_error_app2; rewrite app_length; [|lia].
        rewrite Nat.sub_diag. reflexivity.
      - eapply First; reflexivity. }
    assert (Pe : exists i li k, place ls (e - 1) i li k).
    { destruct (exists_last Hw) as (w' & d & E). apply black_place with (c := d).
      - rewrite ET, E. unfold e, b. rewrite E, app_length. cbn [length].
        replace (length a + length g + (length w' + 1) - 1) with (length a + length g + length w') by lia.
        rewrite <- app_assoc, app_assoc, nth_error_app2; rewrite app_length; [|lia].
        replace (length a + length g + length w' - (length a + length g)) with (length w') by lia.
        rewrite nth_error_app2 by lia. rewrite Nat.sub_diag. reflexivity.
      - eapply Last; exact E. }
    destruct Pb as (i & li & k & Pb). destruct Pe as (j & lj & m & Pe).
    assert (Zb : (p + Z.of_nat (length g))%Z = Z.of_nat b) by (unfold b; rewrite Ep; unfold zlen; lia).
    assert (Ze : (p + zlen g + zlen w)%Z = Z.of_nat e) by (unfold e, b; rewrite Ep; unfold zlen; lia).
    assert (Ze1 : (p + zlen g + zlen w - 1)%Z = Z.of_nat (e - 1)) by (unfold e, b in *; rewrite Ep; unfold zlen; lia).
    assert (Skip : skipn (Z.to_nat (p + zlen g + zlen w)) (la_accum (accum_of ls)) = r).
    { rewrite Ze, Nat2Z.id, accum_text, ET3.
      replace e with (length (a ++ g ++ w)) by (unfold e, b; rewrite !app_length; lia).
      rewrite skipn_app, skipn_all, Nat.sub_diag. reflexivity. }
    cbn [tok_loop]. rewrite Zb, (place_linecol _ _ _ _ _ Cols Pb). cbn [bind].
    rewrite Ze1, (place_linecol _ _ _ _ _ Cols Pe), Skip, Hb'. cbn [bind].
    assert (LastA : forall u c, a ++ g ++ w = u ++ [c] -> ~ white c).
    { intros u c E. destruct (exists_last Hw) as (w' & d & Ew). rewrite Ew in E. rewrite !app_assoc in E.
      apply app_inj_tail in E as [_ <-]. eapply Last; exact Ew. }
    assert (NE : a ++ g ++ w = [] -> length g' = 0).
    { intro E. apply app_eq_nil in E as [_ E]. apply app_eq_nil in E as [_ E]. contradiction. }
    assert (Zp : (p + zlen g + zlen w)%Z = zlen (a ++ g ++ w)).
    { rewrite Ze. unfold e, b, zlen. rewrite !app_length. lia. }
    assert (Text : text_at (joined ls) b e w).
    { unfold text_at. repeat split.
      - unfold e. lia.
      - rewrite ET3, app_length. unfold e, b. rewrite !app_length. lia.
      - replace (e - b) with (length w) by (unfold e; lia). rewrite ET, app_assoc.
        replace b with (length (a ++ g)) by (unfold b; rewrite app_length; lia).
        rewrite skipn_app, skipn_all, Nat.sub_diag. cbn [skipn app].
        rewrite firstn_app, firstn_all, Nat.sub_diag. cbn [firstn]. rewrite app_nil_r. reflexivity. }
    assert (RT : run_to (joined ls) b (length g)).
    { rewrite ET. unfold b. apply run_to_intro; assumption. }
    assert (RF : run_from (joined ls) e (length g')).
    { rewrite ET3, Er. replace e with (length (a ++ g ++ w)) by (unfold e, b; rewrite !app_length; lia).
      apply run_from_intro; assumption. }
    assert (Hexact : forall x, tk_line x = l_no li -> tk_pos x = (l_col li + Z.of_nat k)%Z ->
      located ls (with_mt (Z.of_nat i) (Z.of_nat k) (Z.of_nat j) (Z.of_nat m + 1) (Z.of_nat (length g)) (Z.of_nat (length g')) x) b e).
    { intros x X1 X2. unfold located, begins, mt_begins, mt_ends, pre_is, post_is.
      split; [exists i, li, k; auto|]. split; [exists i, li, k; auto|]. split; [exists j, lj, m; auto|].
      split; [exists (length g); auto|exists (length g'); auto]. }
    assert (Be : Z.to_nat (p + zlen g + zlen w) = e) by (rewrite Ze; apply Nat2Z.id).
    assert (Bb : e - length w = b) by (unfold e; lia).
    destruct (t =? TK_NAME)%Z eqn:Et.
    - apply Z.eqb_eq in Et. subst t.
      destruct (unsmash_fresh fr w (l_no li) (l_col li + Z.of_nat k)) as [[-> Hns]|(w1 & t1 & w2 & t2 & wa & wb & Hs & Hab & Hw1 & Hw2 & ->)].
      + cbn [bind]. rewrite set_back_snoc. cbn [bind].
        destruct (IH (a ++ g ++ w) (length g') (fr ++ [with_mt (Z.of_nat i) (Z.of_nat k) (Z.of_nat j) (Z.of_nat m + 1) (Z.of_nat (length g))
            (Z.of_nat (length g')) (new_token w TK_NAME (l_no li) (l_col li + Z.of_nat k))]) ET3 Zp Hb' NE LastA) as (fss & E1 & E2).
        rewrite E1. eexists ([_] :: fss). split; [cbn [concat]; rewrite <- app_assoc; reflexivity|].
        constructor; [|exact E2]. unfold fragments_of. rewrite Be, Bb. split; [exact Text|]. left.
        eexists. split; [reflexivity|]. split; [reflexivity|]. split; [reflexivity|]. split; [|intros _; exact Hns].
        apply Hexact; reflexivity.
      + cbn [bind].
        replace (fr ++ [mkTok t1 (l_no li) (l_col li + Z.of_nat k) wa None None None None None (Some 0%Z);
                        mkTok t2 (l_no li) (l_col li + Z.of_nat k + zlen w1) wb None None None None (Some 0%Z) None])
          with ((fr ++ [mkTok t1 (l_no li) (l_col li + Z.of_nat k) wa None None None None None (Some 0%Z)]) ++
                [mkTok t2 (l_no li) (l_col li + Z.of_nat k + zlen w1) wb None None None None (Some 0%Z) None])
          by (rewrite <- app_assoc; reflexivity).
        rewrite set_back_snoc. cbn [bind].
        match goal with |- exists fss, tok_loop _ _ _ _ ?F = _ /\ _ =>
          destruct (IH (a ++ g ++ w) (length g') F ET3 Zp Hb' NE LastA) as (fss & E1 & E2) end.
        rewrite E1. eexists ([_; _] :: fss). split; [cbn [concat]; rewrite <- !app_assoc; reflexivity|].
        constructor; [|exact E2]. unfold fragments_of. rewrite Be, Bb. split; [exact Text|]. right.
        split; [reflexivity|]. exists w1, t1, w2, t2. eexists. eexists.
        split; [exact Hs|]. split; [reflexivity|]. cbn [tok tk_text tk_line tk_pos mt_bl mt_bc mt_el mt_ec tk_pre tk_post with_mt].
        do 5 (split; [first [reflexivity|assumption]|]).
        split; [exists i, li, k; auto|]. do 6 (split; [reflexivity|]).
        split; [reflexivity|]. split; [reflexivity|].
        split; [exists i, li, k; auto|]. split; [exists j, lj, m; auto|].
        split; [exists (length g); auto|exists (length g'); auto].
    - cbn [bind]. rewrite set_back_snoc. cbn [bind].
      match goal with |- exists fss, tok_loop _ _ _ _ ?F = _ /\ _ =>
        destruct (IH (a ++ g ++ w) (length g') F ET3 Zp Hb' NE LastA) as (fss & E1 & E2) end.
      rewrite E1. eexists ([_] :: fss). split; [cbn [concat]; rewrite <- app_assoc; reflexivity|].
      constructor; [|exact E2]. unfold fragments_of. rewrite Be, Bb. split; [exact Text|]. left.
      eexists. split; [reflexivity|]. split; [reflexivity|]. split; [reflexivity|].
      split; [apply Hexact; reflexivity|]. intro X. exfalso. apply Z.eqb_neq in Et. contradiction.
  Qed.
End Loop.

Lemma c_str_plain : forall s, Forall plain s -> c_str s = s.
Proof.
  induction s as [|c s IH]; intros H; [reflexivity|]. inversion H; subst. cbn [c_str].
  destruct (ceq c c_nul) eqn:E.
  - exfalso. apply Ascii.eqb_eq in E. subst c. destruct H2 as [_ X]. apply X. left. reflexivity.
  - rewrite IH by assumption. reflexivity.
Qed.

Lemma tokenize_ok : forall st ls, idle st -> Forall (fun l => l_main l <> [] -> 0 < l_col l)%Z ls -> Forall plain (joined ls) ->
  not_first white (joined ls) ->
  exists l st' fss, scan_string st (joined ls) = Done (l, st') /\
    tokenize st (accum_of ls) = Done (concat fss, st') /\ Forall2 (fragments_of ls) l fss.
Proof.
  intros st ls Hst Cols P NF. destruct (scan_string_ok st (joined ls) Hst) as (l & st' & E & Hl & _).
  rewrite (c_str_plain _ P) in Hl.
  destruct (tok_loop_ok ls Cols P 0%Z (joined ls) l Hl [] 0 []) as (fss & E1 & E2).
  - reflexivity.
  - reflexivity.
  - apply (blanks_gap [] (joined ls)); [exact P|constructor|]. intros c r X. rewrite X in NF. exact NF.
  - reflexivity.
  - intros u c X. destruct u; discriminate X.
  - exists l, st', fss. split; [exact E|]. split; [|exact E2].
    unfold tokenize. rewrite accum_text, E. cbn [obind]. cbn in E1. rewrite E1. reflexivity.
Qed.

(** * One line *)
Lemma nth_ext_eq : forall (a b : str), length a = length b -> (forall k c, nth_error a k = Some c -> nth_error b k = Some c) -> a = b.
Proof.
  induction a as [|x a IH]; intros [|y b] Hl H; try discriminate Hl; [reflexivity|].
  pose proof (H 0 x eq_refl) as H0. inversion H0; subst. f_equal. apply IH; [cbn in Hl; lia|].
  intros k c Hk. apply (H (S k) c Hk).
Qed.
Lemma nth_firstn : forall (s : str) n k, k < n -> nth_error (firstn n s) k = nth_error s k.
Proof.
  induction s as [|c s IH]; intros [|n] [|k] H; try lia; cbn; auto. apply IH. lia.
Qed.
Lemma nth_skipn : forall (s : str) n k, nth_error (skipn n s) k = nth_error s (n + k).
Proof. induction s as [|c s IH]; intros [|n] k; cbn; auto. destruct k; reflexivity. Qed.
Lemma one_line : forall ls b e w i l k m, text_at (joined ls) b e w -> place ls b i l k -> place ls (e - 1) i l m ->
  w = firstn (m + 1 - k) (skipn k (l_main l)).
Proof.
  intros ls b e w i l k m (H1 & H2 & ->) (A & B & ->) (_ & C & D).
  assert (Ee : e = main_start ls i + (m + 1)) by lia. symmetry. apply nth_ext_eq.
  - rewrite !firstn_length, !skipn_length. lia.
  - intros j c Hj. assert (Hlt : j < m + 1 - k).
    { assert (j < length (firstn (m + 1 - k) (skipn k (l_main l)))) by (apply nth_error_Some; congruence).
      rewrite firstn_length in H. lia. }
    rewrite nth_firstn in Hj by exact Hlt. rewrite nth_skipn in Hj.
    rewrite nth_firstn by lia. rewrite nth_skipn. rewrite <- Nat.add_assoc.
    exact (main_start_char _ _ _ _ _ A Hj).
Qed.

(** * Layouts *)
Lemma accum_layout_lines : forall layout,
  accum_layout layout = accum_of (map line_of (filter (fun f => negb (FileLine.is_trivial f)) layout)).
Proof.
  intros layout. unfold accum_layout, accum_of. generalize la_empty.
  induction layout as [|f r IH]; intros la; [reflexivity|].
  cbn [fold_left filter]. destruct (FileLine.is_trivial f); cbn [negb map fold_left]; apply IH.
Qed.
Lemma line_cols : forall fs, Forall (fun l => l_main l <> [] -> 0 < l_col l)%Z (map line_of fs).
Proof.
  intros fs. apply Forall_forall. intros l H. apply in_map_iff in H as (f & <- & _). cbn [l_main l_col line_of].
  unfold FileLine.main_first_col. destruct (FileLine.main_txt f) as [|c r]; [contradiction|]. intros _. cbn [is_empty].
  unfold zlen. destruct (FileLine.is_fixed_format f); lia.
Qed.
