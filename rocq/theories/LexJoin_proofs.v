(** Joined lines with more blanks between them have the same tokens. *)
From Verif Require Import Base Tags Token Convert_spec Smash Smash_spec Peg Regex LineAccum LineAccum_spec LineAccum_proofs Lexer Lexer_spec Lexer_proofs
  LexLongest_proofs LexPos_spec LexPos_proofs LexBlank_proofs.
Local Open Scope nat_scope.

(** Offset [p] is between two tokens, not both of them parts of a real literal. *)
Definition starts_from (b : Z) (l : list lexeme) : Prop := Forall (fun x => let '(_, w, e) := x in b <= e - zlen w)%Z l.
Definition break (l : list lexeme) (p : nat) : Prop :=
  exists m1 m2, l = m1 ++ m2 /\ ends_by (Z.of_nat p) m1 /\ starts_from (Z.of_nat p) m2 /\ joint_free m1 m2.

Lemma toks_ne : forall st s pos l st', toks st s pos l st' -> good st s -> Forall (fun x => snd (fst x) <> []) l.
Proof.
  intros st s pos l st' H. induction H; intro G; [constructor|].
  pose proof (ycall_ok _ _ _ _ _ _ _ G H) as (g & _ & _ & Hw & _ & G1 & _). constructor; [exact Hw|auto].
Qed.
Lemma starts_hd : forall b l, starts_from b l -> starts_at b l.
Proof. intros b l H. destruct l as [|[[t w] e] l]; [exact I|]. inversion H; subst. assumption. Qed.
Lemma split_order : forall l1 l2 m1 m2 p q, l1 ++ l2 = m1 ++ m2 -> Forall (fun x => snd (fst x) <> []) (l1 ++ l2) ->
  ends_by p m1 -> starts_from q l2 -> (p <= q)%Z -> exists mid, l1 = m1 ++ mid /\ m2 = mid ++ l2.
Proof.
  induction l1 as [|x l1 IH]; intros l2 m1 m2 p q E N Hm Hl Hpq.
  - destruct m1 as [|y m1]; [exists []; auto|]. exfalso. cbn in E. subst l2. inversion N; subst. inversion Hm; subst. inversion Hl; subst.
    destruct y as [[t w] e]. cbn in H1. destruct w; [contradiction|]. unfold zlen in *. cbn [length] in *. lia.
  - destruct m1 as [|y m1]; [exists (x :: l1); auto|]. cbn in E. injection E as -> E. inversion N; subst. inversion Hm; subst.
    destruct (IH _ _ _ _ _ E H2 H4 Hl Hpq) as (mid & -> & ->). exists mid. auto.
Qed.
Lemma shifted_fst : forall d l, map fst (map (shifted d) l) = map fst l.
Proof. intros d l. rewrite map_map. apply map_ext. intros [[t w] e]. reflexivity. Qed.
Lemma shifted_first : forall d l, first_real (map (shifted d) l) -> first_real l.
Proof. intros d [|[[t w] e] l]; auto. Qed.

Lemma insert_blank : forall st u r L st', good st (u ++ r) -> ~ In c_nl (u ++ r) -> r <> [] -> u <> [] ->
  toks st (u ++ r) 0 L st' -> break L (length u) ->
  exists L', toks st (u ++ sp :: r) 0 L' st' /\ map fst L' = map fst L /\ forall p, p <= length u -> break L p -> break L' p.
Proof.
  intros st u r L st' G NL Hr Hu T (m1 & m2 & -> & E & B & J).
  exists (m1 ++ map (shifted 1) m2). split; [|split].
  - apply toks_ins; [exact G|exact NL|exact Hr|exact T|exact E|apply starts_hd; exact B|exact J|intros _ X; contradiction].
  - rewrite !map_app, shifted_fst. reflexivity.
  - intros p Hp (k1 & k2 & Ek & E2 & B2 & J2).
    pose proof (toks_ne _ _ _ _ _ T G) as N.
    destruct (split_order _ _ _ _ (Z.of_nat p) (Z.of_nat (length u)) Ek N E2 B) as (mid & -> & ->); [lia|].
    exists k1, (mid ++ map (shifted 1) m2). split; [rewrite app_assoc; reflexivity|]. split; [exact E2|]. split.
    + apply Forall_app in B2 as [B2 B3]. apply Forall_app. split; [exact B2|].
      apply Forall_map. revert B3. apply Forall_impl. intros [[t w] e]. cbn. lia.
    + intros [X Y]. apply J2. split; [exact X|]. destruct mid; [|exact Y]. cbn [app] in *. eapply shifted_first; eauto.
Qed.

(** * Lines *)
Definition more_blank (a b : line) : Prop :=
  l_main b = l_main a /\ blank_if (l_right b) = blank_if (l_right a) /\
  (blank_if (l_left b) = blank_if (l_left a) \/ (blank_if (l_left a) = [] /\ blank_if (l_left b) = [c_sp])).
Definition fresh (a b : line) : Prop := blank_if (l_left a) = [] /\ blank_if (l_left b) = [c_sp].

Lemma join_blanks : forall st st' Q Q', Forall2 more_blank Q Q' -> forall P L, P <> [] -> joined P <> [] ->
  let s := joined P ++ concat (map contrib Q) in
  idle st -> ~ In c_nl s -> toks st s 0 L st' ->
  (forall Q1 q Q2 q', Q = Q1 ++ q :: Q2 -> nth_error Q' (length Q1) = Some q' -> fresh q q' ->
     l_main q <> [] /\ break L (length (joined P ++ concat (map contrib Q1)))) ->
  exists L', toks st (joined P ++ concat (map contrib Q')) 0 L' st' /\ map fst L' = map fst L /\
    forall p, p <= length (joined P) -> break L p -> break L' p.
Proof.
  intros st st' Q Q' F. induction F as [|q q' Q Q' M F IH]; intros P L HP HJ s Hst NL T HB.
  - exists L. auto.
  - assert (G : forall x, good st x) by (intro x; destruct Hst as [-> | ->]; exact I).
    assert (EJ : forall Z, joined (P ++ [q]) ++ Z = joined P ++ contrib q ++ Z).
    { intro Z. rewrite joined_app by exact HP. cbn [map concat]. rewrite app_nil_r, <- app_assoc. reflexivity. }
    destruct (IH (P ++ [q]) L) as (L1 & T1 & E1 & B1).
    + destruct P; discriminate.
    + rewrite joined_app by exact HP. intro X. apply app_eq_nil in X as [X _]. contradiction.
    + exact Hst.
    + rewrite EJ. exact NL.
    + rewrite EJ. exact T.
    + intros Q1 x Q2 x' EQ N Hf. destruct (HB (q :: Q1) x Q2 x') as [X Y]; [rewrite EQ; reflexivity|exact N|exact Hf|].
      split; [exact X|]. rewrite EJ. exact Y.
    + rewrite EJ in T1. destruct M as (M1 & M2 & M3).
      assert (EC : forall z, blank_if (l_left q') = z -> contrib q' = z ++ l_main q ++ blank_if (l_right q)) by (intros z <-; unfold contrib; rewrite M1, M2; reflexivity).
      assert (B1' : forall p, p <= length (joined P) -> break L p -> break L1 p).
      { intros p Hp. apply B1. rewrite joined_app by exact HP. rewrite app_length. lia. }
      assert (ES : blank_if (l_left q') = blank_if (l_left q) -> exists L', toks st (joined P ++ concat (map contrib (q' :: Q'))) 0 L' st' /\ map fst L' = map fst L /\
        forall p, p <= length (joined P) -> break L p -> break L' p).
      { intro M3'. exists L1. split; [|split; [exact E1|exact B1']]. cbn [map concat]. rewrite (EC _ M3'). exact T1. }
      destruct M3 as [M3|M3]; [exact (ES M3)|].
      destruct (HB [] q Q q' eq_refl eq_refl M3) as [Hm Hb]. cbn [map concat] in Hb. rewrite app_nil_r in Hb.
      destruct M3 as [M3 M4].
      assert (C0 : contrib q = l_main q ++ blank_if (l_right q)) by (unfold contrib; rewrite M3; reflexivity).
      rewrite C0 in T1.
      destruct (insert_blank st (joined P) ((l_main q ++ blank_if (l_right q)) ++ concat (map contrib Q')) L1 st') as (L2 & T2 & E2 & B2); auto.
      * intro X. apply NL. unfold s. cbn [map concat]. apply in_app_iff in X as [X|X]; [apply in_app_iff; left; exact X|].
        apply in_app_iff. right. apply in_app_iff in X as [X|X]; [apply in_app_iff; left; rewrite C0; exact X|].
        apply in_app_iff. right. clear - F X.
        assert (K : forall n, ~ In c_nl (blank_if n)) by (intros n H; unfold blank_if in H; destruct (0 <? n)%Z; [destruct H as [H|[]]; discriminate H|destruct H]).
        induction F as [|a b A B (M1 & M2 & _) F IH]; [destruct X|]. cbn [map concat] in *. apply in_app_iff in X as [X|X].
        -- apply in_app_iff. left. unfold contrib in *. rewrite M1, M2 in X. apply in_app_iff in X as [X|X]; [exfalso; exact (K _ X)|].
           apply in_app_iff. right. exact X.
        -- apply in_app_iff. right. auto.
      * intro X. apply app_eq_nil in X as [X _]. apply app_eq_nil in X as [X _]. contradiction.
      * exists L2. split; [|split].
        -- cbn [map concat]. rewrite (EC _ M4). exact T2.
        -- congruence.
        -- intros p Hp Hbp. apply B2; [exact Hp|]. apply B1'; assumption.
Qed.

(** * The tokens of the lines *)
Definition frag1 (ls : list line) (x : lexeme) (f : Token) : Prop :=
  let '(t, w, ez) := x in let e := Z.to_nat ez in let b := e - length w in
  text_at (joined ls) b e w /\ tok f = t /\ tk_text f = w /\ mt_begins ls f b /\ mt_ends ls f e /\
  (t = TK_NAME -> forall w1 t1 w2 t2, ~ is_smashed (map lower_b w) w1 t1 w2 t2).
Lemma singles : forall ls L fss, Forall2 (fragments_of ls) L fss -> Forall (fun x => mt_bl x <> None) (concat fss) -> Forall2 (frag1 ls) L (concat fss).
Proof.
  intros ls L fss F. induction F as [|[[t w] ez] fs L fss H F IH]; intro N; [constructor|].
  cbn [concat] in *. apply Forall_app in N as [N1 N2]. destruct H as [T [(x & -> & H1 & H2 & (_ & H3 & H4 & _) & H5)|(_ & w1 & t1 & w2 & t2 & x1 & x2 & _ & -> & H)]].
  - cbn [app]. constructor; [|auto]. cbn. auto 10.
  - exfalso. inversion N1; subst. destruct H as (_ & _ & _ & _ & _ & _ & H & _). contradiction.
Qed.
Lemma order_ne : forall l n, in_order n l -> Forall (fun x => mt_bl x <> None) l.
Proof. induction l as [|x l IH]; intros n H; [constructor|]. destruct H as (b & e & H1 & _ & _ & H). constructor; [congruence|eauto]. Qed.
Lemma order_from : forall l n m, in_order n l -> (m <= n)%Z -> Forall (fun x => exists b, mt_bl x = Some b /\ m <= b)%Z l.
Proof.
  induction l as [|x l IH]; intros n m H Hm; [constructor|]. destruct H as (b & e & H1 & _ & H2 & H). constructor; [exists b; split; [exact H1|lia]|].
  apply IH with (n := e); [exact H|lia].
Qed.
Lemma cut_split : forall l n j, in_order n l -> ~ cuts l j -> exists a b, l = a ++ b /\
  Forall (fun x => exists e, mt_el x = Some e /\ e < Z.of_nat j)%Z a /\ Forall (fun x => exists b, mt_bl x = Some b /\ Z.of_nat j <= b)%Z b.
Proof.
  induction l as [|x l IH]; intros n j H C; [exists [], []; auto|].
  destruct H as (b & e & H1 & H2 & H3 & H). destruct (Z_lt_ge_dec e (Z.of_nat j)) as [X|X].
  - destruct (IH e j H) as (l1 & l2 & -> & A & B).
    + intros (y & b' & e' & I & Y). apply C. exists y, b', e'. split; [right; exact I|exact Y].
    + exists (x :: l1), l2. split; [reflexivity|]. split; [|exact B]. constructor; [exists e; auto|exact A].
  - exists [], (x :: l). split; [reflexivity|]. split; [constructor|].
    assert (Z.of_nat j <= b)%Z.
    { destruct (Z_lt_ge_dec b (Z.of_nat j)) as [Y|Y]; [|lia]. exfalso. apply C. exists x, b, e. split; [left; reflexivity|]. split; [exact H1|]. split; [exact H2|lia]. }
    constructor; [exists b; auto|]. apply order_from with (n := e); [exact H|lia].
Qed.
Lemma break_at : forall ls L fs j q, Forall2 (frag1 ls) L fs -> in_order 0 fs -> ~ cuts fs j ->
  (forall a x y b, fs = a ++ x :: y :: b -> real_part (tok x) -> real_part (tok y) -> mt_el x = mt_bl y) ->
  nth_error ls j = Some q -> j <> 0 -> blank_if (l_left q) = [] -> break L (length (joined (firstn j ls))).
Proof.
  intros ls L fs j q F O C R Hq Hj Hb.
  assert (MS : main_start ls j = length (joined (firstn j ls))).
  { unfold main_start. rewrite Hq, Hb. destruct (Nat.eqb_spec j 0); [contradiction|]. cbn [length]. lia. }
  assert (Lj : j < length ls) by (apply nth_error_Some; congruence).
  destruct (cut_split _ _ _ O C) as (a & b & -> & A & B). apply Forall2_app_inv_r in F as (m1 & m2 & F1 & F2 & ->).
  exists m1, m2. split; [reflexivity|]. split; [|split].
  - clear - F1 A MS Lj. induction F1 as [|[[t w] e] x m1 a H F1 IH]; [constructor|]. inversion A as [|? ? (el & E & Hel) A']; subst. constructor; [|apply IH; exact A'].
    destruct H as ((T1 & T2 & _) & _ & _ & _ & (i & l & k & (P1 & P2 & P3) & E2 & _) & _).
    assert (el = Z.of_nat i) by congruence. subst el. assert (Hi : i < j) by lia.
    assert (main_start ls (S i) <= main_start ls j) as M by (apply main_start_mono; lia).
    destruct (nth_error ls (S i)) as [l'|] eqn:E'; [|apply nth_error_None in E'; lia].
    rewrite (main_start_S _ _ _ _ P1 E') in M. lia.
  - clear - F2 B MS Lj. induction F2 as [|[[t w] e] x m2 b H F2 IH]; [constructor|]. inversion B as [|? ? (bl & E & Hbl) B']; subst. constructor; [|apply IH; exact B'].
    destruct H as ((T1 & T2 & T3) & _ & _ & (i & l & k & (P1 & P2 & P3) & E2 & _) & _).
    assert (bl = Z.of_nat i) by congruence. subst bl. assert (Hi : j <= i) by lia.
    assert (Li : i < length ls) by (apply nth_error_Some; congruence).
    pose proof (main_start_mono ls j i Hi Li). assert (length w = Z.to_nat e - (Z.to_nat e - length w)) by (rewrite T3 at 1; rewrite firstn_length, skipn_length; lia).
    unfold zlen. lia.
  - intros [(m0 & t & w & e & -> & RT) RF]. destruct m2 as [|[[t2 w2] e2] m2]; [exact RF|]. cbn in RF.
    apply Forall2_app_inv_l in F1 as (a0 & ax & _ & F1 & ->). inversion F1 as [|? x ? ? Hx F1']; subst. inversion F1'; subst.
    inversion F2 as [|? y ? ? Hy F2']; subst.
    assert (mt_el x = mt_bl y) as E.
    { eapply R; [rewrite <- app_assoc; reflexivity| |].
      - destruct Hx as (_ & -> & _). exact RT.
      - destruct Hy as (_ & -> & _). exact RF. }
    apply Forall_app in A as [_ A]. inversion A as [|? ? (el & E1 & H1) _]; subst. inversion B as [|? ? (bl & E2 & H2) _]; subst.
    rewrite E1, E2 in E. inversion E. lia.
Qed.

Lemma plain_joined : forall ls, Forall (fun l => Forall plain (l_main l)) ls -> Forall plain (joined ls).
Proof.
  assert (K : forall n, Forall plain (blank_if n)).
  { intros n. unfold blank_if. destruct (0 <? n)%Z; [|constructor]. constructor; [|constructor]. split; [vm_compute; lia|].
    intro H. cbn [In] in H. repeat (destruct H as [H|H]; [discriminate H|]). exact H. }
  intros [|a r] H; [constructor|]. inversion H as [|? ? H1 H2]; subst. cbn [joined]. apply Forall_app. split; [exact H1|]. apply Forall_app. split; [apply K|].
  clear - H2 K. induction H2 as [|x r Hx _ IH]; [constructor|]. cbn [map concat]. apply Forall_app. split; [|exact IH].
  unfold contrib. apply Forall_app. split; [apply K|]. apply Forall_app. split; [exact Hx|apply K].
Qed.
Definition same_tok (x y : Token) : Prop := tok y = tok x /\ tk_text y = tk_text x.
Lemma lines_tokens : forall st a Q a' Q' fr st', idle st -> let ls := a :: Q in let ls' := a' :: Q' in
  Forall (fun l => l_main l <> [] -> 0 < l_col l)%Z ls -> Forall (fun l => l_main l <> [] -> 0 < l_col l)%Z ls' ->
  Forall (fun l => Forall plain (l_main l)) ls -> (exists c r, l_main a = c :: r /\ ~ white c) ->
  tokenize st (accum_of ls) = Done (fr, st') -> in_order 0 fr ->
  (forall a x y b, fr = a ++ x :: y :: b -> real_part (tok x) -> real_part (tok y) -> mt_el x = mt_bl y) ->
  l_main a' = l_main a -> blank_if (l_right a') = blank_if (l_right a) -> Forall2 more_blank Q Q' ->
  (forall j q q', nth_error Q j = Some q -> nth_error Q' j = Some q' -> fresh q q' -> l_main q <> [] /\ ~ cuts fr (S j)) ->
  idle st' /\ exists fr', tokenize st (accum_of ls') = Done (fr', st') /\ Forall2 same_tok fr fr'.
Proof.
  intros st a Q a' Q' fr st' Hst ls ls' C C' P (c & r & Ea & Wc) HT O R Em Er M HF.
  assert (P' : Forall (fun l => Forall plain (l_main l)) ls').
  { unfold ls, ls' in *. inversion P as [|? ? P1 P2]; subst. constructor; [rewrite Em; exact P1|]. clear - M P2.
    induction M as [|q q' Q Q' (M1 & _) _ IH]; [constructor|]. inversion P2; subst. constructor; [rewrite M1; assumption|auto]. }
  assert (PJ := plain_joined _ P). assert (PJ' := plain_joined _ P').
  assert (NF : not_first white (joined ls)) by (unfold ls; cbn [joined]; rewrite Ea; exact Wc).
  assert (NF' : not_first white (joined ls')) by (unfold ls'; cbn [joined]; rewrite Em, Ea; exact Wc).
  destruct (scan_string_ok st (joined ls) Hst) as (L0 & s0 & ES0 & _ & I0).
  destruct (tokenize_ok st ls Hst C PJ NF) as (L & st1 & fss & ES & ET & F).
  rewrite ES in ES0. inversion ES0; subst L0 s0. rewrite HT in ET. inversion ET; subst fr st1. clear ES0 ET.
  split; [exact I0|].
  assert (F1 := singles _ _ _ F (order_ne _ _ O)).
  assert (G : forall x, good st x) by (intro x; destruct Hst as [-> | ->]; exact I).
  unfold scan_string in ES. rewrite (c_str_plain _ PJ) in ES. apply scan_toks in ES; [|apply G].
  assert (J1 : joined [a] ++ concat (map contrib Q) = joined ls) by (rewrite <- joined_app by discriminate; reflexivity).
  assert (J2 : joined [a] ++ concat (map contrib Q') = joined ls').
  { unfold ls'. cbn [joined map concat]. rewrite Em, Er, !app_nil_r, <- app_assoc. reflexivity. }
  destruct (join_blanks st st' Q Q' M [a] L) as (L' & T' & EF & _).
  - discriminate.
  - cbn [joined]. rewrite Ea. discriminate.
  - exact Hst.
  - rewrite J1. intro X. rewrite Forall_forall in PJ. apply PJ in X as [_ X]. apply X. right. left. reflexivity.
  - rewrite J1. exact ES.
  - intros Q1 q Q2 q' -> N Hf. destruct (HF (length Q1) q q') as [H1 H2]; [rewrite nth_error_app2, Nat.sub_diag by lia; reflexivity|exact N|exact Hf|].
    split; [exact H1|].
    pose proof (break_at ls L (concat fss) (S (length Q1)) q F1 O H2 R) as B.
    replace (joined (firstn (S (length Q1)) ls)) with (joined [a] ++ concat (map contrib Q1)) in B.
    + apply B; [|discriminate|apply Hf]. unfold ls. cbn [nth_error]. rewrite nth_error_app2, Nat.sub_diag by lia. reflexivity.
    + unfold ls. cbn [firstn]. rewrite firstn_app, Nat.sub_diag, firstn_all. cbn [firstn]. rewrite app_nil_r, <- joined_app by discriminate. reflexivity.
  - rewrite J2 in T'. apply toks_scan in T'; [|apply G].
    destruct (tokenize_ok st ls' Hst C' PJ' NF') as (L2 & st2 & fss' & ES' & ET' & F').
    unfold scan_string in ES'. rewrite (c_str_plain _ PJ'), T' in ES'. inversion ES'; subst L2 st2.
    exists (concat fss'). split; [exact ET'|].
    clear - F1 F' EF. revert L' EF fss' F'. induction F1 as [|[[t w] e] x L fs Hx F1 IH]; intros L' EF fss' F'.
    + destruct L'; [|discriminate EF]. inversion F'; subst. constructor.
    + destruct L' as [|[[t' w'] e'] L']; [discriminate EF|]. cbn [map fst] in EF. inversion EF; subst t' w'.
      inversion F' as [|? fs1 ? fss1 H1 F2]; subst. destruct Hx as (_ & E1 & E2 & _ & _ & NS).
      destruct H1 as [_ [(y & -> & K1 & K2 & _)|(Et & w1 & t1 & w2 & t2 & x1 & x2 & SM & _)]].
      * cbn [concat app]. constructor; [split; congruence|]. eapply IH; eauto.
      * exfalso. exact (NS Et _ _ _ _ SM).
Qed.
