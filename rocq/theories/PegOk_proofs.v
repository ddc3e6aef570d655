(** Parsers stay inside the statement and cover what they consume, on streams
    that satisfy an invariant under which the delicate rules behave. *)
From Verif Require Import Base Tags SyntaxTags Token TTStream TTStream_spec StmtRules Peg Peg_spec Peg_proofs PegCover_proofs
  PegTerm_proofs PegSafe_proofs.
Local Open Scope nat_scope.

Definition tiled' (s : stream) (t : option stree) (s' : stream) : Prop :=
  match t with None => pos s' = pos s | Some t => tree_ok s t (pos s) (pos s') end.
Section Bad.
Variable B : Prop.  (* may the outcome be undefined? *)
(** not undefined; still on this statement; the tree covers what was consumed *)
Definition okr (s : stream) (x : out presult) : Prop :=
  match x with
  | Done (m, t, s') => same s s' /\ pos s' <= s_end s /\ tiled' s t s'
  | Bad => B
  | Fuel => True
  end.
(** a parser function that returns nothing may leave the stream anywhere *)
Definition okf (s : stream) (x : out fresult) : Prop :=
  match x with
  | Done (t, s') => same s s' /\ pos s' <= s_end s /\
      match t with Some t => tree_ok s t (pos s) (pos s') | None => True end
  | Bad => B
  | Fuel => True
  end.
Definition mayb {A} (x : out A) : Prop := match x with Bad => B | _ => True end.
Lemma obind_okr A s (x : out A) f : mayb x -> (forall a, x = Done a -> okr s (f a)) -> okr s (obind x f).
Proof. destruct x; cbn; auto. Qed.
Lemma obind_okf A s (x : out A) f : mayb x -> (forall a, x = Done a -> okf s (f a)) -> okf s (obind x f).
Proof. destruct x; cbn; auto. Qed.
Lemma okr_here s m : sound s -> okr s (Done (m, None, s)).
Proof. intro H. split; [apply same_refl|]. split; [apply H|reflexivity]. Qed.
Lemma okf_here s : sound s -> okf s (Done (None, s)).
Proof. intro H. split; [apply same_refl|]. split; [apply H|exact I]. Qed.
Lemma okf_tiled s t s' : same s s' -> pos s' <= s_end s -> tiled' s t s' -> okf s (Done (t, s')).
Proof. intros H1 H2 H3. split; [exact H1|]. split; [exact H2|]. destruct t; [exact H3|exact I]. Qed.
End Bad.
Lemma tiled_le s t s' : tiled' s t s' -> pos s <= pos s'.
Proof. destruct t as [t|]; cbn; [|lia]. intros (H & _). apply covers_rng in H. apply H. Qed.

Section Ok.
Variable B : Prop.
Variable body : rule -> rbody.
Variable exts : bool -> list ext.
Variable A : rule -> bool.       (* the rules considered *)
Variable special : rule -> bool. (* those with an argument of their own *)
Variable Inv : stream -> Prop.
Hypothesis Hclean : forall r, clean_body (body r) = true.
Hypothesis Hplain : forall r p, body_exp (body r) = Some p -> plain p = true.
Hypothesis Hfirm : forall r p, body_exp (body r) = Some p -> firm p = true.
Hypothesis Hcalls : forall r p, A r = true -> special r = false -> body_exp (body r) = Some p -> calls A p = true.
Hypothesis Hdes : forall r, A r = true -> special r = false -> not_designator (body r) = true.
Hypothesis Hexts : forall a, Forall ext_ok (exts a).
Hypothesis Hextf : forall a, Forall ext_safe (exts a).
Hypothesis Hsig : exists tag l, body r_real_literal_constant = RExp (PSeq tag (PTok SG_SIGNIFICAND :: map POpt l)) /\
  flat (PSeq tag (PTok SG_SIGNIFICAND :: map POpt l)) = true.
Hypothesis Hmove : forall s s', sound s -> Inv s -> same s s' -> pos s <= pos s' -> pos s' <= s_end s -> Inv s'.

Definition okp p := (sclean p = true /\ plain p = true /\ calls A p = true) /\ firm p = true.
Hypothesis Hspecial : forall n k r s, A r = true -> special r = true ->
  (forall p s, okp p -> sound s -> Inv s -> okr B s (run body exts n p s)) ->
  sound s -> Inv s -> okf B s (call_rule body exts (run body exts n) k r s).

(** the literal on its own *)
Definition lit_only (r : rule) : bool := match r with r_real_literal_constant => true | _ => false end.
Lemma lit_calls : forall r p, lit_only r = true -> body_exp (body r) = Some p -> calls lit_only p = true.
Proof using Hsig.
  intros r p H E. destruct r; try discriminate. destruct Hsig as (tag & l & Hb & Hf). rewrite Hb in E. injection E as <-.
  assert (X : forall n p, height p <= n -> flat p = true -> calls lit_only p = true).
  { clear. induction n as [|n IH]; intros p Hn Hf; [destruct p; cbn in Hn; lia|].
    destruct p; cbn [flat] in Hf; try discriminate; cbn [calls]; auto.
    - apply IH; auto. cbn in Hn. lia.
    - apply forallb_forall. intros q Hq. rewrite forallb_forall in Hf. apply IH; auto.
      apply (height_in _ _ tag) in Hq. cbn [height] in Hq, Hn. lia. }
  eapply X; [reflexivity|exact Hf].
Qed.
Lemma lit_nodes : forall r, lit_only r = true -> not_designator (body r) = true.
Proof using Hsig. intros r H. destruct r; try discriminate. destruct Hsig as (tag & l & Hb & _). rewrite Hb. reflexivity. Qed.
Lemma lit_fine n p s : ok lit_only p -> sound s -> fine pp (s_end s) (run body exts n p s).
Proof using Hclean Hplain Hfirm Hexts Hextf Hsig.
  intros. eapply (run_fine body exts lit_only) with (N := fun _ => false); eauto using lit_calls, lit_nodes. discriminate.
Qed.
Lemma lit_tiled n s o s' : ('(m, t, s') <~ run body exts n (PRule r_real_literal_constant) s ;; Done (t, s')) = Done (o, s') ->
  same s s' /\ tiled s o s'.
Proof using Hclean Hplain Hfirm Hexts Hextf Hsig.
  intro H. step3 H m t s1. injection H as -> ->.
  eapply (run_tiled body exts lit_only) in E; eauto using lit_calls, lit_nodes, exts_same, exts_covers. repeat split.
Qed.

Section Step.
Variable n : nat.
Notation R := (run body exts n).
Hypothesis IH : forall p s, okp p -> sound s -> Inv s -> okr B s (R p s).
Lemma IHd p s m t s' : okp p -> sound s -> Inv s -> R p s = Done (m, t, s') ->
  same s s' /\ pos s' <= s_end s /\ tiled' s t s' /\ sound s' /\ Inv s'.
Proof using IH Hmove.
  intros Hp Hs Hi E. pose proof (IH p s Hp Hs Hi) as H. rewrite E in H. destruct H as (H1 & H2 & H3).
  pose proof (tiled_le _ _ _ H3). split; [exact H1|]. split; [exact H2|]. split; [exact H3|].
  split; [eapply sound_move; eauto|eapply Hmove; eauto].
Qed.
Lemma IHn p s : okp p -> sound s -> Inv s -> mayb B (R p s).
Proof using IH. clear Hspecial. intros Hp Hs Hi. pose proof (IH p s Hp Hs Hi) as H. destruct (R p s); auto. exact I. Qed.

Definition okk (s0 : stream) (b : nat) (kids : list stree) (s : stream) : Prop :=
  same s0 s /\ covers_list s0 kids b (pos s) /\ sound s /\ Inv s.
Definition okl (s0 : stream) (b : nat) (x : list stree * stream) : Prop :=
  let '(kids, s) := x in same s0 s /\ covers_list s0 kids b (pos s) /\ pos s <= s_end s0.
Lemma okk_okl s0 b kids s : okk s0 b kids s -> okl s0 b (kids, s).
Proof using. clear. intros (H1 & H2 & H3 & _). split; [exact H1|]. split; [exact H2|]. destruct H1 as (_ & _ & <-). apply H3. Qed.
Lemma okk_step s0 b kids p s m t s' : okk s0 b kids s -> okp p -> R p s = Done (m, t, s') -> okk s0 b (hoist kids t) s'.
Proof using IH Hmove.
  intros (H1 & H2 & H3 & H4) Hp E. apply IHd in E; auto. destruct E as (E1 & E2 & E3 & E4 & E5).
  split; [eapply same_trans; eauto|]. split; [|auto]. eapply hoist_tiled; eauto.
Qed.
Lemma seq_ok s0 b ps : Forall okp ps -> forall kids s, okk s0 b kids s ->
  match seq_loop R ps kids s with
  | Done (m, kids', s') => okl s0 b (kids', s')
  | Bad => B
  | Fuel => True
  end.
Proof using IH Hmove.
  induction 1 as [|p ps Hp Hps IHp]; intros kids s Hk; cbn [seq_loop]; [apply okk_okl; exact Hk|].
  pose proof (IHn p s Hp (proj1 (proj2 (proj2 Hk))) (proj2 (proj2 (proj2 Hk)))) as Hn.
  destruct (R p s) as [((m & t) & s1)| |] eqn:E; cbn [obind]; auto.
  apply (okk_step _ _ _ _ _ _ _ _ Hk Hp) in E. destruct m; [apply IHp; exact E|apply okk_okl; exact E].
Qed.
Lemma star_ok s0 b k p : okp p -> forall kids s, okk s0 b kids s ->
  match star_loop R k p kids s with
  | Done x => okl s0 b x
  | Bad => B
  | Fuel => True
  end.
Proof using IH Hmove.
  intro Hp. induction k as [|k IHk]; intros kids s Hk; cbn [star_loop]; [exact I|].
  pose proof (IHn p s Hp (proj1 (proj2 (proj2 Hk))) (proj2 (proj2 (proj2 Hk)))) as Hn.
  destruct (R p s) as [((m & t) & s1)| |] eqn:E; cbn [obind]; auto.
  apply (okk_step _ _ _ _ _ _ _ _ Hk Hp) in E. destruct m; [apply IHk; exact E|apply okk_okl; exact E].
Qed.
Lemma alts_ok ps : Forall okp ps -> forallb clean ps = true -> forall s, sound s -> Inv s ->
  match alts_loop R ps s with
  | Done (m, t, s') => same s s' /\ pos s' <= s_end s /\ tiled' s t s' /\ (m = false -> s' = s)
  | Bad => B
  | Fuel => True
  end.
Proof using IH Hmove Hclean Hexts.
  induction 1 as [|p ps Hp Hps IHp]; intros Hc s Hs Hi; cbn [alts_loop].
  { destruct (okr_here B s false Hs) as (? & ? & ?). auto. }
  cbn [forallb] in Hc. apply andb_true_iff in Hc.
  pose proof (IHn p s Hp Hs Hi) as Hn.
  destruct (R p s) as [((m & t) & s1)| |] eqn:E; cbn [obind]; auto.
  pose proof E as E'. apply IHd in E; auto. destruct E as (E1 & E2 & E3 & _).
  destruct m; [repeat split; auto; try apply E1; discriminate|]. apply run_restores in E'; auto using exts_same; [|apply Hc]. destruct E' as (_ & E').
  destruct (E' eq_refl) as (_ & ->). apply IHp; auto. apply Hc.
Qed.
Lemma node_ok s g kids s' : okl s (pos s) (kids, s') ->
  okr B s (r <~ covered (ST g None kids) ;; Done (true, Some r, s')).
Proof using.
  clear. intros (H1 & H2 & H3). destruct (covered_ok _ g _ _ _ H2) as (t & -> & Ht & _). cbn [obind].
  split; [exact H1|]. split; [exact H3|exact Ht].
Qed.
Lemma ext_okf tag m es : Forall ext_ok es -> Forall ext_safe es -> forall s, sound s -> m = pos s ->
  okr B s (ext_loop tag m es s).
Proof using.
  clear. intros H1 H2. induction es as [|e es IHe]; intros s Hs ->; cbn [ext_loop]; [apply okr_here; exact Hs|].
  inversion H1 as [|? ? (He1 & He2 & _) H1']; subst. inversion H2 as [|? ? He3 H2']; subst. specialize (He3 s Hs).
  destruct (e s) as [(o & s1)| |] eqn:E; cbn [obind]; auto; [|contradiction].
  pose proof (He1 _ _ _ E) as HS. destruct o as [t|].
  - apply He2 in E. destruct (covered_ok2 s tag _ _ _ E) as (t' & -> & Ht & _). split; [exact HS|]. split; [exact He3|exact Ht].
  - rewrite same_rewind by exact HS. apply IHe; auto.
Qed.
Lemma call_ok k r s : A r = true -> sound s -> Inv s -> okf B s (call_rule body exts R k r s).
Proof using All.
  intros HA Hs Hi. destruct (special r) eqn:SP; [apply Hspecial; auto|].
  unfold call_rule. pose proof (Hclean r) as Hc. pose proof (Hplain r) as Hp. pose proof (Hfirm r) as Hf.
  pose proof (Hcalls r) as Hk. pose proof (Hdes r HA SP) as Hd. unfold clean_body in Hc.
  destruct (body r) eqn:EB; cbn [body_exp not_designator] in *; try discriminate.
  - assert (HO : okp p) by (repeat split; auto using clean_sclean).
    apply obind_okf; [apply IHn; auto|]. intros ((m & t) & s1) E. apply IHd in E; auto.
    destruct E as (E1 & E2 & E3 & _). apply okf_tiled; auto.
  - assert (HO : okp p) by (repeat split; auto using clean_sclean).
    apply obind_okf; [apply IHn; auto|]. intros ((m & t) & s1) E. pose proof E as E'. apply IHd in E; auto.
    destruct E as (E1 & E2 & E3 & _). destruct m; [apply okf_tiled; auto|].
    apply run_restores in E'; auto using exts_same. destruct E' as (_ & E').
    destruct (E' eq_refl) as (_ & ->).
    pose proof (ext_okf tag (mark s) (exts action) (Hexts _) (Hextf _) s Hs eq_refl) as HE.
    destruct (ext_loop tag (mark s) (exts action) s) as [((m & t2) & s2)| |]; cbn [obind]; auto.
    destruct HE as (HE1 & HE2 & HE3). apply okf_tiled; auto.
  - unfold peek_o. assert (exists t, peek s = Ok t) as (t & Ht).
    { destruct (peek_sound s Hs) as [(_ & -> & _)|(_ & t & -> & _)]; eauto. }
    rewrite Ht. cbn [lift obind]. destruct (existsb _ _); [apply okf_here; exact Hs|]. unfold until_break.
    assert (HL : (level2 (rest s) <= 0)%Z) by (destruct Hs as (_ & HC & _); apply (HC []); reflexivity).
    assert (BF : fine (fun x : option (list stree) * stream => pos (snd x)) (s_end s)
      (break_loop (fun s => '(m, t, s') <~ R (PRule r_real_literal_constant) s ;; Done (t, s')) k [] 1 s)).
    { eapply (break_fine body exts lit_only) with (N := fun _ => false); eauto; try lia; try discriminate.
      intros; apply lit_fine; auto. }
    destruct (break_loop _ k [] 1 s) as [(o & s1)| |] eqn:E; cbn [obind]; auto; [|contradiction].
    cbn [fine snd] in BF.
    assert (HS : same s s1) by (eapply break_same in E; [exact E|]; intros s2 o2 s2' H2; apply lit_tiled in H2; apply H2).
    destruct o as [kids|].
    + eapply (break_tiled _ _ s) with (b := pos s) in E; [|intros; eapply lit_tiled; eauto|apply same_refl|constructor].
      destruct kids as [|x kids].
      * split; [exact HS|]. split; [exact BF|]. exact I.
      * destruct (covered_ok _ tag _ _ _ E) as (t' & -> & Ht' & _). split; [exact HS|]. split; [exact BF|exact Ht'].
    + rewrite same_rewind by exact HS. apply okf_here. exact Hs.
  - pose proof (consume_parens_tiled k s) as CT. pose proof (consume_parens_same k s) as CS.
    pose proof (consume_parens_fine k s Hs) as CF.
    destruct (consume_parens k s) as [(o & s1)| |] eqn:E; auto; [|contradiction]. split; [eapply CS; reflexivity|]. split; [exact CF|]. specialize (CT _ _ eq_refl). destruct o; [exact CT|exact I].
  - pose proof (list_name_tiled s) as CT. pose proof (list_name_same s) as CS. pose proof (list_name_fine s Hs) as CF.
    destruct (list_name s) as [(o & s1)| |] eqn:E; auto; [|contradiction]. split; [eapply CS; reflexivity|]. split; [exact CF|]. specialize (CT _ _ eq_refl). destruct o; [exact CT|exact I].
Qed.
End Step.

Lemma okp_alts g ps : okp (PAlts g ps) -> Forall okp ps /\ forallb clean ps = true.
Proof using.
  clear. intros ((H1 & H2 & H3) & H4). cbn [sclean clean plain calls firm] in *. split; [|exact H1].
  rewrite forallb_forall in H1, H2, H3, H4. apply Forall_forall. intros q Hq. repeat split; auto using clean_sclean.
Qed.
Lemma run_ok n : forall p s, okp p -> sound s -> Inv s -> okr B s (run body exts n p s).
Proof using All.
  induction n as [|n IH]; intros p s Hok Hs Hi; [exact I|]. pose proof Hok as ((Hc & Hp & Hk) & Hf).
  assert (K0 : okk s (pos s) [] s) by (split; [apply same_refl|split; [constructor|auto]]).
  assert (LEAF : forall g t, pos s < s_end s -> peek s = Ok t -> (g = t \/ (g = TK_NAME /\ is_name_tag t = Ok true)) -> g <> HOIST ->
     okr B s ('(x, s') <~ leaf g s ;; Done (true, Some x, s'))).
  { intros g t HL HP HG HH. pose proof (leaf_done g s) as LD. rewrite LD by (destruct Hs as ((_ & ?) & _); lia). cbn [obind].
    split; [apply same_set|]. split; [cbn; lia|].
    assert (E : leaf g s = Done (ST g (Some (pos s, S (pos s))) [], set_pos s (S (pos s)))) by (apply LD; destruct Hs as ((_ & ?) & _); lia).
    eapply leaf_ok' in E; eauto. }
  assert (NAME : forall f : Token -> out presult, (forall t, pos s < s_end s -> peek s = Ok (tok t) -> is_name_tag (tok t) = Ok true -> peek_tt s 1 = Ok t -> okr B s (f t)) ->
     okr B s (t <~ peek_o s ;; b <~ lift (is_name_tag t) ;; if negb b then Done (false, None, s) else
       tt <~ lift (peek_tt s 1) ;; f tt)).
  { intros f Hff. unfold peek_o. destruct (peek_sound s Hs) as [(HE & HB & _ & HR)|(HL & t & HT & HNB & (b & Hb) & HT2 & HR)].
    - rewrite HB. cbn [lift obind]. rewrite name_bad. cbn [lift obind negb]. apply okr_here; exact Hs.
    - rewrite HT. cbn [lift obind]. rewrite Hb. cbn [lift obind]. destruct b; cbn [negb]; [|apply okr_here; exact Hs].
      rewrite HT2. cbn [lift obind]. apply Hff; auto. }
  cbn [run]. destruct p; cbn [sclean clean plain calls firm] in *.
  - destruct (okp_alts _ _ Hok) as (Ho & Hcl). pose proof (alts_ok n IH ps Ho Hcl s Hs Hi) as H.
    destruct (alts_loop (run body exts n) ps s) as [((m & t) & s1)| |]; cbn [obind]; auto.
    destruct H as (H1 & H2 & H3 & H4). destruct m.
    + apply node_ok. split; [exact H1|]. split; [|exact H2]. eapply (hoist_tiled s [] (pos s) s); [apply same_refl|constructor|exact H3].
    + split; [exact H1|]. split; [exact H2|]. rewrite H4 by reflexivity. reflexivity.
  - apply NAME. intros t HL HP HN HT. destruct (negb _); [apply okr_here; exact Hs|]. eapply LEAF; eauto using name_not_hoist.
  - apply NAME. intros t HL HP HN HT. destruct (negb _); [apply okr_here; exact Hs|]. eapply LEAF; eauto using name_not_hoist.
  - unfold peek_o. destruct (peek_sound s Hs) as [(HE & HB & _ & HR)|(HL & t & HT & HNB & (b & Hb) & HT2 & HR)].
    + rewrite HB. cbn [lift obind]. rewrite name_bad. cbn [lift obind negb]. apply okr_here; exact Hs.
    + rewrite HT. cbn [lift obind]. rewrite Hb. cbn [lift obind]. destruct b; cbn [negb]; [eapply LEAF; eauto using name_not_hoist|apply okr_here; exact Hs].
  - assert (HO : okp p) by (repeat split; auto using clean_sclean). pose proof (IH p s HO Hs Hi) as H.
    destruct (run body exts n p s) as [((m & t) & s1)| |]; exact H.
  - assert (HO : okp p) by (repeat split; auto using clean_sclean). pose proof (IH p s HO Hs Hi) as H.
    destruct (run body exts n p s) as [((m & t) & s1)| |]; exact H.
  - unfold peek_o. destruct (peek_sound s Hs) as [(_ & -> & _)|(_ & t1 & -> & _)]; cbn [lift obind]; apply okr_here; exact Hs.
  - pose proof (call_ok n IH n r s Hk Hs Hi) as H. unfold okf in H.
    destruct (call_rule body exts (run body exts n) n r s) as [(o & s1)| |]; cbn [obind]; auto.
    destruct o; [exact H|]. destruct H as (H1 & _). rewrite same_rewind by exact H1. apply okr_here; exact Hs.
  - assert (Ho : Forall okp ps).
    { rewrite forallb_forall in Hc, Hp, Hk, Hf. apply Forall_forall. intros q Hq. repeat split; auto.
      apply Hc in Hq. exact Hq. }
    pose proof (seq_ok n IH s (pos s) ps Ho [] s K0) as H.
    destruct (seq_loop (run body exts n) ps [] s) as [((m & kids) & s1)| |]; cbn [obind]; auto.
    destruct m; [apply node_ok; exact H|]. destruct H as (H & _). rewrite same_rewind by exact H. apply okr_here; exact Hs.
  - assert (Ho : okp p) by (repeat split; auto using clean_sclean).
    pose proof (star_ok n IH s (pos s) n p Ho [] s K0) as H.
    destruct (star_loop (run body exts n) n p [] s) as [(kids & s1)| |]; cbn [obind]; auto. apply node_ok; exact H.
  - assert (Ho : okp p) by (repeat split; auto using clean_sclean). pose proof (IH p s Ho Hs Hi) as H.
    destruct (run body exts n p s) as [((m & t) & s1)| |]; cbn [obind]; auto. destruct t as [t|]; [|exact H].
    destruct H as (H1 & H2 & H3). destruct (covered_ok2 s tag _ _ _ H3) as (t' & -> & Ht' & _). cbn [obind].
    split; [exact H1|]. split; [exact H2|exact Ht'].
  - unfold peek_o. destruct (peek_sound s Hs) as [(HE & HB & _ & HR)|(HL & t1 & HT & _)].
    + rewrite HB. cbn [lift obind]. rewrite Hf. apply okr_here; exact Hs.
    + rewrite HT. cbn [lift obind]. destruct (t =? tok t1)%Z eqn:EQ; cbn [negb]; [|apply okr_here; exact Hs].
      apply Z.eqb_eq in EQ. eapply LEAF; eauto. intro HX. rewrite HX in Hp. discriminate.
Qed.
End Ok.

(** ** Trees on a part of a stream *)
Lemma peek_part s s' b : frags s' = frags s -> b < s_end s -> b < s_end s' -> peek (set_pos s' b) = peek (set_pos s b).
Proof.
  intros HF H1 H2. unfold peek. cbn [pos set_pos s_end]. replace (b =? s_end s') with false by (symmetry; apply Nat.eqb_neq; lia).
  replace (b =? s_end s) with false by (symmetry; apply Nat.eqb_neq; lia). unfold deref. cbn [frags set_pos]. rewrite HF. reflexivity.
Qed.
Lemma covers_part_mut s s' : frags s' = frags s ->
  (forall t b e, covers s t b e -> e <= s_end s -> e <= s_end s' -> covers s' t b e) /\
  (forall l b e, covers_list s l b e -> e <= s_end s -> e <= s_end s' -> covers_list s' l b e).
Proof.
  intro HF. apply covers_mut; intros.
  - constructor. unfold leaf_tag in *. rewrite (peek_part s s') by (auto; lia). assumption.
  - econstructor; eauto.
  - constructor.
  - pose proof (covers_list_le _ _ _ _ c1). econstructor; eauto. apply H; lia.
Qed.
Lemma tree_ok_part s s' t b e : frags s' = frags s -> e <= s_end s -> e <= s_end s' -> tree_ok s t b e -> tree_ok s' t b e.
Proof.
  intros HF H1 H2 (H3 & H4). pose proof (covers_part_mut s s' HF) as (M1 & M2). split; [auto|]. intro H. apply M2; auto.
Qed.

(** ** A statement that does not end in ")" *)
Definition no_paren_end (s : stream) : Prop := s_beg s <= pos s /\ ~ ends_in_paren s.
Lemma no_paren_move s s' : no_paren_end s -> same s s' -> pos s <= pos s' -> no_paren_end s'.
Proof. intros (H1 & H2) (S1 & S2 & S3) H3. split; [lia|]. unfold ends_in_paren in *. rewrite S1, S2, S3. exact H2. Qed.
Lemma no_open_paren s : sound s -> no_paren_end s -> move_to_open_paren (consume_until_eol s) = Ok (consume_until_eol s, false).
Proof.
  intros ((H1 & H2) & _) (H3 & H4). unfold move_to_open_paren, curr, curr_tt. cbn [consume_until_eol set_pos pos s_beg].
  destruct (s_end s =? s_beg s) eqn:E; cbn [negb]; [reflexivity|]. apply Nat.eqb_neq in E.
  unfold next_n, consume_until_eol. cbn [set_pos frags]. replace (_ && _) with true by (symmetry; apply andb_true_iff; split; apply Z.leb_le; lia).
  cbn [bind]. replace (Z.to_nat (Z.of_nat (s_end s) + -1)) with (s_end s - 1) by lia. unfold deref. change (frags (set_pos s (s_end s))) with (frags s).
  destruct (nth_error (frags s) (s_end s - 1)) as [t|] eqn:EN.
  - cbn [bind]. destruct (Z.eqb_spec (tok t) TK_PARENR) as [EQ|]; cbn [negb]; [|reflexivity].
    exfalso. apply H4. split; [lia|]. eauto.
  - apply nth_error_None in EN. lia.
Qed.
