(** Statement parsers stay inside the statement. *)
From Verif Require Import Base Tags SyntaxTags Token TTStream TTStream_spec StmtRules Peg Peg_spec Peg_proofs PegCover_proofs
  PegTerm_proofs.
Local Open Scope nat_scope.

Lemma skipn_skipn' A n m (l : list A) : skipn n (skipn m l) = skipn (m + n) l.
Proof. revert l. induction m as [|m IH]; intros l; [reflexivity|]. destruct l; cbn; [apply skipn_nil|apply IH]. Qed.
Lemma rest_len s : on_stmt s -> length (rest s) = s_end s - pos s.
Proof. intros (H1 & H2). unfold rest. rewrite firstn_length, skipn_length. lia. Qed.
Lemma rest_move s s' : same s s' -> pos s <= pos s' -> rest s' = skipn (pos s' - pos s) (rest s).
Proof.
  intros (HF & _ & HE) HP. unfold rest. rewrite HF, HE. rewrite skipn_firstn_comm, skipn_skipn'.
  f_equal; [lia|]. f_equal. lia.
Qed.
Lemma sound_move s s' : same s s' -> sound s -> pos s <= pos s' -> pos s' <= s_end s -> sound s'.
Proof.
  intros HS (HO & HC & HT) H1 H2. split; [|].
  - unfold on_stmt in *. destruct HS as (-> & _ & ->). lia.
  - rewrite (rest_move s s' HS H1). pose proof (firstn_skipn (pos s' - pos s) (rest s)) as HE. split.
    + intros u v E. apply (HC (firstn (pos s' - pos s) (rest s) ++ u)). rewrite <- app_assoc, <- E. symmetry. exact HE.
    + unfold tagged in *. rewrite <- HE in HT. apply Forall_app in HT. apply HT.
Qed.
Lemma rest_cons s : on_stmt s -> pos s < s_end s ->
  exists t, nth_error (frags s) (pos s) = Some t /\ rest s = t :: rest (set_pos s (S (pos s))).
Proof.
  intros (H1 & H2) H. unfold rest. cbn [s_end pos frags set_pos].
  destruct (nth_error (frags s) (pos s)) as [t|] eqn:E; [|apply nth_error_None in E; lia].
  exists t. split; [reflexivity|].
  replace (s_end s - pos s) with (S (s_end s - S (pos s))) by lia.
  apply nth_error_split in E. destruct E as (l1 & l2 & EF & EL). rewrite EF, <- EL.
  assert (X : skipn (S (length l1)) (l1 ++ t :: l2) = l2).
  { rewrite skipn_app. rewrite skipn_all2 by lia. replace (S (length l1) - length l1) with 1 by lia. reflexivity. }
  rewrite X. rewrite skipn_app, skipn_all, Nat.sub_diag. reflexivity.
Qed.
Lemma rest_nil s : pos s = s_end s -> rest s = [].
Proof. intro H. unfold rest. rewrite H, Nat.sub_diag. reflexivity. Qed.

(** what a peek can be *)
Lemma peek_sound s : sound s ->
  (pos s = s_end s /\ peek s = Ok BAD /\ peek_tt s 1 = Ok default_token /\ rest s = []) \/
  (pos s < s_end s /\ exists t, peek s = Ok (tok t) /\ tok t <> BAD /\ (exists b, is_name_tag (tok t) = Ok b) /\
     peek_tt s 1 = Ok t /\ rest s = t :: rest (set_pos s (S (pos s)))).
Proof.
  intros (HO & HC & HT). destruct (Nat.eq_dec (pos s) (s_end s)) as [H|H].
  - left. split; [exact H|]. split; [unfold peek; rewrite H, Nat.eqb_refl; reflexivity|]. split; [|apply rest_nil; exact H].
    unfold peek_tt, next_n. replace (1 - 1)%Z with 0%Z by lia. unfold on_stmt in HO.
    replace (_ && _) with true by (symmetry; apply andb_true_iff; split; apply Z.leb_le; lia). cbn [bind].
    replace (Z.to_nat (Z.of_nat (pos s) + 0)) with (pos s) by lia. rewrite H, Nat.eqb_refl. reflexivity.
  - right. assert (HL : pos s < s_end s) by (unfold on_stmt in HO; lia). split; [exact HL|].
    destruct (rest_cons s HO HL) as (t & EN & ER). exists t.
    assert (EN2 : (pos s =? s_end s) = false) by (apply Nat.eqb_neq; exact H).
    rewrite ER in HT. inversion HT; subst.
    split; [unfold peek, deref; rewrite EN2, EN; reflexivity|]. split; [apply H2|]. split; [apply H2|]. split; [|exact ER].
    unfold peek_tt, next_n. replace (1 - 1)%Z with 0%Z by lia. unfold on_stmt in HO.
    replace (_ && _) with true by (symmetry; apply andb_true_iff; split; apply Z.leb_le; lia). cbn [bind].
    replace (Z.to_nat (Z.of_nat (pos s) + 0)) with (pos s) by lia. rewrite EN2. unfold deref. rewrite EN. reflexivity.
Qed.
Lemma leaf_done g s : pos s <= length (frags s) -> leaf g s = Done (ST g (Some (pos s, S (pos s))) [], set_pos s (S (pos s))).
Proof.
  intro H. unfold leaf, digest, next_n.
  replace (_ && _) with true by (symmetry; apply andb_true_iff; split; apply Z.leb_le; lia). cbn [bind lift obind].
  replace (Z.to_nat (Z.of_nat (pos s) + 1)) with (S (pos s)) by lia. reflexivity.
Qed.
Lemma name_bad : is_name_tag BAD = Ok false.
Proof. reflexivity. Qed.

(** an outcome that is not undefined and inside the statement *)
Definition fine {A} (pos_of : A -> nat) (e : nat) (x : out A) : Prop :=
  match x with Done a => pos_of a <= e | Bad => False | Fuel => True end.
Definition pp (x : presult) := pos (snd x).
Definition fp (x : fresult) := pos (snd x).
Lemma obind_fine A B (pa : A -> nat) (pb : B -> nat) e x f :
  fine pa e x -> (forall a, x = Done a -> pa a <= e -> fine pb e (f a)) -> fine pb e (obind x f).
Proof. destruct x; cbn; auto. Qed.

Definition nobad {A} (x : out A) : Prop := match x with Bad => False | _ => True end.
Lemma obind_nobad A B (pb : B -> nat) e (x : out A) f :
  nobad x -> (forall a, x = Done a -> fine pb e (f a)) -> fine pb e (obind x f).
Proof. destruct x; cbn; auto. Qed.

(** made of fixed tokens, none of which matters to expressions *)
Definition word (t : Z) : bool := negb (is_open t || expr_stop t || (t =? BAD)%Z).
Fixpoint flat (p : pexp) : bool :=
  match p with
  | PSeq _ ps => forallb flat ps
  | POpt q => flat q
  | PTok t => word t
  | _ => false
  end.
Lemma word_decide d t : word t = true -> decide d t = DEat d.
Proof.
  unfold word, expr_stop, is_open, is_close, decide. cbn [existsb].
  destruct (t =? TK_PARENL)%Z; [discriminate|]. destruct (t =? TK_BRACKETL)%Z; [discriminate|].
  destruct (t =? TK_PARENR)%Z; [discriminate|]. destruct (t =? TK_BRACKETR)%Z; [discriminate|].
  destruct (t =? TK_COMMA)%Z; [discriminate|]. destruct (t =? TK_COLON)%Z; [discriminate|].
  destruct (t =? TK_EQUAL)%Z; [discriminate|]. destruct (t =? BAD)%Z; [discriminate|].
  destruct (d =? 1)%Z; reflexivity.
Qed.
(** the number of tokens consume_until_break goes over at nesting depth d *)
Fixpoint xlen (d : Z) (l : list Token) : nat :=
  match l with
  | [] => 0
  | t :: r => match decide d (tok t) with DEat d' => S (xlen d' r) | _ => 0 end
  end.
Lemma xlen_words d c : forall l, Forall (fun t => word (tok t) = true) c -> xlen d (c ++ l) = length c + xlen d l.
Proof.
  induction c as [|t c IH]; intros l H; [reflexivity|]. inversion H; subst. cbn [app xlen length].
  rewrite word_decide by assumption. rewrite IH by assumption. reflexivity.
Qed.
Section Safe.
Variable body : rule -> rbody.
Variable exts : bool -> list ext.
Variable A : rule -> bool.
Hypothesis Hclean : forall r, clean_body (body r) = true.
Hypothesis Hplain : forall r p, body_exp (body r) = Some p -> plain p = true.
Hypothesis Hfirm : forall r p, body_exp (body r) = Some p -> firm p = true.
Hypothesis Hcalls : forall r p, A r = true -> body_exp (body r) = Some p -> calls A p = true.
Hypothesis Hlit : A r_real_literal_constant = true.
Hypothesis Hdes : forall r, A r = true -> not_designator (body r) = true.
Hypothesis Hexts : forall a, Forall ext_ok (exts a).
Hypothesis Hextf : forall a, Forall ext_safe (exts a).
Variable N : rule -> bool.
Hypothesis HN : forall r, N r = true -> eats_body N (body r) = true.
(* a literal is recognised by its first token *)
Hypothesis Hsig : exists tag l, body r_real_literal_constant = RExp (PSeq tag (PTok SG_SIGNIFICAND :: map POpt l)) /\
  flat (PSeq tag (PTok SG_SIGNIFICAND :: map POpt l)) = true.

Lemma exts_covers a : Forall ext_covers (exts a).
Proof using Hexts. eapply Forall_impl; [|apply Hexts]. intros e H. apply H. Qed.

Definition ok p := good A p /\ firm p = true.
Lemma sound_proper s : sound s -> proper s.
Proof using. clear. intros ((_ & H) & _). exact H. Qed.

Section Step.
Variable n : nat.
Notation R := (run body exts n).
Hypothesis IH : forall p s, ok p -> sound s -> fine pp (s_end s) (R p s).
Lemma R_next p s m t s' : sclean p = true -> sound s -> R p s = Done (m, t, s') -> pos s' <= s_end s ->
  same s s' /\ sound s'.
Proof using Hclean Hexts HN.
  intros Hc Hs E Hp. eapply run_moves in E; eauto using sound_proper. destruct E as (((E1 & E2) & E3 & _) & _).
  split; [split; auto|]. eapply sound_move; eauto. split; auto.
Qed.
Lemma seq_fine ps : Forall ok ps -> forall kids s, sound s ->
  fine (fun x : bool * list stree * stream => pos (snd x)) (s_end s) (seq_loop R ps kids s).
Proof using Hclean Hexts HN IH.
  induction 1 as [|p ps Hp Hps IHp]; intros kids s Hs; cbn [seq_loop]; [apply Hs|].
  eapply obind_fine; [apply IH; auto|]. intros ((m & t) & s1) E Hp1. destruct m; [|exact Hp1].
  destruct (R_next _ _ _ _ _ (proj1 (proj1 Hp)) Hs E Hp1) as (HS & Hs1).
  replace (s_end s) with (s_end s1) by apply HS. apply IHp; auto.
Qed.
Lemma alts_fine ps : Forall ok ps -> forallb clean ps = true -> forall s, sound s -> fine pp (s_end s) (alts_loop R ps s).
Proof using Hclean Hexts HN IH.
  induction 1 as [|p ps Hp Hps IHp]; intros Hc s Hs; cbn [alts_loop]; [apply Hs|].
  cbn [forallb] in Hc. apply andb_true_iff in Hc.
  eapply obind_fine; [apply IH; auto|]. intros ((m & t) & s1) E Hp1. destruct m; [exact Hp1|].
  destruct (R_next _ _ _ _ _ (proj1 (proj1 Hp)) Hs E Hp1) as (HS & Hs1).
  replace (s_end s) with (s_end s1) by apply HS. apply IHp; [apply Hc|exact Hs1].
Qed.
Lemma star_fine k p : ok p -> forall kids s, sound s ->
  fine (fun x : list stree * stream => pos (snd x)) (s_end s) (star_loop R k p kids s).
Proof using Hclean Hexts HN IH.
  intro Hp. induction k as [|k IHk]; intros kids s Hs; cbn [star_loop]; [exact I|].
  eapply obind_fine; [apply IH; auto|]. intros ((m & t) & s1) E Hp1.
  destruct (R_next _ _ _ _ _ (proj1 (proj1 Hp)) Hs E Hp1) as (HS & Hs1).
  destruct m; [|exact Hp1]. replace (s_end s) with (s_end s1) by apply HS. apply IHk; auto.
Qed.

Lemma level2_cons t l : level2 (t :: l) =
  ((if is_open (tok t) then 1 else if is_close (tok t) then -1 else 0) + level2 l)%Z.
Proof using.
  clear. unfold level2, is_open, is_close. cbn [level].
  generalize (level TK_PARENL TK_PARENR l), (level TK_BRACKETL TK_BRACKETR l). intros x y.
  destruct (tok t =? TK_PARENL)%Z eqn:E1.
  { apply Z.eqb_eq in E1. rewrite E1. change (TK_PARENL =? TK_BRACKETL)%Z with false.
    change (TK_PARENL =? TK_BRACKETR)%Z with false. cbn [orb]. lia. }
  destruct (tok t =? TK_PARENR)%Z eqn:E2.
  { apply Z.eqb_eq in E2. rewrite E2. change (TK_PARENR =? TK_BRACKETL)%Z with false.
    change (TK_PARENR =? TK_BRACKETR)%Z with false. cbn [orb]. lia. }
  cbn [orb]. destruct (tok t =? TK_BRACKETL)%Z; [lia|]. destruct (tok t =? TK_BRACKETR)%Z; lia.
Qed.
Lemma decide_level d t : match decide d t with
  | DEat d' => (d' = d + (if is_open t then 1 else if is_close t then -1 else 0))%Z
  | _ => True end.
Proof using.
  clear. unfold decide, is_open, is_close.
  destruct (t =? TK_PARENL)%Z eqn:E1; [cbn; lia|]. destruct (t =? TK_BRACKETL)%Z eqn:E3; [cbn; lia|].
  destruct (t =? TK_PARENR)%Z eqn:E2; [destruct (_ =? 0)%Z; cbn; auto; lia|].
  destruct (t =? TK_BRACKETR)%Z; [destruct (_ =? 0)%Z; cbn; auto; lia|]. cbn [orb].
  repeat match goal with |- context [if ?b then _ else _] => destruct b; auto end; lia.
Qed.
Lemma decide_ge1 d t : (1 <= d)%Z -> match decide d t with DEat d' => (1 <= d')%Z | _ => True end.
Proof using.
  clear. intro H. unfold decide.
  repeat match goal with |- context [if ?b then _ else _] => destruct b eqn:? end; try lia; auto.
  all: repeat match goal with H : (_ =? _)%Z = true |- _ => apply Z.eqb_eq in H | H : (_ =? _)%Z = false |- _ => apply Z.eqb_neq in H end; lia.
Qed.
(** the literal is there *)
Lemma lit_some s m t s' : peek s = Ok SG_SIGNIFICAND -> R (PRule r_real_literal_constant) s = Done (m, t, s') ->
  exists x, t = Some x.
Proof using Hsig.
  clear IH. intros HP H. destruct Hsig as (tag & l & Hb & _). destruct n as [|n']; [discriminate|]. cbn [run] in H.
  step2 H o s1. destruct o as [x|]; [injection H as _ <- _; eauto|]. exfalso. clear H.
  unfold call_rule in E. rewrite Hb in E. step3 E m1 t1 s2. injection E as -> ->.
  destruct n' as [|n2]; [discriminate|]. cbn [run] in E0. step3 E0 m2 kids s3.
  destruct m2; [step E0; discriminate|]. clear E0. cbn [seq_loop] in E. step3 E m3 t3 s4.
  destruct n2 as [|n3]; [discriminate|]. cbn [run] in E0. unfold peek_o in E0. rewrite HP in E0. cbn [lift obind negb] in E0.
  rewrite Z.eqb_refl in E0. cbn [negb] in E0. step2 E0 x s5. injection E0 as <- <- <-.
  clear -E. revert E. generalize (hoist [] (Some x)). generalize s5. induction l as [|q l IHl]; intros s6 k6 E; cbn [map seq_loop] in E; [discriminate|].
  step3 E m7 t7 s7. cbn [run] in E0. step3 E0 m8 t8 s8. injection E0 as <- <- <-. eauto.
Qed.
Notation lit := (fun s => '(m, t, s') <~ R (PRule r_real_literal_constant) s ;; Done (t, s')).
Lemma lit_ok : ok (PRule r_real_literal_constant).
Proof using Hlit. repeat split; auto. Qed.
(** a literal contains no parentheses *)
Lemma sound_leaf g s x s1 : sound s -> pos s < s_end s -> leaf g s = Done (x, s1) -> sound s1 /\ s1 = set_pos s (S (pos s)).
Proof using.
  clear. intros Hs HP H. rewrite leaf_done in H by (destruct Hs as ((_ & ?) & _); lia). injection H as <- <-.
  split; [|reflexivity]. eapply sound_move; eauto; [apply same_set|..]; cbn; lia.
Qed.
Definition chews (P : Token -> Prop) (s s' : stream) : Prop :=
  same s s' /\ sound s' /\ exists c, rest s = c ++ rest s' /\ pos s' = pos s + length c /\ Forall P c.
Lemma chews_refl P s : sound s -> chews P s s.
Proof using. clear. intro H. split; [apply same_refl|]. split; [exact H|]. exists []. cbn. auto. Qed.
Lemma chews_trans P a b c : chews P a b -> chews P b c -> chews P a c.
Proof using.
  clear. intros (H1 & H2 & u & H3 & H4 & H5) (H6 & H7 & v & H8 & H9 & H10).
  split; [eapply same_trans; eauto|]. split; [exact H7|]. exists (u ++ v). rewrite <- app_assoc, <- H8.
  rewrite app_length. split; [exact H3|]. split; [lia|]. apply Forall_app. auto.
Qed.
Lemma flat_seq_ k : (forall p s m t s', sound s -> flat p = true -> run body exts k p s = Done (m, t, s') ->
     chews (fun t => word (tok t) = true) s s') ->
  forall ps kids s m kids' s', sound s -> forallb flat ps = true -> seq_loop (run body exts k) ps kids s = Done (m, kids', s') ->
       chews (fun t => word (tok t) = true) s s'.
Proof using.
  clear. intro IHk. induction ps as [|p ps IHp]; intros kids s m kids' s' Hs Hf H; cbn [seq_loop] in H.
  - injection H as <- <- <-. apply chews_refl; exact Hs.
  - cbn [forallb] in Hf. apply andb_true_iff in Hf. destruct Hf as (Hf1 & Hf2).
    step3 H m1 t1 s1. apply IHk in E; auto.
    destruct m1; [|injection H as <- <- <-; auto].
    eapply chews_trans; [exact E|]. eapply IHp; eauto. apply E.
Qed.
Lemma flat_level : forall k p s m t s', sound s -> flat p = true -> run body exts k p s = Done (m, t, s') ->
  chews (fun t => word (tok t) = true) s s'.
Proof using.
  clear. induction k as [|k IHk]; intros p s m t s' Hs Hf H; [discriminate|]. cbn [run] in H.
  destruct p; cbn [flat] in Hf; try discriminate.
  - step3 H m1 t1 s1. injection H as <- <- <-. eapply IHk; eauto.
  - step3 H m1 kids s1. eapply flat_seq_ in E; eauto. destruct m1; [step H; injection H as <- <- <-; exact E|].
    injection H as <- <- <-. rewrite same_rewind by apply E. apply chews_refl; exact Hs.
  - step H. destruct (t0 =? a)%Z eqn:EQ; cbn [negb] in H; [|injection H as <- <- <-; apply chews_refl; exact Hs].
    step2 H x s1. injection H as <- <- <-. apply Z.eqb_eq in EQ. subst a.
    destruct (peek_sound s Hs) as [(_ & HB & _)|(HL & t1 & HT & _ & _ & _ & HR)].
    + rewrite HB in E. injection E as <-. discriminate.
    + rewrite HT in E. injection E as <-.
      destruct (sound_leaf _ _ _ _ Hs HL E0) as (E1 & ->). split; [apply same_set|]. split; [exact E1|].
      exists [t1]. split; [exact HR|]. split; [cbn; lia|]. constructor; auto.
Qed.
Lemma flat_seq k ps kids s m kids' s' : sound s -> forallb flat ps = true -> seq_loop (run body exts k) ps kids s = Done (m, kids', s') ->
  chews (fun t => word (tok t) = true) s s'.
Proof using. clear. intros. eapply flat_seq_; eauto. intros. eapply flat_level; eauto. Qed.
Lemma level2_nil : level2 [] = 0%Z.
Proof using. reflexivity. Qed.
Lemma break_fine k : forall kids d s, sound s -> (1 <= d)%Z -> (level2 (rest s) <= 1 - d)%Z ->
  fine (fun x : option (list stree) * stream => pos (snd x)) (s_end s) (break_loop lit k kids d s).
Proof using Hclean Hexts HN IH Hlit Hsig.
  induction k as [|k IHk]; intros kids d s Hs Hd HL; cbn [break_loop]; [exact I|].
  destruct (d <=? 0)%Z; [apply Hs|]. unfold peek_o.
  destruct (peek_sound s Hs) as [(HE & HB & _ & HR)|(HP & t & HT & HNB & _ & _ & HR)].
  - rewrite HB. cbn [lift obind]. rewrite HR, level2_nil in HL. replace d with 1%Z by lia. apply Hs.
  - rewrite HT. cbn [lift obind]. pose proof (decide_level d (tok t)) as HD.
    assert (HD1 : forall d', decide d (tok t) = DEat d' -> (1 <= d')%Z).
    { intros d' E. rewrite E in HD. unfold decide in E. subst d'. unfold is_open, is_close in *.
      repeat match type of E with context [if ?b then _ else _] => destruct b eqn:?; try discriminate E end; cbn [orb] in *; try lia.
      all: repeat match goal with H : (_ =? _)%Z = true |- _ => apply Z.eqb_eq in H | H : (_ =? _)%Z = false |- _ => apply Z.eqb_neq in H end; lia. }
    destruct (decide d (tok t)) as [| |d'] eqn:ED; [apply Hs|apply Hs|]. specialize (HD1 _ eq_refl).
    rewrite HR, level2_cons in HL. destruct (tok t =? SG_SIGNIFICAND)%Z eqn:EQ.
    + apply Z.eqb_eq in EQ. eapply obind_fine with (pa := fp).
      { eapply obind_fine; [apply IH; [apply lit_ok|exact Hs]|]. intros ((m & t1) & s1) _ H. exact H. }
      intros (o & s1) E Hp1. apply obind_done in E. destruct E as (((m & t1) & s2) & E & E'). injection E' as -> ->.
      rewrite EQ in HT. destruct (lit_some _ _ _ _ HT E) as (x & ->).
      destruct n as [|n']; [discriminate|]. cbn [run] in E. step2 E o s3. destruct o as [y|]; [|discriminate].
      injection E as <- -> ->. destruct Hsig as (tag & l & Hb & Hf). unfold call_rule in E0. rewrite Hb in E0.
      step3 E0 m2 t2 s4. injection E0 as -> ->. apply flat_level in E; auto. destruct E as (E1 & E2 & c & E3 & E4 & E5).
      replace (s_end s) with (s_end s1) by apply E1.
      assert (EO : is_open (tok t) = false) by (rewrite EQ; reflexivity).
      assert (EC : is_close (tok t) = false) by (rewrite EQ; reflexivity).
      rewrite EO, EC in *. apply IHk; auto.
      assert (HX : (level2 (rest s) = level2 (rest s1))%Z).
      { rewrite E3. clear -E5. induction c as [|u c IHc]; [reflexivity|]. inversion E5; subst. cbn [app].
        rewrite level2_cons, IHc by assumption. unfold word, expr_stop in H1. destruct (is_open (tok u)); [discriminate|].
        destruct (is_close (tok u)); [discriminate|]. lia. }
      rewrite <- HX, HR, level2_cons, EO, EC. lia.
    + rewrite leaf_done by (destruct Hs as ((_ & ?) & _); lia). cbn [obind].
      change (s_end s) with (s_end (set_pos s (S (pos s)))). apply IHk; auto.
      * eapply sound_move; eauto; [apply same_set|..]; cbn; lia.
      * subst d'. destruct (is_open _); [lia|]. destruct (is_close _); lia.
Qed.
(** exactly how far it goes *)
Lemma break_exact k : forall kids d s o s', sound s -> (1 <= d)%Z -> (level2 (rest s) <= 1 - d)%Z ->
  break_loop lit k kids d s = Done (o, s') ->
  same s s' /\ pos s' = pos s + xlen d (rest s) /\ pos s' <= s_end s /\
  (o = None <-> exists t, nth_error (rest s) (xlen d (rest s)) = Some t /\ tok t = TK_EQUAL) /\
  (forall l, o = Some l -> exists new, l = kids ++ new /\ (new = [] <-> xlen d (rest s) = 0)).
Proof using Hsig.
  clear IH. induction k as [|k IHk]; intros kids d s o s' Hs Hd HL H; cbn [break_loop] in H; [discriminate|].
  destruct (Z.leb_spec d 0); [lia|]. unfold peek_o in H.
  destruct (peek_sound s Hs) as [(HE & HB & _ & HR)|(HP & t & HT & HNB & _ & _ & HR)].
  - rewrite HB in H. cbn [lift obind] in H. rewrite HR, level2_nil in HL. replace d with 1%Z in * by lia. cbn in H.
    injection H as <- <-. rewrite HR. cbn [xlen nth_error]. split; [apply same_refl|]. split; [lia|]. split; [lia|].
    split; [split; [discriminate|intros (t & Ht & _); discriminate]|]. intros l [= <-]. exists []. rewrite app_nil_r. tauto.
  - rewrite HT in H. cbn [lift obind] in H. rewrite HR in *. cbn [xlen]. rewrite level2_cons in HL.
    pose proof (decide_level d (tok t)) as HD. pose proof (decide_ge1 d (tok t)) as HG.
    assert (HFE : tok t = TK_EQUAL <-> decide d (tok t) = DFail \/ (tok t = TK_EQUAL /\ d <> 1%Z)).
    { unfold decide. split.
      - intro EQ. rewrite EQ. cbn. destruct (d =? 1)%Z eqn:E1; [left; reflexivity|right; split; [reflexivity|]]. apply Z.eqb_neq in E1. exact E1.
      - intros [HF|(HF & _)]; [|exact HF].
        repeat match type of HF with context [if ?b then _ else _] => destruct b eqn:?; try discriminate HF end.
        match goal with H : (tok t =? TK_EQUAL)%Z = true |- _ => apply Z.eqb_eq in H; exact H end. }
    destruct (decide d (tok t)) as [| |d'] eqn:ED.
    + injection H as <- <-. cbn [nth_error]. split; [apply same_refl|]. split; [lia|]. split; [apply Hs|].
      split; [split; [discriminate|]|].
      * intros (t0 & [= <-] & Ht0). destruct (proj1 HFE Ht0) as [?|(_ & Hd1)]; [discriminate|].
        exfalso. rewrite Ht0 in ED. unfold decide in ED. cbn in ED. apply Z.eqb_neq in Hd1. rewrite Hd1 in ED. discriminate.
      * intros l [= <-]. exists []. rewrite app_nil_r. tauto.
    + injection H as <- <-. cbn [nth_error]. split; [apply same_refl|]. split; [lia|]. split; [apply Hs|].
      split; [split; [|reflexivity]|discriminate]. intros _. exists t. split; [reflexivity|]. apply HFE. auto.
    + specialize (HG Hd). destruct (tok t =? SG_SIGNIFICAND)%Z eqn:EQ.
      * apply Z.eqb_eq in EQ. step2 H o1 s1. destruct o1 as [x|]; [|discriminate].
        step3 E m1 t1 s2. injection E as -> ->. rewrite EQ in HT.
        destruct n as [|n']; [discriminate|]. cbn [run] in E0. step2 E0 o1 s3. destruct o1 as [y|]; [|discriminate].
        injection E0 as <- -> ->. destruct Hsig as (tag & l & Hb & Hf). unfold call_rule in E. rewrite Hb in E.
        step3 E m2 t2 s4. injection E as -> ->.
        assert (HM : pos s < pos s1 /\ chews (fun t => word (tok t) = true) s s1).
        { pose proof E0 as E1. apply flat_level in E1; [|exact Hs|exact Hf]. split; [|exact E1].
          destruct n' as [|n2]; [discriminate|]. cbn [run] in E0. step3 E0 m5 kids5 s5.
          destruct m5; [|discriminate]. step E0. injection E0 as <- _ ->. cbn [seq_loop] in E. step3 E m6 t6 s6.
          destruct n2 as [|n3]; [discriminate|]. cbn [run] in E0. unfold peek_o in E0. rewrite HT in E0. cbn [lift obind] in E0.
          rewrite Z.eqb_refl in E0. cbn [negb] in E0. step2 E0 z s7. injection E0 as <- <- <-. pose proof E3 as E4. apply leaf_onward in E3.
          destruct E3 as (_ & E3).
          cbn [flat forallb] in Hf. apply andb_true_iff in Hf. destruct Hf as (_ & Hf).
          apply flat_seq in E; [| |exact Hf].
          + destruct E as (_ & _ & c & _ & E & _). lia.
          + destruct (peek_sound s Hs) as [(HX & HY & _)|(HX & _)]; [exfalso; rewrite HT in HY; discriminate|].
            apply leaf_inv in E4. destruct E4 as (_ & -> & _).
            eapply sound_move; eauto; [apply same_set|..]; cbn; lia. }
        destruct HM as (HM & (E1 & E2 & c & E3 & E4 & E5)).
        assert (EO : is_open (tok t) = false) by (rewrite EQ; reflexivity).
        assert (EC : is_close (tok t) = false) by (rewrite EQ; reflexivity).
        assert (Hdd : d' = d) by (rewrite EO, EC in HD; lia). clear HD HG. rewrite Hdd in *. clear d' Hdd.
        assert (HX : (level2 (rest s) = level2 (rest s1))%Z).
        { rewrite E3. clear -E5. induction c as [|u c IHc]; [reflexivity|]. inversion E5; subst. cbn [app].
          rewrite level2_cons, IHc by assumption. unfold word, expr_stop in H1. destruct (is_open (tok u)); [discriminate|].
          destruct (is_close (tok u)); [discriminate|]. lia. }
        apply IHk in H; [|exact E2|exact Hd|rewrite <- HX, HR, level2_cons, EO, EC; rewrite EO, EC in HL; lia].
        destruct H as (H1 & H2 & H3 & H4 & H5).
        assert (HXL : S (xlen d (rest (set_pos s (S (pos s))))) = length c + xlen d (rest s1)).
        { rewrite <- (xlen_words d c) by exact E5. rewrite <- E3, HR. cbn [xlen]. rewrite ED. reflexivity. }
        rewrite HXL. split; [eapply same_trans; eauto|]. split; [lia|]. split; [destruct E1 as (_ & _ & <-); exact H3|].
        split.
        { rewrite H4. rewrite <- HR, E3. rewrite nth_error_app2 by lia.
          replace (length c + xlen d (rest s1) - length c) with (xlen d (rest s1)) by lia. tauto. }
        intros l' ->. destruct (H5 _ eq_refl) as (new & -> & Hn). exists (x :: new). rewrite <- app_assoc. split; [reflexivity|].
        split; [discriminate|lia].
      * rewrite leaf_done in H by (destruct Hs as ((_ & ?) & _); lia). cbn [obind] in H.
        apply IHk in H; [| |exact HG|].
        -- destruct H as (H1 & H2 & H3 & H4 & H5). cbn [pos set_pos s_end] in H2, H3.
           split; [eapply same_trans; [apply same_set|exact H1]|]. split; [lia|]. split; [exact H3|].
           split; [exact H4|]. intros l ->. destruct (H5 _ eq_refl) as (new & -> & Hn).
           eexists (_ :: new). rewrite <- app_assoc. split; [reflexivity|]. split; discriminate.
        -- eapply sound_move; eauto; [apply same_set|..]; cbn; lia.
        -- subst d'. destruct (is_open _); [lia|]. destruct (is_close _); lia.
Qed.
Lemma parens_fine k : forall kids d s, sound s -> (level TK_PARENL TK_PARENR (rest s) <= - d)%Z ->
  fine (fun x : list stree * stream => pos (snd x)) (s_end s) (parens_loop k kids d s).
Proof using.
  clear. induction k as [|k IHk]; intros kids d s Hs HL; cbn [parens_loop]; [exact I|].
  destruct (d <=? 0)%Z eqn:ED; [apply Hs|]. apply Z.leb_gt in ED. unfold peek_o.
  destruct (peek_sound s Hs) as [(HE & HB & _ & HR)|(HP & t & HT & HNB & _ & _ & HR)].
  - rewrite HR in HL. cbn [level] in HL. lia.
  - rewrite HT. cbn [lift obind]. rewrite HR in HL. cbn [level] in HL.
    assert (X : forall d', (level TK_PARENL TK_PARENR (rest (set_pos s (S (pos s)))) <= - d')%Z ->
      fine (fun x : list stree * stream => pos (snd x)) (s_end s) ('(x, s') <~ leaf (tok t) s ;; parens_loop k (kids ++ [x]) d' s')).
    { intros d' Hd'. rewrite leaf_done by (destruct Hs as ((_ & ?) & _); lia). cbn [obind].
      change (s_end s) with (s_end (set_pos s (S (pos s)))). apply IHk; auto.
      eapply sound_move; eauto; [apply same_set|..]; cbn; lia. }
    destruct (tok t =? TK_PARENL)%Z; [cbn [obind]; apply X; lia|].
    destruct (tok t =? TK_PARENR)%Z; [cbn [obind]; apply X; lia|].
    apply Z.eqb_neq in HNB. rewrite HNB. cbn [obind]. apply X; lia.
Qed.
Lemma ext_fine tag m es : Forall ext_ok es -> Forall ext_safe es -> forall s, sound s -> m = pos s ->
  fine pp (s_end s) (ext_loop tag m es s).
Proof using.
  clear. intros H1 H2. induction es as [|e es IHe]; intros s Hs ->; cbn [ext_loop]; [apply Hs|].
  inversion H1 as [|? ? (He1 & He2 & _) H1']; subst. inversion H2 as [|? ? He3 H2']; subst. specialize (He3 s Hs).
  eapply obind_fine with (pa := fp).
  { destruct (e s) as [(o & s1)| |]; auto. }
  intros (o & s1) E HP. pose proof (He1 _ _ _ E) as HS. destruct o as [t|].
  - apply He2 in E. destruct (covered_ok2 s tag _ _ _ E) as (t' & Ht & _). rewrite Ht. exact HP.
  - rewrite same_rewind by exact HS. apply IHe; auto.
Qed.
Lemma next_ok s : sound s -> pos s < s_end s -> exists x, peek_off s 2 = Ok x.
Proof using.
  clear. intros ((HO1 & HO2) & _) H. unfold peek_off, peek_tt, next_n. replace (2 - 1)%Z with 1%Z by lia.
  replace (_ && _) with true by (symmetry; apply andb_true_iff; split; apply Z.leb_le; lia). cbn [bind].
  destruct (negb _); cbn [bind]; eauto. unfold deref. destruct (nth_error _ _) eqn:EN; cbn [bind]; eauto.
  apply nth_error_None in EN. destruct (_ =? _) eqn:E; cbn [bind]; eauto. apply Nat.eqb_neq in E. exfalso. lia.
Qed.
Lemma consume_parens_fine k s : sound s -> fine fp (s_end s) (consume_parens k s).
Proof using.
  clear. intro Hs.
  unfold consume_parens, peek_o.
  destruct (peek_sound s Hs) as [(HE & HB & _ & HR)|(HP & t & HT & HNB & _ & _ & HR)].
  { rewrite HB. cbn [lift obind]. apply Hs. }
  rewrite HT. cbn [lift obind]. destruct (tok t =? TK_PARENL)%Z eqn:EP; cbn [negb]; [|apply Hs].
  rewrite leaf_done by (destruct Hs as ((_ & ?) & _); lia). cbn [obind].
  assert (Hs1 : sound (set_pos s (S (pos s)))).
  { eapply sound_move; eauto; [apply same_set|..]; cbn; lia. }
  assert (HL : (level TK_PARENL TK_PARENR (rest s) <= 0)%Z) by (destruct Hs as (_ & HC & _); apply (HC []); reflexivity).
  rewrite HR in HL. cbn [level] in HL. rewrite EP in HL.
  eapply obind_fine; [apply (parens_fine k _ 1 _ Hs1); lia|]. intros (kids & s2) E H2. cbn [snd] in H2.
  apply (parens_tiled _ s) with (b := pos s) in E; [|apply same_set|].
  + destruct (covered_ok _ HOIST _ _ _ E) as (t' & -> & _). exact H2.
  + apply Z.eqb_eq in EP. econstructor; [|constructor]. cbn [pos set_pos]. constructor.
    exists (tok t). rewrite set_pos_pos. auto.
Qed.
Lemma list_name_fine s : sound s -> fine fp (s_end s) (list_name s).
Proof using.
  clear. intro Hs.
  unfold list_name. unfold peek_off at 1.
  destruct (peek_sound s Hs) as [(HE & _ & HB & HR)|(HP & t & HT & HNB & (b & Hb) & HT2 & HR)].
  { rewrite HB. cbn [bind lift obind]. change (tok default_token) with BAD. rewrite name_bad. cbn [lift obind]. apply Hs. }
  rewrite HT2. cbn [bind lift obind]. rewrite Hb. cbn [lift obind]. destruct b; [|apply Hs].
  destruct (next_ok s Hs HP) as (x & ->). cbn [lift obind]. destruct (existsb _ _); [|apply Hs].
  rewrite leaf_done by (destruct Hs as ((_ & ?) & _); lia). cbn [obind fine fp snd pos set_pos]. lia.
Qed.
Lemma call_fine k r s : A r = true -> sound s -> fine fp (s_end s) (call_rule body exts R k r s).
Proof using All.
  intros HA Hs. unfold call_rule. pose proof (Hclean r) as Hc. pose proof (Hplain r) as Hp. pose proof (Hfirm r) as Hf.
  pose proof (Hcalls r) as Hk. pose proof (Hdes r HA) as Hd. unfold clean_body in Hc.
  destruct (body r) eqn:EB; cbn [body_exp not_designator] in *; try discriminate.
  - assert (ok p) by (repeat split; auto using clean_sclean).
    eapply obind_fine; [apply IH; auto|]. intros ((m & t) & s1) _ H1. exact H1.
  - assert (HO : ok p) by (repeat split; auto using clean_sclean).
    eapply obind_fine; [apply IH; auto|]. intros ((m & t) & s1) E H1. destruct m; [exact H1|].
    destruct (R_next _ _ _ _ _ (clean_sclean _ Hc) Hs E H1) as (HS & Hs1).
    eapply obind_fine with (pa := pp); [|intros ((m & t2) & s2) _ H2; exact H2].
    replace (s_end s) with (s_end s1) by apply HS. apply ext_fine; auto.
  - unfold peek_o. assert (exists t, peek s = Ok t) as (t & Ht).
    { destruct (peek_sound s Hs) as [(_ & -> & _)|(_ & t & -> & _)]; eauto. }
    rewrite Ht. cbn [lift obind]. destruct (existsb _ _); [apply Hs|]. unfold until_break.
    assert (HL : (level2 (rest s) <= 0)%Z) by (destruct Hs as (_ & HC & _); apply (HC []); reflexivity).
    eapply obind_fine; [apply break_fine; auto; lia|]. intros (o & s1) E H1. cbn [snd] in H1.
    destruct o as [[|x kids]|]; [exact H1| |apply Hs].
    eapply (break_tiled _ _ s) with (b := pos s) in E; [|clear E|apply same_refl|constructor].
    + destruct (covered_ok _ tag _ _ _ E) as (t' & -> & _). exact H1.
    + intros s2 o2 s2' H2. step3 H2 m t1 s3. injection H2 as -> ->.
      eapply (run_tiled body exts A) in E; eauto using exts_same, exts_covers. repeat split; auto.
  - apply consume_parens_fine. exact Hs.
  - apply list_name_fine. exact Hs.
Qed.
End Step.

Lemma ok_alts g ps : ok (PAlts g ps) -> Forall ok ps /\ forallb clean ps = true.
Proof using.
  clear. intros ((H1 & H2 & H3) & H4). cbn [sclean clean plain calls firm] in *. split; [|exact H1].
  rewrite forallb_forall in H1, H2, H3, H4. apply Forall_forall. intros q Hq. repeat split; auto using clean_sclean.
Qed.
Lemma run_fine n : forall p s, ok p -> sound s -> fine pp (s_end s) (run body exts n p s).
Proof using All.
  induction n as [|n IH]; intros p s Hok Hs; [exact I|]. pose proof Hok as ((Hc & Hp & Hk) & Hf).
  assert (IT : forall p s x, good A p -> run body exts n p s = Done x -> same s (snd x) /\ tiled_r s x).
  { intros. eapply (run_tiled body exts A); eauto using exts_same, exts_covers. }
  assert (IR : forall p s m t s', clean p = true -> run body exts n p s = Done (m, t, s') -> restores s (m, t, s')).
  { intros. eapply run_restores; eauto using exts_same. }
  assert (NAME : forall f : Token -> out presult, (forall t, pos s < s_end s -> peek_tt s 1 = Ok t -> fine pp (s_end s) (f t)) ->
     fine pp (s_end s) (t <~ peek_o s ;; b <~ lift (is_name_tag t) ;; if negb b then Done (false, None, s) else
       tt <~ lift (peek_tt s 1) ;; f tt)).
  { intros f Hff. unfold peek_o. destruct (peek_sound s Hs) as [(HE & HB & _ & HR)|(HL & t & HT & HNB & (b & Hb) & HT2 & HR)].
    - rewrite HB. cbn [lift obind]. rewrite name_bad. cbn [lift obind negb]. apply Hs.
    - rewrite HT. cbn [lift obind]. rewrite Hb. cbn [lift obind]. destruct b; cbn [negb]; [|apply Hs].
      rewrite HT2. cbn [lift obind]. apply Hff; auto. }
  assert (LEAF : forall g, pos s < s_end s -> fine pp (s_end s) ('(x, s') <~ leaf g s ;; Done (true, Some x, s'))).
  { intros g HL. rewrite leaf_done by (destruct Hs as ((_ & ?) & _); lia). cbn. lia. }
  cbn [run]. destruct p; cbn [sclean clean plain calls firm] in *.
  - destruct (ok_alts _ _ Hok) as (Ho & Hcl). eapply obind_fine; [apply (alts_fine n IH); auto|]. intros ((m & t) & s1) E H1.
    destruct m; [|exact H1]. eapply (alts_tiled A (run body exts n) IT) in E; [| |exact IR].
    + destruct t as [t|].
      * assert (G : covers_list s (hoist [] (Some t)) (pos s) (pos s1)) by (eapply hoist_ok; [constructor|exact E]).
        destruct (covered_ok _ tag _ _ _ G) as (t' & -> & _). exact H1.
      * assert (G : covers_list s (hoist [] None) (pos s) (pos s)) by constructor.
        destruct (covered_ok _ tag _ _ _ G) as (t' & -> & _). exact H1.
    + apply Forall_forall. intros q Hq. rewrite Forall_forall in Ho. rewrite forallb_forall in Hcl. split; [apply Ho|]; auto.
  - apply NAME. intros t HL _. destruct (negb _); [apply Hs|]. apply LEAF. exact HL.
  - apply NAME. intros t HL _. destruct (negb _); [apply Hs|]. apply LEAF. exact HL.
  - unfold peek_o. destruct (peek_sound s Hs) as [(HE & HB & _ & HR)|(HL & t & HT & HNB & (b & Hb) & HT2 & HR)].
    + rewrite HB. cbn [lift obind]. rewrite name_bad. cbn [lift obind negb]. apply Hs.
    + rewrite HT. cbn [lift obind]. rewrite Hb. cbn [lift obind]. destruct b; cbn [negb]; [apply LEAF; exact HL|apply Hs].
  - eapply obind_fine; [apply IH; auto; repeat split; auto using clean_sclean|]. intros ((m & t) & s1) _ H1. exact H1.
  - eapply obind_fine; [apply IH; auto; repeat split; auto using clean_sclean|]. intros ((m & t) & s1) _ H1. exact H1.
  - unfold peek_o. destruct (peek_sound s Hs) as [(_ & -> & _)|(_ & t1 & -> & _)]; cbn [lift obind]; apply Hs.
  - eapply obind_fine; [apply (call_fine n IH); auto|]. intros (o & s1) _ H1. destruct o; [exact H1|apply Hs].
  - assert (Ho : Forall ok ps).
    { rewrite forallb_forall in Hc, Hp, Hk, Hf. apply Forall_forall. intros q Hq. repeat split; auto.
      apply Hc in Hq. exact Hq. }
    eapply obind_fine; [apply (seq_fine n IH); auto|]. intros ((m & kids) & s1) E H1. cbn [snd] in H1.
    destruct m; [|apply Hs].
    eapply (seq_tiled A _ IT s) in E; [| |apply same_refl|constructor].
    + destruct (covered_ok _ tag _ _ _ E) as (t' & -> & _). exact H1.
    + eapply Forall_impl; [|exact Ho]. intros q Hq. apply Hq.
  - assert (Ho : ok p) by (repeat split; auto using clean_sclean).
    eapply obind_fine; [apply (star_fine n IH n p Ho); auto|]. intros (kids & s1) E H1. cbn [snd] in H1.
    eapply (star_tiled A _ IT s) in E; [| |apply same_refl|constructor].
    + destruct (covered_ok _ HOIST _ _ _ E) as (t' & -> & _). exact H1.
    + apply Ho.
  - assert (Ho : ok p) by (repeat split; auto using clean_sclean).
    eapply obind_fine; [apply IH; auto|]. intros ((m & t) & s1) E H1. apply IT in E; [|apply Ho].
    destruct E as (_ & E). cbn in E. destruct t as [t|]; [|exact H1].
    destruct (covered_ok2 s tag _ _ _ E) as (t' & -> & _). exact H1.
  - unfold peek_o. destruct (peek_sound s Hs) as [(HE & HB & _ & HR)|(HL & t1 & HT & _)].
    + rewrite HB. cbn [lift obind]. rewrite Hf. apply Hs.
    + rewrite HT. cbn [lift obind]. destruct (t =? tok t1)%Z; cbn [negb]; [apply LEAF; exact HL|apply Hs].
Qed.
End Safe.
