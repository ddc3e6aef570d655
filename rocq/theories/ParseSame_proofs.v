(** The parsers see the kinds of tokens and their texts in lower case. *)
From Verif Require Import Base Base_lemmas Tags SyntaxTags Token TTStream StmtRules Peg StmtGrammar LabelStack Prgm PrgmSource ParseSame_spec.
From Coq Require Import Lia.
Local Open Scope nat_scope.

Section Related.
Variable Q : list Token -> list Token -> Prop.
Hypothesis HQ : forall a b, Q a b -> Forall2 alike a b.
Definition sim (s s' : stream) : Prop := Q (frags s) (frags s') /\ s_beg s' = s_beg s /\ s_end s' = s_end s /\ pos s' = pos s.
Definition osim {A} (a b : out (A * stream)) : Prop :=
  match a, b with Done (x, s), Done (y, s') => y = x /\ sim s s' | Bad, Bad => True | Fuel, Fuel => True | _, _ => False end.
Definition rsim {A} (a b : res (stream * A)) : Prop :=
  match a, b with Ok (s, x), Ok (s', y) => y = x /\ sim s s' | Throw, Throw => True | UB, UB => True | _, _ => False end.
Definition ssim (a b : res stream) : Prop := match a, b with Ok s, Ok s' => sim s s' | Throw, Throw => True | UB, UB => True | _, _ => False end.

Lemma osim_bind {A B} (a b : out (A * stream)) (f g : A * stream -> out (B * stream)) :
  osim a b -> (forall x s s', sim s s' -> osim (f (x, s)) (g (x, s'))) -> osim (obind a f) (obind b g).
Proof. intros H K. destruct a as [[x s]| |], b as [[y s']| |]; cbn in *; try contradiction; auto. destruct H as [-> H]. auto. Qed.
Lemma osim_val {A B} (a b : out A) (f g : A -> out (B * stream)) : b = a -> (forall x, osim (f x) (g x)) -> osim (obind a f) (obind b g).
Proof. intros -> K. destruct a; cbn; auto. Qed.
Lemma osim_done {A} (x : A) s s' : sim s s' -> osim (Done (x, s)) (Done (x, s')).
Proof. cbn. auto. Qed.
Lemma F2l {A} (R : A -> A -> Prop) a b : Forall2 R a b -> length b = length a.
Proof. induction 1; cbn; auto. Qed.
Lemma F2n {A} (R : A -> A -> Prop) a b : Forall2 R a b -> forall i, match nth_error a i, nth_error b i with Some x, Some y => R x y | None, None => True | _, _ => False end.
Proof. induction 1; intros [|i]; cbn; auto. apply IHForall2. Qed.
Lemma sim_pos s s' p : sim s s' -> sim (set_pos s p) (set_pos s' p).
Proof. intros (A & B & C & D). unfold sim, set_pos. cbn. auto. Qed.
Lemma next_sim s s' p n : sim s s' -> next_n s' p n = next_n s p n.
Proof. intros (A & _). unfold next_n. now rewrite (F2l _ _ _ (HQ _ _ A)). Qed.
Lemma deref_sim s s' p : sim s s' -> match deref s p, deref s' p with Ok x, Ok y => alike x y | Throw, Throw => True | UB, UB => True | _, _ => False end.
Proof.
  intros (A & _). unfold deref. rewrite (F2l _ _ _ (HQ _ _ A)). pose proof (F2n _ _ _ (HQ _ _ A) p) as N. destruct (nth_error (frags s) p), (nth_error (frags s') p); auto; try contradiction.
  destruct (p =? _); auto. split; reflexivity.
Qed.
Lemma deref_tok s s' p : sim s s' -> (t <- deref s' p ;; Ok (tok t)) = (t <- deref s p ;; Ok (tok t)).
Proof. intros H. pose proof (deref_sim _ _ p H) as D. destruct (deref s p), (deref s' p); cbn; try contradiction; auto. destruct D as [-> _]. reflexivity. Qed.
Lemma peek_sim s s' : sim s s' -> peek s' = peek s.
Proof. intros H. pose proof H as (A & B & C & D). unfold peek. rewrite C, D. destruct (pos s =? s_end s); auto. now apply deref_tok. Qed.
Lemma peek_tt_sim s s' o : sim s s' -> match peek_tt s o, peek_tt s' o with Ok x, Ok y => alike x y | Throw, Throw => True | UB, UB => True | _, _ => False end.
Proof.
  intros H. pose proof H as (A & B & C & D). unfold peek_tt. rewrite D, (next_sim s s') by auto. destruct (next_n s (pos s) (o - 1)) as [p| |]; cbn [bind]; auto. rewrite C.
  destruct (p =? s_end s); cbn [negb]; [split; reflexivity|]. now apply deref_sim.
Qed.
Lemma peek_off_sim s s' o : sim s s' -> peek_off s' o = peek_off s o.
Proof. intros H. pose proof (peek_tt_sim _ _ o H) as P. unfold peek_off. destruct (peek_tt s o), (peek_tt s' o); cbn; try contradiction; auto. destruct P as [-> _]. reflexivity. Qed.
Lemma curr_sim s s' : sim s s' -> curr s' = curr s.
Proof.
  intros H. pose proof H as (A & B & C & D). unfold curr, curr_tt. rewrite B, D. destruct (pos s =? s_beg s); cbn [negb]; auto.
  rewrite (next_sim s s') by auto. destruct (next_n s (pos s) (-1)) as [p| |]; cbn [bind]; auto. now apply deref_tok.
Qed.
Lemma put_back_sim s s' : sim s s' -> ssim (put_back s) (put_back s').
Proof.
  intros H. pose proof H as (A & B & C & D). unfold put_back. rewrite B, D. destruct (pos s =? s_beg s); cbn [negb]; auto.
  rewrite (next_sim s s') by auto. destruct (next_n s (pos s) (-1)) as [p| |]; cbn [bind ssim]; auto using sim_pos.
Qed.
Lemma bwd_sim f : forall s s' d, sim s s' -> rsim (bwd f s d) (bwd f s' d).
Proof.
  induction f as [|f IH]; intros s s' d H; cbn [bwd]; destruct (d <=? 0)%Z; try (cbn; auto; fail).
  pose proof (put_back_sim _ _ H) as P. destruct (put_back s) as [s1| |], (put_back s') as [s1'| |]; cbn [ssim bind] in *; try contradiction; auto.
  rewrite (curr_sim s1 s1') by auto. destruct (curr s1) as [t| |]; cbn [bind]; try exact I. destruct (TK_PARENL =? t)%Z; auto. destruct (TK_PARENR =? t)%Z; auto. destruct (BAD =? t)%Z; auto. cbn. auto.
Qed.
Lemma open_sim s s' : sim s s' -> rsim (move_to_open_paren s) (move_to_open_paren s').
Proof.
  intros H. unfold move_to_open_paren. rewrite (curr_sim s s') by auto. destruct (curr s) as [t| |]; cbn [bind]; try exact I. destruct (t =? TK_PARENR)%Z; cbn [negb]; [|cbn; auto].
  assert (E : fuel_of s' = fuel_of s) by (unfold fuel_of; destruct H as (A & _); now rewrite (F2l _ _ _ (HQ _ _ A))). rewrite E.
  pose proof (bwd_sim (fuel_of s) _ _ 1%Z H) as B. destruct (bwd (fuel_of s) s 1) as [[a x]| |], (bwd (fuel_of s) s' 1) as [[b y]| |]; cbn in *; try contradiction; auto.
  destruct B as [-> B]. auto.
Qed.
Lemma peek_o_sim s s' : sim s s' -> peek_o s' = peek_o s.
Proof. intros H. unfold peek_o. now rewrite (peek_sim s s'). Qed.
Lemma leaf_sim t s s' : sim s s' -> osim (leaf t s) (leaf t s').
Proof.
  intros H. pose proof H as (_ & _ & _ & D). unfold leaf, digest. rewrite D, (next_sim s s') by auto. destruct (next_n s (pos s) 1) as [p| |]; cbn; auto using sim_pos.
Qed.
Lemma mark_sim s s' : sim s s' -> mark s' = mark s.
Proof. intros (_ & _ & _ & D). exact D. Qed.
Lemma rewind_sim s s' m : sim s s' -> sim (rewind s m) (rewind s' m).
Proof. apply sim_pos. Qed.

Section Sim.
Variable lit lit' : stream -> out fresult.
Hypothesis LIT : forall s s', sim s s' -> osim (lit s) (lit' s').
Lemma break_loop_sim k : forall kids d s s', sim s s' -> osim (break_loop lit k kids d s) (break_loop lit' k kids d s').
Proof using All.
  induction k as [|k IH]; intros kids d s s' H; cbn [break_loop]; [exact I|]. destruct (d <=? 0)%Z; [now apply osim_done|].
  apply osim_val; [now apply peek_o_sim|]. intros t. destruct (decide d t); [now apply osim_done|now apply osim_done|]. destruct (t =? SG_SIGNIFICAND)%Z.
  - apply osim_bind; [now apply LIT|]. intros [x|] s1 s1' H1; [now apply IH|exact I].
  - apply osim_bind; [now apply leaf_sim|]. intros x s1 s1' H1. now apply IH.
Qed.
Lemma until_break_sim k tag s s' : sim s s' -> osim (until_break lit k tag s) (until_break lit' k tag s').
Proof using All.
  intros H. unfold until_break. apply osim_bind; [now apply break_loop_sim|]. intros [[|x kids]|] s1 s1' H1.
  - now apply osim_done.
  - apply osim_val; auto. intros t. now apply osim_done.
  - rewrite (mark_sim s s') by auto. apply osim_done. now apply rewind_sim.
Qed.
End Sim.
Lemma parens_loop_sim k : forall kids d s s', sim s s' -> osim (parens_loop k kids d s) (parens_loop k kids d s').
Proof.
  induction k as [|k IH]; intros kids d s s' H; cbn [parens_loop]; [exact I|]. destruct (d <=? 0)%Z; [now apply osim_done|].
  apply osim_val; [now apply peek_o_sim|]. intros t. apply osim_val; auto. intros d'. apply osim_bind; [now apply leaf_sim|]. intros x s1 s1' H1. now apply IH.
Qed.
Lemma consume_parens_sim k s s' : sim s s' -> osim (consume_parens k s) (consume_parens k s').
Proof.
  intros H. unfold consume_parens. apply osim_val; [now apply peek_o_sim|]. intros t. destruct (negb _); [now apply osim_done|].
  apply osim_bind; [now apply leaf_sim|]. intros x s1 s1' H1. apply osim_bind; [now apply parens_loop_sim|]. intros kids s2 s2' H2. apply osim_val; auto. intros r. now apply osim_done.
Qed.
Lemma list_name_sim s s' : sim s s' -> osim (list_name s) (list_name s').
Proof.
  intros H. unfold list_name. apply osim_val; [now rewrite (peek_off_sim s s')|]. intros t. apply osim_val; auto. intros b. destruct b; [|now apply osim_done].
  apply osim_val; [now rewrite (peek_off_sim s s')|]. intros n. destruct (existsb _ _); [|now apply osim_done]. apply osim_bind; [now apply leaf_sim|]. intros x s1 s1' H1. now apply osim_done.
Qed.
Lemma ext_loop_sim tag m es : Forall (fun e => forall s s', sim s s' -> osim (e s) (e s')) es -> forall s s', sim s s' -> osim (ext_loop tag m es s) (ext_loop tag m es s').
Proof.
  induction 1 as [|e es E _ IH]; intros s s' H; cbn [ext_loop]; [now apply osim_done|]. apply osim_bind; [now apply E|]. intros [t|] s1 s1' H1.
  - apply osim_val; auto. intros r. now apply osim_done.
  - apply IH. now apply rewind_sim.
Qed.

Section Run.
Variable body : rule -> rbody.
Variable exts : bool -> list ext.
Hypothesis EXTS : forall a, Forall (fun e => forall s s', sim s s' -> osim (e s) (e s')) (exts a).
Section Loops.
Variable R : pexp -> stream -> out presult.
Hypothesis HR : forall p s s', sim s s' -> osim (R p s) (R p s').
Lemma seq_sim ps : forall kids s s', sim s s' -> osim (seq_loop R ps kids s) (seq_loop R ps kids s').
Proof using All.
  induction ps as [|p ps IH]; intros kids s s' H; cbn [seq_loop]; [now apply osim_done|]. apply osim_bind; [now apply HR|]. intros [m t] s1 s1' H1.
  destruct m; [now apply IH|now apply osim_done].
Qed.
Lemma alts_sim ps : forall s s', sim s s' -> osim (alts_loop R ps s) (alts_loop R ps s').
Proof using All.
  induction ps as [|p ps IH]; intros s s' H; cbn [alts_loop]; [now apply osim_done|]. apply osim_bind; [now apply HR|]. intros [m t] s1 s1' H1.
  destruct m; [now apply osim_done|now apply IH].
Qed.
Lemma star_sim k p : forall kids s s', sim s s' -> osim (star_loop R k p kids s) (star_loop R k p kids s').
Proof using All.
  induction k as [|k IH]; intros kids s s' H; cbn [star_loop]; [exact I|]. apply osim_bind; [now apply HR|]. intros [m t] s1 s1' H1.
  destruct m; [now apply IH|now apply osim_done].
Qed.
Lemma designator_sim p s s' : sim s s' -> osim (designator R p s) (designator R p s').
Proof using All.
  intros H. pose proof H as (A & B & C & D). unfold designator. rewrite D.
  assert (H0 : sim (consume_until_eol s) (consume_until_eol s')) by (unfold consume_until_eol; rewrite C; now apply sim_pos).
  pose proof (open_sim _ _ H0) as OS. destruct (move_to_open_paren (consume_until_eol s)) as [[s1 ok]| |], (move_to_open_paren (consume_until_eol s')) as [[s1' ok']| |]; cbn in OS; try contradiction; try exact I.
  destruct OS as [-> OS]. cbn [lift obind].
  assert (X : forall a b, sim a b -> osim (let e := pos a in if e <? pos s then Bad else ' (_, t, _) <~ R p (stream_of (frags a) (pos s) e);; Done (t, a))
                                       (let e := pos b in if e <? pos s then Bad else ' (_, t, _) <~ R p (stream_of (frags b) (pos s) e);; Done (t, b))).
  { intros a b S. pose proof S as (A1 & _ & _ & D1). cbv zeta. rewrite D1. destruct (pos a <? pos s); [exact I|].
    assert (S2 : sim (stream_of (frags a) (pos s) (pos a)) (stream_of (frags b) (pos s) (pos a))) by (unfold sim, stream_of; cbn; auto).
    pose proof (HR p _ _ S2) as QR. destruct (R p (stream_of (frags a) (pos s) (pos a))) as [[[m t] s2]| |], (R p (stream_of (frags b) (pos s) (pos a))) as [[[m' t'] s2']| |]; cbn in QR |- *; try contradiction; auto.
    destruct QR as [QR _]. injection QR as -> ->. auto. }
  destruct ok; [|cbn [obind]; now apply X]. pose proof (put_back_sim _ _ OS) as PB. destruct (put_back s1), (put_back s1'); cbn in PB |- *; try contradiction; auto.
  now apply X.
Qed.
Lemma call_rule_sim k r s s' : sim s s' -> osim (call_rule body exts R k r s) (call_rule body exts R k r s').
Proof using All.
  intros H. unfold call_rule. destruct (body r) as [p|action tag p|tag no| | |p].
  - apply osim_bind; [now apply HR|]. intros [m t] s1 s1' H1. now apply osim_done.
  - apply osim_bind; [now apply HR|]. intros [m t] s1 s1' H1. destruct m; [now apply osim_done|]. rewrite (mark_sim s1 s1') by auto.
    apply osim_bind; [now apply ext_loop_sim|]. intros [m' t'] s2 s2' H2. now apply osim_done.
  - apply osim_val; [now apply peek_o_sim|]. intros t. destruct (existsb _ _); [now apply osim_done|]. apply until_break_sim; auto.
    intros a b S. apply osim_bind; [now apply HR|]. intros [m t'] s1 s1' H1. now apply osim_done.
  - now apply consume_parens_sim.
  - now apply list_name_sim.
  - now apply designator_sim.
Qed.
End Loops.
Lemma run_sim n : forall p s s', sim s s' -> osim (run body exts n p s) (run body exts n p s').
Proof using All.
  induction n as [|n IH]; intros p s s' H; cbn [run]; [exact I|].
  assert (NT : forall t, osim (t0 <~ peek_o s ;; b <~ lift (is_name_tag t0) ;; if negb b then Done (false, None, s) else
                 tt <~ lift (peek_tt s 1) ;; if t tt : bool then Done (false, None, s) else '(x, s') <~ leaf TK_NAME s ;; Done (true, Some x, s'))
               (t0 <~ peek_o s' ;; b <~ lift (is_name_tag t0) ;; if negb b then Done (false, None, s') else
                 tt <~ lift (peek_tt s' 1) ;; if t tt : bool then Done (false, None, s') else '(x, s') <~ leaf TK_NAME s' ;; Done (true, Some x, s')) \/ exists x y, alike x y /\ t x <> t y).
  { intros f. destruct (peek_tt s 1) as [x| |] eqn:E1, (peek_tt s' 1) as [y| |] eqn:E2; pose proof (peek_tt_sim _ _ 1%Z H) as P; rewrite E1, E2 in P; try contradiction.
    - destruct (Bool.bool_dec (f x) (f y)) as [E|N]; [left|right; eauto].
      apply osim_val; [now apply peek_o_sim|]. intros t. apply osim_val; auto. intros b. destruct b; cbn [negb]; [|now apply osim_done]. cbn [lift obind]. rewrite <- E. destruct (f x); [now apply osim_done|].
      apply osim_bind; [now apply leaf_sim|]. intros z s1 s1' H1. now apply osim_done.
    - left. apply osim_val; [now apply peek_o_sim|]. intros t. apply osim_val; auto. intros b. destruct b; cbn [negb]; [exact I|now apply osim_done].
    - left. apply osim_val; [now apply peek_o_sim|]. intros t. apply osim_val; auto. intros b. destruct b; cbn [negb]; [exact I|now apply osim_done]. }
  destruct p as [tag ps| |txt| |q|q|x|r|tag ps|q|tag q|x].
  - apply osim_bind; [now apply alts_sim|]. intros [m t] s1 s1' H1. destruct m; [|now apply osim_done]. apply osim_val; auto. intros r. now apply osim_done.
  - destruct (NT (fun tt => negb (length (tk_text tt) =? 1))) as [X|(x & y & (_ & A) & N)]; [exact X|]. exfalso. apply N. apply (f_equal (@length ascii)) in A. rewrite !map_length in A. now rewrite A.
  - destruct (NT (fun tt => negb (if list_eq_dec ascii_dec (map lower_b (tk_text tt)) (map lower_b txt) then true else false))) as [X|(x & y & (_ & A) & N)]; [exact X|].
    exfalso. apply N. now rewrite A.
  - apply osim_val; [now apply peek_o_sim|]. intros t. apply osim_val; auto. intros b. destruct b; cbn [negb]; [|now apply osim_done]. apply osim_bind; [now apply leaf_sim|]. intros z s1 s1' H1. now apply osim_done.
  - apply osim_bind; [now apply IH|]. intros [m t] s1 s1' H1. now apply osim_done.
  - apply osim_bind; [now apply IH|]. intros [m t] s1 s1' H1. now apply osim_done.
  - apply osim_val; [now apply peek_o_sim|]. intros t. now apply osim_done.
  - apply osim_bind; [now apply call_rule_sim|]. intros [t|] s1 s1' H1; [now apply osim_done|]. rewrite (mark_sim s s') by auto. apply osim_done. now apply rewind_sim.
  - apply osim_bind; [now apply seq_sim|]. intros [m kids] s1 s1' H1. destruct m; [apply osim_val; auto; intros r; now apply osim_done|]. rewrite (mark_sim s s') by auto. apply osim_done. now apply rewind_sim.
  - apply osim_bind; [now apply star_sim|]. intros kids s1 s1' H1. apply osim_val; auto. intros r. now apply osim_done.
  - apply osim_bind; [now apply IH|]. intros [m [t|]] s1 s1' H1; [|now apply osim_done]. apply osim_val; auto. intros r. now apply osim_done.
  - apply osim_val; [now apply peek_o_sim|]. intros t. destruct (negb _); [now apply osim_done|]. apply osim_bind; [now apply leaf_sim|]. intros z s1 s1' H1. now apply osim_done.
Qed.
Lemma parse_rule_sim n r s s' : sim s s' -> osim (parse_rule body exts n r s) (parse_rule body exts n r s').
Proof using All. intros H. unfold parse_rule. apply call_rule_sim; auto. intros p a b S. now apply run_sim. Qed.
End Run.
End Related.

(** ** statements *)
Lemma fair_sim (Q : list Token -> list Token -> Prop) e : (forall a b, Q a b -> Forall2 alike a b) -> fair_ext e -> forall s s', sim Q s s' -> osim Q (e s) (e s').
Proof.
  intros HQ (E1 & E2) s s' (A & B & C & D). assert (ES : s' = on_tokens (frags s') s) by (destruct s'; unfold on_tokens; cbn in *; subst; reflexivity).
  assert (X : e s' = on_tokens_out (frags s') (e s)) by (rewrite ES at 1; apply E1; now apply HQ).
  rewrite X. destruct (e s) as [[t s1]| |] eqn:E; cbn; auto. split; auto. unfold sim, on_tokens. cbn. rewrite (E2 _ _ _ E). auto.
Qed.
Lemma parse_same exts n r s fr : (forall a, Forall fair_ext (exts a)) -> Forall2 alike (frags s) fr ->
  parse_rule grammar exts n r (on_tokens fr s) = on_tokens_out fr (parse_rule grammar exts n r s).
Proof.
  intros FE F. set (Q := fun a b : list Token => a = frags s /\ b = fr). assert (HQ : forall a b, Q a b -> Forall2 alike a b) by (intros a b (-> & ->); exact F).
  assert (FE' : forall a, Forall (fun e => forall s s', sim Q s s' -> osim Q (e s) (e s')) (exts a)).
  { intros a. eapply Forall_impl; [|apply FE]. intros e. now apply fair_sim. }
  assert (S : sim Q s (on_tokens fr s)) by (unfold sim, Q, on_tokens; cbn; auto).
  pose proof (parse_rule_sim Q HQ grammar exts FE' n r _ _ S) as O.
  destruct (parse_rule grammar exts n r s) as [[x a]| |], (parse_rule grammar exts n r (on_tokens fr s)) as [[y b]| |]; cbn in O |- *; try contradiction; auto.
  destruct O as [-> ((_ & E) & B & C & D)]. f_equal. f_equal. destruct b; unfold on_tokens. cbn in *. subst. reflexivity.
Qed.

(** ** programs *)
Lemma lower_digit c : is_digit_b (lower_b c) = is_digit_b c /\ (is_digit_b c = true -> lower_b c = c) /\ is_space_b (lower_b c) = is_space_b c /\
  ceq (lower_b c) "+"%char = ceq c "+"%char /\ ceq (lower_b c) "-"%char = ceq c "-"%char.
Proof. destruct c as [[] [] [] [] [] [] [] []]; vm_compute; repeat split; auto; discriminate. Qed.
Lemma digits_lower s : forall a, digits_val (map lower_b s) a = digits_val s a.
Proof.
  induction s as [|c s IH]; intros a; cbn [map digits_val]; auto. destruct (lower_digit c) as (A & B & _). rewrite A. destruct (is_digit_b c) eqn:E; auto. rewrite B by auto. apply IH.
Qed.
Lemma stoi_unsigned_lower s : stoi_unsigned (map lower_b s) = stoi_unsigned s.
Proof.
  destruct s as [|c s]; auto. unfold stoi_unsigned. rewrite digits_lower. cbn [map]. destruct (lower_digit c) as (A & _). now rewrite A.
Qed.
Lemma skip_lower s : skip_while is_space_b (map lower_b s) = map lower_b (skip_while is_space_b s).
Proof. induction s as [|c s IH]; cbn [map skip_while]; auto. destruct (lower_digit c) as (_ & _ & A & _). rewrite A. destruct (is_space_b c); auto. Qed.
Lemma stoi_lower s : stoi (map lower_b s) = stoi s.
Proof.
  unfold stoi. rewrite skip_lower. destruct (skip_while is_space_b s) as [|c r]; auto. cbn [map]. destruct (lower_digit c) as (_ & _ & _ & A & B). rewrite A, B.
  change (lower_b c :: map lower_b r) with (map lower_b (c :: r)). now rewrite !stoi_unsigned_lower.
Qed.
Lemma do_label_same fr fr' t : Forall2 alike fr fr' -> do_label fr' t = do_label fr t.
Proof.
  intros F. unfold do_label. destruct (if (t_tag t =? SG_DO_STMT)%Z then _ else _) as [c| |]; cbn [bind]; auto. destruct (negb _); auto.
  destruct (first_kid c) as [c0| |]; cbn [bind]; auto. destruct (if (t_tag c0 =? TK_NAME)%Z then _ else _) as [|k0 [|lab l]]; auto.
  destruct (first_kid lab) as [k| |]; cbn [bind]; auto. destruct (assert_ _); cbn [bind]; auto. destruct (t_rng k) as [[b e]|]; auto. destruct (assert_ (e =? S b)); cbn [bind]; auto.
  pose proof (F2n _ _ _ F b) as N. destruct (nth_error fr b), (nth_error fr' b); try contradiction; auto. destruct N as (_ & N). now rewrite <- stoi_lower, N, stoi_lower.
Qed.

(** the program parser depends only on what it is told about the statements *)
Definition told (x y : stmts) : Prop :=
  x_num y = x_num x /\ (forall i, x_label y i = x_label x i) /\ (forall i r, x_parse y i r = x_parse x i r) /\ (forall i t, do_label (x_toks y i) t = do_label (x_toks x i) t).
Lemma ob_eq {A B} (a b : out A) (f g : A -> out B) : b = a -> (forall x, g x = f x) -> obind b g = obind a f.
Proof. intros -> H. destruct a; cbn; auto. Qed.
Section Told.
Variable body : grule -> gbody.
Variables x y : stmts.
Hypothesis T : told x y.
Lemma cur_told s : cur y s = cur x s. Proof using T. destruct T as (N & _). unfold cur. now rewrite N. Qed.
Lemma end_told s : at_end y s = at_end x s. Proof using T. destruct T as (N & _). unfold at_end. now rewrite N. Qed.
Lemma adv_told s : advance y s = advance x s. Proof using T. destruct T as (N & _). unfold advance. now rewrite N. Qed.
Lemma complain_told s : complain y s = complain x s. Proof using T. unfold complain. now rewrite cur_told. Qed.
Section Loops.
Variables R R' : gexp -> pstate -> out gresult.
Hypothesis HR : forall p s, R' p s = R p s.
Lemma g_seq_told ps : forall kids s, g_seq R' ps kids s = g_seq R ps kids s.
Proof using HR. induction ps as [|p ps IH]; intros kids s; cbn [g_seq]; auto. apply ob_eq; auto. intros [[m t] s']. destruct m; auto. Qed.
Lemma g_alts_told ps : forall s, g_alts R' ps s = g_alts R ps s.
Proof using HR. induction ps as [|p ps IH]; intros s; cbn [g_alts]; auto. apply ob_eq; auto. intros [[m t] s']. destruct m; auto. Qed.
Lemma g_star_told k p : forall kids s, g_star y R' k p kids s = g_star x R k p kids s.
Proof using HR T. induction k as [|k IH]; intros kids s; cbn [g_star]; auto. rewrite end_told. destruct (at_end x s); auto. apply ob_eq; auto. intros [[m t] s']. destruct m; auto. Qed.
Lemma g_do_body_told k : forall kids s, g_do_body R' k kids s = g_do_body R k kids s.
Proof using HR. induction k as [|k IH]; intros kids s; cbn [g_do_body]; auto. apply ob_eq; auto. intros [[m [t|]] s']; auto. Qed.
Lemma g_do_end_told s : g_do_end y s = g_do_end x s.
Proof using T.
  pose proof T as (_ & LB & PA & _). unfold g_do_end. rewrite cur_told. apply ob_eq; auto. intros i. rewrite LB, !PA. destruct (negb _).
  - apply ob_eq; auto. intros [t|]; auto. now rewrite adv_told.
  - destruct (ls_level (p_stack s) (x_label x i)) as [st level]. apply ob_eq; auto. intros _. apply ob_eq; auto. destruct (0 <? level)%Z.
    + apply ob_eq; auto. intros [t|]; auto. now rewrite adv_told.
    + apply ob_eq; auto. intros [t|]; [now rewrite adv_told|]. apply ob_eq; auto. intros [t|]; auto. now rewrite adv_told.
Qed.
Lemma g_do_told k s : g_do y R' k s = g_do x R k s.
Proof using HR T.
  pose proof T as (_ & LB & PA & DL). unfold g_do. rewrite cur_told. apply ob_eq; auto. intros i. rewrite PA. apply ob_eq; auto. intros [t|]; auto. rewrite DL. apply ob_eq; auto. intros l.
  rewrite adv_told. apply ob_eq; [apply g_do_body_told|]. intros [kids s1]. apply ob_eq; [apply g_do_end_told|]. auto.
Qed.
Lemma g_call_told k r s : g_call body y R' k r s = g_call body x R k r s.
Proof using HR T.
  pose proof T as (_ & LB & _ & _). unfold g_call. destruct (body r); auto; [|apply g_do_told]. rewrite cur_told. apply ob_eq; auto. intros i. rewrite LB. destruct (ls_is_top _ _); auto.
Qed.
End Loops.
Lemma grun_told n : forall p s, grun body y n p s = grun body x n p s.
Proof using T.
  pose proof T as (_ & LB & PA & _). induction n as [|n IH]; intros p s; cbn [grun]; auto.
  destruct p as [tag ps| |q|tag ps|tag q|tag ps|tag p0 ps|q|r|tag q|r].
  - rewrite (g_alts_told (grun body x n)) by auto. reflexivity.
  - rewrite end_told. reflexivity.
  - rewrite IH. reflexivity.
  - rewrite (g_seq_told (grun body x n)) by auto. reflexivity.
  - rewrite end_told, IH. destruct (at_end x s); auto. apply ob_eq; auto. intros [[m t] s']. destruct m; auto. rewrite (g_star_told (grun body x n)) by auto. reflexivity.
  - rewrite (g_seq_told (grun body x n)) by auto. apply ob_eq; auto. intros [[m k] s']. destruct m; auto using complain_told.
  - rewrite IH. apply ob_eq; auto. intros [[m t] s']. destruct m; auto. rewrite (g_seq_told (grun body x n)) by auto. apply ob_eq; auto. intros [[m' k] s'']. destruct m'; auto using complain_told.
  - rewrite (g_star_told (grun body x n)) by auto. reflexivity.
  - rewrite cur_told. apply ob_eq; auto. intros i. rewrite PA. apply ob_eq; auto. intros [t|]; auto. now rewrite adv_told.
  - rewrite IH. reflexivity.
  - apply g_call_told. auto.
Qed.
End Told.
Lemma source_told exts m l l' : (forall a, Forall fair_ext (exts a)) -> Forall2 alike_stmt l l' -> told (of_source exts m l) (of_source exts m l').
Proof.
  intros FE F. pose proof (F2n _ _ _ F) as N. unfold told, of_source. cbn [x_num x_label x_parse x_toks]. split; [exact (F2l _ _ _ F)|]. split; [|split].
  - intros i. specialize (N i). destruct (nth_error l i), (nth_error l' i); try contradiction; auto. apply N.
  - intros i r. specialize (N i). destruct (nth_error l i) as [q|], (nth_error l' i) as [q'|]; try contradiction; auto. destruct N as (_ & B & E & F2). rewrite B, E.
    change (stream_of (ss_frags q') (ss_beg q) (ss_end q)) with (on_tokens (ss_frags q') (stream_of (ss_frags q) (ss_beg q) (ss_end q))). rewrite parse_same by auto.
    destruct (parse_rule grammar exts m r (stream_of (ss_frags q) (ss_beg q) (ss_end q))) as [[t s]| |]; reflexivity.
  - intros i t. specialize (N i). destruct (nth_error l i) as [q|], (nth_error l' i) as [q'|]; try contradiction; auto. apply do_label_same. apply N.
Qed.
Lemma prgm_same exts m n r l l' : (forall a, Forall fair_ext (exts a)) -> Forall2 alike_stmt l l' -> parse_prgm (of_source exts m l') n r = parse_prgm (of_source exts m l) n r.
Proof. intros FE F. apply grun_told. now apply source_told. Qed.
Lemma F2_alike_refl l : Forall2 alike l l. Proof. induction l; constructor; auto. split; reflexivity. Qed.
Lemma rule_fair exts n r : (forall a, Forall fair_ext (exts a)) -> fair_ext (parse_rule grammar exts n r).
Proof.
  intros FE. split; [intros s fr F; now apply parse_same|]. intros s t s' H.
  pose proof (parse_same exts n r s (frags s) FE (F2_alike_refl _)) as P. replace (on_tokens (frags s) s) with s in P by (destruct s; reflexivity).
  rewrite H in P. cbn in P. injection P as P. rewrite P. reflexivity.
Qed.
