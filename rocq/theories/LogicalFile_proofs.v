(** Proofs about the scanners. *)
From Verif Require Import Base Base_lemmas FileLine FileLine_spec FileLine_proofs FixedLine_spec FixedLine_proofs
  FileEdit_spec FileEdit_proofs FileEdit2_proofs LogicalFile LogicalFile_spec.

Lemma trivial_b f : is_trivial f = true <-> trivial f.
Proof. unfold is_trivial, trivial. apply orb_true_iff. Qed.
Lemma trivial_nb f : is_trivial f = false <-> ~ trivial f.
Proof. rewrite <- trivial_b. destruct (is_trivial f); intuition congruence. Qed.

Lemma span_spec p fls a b :
  span p fls = (a, b) ->
  fls = a ++ b /\ Forall (fun f => p f = true) a /\ ~ starts_line (fun f => p f = true) b.
Proof.
  revert a b; induction fls as [|f r IH]; intros a b; cbn [span].
  - intros [= <- <-]. conjs; auto. intros (x & y & E & _). discriminate.
  - destruct (p f) eqn:P.
    + destruct (span p r) as [a' b'] eqn:S. intros [= <- <-].
      destruct (IH _ _ eq_refl) as (-> & F & N). conjs; auto.
    + intros [= <- <-]. conjs; auto. intros (x & y & E & X). injection E as <- <-. congruence.
Qed.

Lemma last_non_blank_bslash s :
  ceq (last_non_blank_char s) c_bslash = true <-> ends_backslash s.
Proof.
  unfold last_non_blank_char, ends_backslash.
  destruct (find_last_not_of set_st s) as [i|] eqn:F.
  - apply find_last_not_of_Some in F as (pre & c & post & -> & -> & M & A).
    rewrite app_nth2, Nat.sub_diag by lia. cbn [nth]. rewrite ceq_true. split.
    + intros ->. exists pre, post. split; auto. now apply Forall_forall, forallb_forall.
    + intros (a & b & E & FB).
      (* last char not in the set is unique *)
      revert a b E FB. clear -M A. induction pre as [|x pre IH]; intros a b E FB.
      * destruct a as [|y a].
        -- now injection E.
        -- injection E as -> E. exfalso. rewrite forallb_forall in A.
           assert (In c_bslash post) as I by (rewrite E; apply in_or_app; right; now left).
           apply A in I. discriminate.
      * destruct a as [|y a].
        -- injection E as -> E. exfalso. rewrite Forall_forall in FB.
           assert (In c b) as I by (rewrite <- E; apply in_or_app; right; now left).
           apply FB in I. congruence.
        -- injection E as -> E. eapply IH; eauto.
  - split; [discriminate|]. intros (a & b & -> & _). apply find_last_not_of_None in F.
    rewrite forallb_forall in F. assert (In c_bslash (a ++ c_bslash :: b)) as I by (apply in_or_app; right; now left).
    apply F in I. discriminate.
Qed.

Lemma make_preprocessor_as_pp f : as_pp f (make_preprocessor f).
Proof.
  unfold as_pp, make_preprocessor, line_text, is_preprocessor, is_fortran, is_trivial, is_fixed_format.
  cbn. rewrite ?andb_false_r. auto 12.
Qed.

Lemma absorb_spec fls : forall prev a b, absorb prev fls = (a, b) ->
  exists c, fls = c ++ b /\ pp_cont prev c a b.
Proof.
  induction fls as [|f r IH]; intros prev a b; cbn [absorb].
  - intros [= <- <-]. exists []. split; auto. apply PC_eof.
  - destruct (ceq (last_non_blank_char prev) c_bslash) eqn:E.
    + destruct (absorb _ r) as [a' b'] eqn:A. intros [= <- <-].
      destruct (IH _ _ _ A) as (c & -> & PC). exists (f :: c). split; auto.
      apply PC_more; auto. now apply last_non_blank_bslash. apply make_preprocessor_as_pp.
    + intros [= <- <-]. exists []. split; auto. apply PC_stop.
      rewrite <- last_non_blank_bslash. congruence.
Qed.

Lemma free_end_spec fls : forall k,
  match free_end fls k with
  | Some n => exists pre g rest, fls = pre ++ g :: rest /\ n = k + length pre /\
      Forall (fun x => trivial x \/ is_continued x = true) pre /\ ~ trivial g /\ is_continued g = false
  | None => Forall (fun x => trivial x \/ is_continued x = true) fls
  end.
Proof.
  induction fls as [|f r IH]; intros k; cbn [free_end]; [constructor|].
  destruct (negb (is_trivial f) && negb (is_continued f)) eqn:E.
  - apply andb_prop in E as [E1 E2]. apply negb_true_iff in E1, E2. apply trivial_nb in E1.
    exists [], f, r. conjs; auto.
  - assert (trivial f \/ is_continued f = true) as T.
    { apply andb_false_iff in E as [E|E]; apply negb_false_iff in E; auto.
      left. now apply trivial_b. }
    specialize (IH (S k)). destruct (free_end r (S k)) as [n|].
    + destruct IH as (pre & g & rest & -> & -> & H). exists (f :: pre), g, rest.
      destruct H as (H1 & H2 & H3). conjs; auto. simpl; lia.
    + constructor; auto.
Qed.

Lemma fixed_end_spec fls : forall k last, last < k ->
  exists mid t rest,
   fls = mid ++ t ++ rest /\
   Forall (fun x => is_continuation x = true \/ trivial x) mid /\
   (mid = [] \/ exists m g, mid = m ++ [g] /\ is_continuation g = true) /\
   Forall (fun x => trivial x /\ is_continuation x = false) t /\
   ~ starts_line (fun x => is_continuation x = true \/ trivial x) rest /\
   fixed_end fls k last = match mid with [] => last | _ => k + length mid - 1 end.
Proof.
  induction fls as [|f r IH]; intros k last LK; cbn [fixed_end].
  - exists [], [], []. conjs; auto. intros (x & y & E & _). discriminate.
  - destruct (is_continuation f) eqn:C.
    + destruct (IH (S k) k ltac:(lia)) as (mid & t & rest & -> & F & M & T & N & E).
      exists (f :: mid), t, rest. conjs; auto.
      * right. destruct M as [->|(m & g & -> & G)].
        -- exists [], f. auto.
        -- exists (f :: m), g. auto.
      * rewrite E. destruct mid; simpl; lia.
    + destruct (is_trivial f) eqn:TR.
      * apply trivial_b in TR.
        destruct (IH (S k) last ltac:(lia)) as (mid & t & rest & -> & F & M & T & N & E).
        destruct mid as [|g0 mid].
        -- exists [], (f :: t), rest. conjs; auto.
        -- exists (f :: g0 :: mid), t, rest. conjs; auto.
           ++ right. destruct M as [M|(m & g & M & G)]; [discriminate|].
              rewrite M. exists (f :: m), g. auto.
           ++ rewrite E. simpl; lia.
      * exists [], [], (f :: r). conjs; auto.
        intros (x & y & X & Y). injection X as <- <-. apply trivial_nb in TR. intuition congruence.
Qed.

Lemma make_ll_Ok layout cat nr ll : make_ll layout cat nr = Ok ll ->
  ll_layout ll = layout /\ ll_cat ll = cat /\ ll_needs_reformat ll = nr /\ init_label layout = Ok (ll_label ll).
Proof. unfold make_ll. intros H. apply bind_Ok in H as (z & Z & H). injection H as <-. auto. Qed.

Lemma Ok_pair {A B} (a c : A) (b d : B) : Ok (a, b) = Ok (c, d) -> a = c /\ b = d.
Proof. intros H. inversion H; auto. Qed.

Lemma nonempty_b {A} (l : list A) : negb (is_empty l) = true -> l <> [].
Proof. destruct l; discriminate. Qed.

Lemma step_free_spec fls ll rest : step_free fls = Ok (ll, rest) ->
  exists b new, fls = b ++ rest /\ free_block (ll_cat ll) b new rest /\ ll_layout ll = new /\
    ll_needs_reformat ll = false /\ init_label new = Ok (ll_label ll).
Proof.
  unfold step_free. destruct (span is_trivial fls) as [triv r1] eqn:S1.
  apply span_spec in S1 as (E1 & F1 & N1).
  assert (F1' : Forall trivial triv) by (eapply Forall_impl; [|apply F1]; intros; now apply trivial_b).
  destruct (negb (is_empty triv)) eqn:T1.
  { intros H. apply bind_Ok in H as (l & H1 & H). injection H as <- <-.
    apply make_ll_Ok in H1 as (L1 & L2 & L3 & L4). exists triv, triv. conjs; auto.
    rewrite L2. apply FB_trivial; auto.
    - now apply nonempty_b.
    - intros (x & y & E & X). apply N1. exists x, y. split; auto. now apply trivial_b. }
  apply negb_false_iff, is_empty_true in T1. subst triv. simpl in E1. subst r1.
  assert (NT : ~ starts_line trivial fls).
  { intros (x & y & E & X). apply N1. exists x, y. split; auto. now apply trivial_b. }
  destruct (span is_flpr_lit fls) as [lit r2] eqn:S2.
  apply span_spec in S2 as (E2 & F2 & N2).
  destruct (negb (is_empty lit)) eqn:T2.
  { intros H. apply bind_Ok in H as (l & H1 & H). injection H as <- <-.
    apply make_ll_Ok in H1 as (L1 & L2 & L3 & L4). exists lit, lit. conjs; auto.
    rewrite L2. apply nonempty_b in T2. apply FB_literal; auto.
    intros (x & y & E & X). apply NT. exists x, (y ++ r2). rewrite E2, E. auto. }
  apply negb_false_iff, is_empty_true in T2. subst lit. simpl in E2. subst r2.
  destruct fls as [|f r]; [discriminate|].
  assert (NTf : ~ trivial f) by (intros X; apply NT; exists f, r; auto).
  assert (NL : is_flpr_lit f = false).
  { destruct (is_flpr_lit f) eqn:X; auto. exfalso. apply N2. exists f, r. auto. }
  destruct (negb (is_fortran f)) eqn:FO.
  { apply negb_true_iff in FO. intros H. apply bind_Ok in H as (u & _ & H).
    destruct (absorb (left_txt f) r) as [a b] eqn:AB. apply absorb_spec in AB as (c & -> & PC).
    apply bind_Ok in H as (l & H1 & H). injection H as <- <-.
    apply make_ll_Ok in H1 as (L1 & L2 & L3 & L4). exists (f :: c), (f :: a). conjs; auto.
    rewrite L2. apply FB_other; auto. }
  apply negb_false_iff in FO. cbv zeta. intros H. apply bind_Ok in H as (l & H1 & H).
  apply Ok_pair in H as [-> <-].
  apply make_ll_Ok in H1 as (L1 & L2 & L3 & L4).
  pose proof (free_end_spec (f :: r) 0) as FE. destruct (free_end (f :: r) 0) as [n|].
  - destruct FE as (pre & g & rst & E & EN & FP & NG & CG). simpl in EN. subst n.
    pose proof E as E0. rewrite E in L1, L4 |- *.
    replace (S (length pre)) with (length (pre ++ [g])) in L1, L4 |- * by (rewrite app_length; simpl; lia).
    replace (pre ++ g :: rst) with ((pre ++ [g]) ++ rst) in L1, L4 |- * by (rewrite <- app_assoc; auto).
    rewrite firstn_app_len in L1, L4. rewrite skipn_app_len.
    exists (pre ++ [g]), (pre ++ [g]). conjs; auto.
    rewrite L2. apply FB_stmt; auto.
    destruct pre as [|p0 pre]; injection E as <- E.
    * exists f, []. auto.
    * exists f, (pre ++ [g]). auto.
  - exists [f], [f]. cbn [firstn] in *. cbn [skipn]. conjs; auto.
    rewrite L2. apply FB_open; auto.
Qed.

Lemma step_fixed_spec fls ll rest : step_fixed fls = Ok (ll, rest) ->
  exists b new, fls = b ++ rest /\ fixed_block (ll_cat ll) b new rest /\ ll_layout ll = new /\
    (ll_needs_reformat ll = true <-> starts_line (fun f => is_fortran f = true) new) /\
    init_label new = Ok (ll_label ll).
Proof.
  unfold step_fixed. destruct (span is_trivial fls) as [triv r1] eqn:S1.
  apply span_spec in S1 as (E1 & F1 & N1).
  assert (F1' : Forall trivial triv) by (eapply Forall_impl; [|apply F1]; intros; now apply trivial_b).
  destruct (negb (is_empty triv)) eqn:T1.
  { intros H. apply bind_Ok in H as (l & H1 & H). injection H as <- <-.
    apply make_ll_Ok in H1 as (L1 & L2 & L3 & L4). exists triv, triv. conjs; auto.
    - rewrite L2. apply XB_trivial; auto.
      + now apply nonempty_b.
      + intros (x & y & E & X). apply N1. exists x, y. split; auto. now apply trivial_b.
    - rewrite L3. split; [discriminate|]. intros (x & y & -> & X). inversion F1 as [|? ? TX]; subst.
      unfold is_fortran in X. rewrite TX in X. discriminate. }
  apply negb_false_iff, is_empty_true in T1. subst triv. simpl in E1. subst r1.
  assert (NT : ~ starts_line trivial fls).
  { intros (x & y & E & X). apply N1. exists x, y. split; auto. now apply trivial_b. }
  destruct fls as [|f r]; [discriminate|].
  assert (NTf : ~ trivial f) by (intros X; apply NT; exists f, r; auto).
  destruct (negb (is_fortran f)) eqn:FO.
  { apply negb_true_iff in FO. intros H. apply bind_Ok in H as (u & _ & H).
    destruct (absorb (left_txt f) r) as [a b] eqn:AB. apply absorb_spec in AB as (c & -> & PC).
    apply bind_Ok in H as (l & H1 & H). injection H as <- <-.
    apply make_ll_Ok in H1 as (L1 & L2 & L3 & L4). exists (f :: c), (f :: a). conjs; auto.
    - rewrite L2. apply XB_other; auto.
    - rewrite L3. split; [discriminate|]. intros (x & y & E & X). injection E as <- <-. congruence. }
  apply negb_false_iff in FO. cbv zeta. intros H. apply bind_Ok in H as (l & H1 & H).
  apply Ok_pair in H as [-> <-].
  apply make_ll_Ok in H1 as (L1 & L2 & L3 & L4).
  destruct (fixed_end_spec r 1 0 ltac:(lia)) as (mid & t & rst & E & FM & M & T & N & EN).
  assert (S (fixed_end r 1 0) = length (f :: mid)) as EL.
  { rewrite EN. destruct mid; simpl; lia. }
  rewrite EL in *. rewrite E in *.
  change (f :: mid ++ t ++ rst) with ((f :: mid) ++ t ++ rst) in *.
  rewrite firstn_app_len in *. rewrite skipn_app_len.
  exists (f :: mid), (f :: mid). conjs; auto.
  - rewrite L2. apply XB_stmt; auto.
  - rewrite L3. split; auto. intros _. exists f, mid. auto.
Qed.

(** ** The loops *)
Lemma group_spec step (block : LineCat -> list File_Line -> list File_Line -> list File_Line -> Prop) :
  (forall fls ll rest, step fls = Ok (ll, rest) ->
    exists b new, fls = b ++ rest /\ block (ll_cat ll) b new rest /\ ll_layout ll = new) ->
  forall fuel fls lls, group step fuel fls = Some (Ok lls) -> blocks block fls lls.
Proof.
  intros ST. induction fuel as [|n IH]; intros fls lls; destruct fls as [|f r]; cbn [group];
    try discriminate; try (intros [= <-]; constructor).
  destruct (step (f :: r)) as [[ll rest]| |] eqn:S; try discriminate.
  destruct (group step n rest) as [[lls'| |]|] eqn:G; try discriminate.
  intros [= <-]. destruct (ST _ _ _ S) as (b & new & E & B & L1). rewrite E.
  eapply B_cons; eauto.
Qed.

Lemma group_fuel step :
  (forall fls ll rest, fls <> [] -> step fls = Ok (ll, rest) -> length rest < length fls) ->
  forall fuel fls, length fls <= fuel -> group step fuel fls <> None.
Proof.
  intros ST. induction fuel as [|n IH]; intros fls LE; destruct fls as [|f r]; cbn [group];
    try discriminate; [simpl in LE; lia|].
  destruct (step (f :: r)) as [[ll rest]| |] eqn:S; try discriminate.
  apply ST in S; [|discriminate]. specialize (IH rest). simpl in *.
  destruct (group step n rest) as [[lls'| |]|]; try discriminate. intros _. apply IH; auto. lia.
Qed.

Lemma free_block_ne cat b new rest : free_block cat b new rest -> b <> [] /\ new <> [].
Proof.
  intros H. inversion H; subst; auto; try (split; discriminate).
  split; intros X; apply app_eq_nil in X as [_ X]; discriminate.
Qed.
Lemma fixed_block_ne cat b new rest : fixed_block cat b new rest -> b <> [] /\ new <> [].
Proof. intros H. inversion H; subst; auto; split; discriminate. Qed.

Lemma nonempty_length {A} (l : list A) : l <> [] -> 0 < length l.
Proof. destruct l; simpl; [congruence|lia]. Qed.

Lemma step_free_less fls ll rest : step_free fls = Ok (ll, rest) -> length rest < length fls.
Proof.
  intros H. apply step_free_spec in H as (b & new & -> & B & _). apply free_block_ne in B as [B _].
  apply nonempty_length in B. rewrite app_length. lia.
Qed.
Lemma step_fixed_less fls ll rest : step_fixed fls = Ok (ll, rest) -> length rest < length fls.
Proof.
  intros H. apply step_fixed_spec in H as (b & new & -> & B & _). apply fixed_block_ne in B as [B _].
  apply nonempty_length in B. rewrite app_length. lia.
Qed.

(** ** Consequences of the block structure *)
Lemma pp_cont_nums prev c a b : pp_cont prev c a b -> map linenum a = map linenum c.
Proof. induction 1 as [| |? ? ? ? ? ? ? (E & _)]; cbn [map]; congruence. Qed.

Lemma free_block_nums cat b new rest : free_block cat b new rest -> map linenum new = map linenum b.
Proof. intros H. inversion H; subst; auto. cbn [map]. f_equal. eapply pp_cont_nums; eauto. Qed.
Lemma fixed_block_nums cat b new rest : fixed_block cat b new rest -> map linenum new = map linenum b.
Proof. intros H. inversion H; subst; auto. cbn [map]. f_equal. eapply pp_cont_nums; eauto. Qed.

Lemma blocks_nums (block : LineCat -> list File_Line -> list File_Line -> list File_Line -> Prop) fls lls :
  (forall cat b new rest, block cat b new rest -> map linenum new = map linenum b) ->
  blocks block fls lls ->
  map linenum (concat (map ll_layout lls)) = map linenum fls.
Proof.
  intros HB. induction 1 as [|cat b new rest ll lls B EL EC BS IH]; auto.
  cbn [map concat]. rewrite !map_app, IH, EL. f_equal. eapply HB; eauto.
Qed.
Lemma blocks_ne (block : LineCat -> list File_Line -> list File_Line -> list File_Line -> Prop) fls lls :
  (forall cat b new rest, block cat b new rest -> b <> [] /\ new <> []) ->
  blocks block fls lls -> Forall (fun ll => ll_layout ll <> []) lls.
Proof.
  intros HB. induction 1 as [|cat b new rest ll lls B EL EC BS IH]; constructor; auto.
  rewrite EL. eapply HB; eauto.
Qed.

(** printing: in free format an absorbed line prints as before *)
Lemma print_text f : is_fixed_format f = false -> print_line f = line_text f.
Proof. intros H. unfold print_line, line_text. now rewrite H, andb_false_r. Qed.
Lemma as_pp_print f f' : is_fixed_format f = false -> as_pp f f' -> print_line f' = print_line f.
Proof.
  intros H (_ & E1 & E2 & E3 & E4 & E5 & _ & _ & E6). rewrite !print_text by congruence.
  unfold line_text at 1. rewrite E2, E3, E4, E5, E1. now rewrite !app_nil_r.
Qed.
Lemma pp_cont_print prev c a b : pp_cont prev c a b ->
  Forall (fun f => is_fixed_format f = false) c -> map print_line a = map print_line c.
Proof.
  induction 1 as [| |? ? ? ? ? ? ? AP ? IH]; intros F; auto. inversion F; subst.
  cbn [map]. f_equal; auto. now apply as_pp_print.
Qed.
Lemma free_block_print cat b new rest : free_block cat b new rest ->
  Forall (fun f => is_fixed_format f = false) b -> map print_line new = map print_line b.
Proof.
  intros H F. inversion H; subst; auto. cbn [map]. f_equal. inversion F; subst.
  eapply pp_cont_print; eauto.
Qed.
Lemma blocks_print fls lls : blocks free_block fls lls ->
  Forall (fun f => is_fixed_format f = false) fls ->
  concat (map print_ll lls) = map print_line fls.
Proof.
  induction 1 as [|cat b new rest ll lls B EL EC BS IH]; auto. intros F.
  apply Forall_app in F as [F1 F2]. cbn [map concat]. rewrite map_app, IH by auto. f_equal.
  unfold print_ll. rewrite EL. eapply free_block_print; eauto.
Qed.

(** ** the analysis loops *)

Lemma analyze_all_free_spec raws : forall i pod plc lit fls,
  analyze_all_free i raws pod plc lit = Ok fls ->
  map linenum fls = numbered i (length raws) /\
  map print_line fls = raws /\
  Forall (fun f => is_fixed_format f = false) fls.
Proof.
  induction raws as [|r rs IH]; intros i pod plc lit fls; cbn [analyze_all_free].
  - intros [= <-]. auto.
  - intros H. apply bind_Ok in H as ([f l'] & H1 & H). apply bind_Ok in H as (fs & H2 & H).
    injection H as <-. apply IH in H2 as (A & B & C).
    pose proof (analyze_free_lossless_lem _ _ _ _ _ _ _ H1) as (N & X & _).
    apply print_free in H1. cbn [map length numbered]. conjs; auto; congruence.
Qed.

Lemma analyze_fixed_num ln raw pod lc f : analyze_fixed ln raw pod lc = Ok f ->
  linenum f = ln /\ is_fixed_format f = true.
Proof.
  intros H. unfold analyze_fixed in H.
  destruct (is_empty raw); [injection H as <-; auto|].
  destruct (find_first_not_of set_str (expand_tabs raw)) as [ri|]; [|injection H as <-; auto].
  apply bind_Ok in H as (c0 & _ & H). apply bind_Ok in H as (c & _ & H).
  assert (FF : fixed_fortran ln (expand_tabs raw) pod lc ri c = Ok f -> linenum f = ln /\ is_fixed_format f = true).
  { clear H. intros H. unfold fixed_fortran in H. apply bind_Ok in H as ([[ri1 lft] b1] & H1 & H).
    assert (FX : b_fixed b1 = true).
    { destruct (ri =? 5).
      - apply bind_Ok in H1 as (? & _ & H1). apply bind_Ok in H1 as (x6 & _ & H1).
        injection H1 as _ _ <-. now destruct (ceq x6 "0"%char).
      - destruct (ri <? 6).
        + apply bind_Ok in H1 as (d & _ & H1). destruct d.
          * apply bind_Ok in H1 as (? & _ & H1). apply bind_Ok in H1 as (? & _ & H1).
            now injection H1 as _ _ <-.
          * now injection H1 as _ _ <-.
        + now injection H1 as _ _ <-. }
    assert (FB : forall ri', fixed_body ln (expand_tabs raw) pod lc b1 lft ri' = Ok f -> linenum f = ln /\ is_fixed_format f = true).
    { clear H. intros ri' H. unfold fixed_body in H. apply bind_Ok in H as (? & _ & H).
      apply bind_Ok in H as ([tb od] & _ & H). apply bind_Ok in H as ([main rgt] & _ & H).
      destruct (is_empty main); [discriminate|]. destruct (split_trailing od main) as [m' rs].
      unfold fl_make in H. apply bind_Ok in H as (? & _ & H). injection H as <-. auto. }
    clear H1. destruct (_ && _); eauto.
    apply bind_Ok in H as (sk & _ & H). destruct (_ =? _); eauto.
    injection H as <-. auto. }
  destruct (ri =? 5); auto.
  destruct (_ && _); [injection H as <-; auto|].
  apply bind_Ok in H as (inc & _ & H). destruct inc; [injection H as <-; auto|].
  destruct (_ || _); auto.
  apply bind_Ok in H as (lit & _ & H). destruct lit; [discriminate|].
  apply bind_Ok in H as (dir & _ & H). destruct dir; injection H as <-; auto.
Qed.

Lemma analyze_all_fixed_spec raws : forall i pod lc fls,
  analyze_all_fixed i raws pod lc = Ok fls ->
  map linenum fls = numbered i (length raws) /\
  Forall (fun f => is_fixed_format f = true) fls.
Proof.
  induction raws as [|r rs IH]; intros i pod lc fls; cbn [analyze_all_fixed].
  - intros [= <-]. auto.
  - intros H. apply bind_Ok in H as (f & H1 & H). apply bind_Ok in H as (fs & H2 & H).
    injection H as <-. apply IH in H2 as (A & B).
    apply analyze_fixed_num in H1 as [N X]. cbn [map length numbered]. conjs; auto; congruence.
Qed.

(** ** Labels *)

Lemma skip_white b s : all_white b -> ~ starts_with is_space_b s ->
  skip_while is_space_b (b ++ s) = s.
Proof.
  intros W N. induction W as [|c b Hc W IH]; cbn [app skip_while].
  - destruct s as [|c r]; auto. cbn [skip_while]. destruct (is_space_b c) eqn:E; auto.
    exfalso. apply N. exists c, r. auto.
  - now rewrite Hc.
Qed.

Lemma dec_value_bound d : all_digits d -> forall acc, (0 <= acc)%Z ->
  (0 <= dec_value acc d < (acc + 1) * 10 ^ Z.of_nat (length d))%Z.
Proof.
  induction 1 as [|c d Hc H IH]; intros acc A.
  - cbn [dec_value length]. change (10 ^ Z.of_nat 0)%Z with 1%Z. lia.
  - cbn [dec_value].
    unfold is_digit_b in Hc. apply andb_prop in Hc as [H1 H2]. apply Nat.leb_le in H1, H2.
    specialize (IH (10 * acc + (Z.of_nat (code c) - 48))%Z ltac:(lia)).
    cbn [length]. rewrite Nat2Z.inj_succ, Z.pow_succ_r by lia.
    assert (0 < 10 ^ Z.of_nat (length d))%Z by (apply Z.pow_pos_nonneg; lia).
    split; [lia|]. eapply Z.lt_le_trans; [apply IH|].
    replace ((acc + 1) * (10 * 10 ^ Z.of_nat (length d)))%Z with ((10 * (acc + 1)) * 10 ^ Z.of_nat (length d))%Z by ring.
    apply Z.mul_le_mono_nonneg_r; lia.
Qed.

Lemma numeral_exists d : all_digits d -> d <> [] -> exists n, numeral d n.
Proof. intros A N. exists (dec_value 0 d). unfold numeral. auto. Qed.

Lemma white_not_digit c : is_space_b c = true -> is_digit_b c = false.
Proof.
  intros H. destruct (is_digit_b c) eqn:D; auto.
  apply digit_not_space in D as (D & _). congruence.
Qed.

Lemma label_text_stoi lt n : label_text lt n -> stoi lt = Ok n.
Proof.
  intros (b & d & w & -> & Wb & Ww & ND & L6).
  pose proof ND as (AD & NN & DV).
  assert (n < 10 ^ 6)%Z as LT.
  { pose proof (dec_value_bound d AD 0 ltac:(lia)) as B. rewrite DV in B.
    assert (10 ^ Z.of_nat (length d) <= 10 ^ 6)%Z by (apply Z.pow_le_mono_r; lia). lia. }
  change (10 ^ 6)%Z with 1000000%Z in LT.
  rewrite <- (stoi_numeral d w n ND); [|lia|].
  - unfold stoi. rewrite skip_white; auto.
    + destruct d as [|c d]; [congruence|]. inversion AD; subst. cbn [app skip_while].
      now rewrite (proj1 (digit_not_space _ H1)).
    + intros (c & r & E & S). destruct d as [|x d]; [congruence|]. injection E as -> _.
      inversion AD; subst. apply white_not_digit in S. congruence.
  - destruct w as [|c w]; auto. inversion Ww; subst. now apply white_not_digit.
Qed.

Definition label_ok (f : File_Line) : Prop :=
  has_label f = true -> exists n, label_text (left_txt f) n.

Lemma blank_white b : all_blank b -> all_white b.
Proof. apply Forall_impl. intros c. apply blank_is_space. Qed.

Lemma free_label_ok ln raw pod plc lit f lit' :
  analyze_free ln raw pod plc lit = Ok (f, lit') -> label_ok f.
Proof.
  intros H HL. pose proof (analyze_free_spec ln raw pod plc lit) as S. rewrite H in S.
  unfold has_label in HL. destruct lit.
  - destruct S as (_ & B & _). rewrite B in HL. discriminate.
  - destruct S as [(_ & S)|(_ & _ & _ & _ & body & b1 & LP & _ & LB & _ & B)].
    + exfalso. decompose [and or] S; match goal with E : bits f = _ |- _ => rewrite E in HL end; discriminate.
    + assert (b_label b1 = true) as L1.
      { rewrite B in HL. now destruct (starts_amp (right_txt f)). }
      destruct LB as [(_ & ->)|[(_ & ->)|((p & d & E & AD & DN) & ->)]]; try discriminate.
      remember (left_txt f) as lt. remember (left_space f) as ls.
      destruct LP as [b body|b body|b d' w body].
      * destruct d; [congruence|]. destruct p; discriminate.
      * exfalso. destruct (ends_amp_not_digits b p d); auto.
      * destruct (numeral_exists d') as (n & ND); auto.
        { intros ->. simpl in *. lia. }
        exists n, b, d', []. rewrite app_nil_r. conjs; auto; try lia.
        -- now apply blank_white.
        -- constructor.
Qed.

Lemma white_app a b : all_white a -> all_white b -> all_white (a ++ b).
Proof. intros. apply Forall_app; auto. Qed.

Lemma fx_label lt b1 : fx_bits lt b1 -> b_label b1 = true ->
  forall w, all_white w -> exists n, label_text (lt ++ w) n.
Proof.
  intros FB L w W. destruct FB as [|b c L5 AB M|b d L5 AB AD DN L6].
  - discriminate.
  - destruct (ceq c "0"%char); discriminate.
  - destruct (numeral_exists d AD DN) as (n & ND). exists n, b, d, w.
    rewrite <- app_assoc. conjs; auto. now apply blank_white.
Qed.

(** What the grouping loops need to know of a fixed-format line. *)
Definition fixed_facts (f : File_Line) : Prop :=
  label_ok f /\ is_flpr_lit f = false /\ delim_ok (open_delim f) = true.
Definition free_facts (f : File_Line) : Prop :=
  label_ok f /\ delim_ok (open_delim f) = true.

Lemma fixed_facts_of ln raw pod lc f : analyze_fixed ln raw pod lc = Ok f -> fixed_facts f.
Proof.
  intros H.
  assert (PL : forall b s, b_label b = false -> b_flpr_lit b = false -> fixed_facts (fl_left ln b s)).
  { intros b s L X. unfold fixed_facts, label_ok, has_label, is_flpr_lit. cbn. rewrite L, X. conjs; auto. discriminate. }
  unfold analyze_fixed in H.
  destruct (is_empty raw); [injection H as <-; auto|].
  destruct (find_first_not_of set_str (expand_tabs raw)) as [ri|] eqn:F; [|injection H as <-; auto].
  apply find_blank in F as (b & c0 & post & E & -> & Hb & Hc).
  apply bind_Ok in H as (c0' & Hc0 & H).
  assert (c0' = c0) as ->.
  { rewrite E in Hc0. apply at_Ok in Hc0 as [X|[X _]].
    - rewrite nth_error_app_mid in X. congruence.
    - rewrite app_length in X. simpl in X. lia. }
  apply bind_Ok in H as (c & HC & H). apply c_toupper_Ok in HC as [_ ->].
  assert (FF : fixed_fortran ln (expand_tabs raw) pod lc (length b) (upper_b c0) = Ok f -> fixed_facts f).
  { clear H. intros H.
    assert (delim_ok (open_delim f) = true) as D.
    { unfold fixed_fortran in H. apply bind_Ok in H as ([[ri1 lft] b1] & _ & H).
      assert (FB : forall ri', fixed_body ln (expand_tabs raw) pod lc b1 lft ri' = Ok f -> delim_ok (open_delim f) = true).
      { clear H. intros ri' H. unfold fixed_body in H. apply bind_Ok in H as (? & _ & H).
        apply bind_Ok in H as ([tb od] & _ & H). apply bind_Ok in H as ([main rgt] & _ & H).
        destruct (is_empty main); [discriminate|]. destruct (split_trailing od main) as [m' rs].
        unfold fl_make in H. apply bind_Ok in H as (? & X & H). injection H as <-.
        cbn [open_delim]. destruct (delim_ok od); auto. discriminate. }
      destruct (_ && _); eauto.
      apply bind_Ok in H as (sk & _ & H). destruct (_ =? _); eauto.
      injection H as <-. auto. }
    rewrite E in H. apply fixed_fortran_spec in H; auto. rewrite <- E in H.
    destruct H as [(lt & w & b1 & EE & NE & W & FB & P & B)|(lt & w & body & FL & FB & LN & LT & R)].
    - split; [|split; auto].
      + intros L. unfold has_label in L. rewrite B in L. destruct P as (_ & -> & _). rewrite EE.
        apply (fx_label lt b1); auto.
      + unfold is_flpr_lit. rewrite B. destruct FB; try reflexivity. destruct (ceq c "0"%char); reflexivity.
    - split; [|split; auto].
      + intros L. rewrite LT, <- (app_nil_r lt). apply (fx_label lt (bits f)); auto. constructor.
      + unfold is_flpr_lit. destruct FB; try reflexivity. destruct (ceq c "0"%char); reflexivity. }
  destruct (length b =? 5); auto.
  destruct (_ && _); [injection H as <-; auto|].
  apply bind_Ok in H as (inc & _ & H). destruct inc; [injection H as <-; auto|].
  destruct (_ || _); auto.
  apply bind_Ok in H as (lit & _ & H). destruct lit; [discriminate|].
  apply bind_Ok in H as (dir & _ & H). destruct dir; injection H as <-; auto.
Qed.

Lemma free_facts_of ln raw pod plc lit f lit' :
  analyze_free ln raw pod plc lit = Ok (f, lit') -> free_facts f.
Proof.
  intros H. split; [eapply free_label_ok; eauto|].
  pose proof (analyze_free_spec ln raw pod plc lit) as S. rewrite H in S.
  destruct lit; [destruct S as ((_ & _ & _ & _ & _ & _ & ->) & _); auto|].
  destruct S as [((_ & _ & _ & _ & _ & _ & ->) & _)|(_ & _ & _ & D & body & b1 & _ & _ & _ & RP & _)]; auto.
  destruct RP as (_ & [(_ & _ & _ & ->)|(_ & _ & ->)] & _); auto using delim_ok_after.
Qed.

Lemma all_free_facts raws : forall i pod plc lit fls,
  analyze_all_free i raws pod plc lit = Ok fls -> Forall free_facts fls.
Proof.
  induction raws as [|r rs IH]; intros i pod plc lit fls; cbn [analyze_all_free].
  - intros [= <-]. auto.
  - intros H. apply bind_Ok in H as ([f l'] & H1 & H). apply bind_Ok in H as (fs & H2 & H).
    injection H as <-. constructor; [eapply free_facts_of; eauto|eapply IH; eauto].
Qed.
Lemma all_fixed_facts raws : forall i pod lc fls,
  analyze_all_fixed i raws pod lc = Ok fls -> Forall fixed_facts fls.
Proof.
  induction raws as [|r rs IH]; intros i pod lc fls; cbn [analyze_all_fixed].
  - intros [= <-]. auto.
  - intros H. apply bind_Ok in H as (f & H1 & H). apply bind_Ok in H as (fs & H2 & H).
    injection H as <-. constructor; [eapply fixed_facts_of; eauto|eapply IH; eauto].
Qed.

Lemma all_free_defined raws : forall i pod plc lit, Forall ascii7 raws -> delim_ok pod = true ->
  analyze_all_free i raws pod plc lit <> UB.
Proof.
  induction raws as [|r rs IH]; intros i pod plc lit A D; cbn [analyze_all_free]; [discriminate|].
  inversion A; subst. apply bind_not_UB; [now apply analyze_free_total|].
  intros [f l'] H. apply free_facts_of in H as [_ D']. apply bind_not_UB; auto. discriminate.
Qed.
Lemma all_fixed_defined raws : forall i pod lc, Forall ascii7 raws -> delim_ok pod = true ->
  analyze_all_fixed i raws pod lc <> UB.
Proof.
  induction raws as [|r rs IH]; intros i pod lc A D; cbn [analyze_all_fixed]; [discriminate|].
  inversion A; subst. apply bind_not_UB; [now apply analyze_fixed_defined|].
  intros f H. apply fixed_facts_of in H as (_ & _ & D'). apply bind_not_UB; auto. discriminate.
Qed.

(** construction of a logical line never fails *)
Lemma make_ll_total f r cat nr : label_ok f -> exists ll, make_ll (f :: r) cat nr = Ok ll /\ label_of ll.
Proof.
  intros L. unfold make_ll, init_label. destruct (has_label f) eqn:H.
  - destruct (L H) as (n & LT).
    assert (is_empty (left_txt f) = false) as ->.
    { apply is_empty_false. destruct LT as (b & d & w & -> & _ & _ & (_ & N & _) & _).
      intros X. apply app_eq_nil in X as [_ X]. apply app_eq_nil in X as [X _]. auto. }
    cbn [negb assert_ bind]. rewrite (label_text_stoi _ _ LT). cbn [bind].
    eexists; split; eauto. exists f, r. cbn [ll_layout ll_label]. rewrite H. auto.
  - cbn [bind]. eexists; split; eauto. exists f, r. cbn [ll_layout ll_label]. rewrite H. auto.
Qed.

Lemma not_fortran_class f : is_fortran f = false -> ~ trivial f -> is_flpr_lit f = false ->
  is_preprocessor f || is_flpr_pp f || is_include f = true.
Proof.
  unfold is_fortran. intros H T L. apply trivial_nb in T. rewrite T, L in H.
  destruct (is_preprocessor f), (is_flpr_pp f), (is_include f); auto.
Qed.

Lemma span_hd p f r : exists a b, span p (f :: r) = (a, b) /\ (a = [] \/ exists a', a = f :: a').
Proof.
  cbn [span]. destruct (p f).
  - destruct (span p r) as [a b]. eauto 6.
  - eauto 6.
Qed.

Lemma step_free_total f r : label_ok f ->
  exists ll rest, step_free (f :: r) = Ok (ll, rest) /\ label_of ll.
Proof.
  intros L. unfold step_free.
  destruct (span_hd is_trivial f r) as (a & b & S1 & A). rewrite S1.
  destruct A as [->|(a' & ->)]; cbn [is_empty negb].
  2:{ destruct (make_ll_total f a' CAT_UNKNOWN false L) as (ll & -> & LO). cbn [bind]. eauto. }
  apply span_spec in S1 as (E & _ & NT). simpl in E. subst b.
  destruct (span_hd is_flpr_lit f r) as (a & b & S2 & A). rewrite S2.
  destruct A as [->|(a' & ->)]; cbn [is_empty negb].
  2:{ destruct (make_ll_total f a' CAT_LITERAL false L) as (ll & -> & LO). cbn [bind]. eauto. }
  apply span_spec in S2 as (E & _ & NL). simpl in E. subst b.
  destruct (is_fortran f) eqn:FO; cbn [negb].
  - cbv zeta. destruct (free_end (f :: r) 0) as [n|]; rewrite firstn_cons;
    (edestruct (make_ll_total f) as (ll & -> & LO); [exact L|]; cbn [bind]; eauto).
  - rewrite not_fortran_class; auto.
    + cbn [assert_ bind]. destruct (absorb (left_txt f) r) as [a b].
      destruct (make_ll_total f a (other_cat f) false L) as (ll & -> & LO). cbn [bind]. eauto.
    + intros T. apply NT. exists f, r. split; auto. now apply trivial_b.
    + destruct (is_flpr_lit f) eqn:X; auto. exfalso. apply NL. exists f, r. auto.
Qed.
Lemma step_fixed_total f r : label_ok f -> is_flpr_lit f = false ->
  exists ll rest, step_fixed (f :: r) = Ok (ll, rest) /\ label_of ll.
Proof.
  intros L NL. unfold step_fixed.
  destruct (span_hd is_trivial f r) as (a & b & S1 & A). rewrite S1.
  destruct A as [->|(a' & ->)]; cbn [is_empty negb].
  2:{ destruct (make_ll_total f a' CAT_UNKNOWN false L) as (ll & -> & LO). cbn [bind]. eauto. }
  apply span_spec in S1 as (E & _ & NT). simpl in E. subst b.
  destruct (is_fortran f) eqn:FO; cbn [negb].
  - cbv zeta. rewrite firstn_cons.
    edestruct (make_ll_total f) as (ll & -> & LO); [exact L|]. cbn [bind]. eauto.
  - rewrite not_fortran_class; auto.
    + cbn [assert_ bind]. destruct (absorb (left_txt f) r) as [a b].
      destruct (make_ll_total f a (other_cat f) false L) as (ll & -> & LO). cbn [bind]. eauto.
    + intros T. apply NT. exists f, r. split; auto. now apply trivial_b.
Qed.

Lemma group_total step (P : File_Line -> Prop) :
  (forall f r, P f -> exists ll rest, step (f :: r) = Ok (ll, rest) /\ label_of ll) ->
  (forall fls ll rest, step fls = Ok (ll, rest) -> exists b, fls = b ++ rest /\ b <> []) ->
  forall fuel fls, length fls <= fuel -> Forall P fls ->
    exists lls, group step fuel fls = Some (Ok lls) /\ Forall label_of lls.
Proof.
  intros ST SUF. induction fuel as [|n IH]; intros fls LE F; destruct fls as [|f r]; cbn [group]; eauto.
  - simpl in LE. lia.
  - inversion F; subst. destruct (ST f r) as (ll & rest & E & LO); auto. rewrite E.
    apply SUF in E as (b & E & B). rewrite E in F, LE. apply Forall_app in F as [_ F].
    apply nonempty_length in B. rewrite app_length in LE.
    destruct (IH rest) as (lls & -> & FL); auto; [lia|]. eauto.
Qed.

Lemma group_mono step : forall fuel fls o, group step fuel fls = Some o ->
  forall fuel', fuel <= fuel' -> group step fuel' fls = Some o.
Proof.
  induction fuel as [|n IH]; intros fls o; destruct fls as [|f r]; cbn [group]; try discriminate.
  - intros H fuel' _. destruct fuel'; auto.
  - intros H fuel' _. destruct fuel'; auto.
  - intros H fuel' LE. destruct fuel' as [|m]; [lia|]. cbn [group].
    destruct (step (f :: r)) as [[ll rest]| |]; auto.
    destruct (group step n rest) as [o'|] eqn:G; [|discriminate].
    rewrite (IH _ _ G m) by lia. exact H.
Qed.

Lemma analyze_all_free_length raws i pod plc lit fls :
  analyze_all_free i raws pod plc lit = Ok fls -> length fls = length raws.
Proof. intros H. apply analyze_all_free_spec in H as (_ & E & _). now rewrite <- E, map_length. Qed.
Lemma numbered_length i n : length (numbered i n) = n.
Proof. revert i; induction n; simpl; auto. Qed.
Lemma analyze_all_fixed_length raws i pod lc fls :
  analyze_all_fixed i raws pod lc = Ok fls -> length fls = length raws.
Proof.
  intros H. apply analyze_all_fixed_spec in H as (E & _).
  apply (f_equal (@length Z)) in E. now rewrite map_length, numbered_length in E.
Qed.

Lemma scan_free_total raws fuel : length raws <= fuel ->
  match analyze_all_free 1 raws c_nul false false with
  | Ok fls => exists lls, scan_free fuel raws = Some (Ok lls) /\ Forall label_of lls
  | Throw => scan_free fuel raws = Some Throw
  | UB => scan_free fuel raws = Some UB
  end.
Proof.
  intros LE. unfold scan_free. destruct (analyze_all_free 1 raws c_nul false false) as [fls| |] eqn:A; auto.
  apply (group_total step_free free_facts).
  - intros f r [L _]. now apply step_free_total.
  - intros fs ll rest H. apply step_free_spec in H as (b & new & -> & B & _).
    apply free_block_ne in B as [B _]. eauto.
  - now rewrite (analyze_all_free_length _ _ _ _ _ _ A).
  - eapply all_free_facts; eauto.
Qed.
Lemma scan_fixed_total raws fuel lc : length raws <= fuel ->
  match analyze_all_fixed 1 raws c_nul lc with
  | Ok fls => exists lls, scan_fixed fuel raws lc = Some (Ok lls) /\ Forall label_of lls
  | Throw => scan_fixed fuel raws lc = Some Throw
  | UB => scan_fixed fuel raws lc = Some UB
  end.
Proof.
  intros LE. unfold scan_fixed. destruct (analyze_all_fixed 1 raws c_nul lc) as [fls| |] eqn:A; auto.
  apply (group_total step_fixed fixed_facts).
  - intros f r (L & NL & _). now apply step_fixed_total.
  - intros fs ll rest H. apply step_fixed_spec in H as (b & new & -> & B & _).
    apply fixed_block_ne in B as [B _]. eauto.
  - now rewrite (analyze_all_fixed_length _ _ _ _ _ A).
  - eapply all_fixed_facts; eauto.
Qed.

Lemma scan_free_terminates raws fuel : length raws <= fuel -> scan_free fuel raws <> None.
Proof.
  intros LE. pose proof (scan_free_total raws fuel LE) as T.
  destruct (analyze_all_free _ _ _ _ _); [destruct T as (? & -> & _)|rewrite T|rewrite T]; discriminate.
Qed.
Lemma scan_fixed_terminates raws fuel lc : length raws <= fuel -> scan_fixed fuel raws lc <> None.
Proof.
  intros LE. pose proof (scan_fixed_total raws fuel lc LE) as T.
  destruct (analyze_all_fixed _ _ _ _); [destruct T as (? & -> & _)|rewrite T|rewrite T]; discriminate.
Qed.
Lemma scan_free_defined raws fuel : Forall ascii7 raws -> length raws <= fuel ->
  (exists lls, scan_free fuel raws = Some (Ok lls)) \/ scan_free fuel raws = Some Throw.
Proof.
  intros A LE. pose proof (scan_free_total raws fuel LE) as T.
  pose proof (all_free_defined raws 1 c_nul false false A eq_refl) as D.
  destruct (analyze_all_free _ _ _ _ _); [destruct T as (? & T & _)|..]; eauto. congruence.
Qed.
Lemma scan_fixed_defined raws fuel lc : Forall ascii7 raws -> length raws <= fuel ->
  (exists lls, scan_fixed fuel raws lc = Some (Ok lls)) \/ scan_fixed fuel raws lc = Some Throw.
Proof.
  intros A LE. pose proof (scan_fixed_total raws fuel lc LE) as T.
  pose proof (all_fixed_defined raws 1 c_nul lc A eq_refl) as D.
  destruct (analyze_all_fixed _ _ _ _); [destruct T as (? & T & _)|..]; eauto. congruence.
Qed.

(** results with any fuel *)
Lemma scan_free_Ok fuel raws lls : scan_free fuel raws = Some (Ok lls) ->
  exists fls, analyze_all_free 1 raws c_nul false false = Ok fls /\
    blocks free_block fls lls /\ Forall label_of lls.
Proof.
  intros H. pose proof (scan_free_total raws (Nat.max fuel (length raws)) ltac:(lia)) as T.
  unfold scan_free in *. destruct (analyze_all_free 1 raws c_nul false false) as [fls| |] eqn:A; try discriminate.
  exists fls. split; auto. split.
  - eapply group_spec; [|exact H]. intros fs ll rest S.
    apply step_free_spec in S as (b & new & E & B & L & _). eauto.
  - destruct T as (lls' & T & F). rewrite (group_mono _ _ _ _ H) in T by lia. congruence.
Qed.
Lemma scan_fixed_Ok fuel raws lc lls : scan_fixed fuel raws lc = Some (Ok lls) ->
  exists fls, analyze_all_fixed 1 raws c_nul lc = Ok fls /\
    blocks fixed_block fls lls /\ Forall label_of lls.
Proof.
  intros H. pose proof (scan_fixed_total raws (Nat.max fuel (length raws)) lc ltac:(lia)) as T.
  unfold scan_fixed in *. destruct (analyze_all_fixed 1 raws c_nul lc) as [fls| |] eqn:A; try discriminate.
  exists fls. split; auto. split.
  - eapply group_spec; [|exact H]. intros fs ll rest S.
    apply step_fixed_spec in S as (b & new & E & B & L & _). eauto.
  - destruct T as (lls' & T & F). rewrite (group_mono _ _ _ _ H) in T by lia. congruence.
Qed.

Lemma scan_free_identity fuel raws lls : scan_free fuel raws = Some (Ok lls) ->
  concat (map print_ll lls) = raws.
Proof.
  intros H. apply scan_free_Ok in H as (fls & A & B & _).
  apply analyze_all_free_spec in A as (_ & <- & F). now apply blocks_print.
Qed.
Lemma scan_free_partition fuel raws lls : scan_free fuel raws = Some (Ok lls) ->
  map linenum (concat (map ll_layout lls)) = numbered 1 (length raws) /\
  Forall (fun ll => ll_layout ll <> []) lls.
Proof.
  intros H. apply scan_free_Ok in H as (fls & A & B & _).
  apply analyze_all_free_spec in A as (<- & _). split.
  - eapply blocks_nums; eauto. apply free_block_nums.
  - eapply blocks_ne; eauto. apply free_block_ne.
Qed.
Lemma scan_fixed_partition fuel raws lc lls : scan_fixed fuel raws lc = Some (Ok lls) ->
  map linenum (concat (map ll_layout lls)) = numbered 1 (length raws) /\
  Forall (fun ll => ll_layout ll <> []) lls.
Proof.
  intros H. apply scan_fixed_Ok in H as (fls & A & B & _).
  apply analyze_all_fixed_spec in A as (<- & _). split.
  - eapply blocks_nums; eauto. apply fixed_block_nums.
  - eapply blocks_ne; eauto. apply fixed_block_ne.
Qed.

(** consecutive logical lines *)
Lemma numbered_app a : forall i n b, numbered i n = a ++ b ->
  b = numbered (i + Z.of_nat (length a)) (n - length a).
Proof.
  induction a as [|x a IH]; intros i n b H.
  - cbn [length] in *. rewrite Z.add_0_r, Nat.sub_0_r. auto.
  - destruct n; [discriminate|]. injection H as <- H. apply IH in H. cbn [length]. rewrite H. f_equal; lia.
Qed.
Lemma numbered_mid i n a x y b : numbered i n = a ++ x :: y :: b -> y = (x + 1)%Z.
Proof.
  intros H. apply numbered_app in H. destruct (n - length a) as [|[|m]]; try discriminate.
  cbn [numbered] in H. injection H as -> -> _. auto.
Qed.
Lemma last_cons_app {A} (f : A) r : exists p, f :: r = p ++ [last r f].
Proof.
  destruct r as [|g r]; [exists []; auto|].
  exists (f :: removelast (g :: r)).
  rewrite (app_removelast_last f (l := g :: r)) at 1 by discriminate. auto.
Qed.
Lemma consecutive i n lls l1 l2 a b :
  map linenum (concat (map ll_layout lls)) = numbered i n ->
  Forall (fun ll => ll_layout ll <> []) lls ->
  lls = a ++ l1 :: l2 :: b -> end_line l1 = start_line l2.
Proof.
  intros E F ->. apply Forall_app in F as [_ F]. inversion F as [|? ? N1 F']; subst.
  inversion F' as [|? ? N2 _]; subst.
  unfold end_line, start_line.
  destruct (ll_layout l1) as [|f1 r1] eqn:E1; [congruence|].
  destruct (ll_layout l2) as [|f2 r2] eqn:E2; [congruence|].
  rewrite map_app, concat_app in E. cbn [map concat] in E. rewrite E1, E2 in E.
  destruct (last_cons_app f1 r1) as (p & P). rewrite P in E.
  rewrite !map_app in E. cbn [map app] in E. rewrite <- app_assoc in E. cbn [app] in E.
  rewrite app_assoc in E. symmetry in E. apply numbered_mid in E. auto.
Qed.

(** ** Fixed format: reading and printing *)
Lemma control_len ctl : control_field ctl -> length ctl = 6.
Proof.
  intros [->|[(b & c & -> & L & _)|(b & d & n & -> & _ & _ & _ & L)]]; auto.
  - rewrite app_length. simpl. lia.
Qed.

Lemma tidy_print ln raw pod lc f : tidy_fixed lc raw -> analyze_fixed ln raw pod lc = Ok f ->
  (has_label f = true -> pod = c_nul) -> print_line f = raw.
Proof.
  intros (T & _ & LC & CF) H LB.
  destruct (is_fortran f) eqn:F.
  - pose proof (fixed_class _ _ _ _ _ H) as C. cbv zeta in C. rewrite expand_tabs_id in C by auto.
    destruct C as (_ & _ & _ & C & _). destruct (CF (C F)) as (ctl & rest & -> & CTL).
    eapply fixed_print_fortran; eauto.
    rewrite <- (control_len _ CTL), firstn_app_len in T. auto.
  - rewrite (fixed_print_plain _ _ _ _ _ H F). now apply expand_tabs_id.
Qed.

Lemma all_fixed_print raws : forall i pod lc fls,
  Forall (tidy_fixed lc) raws -> analyze_all_fixed i raws pod lc = Ok fls ->
  (forall f r, fls = f :: r -> has_label f = true -> pod = c_nul) ->
  (forall a f g b, fls = a ++ f :: g :: b -> has_label g = true -> open_delim f = c_nul) ->
  map print_line fls = raws.
Proof.
  induction raws as [|r rs IH]; intros i pod lc fls TF; cbn [analyze_all_fixed].
  - intros [= <-]. auto.
  - intros H H0 HA. apply bind_Ok in H as (f & H1 & H). apply bind_Ok in H as (fs & H2 & H).
    injection H as <-. inversion TF; subst. cbn [map]. f_equal.
    + eapply tidy_print; eauto.
    + eapply IH; eauto.
      * intros g r' -> L. apply (HA [] f g r'); auto.
      * intros a g1 g2 b -> L. apply (HA (f :: a) g1 g2 b); auto.
Qed.

(** a preprocessor, include or directive line keeps its text in the left field *)
Lemma fixed_other_left ln raw pod lc f : tidy_fixed lc raw -> analyze_fixed ln raw pod lc = Ok f ->
  is_fortran f = false -> left_txt f = raw.
Proof.
  intros (T & _) H F. apply analyze_fixed_Ok in H. cbv zeta in H. rewrite expand_tabs_id in H by auto.
  destruct H as [(_ & (_ & X & _) & _)|(X & _)]; [auto|congruence].
Qed.

Definition other_tidy (f : File_Line) : Prop := is_fortran f = false -> ~ ends_backslash (left_txt f).

Lemma all_other_tidy raws : forall i pod lc fls,
  Forall (tidy_fixed lc) raws -> analyze_all_fixed i raws pod lc = Ok fls -> Forall other_tidy fls.
Proof.
  induction raws as [|r rs IH]; intros i pod lc fls TF; cbn [analyze_all_fixed].
  - intros [= <-]. auto.
  - intros H. apply bind_Ok in H as (f & H1 & H). apply bind_Ok in H as (fs & H2 & H).
    injection H as <-. inversion TF as [|? ? T1 T2]; subst. constructor; [|eapply IH; eauto].
    intros F. rewrite (fixed_other_left _ _ _ _ _ T1 H1 F). apply T1.
Qed.

Lemma blocks_same fls lls : blocks fixed_block fls lls -> Forall other_tidy fls ->
  concat (map ll_layout lls) = fls.
Proof.
  induction 1 as [|cat b new rest ll lls B EL EC BS IH]; auto. intros F.
  apply Forall_app in F as [F1 F2]. cbn [map concat]. rewrite IH by auto. f_equal. rewrite EL.
  inversion B; subst; auto. inversion F1; subst.
  match goal with P : pp_cont _ _ _ _ |- _ => inversion P; subst; auto end.
  exfalso. match goal with O : other_tidy _ |- _ => apply O; auto end.
Qed.

Lemma scan_fixed_identity fuel raws lc lls : scan_fixed fuel raws lc = Some (Ok lls) ->
  Forall (tidy_fixed lc) raws ->
  (forall a f g b, concat (map ll_layout lls) = a ++ f :: g :: b ->
     has_label g = true -> open_delim f = c_nul) ->
  concat (map print_ll lls) = raws.
Proof.
  intros H T HA. apply scan_fixed_Ok in H as (fls & A & B & _).
  pose proof (blocks_same _ _ B (all_other_tidy _ _ _ _ _ T A)) as E. rewrite E in HA.
  assert (concat (map print_ll lls) = map print_line (concat (map ll_layout lls))) as ->.
  { clear. induction lls as [|l lls IH]; auto. cbn [map concat]. now rewrite map_app, IH. }
  rewrite E. eapply all_fixed_print; eauto.
Qed.

Lemma group_all step (P : LLine -> Prop) :
  (forall fls ll rest, step fls = Ok (ll, rest) -> P ll) ->
  forall fuel fls lls, group step fuel fls = Some (Ok lls) -> Forall P lls.
Proof.
  intros ST. induction fuel as [|n IH]; intros fls lls; destruct fls as [|f r]; cbn [group];
    try discriminate; try (intros [= <-]; constructor).
  destruct (step (f :: r)) as [[ll rest]| |] eqn:S; try discriminate.
  destruct (group step n rest) as [[lls'| |]|] eqn:G; try discriminate.
  intros [= <-]. constructor; eauto.
Qed.
Lemma scan_reformat_free fuel raws lls : scan_free fuel raws = Some (Ok lls) ->
  Forall (fun ll => ll_needs_reformat ll = false) lls.
Proof.
  unfold scan_free. destruct (analyze_all_free 1 raws c_nul false false); try discriminate.
  apply group_all. intros fls ll rest S. apply step_free_spec in S as (b & new & _ & _ & _ & R & _). auto.
Qed.
Lemma scan_reformat_fixed fuel raws lc lls : scan_fixed fuel raws lc = Some (Ok lls) ->
  Forall (fun ll => ll_needs_reformat ll = true <->
                    starts_line (fun f => is_fortran f = true) (ll_layout ll)) lls.
Proof.
  unfold scan_fixed. destruct (analyze_all_fixed 1 raws c_nul lc); try discriminate.
  apply group_all. intros fls ll rest S. apply step_fixed_spec in S as (b & new & _ & _ & <- & R & _). auto.
Qed.
