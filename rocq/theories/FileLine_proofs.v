(** Proofs about free-format line analysis. *)
From Verif Require Import Base Base_lemmas FileLine FileLine_spec.

(** ** Characters *)
Lemma upper_digit c : is_digit_b (upper_b c) = is_digit_b c.
Proof. destruct c as [[] [] [] [] [] [] [] []]; vm_compute; reflexivity. Qed.
Lemma upper_amp c : ceq (upper_b c) c_amp = ceq c c_amp.
Proof. destruct c as [[] [] [] [] [] [] [] []]; vm_compute; reflexivity. Qed.
Lemma upper_bang c : ceq (upper_b c) c_bang = ceq c c_bang.
Proof. destruct c as [[] [] [] [] [] [] [] []]; vm_compute; reflexivity. Qed.
Lemma upper_hash c : ceq (upper_b c) c_hash = ceq c c_hash.
Proof. destruct c as [[] [] [] [] [] [] [] []]; vm_compute; reflexivity. Qed.
Lemma upper_ctype c : ctype_ok (upper_b c) = ctype_ok c.
Proof. destruct c as [[] [] [] [] [] [] [] []]; vm_compute; reflexivity. Qed.
Lemma digit_not_blank c : is_digit_b c = true -> mem c set_str = false.
Proof. destruct c as [[] [] [] [] [] [] [] []]; vm_compute; congruence. Qed.
Lemma digit_not_space c : is_digit_b c = true -> is_space_b c = false.
Proof. destruct c as [[] [] [] [] [] [] [] []]; vm_compute; congruence. Qed.
Lemma blank_is_space c : mem c set_str = true -> is_space_b c = true.
Proof. destruct c as [[] [] [] [] [] [] [] []]; vm_compute; congruence. Qed.
Lemma st_is_space c : mem c set_st = true -> is_space_b c = true.
Proof. destruct c as [[] [] [] [] [] [] [] []]; vm_compute; congruence. Qed.

Lemma c_toupper_Ok c d : c_toupper c = Ok d <-> ctype_ok c = true /\ d = upper_b c.
Proof. unfold c_toupper. destruct (ctype_ok c); intuition congruence. Qed.
Lemma c_isdigit_Ok c d : c_isdigit c = Ok d <-> ctype_ok c = true /\ d = is_digit_b c.
Proof. unfold c_isdigit. destruct (ctype_ok c); intuition congruence. Qed.
Lemma c_isspace_Ok c d : c_isspace c = Ok d <-> ctype_ok c = true /\ d = is_space_b c.
Proof. unfold c_isspace. destruct (ctype_ok c); intuition congruence. Qed.

(** ** Counting loops *)
Lemma count_digits_Ok s n k :
  count_digits s n = Ok k ->
  exists d r, s = d ++ r /\ length d = k /\ k <= n /\ all_digits d /\
    (k < n -> ~ starts_with is_digit_b r).
Proof.
  revert s k; induction n as [|n IH]; intros s k H.
  - assert (k = 0) as -> by (destruct s; simpl in H; congruence).
    exists [], s. repeat split; auto; [constructor|lia].
  - destruct s as [|c s]; simpl in H.
    + injection H as <-. exists [], []. repeat split; auto; [lia|constructor|].
      intros _ (c & r & E & _). discriminate.
    + apply bind_Ok in H as (b & Hb & H). apply c_isdigit_Ok in Hb as [_ ->].
      destruct (is_digit_b c) eqn:D.
      * apply bind_Ok in H as (k' & Hk & H). injection H as <-.
        destruct (IH _ _ Hk) as (d & r & -> & Hl & Hle & Hd & Hn).
        exists (c :: d), r. simpl. repeat split; auto; try lia.
        -- now constructor.
        -- intros Hlt. apply Hn. lia.
      * injection H as <-. exists [], (c :: s). repeat split; auto; [lia|constructor|].
        intros _ (c' & r & E & Hd). injection E as <- <-. congruence.
Qed.

Lemma count_spaces_Ok s k :
  count_spaces s = Ok k ->
  exists w r, s = w ++ r /\ length w = k /\ all_white w /\
    ~ starts_with is_space_b r.
Proof.
  revert k; induction s as [|c s IH]; intros k H; simpl in H.
  - injection H as <-. exists [], []. repeat split; auto; [constructor|].
    intros (c & r & E & _). discriminate.
  - apply bind_Ok in H as (b & Hb & H). apply c_isspace_Ok in Hb as [_ ->].
    destruct (is_space_b c) eqn:D.
    + apply bind_Ok in H as (k' & Hk & H). injection H as <-.
      destruct (IH _ Hk) as (w & r & -> & Hl & Hw & Hn).
      exists (c :: w), r. simpl. repeat split; auto. now constructor.
    + injection H as <-. exists [], (c :: s). repeat split; auto; [constructor|].
      intros (c' & r & E & Hd). injection E as <- <-. congruence.
Qed.

(** ** The left part *)
Definition left_bits (lt : str) (b1 : Bits) : Prop :=
  (lt = [] /\ b1 = bits0) \/
  ((exists p, lt = p ++ [c_amp]) /\ b1 = set_continuation bits0) \/
  ((exists p d, lt = p ++ d /\ all_digits d /\ d <> []) /\ b1 = put_label true bits0).

Lemma free_left_Ok b c0 post plc lt ls ri2 b1 :
  all_blank b -> mem c0 set_str = false ->
  free_left (b ++ c0 :: post) plc (length b) (upper_b c0) = Ok (lt, ls, ri2, b1) ->
  exists body, left_part plc (b ++ c0 :: post) lt ls body
    /\ ri2 = length lt + length ls
    /\ b ++ c0 :: post = lt ++ ls ++ body
    /\ left_bits lt b1.
Proof.
  intros Hb Hc0 H. unfold free_left in H.
  apply bind_Ok in H as (isd & Hd & H).
  assert (Hisd : isd = negb plc && is_digit_b c0).
  { destruct plc; [now injection Hd as <-|].
    apply c_isdigit_Ok in Hd as [_ ->]. simpl. apply upper_digit. }
  rewrite upper_amp in H. clear Hd. destruct isd.
  - symmetry in Hisd. apply andb_prop in Hisd as [Hplc Hdig].
    apply negb_true_iff in Hplc. subst plc.
    apply bind_Ok in H as (k & Hk & H).
    rewrite skipn_app_len in Hk.
    pose proof Hk as Hk0.
    apply count_digits_Ok in Hk as (d & r & E & Hl & Hle & Had & Hn).
    assert (d <> []) as Hd.
    { intros ->. simpl in Hl. subst k. apply Hn; [lia|].
      simpl in E. exists c0, post. split; auto. }
    rewrite E in *. subst k.
    apply bind_Ok in H as (lt' & Hlt & H).
    apply substr_n_Ok in Hlt as [_ Hlt].
    rewrite skipn_O in Hlt. rewrite app_assoc in Hlt.
    rewrite <- app_length in Hlt. rewrite firstn_app_len in Hlt. subst lt'.
    assert (is_empty (b ++ d) = false) as Hne.
    { apply is_empty_false. intros HH. apply app_eq_nil in HH as [_ ->]. auto. }
    rewrite Hne in H.
    rewrite (app_assoc b d r) in H.
    rewrite <- app_length in H. rewrite skipn_app_len in H.
    apply bind_Ok in H as (sk & Hsk & H).
    apply count_spaces_Ok in Hsk as (w & r2 & -> & <- & Hw & Hn2).
    apply bind_Ok in H as (ls' & Hls & H).
    assert (ls' = w) as ->.
    { destruct (Nat.ltb_spec 0 (length w)).
      - apply substr_n_Ok in Hls as [_ ->].
        rewrite skipn_app_len. apply firstn_app_len.
      - injection Hls as <-. destruct w; simpl in *; [auto|lia]. }
    injection H as <- <- <- <-.
    exists r2. split; [|split; [|split]].
    + rewrite <- ?app_assoc. constructor; auto.
      destruct d; simpl in *; [congruence|lia].
    + rewrite ?app_length. lia.
    + now rewrite <- ?app_assoc.
    + right; right. split; auto. now exists b, d.
  - destruct (ceq c0 c_amp) eqn:A.
    + apply ceq_true in A. subst c0.
      apply bind_Ok in H as (lt' & Hlt & H). injection H as <- <- <- <-.
      apply substr_n_Ok in Hlt as [_ ->].
      assert (E : firstn (length b + 1) (skipn 0 (b ++ c_amp :: post)) = b ++ [c_amp]).
      { rewrite skipn_O, firstn_add, firstn_app_len, skipn_app_len. reflexivity. }
      rewrite E. exists post. split; [|split; [|split]].
      * now constructor.
      * rewrite app_length. simpl. lia.
      * simpl. rewrite <- app_assoc. reflexivity.
      * right; left. split; auto. now exists b.
    + apply bind_Ok in H as (ls' & Hls & H). injection H as <- <- <- <-.
      assert (ls' = b) as ->.
      { destruct (Nat.ltb_spec 0 (length b)).
        - apply substr_n_Ok in Hls as [_ ->]. rewrite skipn_O. apply firstn_app_len.
        - injection Hls as <-. destruct b; simpl in *; [auto|lia]. }
      exists (c0 :: post). split; [|split; [|split]]; auto.
      * constructor; auto.
        -- discriminate.
        -- intros (c & r & E & M). injection E as <- <-. congruence.
        -- intros (c & r & E & M). injection E as <- <-. congruence.
        -- intros -> (c & r & E & M). injection E as <- <-. simpl in Hisd. congruence.
      * left. auto.
Qed.

(** ** Trailing part *)
Lemma all_space_Ok s b :
  all_space s = Ok b -> b = true <-> all_white s.
Proof.
  revert b; induction s as [|c s IH]; intros b H; simpl in H.
  - injection H as <-. split; auto. constructor.
  - apply bind_Ok in H as (x & Hx & H). apply c_isspace_Ok in Hx as [_ ->].
    destruct (is_space_b c) eqn:E.
    + apply IH in H. rewrite H. split; intros F; [constructor; auto|now inversion F].
    + injection H as <-. split; [discriminate|]. intros F. inversion F; congruence.
Qed.

Lemma ctx_after_app d a b : ctx_after d (a ++ b) = ctx_after (ctx_after d a) b.
Proof. unfold ctx_after. apply fold_left_app. Qed.

Lemma breaks_0 d c r :
  breaks d (c :: r) 0 <->
  (d = c_nul /\ (c = c_bang \/ c = c_amp)) \/
  (d <> c_nul /\ c = c_amp /\ all_white r).
Proof.
  unfold breaks, all_white. simpl. split.
  - intros (c' & [= <-] & H). exact H.
  - intros H. exists c. auto.
Qed.
Lemma breaks_S d c r j :
  breaks d (c :: r) (S j) <-> breaks (ctx_step d c) r j.
Proof. unfold breaks. simpl. reflexivity. Qed.

Lemma first_break_cons d c r i :
  ~ breaks d (c :: r) 0 ->
  first_break (ctx_step d c) r i -> first_break d (c :: r) (S i).
Proof.
  intros H0 [H1 H2]. split; [now apply breaks_S|].
  intros [|j] Hj; auto. rewrite breaks_S. apply H2. lia.
Qed.
Lemma no_break_cons d c r :
  ~ breaks d (c :: r) 0 -> no_break (ctx_step d c) r -> no_break d (c :: r).
Proof. intros H0 H [|j]; auto. rewrite breaks_S. apply H. Qed.

(** Specification of one run of the trailing scanner over [rest]. *)
Definition ftr_spec (d : ascii) (rest : str) (i : nat)
  (o : res (option nat * ascii)) : Prop :=
  match o with
  | Ok (Some t, od) => exists k, t = i + k /\ first_break d rest k /\
                                 od = ctx_after d (firstn k rest)
  | Ok (None, od) => no_break d rest /\ ctx_after d rest = c_nul /\ od = c_nul
  | Throw => no_break d rest /\ ctx_after d rest <> c_nul
  | UB => exists x, In x rest /\ ctype_ok x = false
  end.

Lemma ftr_spec_cons d c r i o :
  ~ breaks d (c :: r) 0 ->
  ftr_spec (ctx_step d c) r (S i) o -> ftr_spec d (c :: r) i o.
Proof.
  intros H0. destruct o as [[[t|] od]| |]; simpl.
  - intros (k & -> & H1 & ->). exists (S k). split; [lia|].
    split; [now apply first_break_cons|reflexivity].
  - intros (H1 & H2 & H3). split; [now apply no_break_cons|]. auto.
  - intros (H1 & H2). split; [now apply no_break_cons|]. auto.
  - intros (x & H1 & H2). eauto.
Qed.

Lemma all_space_UB s :
  all_space s = UB -> exists x, In x s /\ ctype_ok x = false.
Proof.
  induction s as [|c s IH]; simpl; [discriminate|].
  unfold c_isspace. destruct (ctype_ok c) eqn:E; simpl.
  - destruct (is_space_b c); [|discriminate].
    intros H. destruct (IH H) as (x & H1 & H2). eauto.
  - intros _. eauto.
Qed.
Lemma all_space_Throw s : all_space s <> Throw.
Proof.
  induction s as [|c s IH]; simpl; [discriminate|].
  unfold c_isspace. destruct (ctype_ok c); simpl; [|discriminate].
  destruct (is_space_b c); [auto|discriminate].
Qed.

Lemma delim_ok_cases d :
  delim_ok d = true -> d = c_nul \/ d = c_dquote \/ d = c_squote.
Proof.
  unfold delim_ok. intros H. apply orb_prop in H as [H|H].
  - apply orb_prop in H as [H|H]; apply ceq_true in H; auto.
  - apply ceq_true in H; auto.
Qed.

Lemma quote_delim_ok c : is_quote c = true -> delim_ok c = true.
Proof. unfold is_quote, delim_ok. destruct (ceq c c_squote), (ceq c c_dquote), (ceq c c_nul); auto. Qed.

Lemma ftr_loop_spec rest : forall i d, delim_ok d = true ->
  ftr_spec d rest i (ftr_loop rest i d).
Proof.
  induction rest as [|c r IH]; intros i d Hd; simpl ftr_loop.
  - destruct (ceq d c_nul) eqn:E.
    + apply ceq_true in E. subst. simpl. repeat split; auto.
      intros j (c & H & _). destruct j; discriminate.
    + apply ceq_false in E. simpl. split; auto.
      intros j (c & H & _). destruct j; discriminate.
  - destruct (ceq d c_nul) eqn:E.
    + apply ceq_true in E. subst d. destruct (is_quote c) eqn:Q.
      * apply ftr_spec_cons.
        -- rewrite breaks_0. intros [[_ [-> | ->]]|[H _]]; try discriminate. congruence.
        -- unfold ctx_step. simpl. pose proof Q as Q'. unfold is_quote in Q. rewrite Q. apply IH. now apply quote_delim_ok.
      * destruct (ceq c c_bang || ceq c c_amp) eqn:B.
        -- simpl. exists 0. split; [lia|]. split; auto. split; [|lia].
           rewrite breaks_0. left. split; auto.
           apply orb_prop in B as [B|B]; apply ceq_true in B; auto.
        -- apply ftr_spec_cons.
           ++ rewrite breaks_0. intros [[_ [-> | ->]]|[H _]]; try discriminate. congruence.
           ++ unfold ctx_step. simpl. unfold is_quote in Q. rewrite Q. apply IH; try exact Hd.
    + apply ceq_false in E. destruct (ceq c d) eqn:CD.
      * apply ftr_spec_cons.
        -- rewrite breaks_0. intros [[H _]|(_ & -> & _)]; auto.
           apply ceq_true in CD. subst d. simpl in *.
           destruct (delim_ok_cases _ Hd) as [H|[H|H]]; discriminate.
        -- unfold ctx_step. apply ceq_false in E. rewrite E, CD. now apply IH.
      * destruct (ceq c c_amp) eqn:A.
        -- apply ceq_true in A. subst c.
           destruct (all_space r) as [ws| |] eqn:W; cbn [bind assert_].
           ++ pose proof (all_space_Ok _ _ W) as HW. destruct ws.
              ** simpl. exists 0. split; [lia|]. split; auto. split; [|lia].
                 rewrite breaks_0. right. repeat split; auto. now apply HW.
              ** apply ftr_spec_cons.
                 --- rewrite breaks_0. intros [[H _]|(_ & _ & H)]; auto.
                     apply HW in H. discriminate.
                 --- unfold ctx_step. apply ceq_false in E. rewrite E, CD. now apply IH.
           ++ now apply all_space_Throw in W.
           ++ destruct (all_space_UB _ W) as (x & H1 & H2). simpl. eauto.
        -- apply ftr_spec_cons.
           ++ rewrite breaks_0. intros [[H _]|(_ & -> & _)]; auto. discriminate.
           ++ unfold ctx_step. apply ceq_false in E. rewrite E, CD. now apply IH.
Qed.

(** ** Splitting off trailing blanks *)
Definition no_trailing_st (s : str) : Prop :=
  forall p c, s = p ++ [c] -> mem c set_st = false.

Lemma split_trailing_spec od main m rs :
  split_trailing od main = (m, rs) ->
  main = m ++ rs /\ Forall (fun c => mem c set_st = true) rs /\
  (od = c_nul -> no_trailing_st m) /\ (od <> c_nul -> rs = []).
Proof.
  unfold split_trailing. destruct (ceq od c_nul) eqn:E.
  - apply ceq_true in E. subst od.
    destruct (find_last_not_of set_st main) as [i|] eqn:F; cbv zeta; intros HH; apply pair_equal_spec in HH as [<- <-].
    + apply find_last_not_of_Some in F as (pre & c & post & -> & -> & Hc & Hp).
      replace (S (length pre)) with (length (pre ++ [c])) by (rewrite app_length; simpl; lia).
      replace (pre ++ c :: post) with ((pre ++ [c]) ++ post) by (now rewrite <- app_assoc).
      rewrite firstn_app_len, skipn_app_len. repeat split; auto.
      * apply forallb_forall in Hp || idtac. apply Forall_forall.
        rewrite forallb_forall in Hp. exact Hp.
      * intros _ p d Hpd. apply app_inj_tail in Hpd as [_ <-]. exact Hc.
      * congruence.
    + rewrite find_last_not_of_None in F. simpl. repeat split; auto.
      * apply Forall_forall. rewrite forallb_forall in F. exact F.
      * intros _ p c Hp. destruct p; discriminate.
      * congruence.
  - intros [= <- <-]. rewrite app_nil_r. repeat split; auto.
    apply ceq_false in E. congruence.
Qed.

Lemma delim_ok_step d c : delim_ok d = true -> delim_ok (ctx_step d c) = true.
Proof.
  intros H. unfold ctx_step. destruct (ceq d c_nul).
  - destruct (ceq c c_squote || ceq c c_dquote) eqn:Q; auto.
    apply quote_delim_ok. exact Q.
  - destruct (ceq c d); auto.
Qed.
Lemma delim_ok_after s : forall d, delim_ok d = true -> delim_ok (ctx_after d s) = true.
Proof.
  induction s as [|c s IH]; intros d H; simpl; auto.
  apply IH, delim_ok_step, H.
Qed.

Definition starts_amp (s : str) : bool :=
  match s with c :: _ => ceq c c_amp | [] => false end.

(** How the text after the left part is cut. *)
Definition right_part (pod : ascii) (body : str) (f : File_Line) : Prop :=
  body = main_txt f ++ right_space f ++ right_txt f /\
  ((right_txt f = [] /\ no_break pod body /\ ctx_after pod body = c_nul /\
    open_delim f = c_nul) \/
   (right_txt f <> [] /\
    first_break pod body (length (main_txt f ++ right_space f)) /\
    open_delim f = ctx_after pod (main_txt f ++ right_space f))) /\
  Forall (fun c => mem c set_st = true) (right_space f) /\
  (open_delim f = c_nul -> no_trailing_st (main_txt f)) /\
  (open_delim f <> c_nul -> right_space f = []).

Lemma free_right_spec ln lt ls body pod b1 :
  match free_right ln (lt ++ ls ++ body) pod lt ls (length lt + length ls) b1 with
  | Ok f => delim_ok pod = true /\
      linenum f = ln /\ left_txt f = lt /\ left_space f = ls /\
      right_part pod body f /\
      bits f = (if starts_amp (right_txt f) then put_continued true b1 else b1)
  | Throw => delim_ok pod = true /\ no_break pod body /\ ctx_after pod body <> c_nul
  | UB => delim_ok pod = false \/ exists x, In x body /\ ctype_ok x = false
  end.
Proof.
  unfold free_right, find_trailing_free.
  destruct (delim_ok pod) eqn:D; cbn [bind assert_]; [|auto].
  rewrite app_assoc, <- app_length, skipn_app_len.
  pose proof (ftr_loop_spec body (length (lt ++ ls)) pod D) as H.
  destruct (ftr_loop body (length (lt ++ ls)) pod) as [[tb od]| |];
    [| simpl in *; now auto | simpl in *; now auto].
  cbn [bind assert_]. destruct tb as [t|]; simpl in H.
  - destruct H as (k & -> & [B1 B2] & ->).
    pose proof B1 as B1'. destruct B1 as (c & Hc & _).
    assert (Hk : k < length body) by (apply nth_error_Some; congruence).
    replace (length (lt ++ ls) + k - length (lt ++ ls)) with k by lia.
    unfold substr_n. rewrite (proj2 (Nat.leb_le _ _)) by (rewrite (app_length (lt ++ ls)); lia).
    cbn [bind assert_]. rewrite skipn_app_len.
    unfold substr. rewrite (proj2 (Nat.leb_le _ _)) by (rewrite (app_length (lt ++ ls)); lia).
    cbn [bind assert_]. rewrite skipn_app_ge by lia.
    replace (length (lt ++ ls) + k - length (lt ++ ls)) with k by lia.
    rewrite (skipn_cons_nth _ _ _ Hc). change (at_ (c :: skipn (S k) body) 0) with (Ok c). cbn [bind assert_].
    destruct (split_trailing (ctx_after pod (firstn k body)) (firstn k body)) as [m rs] eqn:S.
    apply split_trailing_spec in S as (E & H1 & H2 & H3).
    unfold fl_make. rewrite (delim_ok_after _ _ D). cbn [bind assert_ linenum left_txt left_space right_txt main_txt right_space open_delim bits starts_amp].
    repeat split; auto.
    + cbn [main_txt right_space right_txt]. rewrite app_assoc, <- E. rewrite <- (skipn_cons_nth _ _ _ Hc).
      symmetry. apply firstn_skipn.
    + right. cbn [main_txt right_space right_txt open_delim]. rewrite <- E. rewrite firstn_length_le by lia.
      repeat split; auto; congruence.
  - destruct H as (H1 & H2 & ->).
    unfold substr. rewrite (proj2 (Nat.leb_le _ _)) by (rewrite (app_length (lt ++ ls)); lia).
    cbn [bind assert_]. rewrite skipn_app_len.
    destruct (split_trailing c_nul body) as [m rs] eqn:S.
    apply split_trailing_spec in S as (E & H3 & H4 & H5).
    unfold fl_make. simpl. repeat split; auto; simpl.
    now rewrite app_nil_r.
Qed.

(** ** Outcomes of the left part *)
Lemma count_digits_out s n :
  match count_digits s n with
  | Ok _ => True | Throw => False
  | UB => exists x, In x s /\ ctype_ok x = false
  end.
Proof.
  revert s; induction n as [|n IH]; intros s; destruct s as [|c s]; simpl; auto.
  unfold c_isdigit. destruct (ctype_ok c) eqn:E; simpl; [|eauto].
  destruct (is_digit_b c); auto. specialize (IH s).
  destruct (count_digits s n); simpl; auto.
  destruct IH as (x & H1 & H2). eauto.
Qed.
Lemma count_spaces_out s :
  match count_spaces s with
  | Ok _ => True | Throw => False
  | UB => exists x, In x s /\ ctype_ok x = false
  end.
Proof.
  induction s as [|c s IH]; simpl; auto.
  unfold c_isspace. destruct (ctype_ok c) eqn:E; simpl; [|eauto].
  destruct (is_space_b c); auto.
  destruct (count_spaces s); simpl; auto.
  destruct IH as (x & H1 & H2). eauto.
Qed.
Lemma In_skipn {A} (x : A) n l : In x (skipn n l) -> In x l.
Proof. intros H. rewrite <- (firstn_skipn n l). apply in_or_app. auto. Qed.
Lemma In_firstn {A} (x : A) n l : In x (firstn n l) -> In x l.
Proof. intros H. rewrite <- (firstn_skipn n l). apply in_or_app. auto. Qed.

Lemma free_left_out raw plc ri c0 :
  nth_error raw ri = Some c0 ->
  match free_left raw plc ri (upper_b c0) with
  | Ok _ => True | Throw => False
  | UB => exists x, In x raw /\ ctype_ok x = false
  end.
Proof.
  intros Hri. assert (Hlen : ri < length raw) by (apply nth_error_Some; congruence).
  unfold free_left.
  assert (X : (if plc then Ok false else c_isdigit (upper_b c0)) = UB -> ctype_ok c0 = false).
  { destruct plc; [discriminate|]. unfold c_isdigit. rewrite upper_ctype.
    destruct (ctype_ok c0); congruence. }
  assert (Y : (if plc then Ok false else c_isdigit (upper_b c0)) <> Throw).
  { destruct plc; [discriminate|]. unfold c_isdigit.
    destruct (ctype_ok (upper_b c0)); congruence. }
  destruct (if plc then Ok false else c_isdigit (upper_b c0)) as [isd| |]; cbn [bind assert_].
  - destruct isd.
    + pose proof (count_digits_out (skipn ri raw) 6) as H.
      pose proof (count_digits_Ok (skipn ri raw) 6) as H0.
      destruct (count_digits (skipn ri raw) 6) as [k| |]; cbn [bind assert_]; auto.
      * destruct (H0 _ eq_refl) as (d & r & E & Hd & _).
        assert (ri + k <= length raw).
        { rewrite <- (firstn_skipn ri raw), E, !app_length, firstn_length. lia. }
        rewrite (substr_n_le raw 0) by lia. cbn [bind assert_].
        set (lt := firstn (ri + k) (skipn 0 raw)).
        pose proof (count_spaces_out (skipn (ri + k) raw)) as H2.
        destruct (is_empty lt); cbn [bind assert_]; [exact I|].
        destruct (count_spaces (skipn (ri + k) raw)) as [sk| |]; cbn [bind assert_]; auto.
        -- rewrite substr_n_le by lia. destruct (0 <? sk); exact I.
        -- destruct H2 as (x & H2 & H3). apply In_skipn in H2. eauto.
      * destruct H as (x & H1 & H2). apply In_skipn in H1. eauto.
    + destruct (ceq (upper_b c0) c_amp).
      * rewrite substr_n_le by lia. exact I.
      * rewrite substr_n_le by lia. destruct (0 <? ri); exact I.
  - congruence.
  - exists c0. split; [eapply nth_error_In; eauto|auto].
Qed.

(** ** Recognising special lines *)
Fixpoint prefixb (p s : str) : bool :=
  match p, s with
  | [], _ => true
  | x :: p', y :: s' => ceq y x && prefixb p' s'
  | _, [] => false
  end.
Lemma prefixb_true p s : prefixb p s = true <-> exists r, s = p ++ r.
Proof.
  revert s; induction p as [|x p IH]; intros s; simpl.
  - split; eauto.
  - destruct s as [|y s].
    + split; [discriminate|]. intros (r & E). discriminate.
    + rewrite andb_true_iff, IH, ceq_true. split.
      * intros [-> (r & ->)]. now exists r.
      * intros (r & E). injection E as -> ->. eauto.
Qed.

Lemma match_at_spec pat : forall txt pos,
  pos <= length txt -> ~ In c_nul pat ->
  match_at txt pos pat = Ok (prefixb pat (skipn pos txt)).
Proof.
  induction pat as [|p pat IH]; intros txt pos Hp Hn; simpl match_at; auto.
  assert (p <> c_nul) by (intros ->; apply Hn; now left).
  unfold at_. destruct (nth_error txt pos) as [c|] eqn:E.
  - rewrite (skipn_cons_nth _ _ _ E). cbn [bind]. simpl prefixb.
    destruct (ceq c p); simpl; auto. apply IH.
    + assert (pos < length txt) by (apply nth_error_Some; congruence). lia.
    + intros HH. apply Hn. now right.
  - apply nth_error_None in E. assert (pos = length txt) as -> by lia.
    rewrite Nat.eqb_refl, skipn_all. simpl.
    destruct (ceq c_nul p) eqn:F; auto. apply ceq_true in F. congruence.
Qed.

Lemma flpr_directive_spec b c post :
  is_flpr_directive (b ++ c :: post) (length b) = Ok (prefixb (L "#flpr") post).
Proof.
  unfold is_flpr_directive.
  replace (skipn (length b + 1) (b ++ c :: post)) with post by
    (rewrite skipn_app_ge by lia; now replace (length b + 1 - length b) with 1 by lia).
  destruct (Nat.ltb_spec (length b + 5) (length (b ++ c :: post))) as [Hl|Hl].
  - rewrite match_at_spec.
    + rewrite skipn_app_ge by lia. now replace (length b + 1 - length b) with 1 by lia.
    + lia.
    + simpl. intuition discriminate.
  - f_equal. symmetry. apply not_true_is_false. intros H.
    apply prefixb_true in H as (r & ->). revert Hl.
    rewrite !app_length. simpl. lia.
Qed.

Lemma prefixb_skipn p s n :
  prefixb p (skipn n s) = true <-> exists x r, (length x = n /\ s = x ++ p ++ r) \/ (p = [] /\ x = []).
Proof.
  rewrite prefixb_true. split.
  - intros (r & E). destruct (Nat.le_gt_cases n (length s)).
    + exists (firstn n s), r. left. split; [now apply firstn_length_le|].
      rewrite <- E. symmetry. apply firstn_skipn.
    + rewrite skipn_all2 in E by lia. symmetry in E. apply app_eq_nil in E as [-> _].
      exists [], []. auto.
  - intros (x & r & [[<- ->]|[-> _]]).
    + exists r. apply skipn_app_len.
    + exists (skipn n s). reflexivity.
Qed.

Lemma flpr_literal_spec b c post :
  is_flpr_literal (b ++ c :: post) (length b) =
  Ok (prefixb (L "#flpr") post && prefixb (L " literal") (skipn 8 post)).
Proof.
  unfold is_flpr_literal. rewrite flpr_directive_spec. cbn [bind].
  destruct (prefixb (L "#flpr") post); [cbn [andb]|reflexivity].
  assert (E : skipn (length b + 9) (b ++ c :: post) = skipn 8 post).
  { rewrite skipn_app_ge by lia. now replace (length b + 9 - length b) with 9 by lia. }
  destruct (Nat.ltb_spec (length b + 5 + 8) (length (b ++ c :: post))) as [Hl|Hl].
  - rewrite match_at_spec.
    + now rewrite E.
    + lia.
    + simpl. intuition discriminate.
  - f_equal. symmetry. apply not_true_is_false. intros H.
    apply prefixb_skipn in H as (x & r & [[Hx ->]|[H _]]); [|discriminate].
    revert Hl. rewrite !app_length. simpl. rewrite !app_length. simpl. lia.
Qed.

Lemma flpr_tolower_spec s :
  match flpr_tolower s with
  | Ok m => m = map lower_b s
  | Throw => False
  | UB => exists x, In x s /\ ctype_ok x = false
  end.
Proof.
  induction s as [|c s IH]; simpl; auto.
  unfold c_tolower. destruct (ctype_ok c) eqn:E; simpl; [|eauto].
  destruct (flpr_tolower s); simpl; auto.
  - now subst.
  - destruct IH as (x & H1 & H2). eauto.
Qed.

Lemma str_eqb_eq a b : str_eqb a b = true <-> a = b.
Proof.
  revert b; induction a as [|x a IH]; intros [|y b]; simpl; split; try congruence.
  - intros H. apply andb_prop in H as [H1 H2]. apply ceq_true in H1.
    apply IH in H2. congruence.
  - intros [= -> ->]. rewrite ceq_refl. simpl. now apply IH.
Qed.

Lemma skip_while_spec p s :
  exists a, s = a ++ skip_while p s /\ Forall (fun c => p c = true) a /\
    ~ starts_with p (skip_while p s).
Proof.
  induction s as [|c s IH]; simpl.
  - exists []. repeat split; auto. intros (c & r & E & _). discriminate.
  - destruct (p c) eqn:E.
    + destruct IH as (a & E1 & H1 & H2). exists (c :: a).
      simpl. rewrite <- E1. repeat split; auto.
    + exists []. repeat split; auto. intros (c' & r & E1 & H). injection E1 as <- <-. congruence.
Qed.

(** Two decompositions around the first character outside a class agree. *)
Lemma first_split_unique (p : ascii -> bool) b b' c c' r r' :
  Forall (fun x => p x = true) b -> Forall (fun x => p x = true) b' ->
  p c = false -> p c' = false ->
  b ++ c :: r = b' ++ c' :: r' -> b = b' /\ c = c' /\ r = r'.
Proof.
  revert b'; induction b as [|x b IH]; intros [|y b'] H H' Hc Hc' E; simpl in *.
  - injection E as -> ->. auto.
  - injection E as -> _. inversion H'. congruence.
  - injection E as -> _. inversion H. congruence.
  - injection E as -> E. inversion H; inversion H'; subst.
    destruct (IH b') as (-> & -> & ->); auto.
Qed.

Lemma lower_i c : lower_b c = "i"%char -> c = "i"%char \/ c = "I"%char.
Proof. destruct c as [[] [] [] [] [] [] [] []]; vm_compute; auto; discriminate. Qed.
Lemma i_not_blank c : lower_b c = "i"%char -> mem c set_str = false.
Proof. destruct c as [[] [] [] [] [] [] [] []]; vm_compute; auto; discriminate. Qed.

Lemma include_spec b c post :
  all_blank b -> mem c set_str = false ->
  match is_include_line (b ++ c :: post) (length b) with
  | Ok v => v = true <-> include_line (b ++ c :: post)
  | Throw => False
  | UB => exists x, In x (c :: post) /\ ctype_ok x = false
  end.
Proof.
  intros Hb Hc. unfold is_include_line.
  destruct (Nat.leb_spec (length (b ++ c :: post)) (length b)) as [Hl|Hl].
  { rewrite app_length in Hl. simpl in Hl. lia. }
  assert (E0 : at_ (b ++ c :: post) (length b) = Ok c).
  { apply at_Ok. left. apply nth_error_app_mid. }
  rewrite E0. cbn [bind].
  assert (Hinv : include_line (b ++ c :: post) ->
    exists kw sp q r, c :: post = kw ++ sp ++ q :: r /\ map lower_b kw = L "include" /\
      Forall (eq c_sp) sp /\ (q = c_squote \/ q = c_dquote)).
  { intros (b' & kw & sp & q & r & E & Hb' & Hk & Hs & Hq).
    destruct kw as [|k kw]; [discriminate|].
    simpl in E. apply first_split_unique with (p := fun x => mem x set_str) in E; auto.
    - destruct E as (-> & -> & ->). now exists (k :: kw), sp, q, r.
    - apply i_not_blank. simpl in Hk. congruence. }
  destruct (negb (ceq c "i") && negb (ceq c "I")) eqn:NI.
  { split; [discriminate|]. intros H. apply Hinv in H as (kw & sp & q & r & E & Hk & _).
    destruct kw as [|k kw]; [discriminate|]. injection E as <- _.
    injection Hk as Hk _. apply lower_i in Hk as [->| ->]; discriminate. }
  rewrite substr_n_le by lia. cbn [bind]. rewrite skipn_app_len.
  pose proof (flpr_tolower_spec (firstn 7 (c :: post))) as HL.
  destruct (flpr_tolower (firstn 7 (c :: post))) as [m| |]; cbn [bind]; auto.
  2:{ destruct HL as (x & H1 & H2). apply In_firstn in H1. eauto. }
  rewrite skipn_app_ge by lia. replace (length b + 7 - length b) with 7 by lia.
  subst m. destruct (str_eqb (map lower_b (firstn 7 (c :: post))) (L "include")) eqn:SE.
  - apply str_eqb_eq in SE.
    pose proof (firstn_skipn 7 (c :: post)) as FS.
    remember (skipn 7 (c :: post)) as rest. remember (firstn 7 (c :: post)) as kw.
    destruct (skip_while_spec (ceq c_sp) rest) as (sp & E1 & Hsp & Hns).
    assert (Hsp' : Forall (eq c_sp) sp).
    { eapply Forall_impl; [|exact Hsp]. intros a. apply ceq_true. }
    destruct (skip_while (ceq c_sp) rest) as [|q r] eqn:SW.
    + split; [discriminate|]. intros H.
      apply Hinv in H as (kw' & sp' & q & r & E & Hk & Hs & Hq).
      exfalso. rewrite <- FS, E1, app_nil_r in E.
      assert (length kw = length kw').
      { rewrite <- (map_length lower_b kw), <- (map_length lower_b kw'). congruence. }
      assert (kw = kw' /\ sp = sp' ++ q :: r) as [_ ->].
      { apply (f_equal (firstn (length kw))) in E as E2.
        rewrite firstn_app_len in E2. rewrite H in E2. rewrite firstn_app_len in E2.
        split; auto. subst kw'. apply app_inv_head in E. auto. }
      apply Forall_app in Hsp' as [_ Hsp']. inversion Hsp'. subst q.
      destruct Hq; discriminate.
    + split.
      * intros Hq. exists b, kw, sp, q, r. repeat split; auto.
        -- now rewrite <- E1, FS.
        -- apply orb_prop in Hq as [Hq|Hq]; apply ceq_true in Hq; auto.
      * intros H.
        apply Hinv in H as (kw' & sp' & q' & r' & E & Hk & Hs & Hq).
        rewrite <- FS, E1 in E.
        assert (length kw = length kw').
        { rewrite <- (map_length lower_b kw), <- (map_length lower_b kw'). congruence. }
        apply (f_equal (skipn (length kw))) in E.
        rewrite skipn_app_len, H, skipn_app_len in E.
        apply first_split_unique with (p := ceq c_sp) in E.
        -- destruct E as (_ & <- & _). destruct Hq as [-> | ->]; reflexivity.
        -- exact Hsp.
        -- eapply Forall_impl; [|exact Hs]. intros a <-. reflexivity.
        -- apply not_true_is_false. intros HH. apply Hns. now exists q, r.
        -- destruct Hq as [-> | ->]; reflexivity.
  - split; [discriminate|]. intros H.
    apply Hinv in H as (kw & sp & q & r & E & Hk & Hs & Hq).
    exfalso. apply not_true_iff_false in SE. apply SE. apply str_eqb_eq.
    rewrite E.
    assert (7 = length kw) as ->.
    { rewrite <- (map_length lower_b kw), Hk. reflexivity. }
    now rewrite firstn_app_len.
Qed.

Lemma find_blank raw r :
  find_first_not_of set_str raw = Some r ->
  exists b c post, raw = b ++ c :: post /\ r = length b /\ all_blank b /\
    mem c set_str = false.
Proof.
  unfold find_first_not_of. intros H.
  apply find_from_Some in H as (b & c & post & -> & -> & Hc & Hb).
  exists b, c, post. repeat split; auto.
  - apply Forall_forall. intros x Hx. rewrite forallb_forall in Hb.
    apply Hb in Hx. now rewrite negb_involutive in Hx.
  - now apply negb_true_iff in Hc.
Qed.
Lemma find_blank_None raw :
  find_first_not_of set_str raw = None <-> all_blank raw.
Proof.
  unfold find_first_not_of. rewrite find_from_None. unfold all_blank.
  rewrite Forall_forall, forallb_forall. split; intros H x Hx; apply H in Hx.
  - now rewrite negb_involutive in Hx.
  - now rewrite negb_involutive.
Qed.

Definition plain_left (f : File_Line) (ln : Z) (raw : str) : Prop :=
  linenum f = ln /\ left_txt f = raw /\ left_space f = [] /\ main_txt f = [] /\
  right_space f = [] /\ right_txt f = [] /\ open_delim f = c_nul.

Definition only_bits (f : File_Line) (b : Bits) : Prop := bits f = b.

(** The whole behaviour of analyze_free. *)
Lemma analyze_free_spec ln raw pod plc lit :
  match analyze_free ln raw pod plc lit with
  | Ok (f, lit') =>
      if lit then
        plain_left f ln raw /\ bits f = set_flpr_lit bits0 /\
        (lit' = false <-> flpr_lit_line raw)
      else
        (plain_left f ln raw /\
         ((blank_line raw /\ bits f = set_blank bits0 /\ lit' = false) \/
          (hash_line raw /\ bits f = set_preprocessor bits0 /\ lit' = false) \/
          (include_line raw /\ bits f = set_include bits0 /\ lit' = false) \/
          (flpr_lit_line raw /\ bits f = set_flpr_lit bits0 /\ lit' = true) \/
          (flpr_dir_line raw /\ ~ flpr_lit_line raw /\ bits f = set_flpr_pp bits0 /\ lit' = false) \/
          (bang_line raw /\ ~ flpr_dir_line raw /\
           bits f = set_comment (put_continued plc bits0) /\ lit' = false))) \/
        (code_line raw /\ lit' = false /\ linenum f = ln /\ delim_ok pod = true /\
         exists body b1, left_part plc raw (left_txt f) (left_space f) body /\
           raw = left_txt f ++ left_space f ++ body /\
           left_bits (left_txt f) b1 /\
           right_part pod body f /\
           bits f = (if starts_amp (right_txt f) then put_continued true b1 else b1))
  | Throw =>
      lit = false /\ code_line raw /\ delim_ok pod = true /\
      exists lt ls body, left_part plc raw lt ls body /\
        no_break pod body /\ ctx_after pod body <> c_nul
  | UB => delim_ok pod = false \/ ~ ascii7 raw
  end.
Proof.
  unfold analyze_free.
  assert (BAD : forall s, (exists x, In x s /\ ctype_ok x = false) -> ~ ascii7 s).
  { intros s (x & H1 & H2) H. unfold ascii7 in H. rewrite Forall_forall in H.
    apply H in H1. congruence. }
  destruct (find_first_not_of set_str raw) as [r|] eqn:F.
  2:{ apply find_blank_None in F. destruct lit; cbn [bind].
      - split; [repeat split|]. split; auto. split; [discriminate|].
        intros (b & x & r & Hb & Hx & ->).
        unfold all_blank in F. apply Forall_app in F as [_ F]. inversion F. discriminate.
      - left. split; [repeat split|]. left. repeat split; auto. }
  apply find_blank in F as (b & c0 & post & -> & -> & Hb & Hc).
  assert (E0 : at_ (b ++ c0 :: post) (length b) = Ok c0).
  { apply at_Ok. left. apply nth_error_app_mid. }
  assert (Hinv : forall b' c' r', all_blank b' -> mem c' set_str = false ->
             b ++ c0 :: post = b' ++ c' :: r' -> b = b' /\ c0 = c' /\ post = r').
  { intros b' c' r' Hb' Hc' E.
    apply first_split_unique with (p := fun x => mem x set_str) in E; auto. }
  assert (Hlitd : ceq c0 c_bang = true ->
    (prefixb (L "#flpr") post = true <-> flpr_dir_line (b ++ c0 :: post)) /\
    (prefixb (L "#flpr") post && prefixb (L " literal") (skipn 8 post) = true
       <-> flpr_lit_line (b ++ c0 :: post))).
  { intros A. apply ceq_true in A. subst c0. split.
    - rewrite prefixb_true. split.
      + intros (r & ->). exists b, r. auto.
      + intros (b' & r & Hb' & E). change (L "!#flpr") with (c_bang :: L "#flpr") in E.
        apply Hinv in E as (_ & _ & ->); auto. now exists r.
    - rewrite andb_true_iff, prefixb_true, prefixb_skipn. split.
      + intros ((r & ->) & x & r' & [[Hx E]|[H _]]); [|discriminate].
        exists b. destruct x as [|x1 [|x2 [|x3 [|x4 [|x5 x]]]]]; try discriminate.
        exists x, r'. split; auto. split; [simpl in Hx; lia|].
        change (L "!#flpr") with (c_bang :: L "#flpr").
        injection E as -> -> -> -> -> ->. reflexivity.
      + intros (b' & x & r & Hb' & Hx & E).
        change (L "!#flpr") with (c_bang :: L "#flpr") in E.
        apply Hinv in E as (_ & _ & ->); auto. split.
        * now exists (x ++ L " literal" ++ r).
        * exists (L "#flpr" ++ x), r. left. split.
          -- rewrite app_length, Hx. reflexivity.
          -- now rewrite <- app_assoc. }
  destruct lit.
  - rewrite E0. cbn [bind]. destruct (ceq c0 c_bang) eqn:A.
    + rewrite flpr_literal_spec. cbn [bind]. split; [repeat split|]. split; auto.
      rewrite negb_false_iff. apply Hlitd; auto.
    + cbn [bind]. split; [repeat split|]. split; auto. split; [discriminate|].
      intros (b' & x & r & Hb' & Hx & E).
      change (L "!#flpr") with (c_bang :: L "#flpr") in E.
      apply Hinv in E as (_ & -> & _); auto; discriminate.
  - rewrite E0. cbn [bind]. unfold c_toupper.
    destruct (ctype_ok c0) eqn:CT; cbn [bind].
    2:{ right. apply BAD. exists c0. split; auto. apply in_or_app. right. now left. }
    rewrite upper_hash, upper_bang.
    destruct ((length b =? 0) && ceq c0 c_hash) eqn:HH.
    { apply andb_prop in HH as [H1 H2]. apply Nat.eqb_eq in H1. apply ceq_true in H2.
      destruct b; [|discriminate]. subst c0. left. split; [repeat split|].
      right; left. split; [now exists post|auto]. }
    pose proof (include_spec b c0 post Hb Hc) as HI.
    destruct (is_include_line (b ++ c0 :: post) (length b)) as [inc| |]; cbn [bind].
    2:{ destruct HI. }
    2:{ right. apply BAD. destruct HI as (x & H1 & H2). exists x. split; auto.
        apply in_or_app. now right. }
    destruct inc.
    { left. split; [repeat split|]. right; right; left. split; [now apply HI|auto]. }
    destruct (ceq c0 c_bang) eqn:A.
    { rewrite flpr_literal_spec, flpr_directive_spec. cbn [bind].
      destruct (Hlitd eq_refl) as [Hd Hl].
      destruct (prefixb (L "#flpr") post && prefixb (L " literal") (skipn 8 post)).
      - left. split; [repeat split|]. right; right; right; left.
        split; [now apply Hl|auto].
      - assert (~ flpr_lit_line (b ++ c0 :: post)) by (intros X; apply Hl in X; discriminate).
        destruct (prefixb (L "#flpr") post).
        + left. split; [repeat split|]. right; right; right; right; left.
          split; [now apply Hd|auto].
        + left. split; [repeat split|]. right; right; right; right; right.
          split; [|split; [|auto]].
          * apply ceq_true in A. subst c0. now exists b, post.
          * intros X. apply Hd in X. discriminate. }
    assert (CL : code_line (b ++ c0 :: post)).
    { repeat split.
      - intros X. unfold blank_line, all_blank in X. apply Forall_app in X as [_ X].
        inversion X. congruence.
      - intros (b' & r & Hb' & E). apply Hinv in E as (_ & -> & _); auto; discriminate.
      - intros (r & E). destruct b as [|x b].
        + injection E as -> ->. discriminate.
        + injection E as -> _. inversion Hb. discriminate.
      - intros X. apply HI in X. discriminate. }
    unfold free_fortran.
    pose proof (free_left_out (b ++ c0 :: post) plc (length b) c0
                  (nth_error_app_mid _ _ _)) as HLo.
    pose proof (free_left_Ok b c0 post plc) as HLs.
    destruct (free_left (b ++ c0 :: post) plc (length b) (upper_b c0))
      as [[[[lt ls] ri2] b1]| |]; cbn [bind].
    + destruct (HLs _ _ _ _ Hb Hc eq_refl) as (body & LP & -> & Eq & LB). clear HLs.
      rewrite Eq.
      pose proof (free_right_spec ln lt ls body pod b1) as HR.
      rewrite Eq in LP, CL.
      destruct (free_right ln (lt ++ ls ++ body) pod lt ls (length lt + length ls) b1)
        as [f| |]; cbn [bind].
      * destruct HR as (D & H1 & H2 & H3 & H4 & H5). right.
        rewrite H2, H3. repeat (split; auto).
        exists body, b1. repeat (split; auto).
      * destruct HR as (D & H1 & H2). repeat (split; auto).
        exists lt, ls, body. auto.
      * destruct HR as [D|H]; auto. right. apply BAD. destruct H as (x & H1 & H2).
        exists x. split; auto. apply in_or_app. right. apply in_or_app. now right.
    + destruct HLo.
    + right. apply BAD. exact HLo.
Qed.

(** ** Consequences used by the property file *)
Lemma app_inj_class (p : ascii -> bool) a a' r r' :
  Forall (fun x => p x = true) a -> Forall (fun x => p x = true) a' ->
  ~ starts_with p r -> ~ starts_with p r' ->
  a ++ r = a' ++ r' -> a = a' /\ r = r'.
Proof.
  revert a'; induction a as [|x a IH]; intros [|y a'] H H' Hr Hr' E; simpl in *; auto.
  - exfalso. apply Hr. inversion H'; subst. now exists y, (a' ++ r').
  - exfalso. apply Hr'. inversion H; subst. now exists x, (a ++ r).
  - injection E as -> E. inversion H; inversion H'; subst.
    destruct (IH a') as (-> & ->); auto.
Qed.

Lemma digits_run_unique a a' r r' :
  all_digits a -> all_digits a' -> length a <= 6 -> length a' <= 6 ->
  (length a < 6 -> ~ starts_with is_digit_b r) ->
  (length a' < 6 -> ~ starts_with is_digit_b r') ->
  a ++ r = a' ++ r' -> a = a' /\ r = r'.
Proof.
  intros H H' L L' Hr Hr' E.
  assert (length a = length a') as EL.
  { destruct (Nat.lt_trichotomy (length a) (length a')) as [Hlt|[Heq|Hlt]]; auto; exfalso.
    - apply Hr; [lia|].
      assert (E2 : r = skipn (length a) a' ++ r').
      { rewrite <- (skipn_app_len a r), E, skipn_app.
        replace (length a - length a') with 0 by lia. reflexivity. }
      destruct (skipn (length a) a') as [|y q] eqn:S.
      { apply (f_equal (@length _)) in S. rewrite skipn_length in S. simpl in S. lia. }
      exists y, (q ++ r'). split; auto. unfold all_digits in H'. rewrite Forall_forall in H'.
      apply H'. apply In_skipn with (length a). rewrite S. now left.
    - apply Hr'; [lia|].
      assert (E2 : r' = skipn (length a') a ++ r).
      { rewrite <- (skipn_app_len a' r'), <- E, skipn_app.
        replace (length a' - length a) with 0 by lia. reflexivity. }
      destruct (skipn (length a') a) as [|y q] eqn:S.
      { apply (f_equal (@length _)) in S. rewrite skipn_length in S. simpl in S. lia. }
      exists y, (q ++ r). split; auto. unfold all_digits in H. rewrite Forall_forall in H.
      apply H. apply In_skipn with (length a'). rewrite S. now left. }
  assert (a = a') as ->.
  { rewrite <- (firstn_app_len a r), E, EL. apply firstn_app_len. }
  split; auto. now apply app_inv_head in E.
Qed.

Lemma digits_head x d : all_digits (x :: d) -> mem x set_str = false.
Proof. intros H. inversion H; subst. now apply digit_not_blank. Qed.

Lemma left_part_det cont raw lt ls body lt' ls' body' :
  left_part cont raw lt ls body -> left_part cont raw lt' ls' body' ->
  lt = lt' /\ ls = ls' /\ body = body'.
Proof.
  intros H H'.
  assert (NB : forall c, is_digit_b c = true -> mem c set_str = false) by apply digit_not_blank.
  destruct H as [b body Hb Hne Hs Ha Hd | b body Hb | b d w body Hc Hb Hd Hl Hw Hn Hs];
  inversion H' as [b' body1 Hb' Hne' Hs' Ha' Hd' E | b' body1 Hb' E
                  | b' d' w' body1 Hc' Hb' Hd' Hl' Hw' Hn' Hs' E]; subst.
  - symmetry in E. apply app_inj_class with (p := fun c => mem c set_str) in E; auto.
  - symmetry in E. apply app_inj_class with (p := fun c => mem c set_str) in E; auto.
    + destruct E as [-> ->]. exfalso. apply Ha. now exists c_amp, body'.
    + intros (c & r & Eq & M). injection Eq as <- <-. discriminate.
  - destruct d' as [|x d']; [simpl in Hl'; lia|].
    symmetry in E. apply app_inj_class with (p := fun c => mem c set_str) in E; auto.
    + destruct E as [-> ->]. exfalso. apply Hd; auto.
      exists x, (d' ++ ls' ++ body'). split; auto. now inversion Hd'.
    + intros (c & r & Eq & M). injection Eq as <- <-. apply digits_head in Hd'. congruence.
  - symmetry in E. apply app_inj_class with (p := fun c => mem c set_str) in E; auto.
    + destruct E as [-> <-]. exfalso. apply Ha'. now exists c_amp, body.
    + intros (c & r & Eq & M). injection Eq as <- <-. discriminate.
  - apply first_split_unique with (p := fun x => mem x set_str) in E; auto.
    destruct E as (-> & _ & ->). auto.
  - destruct d' as [|x d']; [simpl in Hl'; lia|]. simpl in E.
    pose proof (Forall_inv Hd') as Hx. cbv beta in Hx. apply digits_head in Hd'.
    apply first_split_unique with (p := fun x => mem x set_str) in E; auto.
    destruct E as (_ & E & _). rewrite <- E in Hx || rewrite E in Hx. discriminate Hx.
  - destruct d as [|x d]; [simpl in Hl; lia|].
    symmetry in E. apply app_inj_class with (p := fun c => mem c set_str) in E; auto.
    + destruct E as [-> <-]. exfalso. apply Hd'; auto.
      exists x, (d ++ w ++ body). split; auto. now inversion Hd.
    + intros (c & r & Eq & M). injection Eq as <- <-. apply digits_head in Hd. congruence.
  - destruct d as [|x d]; [simpl in Hl; lia|]. simpl in E.
    pose proof (Forall_inv Hd) as Hx. cbv beta in Hx. apply digits_head in Hd. symmetry in E.
    apply first_split_unique with (p := fun x => mem x set_str) in E; auto.
    destruct E as (_ & E & _). rewrite <- E in Hx || rewrite E in Hx. discriminate Hx.
  - assert (b = b' /\ d ++ w ++ body = d' ++ ls' ++ body') as [-> E2].
    { destruct d as [|x d]; [simpl in Hl; lia|]. destruct d' as [|x' d']; [simpl in Hl'; lia|].
      symmetry in E.
      apply app_inj_class with (p := fun c => mem c set_str) in E; auto.
      - intros (c & r & Eq & M). injection Eq as <- <-. apply digits_head in Hd. congruence.
      - intros (c & r & Eq & M). injection Eq as <- <-. apply digits_head in Hd'. congruence. }
    apply digits_run_unique in E2; auto; try lia.
    destruct E2 as [-> E2].
    apply app_inj_class with (p := is_space_b) in E2; auto.
Qed.

Lemma left_part_app cont raw lt ls body :
  left_part cont raw lt ls body -> raw = lt ++ ls ++ body.
Proof. intros []; simpl; rewrite <- ?app_assoc; reflexivity. Qed.

Lemma analyze_free_lossless_lem ln raw pod plc lit f lit' :
  analyze_free ln raw pod plc lit = Ok (f, lit') ->
  linenum f = ln /\ is_fixed_format f = false /\
  left_txt f ++ left_space f ++ main_txt f ++ right_space f ++ right_txt f = raw.
Proof.
  intros H. pose proof (analyze_free_spec ln raw pod plc lit) as S. rewrite H in S.
  assert (P : plain_left f ln raw ->
     left_txt f ++ left_space f ++ main_txt f ++ right_space f ++ right_txt f = raw).
  { intros (_ & -> & -> & -> & -> & -> & _). now rewrite !app_nil_r. }
  unfold is_fixed_format.
  destruct lit.
  - destruct S as (S & -> & _). repeat split; auto. apply S.
  - destruct S as [(S & S2)|(_ & _ & L & _ & body & b1 & _ & -> & LB & RP & ->)].
    + split; [apply S|]. split; [|auto].
      decompose [and or] S2; match goal with E : bits f = _ |- _ => rewrite E end; reflexivity.
    + split; auto. split.
      * destruct LB as [[_ ->]|[[_ ->]|[_ ->]]]; destruct (starts_amp (right_txt f)); reflexivity.
      * destruct RP as (-> & _). reflexivity.
Qed.

Lemma print_free ln raw pod plc lit f lit' :
  analyze_free ln raw pod plc lit = Ok (f, lit') -> print_line f = raw.
Proof.
  intros H. apply analyze_free_lossless_lem in H as (_ & F & H).
  unfold print_line. rewrite F, andb_false_r. exact H.
Qed.

Lemma analyze_free_total ln raw pod plc lit :
  ascii7 raw -> delim_ok pod = true -> analyze_free ln raw pod plc lit <> UB.
Proof.
  intros A D E. pose proof (analyze_free_spec ln raw pod plc lit) as S.
  rewrite E in S. destruct S; [congruence|contradiction].
Qed.

Lemma dir_bang raw : flpr_dir_line raw -> bang_line raw.
Proof. intros (b & r & Hb & ->). exists b, (L "#flpr" ++ r). auto. Qed.
Lemma lit_dir raw : flpr_lit_line raw -> flpr_dir_line raw.
Proof. intros (b & x & r & Hb & _ & ->). exists b, (x ++ L " literal" ++ r). auto. Qed.

Lemma code_line_Ok ln raw pod plc f lit' :
  analyze_free ln raw pod plc false = Ok (f, lit') -> code_line raw ->
  lit' = false /\
  exists body b1, left_part plc raw (left_txt f) (left_space f) body /\
    left_bits (left_txt f) b1 /\ right_part pod body f /\
    bits f = (if starts_amp (right_txt f) then put_continued true b1 else b1).
Proof.
  intros H (C1 & C2 & C3 & C4). pose proof (analyze_free_spec ln raw pod plc false) as S.
  rewrite H in S. cbv beta iota in S.
  destruct S as [(_ & S)|(_ & Hl & _ & _ & body & b1 & ? & _ & ? & ? & ?)].
  - exfalso. destruct S as [(?&_)|[(?&_)|[(?&_)|[(?&_)|[(?&_)|(?&_)]]]]]; auto.
    + apply C2, dir_bang, lit_dir; auto.
    + apply C2, dir_bang; auto.
  - split; auto. exists body, b1. auto.
Qed.

Lemma analyze_free_throw_iff ln raw pod plc lit :
  ascii7 raw -> delim_ok pod = true ->
  (analyze_free ln raw pod plc lit = Throw <->
   lit = false /\ code_line raw /\
   exists lt ls body, left_part plc raw lt ls body /\
     no_break pod body /\ ctx_after pod body <> c_nul).
Proof.
  intros A D. split.
  - intros H. pose proof (analyze_free_spec ln raw pod plc lit) as S. rewrite H in S.
    destruct S as (? & ? & _ & ?). auto.
  - intros (-> & C & lt & ls & body & LP & NB & CT).
    destruct (analyze_free ln raw pod plc false) as [[f l]| |] eqn:E; auto; exfalso.
    + apply code_line_Ok in E as (_ & body' & b1 & LP' & _ & RP & _); auto.
      destruct (left_part_det _ _ _ _ _ _ _ _ LP LP') as (_ & _ & ->).
      destruct RP as (_ & [(_ & _ & X & _)|(_ & [X _] & _)] & _); auto.
      now apply (NB _ X).
    + now apply analyze_free_total in E.
Qed.

Lemma ctx_break_char d body i :
  breaks d body i -> exists c, nth_error body i = Some c /\ (c = c_bang \/ c = c_amp).
Proof. intros (c & E & [[_ H]|[_ [H _]]]); exists c; auto. Qed.

Lemma ends_amp_not_digits p q d :
  p ++ [c_amp] = q ++ d -> all_digits d -> d <> [] -> False.
Proof.
  intros E Hd Hn. destruct (exists_last Hn) as (d' & x & ->).
  rewrite app_assoc in E. apply app_inj_tail in E as [_ <-].
  unfold all_digits in Hd. apply Forall_app in Hd as [_ Hd]. inversion Hd; subst. discriminate.
Qed.

Lemma no_trailing_char m p c :
  no_trailing_st m -> m = p ++ [c] -> mem c set_st = false.
Proof. intros H ->. exact (H p c eq_refl). Qed.

Lemma free_shape ln raw pod plc f lit' :
  analyze_free ln raw pod plc false = Ok (f, lit') -> code_line raw ->
  is_fortran f = true /\
  all_white (left_space f) /\
  Forall (fun c => c = c_sp \/ c = c_tab) (right_space f) /\
  (open_delim f = c_nul -> forall p c, main_txt f = p ++ [c] -> c <> c_sp /\ c <> c_tab) /\
  (is_continuation f = false ->
     forall c r, main_txt f = c :: r -> c <> c_sp /\ c <> c_tab /\ c <> c_cr) /\
  (right_txt f = [] \/ exists r, right_txt f = c_amp :: r \/ right_txt f = c_bang :: r) /\
  (is_continued f = true <-> exists r, right_txt f = c_amp :: r) /\
  (has_label f = true <->
     exists p d, left_txt f = p ++ d /\ all_digits d /\ d <> []) /\
  (is_continuation f = true <-> exists p, left_txt f = p ++ [c_amp]).
Proof.
  intros H C. apply code_line_Ok in H as (_ & body & b1 & LP & LB & RP & B); auto.
  destruct RP as (EB & RT & RS & NT & _).
  assert (ST : forall c, mem c set_st = true -> c = c_sp \/ c = c_tab).
  { intros c Hm. apply mem_In in Hm. simpl in Hm. intuition. }
  assert (BW : all_blank (left_space f) -> all_white (left_space f)).
  { apply Forall_impl. intros c Hm. apply mem_In in Hm. simpl in Hm.
    destruct Hm as [<-|[<-|[<-|[]]]]; reflexivity. }
  assert (SA : starts_amp (right_txt f) = true <-> exists r, right_txt f = c_amp :: r).
  { destruct (right_txt f) as [|c r]; simpl; split; try discriminate.
    - intros (r & E); discriminate.
    - intros E. apply ceq_true in E. subst. now exists r.
    - intros (r' & E). injection E as -> _. apply ceq_refl. }
  unfold is_fortran, is_trivial, is_comment, is_blank, is_preprocessor, is_flpr_pp,
    is_flpr_lit, is_include, is_continued, has_label, is_continuation.
  assert (RC : (right_txt f = [] \/ exists r, right_txt f = c_amp :: r \/ right_txt f = c_bang :: r)).
  { destruct RT as [(? & _)|(Hn & (Hb & _) & _)]; [now left|right].
    apply ctx_break_char in Hb as (c & E & Hc).
    rewrite EB, app_assoc in E. destruct (right_txt f) as [|x r]; [contradiction|].
    rewrite nth_error_app_mid in E. injection E as ->. exists r. destruct Hc as [-> | ->]; auto. }
  assert (RSP : Forall (fun c => c = c_sp \/ c = c_tab) (right_space f)).
  { eapply Forall_impl; [|exact RS]. auto. }
  assert (NTR : open_delim f = c_nul -> forall p c, main_txt f = p ++ [c] -> c <> c_sp /\ c <> c_tab).
  { intros O p c E. pose proof (no_trailing_char _ _ _ (NT O) E) as M.
    split; intros ->; discriminate. }
  assert (LBX : forall A, (exists p d, left_txt f = p ++ d /\ all_digits d /\ d <> []) ->
     (exists p, left_txt f = p ++ [c_amp]) -> A : Prop).
  { intros A (p & d & -> & Hd & Hn) (q & E). exfalso. symmetry in E.
    eapply ends_amp_not_digits; eauto. }
  assert (LBE : left_txt f = [] -> ~ (exists p d, left_txt f = p ++ d /\ all_digits d /\ d <> []) /\ ~ (exists p, left_txt f = p ++ [c_amp])).
  { intros ->. split.
    - intros (p & d & E & _ & Hn). symmetry in E. apply app_eq_nil in E as [_ ->]. auto.
    - intros (p & E). now apply app_cons_not_nil in E. }
  assert (WSP : is_continuation f = false -> all_white (left_space f) /\ forall c r, main_txt f = c :: r -> c <> c_sp /\ c <> c_tab /\ c <> c_cr).
  { unfold is_continuation. intros IC. inversion LP; subst.
    - split; [auto|]. intros c r E. rewrite E in *.
      assert (mem c set_str = false) as M.
      { apply not_true_is_false. intros M.
        match goal with HH : ~ starts_with (fun c => mem c set_str) _ |- _ => apply HH end.
        exists c, (r ++ right_space f ++ right_txt f). split; auto. }
      repeat split; intros ->; discriminate M.
    - exfalso. rewrite B in IC.
      destruct LB as [[E _]|[[_ ->]|[(p & d & E & Hd & Hn) _]]].
      + rewrite <- H in E. symmetry in E. now apply app_cons_not_nil in E.
      + destruct (starts_amp _); discriminate IC.
      + rewrite <- H in E. eapply ends_amp_not_digits; eauto.
    - split; [assumption|]. intros c r E. rewrite E in *.
      assert (is_space_b c = false) as M.
      { apply not_true_is_false. intros M.
        match goal with HH : ~ starts_with is_space_b (_ :: _) |- _ => apply HH
                      | HH : ~ starts_with is_space_b _ |- _ => apply HH end.
        exists c, (r ++ right_space f ++ right_txt f). split; auto. }
      repeat split; intros ->; discriminate M. }
  unfold is_continuation in WSP.
  assert (LSP : all_white (left_space f)).
  { inversion LP; subst; auto. constructor. }
  rewrite B in *.
  assert (SF : starts_amp (right_txt f) = false -> ~ exists r, right_txt f = c_amp :: r).
  { intros E HH. apply SA in HH. congruence. }
  refine (conj _ (conj LSP (conj RSP (conj NTR (conj _ (conj RC (conj _ (conj _ _)))))))).
  - destruct LB as [[E1 ->]|[[E1 ->]|[E1 ->]]];
      destruct (starts_amp (right_txt f)); reflexivity.
  - intros IC. now apply WSP.
  - rewrite <- SA. destruct LB as [[E1 ->]|[[E1 ->]|[E1 ->]]];
      destruct (starts_amp (right_txt f)); cbn; tauto.
  - destruct LB as [[E1 ->]|[[E1 ->]|[E1 ->]]].
    + destruct (LBE E1). destruct (starts_amp (right_txt f)); cbn; split; try discriminate; tauto.
    + destruct (starts_amp (right_txt f)); cbn; (split; [discriminate|]); intros HH; eapply LBX; eauto.
    + destruct (starts_amp (right_txt f)); cbn; tauto.
  - destruct LB as [[E1 ->]|[[E1 ->]|[E1 ->]]].
    + destruct (LBE E1). destruct (starts_amp (right_txt f)); cbn; split; try discriminate; tauto.
    + destruct (starts_amp (right_txt f)); cbn; tauto.
    + destruct (starts_amp (right_txt f)); cbn; (split; [discriminate|]); intros HH; eapply LBX; eauto.
Qed.

(** ** Classification is exclusive *)
Lemma class_blank_others raw : blank_line raw ->
  ~ bang_line raw /\ ~ hash_line raw /\ ~ include_line raw.
Proof.
  intros B. repeat split.
  - intros (b & r & _ & ->). unfold blank_line, all_blank in B.
    apply Forall_app in B as [_ B]. inversion B; discriminate.
  - intros (r & ->). inversion B; discriminate.
  - intros (b & kw & sp & q & r & -> & _ & Hk & _).
    unfold blank_line, all_blank in B. apply Forall_app in B as [_ B].
    destruct kw as [|k kw]; [discriminate|]. inversion B; subst.
    injection Hk as Hk _. apply lower_i in Hk as [->| ->]; discriminate.
Qed.
Lemma class_bang_others raw : bang_line raw ->
  ~ hash_line raw /\ ~ include_line raw.
Proof.
  intros (b & r & Hb & ->). split.
  - intros (r' & E). destruct b as [|x b]; [discriminate|].
    injection E as -> _. inversion Hb; discriminate.
  - intros (b' & kw & sp & q & r' & E & Hb' & Hk & _).
    destruct kw as [|k kw]; [discriminate|].
    injection Hk as Hk _. apply lower_i in Hk. simpl in E.
    apply first_split_unique with (p := fun x => mem x set_str) in E; auto.
    + destruct E as (_ & <- & _). destruct Hk; discriminate.
    + destruct Hk as [->| ->]; reflexivity.
Qed.
Lemma class_hash_others raw : hash_line raw -> ~ include_line raw.
Proof.
  intros (r & ->) (b' & kw & sp & q & r' & E & Hb' & Hk & _).
  destruct kw as [|k kw]; [discriminate|].
  injection Hk as Hk _. apply lower_i in Hk. simpl in E.
  apply (first_split_unique (fun x => mem x set_str) []) in E; auto.
  - destruct E as (_ & <- & _). destruct Hk; discriminate.
  - destruct Hk as [->| ->]; reflexivity.
Qed.

Lemma free_classes ln raw pod plc f lit' :
  analyze_free ln raw pod plc false = Ok (f, lit') ->
  (is_fortran f = true <-> code_line raw) /\
  (is_blank f = true <-> blank_line raw) /\
  (is_preprocessor f = true <-> hash_line raw) /\
  (is_include f = true <-> include_line raw) /\
  (is_flpr_lit f = true <-> flpr_lit_line raw) /\
  (is_flpr_pp f = true <-> flpr_dir_line raw /\ ~ flpr_lit_line raw) /\
  (is_comment f = true <-> bang_line raw /\ ~ flpr_dir_line raw) /\
  (is_fortran f = false -> left_txt f = raw) /\
  (lit' = true <-> flpr_lit_line raw).
Proof.
  intros H. pose proof (analyze_free_spec ln raw pod plc false) as S.
  rewrite H in S. cbv beta iota in S.
  pose proof (class_blank_others raw). pose proof (class_bang_others raw).
  pose proof (class_hash_others raw). pose proof (dir_bang raw). pose proof (lit_dir raw).
  unfold is_fortran, is_trivial, is_comment, is_blank, is_preprocessor, is_flpr_pp,
    is_flpr_lit, is_include, code_line.
  destruct S as [(P & S)|(C & -> & _ & _ & body & b1 & _ & _ & LB & _ & B)].
  - assert (left_txt f = raw) by apply P. clear P.
    destruct S as [(?&->&->)|[(?&->&->)|[(?&->&->)|[(?&->&->)|[(?&?&->&->)|(?&?&->&->)]]]]];
    destruct plc; cbn; intuition congruence.
  - destruct C as (C1 & C2 & C3 & C4).
    assert (b_blank (bits f) = false /\ b_comment (bits f) = false /\ b_preprocessor (bits f) = false
      /\ b_include (bits f) = false /\ b_flpr_pp (bits f) = false /\ b_flpr_lit (bits f) = false)
      as (-> & -> & -> & -> & -> & ->).
    { rewrite B. destruct LB as [[_ ->]|[[_ ->]|[_ ->]]];
      destruct (starts_amp (right_txt f)); cbn; auto 8. }
    cbn. intuition congruence.
Qed.

Lemma free_literal ln raw pod plc f lit' :
  analyze_free ln raw pod plc true = Ok (f, lit') ->
  is_flpr_lit f = true /\ is_fortran f = false /\ left_txt f = raw /\
  (lit' = false <-> flpr_lit_line raw).
Proof.
  intros H. pose proof (analyze_free_spec ln raw pod plc true) as S.
  rewrite H in S. cbv beta iota in S. destruct S as (P & B & I).
  unfold is_flpr_lit, is_fortran, is_trivial, is_comment, is_blank, is_preprocessor,
    is_flpr_pp, is_flpr_lit, is_include.
  rewrite B. cbn. repeat split; try apply I. apply P.
Qed.

(** decide [code_line] on a concrete text (used by the examples) *)
Definition code_lineb (raw : str) : bool :=
  match find_first_not_of set_str raw with
  | None => false
  | Some i => match nth_error raw i with
              | Some c => negb (ceq c c_bang) && negb (ceq c c_hash && (i =? 0))
                          && negb (ceq (lower_b c) "i"%char)
              | None => false
              end
  end.
Lemma code_lineb_ok raw : code_lineb raw = true -> code_line raw.
Proof.
  unfold code_lineb. destruct (find_first_not_of set_str raw) as [r|] eqn:F; [|discriminate].
  apply find_blank in F as (b & c & post & -> & -> & Hb & Hc).
  rewrite nth_error_app_mid, !andb_true_iff, !negb_true_iff. intros ((H1 & H2) & H3).
  repeat split.
  - intros B. unfold blank_line, all_blank in B. apply Forall_app in B as [_ B].
    inversion B; congruence.
  - intros (b' & r & Hb' & E).
    apply first_split_unique with (p := fun x => mem x set_str) in E; auto.
    destruct E as (_ & -> & _). discriminate.
  - intros (r & E). apply (first_split_unique (fun x => mem x set_str) b []) in E; auto.
    destruct E as (-> & -> & _). discriminate.
  - intros (b' & kw & sp & q & r' & E & Hb' & Hk & _).
    destruct kw as [|k kw]; [discriminate|].
    injection Hk as Hk _. simpl in E.
    apply first_split_unique with (p := fun x => mem x set_str) in E; auto.
    + destruct E as (_ & -> & _). rewrite Hk in H3. discriminate.
    + apply lower_i in Hk as [->| ->]; reflexivity.
Qed.
