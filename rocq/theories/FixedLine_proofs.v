(** Proofs about fixed-format line analysis. *)
From Verif Require Import Base Base_lemmas FileLine FileLine_spec FileLine_proofs FixedLine_spec.

Lemma bang_0 d c r : bang_at d (c :: r) 0 <-> c = c_bang /\ d = c_nul.
Proof. unfold bang_at. simpl. intuition congruence. Qed.
Lemma bang_S d c r j : bang_at d (c :: r) (S j) <-> bang_at (ctx_step d c) r j.
Proof. reflexivity. Qed.
Lemma first_bang_cons d c r i :
  ~ bang_at d (c :: r) 0 -> first_bang (ctx_step d c) r i -> first_bang d (c :: r) (S i).
Proof.
  intros H0 [H1 H2]. split; [now apply bang_S|].
  intros [|j] Hj; auto. rewrite bang_S. apply H2. lia.
Qed.
Lemma no_bang_cons d c r :
  ~ bang_at d (c :: r) 0 -> no_bang (ctx_step d c) r -> no_bang d (c :: r).
Proof. intros H0 H [|j]; auto. rewrite bang_S. apply H. Qed.

Definition ftx_spec (d : ascii) (rest : str) (i : nat) (o : option nat * ascii) : Prop :=
  match o with
  | (Some t, od) => exists k, t = i + k /\ first_bang d rest k /\ od = c_nul
  | (None, od) => no_bang d rest /\ od = ctx_after d rest
  end.
Lemma ftx_spec_cons d c r i o :
  ~ bang_at d (c :: r) 0 -> ftx_spec (ctx_step d c) r (S i) o -> ftx_spec d (c :: r) i o.
Proof.
  intros H0. destruct o as [[t|] od]; simpl.
  - intros (k & -> & H1 & ->). exists (S k). split; [lia|].
    split; [now apply first_bang_cons|reflexivity].
  - intros (H1 & H2). split; [now apply no_bang_cons|]. auto.
Qed.

Lemma ftx_loop_spec rest : forall i d, delim_ok d = true ->
  ftx_spec d rest i (ftx_loop rest i d).
Proof.
  induction rest as [|c r IH]; intros i d Hd; simpl ftx_loop.
  - simpl. split; auto. intros [|j] [H _]; discriminate.
  - destruct (ceq d c_nul) eqn:E.
    + apply ceq_true in E. subst d. destruct (is_quote c) eqn:Q.
      * apply ftx_spec_cons.
        -- rewrite bang_0. intros [-> _]. discriminate.
        -- unfold ctx_step. simpl. pose proof Q as Q'. unfold is_quote in Q. rewrite Q.
           apply IH. now apply quote_delim_ok.
      * destruct (ceq c c_bang) eqn:B.
        -- apply ceq_true in B. subst c. simpl. exists 0. split; [lia|]. split; auto.
           split; [|lia]. now apply bang_0.
        -- apply ftx_spec_cons.
           ++ rewrite bang_0. intros [-> _]. discriminate.
           ++ unfold ctx_step. simpl. unfold is_quote in Q. rewrite Q. now apply IH.
    + assert (X : ~ bang_at d (c :: r) 0).
      { rewrite bang_0. intros [_ ->]. discriminate. }
      destruct (ceq c d) eqn:CD.
      * apply ftx_spec_cons; auto. unfold ctx_step. rewrite E, CD. now apply IH.
      * apply ftx_spec_cons; auto. unfold ctx_step. rewrite E, CD. now apply IH.
Qed.

Lemma firstn_min {A} n (l : list A) : firstn (Nat.min n (length l)) l = firstn n l.
Proof.
  destruct (Nat.le_ge_cases n (length l)).
  - now rewrite Nat.min_l.
  - rewrite Nat.min_r by lia. rewrite firstn_all. symmetry. apply firstn_all2. lia.
Qed.

(** What the scan for the trailing part finds, when the statement text starts
    within the last column. *)
Definition ftf_spec (pod : ascii) (lc : Z) (n : nat) (body : str) (o : option nat * ascii) : Prop :=
  let win := window lc n body in
  (exists k, o = (Some (n + k), c_nul) /\ first_bang pod win k) \/
  (no_bang pod win /\
   ((o = (None, ctx_after pod win) /\ win = body) \/
    (o = (Some (Z.to_nat lc), ctx_after pod win) /\ (0 < lc)%Z /\
     Z.to_nat lc = n + length win /\ length win < length body))).

Lemma find_trailing_fixed_spec pre body lc pod o :
  ((lc <= 0)%Z \/ length pre <= Z.to_nat lc) ->
  find_trailing_fixed (pre ++ body) (length pre) lc pod = Ok o ->
  delim_ok pod = true /\ ftf_spec pod lc (length pre) body o.
Proof.
  intros Hlc H. unfold find_trailing_fixed in H.
  apply bind_Ok in H as (u & Hu & H). apply assert_Ok in Hu. split; auto.
  rewrite app_length in H. rewrite skipn_app_len in H.
  set (lc' := if (0 <? lc)%Z then Nat.min (Z.to_nat lc) (length pre + length body)
              else length pre + length body) in *.
  assert (W : firstn (lc' - length pre) body = window lc (length pre) body).
  { unfold window, lc'. destruct (0 <? lc)%Z.
    - rewrite <- (firstn_min (Z.to_nat lc - length pre)). f_equal. lia.
    - replace (length pre + length body - length pre) with (length body) by lia.
      apply firstn_all. }
  rewrite W in H.
  assert (LW : length (window lc (length pre) body) = lc' - length pre).
  { rewrite <- W. rewrite firstn_length. unfold lc'. destruct (0 <? lc)%Z; lia. }
  pose proof (ftx_loop_spec (window lc (length pre) body) (length pre) pod Hu) as S.
  unfold ftf_spec. cbv zeta.
  destruct (ftx_loop _ _ _) as [[t|] od]; simpl in S.
  - left. destruct S as (k & -> & F & ->). injection H as <-. eauto.
  - right. destruct S as (F & ->). split; auto.
    destruct (Nat.ltb_spec lc' (length pre + length body)); injection H as <-.
    + right. assert (0 < lc)%Z as L0.
      { unfold lc' in *. destruct (Z.ltb_spec 0 lc); auto; lia. }
      unfold lc' in *. destruct (Z.ltb_spec 0 lc); [|lia].
      rewrite Nat.min_l in * by lia. rewrite LW.
      repeat split; auto; lia.
    + left. split; auto. rewrite <- W. apply firstn_all2. lia.
Qed.

(** How main and right text relate to the statement text. *)
Definition fixed_right (pod : ascii) (lc : Z) (n : nat) (body : str) (f : File_Line) : Prop :=
  let win := window lc n body in
  main_txt f ++ right_space f <> [] /\
  ((exists k, first_bang pod win k /\ main_txt f ++ right_space f = firstn k win /\
      right_txt f = skipn k body /\ open_delim f = c_nul) \/
   (no_bang pod win /\ main_txt f ++ right_space f = win /\
      open_delim f = ctx_after pod win /\
      beyond (skipn (length win) body) (right_txt f))) /\
  Forall (fun c => mem c set_st = true) (right_space f) /\
  (open_delim f = c_nul -> no_trailing_st (main_txt f)) /\
  (open_delim f <> c_nul -> right_space f = []).

Lemma first_bang_lt d s k : first_bang d s k -> k < length s.
Proof. intros [[H _] _]. apply nth_error_Some. congruence. Qed.

Lemma window_firstn lc n body k :
  k <= length (window lc n body) -> firstn k (window lc n body) = firstn k body.
Proof.
  unfold window. destruct (0 <? lc)%Z; auto. rewrite firstn_length. intros H.
  rewrite firstn_firstn. f_equal. lia.
Qed.
Lemma window_prefix lc n body : window lc n body = firstn (length (window lc n body)) body.
Proof.
  unfold window. destruct (0 <? lc)%Z; [|now rewrite firstn_all].
  rewrite firstn_length. destruct (Nat.le_ge_cases (Z.to_nat lc - n) (length body)).
  - now rewrite Nat.min_l.
  - rewrite Nat.min_r by lia. rewrite firstn_all. apply firstn_all2. lia.
Qed.
Lemma window_length lc n body : (0 < lc)%Z -> n <= Z.to_nat lc -> n + length (window lc n body) <= Z.to_nat lc.
Proof.
  unfold window. intros H. destruct (Z.ltb_spec 0 lc); [|lia]. rewrite firstn_length. lia.
Qed.

Lemma fixed_split_spec pod lc pre body tb od main rgt :
  ((lc <= 0)%Z \/ length pre <= Z.to_nat lc) ->
  ftf_spec pod lc (length pre) body (tb, od) ->
  fixed_split (pre ++ body) (length pre) lc tb = Ok (main, rgt) ->
  let win := window lc (length pre) body in
  ((exists k, first_bang pod win k /\ main = firstn k win /\ rgt = skipn k body /\ od = c_nul) \/
   (no_bang pod win /\ main = win /\ od = ctx_after pod win /\ beyond (skipn (length win) body) rgt)).
Proof.
  intros Hlc S H win. unfold ftf_spec in S. fold win in S. cbv zeta in S.
  destruct S as [(k & E & F)|(F & [(E & W)|(E & L0 & LW & LB)])].
  - left. injection E as -> ->. exists k. split; auto.
    pose proof (first_bang_lt _ _ _ F) as Hk.
    unfold fixed_split, substr_diff in H.
    destruct (Nat.leb_spec (length pre) (length pre + k)); [|lia].
    rewrite substr_n_le in H by (rewrite app_length; lia).
    rewrite skipn_app_len in H. replace (length pre + k - length pre) with k in H by lia.
    cbn [bind] in H.
    assert (k <= length body) as Hkb.
    { enough (length win <= length body) by lia. unfold win. rewrite window_prefix, firstn_length. lia. }
    rewrite substr_le in H by (rewrite app_length; lia). cbn [bind] in H.
    rewrite <- skipn_add, skipn_app_len in H.
    destruct ((0 <? lc)%Z && (length pre + k =? Z.to_nat lc)) eqn:T.
    { exfalso. apply andb_prop in T as [T1 T2]. apply Z.ltb_lt in T1. apply Nat.eqb_eq in T2.
      destruct Hlc as [Hlc|Hlc]; [lia|].
      pose proof (window_length lc (length pre) body T1 Hlc). fold win in H1. lia. }
    apply (f_equal (fun x => match x with Ok p => p | _ => (main, rgt) end)) in H.
    apply pair_equal_spec in H as [<- <-]. repeat split; auto.
    symmetry. apply window_firstn. fold win. lia.
  - right. injection E as -> ->. unfold fixed_split in H.
    rewrite substr_le in H by (rewrite app_length; lia). rewrite skipn_app_len in H.
    cbn [bind] in H. injection H as <- <-. repeat split; auto.
    rewrite W, skipn_all. left. split; [constructor|auto].
  - right. injection E as -> ->. unfold fixed_split, substr_diff in H.
    rewrite LW in H.
    destruct (Nat.leb_spec (length pre) (length pre + length win)); [|lia].
    rewrite substr_n_le in H by (rewrite app_length; lia).
    rewrite skipn_app_len in H.
    replace (length pre + length win - length pre) with (length win) in H by lia.
    assert (firstn (length win) body = win) as WP by (symmetry; apply window_prefix).
    rewrite WP in H. cbn [bind] in H.
    rewrite substr_le in H by (rewrite app_length; lia). cbn [bind] in H.
    rewrite <- skipn_add, skipn_app_len in H.
    apply Z.ltb_lt in L0. rewrite L0, Nat.eqb_refl in H. cbn [andb] in H.
    destruct (find_first_not_of set_str (skipn (length win) body)) as [k|] eqn:FF.
    + apply find_blank in FF as (b & c & post & EB & -> & Hb & Hc).
      rewrite EB in H.
      assert (at_ (b ++ c :: post) (length b) = Ok c) as A.
      { apply at_Ok. left. apply nth_error_app_mid. }
      rewrite A in H. cbn [bind] in H.
      assert (main = win) as ->.
      { destruct (negb (ceq c c_amp) && negb (ceq c c_bang));
        apply (f_equal (fun x => match x with Ok p => fst p | _ => main end)) in H; auto. }
      repeat split; auto. right. exists b, c, post. repeat split; auto.
      rewrite <- EB in H. rewrite <- negb_orb in H.
      destruct (ceq c c_amp || ceq c c_bang); cbn [negb] in H;
      apply (f_equal (fun x => match x with Ok p => snd p | _ => rgt end)) in H; auto.
    + apply find_blank_None in FF. injection H as <- <-. repeat split; auto. left. auto.
Qed.

Lemma fixed_body_spec ln pre body pod lc b lft f :
  ((lc <= 0)%Z \/ length pre <= Z.to_nat lc) ->
  fixed_body ln (pre ++ body) pod lc b lft (length pre) = Ok f ->
  delim_ok pod = true /\ linenum f = ln /\ bits f = b /\ left_txt f = lft /\
  left_space f = skipn 6 pre /\ fixed_right pod lc (length pre) body f.
Proof.
  intros Hlc H. unfold fixed_body in H.
  apply bind_Ok in H as (ls & Hls & H).
  assert (ls = skipn 6 pre) as ->.
  { destruct (Nat.ltb_spec 6 (length pre)).
    - apply substr_n_Ok in Hls as [_ ->]. rewrite skipn_app, firstn_app.
      rewrite skipn_length. rewrite Nat.sub_diag. simpl firstn at 2. rewrite app_nil_r.
      apply firstn_all2. rewrite skipn_length. lia.
    - injection Hls as <-. symmetry. apply skipn_all2. lia. }
  apply bind_Ok in H as ((tb & od) & HT & H).
  apply find_trailing_fixed_spec in HT as [D S]; auto.
  apply bind_Ok in H as ((main & rgt) & HS & H).
  pose proof (fixed_split_spec pod lc pre body tb od main rgt Hlc S HS) as R. cbv zeta in R.
  destruct (is_empty main) eqn:EM; [discriminate|]. apply is_empty_false in EM.
  destruct (split_trailing od main) as [m' rs] eqn:ST.
  apply split_trailing_spec in ST as (-> & F1 & F2 & F3).
  unfold fl_make in H. apply bind_Ok in H as (u & Hu & H).
  injection H as <-. cbn [linenum bits left_txt left_space main_txt right_space right_txt open_delim].
  repeat split; auto.
Qed.

Definition b_fx : Bits := put_fixed true bits0.
Inductive fx_bits : str -> Bits -> Prop :=
| FB_plain : fx_bits [] b_fx
| FB_cont b c : length b = 5 -> all_blank b -> mem c set_str = false ->
    fx_bits (b ++ [c]) (if ceq c "0"%char then b_fx else set_continuation b_fx)
| FB_label b d : length b < 5 -> all_blank b -> all_digits d -> d <> [] -> length d <= 6 ->
    fx_bits (b ++ d) (put_label true b_fx).

Lemma fixed_left_app pod raw lt w body :
  fixed_left pod raw lt w body -> raw = lt ++ w ++ body.
Proof. intros []; simpl; rewrite <- ?app_assoc; reflexivity. Qed.
Lemma fixed_left_len pod raw lt w body :
  fixed_left pod raw lt w body -> length lt <= 6.
Proof. intros []; simpl; rewrite ?app_length in *; simpl; lia. Qed.

Lemma skipn6_app (lt w : str) : length lt <= 6 -> skipn 6 (lt ++ w) = skipn (6 - length lt) w.
Proof. intros H. now rewrite skipn_app_ge. Qed.

Definition is_blank_left (f : File_Line) (ln : Z) (raw : str) (b : Bits) : Prop :=
  plain_left f ln raw /\ bits f = set_blank b.

(** end of the skip loop and the body *)
Lemma fixed_tail ln raw lt rest pod lc b1 f :
  raw = lt ++ rest -> lt <> [] ->
  (if negb (is_empty lt) && ceq pod c_nul then
    sk <- count_spaces (skipn (length lt) raw) ;;
    if length lt + sk =? length raw then Ok (fl_left ln (set_blank b1) raw)
    else fixed_body ln raw pod lc b1 lt (length lt + sk)
  else fixed_body ln raw pod lc b1 lt (length lt)) = Ok f ->
  (all_white rest /\ pod = c_nul /\ is_blank_left f ln raw b1) \/
  exists w body, rest = w ++ body /\ skip_ok pod w body /\
    fixed_body ln ((lt ++ w) ++ body) pod lc b1 lt (length (lt ++ w)) = Ok f.
Proof.
  intros -> Hn H. apply is_empty_false in Hn. rewrite Hn in H. cbn [negb andb] in H.
  destruct (ceq pod c_nul) eqn:P.
  - apply ceq_true in P. rewrite skipn_app_len in H.
    apply bind_Ok in H as (sk & Hsk & H).
    apply count_spaces_Ok in Hsk as (w & body & -> & <- & Hw & Hb).
    rewrite !app_length in H.
    destruct (Nat.eqb_spec (length lt + length w) (length lt + (length w + length body))).
    + left. assert (body = []) as -> by (destruct body; simpl in *; auto; lia).
      rewrite app_nil_r. injection H as <-. repeat split; auto. now rewrite app_nil_r.
    + right. exists w, body. split; auto. split; [left; auto|].
      now rewrite <- app_assoc, app_length.
  - apply ceq_false in P. right. exists [], rest. split; auto. split; [right; auto|].
    now rewrite app_nil_r.
Qed.

Lemma fixed_fortran_spec ln b c post pod lc f :
  all_blank b -> mem c set_str = false ->
  fixed_fortran ln (b ++ c :: post) pod lc (length b) (upper_b c) = Ok f ->
  (exists lt w b1, b ++ c :: post = lt ++ w /\ lt <> [] /\ all_white w /\ fx_bits lt b1 /\
     is_blank_left f ln (b ++ c :: post) b1) \/
  (exists lt w body, fixed_left pod (b ++ c :: post) lt w body /\ fx_bits lt (bits f) /\
     linenum f = ln /\ left_txt f = lt /\ left_space f = skipn (6 - length lt) w /\
     (((lc <= 0)%Z \/ length (lt ++ w) <= Z.to_nat lc) ->
        fixed_right pod lc (length (lt ++ w)) body f)).
Proof.
  intros Hb Hc H. unfold fixed_fortran in H. fold b_fx in H.
  apply bind_Ok in H as (((ri1 & lft) & b1) & HL & H).
  assert (BODY : forall pre body bb lt, length lt <= 6 ->
    fixed_body ln (pre ++ body) pod lc bb lt (length pre) = Ok f ->
    linenum f = ln /\ bits f = bb /\ left_txt f = lt /\ left_space f = skipn 6 pre /\
    (((lc <= 0)%Z \/ length pre <= Z.to_nat lc) -> fixed_right pod lc (length pre) body f)).
  { intros pre body bb lt _ HB.
    assert (linenum f = ln /\ bits f = bb /\ left_txt f = lt /\ left_space f = skipn 6 pre) as (?&?&?&?).
    { unfold fixed_body in HB. apply bind_Ok in HB as (ls & Hls & HB).
      assert (ls = skipn 6 pre) as ->.
      { destruct (Nat.ltb_spec 6 (length pre)).
        - apply substr_n_Ok in Hls as [_ ->]. rewrite skipn_app, firstn_app.
          rewrite skipn_length. rewrite Nat.sub_diag. simpl firstn at 2. rewrite app_nil_r.
          apply firstn_all2. rewrite skipn_length. lia.
        - injection Hls as <-. symmetry. apply skipn_all2. lia. }
      apply bind_Ok in HB as ((tb & od) & HT & HB).
      apply bind_Ok in HB as ((main & rgt) & HS & HB).
      destruct (is_empty main); [discriminate|].
      destruct (split_trailing od main) as [m' rs].
      unfold fl_make in HB. apply bind_Ok in HB as (u & Hu & HB). injection HB as <-. auto. }
    conjs; auto. intros Hlc. apply fixed_body_spec in HB as (_ & _ & _ & _ & _ & R); auto. }
  destruct (Nat.eqb_spec (length b) 5) as [E5|N5].
  - apply bind_Ok in HL as (lt & Hlt & HL). apply bind_Ok in HL as (x & Hx & HL).
    assert (x = c) as ->.
    { apply at_Ok in Hx as [Hx|[Hx _]].
      - rewrite <- E5, nth_error_app_mid in Hx. congruence.
      - rewrite app_length in Hx. simpl in Hx. lia. }
    assert (lt = b ++ [c]) as ->.
    { apply substr_n_Ok in Hlt as [_ ->]. rewrite skipn_O.
      replace 6 with (length b + 1) by lia. rewrite firstn_add, firstn_app_len, skipn_app_len. reflexivity. }
    injection HL as <- <- <-.
    assert (length (b ++ [c]) = 6) as L6 by (rewrite app_length; simpl; lia).
    rewrite <- L6 in H.
    assert (b ++ [c] <> []) as NE by (intros X; symmetry in X; now apply app_cons_not_nil in X).
    apply (fixed_tail ln (b ++ c :: post) (b ++ [c]) post) in H; auto.
    2:{ now rewrite <- app_assoc. }
    destruct H as [(W & P & BL)|(w & body & -> & SK & HB)].
    + left. exists (b ++ [c]), post. eexists. conjs; eauto.
      * now rewrite <- app_assoc.
      * constructor; auto.
    + right. exists (b ++ [c]), w, body. split; [constructor; auto|].
      apply BODY in HB; [|lia]. destruct HB as (? & -> & ? & -> & ?).
      rewrite skipn6_app by lia. conjs; auto; constructor; auto.
  - destruct (Nat.ltb_spec (length b) 6) as [L6|G6].
    + apply bind_Ok in HL as (d & Hd & HL). apply c_isdigit_Ok in Hd as [_ ->].
      rewrite upper_digit in HL. destruct (is_digit_b c) eqn:D.
      * apply bind_Ok in HL as (k & Hk & HL). rewrite skipn_app_len in Hk.
        apply count_digits_Ok in Hk as (d & r & E & <- & Hle & Hd & Hnd).
        assert (d <> []) as Hdn.
        { intros ->. apply Hnd; [cbn [length]; lia|]. simpl in E. exists c, post. auto. }
        apply bind_Ok in HL as (lt & Hlt & HL).
        assert (lt = b ++ d) as ->.
        { apply substr_n_Ok in Hlt as [_ ->]. rewrite skipn_O, E, app_assoc, <- app_length.
          apply firstn_app_len. }
        injection HL as <- <- <-. rewrite <- app_length in H.
        assert (b ++ d <> []) as NE.
        { intros X. apply app_eq_nil in X as [_ ->]. auto. }
        assert (length b < 5) as L5 by lia.
        assert (length (b ++ d) <= 6) as LL by (rewrite app_length; lia).
        apply (fixed_tail ln (b ++ c :: post) (b ++ d) r) in H; auto.
        2:{ now rewrite <- app_assoc, <- E. }
        destruct H as [(W & P & BL)|(w & body & -> & SK & HB)].
        -- left. exists (b ++ d), r. eexists. conjs; eauto.
           ++ now rewrite <- app_assoc, <- E.
           ++ constructor; auto; rewrite app_length in LL; lia.
        -- right. exists (b ++ d), w, body. split.
           { rewrite E. constructor; auto. rewrite app_length. intros HH. apply Hnd. lia. }
           apply BODY in HB; [|lia]. destruct HB as (? & -> & ? & -> & ?).
           rewrite skipn6_app by lia. conjs; auto; constructor; auto. rewrite app_length in LL. lia.
      * injection HL as <- <- <-. cbn [is_empty negb andb] in H. right.
        exists [], b, (c :: post). split; [constructor; auto|].
        apply BODY in H; [|simpl; lia]. destruct H as (? & -> & ? & -> & ?).
        simpl app. conjs; auto; constructor.
    + injection HL as <- <- <-. cbn [is_empty negb andb] in H. right.
      exists [], b, (c :: post). split; [constructor; auto; lia|].
      apply BODY in H; [|simpl; lia]. destruct H as (? & -> & ? & -> & ?).
      simpl app. conjs; auto; constructor.
Qed.

(** The whole of analyze_fixed when it returns. *)
Lemma analyze_fixed_Ok ln raw0 pod lc f :
  analyze_fixed ln raw0 pod lc = Ok f ->
  let raw := expand_tabs raw0 in
  (is_fortran f = false /\ plain_left f ln raw /\ is_fixed_format f = true) \/
  (is_fortran f = true /\ is_fixed_format f = true /\
   exists lt w body, fixed_left pod raw lt w body /\ fx_bits lt (bits f) /\
     linenum f = ln /\ left_txt f = lt /\ left_space f = skipn (6 - length lt) w /\
     (((lc <= 0)%Z \/ length (lt ++ w) <= Z.to_nat lc) ->
        fixed_right pod lc (length (lt ++ w)) body f)).
Proof.
  intros H raw. unfold analyze_fixed in H. fold raw in H. fold b_fx in H.
  destruct (is_empty raw0) eqn:E0.
  { apply is_empty_true in E0. left. injection H as <-. subst raw raw0. repeat split. }
  destruct (find_first_not_of set_str raw) as [ri|] eqn:F.
  2:{ left. injection H as <-. repeat split. }
  apply find_blank in F as (b & c0 & post & E & -> & Hb & Hc).
  apply bind_Ok in H as (c0' & Hc0 & H).
  assert (c0' = c0) as ->.
  { rewrite E in Hc0. apply at_Ok in Hc0 as [X|[X _]].
    - rewrite nth_error_app_mid in X. congruence.
    - rewrite app_length in X. simpl in X. lia. }
  apply bind_Ok in H as (c & HC & H). apply c_toupper_Ok in HC as [_ ->].
  assert (FF : fixed_fortran ln raw pod lc (length b) (upper_b c0) = Ok f ->
     (is_fortran f = false /\ plain_left f ln raw /\ is_fixed_format f = true) \/
  (is_fortran f = true /\ is_fixed_format f = true /\
   exists lt w body, fixed_left pod raw lt w body /\ fx_bits lt (bits f) /\
     linenum f = ln /\ left_txt f = lt /\ left_space f = skipn (6 - length lt) w /\
     (((lc <= 0)%Z \/ length (lt ++ w) <= Z.to_nat lc) ->
        fixed_right pod lc (length (lt ++ w)) body f))).
  { intros HF. rewrite E in HF. apply fixed_fortran_spec in HF; auto. rewrite <- E in HF.
    destruct HF as [(lt & w & b1 & EE & NE & W & FB & P & B)|(lt & w & body & FL & FB & R)].
    - left. unfold is_fortran, is_trivial, is_comment, is_blank, is_preprocessor, is_flpr_pp,
        is_flpr_lit, is_include, is_fixed_format. rewrite B.
      assert (b_fixed (set_blank b1) = true) as ->.
      { destruct FB; try destruct (ceq c "0"%char); reflexivity. }
      cbn. rewrite orb_true_r. repeat split; auto; apply P.
    - right. unfold is_fortran, is_trivial, is_comment, is_blank, is_preprocessor, is_flpr_pp,
        is_flpr_lit, is_include, is_fixed_format.
      split; [|split]; [| |exists lt, w, body; auto];
      inversion FB; try destruct (ceq c "0"%char); reflexivity. }
  destruct (Nat.eqb_spec (length b) 5) as [E5|N5]; auto.
  destruct ((length b =? 0) && ceq (upper_b c0) c_hash).
  { left. injection H as <-. repeat split. }
  apply bind_Ok in H as (inc & HI & H). destruct inc.
  { left. injection H as <-. repeat split. }
  destruct (ceq (upper_b c0) c_bang || _); auto.
  apply bind_Ok in H as (lit & HL & H). destruct lit; [discriminate|].
  apply bind_Ok in H as (dir & HD & H). destruct dir; injection H as <-; left; repeat split.
Qed.

Lemma expand_tabs_id raw : ~ In c_tab (firstn 6 raw) -> expand_tabs raw = raw.
Proof.
  intros H. unfold expand_tabs. destruct (find_first_of [c_tab] raw) as [tb|] eqn:E; auto.
  unfold find_first_of in E. apply find_from_Some in E as (pre & c & post & -> & -> & Hc & _).
  destruct (Nat.ltb_spec (0 + length pre) 6); auto. exfalso. apply H.
  apply mem_In in Hc. destruct Hc as [<-|[]]. rewrite firstn_app. apply in_or_app. right.
  destruct (6 - length pre) eqn:D; [lia|]. simpl. now left.
Qed.

Lemma fixed_print_plain ln raw pod lc f :
  analyze_fixed ln raw pod lc = Ok f -> is_fortran f = false ->
  print_line f = expand_tabs raw.
Proof.
  intros H NF. apply analyze_fixed_Ok in H. cbv zeta in H.
  destruct H as [(_ & P & _)|(F & _)]; [|congruence].
  unfold print_line. rewrite NF. cbn [andb].
  destruct P as (_ & -> & -> & -> & -> & -> & _). now rewrite !app_nil_r.
Qed.

Lemma window_full lc n body : ((lc <= 0)%Z \/ n + length body <= Z.to_nat lc) ->
  window lc n body = body.
Proof.
  intros H. unfold window. destruct (Z.ltb_spec 0 lc); auto.
  apply firstn_all2. lia.
Qed.

Lemma all_white_spaces n : all_white (spaces n).
Proof. apply Forall_forall. intros x Hx. apply repeat_spec in Hx. now subst. Qed.

(** the skipped white space covers the blanks of the control field *)
Lemma skip_covers pod w body n rest :
  pod = c_nul \/ n = 0 -> skip_ok pod w body -> w ++ body = spaces n ++ rest ->
  spaces n ++ skipn n w = w.
Proof.
  intros P S E. revert w S E. induction n as [|n IH]; intros w S E; [reflexivity|].
  destruct P as [P|P]; [|discriminate].
  destruct S as [(_ & W & NS)|(NP & _)]; [|congruence].
  destruct w as [|x w].
  - exfalso. apply NS. simpl in E. exists c_sp, (spaces n ++ rest). auto.
  - simpl in E. injection E as -> E. simpl. f_equal. apply IH; auto.
    left. repeat split; auto. now inversion W.
Qed.

Lemma fixed_print_fortran ln ctl rest pod lc f :
  analyze_fixed ln (ctl ++ rest) pod lc = Ok f ->
  control_field ctl -> ~ In c_tab ctl ->
  ((lc <= 0)%Z \/ (Z.of_nat (length (ctl ++ rest)) <= lc)%Z) ->
  (has_label f = true -> pod = c_nul) ->
  print_line f = ctl ++ rest.
Proof.
  intros H CF NT LC HL.
  assert (length ctl = 6) as L6.
  { destruct CF as [-> |[(b & c & -> & ? & _)|(b & d & n & _ & _ & _ & _ & ?)]];
    rewrite ?app_length; simpl; lia. }
  assert (expand_tabs (ctl ++ rest) = ctl ++ rest) as EX.
  { apply expand_tabs_id. rewrite <- L6, firstn_app_len. exact NT. }
  destruct (is_fortran f) eqn:FO.
  2:{ rewrite <- EX. eapply fixed_print_plain; eauto. }
  apply analyze_fixed_Ok in H. cbv zeta in H. rewrite EX in H.
  destruct H as [(? & _)|(_ & FX & lt & w & body & FL & FB & _ & ELT & ELS & R)]; [congruence|].
  pose proof (fixed_left_app _ _ _ _ _ FL) as EA.
  assert (length (ctl ++ rest) = length (lt ++ w) + length body) as LE.
  { rewrite EA, app_assoc, !app_length. lia. }
  assert (fixed_right pod lc (length (lt ++ w)) body f) as RR.
  { apply R. destruct LC as [LC|LC]; [auto|right]. lia. }
  clear R. destruct RR as (_ & RR & _). rewrite window_full in RR by (destruct LC; [auto|right; lia]).
  assert (main_txt f ++ right_space f ++ right_txt f = body) as EB.
  { rewrite app_assoc. destruct RR as [(k & _ & -> & -> & _)|(_ & -> & _ & B)].
    - apply firstn_skipn.
    - rewrite skipn_all in B. destruct B as [(_ & ->)|(b & c & r & X & _)].
      + apply app_nil_r.
      + now apply app_cons_not_nil in X. }
  unfold print_line. rewrite FO, FX. cbn [andb]. rewrite EB, ELT, ELS.
  enough (spaces (6 - length lt) ++ skipn (6 - length lt) w = w) as X.
  { rewrite <- app_assoc, (app_assoc (spaces _)), X. auto. }
  remember (ctl ++ rest) as RAW eqn:ER in FL. clear RR EB LE.
  destruct FL as [b c r Hb Hc Hn5 Hnd|b c w body Hb Hl5 Hc SK|b d w body Hb Hl5 Hd Hdn Hle Hnd SK].
  - simpl length. rewrite Nat.sub_0_r.
    destruct CF as [-> |[(b' & c' & -> & Hb5 & Hb' & Hc')|(b' & d' & n & E & Hb' & Hd' & Hdn' & _)]].
    + assert (6 <= length b) as G.
      { destruct (Nat.le_gt_cases 6 (length b)); auto. exfalso.
        assert (nth_error (b ++ c :: r) (length b) = Some c) as N by apply nth_error_app_mid.
        change ([] ++ b ++ c :: r) with (b ++ c :: r) in EA. rewrite <- EA in N.
        rewrite nth_error_app1 in N by (simpl; lia).
        apply nth_error_In, repeat_spec in N. subst. discriminate. }
      assert (firstn 6 b = spaces 6) as Y.
      { assert (firstn 6 (b ++ c :: r) = spaces 6) as Z1.
        { simpl in EA. rewrite <- EA. reflexivity. }
        rewrite firstn_app in Z1. replace (6 - length b) with 0 in Z1 by lia.
        simpl firstn at 2 in Z1. now rewrite app_nil_r in Z1. }
      rewrite <- Y. apply firstn_skipn.
    + exfalso. simpl in EA. rewrite <- app_assoc in EA. simpl in EA.
      apply first_split_unique with (p := fun x => mem x set_str) in EA; auto.
      destruct EA as (-> & _ & _). auto.
    + exfalso. destruct d' as [|x d']; [congruence|].
      rewrite E in L6. rewrite E in EA. simpl in EA. rewrite <- !app_assoc in EA. simpl in EA.
      pose proof (Forall_inv Hd') as Dx. cbv beta in Dx.
      apply first_split_unique with (p := fun x => mem x set_str) in EA; auto.
      * destruct EA as (<- & <- & _). rewrite Hnd in Dx; [discriminate|].
        rewrite !app_length in L6. simpl in L6.
        destruct (Nat.eq_dec (length b') 5); [contradiction|lia].
      * now apply digit_not_blank.
  - assert (length (b ++ [c]) = 6) as -> by (rewrite app_length; simpl; lia). reflexivity.
  - assert (E2 : w ++ body = spaces (6 - length (b ++ d)) ++ rest).
    { assert (ctl = (b ++ d) ++ spaces (6 - length (b ++ d))) as EC.
      { destruct d as [|x d]; [congruence|].
        pose proof (Forall_inv Hd) as Dx. cbv beta in Dx. pose proof (digit_not_blank _ Dx) as Nx.
        simpl in EA. rewrite <- app_assoc in EA. simpl in EA.
        destruct CF as [-> |[(b' & c' & -> & Hb5 & Hb' & Hc')|(b' & d' & n & E & Hb' & Hd' & Hdn' & _)]].
        - exfalso.
          assert (nth_error (b ++ x :: d ++ w ++ body) (length b) = Some x) as N by apply nth_error_app_mid.
          rewrite <- EA in N. rewrite nth_error_app1 in N by (simpl; lia).
          apply nth_error_In, repeat_spec in N. subst. discriminate.
        - exfalso. rewrite <- app_assoc in EA. simpl in EA.
          apply first_split_unique with (p := fun x => mem x set_str) in EA; auto.
          destruct EA as (-> & _ & _). lia.
        - destruct d' as [|x' d']; [congruence|].
          rewrite E in EA. rewrite E in L6. simpl in EA. rewrite <- !app_assoc in EA. simpl in EA.
          pose proof (Forall_inv Hd') as Dx'. cbv beta in Dx'.
          assert (b' = b /\ x' = x /\ d' ++ spaces n ++ rest = d ++ w ++ body) as (-> & -> & EE).
          { rewrite <- app_assoc in EA.
            apply first_split_unique with (p := fun x => mem x set_str) in EA; auto.
            now apply digit_not_blank. }
          assert (length d = length d') as LD.
          { rewrite !app_length in *. simpl in *. rewrite spaces_length in *.
            destruct (Nat.lt_trichotomy (length d) (length d')) as [Hlt|[Heq|Hlt]]; auto; exfalso.
            - apply Hnd; [lia|].
              assert (w ++ body = skipn (length d) d' ++ spaces n ++ rest) as ->.
              { rewrite <- (skipn_app_len d (w ++ body)), <- EE, skipn_app.
                replace (length d - length d') with 0 by lia. reflexivity. }
              destruct (skipn (length d) d') as [|y q] eqn:SS.
              { apply (f_equal (@length _)) in SS. rewrite skipn_length in SS. simpl in SS. lia. }
              exists y, (q ++ spaces n ++ rest). split; auto.
              inversion Hd'; subst. rewrite Forall_forall in H2. apply H2.
              apply In_skipn with (length d). rewrite SS. now left.
            - destruct n as [|n]; [lia|].
              assert (nth_error (d ++ w ++ body) (length d') = Some c_sp) as N.
              { rewrite <- EE. simpl. apply nth_error_app_mid. }
              rewrite nth_error_app1 in N by lia. apply nth_error_In in N.
              inversion Hd; subst. rewrite Forall_forall in H2. apply H2 in N. discriminate. }
          assert (d' = d) as ->.
          { rewrite <- (firstn_app_len d' (spaces n ++ rest)), EE, <- LD. apply firstn_app_len. }
          assert (n = 6 - length (b ++ x :: d)) as <-.
          { pose proof (spaces_length n). rewrite (app_length b), (app_length (x :: d)) in L6.
            rewrite (app_length b). lia. }
          rewrite E. now rewrite <- app_assoc. }
      rewrite EC in EA. rewrite <- !app_assoc in EA.
      apply app_inv_head in EA. apply app_inv_head in EA. symmetry in EA. exact EA. }
    apply (skip_covers pod w body _ rest); auto.
    left. apply HL. unfold has_label.
    inversion FB as [X|b' c' Hl' Hb' Hc' X Y|b' d' Hl' Hb' Hd' Hdn' X Y].
    + symmetry in X. apply app_eq_nil in X as [_ ->]. congruence.
    + exfalso. destruct d as [|x d]; [congruence|].
      pose proof (Forall_inv Hd) as Dx. cbv beta in Dx. pose proof (digit_not_blank _ Dx) as Nx.
      apply first_split_unique with (p := fun x => mem x set_str) in X; auto.
      destruct X as (-> & _). lia.
    + reflexivity.
Qed.

Lemma upper_star c : ceq (upper_b c) c_star || ceq (upper_b c) "C"%char = mem c (L "*cC").
Proof. destruct c as [[] [] [] [] [] [] [] []]; vm_compute; reflexivity. Qed.

Lemma first_nonblank_inv b c post b' c' r' :
  all_blank b -> mem c set_str = false -> all_blank b' -> mem c' set_str = false ->
  b ++ c :: post = b' ++ c' :: r' -> b = b' /\ c = c' /\ post = r'.
Proof.
  intros Hb Hc Hb' Hc' E.
  apply first_split_unique with (p := fun x => mem x set_str) in E; auto.
Qed.

Lemma column6_iff b c post : all_blank b -> mem c set_str = false ->
  (column6_line (b ++ c :: post) <-> length b = 5).
Proof.
  intros Hb Hc. split.
  - intros (b' & c' & r & E & L5 & Hb' & Hc').
    apply first_nonblank_inv in E as (-> & _ & _); auto.
  - intros L5. exists b, c, post. auto.
Qed.
Lemma bang_iff b c post : all_blank b -> mem c set_str = false ->
  (bang_line (b ++ c :: post) <-> c = c_bang).
Proof.
  intros Hb Hc. split.
  - intros (b' & r & Hb' & E). apply first_nonblank_inv in E as (_ & -> & _); auto.
  - intros ->. now exists b, post.
Qed.
Lemma hash_iff b c post : all_blank b -> mem c set_str = false ->
  (hash_line (b ++ c :: post) <-> length b = 0 /\ c = c_hash).
Proof.
  intros Hb Hc. split.
  - intros (r & E). apply (first_nonblank_inv b c post [] c_hash r) in E as (-> & -> & _); auto.
    constructor.
  - intros [HL ->]. destruct b; [|discriminate]. now exists post.
Qed.
Lemma star_iff b c post : all_blank b -> mem c set_str = false ->
  (star_line (b ++ c :: post) <-> length b = 0 /\ mem c (L "*cC") = true).
Proof.
  intros Hb Hc. split.
  - intros (c' & r & E & I).
    assert (mem c' set_str = false).
    { simpl in I. destruct I as [<-|[<-|[<-|[]]]]; reflexivity. }
    apply (first_nonblank_inv b c post [] c' r) in E as (-> & -> & _); auto.
    + split; auto. now apply mem_In.
    + constructor.
  - intros [HL M]. destruct b; [|discriminate]. exists c, post. split; auto. now apply mem_In.
Qed.
Lemma nonblank_not_blank b c post : mem c set_str = false -> ~ blank_line (b ++ c :: post).
Proof.
  intros Hc B. unfold blank_line, all_blank in B. apply Forall_app in B as [_ B].
  inversion B; congruence.
Qed.

Lemma fixed_class ln raw0 pod lc f :
  analyze_fixed ln raw0 pod lc = Ok f ->
  let raw := expand_tabs raw0 in
  (is_preprocessor f = true <-> hash_line raw) /\
  (is_include f = true <-> include_line raw /\ ~ column6_line raw) /\
  (is_comment f = true \/ is_flpr_pp f = true <-> fixed_comment_line raw) /\
  (is_fortran f = true -> fixed_code_line raw) /\
  (fixed_code_line raw -> is_fortran f = true \/ is_blank f = true) /\
  (blank_line raw -> is_blank f = true) /\
  is_flpr_lit f = false.
Proof.
  intros H raw. unfold analyze_fixed in H. fold raw in H. fold b_fx in H.
  assert (BL : blank_line raw -> ~ column6_line raw /\ ~ star_line raw /\
     ~ bang_line raw /\ ~ hash_line raw /\ ~ include_line raw).
  { intros B. destruct (class_blank_others raw B) as (X1 & X2 & X3).
    conjs; auto.
    - intros (b & c & r & E & _ & _ & Hc). rewrite E in B. now apply nonblank_not_blank in B.
    - intros (c & r & E & I). rewrite E in B. inversion B; subst.
      simpl in I. destruct I as [<-|[<-|[<-|[]]]]; discriminate. }
  assert (BLANK : blank_line raw -> bits f = set_blank b_fx ->
     (is_preprocessor f = true <-> hash_line raw) /\
  (is_include f = true <-> include_line raw /\ ~ column6_line raw) /\
  (is_comment f = true \/ is_flpr_pp f = true <-> fixed_comment_line raw) /\
  (is_fortran f = true -> fixed_code_line raw) /\
  (fixed_code_line raw -> is_fortran f = true \/ is_blank f = true) /\
  (blank_line raw -> is_blank f = true) /\
  is_flpr_lit f = false).
  { intros B E. destruct (BL B) as (N1 & N2 & N3 & N4 & N5).
    unfold is_fortran, is_trivial, is_comment, is_blank, is_preprocessor, is_flpr_pp,
      is_flpr_lit, is_include, fixed_comment_line, fixed_code_line. rewrite E. cbn.
    intuition congruence. }
  destruct (is_empty raw0) eqn:E0.
  { apply is_empty_true in E0. injection H as <-. apply BLANK; [|reflexivity].
    subst raw raw0. constructor. }
  destruct (find_first_not_of set_str raw) as [ri|] eqn:F.
  2:{ apply find_blank_None in F. injection H as <-. now apply BLANK. }
  clear BLANK BL.
  apply find_blank in F as (b & c0 & post & E & -> & Hb & Hc).
  apply bind_Ok in H as (c0' & Hc0 & H).
  assert (c0' = c0) as ->.
  { rewrite E in Hc0. apply at_Ok in Hc0 as [X|[X _]].
    - rewrite nth_error_app_mid in X. congruence.
    - rewrite app_length in X. simpl in X. lia. }
  apply bind_Ok in H as (c & HC & H). apply c_toupper_Ok in HC as [_ ->].
  pose proof (column6_iff b c0 post Hb Hc) as I6. rewrite <- E in I6.
  pose proof (bang_iff b c0 post Hb Hc) as IB. rewrite <- E in IB.
  pose proof (hash_iff b c0 post Hb Hc) as IH. rewrite <- E in IH.
  pose proof (star_iff b c0 post Hb Hc) as IS. rewrite <- E in IS.
  pose proof (nonblank_not_blank b c0 post Hc) as NB. rewrite <- E in NB.
  assert (IIx : include_line raw -> ~ bang_line raw /\ ~ star_line raw /\ ~ hash_line raw).
  { intros II. conjs.
    - intros X. now apply class_bang_others in X.
    - intros X. rewrite IS in X. destruct X as [_ M].
      destruct II as (b' & kw & sp & q & r' & EE & Hb' & Hk & _).
      destruct kw as [|k kw]; [discriminate|]. injection Hk as Hk _.
      pose proof (i_not_blank _ Hk) as NK.
      rewrite E in EE. simpl in EE. apply first_nonblank_inv in EE as (_ & -> & _); auto.
      apply lower_i in Hk as [-> | ->]; discriminate M.
    - intros X. now apply class_hash_others in X. }
  assert (FF : fixed_fortran ln raw pod lc (length b) (upper_b c0) = Ok f ->
    is_preprocessor f = false /\ is_include f = false /\ is_comment f = false /\
    is_flpr_pp f = false /\ is_flpr_lit f = false /\ (is_fortran f = true \/ is_blank f = true)).
  { intros HF. rewrite E in HF. apply fixed_fortran_spec in HF; auto.
    unfold is_fortran, is_trivial, is_comment, is_blank, is_preprocessor, is_flpr_pp,
      is_flpr_lit, is_include.
    destruct HF as [(lt & w & b1 & _ & _ & _ & FB & _ & B)|(lt & w & body & _ & FB & _)].
    - rewrite B. inversion FB; try destruct (ceq c "0"%char); cbn; auto 10.
    - inversion FB; try destruct (ceq c "0"%char); cbn; auto 10. }
  unfold fixed_comment_line, fixed_code_line.
  destruct (Nat.eqb_spec (length b) 5) as [E5|N5].
  { apply FF in H as (-> & -> & -> & -> & -> & H).
    assert (~ hash_line raw) by (rewrite IH; lia). intuition congruence. }
  assert (~ column6_line raw) as N6 by tauto.
  rewrite upper_hash in H.
  destruct ((length b =? 0) && ceq c0 c_hash) eqn:HH.
  { injection H as <-. apply andb_prop in HH as [H1 H2].
    apply Nat.eqb_eq in H1. apply ceq_true in H2.
    assert (hash_line raw) by tauto.
    assert (~ bang_line raw) by (rewrite IB; subst; discriminate).
    assert (~ star_line raw) by (rewrite IS; subst; intros [_ X]; discriminate).
    cbn. intuition congruence. }
  assert (~ hash_line raw) as NH.
  { rewrite IH. intros [X Y]. rewrite X, Y in HH. discriminate. }
  apply bind_Ok in H as (inc & HI & H).
  pose proof (include_spec b c0 post Hb Hc) as INC. rewrite <- E, HI in INC.
  destruct inc.
  { injection H as <-. assert (include_line raw) by tauto. cbn. intuition congruence. }
  assert (~ include_line raw) as NI by (intros X; apply INC in X; discriminate).
  rewrite upper_bang, upper_star in H.
  destruct (ceq c0 c_bang || (length b =? 0) && mem c0 (L "*cC")) eqn:CC.
  - assert (bang_line raw \/ star_line raw) as BS.
    { rewrite IB, IS. apply orb_prop in CC as [CC|CC].
      - left. now apply ceq_true.
      - right. apply andb_prop in CC as [C1 C2]. apply Nat.eqb_eq in C1. auto. }
    apply bind_Ok in H as (lit & HL & H). destruct lit; [discriminate|].
    apply bind_Ok in H as (dir & HD & H).
    destruct dir; injection H as <-; cbn; intuition congruence.
  - apply orb_false_elim in CC as [C1 C2].
    assert (~ bang_line raw).
    { rewrite IB. now apply ceq_false. }
    assert (~ star_line raw).
    { rewrite IS. intros [X Y]. rewrite X, Y in C2. discriminate. }
    apply FF in H as (-> & -> & -> & -> & -> & H). intuition congruence.
Qed.

(** ** Definedness *)
Lemma bind_not_UB {A B} (x : res A) (f : A -> res B) :
  x <> UB -> (forall a, x = Ok a -> f a <> UB) -> bind x f <> UB.
Proof. destruct x; simpl; auto; discriminate. Qed.
Lemma substr_not_UB s p : substr s p <> UB.
Proof. unfold substr. destruct (p <=? length s); discriminate. Qed.
Lemma substr_n_not_UB s p n : substr_n s p n <> UB.
Proof. unfold substr_n. destruct (p <=? length s); discriminate. Qed.

Lemma ascii7_expand raw : ascii7 raw -> ascii7 (expand_tabs raw).
Proof.
  unfold ascii7, expand_tabs. intros H. rewrite Forall_forall in H.
  destruct (find_first_of [c_tab] raw) as [tb|]; [|now apply Forall_forall].
  destruct (tb <? 6); [|now apply Forall_forall].
  apply Forall_forall. intros x Hx. apply in_app_or in Hx as [Hx|Hx].
  - apply H. eapply In_firstn; eauto.
  - apply in_app_or in Hx as [Hx|Hx].
    + apply repeat_spec in Hx. now subst.
    + apply H. eapply In_skipn; eauto.
Qed.

Lemma fixed_body_defined ln raw pod lc b lft ri :
  delim_ok pod = true -> fixed_body ln raw pod lc b lft ri <> UB.
Proof.
  intros D. unfold fixed_body. apply bind_not_UB.
  { destruct (6 <? ri); [apply substr_n_not_UB|discriminate]. }
  intros ls _. apply bind_not_UB.
  { unfold find_trailing_fixed. rewrite D. cbn [assert_ bind].
    destruct (ftx_loop _ _ _) as [[t|] od]; discriminate. }
  intros (tb & od) HT. apply bind_not_UB.
  { destruct tb as [t|]; simpl.
    - unfold substr_diff. apply bind_not_UB.
      { destruct (ri <=? t); [apply substr_n_not_UB|apply substr_not_UB]. }
      intros m _. apply bind_not_UB; [apply substr_not_UB|]. intros r _.
      destruct ((0 <? lc)%Z && (t =? Z.to_nat lc)); [|discriminate].
      destruct (find_first_not_of set_str r) as [k|] eqn:FK; [|discriminate].
      apply bind_not_UB.
      + apply find_blank in FK as (b0 & c & post & -> & -> & _ & _).
        assert (at_ (b0 ++ c :: post) (length b0) = Ok c) as ->; [|discriminate].
        apply at_Ok. left. apply nth_error_app_mid.
      + intros x _. destruct (negb (ceq x c_amp) && negb (ceq x c_bang)); discriminate.
    - apply bind_not_UB; [apply substr_not_UB|]. discriminate. }
  intros (main & rgt) _. destruct (is_empty main); [discriminate|].
  destruct (split_trailing od main). unfold fl_make.
  assert (delim_ok od = true) as ->; [|discriminate].
  unfold find_trailing_fixed in HT. rewrite D in HT. cbn [assert_ bind] in HT.
  match type of HT with context [ftx_loop ?a ?b ?c] =>
    pose proof (ftx_loop_spec a b c D) as S; destruct (ftx_loop a b c) as [[t|] od'] end.
  - injection HT as _ <-. reflexivity.
  - destruct S as [_ ->]. injection HT as _ <-. now apply delim_ok_after.
Qed.

Lemma analyze_fixed_defined ln raw0 pod lc :
  ascii7 raw0 -> delim_ok pod = true -> analyze_fixed ln raw0 pod lc <> UB.
Proof.
  intros A D. unfold analyze_fixed. fold b_fx.
  destruct (is_empty raw0); [discriminate|].
  apply ascii7_expand in A. set (raw := expand_tabs raw0) in *.
  assert (A' : forall x, In x raw -> ctype_ok x = true).
  { unfold ascii7 in A. now rewrite Forall_forall in A. }
  destruct (find_first_not_of set_str raw) as [ri|] eqn:F; [|discriminate].
  apply find_blank in F as (b & c0 & post & E & -> & Hb & Hc).
  assert (at_ raw (length b) = Ok c0) as ->.
  { apply at_Ok. left. rewrite E. apply nth_error_app_mid. }
  cbn [bind]. assert (ctype_ok c0 = true) as OC.
  { apply A'. rewrite E. apply in_or_app. right. now left. }
  assert (c_toupper c0 = Ok (upper_b c0)) as -> by now apply c_toupper_Ok.
  cbn [bind].
  assert (FF : fixed_fortran ln raw pod lc (length b) (upper_b c0) <> UB).
  { assert (LB : length b < length raw) by (rewrite E, app_length; simpl; lia).
    unfold fixed_fortran. fold b_fx.
    apply bind_not_UB.
    - destruct (Nat.eqb_spec (length b) 5) as [E5|N5].
      + apply bind_not_UB; [apply substr_n_not_UB|]. intros lt _.
        apply bind_not_UB; [|discriminate].
        assert (at_ raw 5 = Ok c0) as ->; [|discriminate].
        apply at_Ok. left. rewrite E, <- E5. apply nth_error_app_mid.
      + destruct (length b <? 6); [|discriminate].
        assert (c_isdigit (upper_b c0) = Ok (is_digit_b c0)) as ->.
        { apply c_isdigit_Ok. rewrite upper_ctype, upper_digit. auto. }
        cbn [bind]. destruct (is_digit_b c0); [|discriminate].
        apply bind_not_UB.
        * pose proof (count_digits_out (skipn (length b) raw) (6 - length b)) as O.
          destruct (count_digits _ _); try discriminate.
          destruct O as (x & I & C). apply In_skipn, A' in I. congruence.
        * intros k _. apply bind_not_UB; [apply substr_n_not_UB|]. discriminate.
    - intros [[ri1 lft] b1] _. destruct (negb (is_empty lft) && ceq pod c_nul).
      + apply bind_not_UB.
        * pose proof (count_spaces_out (skipn ri1 raw)) as O.
          destruct (count_spaces (skipn ri1 raw)); try discriminate.
          destruct O as (x & I & C). apply In_skipn, A' in I. congruence.
        * intros sk _. destruct (ri1 + sk =? length raw); [discriminate|].
          now apply fixed_body_defined.
      + now apply fixed_body_defined. }
  destruct (length b =? 5); auto.
  destruct ((length b =? 0) && ceq (upper_b c0) c_hash); [discriminate|].
  apply bind_not_UB.
  { pose proof (include_spec b c0 post Hb Hc) as INC. rewrite <- E in INC.
    destruct (is_include_line raw (length b)); try discriminate.
    destruct INC as (x & I & C). exfalso. rewrite A' in C; [discriminate|].
    rewrite E. apply in_or_app. auto. }
  intros inc _. destruct inc; [discriminate|].
  match goal with |- context [if ?q then _ else _] => destruct q end; auto.
  rewrite E, flpr_literal_spec. cbn [bind].
  match goal with |- context [if ?q then _ else _] => destruct q end; [discriminate|].
  rewrite flpr_directive_spec. cbn [bind].
  match goal with |- context [if ?q then _ else _] => destruct q end; discriminate.
Qed.
