From Verif Require Import Base Base_lemmas Tags FileLine FileEdit_proofs FileEdit2_proofs LogicalFile Token LogicalLine Stmts LineEdit LineEdit_spec LineEdit_proofs LineSplit_proofs LineFlow_spec.
Local Open Scope nat_scope.

(** A layout line that text_from_frags leaves alone or writes to. *)
Definition usable (f : File_Line) : Prop := is_comment f = true \/ is_fortran f = true.
Lemma fortran_bits : forall f g, b_blank (bits g) = b_blank (bits f) -> b_comment (bits g) = b_comment (bits f) ->
  b_preprocessor (bits g) = b_preprocessor (bits f) -> b_flpr_pp (bits g) = b_flpr_pp (bits f) -> b_flpr_lit (bits g) = b_flpr_lit (bits f) ->
  b_include (bits g) = b_include (bits f) -> is_fortran g = is_fortran f.
Proof. intros f g H1 H2 H3 H4 H5 H6. unfold is_fortran, is_trivial, is_comment, is_blank, is_preprocessor, is_flpr_pp, is_flpr_lit, is_include. rewrite H1, H2, H3, H4, H5, H6. reflexivity. Qed.
Lemma cont_facts : forall f, main_txt (make_continued f) = main_txt f /\ left_txt (make_continued f) = left_txt f /\
  left_space (make_continued f) = left_space f /\ bits (make_continued f) = put_continued true (bits f).
Proof. intros f. unfold make_continued. destruct (right_txt f) as [|c r]; [repeat split|]. destruct (ceq c c_amp); repeat split. Qed.
Lemma uncont_bits : forall f, bits (make_uncontinued f) = put_continued false (bits f).
Proof. intros f. unfold make_uncontinued. destruct (right_txt f) as [|c r]; [reflexivity|]. destruct (find_first_not_of _ _); reflexivity. Qed.
Lemma fortran_cont : forall f, is_fortran (make_continued f) = is_fortran f.
Proof. intros f. apply fortran_bits; rewrite (proj2 (proj2 (proj2 (cont_facts f)))); reflexivity. Qed.
Lemma fortran_uncont : forall f, is_fortran (make_uncontinued f) = is_fortran f.
Proof. intros f. apply fortran_bits; rewrite uncont_bits; reflexivity. Qed.

Lemma skip_split : forall l a b, skip_comments l = (a, b) -> l = a ++ b /\ Forall (fun f => is_comment f = true) a /\
  match b with [] => True | f :: _ => is_comment f = false end.
Proof.
  induction l as [|f l IH]; intros a b H; cbn [skip_comments] in H; [injection H as <- <-; repeat split; constructor|].
  destruct (is_comment f) eqn:E.
  - destruct (skip_comments l) as [a' b'] eqn:D. injection H as <- <-. destruct (IH _ _ eq_refl) as (-> & I2 & I3). repeat split; auto.
  - injection H as <- <-. repeat split; auto.
Qed.

Section Flow.
  Variable w0 : nat.
  Hypothesis W0 : w0 + 2 < 76.
  Variable first : File_Line.
  Variable comments : list File_Line.
  Variable wide : nat.
  Hypothesis Wide : w0 + 2 <= wide.

  Definition line_ok (f : File_Line) : Prop :=
    is_comment f = true \/ (is_fortran f = true /\ is_continued f = true /\ width f <= wide).
  Definition texts (u : Cur) : list str := map main_txt (fortran_lines (u_before u)).
  Definition heads (u : Cur) : Prop :=
    if is_empty (u_before u) then left_txt (u_cur u) = left_txt first /\ left_space (u_cur u) = left_space first
    else left_txt (u_cur u) = [] /\ lead (u_cur u) = w0 + 2 /\
         exists f r, u_before u = f :: r /\ left_txt f = left_txt first /\ left_space f = left_space first /\ is_fortran f = true.
  Definition good (u : Cur) : Prop :=
    Forall line_ok (u_before u) /\ Forall usable (u_after u) /\ is_fortran (u_cur u) = true /\ is_continued (u_cur u) = false /\ width (u_cur u) <= wide /\
    heads u /\ filter is_comment (u_before u ++ u_after u) = comments.
  Hypothesis F0 : lead first = w0.

  Lemma good_lead : forall u, good u -> lead (u_cur u) <= w0 + 2.
  Proof using W0 F0. clear Wide.
    intros u (_ & _ & _ & _ & _ & H & _). unfold heads in H. destruct (is_empty (u_before u)).
    - destruct H as [H1 H2]. unfold lead in *. rewrite H1, H2. lia.
    - destruct H as (_ & H & _). lia.
  Qed.
  Lemma good_max : forall u, good u -> exists m, max_main_txt_len (u_cur u) = Ok m /\ 1 <= m /\ m + w0 <= 76 /\ lead (u_cur u) + m <= 76 /\
    (m <= 38 -> lead (u_cur u) + m = 76).
  Proof using W0 F0. clear Wide.
    intros u G. pose proof (good_lead u G) as L. assert (Lw : w0 <= lead (u_cur u)).
    { destruct G as (_ & _ & _ & _ & _ & H & _). unfold heads in H. destruct (is_empty (u_before u)); [destruct H as [H1 H2]; unfold lead in *; rewrite H1, H2; lia|]. destruct H as (_ & H & _). lia. }
    destruct G as (_ & _ & F & _). unfold max_main_txt_len. rewrite (fortran_not_comment _ F). fold (lead (u_cur u)).
    remember (length (right_space (u_cur u)) + length (right_txt (u_cur u))) as r. clear Heqr.
    destruct (Nat.ltb_spec (lead (u_cur u) + r) 38); match goal with |- context [assert_ (?a <? 76)] => destruct (Nat.ltb_spec a 76); [|lia] end; cbn [assert_ bind]; eexists; (split; [reflexivity|]); lia.
  Qed.
  Lemma good_add : forall u s, good u -> width (u_cur u) + length s <= wide -> good (add_main u s).
  Proof using.
    clear. intros u s (A & B & C & D & X & H & K) Y. split; [exact A|]. split; [exact B|]. split; [exact C|]. split; [exact D|]. split; [|split; [exact H|exact K]].
    unfold width, lead in *. cbn [add_main u_cur with_main with_text left_txt left_space main_txt]. rewrite app_length. lia.
  Qed.

  Lemma filter_keep : forall l, Forall (fun f => is_comment f = true) l -> fortran_lines l = [] /\ filter is_comment l = l.
  Proof using.
    clear. induction l as [|f l IH]; intros H; [auto|]. inversion H; subst. destruct (IH H3) as [I1 I2]. unfold fortran_lines in *. cbn [filter].
    assert (is_fortran f = false) as -> by (unfold is_fortran, is_trivial; rewrite H2; reflexivity). rewrite H2, I1, I2. auto.
  Qed.
  (* continue_fl starts an empty line; [c] is the line it leaves, once continued *)
  Lemma good_continue : forall u, good u -> good (continue_fl u) /\ texts (continue_fl u) = texts u ++ [main_txt (u_cur u)] /\
    main_txt (u_cur (continue_fl u)) = [] /\ u_before (continue_fl u) <> [] /\
    exists cs, Forall (fun f => is_comment f = true) cs /\ u_before (continue_fl u) = u_before u ++ make_continued (u_cur u) :: cs.
  Proof using W0 F0 Wide.
    intros u G. pose proof (good_lead u G) as L. destruct G as (A & B & C & D & X & H & K). unfold continue_fl.
    destruct (skip_comments (u_after u)) as [cs rest] eqn:E. destruct (skip_split _ _ _ E) as (E1 & E2 & E3). rewrite E1 in B, K. apply Forall_app in B as [B1 B2].
    destruct (cont_facts (u_cur u)) as (C1 & C2 & C3 & C4). rewrite C2, C3.
    assert (Fc : is_fortran (make_continued (u_cur u)) = true) by (rewrite fortran_cont; exact C).
    assert (Cc : is_comment (make_continued (u_cur u)) = false) by (apply fortran_not_comment; exact Fc).
    destruct (filter_keep cs E2) as [K1 K2].
    assert (OK : Forall line_ok (u_before u ++ make_continued (u_cur u) :: cs)).
    { apply Forall_app. split; [exact A|]. constructor; [right; split; [exact Fc|split; [unfold is_continued; rewrite C4; reflexivity|unfold width, lead in *; rewrite C1, C2, C3; exact X]]|].
      eapply Forall_impl; [|exact E2]. intros f Hf. left. exact Hf. }
    assert (Tx : forall c a, texts (mkCur (u_before u ++ make_continued (u_cur u) :: cs) c a) = texts u ++ [main_txt (u_cur u)]).
    { intros c a. unfold texts. cbn [u_before]. unfold fortran_lines in *. rewrite filter_app. cbn [filter]. rewrite Fc, K1, map_app. cbn [map]. rewrite C1. reflexivity. }
    assert (Hd : forall c a, left_txt c = [] -> length (left_space c) = length (left_txt (u_cur u)) + length (left_space (u_cur u)) + (if is_empty (u_before u) then 2 else 0) ->
      heads (mkCur (u_before u ++ make_continued (u_cur u) :: cs) c a)).
    { intros c a Q1 Q2. unfold heads in *. cbn [u_before u_cur]. destruct (u_before u) as [|h t] eqn:Eb; cbn [is_empty app] in *.
      - destruct H as [H1 H2]. split; [exact Q1|]. split; [unfold lead in *; rewrite Q1, Q2, H1, H2; cbn [length]; lia|].
        eexists _, _. split; [reflexivity|]. rewrite C2, C3. auto.
      - destruct H as (H1 & H2 & f & r & H3 & H4). split; [exact Q1|]. split; [unfold lead in *; rewrite Q1, Q2; cbn [length]; lia|].
        injection H3 as -> ->. eexists _, _. split; [reflexivity|exact H4]. }
    assert (Nn : u_before u ++ make_continued (u_cur u) :: cs <> []) by (intros Y; apply app_eq_nil in Y as [_ Y]; discriminate).
    set (n := length (left_txt (u_cur u)) + length (left_space (u_cur u)) + (if is_empty (u_before u) then 2 else 0)) in *.
    assert (Wn : forall c, left_txt c = [] -> main_txt c = [] -> length (left_space c) = n -> width c = w0 + 2).
    { intros c Q1 Q2 Q3. unfold width, lead. rewrite Q1, Q2, Q3. unfold n. unfold heads in H. destruct (is_empty (u_before u)).
      - destruct H as [H1 H2]. unfold lead in F0. rewrite H1, H2. cbn [length]. lia.
      - destruct H as (H1 & H2 & _). unfold lead in H2. cbn [length]. lia. }
    destruct rest as [|f r].
    - split; [|split; [apply Tx|split; [reflexivity|split; [exact Nn|eauto]]]].
      split; [exact OK|]. split; [constructor|]. split; [reflexivity|]. split; [reflexivity|]. split; [|split].
      + rewrite Wn; [exact Wide|reflexivity|reflexivity|apply spaces_length].
      + apply Hd; [reflexivity|]. cbn [left_space with_text]. apply spaces_length.
      + cbn [u_before u_after]. rewrite <- K, !filter_app. cbn [filter]. rewrite Cc, !app_nil_r. reflexivity.
    - inversion B2 as [|? ? B3 B4]; subst.
      set (g := make_uncontinued _).
      assert (Fg : is_fortran (with_text g [] (spaces n) [] (right_space g) (right_txt g)) = true).
      { rewrite (fortran_bits g _ eq_refl eq_refl eq_refl eq_refl eq_refl eq_refl : is_fortran (with_text g [] (spaces n) [] (right_space g) (right_txt g)) = is_fortran g). unfold g. rewrite fortran_uncont. destruct B3 as [B3|B3]; [congruence|exact B3]. }
      split; [|split; [apply Tx|split; [reflexivity|split; [exact Nn|eauto]]]].
      split; [exact OK|]. split; [exact B4|]. split; [exact Fg|]. split; [unfold is_continued; cbn [bits with_text u_cur]; unfold g; rewrite uncont_bits; reflexivity|]. split; [|split].
      + rewrite Wn; [exact Wide|reflexivity|reflexivity|apply spaces_length].
      + apply Hd; [reflexivity|]. cbn [left_space with_text u_cur]. apply spaces_length.
      + cbn [u_before u_after]. rewrite <- K, !filter_app. cbn [filter]. rewrite Cc, E3, <- app_assoc. reflexivity.
  Qed.

  Definition all_texts (u : Cur) : list str := texts u ++ [main_txt (u_cur u)].
  Definition piece (text : str) (pos count : nat) : str := firstn count (skipn pos text).
  Fixpoint pieces (k pos count : nat) (text : str) : list str :=
    match k with 0 => [] | S k' => piece text pos count :: pieces k' (pos + count) count text end.
  Lemma pieces_concat : forall k pos count text, concat (pieces k pos count text) = firstn (k * count) (skipn pos text).
  Proof using.
    clear. induction k as [|k IH]; intros pos count text; [reflexivity|]. cbn [pieces concat]. rewrite IH. unfold piece.
    rewrite <- skip_skip. cbn [Nat.mul]. rewrite <- (firstn_skipn count (firstn (count + k * count) (skipn pos text))).
    rewrite firstn_firstn, Nat.min_l by lia. f_equal. rewrite skipn_firstn_comm. f_equal. lia.
  Qed.

  Lemma cont_close : forall u, good u -> let c := make_continued (u_cur u) in
    let u2 := mkCur (u_before u) (with_text c (left_txt c) (left_space c) (main_txt c) [] (right_txt c)) (u_after u) in
    let v := continue_fl u2 in
    good v /\ all_texts v = all_texts u ++ [[]] /\ lead (u_cur v) = w0 + 2 /\ u_before v <> [].
  Proof using W0 F0 Wide.
    intros u G c u2 v.
    destruct (cont_facts (u_cur u)) as (C1 & C2 & C3 & C4).
    (* [v] does not depend on the continued bit of the current line *)
    set (x := with_text c (left_txt c) (left_space c) (main_txt c) [] (right_txt c)) in *.
    set (y := with_bits x (put_continued false (bits x))).
    assert (Gy : good (mkCur (u_before u) y (u_after u))).
    { destruct G as (A & B & C & D & X & H & K). split; [exact A|]. split; [exact B|]. split.
      - cbn [u_cur]. rewrite (fortran_bits (u_cur u) y); [exact C| | | | | |]; unfold y, x, c; cbn [with_bits with_text bits put_continued b_blank b_comment b_continued b_continuation b_label b_preprocessor b_include b_flpr_pp b_flpr_lit b_fixed]; rewrite C4; reflexivity.
      - split; [reflexivity|]. split; [unfold width, lead, y, x, c in *; cbn [u_cur with_bits with_text left_txt left_space main_txt]; rewrite C1, C2, C3; exact X|].
        split; [|exact K]. unfold heads in *. cbn [u_before u_cur]. unfold lead in *. cbn [y x with_bits with_text left_txt left_space]. unfold c. rewrite C2, C3. exact H. }
    assert (V : v = continue_fl (mkCur (u_before u) y (u_after u))).
    { unfold v, u2, continue_fl. cbn [u_before u_cur u_after].
      assert (M : make_continued x = make_continued y).
      { unfold make_continued, y. cbn [with_bits right_space right_txt linenum left_txt left_space main_txt open_delim bits put_continued b_blank b_comment b_continuation b_label b_preprocessor b_include b_flpr_pp b_flpr_lit b_fixed].
        destruct (right_txt x) as [|h t]; [reflexivity|]. destruct (ceq h c_amp); reflexivity. }
      rewrite M. reflexivity. }
    rewrite V. destruct (good_continue _ Gy) as (G1 & G2 & G3 & G4 & _). split; [exact G1|]. split; [|split; [|exact G4]].
    - unfold all_texts. rewrite G2, G3. unfold texts. cbn [u_before u_cur]. unfold y, x. cbn [with_bits with_text main_txt]. unfold c. rewrite C1. reflexivity.
    - destruct G1 as (_ & _ & _ & _ & _ & H & _). unfold heads in H. destruct (u_before (continue_fl (mkCur (u_before u) y (u_after u)))); [congruence|]. cbn [is_empty] in H. apply H.
  Qed.

  Lemma all_texts_add : forall u s, all_texts (add_main u s) = texts u ++ [main_txt (u_cur u) ++ s].
  Proof using. clear. intros u s. reflexivity. Qed.

  (* the parts after the first *)
  Lemma split_rest : forall k i pos count text u, good u -> main_txt (u_cur u) = [] -> lead (u_cur u) = w0 + 2 -> u_before u <> [] ->
    w0 + 3 + count <= wide -> 0 < i -> 0 < k -> pos + (k - 1) * count <= length text ->
    exists u', split_token k i pos count text u = Ok u' /\ good u' /\ all_texts u' = texts u ++ map (cons c_amp) (pieces k pos count text) /\
      length (main_txt (u_cur u')) <= count + 1 /\ lead (u_cur u') = w0 + 2 /\ u_before u' <> [].
  Proof using W0 F0 Wide.
    induction k as [|k IH]; intros i pos count text u G M L B Wd Hi Hk Hp; [lia|].
    cbn [split_token]. unfold substr_n. destruct (Nat.leb_spec pos (length text)); [|lia]. cbn [bind].
    destruct (Nat.ltb_spec 0 i); [|lia]. cbn [app]. fold (piece text pos count).
    assert (Lp : length (piece text pos count) <= count) by (unfold piece; rewrite firstn_length; lia).
    assert (G1 : good (add_main u (c_amp :: piece text pos count))).
    { apply good_add; [exact G|]. unfold width. rewrite M, L. cbn [length]. lia. }
    destruct k as [|k].
    - cbn [Nat.eqb split_token]. eexists. split; [reflexivity|]. split; [exact G1|]. split.
      + rewrite all_texts_add, M. reflexivity.
      + split; [cbn [add_main u_cur with_main with_text main_txt]; rewrite M; cbn; lia|]. split; [exact L|exact B].
    - cbn [Nat.eqb]. destruct (cont_close _ G1) as (V1 & V2 & V3 & V4).
      assert (M2 : main_txt (u_cur (continue_fl (mkCur (u_before (add_main u (c_amp :: piece text pos count)))
          (with_text (make_continued (u_cur (add_main u (c_amp :: piece text pos count)))) (left_txt (make_continued (u_cur (add_main u (c_amp :: piece text pos count))))) (left_space (make_continued (u_cur (add_main u (c_amp :: piece text pos count))))) (main_txt (make_continued (u_cur (add_main u (c_amp :: piece text pos count))))) [] (right_txt (make_continued (u_cur (add_main u (c_amp :: piece text pos count)))))) (u_after (add_main u (c_amp :: piece text pos count)))))) = []).
      { unfold continue_fl. destruct (skip_comments _) as [? [|? ?]]; reflexivity. }
      destruct (IH (S i) (pos + count) count text _ V1 M2 V3 V4 Wd) as (u' & E & E1 & E2 & E3 & E4 & E5); [lia|lia|cbn in Hp |- *; lia|].
      eexists. split; [exact E|]. split; [exact E1|]. split; [|split; [exact E3|split; [exact E4|exact E5]]].
      rewrite E2. unfold all_texts in V2. rewrite M2 in V2. apply app_inj_tail in V2 as [V2 _]. rewrite V2.
      change (texts (add_main u (c_amp :: piece text pos count))) with (texts u).
      rewrite <- app_assoc. cbn [add_main u_cur with_main with_text main_txt]. rewrite M. reflexivity.
  Qed.

  Lemma parts_fit : forall size max, 1 <= max -> size / (size / max + 1) + 1 <= max /\ (size / max) * (size / (size / max + 1) + 1) <= size /\
    size <= (size / max + 1) * (size / (size / max + 1) + 1).
  Proof using.
    clear. intros size max H. set (k := size / max). set (q := size / (k + 1)).
    assert (K1 : max * k <= size) by (apply Nat.mul_div_le; lia).
    assert (K2 : size < max * S k) by (apply Nat.mul_succ_div_gt; lia).
    assert (Q1 : (k + 1) * q <= size) by (apply Nat.mul_div_le; lia).
    assert (Q2 : size < (k + 1) * S q) by (apply Nat.mul_succ_div_gt; lia).
    assert (C : q + 1 <= max).
    { assert (q < max); [|lia]. apply Nat.div_lt_upper_bound; [lia|]. rewrite Nat.mul_comm. replace (k + 1) with (S k) by lia. exact K2. }
    split; [exact C|]. split; [|replace (q + 1) with (S q) by lia; lia].
    destruct (le_lt_dec k q) as [L|L]; [nia|]. transitivity (max * k); [nia|exact K1].
  Qed.
  Lemma no_main : forall u, main_txt (u_cur (continue_fl u)) = [].
  Proof using. clear. intros u. unfold continue_fl. destruct (skip_comments _) as [? [|? ?]]; reflexivity. Qed.

  Lemma split_all : forall text max u, good u -> main_txt (u_cur u) = [] -> 1 <= max -> max + w0 <= 76 -> 79 <= wide ->
    exists u' ps, split_token (length text / max + 1) 0 0 (length text / (length text / max + 1) + 1) text u = Ok u' /\ good u' /\
      ps <> [] /\ concat ps = text /\ all_texts u' = texts u ++ broken ps /\ length (main_txt (u_cur u')) <= max + 1.
  Proof using W0 F0 Wide.
    intros text max u G M H1 H2 H3. destruct (parts_fit (length text) max H1) as (P1 & P2 & P3).
    set (count := length text / (length text / max + 1) + 1) in *. set (k := length text / max) in *.
    pose proof (good_lead u G) as L.
    replace (k + 1) with (S k) in * by lia. cbn [split_token]. unfold substr_n. cbn [Nat.leb bind Nat.ltb app skipn].
    change (firstn count text) with (piece text 0 count).
    assert (Lp : length (piece text 0 count) <= count) by (unfold piece; rewrite firstn_length; lia).
    assert (G1 : good (add_main u (piece text 0 count))).
    { apply good_add; [exact G|]. unfold width. rewrite M. cbn [length]. lia. }
    assert (Cc : concat (pieces (S k) 0 count text) = text) by (rewrite pieces_concat; cbn [skipn]; apply firstn_all2; exact P3).
    destruct k as [|k'].
    - cbn [Nat.eqb split_token]. exists (add_main u (piece text 0 count)), (pieces 1 0 count text). split; [reflexivity|]. split; [exact G1|]. split; [discriminate|]. split; [exact Cc|]. split.
      + rewrite all_texts_add, M. reflexivity.
      + cbn [add_main u_cur with_main with_text main_txt]. rewrite M. cbn [app]. lia.
    - cbn [Nat.eqb]. destruct (cont_close _ G1) as (V1 & V2 & V3 & V4).
      set (v := continue_fl _) in *. assert (M2 : main_txt (u_cur v) = []) by apply no_main.
      destruct (split_rest (S k') 1 (0 + count) count text v V1 M2 V3 V4) as (u' & E & E1 & E2 & E3 & E4 & E5); [lia|lia|lia|cbn [Nat.add Nat.sub]; rewrite Nat.sub_0_r; cbn [Nat.mul] in P2; lia|].
      exists u', (pieces (S (S k')) 0 count text). split; [exact E|]. split; [exact E1|]. split; [discriminate|]. split; [exact Cc|]. split; [|lia].
      rewrite E2. unfold all_texts in V2. rewrite M2 in V2. apply app_inj_tail in V2 as [V2 _]. rewrite V2.
      rewrite <- app_assoc. cbn [add_main u_cur with_main with_text main_txt]. rewrite M. reflexivity.
  Qed.

  Lemma append_some : forall main max x first0 p, tk_pre x = Some p -> 1 <= max ->
    (exists s, append_tt_if main max x first0 = Ok (Some s) /\ s = (if first0 : bool then [] else gap x) ++ tk_text x /\ length main + length s <= max) \/
    (append_tt_if main max x first0 = Ok None /\ max <= length main + length ((if first0 : bool then [] else gap x) ++ tk_text x)).
  Proof using.
    clear. intros main max x first0 p Hp H1. unfold append_tt_if, gap. rewrite Hp.
    assert (Sp : spaces 0 = []) by reflexivity.
    destruct first0; cbn [rd bind].
    - destruct max as [|m]; [lia|]. rewrite Sp, app_length. cbn [length app].
      destruct (tok x =? TK_COMMA)%Z.
      + destruct (Nat.leb_spec (length main + (length (tk_text x) + 0)) (S m)); [left|right]; [eexists; split; [reflexivity|]; split; [reflexivity|]|split; [reflexivity|]]; lia.
      + destruct (Nat.leb_spec (length main + (length (tk_text x) + 0)) m); [left|right]; [eexists; split; [reflexivity|]; split; [reflexivity|]|split; [reflexivity|]]; lia.
    - destruct max as [|m]; [lia|]. rewrite !app_length, !spaces_length.
      destruct (tok x =? TK_COMMA)%Z.
      + destruct (Nat.leb_spec (length main + (length (tk_text x) + Z.to_nat p)) (S m)); [left|right]; [eexists; split; [reflexivity|]; split; [reflexivity|]|split; [reflexivity|]]; rewrite ?app_length, ?spaces_length; lia.
      + destruct (Nat.leb_spec (length main + (length (tk_text x) + Z.to_nat p)) m); [left|right]; [eexists; split; [reflexivity|]; split; [reflexivity|]|split; [reflexivity|]]; rewrite ?app_length, ?spaces_length; lia.
  Qed.

  Definition inv (u : Cur) (max : nat) : Prop := good u /\ 1 <= max /\ max + w0 <= 76.
  Lemma append_first : forall main max x, 1 <= max ->
    (exists s, append_tt_if main max x true = Ok (Some s) /\ s = tk_text x /\ length main + length s <= max) \/
    (append_tt_if main max x true = Ok None /\ max <= length main + length (tk_text x)).
  Proof using.
    clear. intros main max x H1. unfold append_tt_if. cbn [bind]. assert (Sp : spaces 0 = []) by reflexivity. destruct max as [|m]; [lia|]. rewrite Sp. cbn [app].
    destruct (tok x =? TK_COMMA)%Z.
    + destruct (Nat.leb_spec (length main + (length (tk_text x) + 0)) (S m)); [left|right]; [eexists; split; [reflexivity|]; split; [reflexivity|]|split; [reflexivity|]]; lia.
    + destruct (Nat.leb_spec (length main + (length (tk_text x) + 0)) m); [left|right]; [eexists; split; [reflexivity|]; split; [reflexivity|]|split; [reflexivity|]]; lia.
  Qed.
  Lemma place_start : forall r x u max, inv u max -> main_txt (u_cur u) = [] -> 79 <= wide ->
    exists u' ps, place_token r x u max true = Ok (u', max, false) /\ inv u' max /\ ps <> [] /\ concat ps = tk_text x /\
      all_texts u' = texts u ++ broken ps /\ length (main_txt (u_cur u')) <= max + 1.
  Proof using W0 F0 Wide.
    intros r x u max (G & H1 & H2) M Hw. pose proof (good_lead u G) as L.
    assert (D : place_token r x u max true = (o <- append_tt_if (main_txt (u_cur u)) max x true ;;
      match o with
      | Some s => Ok (add_main u s, max, false)
      | None => _ <- assert_ (negb (max =? 0)) ;;
          u' <- split_token (length (tk_text x) / max + 1) 0 0 (length (tk_text x) / (length (tk_text x) / max + 1) + 1) (tk_text x) u ;;
          Ok (u', max, false) end)) by (destruct r; reflexivity).
    rewrite D. clear D. destruct (append_first (main_txt (u_cur u)) max x H1) as [(s & E & Es & El)|(E & El)]; rewrite E; cbn [bind].
    - subst s. exists (add_main u (tk_text x)), [tk_text x]. split; [reflexivity|]. split.
      + split; [|auto]. apply good_add; [exact G|]. unfold width. rewrite M in *. cbn [length] in *. lia.
      + split; [discriminate|]. split; [apply app_nil_r|]. split; [rewrite all_texts_add, M; reflexivity|].
        cbn [add_main u_cur with_main with_text main_txt]. rewrite M in *. cbn [app length] in *. lia.
    - destruct (Nat.eqb_spec max 0); [lia|]. cbn [negb assert_ bind].
      destruct (split_all (tk_text x) max u G M H1 H2 Hw) as (u' & ps & S1 & S2 & S3 & S4 & S5 & S6). rewrite S1. cbn [bind].
      exists u', ps. split; [reflexivity|]. split; [split; [exact S2|auto]|]. auto.
  Qed.
  Lemma place_more : forall r x p u max, inv u max -> tk_pre x = Some p -> 79 <= wide ->
    exists u' max', place_token (S r) x u max false = Ok (u', max', false) /\ inv u' max' /\
      (all_texts u' = texts u ++ [main_txt (u_cur u) ++ gap x ++ tk_text x] \/
       exists ps, ps <> [] /\ concat ps = tk_text x /\ all_texts u' = all_texts u ++ broken ps).
  Proof using W0 F0 Wide.
    intros r x p u max (G & H1 & H2) Hp Hw. pose proof (good_lead u G) as L. cbn [place_token].
    destruct (append_some (main_txt (u_cur u)) max x false p Hp H1) as [(s & E & Es & El)|(E & El)]; rewrite E; cbn [bind].
    - subst s. eexists _, _. split; [reflexivity|]. split; [|left; apply all_texts_add].
      split; [|auto]. apply good_add; [exact G|]. unfold width. lia.
    - destruct (good_continue u G) as (G1 & G2 & G3 & G4 & _). destruct (good_max _ G1) as (m & E1 & M1 & M2 & _). rewrite E1. cbn [bind].
      destruct (place_start r x (continue_fl u) m (conj G1 (conj M1 M2)) G3 Hw) as (u' & ps & S1 & S2 & S3 & S4 & S5 & S6).
      rewrite S1. eexists _, _. split; [reflexivity|]. split; [exact S2|]. right. exists ps. split; [exact S3|]. split; [exact S4|]. rewrite S5, G2. reflexivity.
  Qed.
  Lemma place_all_more : forall l u max done, inv u max -> Forall (fun x => tk_pre x <> None) l -> 79 <= wide -> spelled done (all_texts u) ->
    exists u', place_all l u max false = Ok u' /\ good u' /\ spelled (done ++ l) (all_texts u').
  Proof using W0 F0 Wide.
    induction l as [|x l IH]; intros u max done I F Hw Sd.
    - exists u. rewrite app_nil_r. split; [reflexivity|]. split; [apply I|exact Sd].
    - inversion F; subst. destruct (tk_pre x) as [p|] eqn:Ep; [|congruence]. cbn [place_all].
      destruct (place_more 2 x p u max I Ep Hw) as (u' & max' & E & I' & T). rewrite E. cbn [bind].
      destruct (IH u' max' (done ++ [x]) I' H2 Hw) as (u'' & E2 & G2 & S2).
      + destruct T as [T|(ps & P1 & P2 & T)]; rewrite T; [apply spelled_same; exact Sd|apply spelled_next; assumption].
      + exists u''. split; [exact E2|]. split; [exact G2|]. rewrite <- app_assoc in S2. exact S2.
  Qed.

  (** ** No token need be broken *)
  Definition inv_short (u : Cur) (max : nat) : Prop :=
    inv u max /\ lead (u_cur u) + max <= 76 /\ (max <= 38 -> lead (u_cur u) + max = 76).
  Definition short (x : Token) : Prop := length (tk_text x) <= 38 /\ length (tk_text x) + w0 + 3 <= 76.
  Lemma short_start : forall r x u max, inv_short u max -> main_txt (u_cur u) = [] -> 76 <= wide -> short x ->
    exists u', place_token r x u max true = Ok (u', max, false) /\ inv_short u' max /\ all_texts u' = texts u ++ [tk_text x].
  Proof using W0 F0 Wide.
    intros r x u max ((G & H1 & H2) & H3 & H4) M Hw (S1 & S2). pose proof (good_lead u G) as L.
    assert (D : append_tt_if (main_txt (u_cur u)) max x true = Ok (Some (tk_text x))).
    { destruct (append_first (main_txt (u_cur u)) max x H1) as [(s & E & Es & El)|(E & El)]; [rewrite E, Es; reflexivity|].
      rewrite M in El. cbn [app length Nat.add] in El. destruct (le_lt_dec max 38) as [Q|Q]; [specialize (H4 Q); lia|lia]. }
    exists (add_main u (tk_text x)). split; [destruct r; cbn [place_token]; rewrite D; reflexivity|]. split; [|rewrite all_texts_add, M; reflexivity].
    split; [|split; assumption]. split; [|auto]. apply good_add; [exact G|]. unfold width. rewrite M. cbn [length].
    destruct (append_first (main_txt (u_cur u)) max x H1) as [(s & E & Es & El)|(E & El)]; [|congruence]. rewrite D in E. injection E as <-. rewrite M in El. cbn [length] in El. lia.
  Qed.
  Lemma short_more : forall r x p u max, inv_short u max -> tk_pre x = Some p -> 76 <= wide -> short x ->
    exists u' max', place_token (S r) x u max false = Ok (u', max', false) /\ inv_short u' max' /\
      (all_texts u' = texts u ++ [main_txt (u_cur u) ++ gap x ++ tk_text x] \/ all_texts u' = all_texts u ++ [tk_text x]).
  Proof using W0 F0 Wide.
    intros r x p u max ((G & H1 & H2) & H3 & H4) Hp Hw Sh. pose proof (good_lead u G) as L. cbn [place_token].
    destruct (append_some (main_txt (u_cur u)) max x false p Hp H1) as [(s & E & Es & El)|(E & El)]; rewrite E; cbn [bind].
    - subst s. eexists _, _. split; [reflexivity|]. split; [|left; apply all_texts_add].
      split; [|split; assumption]. split; [|auto]. apply good_add; [exact G|]. unfold width. lia.
    - destruct (good_continue u G) as (G1 & G2 & G3 & G4 & _). destruct (good_max _ G1) as (m & E1 & M1 & M2 & M3 & M4). rewrite E1. cbn [bind].
      destruct (short_start r x (continue_fl u) m (conj (conj G1 (conj M1 M2)) (conj M3 M4)) G3 Hw Sh) as (u' & S1 & S2 & S3).
      rewrite S1. eexists _, _. split; [reflexivity|]. split; [exact S2|]. right. rewrite S3, G2. reflexivity.
  Qed.
  Lemma short_all : forall l u max done, inv_short u max -> Forall (fun x => tk_pre x <> None) l -> Forall short l -> 76 <= wide -> unbroken done (all_texts u) ->
    exists u', place_all l u max false = Ok u' /\ good u' /\ unbroken (done ++ l) (all_texts u').
  Proof using W0 F0 Wide.
    induction l as [|x l IH]; intros u max done I F Fs Hw Sd.
    - exists u. rewrite app_nil_r. split; [reflexivity|]. split; [apply I|exact Sd].
    - inversion F; subst. inversion Fs; subst. destruct (tk_pre x) as [p|] eqn:Ep; [|congruence]. cbn [place_all].
      destruct (short_more 2 x p u max I Ep Hw H3) as (u' & max' & E & I' & T). rewrite E. cbn [bind].
      destruct (IH u' max' (done ++ [x]) I' H2 H4 Hw) as (u'' & E2 & G2 & S2).
      + destruct T as [T|T]; rewrite T; [apply unbroken_same; exact Sd|apply unbroken_next; exact Sd].
      + exists u''. split; [exact E2|]. split; [exact G2|]. rewrite <- app_assoc in S2. exact S2.
  Qed.
End Flow.

Lemma leftover_not : forall f, usable f -> is_fortran (leftover f) = false.
Proof.
  intros f [H|H]; unfold leftover.
  - rewrite H. unfold is_fortran, is_trivial. rewrite H. reflexivity.
  - rewrite (fortran_not_comment _ H). destruct (is_empty _); unfold is_fortran, is_trivial, is_blank, is_comment; cbn [with_bits with_main with_text bits set_blank set_comment b_blank b_comment]; rewrite ?orb_true_r; reflexivity.
Qed.
Lemma no_fortran_left : forall l, Forall usable l -> fortran_lines (map leftover l) = [].
Proof. induction l as [|f l IH]; intros H; [reflexivity|]. inversion H; subst. unfold fortran_lines in *. cbn [map filter]. rewrite leftover_not by assumption. apply IH. assumption. Qed.
Lemma fortran_filter : forall l, fortran_lines (filter (fun f => negb (is_blank f)) l) = fortran_lines l.
Proof.
  induction l as [|f l IH]; [reflexivity|]. cbn [filter fortran_lines]. destruct (is_blank f) eqn:B; cbn [negb].
  - assert (is_fortran f = false) as -> by (unfold is_fortran, is_trivial; rewrite B, orb_true_r; reflexivity). exact IH.
  - cbn [fortran_lines filter]. destruct (is_fortran f); [f_equal|]; exact IH.
Qed.

(** What both versions come to. *)
Definition result (ll ll' : LLn) (f : File_Line) (wide : nat) : Prop :=
  l_frags ll' = l_frags ll /\ l_label ll' = l_label ll /\ l_cat ll' = l_cat ll /\ l_reformat ll' = l_reformat ll /\ stmts_right ll' /\
  Forall (fun g => width g <= wide) (fortran_lines (l_layout ll')) /\
  continues (fortran_lines (l_layout ll')) /\
  (l_frags ll <> [] -> exists g q, l_layout ll' = g :: q /\ is_fortran g = true /\ left_txt g = left_txt f /\ left_space g = left_space f) /\
  (forall c, In c (l_layout ll) -> is_comment c = true -> is_blank c = false -> In c (l_layout ll')).

Lemma good_first : forall ll f r wide, l_layout ll = f :: r -> is_fortran f = true -> Forall usable r -> lead f + 2 <= wide ->
  good (lead f) f (filter is_comment r) wide (mkCur [] (make_uncontinued (with_main f [])) r).
Proof.
  intros ll f r wide _ F U W. destruct (uncont_text (with_main f [])) as (U1 & U2 & U3 & U4). split; [constructor|]. split; [exact U|].
  split; [cbn [u_cur]; rewrite fortran_uncont; exact F|]. split; [unfold is_continued; cbn [u_cur]; rewrite uncont_bits; reflexivity|].
  split; [unfold width, lead in *; cbn [u_cur]; rewrite U1, U2, U3; cbn [with_main with_text main_txt left_txt left_space length]; lia|].
  split; [|reflexivity]. unfold heads. cbn [u_before is_empty u_cur]. rewrite U2, U3. split; reflexivity.
Qed.

Lemma finish : forall ll f r wide u (P : list str -> Prop), l_layout ll = f :: r -> is_fortran f = true -> Forall usable r ->
  good (lead f) f (filter is_comment r) wide u -> l_frags ll <> [] -> P (all_texts u) ->
  forall m ls, place_all (l_frags ll) (mkCur [] (make_uncontinued (with_main f [])) r) m ls = Ok u ->
  max_main_txt_len (make_uncontinued (with_main f [])) = Ok m -> ls = true ->
  exists ll', text_from_frags ll = Ok ll' /\ P (map main_txt (fortran_lines (l_layout ll'))) /\ result ll ll' f wide.
Proof.
  intros ll f r wide u P El F U G Ne Pu m ls Ep Em ->. unfold text_from_frags. rewrite El, F. cbn [negb]. rewrite Em. cbn [bind]. rewrite Ep. cbn [bind].
  assert (Emp : is_empty (l_frags ll) = false) by (destruct (l_frags ll); [congruence|reflexivity]). rewrite Emp.
  destruct G as (A & B & C & D & X & H & K).
  set (l1 := (u_before u ++ [u_cur u]) ++ map leftover (u_after u)).
  set (l2 := if existsb blanks_one (u_after u) then filter (fun g => negb (is_blank g)) l1 else l1).
  assert (FL : fortran_lines l2 = fortran_lines (u_before u) ++ [u_cur u]).
  { assert (L1 : fortran_lines l1 = fortran_lines (u_before u) ++ [u_cur u]).
    { unfold l1, fortran_lines. rewrite !filter_app. cbn [filter]. rewrite C.
      pose proof (no_fortran_left _ B) as N. unfold fortran_lines in N. rewrite N, app_nil_r. reflexivity. }
    unfold l2. destruct (existsb blanks_one (u_after u)); [rewrite fortran_filter|]; exact L1. }
  eexists. split; [reflexivity|].
  destruct (redo_right (mkLLn (l_label ll) (l_cat ll) (l_suppress ll || existsb blanks_one (u_after u) && is_empty l2) (l_reformat ll) (l_nsemi ll) l2 (l_frags ll) (l_stmts ll))) as (R1 & R2 & R3 & (R4 & R5 & _ & R6)).
  fold l1. fold l2. set (ll' := redo_stmts _) in *. cbn [l_frags l_layout] in R2, R3.
  split. { rewrite R3, FL, map_app. exact Pu. }
  unfold result. rewrite R2, R3, FL. split; [reflexivity|]. split; [exact R4|]. split; [exact R5|]. split; [exact R6|]. split; [exact R1|].
  split. { apply Forall_app. split; [|constructor; [exact X|constructor]]. apply Forall_forall. intros g Hg. apply filter_In in Hg as [Hg Hf].
    rewrite Forall_forall in A. destruct (A _ Hg) as [Q|(_ & _ & Q)]; [apply fortran_not_comment in Hf; congruence|exact Q]. }
  split. { intros p g q E. destruct q as [|h q].
    - apply app_inj_tail in E as [_ <-]. exact D.
    - assert (In g (fortran_lines (u_before u))).
      { destruct (exists_last (l := h :: q)) as (q' & z & Eq); [discriminate|]. rewrite Eq in E. change (g :: q' ++ [z]) with ((g :: q') ++ [z]) in E. rewrite app_assoc in E.
        apply app_inj_tail in E as [E _]. rewrite E. apply in_or_app. right. left. reflexivity. }
      apply filter_In in H0 as [Hg Hf]. rewrite Forall_forall in A. destruct (A _ Hg) as [Q|(_ & Q & _)]; [apply fortran_not_comment in Hf; congruence|exact Q]. }
  assert (Bl : forall g, In g l1 -> is_blank g = false -> In g l2).
  { intros g Hg Hb. unfold l2. destruct (existsb blanks_one (u_after u)); [|exact Hg]. apply filter_In. rewrite Hb. auto. }
  split.
  - intros _. unfold heads in H.
    assert (Q : exists g q, l1 = g :: q /\ is_fortran g = true /\ left_txt g = left_txt f /\ left_space g = left_space f).
    { unfold l1. destruct (u_before u) as [|h t]; cbn [is_empty app] in H |- *.
      - exists (u_cur u), (map leftover (u_after u)). destruct H. auto.
      - destruct H as (_ & _ & h' & t' & E & H1 & H2 & H3). injection E as <- <-. exists h. eexists. split; [reflexivity|]. auto. }
    destruct Q as (g & q & Q1 & Q2 & Q3). unfold l2. rewrite Q1. destruct (existsb blanks_one (u_after u)); [|eauto].
    cbn [filter]. assert (is_blank g = false) as ->; [|cbn [negb]; exists g; eexists; split; [reflexivity|]; auto].
    unfold is_fortran, is_trivial in Q2. destruct (is_blank g); [rewrite orb_true_r in Q2; discriminate|reflexivity].
  - intros c Hc Cc Cb. apply Bl; [|exact Cb]. rewrite El in Hc. destruct Hc as [<-|Hc]; [apply fortran_not_comment in F; congruence|].
    assert (Hc' : In c (u_before u ++ u_after u)) by (apply (proj1 (filter_In is_comment c (u_before u ++ u_after u))); rewrite K; apply filter_In; auto).
    unfold l1. apply in_or_app. apply in_app_or in Hc' as [Hc'|Hc']; [left; apply in_or_app; left; exact Hc'|right].
    apply in_map_iff. exists c. split; [|exact Hc']. unfold leftover. rewrite Cc. reflexivity.
Qed.

Lemma flow_empty : forall ll f r wide, l_layout ll = f :: r -> is_fortran f = true -> Forall usable r -> lead f + 2 < 76 -> l_frags ll = [] ->
  exists ll', text_from_frags ll = Ok ll' /\ fortran_lines (l_layout ll') = [] /\ result ll ll' f wide.
Proof.
  intros ll f r wide El F U W En. unfold text_from_frags. rewrite El, F. cbn [negb].
  assert (G : good (lead f) f (filter is_comment r) 76 (mkCur [] (make_uncontinued (with_main f [])) r)) by (apply (good_first ll); auto; lia).
  destruct (good_max (lead f) W f (filter is_comment r) 76 eq_refl _ G) as (m & Em & _). cbn [u_cur] in Em. rewrite Em. cbn [bind]. rewrite En. cbn [place_all bind is_empty u_before u_cur u_after].
  set (f1 := make_uncontinued (with_main f [])) in *.
  assert (F1 : is_fortran f1 = true) by (unfold f1; rewrite fortran_uncont; exact F).
  set (l1 := [] ++ map leftover (f1 :: r)). set (bl := existsb blanks_one (f1 :: r)). set (l2 := if bl then filter (fun g => negb (is_blank g)) l1 else l1).
  assert (FL : fortran_lines l2 = []).
  { assert (L1 : fortran_lines l1 = []) by (apply (no_fortran_left (f1 :: r)); constructor; [right; exact F1|exact U]).
    unfold l2. destruct bl; [rewrite fortran_filter|]; exact L1. }
  eexists. split; [reflexivity|].
  destruct (redo_right (mkLLn (l_label ll) (l_cat ll) (l_suppress ll || bl && is_empty l2) (l_reformat ll) (l_nsemi ll) l2 [] (l_stmts ll))) as (R1 & R2 & R3 & (R4 & R5 & _ & R6)).
  set (ll' := redo_stmts _) in *. cbn [l_frags l_layout] in R2, R3. rewrite R3. split; [exact FL|].
  unfold result. rewrite R2, R3, FL, En. split; [reflexivity|]. split; [exact R4|]. split; [exact R5|]. split; [exact R6|]. split; [exact R1|].
  split; [constructor|]. split; [intros p g q E; destruct p; discriminate|]. split; [congruence|].
  intros c Hc Cc Cb. rewrite El in Hc. destruct Hc as [<-|Hc]; [apply fortran_not_comment in F; congruence|].
  assert (In c l1). { unfold l1. cbn [app map]. right. apply in_map_iff. exists c. split; [|exact Hc]. unfold leftover. rewrite Cc. reflexivity. }
  unfold l2. destruct bl; [|exact H]. apply filter_In. rewrite Cb. auto.
Qed.

Lemma flow_ok : forall ll f r, l_layout ll = f :: r -> is_fortran f = true -> Forall usable r -> lead f + 2 < 76 ->
  Forall (fun x => tk_pre x <> None) (tl (l_frags ll)) ->
  exists ll', text_from_frags ll = Ok ll' /\ spelled (l_frags ll) (map main_txt (fortran_lines (l_layout ll'))) /\ result ll ll' f 79.
Proof.
  intros ll f r El F U W Pre. destruct (l_frags ll) as [|x l] eqn:En.
  - destruct (flow_empty ll f r 79 El F U W En) as (ll' & E & E1 & E2). exists ll'. split; [exact E|]. rewrite E1. split; [constructor|exact E2].
  - assert (G : good (lead f) f (filter is_comment r) 79 (mkCur [] (make_uncontinued (with_main f [])) r)) by (apply (good_first ll); auto; lia).
    assert (W79 : lead f + 2 <= 79) by lia.
    destruct (good_max (lead f) W f (filter is_comment r) 79 eq_refl _ G) as (m & Em & M1 & M2 & _). cbn [u_cur] in Em.
    cbn [tl] in Pre. rename Pre into P2.
    destruct (uncont_text (with_main f [])) as (U1 & _).
    destruct (place_start (lead f) W f (filter is_comment r) 79 W79 eq_refl 3 x _ m (conj G (conj M1 M2)) U1 (le_n _)) as (u & ps & S1 & S2 & S3 & S4 & S5 & _).
    assert (Sp : spelled [x] (all_texts u)) by (rewrite S5; apply (spelled_next [] [] x ps); auto; constructor).
    destruct (place_all_more (lead f) W f (filter is_comment r) 79 W79 eq_refl l u m [x] S2 P2 (le_n _) Sp) as (u' & E & G' & Sp').
    cbn [app] in Sp'. rewrite <- En in Sp' |- *.
    apply (finish ll f r 79 u' (spelled (l_frags ll)) El F U G') with (m := m) (ls := true); auto; [rewrite En; discriminate|].
    rewrite En. cbn [place_all]. rewrite S1. cbn [bind]. exact E.
Qed.

Lemma flow_short : forall ll f r, l_layout ll = f :: r -> is_fortran f = true -> Forall usable r -> lead f + 2 < 76 ->
  Forall (fun x => tk_pre x <> None) (tl (l_frags ll)) -> Forall (short (lead f)) (l_frags ll) ->
  exists ll', text_from_frags ll = Ok ll' /\ unbroken (l_frags ll) (map main_txt (fortran_lines (l_layout ll'))) /\ result ll ll' f 76.
Proof.
  intros ll f r El F U W Pre Sh. destruct (l_frags ll) as [|x l] eqn:En.
  - destruct (flow_empty ll f r 76 El F U W En) as (ll' & E & E1 & E2). exists ll'. split; [exact E|]. rewrite E1. split; [constructor|exact E2].
  - assert (W76 : lead f + 2 <= 76) by lia.
    assert (G : good (lead f) f (filter is_comment r) 76 (mkCur [] (make_uncontinued (with_main f [])) r)) by (apply (good_first ll); auto; lia).
    destruct (good_max (lead f) W f (filter is_comment r) 76 eq_refl _ G) as (m & Em & M1 & M2 & M3 & M4). cbn [u_cur] in Em.
    cbn [tl] in Pre. rename Pre into P2. inversion Sh as [|? ? H1 H2]; subst.
    destruct (uncont_text (with_main f [])) as (U1 & _).
    destruct (short_start (lead f) W f (filter is_comment r) 76 W76 eq_refl 3 x _ m (conj (conj G (conj M1 M2)) (conj M3 M4)) U1 (le_n _) H1) as (u & S1 & S2 & S5).
    assert (Sp : unbroken [x] (all_texts u)) by (rewrite S5; apply (unbroken_next [] [] x); constructor).
    destruct (short_all (lead f) W f (filter is_comment r) 76 W76 eq_refl l u m [x] S2 P2 H2 (le_n _) Sp) as (u' & E & G' & Sp').
    cbn [app] in Sp'. rewrite <- En in Sp' |- *.
    apply (finish ll f r 76 u' (unbroken (l_frags ll)) El F U G') with (m := m) (ls := true); auto; [rewrite En; discriminate|].
    rewrite En. cbn [place_all]. rewrite S1. cbn [bind]. exact E.
Qed.
