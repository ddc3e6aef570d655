From Verif Require Import Base Base_lemmas Tags FileLine FileEdit_proofs LogicalFile Token LogicalLine LineEdit LineEdit_spec LineEdit_proofs LineSplit_spec.
Local Open Scope nat_scope.

Definition oz (f : Z -> Z) (o : option Z) : option Z := match o with Some z => Some (f z) | None => None end.
Definition on (i : nat) (o : option Z) : bool := match o with Some z => (z =? Z.of_nat i)%Z | None => false end.
(** The token after the cut at column [c0] of line [s]. *)
Definition mvt (s c0 : nat) (x : Token) : Token :=
  mkTok (tok x) (tk_line x) (tk_pos x) (tk_text x) (oz (fun z => z - Z.of_nat s)%Z (mt_bl x))
    (if on s (mt_bl x) then oz (fun z => z - Z.of_nat c0)%Z (mt_bc x) else mt_bc x)
    (oz (fun z => z - Z.of_nat s)%Z (mt_el x))
    (if on s (mt_bl x) && on s (mt_el x) then oz (fun z => z - Z.of_nat c0)%Z (mt_ec x) else mt_ec x)
    (tk_pre x) (tk_post x).

Section Cut.
  Variables (l1 l2 : list File_Line) (s c0 : nat).
  Hypothesis M2 : map main_txt l2 = skipn c0 (main_of l1 s) :: skipn (S s) (map main_txt l1).
  Hypothesis Ls : s < length l1.
  Hypothesis Lc : c0 <= length (main_of l1 s).

  Definition mv (a : spot) : spot := (fst a - s, if fst a =? s then snd a - c0 else snd a).

  Lemma cut_len : length l2 = length l1 - s.
  Proof using M2 Ls. clear Lc. rewrite <- (map_length main_txt l2), M2. cbn [length]. rewrite skipn_length, map_length. lia. Qed.
  Lemma cut_main0 : main_of l2 0 = skipn c0 (main_of l1 s).
  Proof using M2. unfold main_of at 1. rewrite M2. reflexivity. Qed.
  Lemma nth_skip : forall A (l : list A) d a j, nth j (skipn a l) d = nth (a + j) l d.
  Proof using. clear. intros A l d a. revert l. induction a as [|a IH]; intros [|x l] j; cbn; auto; destruct j; reflexivity. Qed.
  Lemma cut_main : forall j, 0 < j -> main_of l2 j = main_of l1 (s + j).
  Proof using M2.
    clear Ls Lc. intros [|j] H; [lia|]. unfold main_of at 1. rewrite M2. cbn [nth]. rewrite nth_skip. unfold main_of. f_equal. lia.
  Qed.

  Lemma cut_between : forall a b, before (s, c0) a -> before a b -> between l2 (mv a) (mv b) = between l1 a b.
  Proof using M2 Ls Lc.
    intros [ai ac] [bi bc] A B. unfold before in *. cbn [fst snd] in *. unfold between, mv. cbn [fst snd].
    destruct (Nat.eqb_spec ai bi) as [->|N].
    - rewrite Nat.eqb_refl. destruct (Nat.eqb_spec bi s) as [->|Ns].
      + rewrite Nat.sub_diag, cut_main0, skip_skip. f_equal; [lia|]. f_equal. lia.
      + rewrite cut_main by lia. replace (s + (bi - s)) with bi by lia. reflexivity.
    - destruct (Nat.eqb_spec (ai - s) (bi - s)); [lia|]. destruct (Nat.eqb_spec bi s); [lia|].
      rewrite (cut_main (bi - s)) by lia. replace (s + (bi - s)) with bi by lia.
      assert (X : firstn (bi - s - (ai - s) - 1) (skipn (S (ai - s)) (map main_txt l2)) = firstn (bi - ai - 1) (skipn (S ai) (map main_txt l1))).
      { rewrite M2. change (skipn (S (ai - s)) (skipn c0 (main_of l1 s) :: skipn (S s) (map main_txt l1))) with (skipn (ai - s) (skipn (S s) (map main_txt l1))).
        rewrite skip_skip. f_equal; [lia|]. f_equal. lia. }
      rewrite X. f_equal. destruct (Nat.eqb_spec ai s) as [->|Ns].
      + rewrite Nat.sub_diag, cut_main0, skip_skip. f_equal. lia.
      + rewrite cut_main by lia. do 2 f_equal. lia.
  Qed.
  Lemma cut_inside : forall a, before (s, c0) a -> inside l1 a -> inside l2 (mv a).
  Proof using M2 Ls Lc.
    intros [ai ac] A [I1 I2]. unfold before in A. cbn [fst snd] in *. unfold inside, mv. cbn [fst snd]. rewrite cut_len. split; [lia|].
    destruct (Nat.eqb_spec ai s) as [->|N].
    - rewrite Nat.sub_diag, cut_main0, skipn_length. lia.
    - rewrite cut_main by lia. replace (s + (ai - s)) with ai by lia. exact I2.
  Qed.
  Lemma cut_before : forall a b, before (s, c0) a -> before a b -> before (mv a) (mv b).
  Proof using Ls Lc.
    clear M2. intros [ai ac] [bi bc] A B. unfold before, mv in *. cbn [fst snd] in *.
    destruct (Nat.eqb_spec ai s); destruct (Nat.eqb_spec bi s); lia.
  Qed.
  Lemma on_nat : forall i, on s (Some (Z.of_nat i)) = (i =? s).
  Proof using. clear. intros i. cbn. destruct (Nat.eqb_spec i s); [subst; apply Z.eqb_refl|]. apply Z.eqb_neq. lia. Qed.

  Lemma cut_stands : forall x a b, before (s, c0) a -> stands l1 x a b ->
    stands l2 (mvt s c0 x) (mv a) (mv b) /\ carried l1 l2 x (mvt s c0 x) (a, b) (mv a, mv b).
  Proof using M2 Ls Lc.
    intros x a b A (A1 & A2 & A3 & A4 & A5 & A6 & A7 & A8 & A9).
    assert (Bb : before (s, c0) b) by (unfold before in *; lia).
    pose proof (cut_before a b A A5) as B5. pose proof (cut_inside a A A6) as B6. pose proof (cut_inside b Bb A7) as B7.
    pose proof (cut_between a b A A5) as B8.
    destruct a as [ai ac]. destruct b as [bi bc]. cbn [fst snd] in *.
    split.
    - unfold stands. unfold mvt. cbn [mt_bl mt_bc mt_el mt_ec tk_text]. rewrite A1, A2, A3, !on_nat. cbn [oz].
      split; [f_equal; unfold mv; cbn [fst]; unfold before in A; cbn [fst snd] in A; lia|].
      split. { unfold mv. cbn [fst snd]. unfold before in A. cbn [fst snd] in A. destruct (Nat.eqb_spec ai s); f_equal; lia. }
      split; [f_equal; unfold mv; cbn [fst]; unfold before in Bb; cbn [fst snd] in Bb; lia|].
      split. { destruct ((ai =? s) && (bi =? s)); [|exact A4]. destruct (mt_ec x); [discriminate|congruence]. }
      split; [exact B5|]. split; [exact B6|]. split; [exact B7|]. unfold mv. cbn [fst snd].
      unfold before in *. cbn [fst snd] in *. split.
      + intros E. assert (E' : ai = bi) by lia. subst bi. specialize (A8 eq_refl). destruct (Nat.eqb_spec ai s); lia.
      + intros E. assert (E' : ai <> bi) by lia. specialize (A9 E'). destruct (Nat.eqb_spec bi s); [lia|].
        rewrite andb_false_r. exact A9.
    - split; [repeat split|]. split; [exact B8|]. unfold end_right. cbn [snd fst]. intros E. unfold mvt. cbn [mt_ec].
      rewrite A1, A3, !on_nat, E. cbn [oz]. unfold mv. cbn [fst snd]. unfold before in *. cbn [fst snd] in *.
      destruct (Nat.eqb_spec ai s); destruct (Nat.eqb_spec bi s); cbn [andb]; f_equal; lia.
  Qed.

  Lemma cut_laid : forall l a sp, before (s, c0) a -> laid l1 a l sp ->
    laid l2 (mv a) (map (mvt s c0) l) (map (fun u => (mv (fst u), mv (snd u))) sp) /\
    carried_all l1 l2 l (map (mvt s c0) l) sp (map (fun u => (mv (fst u), mv (snd u))) sp).
  Proof using M2 Ls Lc.
    induction l as [|x l IH]; intros a [|[b e] sp] A H; cbn [laid map] in *; try tauto; [split; [exact I|constructor]|].
    destruct H as (H1 & H2 & H3). assert (Be : before b e) by apply H2.
    assert (Ab : before (s, c0) b) by (unfold before in *; lia). assert (Ae : before (s, c0) e) by (unfold before in *; lia).
    destruct (cut_stands x b e Ab H2) as [C1 C2]. destruct (IH _ _ Ae H3) as [D1 D2]. cbn [fst snd]. split.
    - split; [apply cut_before; auto|]. split; [exact C1|exact D1].
    - constructor; auto.
  Qed.
End Cut.

(** * The loops *)
Lemma rmap_map : forall A B (f : A -> res B) g l, (forall x, In x l -> f x = Ok (g x)) -> rmap f l = Ok (map g l).
Proof.
  intros A B f g l. induction l as [|x l IH]; intros H; [reflexivity|]. cbn [rmap map]. rewrite H by (left; reflexivity). cbn [bind].
  rewrite IH by (intros; apply H; right; assumption). reflexivity.
Qed.

Lemma rest_split : forall layout l s a sp, laid layout a l sp -> s <= fst a ->
  exists k, rest_of_line (Z.of_nat s) l = Ok k /\ k <= length l /\
    (forall x, In x (firstn k l) -> mt_bl x = Some (Z.of_nat s)) /\
    (forall x, In x (skipn k l) -> exists i, mt_bl x = Some (Z.of_nat i) /\ s < i) /\
    (forall u, In u (firstn k sp) -> fst (fst u) = s) /\ (forall u, In u (skipn k sp) -> s < fst (fst u)).
Proof.
  intros layout. induction l as [|x l IH]; intros s a [|[b e] sp] H Ha; cbn [laid] in H; try tauto.
  - exists 0. cbn. repeat split; auto; intros ? [].
  - destruct H as (H1 & H2 & H3). assert (Be : before b e) by apply H2. destruct H2 as (A1 & _).
    cbn [rest_of_line]. rewrite A1. cbn [rd bind]. destruct (Z.eqb_spec (Z.of_nat (fst b)) (Z.of_nat s)) as [E|E].
    + destruct (IH s e sp H3) as (k & K1 & K2 & K3 & K4 & K5 & K6); [unfold before in *; lia|].
      exists (S k). rewrite K1. cbn [bind length firstn skipn]. split; [reflexivity|]. split; [lia|]. split; [|split; [exact K4|split; [|exact K6]]].
      * intros y [<-|Hy]; [rewrite A1, E; reflexivity|auto].
      * intros u [<-|Hu]; [cbn; lia|auto].
    + exists 0. cbn [firstn skipn]. assert (Lt : s < fst b) by (unfold before in *; lia).
      split; [reflexivity|]. split; [cbn; lia|]. split; [intros ? []|].
      assert (Z : forall l e sp, laid layout e l sp -> s < fst e -> (forall y, In y l -> exists i, mt_bl y = Some (Z.of_nat i) /\ s < i) /\ forall u, In u sp -> s < fst (fst u)).
      { clear. induction l as [|y l IH]; intros e [|[c d] sp] H L; cbn [laid] in H; try tauto; [split; intros ? []|].
        destruct H as (H1 & H2 & H3). assert (before c d) by apply H2. destruct H2 as (A1 & _).
        destruct (IH _ _ H3) as [I1 I2]; [unfold before in *; lia|]. split.
        - intros z [<-|Hz]; [exists (fst c); split; [exact A1|unfold before in *; lia]|auto].
        - intros u [<-|Hu]; [cbn; unfold before in *; lia|auto]. }
      assert (Le : s < fst e) by (unfold before in *; lia). destruct (Z _ _ _ H3 Le) as [Z1 Z2].
      split; [|split; [intros ? []|]].
      * intros y [<-|Hy]; [eauto|auto].
      * intros u [<-|Hu]; [cbn; exact Lt|auto].
Qed.
Lemma lead_semis_ok : forall semis y rest k, Forall (fun x => is_semi x = true) semis -> length semis <= k ->
  (length semis < k -> is_semi y = false) -> lead_semis k (semis ++ y :: rest) = length semis.
Proof.
  induction semis as [|x semis IH]; intros y rest k F L Y.
  - destruct k as [|k]; [reflexivity|]. cbn. rewrite Y by (cbn; lia). reflexivity.
  - inversion F; subst. destruct k as [|k]; [cbn in L; lia|]. cbn [app lead_semis length]. rewrite H1. f_equal. apply IH; auto; cbn in L, Y; intros; [lia|]. apply Y. lia.
Qed.

Definition shifted (c0 : nat) (x : Token) : Token :=
  move_cols x (oz (fun z => z - Z.of_nat c0)%Z (mt_bc x))
    (if match mt_bl x, mt_el x with Some a, Some b => (a =? b)%Z | _, _ => false end then oz (fun z => z - Z.of_nat c0)%Z (mt_ec x) else mt_ec x).
Lemma shift_cols_ok : forall layout x a b c0, stands layout x a b -> shift_cols (Z.of_nat c0) x = Ok (shifted c0 x).
Proof.
  intros layout x a b c0 (A1 & A2 & A3 & A4 & _). unfold shift_cols, shifted, is_split_token. rewrite A1, A2, A3. cbn [rd bind oz].
  destruct (Z.eqb_spec (Z.of_nat (fst a)) (Z.of_nat (fst b))); cbn [negb]; [|reflexivity].
  destruct (mt_ec x); [reflexivity|congruence].
Qed.
Definition lined (d : Z) (x : Token) : Token :=
  mkTok (tok x) (tk_line x) (tk_pos x) (tk_text x) (oz (fun z => z + d)%Z (mt_bl x)) (mt_bc x) (oz (fun z => z + d)%Z (mt_el x)) (mt_ec x) (tk_pre x) (tk_post x).
Lemma move_lines_ok : forall x d, mt_bl x <> None -> mt_el x <> None -> move_lines d x = Ok (lined d x).
Proof. intros x d H1 H2. unfold move_lines, lined. destruct (mt_bl x); [|congruence]. destruct (mt_el x); [|congruence]. reflexivity. Qed.
Lemma oz_oz : forall f g o, oz f (oz g o) = oz (fun z => f (g z)) o.
Proof. intros f g [z|]; reflexivity. Qed.
Lemma oz_ext : forall f g o, (forall z, f z = g z) -> oz f o = oz g o.
Proof. intros f g [z|] H; cbn; [rewrite H|]; reflexivity. Qed.

(* tokens of the cut line / of later lines *)
Lemma chain_line : forall s c0 x, mt_bl x = Some (Z.of_nat s) -> mt_el x <> None ->
  lined (- (Z.of_nat s + 1)) (lined 1 (shifted c0 x)) = mvt s c0 x.
Proof.
  intros s c0 x H He. unfold lined, shifted, mvt, move_cols. cbn. rewrite !oz_oz, H. cbn [oz on]. rewrite Z.eqb_refl.
  destruct (mt_el x) as [e|]; [|congruence]. cbn [oz on]. f_equal; try (f_equal; lia). rewrite Z.eqb_sym. destruct (e =? Z.of_nat s)%Z; reflexivity.
Qed.
Lemma chain_later : forall s c0 x i, mt_bl x = Some (Z.of_nat i) -> s < i ->
  lined (- (Z.of_nat s + 1)) (lined 1 x) = mvt s c0 x.
Proof.
  intros s c0 x i H Hi. unfold lined, mvt. cbn. rewrite !oz_oz, H. cbn [oz on].
  destruct (Z.eqb_spec (Z.of_nat i) (Z.of_nat s)); [lia|]. cbn [andb]. f_equal; [f_equal; lia|]. apply oz_ext. intros. lia.
Qed.
Lemma lined_mvt : forall s x i, mt_bl x = Some (Z.of_nat i) -> mt_bc x <> None -> mt_ec x <> None -> lined (- Z.of_nat s) x = mvt s 0 x.
Proof.
  intros s x i H Hb He. unfold lined, mvt. rewrite H.
  assert (Z0 : forall o, oz (fun z => z - Z.of_nat 0)%Z o = o) by (intros [z|]; cbn; [f_equal; lia|reflexivity]).
  rewrite !Z0. destruct (on s (Some (Z.of_nat i))); destruct (on s (mt_el x)); reflexivity.
Qed.

Lemma first_of_skip : forall A (l : list A) a b e, b <= e -> firstn (b - a) (skipn a (firstn e l)) = firstn (b - a) (skipn a l).
Proof.
  intros A l a b e H. rewrite skipn_firstn_comm, firstn_firstn. f_equal. lia.
Qed.
Section Keep.
  Variables (l1 l2 : list File_Line) (s e : nat).
  Hypothesis M2 : map main_txt l2 = firstn s (map main_txt l1) ++ [firstn e (main_of l1 s)].
  Hypothesis Ls : s < length l1.
  Hypothesis Le : e <= length (main_of l1 s).

  Lemma keep_len : length l2 = S s.
  Proof using M2 Ls. clear Le. rewrite <- (map_length main_txt l2), M2, app_length, firstn_length, map_length. cbn. lia. Qed.
  Lemma keep_main : forall j, j < s -> main_of l2 j = main_of l1 j.
  Proof using M2 Ls.
    clear Le. intros j H. unfold main_of at 1. rewrite M2, app_nth1 by (rewrite firstn_length, map_length; lia).
    unfold main_of. rewrite <- (firstn_skipn s (map main_txt l1)) at 2. rewrite app_nth1; [reflexivity|]. rewrite firstn_length, map_length. lia.
  Qed.
  Lemma keep_last : main_of l2 s = firstn e (main_of l1 s).
  Proof using M2 Ls.
    clear Le. unfold main_of at 1. rewrite M2, app_nth2; rewrite firstn_length, map_length, Nat.min_l by lia; [|lia]. rewrite Nat.sub_diag. reflexivity.
  Qed.
  Lemma keep_between : forall a b, before a b -> before b (s, e) -> between l2 a b = between l1 a b.
  Proof using M2 Ls Le.
    intros [ai ac] [bi bc] A B. unfold before in *. cbn [fst snd] in *. unfold between. cbn [fst snd].
    assert (T : forall k, bi = s -> k <= e -> firstn k (main_of l2 s) = firstn k (main_of l1 s)).
    { intros k _ Hk. rewrite keep_last, firstn_firstn. f_equal. lia. }
    destruct (Nat.eqb_spec ai bi) as [->|N].
    - destruct (Nat.eq_dec bi s) as [->|Ns]; [|rewrite keep_main by lia; reflexivity].
      rewrite keep_last, first_of_skip by lia. reflexivity.
    - rewrite keep_main by lia. f_equal. f_equal.
      + f_equal. rewrite M2. rewrite skipn_app, firstn_app, skipn_length, firstn_length, map_length.
        replace (bi - ai - 1 - (Nat.min s (length l1) - S ai)) with 0 by lia. rewrite firstn_O, app_nil_r.
        rewrite <- (firstn_skipn s (map main_txt l1)) at 2. rewrite skipn_app, firstn_app, skipn_length, firstn_length, map_length.
        replace (bi - ai - 1 - (Nat.min s (length l1) - S ai)) with 0 by lia. rewrite firstn_O, app_nil_r. reflexivity.
      + destruct (Nat.eq_dec bi s) as [->|Ns]; [|rewrite keep_main by lia; reflexivity]. apply T; lia.
  Qed.
  Lemma keep_inside : forall a, before a (s, e) -> inside l1 a -> inside l2 a.
  Proof using M2 Ls Le.
    intros [ai ac] A [I1 I2]. unfold before in A. cbn [fst snd] in *. split; cbn [fst snd]; [rewrite keep_len; lia|].
    destruct (Nat.eq_dec ai s) as [->|N]; [rewrite keep_last, firstn_length; lia|rewrite keep_main by lia; exact I2].
  Qed.
  Lemma keep_laid : forall l a sp, laid l1 a l sp -> (forall u, In u sp -> before (snd u) (s, e)) ->
    laid l2 a l sp /\ carried_all l1 l2 l l sp sp.
  Proof using M2 Ls Le.
    induction l as [|x l IH]; intros a [|[b c] sp] H F; cbn [laid] in *; try tauto; [split; [exact I|constructor]|].
    destruct H as (H1 & H2 & H3). destruct (IH _ _ H3) as [D1 D2]; [intros; apply F; right; assumption|].
    pose proof (F (b, c) (or_introl eq_refl)) as Fc. cbn [snd] in Fc.
    destruct H2 as (A1 & A2 & A3 & A4 & A5 & A6 & A7 & A8 & A9).
    assert (Fb : before b (s, e)) by (unfold before in *; lia).
    split.
    - split; [exact H1|]. split; [|exact D1]. unfold stands. split; [exact A1|]. split; [exact A2|]. split; [exact A3|]. split; [exact A4|]. split; [exact A5|].
      split; [apply keep_inside; auto|]. split; [apply keep_inside; auto|]. split; assumption.
    - constructor; [|exact D2]. split; [repeat split|]. split; [apply keep_between; auto|auto].
  Qed.
End Keep.

Lemma sls_plain : forall f sp, is_fortran f = true -> left_txt f = [] -> (0 <= sp)%Z -> adjustable f ->
  exists f' ch, set_leading_spaces f sp = Ok (f', ch) /\ main_txt f' = main_txt f /\ left_txt f' = [] /\ zlen (left_space f') = sp /\
    linenum f' = linenum f /\ bits f' = bits f /\ right_txt f' = right_txt f.
Proof.
  intros f sp F Lt SP RT. unfold set_leading_spaces. rewrite (fortran_not_comment _ F), F. unfold sls_left. rewrite Lt. cbn [is_empty].
  destruct (Z.eqb_spec (zlen (left_space f)) sp) as [E|E]; cbn [bind].
  - exists f, false. repeat split; auto.
  - unfold blanks_z. destruct (Z.leb_spec 0 sp); [|lia]. destruct (Z.ltb_spec sp 0); [lia|]. cbn [bind].
    assert (RR : forall off, exists rs, sls_right (right_space f) (right_txt f) (Some off) = Ok rs).
    { intros off. unfold sls_right. destruct (is_empty (right_txt f)) eqn:Em; eauto.
      destruct (off =? 0)%Z; eauto.
      destruct (find_char c_bang (right_txt f)) as [pos|] eqn:FB; eauto.
      destruct (off <? 0)%Z.
      - unfold insert_at.
        assert (pos <= length (right_space f)) as LE.
        { destruct RT as [RT|[(r & RT)|[RT|(L2 & r & RT)]]].
          - rewrite RT in Em. discriminate.
          - rewrite RT in FB. injection FB as <-. lia.
          - exfalso. unfold find_char in FB. apply find_from_Some in FB as (p & c & q & EQ & _ & Hc & _).
            apply ceq_true in Hc. subst c. apply RT. rewrite EQ. apply in_or_app. right. now left.
          - rewrite RT in FB. injection FB as <-. lia. }
        apply Nat.leb_le in LE. rewrite LE. eauto.
      - destruct (_ =? _)%Z; eauto. }
    destruct (RR (sp - zlen (left_space f))%Z) as (rs & ->). cbn [bind]. eexists _, _. split; [reflexivity|]. cbn.
    split; [reflexivity|]. split; [reflexivity|]. split; [apply zlen_spaces; lia|]. repeat split.
Qed.

Lemma split_pair_ok : forall f e c indent, is_fortran f = true -> e <= length (main_txt f) -> c <= length (main_txt f) -> (0 <= indent)%Z ->
  exists src g, split_line_pair f (Z.of_nat e) (Z.of_nat c) indent = Ok (src, g) /\
    main_txt src = firstn e (main_txt f) /\ left_txt src = left_txt f /\ left_space src = left_space f /\ linenum src = linenum f /\ is_continued src = false /\
    main_txt g = skipn c (main_txt f) /\ left_txt g = [] /\ zlen (left_space g) = indent /\ linenum g = linenum f /\ bits g = bits f /\
    right_txt g = (if is_continued f then [c_amp] else []).
Proof.
  intros f e c indent F He Hc Hi. unfold split_line_pair.
  assert (R : exists rs, (if is_empty (right_txt f) then Ok (right_space f) else blanks_z (zlen (right_space f) + zlen (main_txt f) - Z.of_nat e)) = Ok rs).
  { destruct (is_empty (right_txt f)); eauto. unfold blanks_z. destruct (Z.ltb_spec (zlen (right_space f) + zlen (main_txt f) - Z.of_nat e) 0); [|eauto]. unfold zlen in *. lia. }
  destruct R as (rs & ->). cbn [bind]. destruct (Z.ltb_spec (Z.of_nat e) 0); [lia|]. rewrite Nat2Z.id. unfold erase_from at 1.
  destruct (Nat.leb_spec e (length (main_txt f))); [|lia]. cbn [bind]. destruct (Z.ltb_spec (Z.of_nat c) 0); [lia|]. unfold erase_n at 1. cbn [Nat.leb firstn app bind Nat.add].
  rewrite Nat2Z.id.
  set (src := make_uncontinued _). set (g := if is_continued f then _ else _).
  assert (Gf : is_fortran g = true /\ left_txt g = [] /\ adjustable g /\ main_txt g = skipn c (main_txt f) /\ linenum g = linenum f /\ bits g = bits f /\ right_txt g = (if is_continued f then [c_amp] else [])).
  { unfold g. destruct (is_continued f); (split; [exact F|]; split; [reflexivity|]; split; [|repeat split]).
    - right. right. left. cbn. intros [X|[]]. discriminate.
    - left. reflexivity. }
  destruct Gf as (G1 & G2 & G3 & G4 & G5 & G6 & G7).
  destruct (sls_plain g indent G1 G2 Hi G3) as (g' & ch & E & E1 & E2 & E3 & E4 & E5 & E6). rewrite E. cbn [bind].
  exists src, g'. split; [reflexivity|].
  assert (U : main_txt src = firstn e (main_txt f) /\ left_txt src = left_txt f /\ left_space src = left_space f /\ linenum src = linenum f) by apply uncont_text.
  destruct U as (U1 & U2 & U3 & U4). rewrite E1, E4, E5, E6. repeat (split; [assumption|]). split; [|repeat split; assumption].
  unfold src, make_uncontinued. cbn [right_txt with_text]. destruct (right_txt f) as [|h r]; [reflexivity|]. destruct (find_first_not_of _ _); reflexivity.
Qed.

Lemma laid_cut : forall layout l p sp n a b, laid layout p l sp -> nth_error sp n = Some (a, b) ->
  laid layout p (firstn (S n) l) (firstn (S n) sp) /\ laid layout b (skipn (S n) l) (skipn (S n) sp) /\
  (forall u, In u (firstn (S n) sp) -> before (snd u) b).
Proof.
  intros layout. induction l as [|x l IH]; intros p [|[c d] sp] n a b H E; cbn [laid] in H; try tauto; [destruct n; discriminate|].
  destruct H as (H1 & H2 & H3). destruct n as [|n].
  - cbn in E. injection E as -> ->. cbn [firstn skipn]. split; [|split; [exact H3|]].
    + cbn [laid]. auto.
    + intros u [<-|[]]. right. cbn. lia.
  - cbn [nth_error] in E. destruct (IH _ _ _ _ _ H3 E) as (I1 & I2 & I3). split; [|split; [exact I2|]].
    + cbn [firstn laid]. split; [exact H1|]. split; [exact H2|exact I1].
    + intros u [<-|Hu]; [|apply I3; exact Hu]. cbn [snd].
      assert (before d (fst (a, b))) by (eapply rest_before; [exact H3|eapply nth_error_In; exact E]).
      assert (Hl : nth_error l n <> None).
      { rewrite nth_error_Some. rewrite <- (laid_length _ _ _ _ H3). apply nth_error_Some. rewrite E. discriminate. }
      destruct (nth_error l n) as [z|] eqn:Ez; [|congruence]. pose proof (laid_nth _ _ _ _ _ _ _ H3 Ez E) as (_ & _ & _ & _ & B & _).
      unfold before in *. cbn [fst snd] in *. lia.
Qed.
Lemma nth_In_skip : forall A (l : list A) k j x, nth_error l j = Some x -> k <= j -> In x (skipn k l).
Proof.
  intros A l k. revert l. induction k as [|k IH]; intros [|y l] j x E H; cbn [skipn]; try (eapply nth_error_In; exact E).
  destruct j as [|j]; [lia|]. cbn in E. eapply IH; eauto. lia.
Qed.
Lemma nth_In_first : forall A (l : list A) k j x, nth_error l j = Some x -> j < k -> In x (firstn k l).
Proof.
  intros A l k. revert l. induction k as [|k IH]; intros [|y l] j x E H; cbn [firstn]; try lia; [destruct j; discriminate|].
  destruct j as [|j]; cbn in E; [injection E as ->; left; reflexivity|]. right. eapply IH; eauto. lia.
Qed.
Lemma nth_skip_err : forall A (l : list A) a j, nth_error (skipn a l) j = nth_error l (a + j).
Proof. intros A l a. revert l. induction a as [|a IH]; intros [|x l] j; cbn; auto. destruct j; reflexivity. Qed.
Lemma main_nth : forall l i f, nth_error l i = Some f -> main_of l i = main_txt f.
Proof. intros l i f H. unfold main_of. apply nth_error_nth. rewrite nth_error_map, H. reflexivity. Qed.
Lemma split_nth : forall A (l : list A) i f, nth_error l i = Some f -> l = firstn i l ++ f :: skipn (S i) l.
Proof.
  intros A l i. revert l. induction i as [|i IH]; intros [|x l] f H; try discriminate; cbn in H |- *; [injection H as ->; reflexivity|].
  f_equal. apply IH. exact H.
Qed.

Lemma split_here : forall ll n sp x a b semis y rem c d f0,
  laid (l_layout ll) (0, 0) (l_frags ll) sp -> Forall (fun f => is_fortran f = true) (l_layout ll) ->
  nth_error (l_layout ll) 0 = Some f0 -> main_txt f0 <> [] ->
  nth_error (l_frags ll) n = Some x -> nth_error sp n = Some (a, b) -> end_right x b -> fst b < length (l_frags ll) ->
  skipn (S n) (l_frags ll) = semis ++ y :: rem -> Forall (fun t => is_semi t = true) semis -> is_semi y = false ->
  nth_error sp (S n + length semis) = Some (c, d) -> fst c = fst b ->
  exists ll' ll2 sp2, split_after ll n = Ok (ll', Some ll2) /\ same_rest ll' ll /\ l_frags ll' = firstn (S n) (l_frags ll) /\
    first_part (l_layout ll) (l_layout ll') (fst b) (snd b) /\
    laid (l_layout ll') (0, 0) (l_frags ll') (firstn (S n) sp) /\
    carried_all (l_layout ll) (l_layout ll') (l_frags ll') (l_frags ll') (firstn (S n) sp) (firstn (S n) sp) /\
    l_label ll2 = 0%Z /\ l_cat ll2 = CAT_UNKNOWN /\
    second_part (l_layout ll) (l_layout ll2) (fst c) (snd c) (main_first_col f0 - 1) /\
    (forall g, nth_error (l_layout ll2) 0 = Some g -> right_txt g = if is_continued g then [c_amp] else []) /\
    laid (l_layout ll2) (0, 0) (l_frags ll2) sp2 /\
    carried_all (l_layout ll) (l_layout ll2) (y :: rem) (l_frags ll2) (skipn (S n + length semis) sp) sp2.
Proof.
  intros ll n sp x a b semis y rem c d f0 HL HF H0 M0 Hx Hs Er La Hr Fs Fy Hc Ec.
  destruct (laid_cut _ _ _ _ _ _ _ HL Hs) as (P1 & P2 & P3). rewrite Hr in P2.
  pose proof (laid_nth _ _ _ _ _ _ _ HL Hx Hs) as Sx. cbn [fst snd] in Sx.
  assert (Hc' : nth_error (skipn (S n) sp) (length semis) = Some (c, d)) by (rewrite nth_skip_err; exact Hc).
  assert (Sy : stands (l_layout ll) y c d).
  { assert (X : nth_error (semis ++ y :: rem) (length semis) = Some y) by apply nth_error_mid.
    exact (laid_nth _ _ _ _ _ _ _ P2 X Hc'). }
  assert (Bc : before b c) by (apply (rest_before _ _ _ _ _ P2 (nth_error_In _ _ Hc'))).
  destruct (rest_split _ _ (fst b) _ _ P2 (le_n _)) as (k & K1 & K2 & K3 & K4 & K5 & K6).
  assert (Kj : length semis < k).
  { destruct (le_lt_dec k (length semis)) as [L|L]; [|exact L]. specialize (K6 (c, d) (nth_In_skip _ _ _ _ _ Hc' L)). cbn in K6. lia. }
  pose proof Sx as (X1 & X2 & X3 & _ & X5 & X6 & X7 & _). pose proof Sy as (Y1 & Y2 & Y3 & _ & Y5 & Y6 & Y7 & _).
  unfold split_after. assert (Ln : n < length (l_frags ll)) by (apply nth_error_Some; rewrite Hx; discriminate).
  destruct (Nat.eqb_spec n (length (l_frags ll))); [lia|]. rewrite Hx, X3. cbn [rd bind].
  destruct (Z.ltb_spec (Z.of_nat (fst b)) (zlen (l_frags ll))); [|unfold zlen in *; lia]. cbn [assert_ bind].
  rewrite (get_fl_ok _ 0 _ H0 : get_fl (l_layout ll) 0%Z = _). cbn [bind]. rewrite Hr, K1. cbn [bind].
  rewrite (lead_semis_ok semis y rem k Fs) by (intros; auto; lia).
  destruct (nth_error (l_layout ll) (fst b)) as [f|] eqn:Hf; [|apply nth_error_None in Hf; destruct X7; lia].
  rewrite (get_fl_ok _ _ _ Hf). cbn [bind].
  replace (skipn (length semis) (semis ++ y :: rem)) with (y :: rem) by (rewrite skipn_app, skipn_all, Nat.sub_diag; reflexivity).
  destruct (Nat.ltb_spec (length semis) k); [|lia]. rewrite Er, Y2. cbn [rd bind].
  assert (Ff : is_fortran f = true) by (rewrite Forall_forall in HF; apply HF; eapply nth_error_In; exact Hf).
  pose proof (main_nth _ _ _ Hf) as Mf. destruct X7 as [X7a X7b]. destruct Y6 as [Y6a Y6b]. rewrite Ec, Mf in Y6b. rewrite Mf in X7b.
  assert (Id : (0 <= main_first_col f0 - 1)%Z).
  { unfold main_first_col. destruct (main_txt f0); [congruence|]. cbn [is_empty]. unfold zlen. destruct (is_fixed_format f0); lia. }
  destruct (split_pair_ok f (snd b) (snd c) _ Ff X7b Y6b Id) as (src & g & E & G). rewrite E. cbn [bind].
  destruct G as (G1 & G2 & G3 & G4 & G5 & G6 & G7 & G8 & G9 & G10 & G11).
  assert (Pre : forall z, In z (firstn (k - length semis) (y :: rem)) -> In z (firstn k (semis ++ y :: rem))).
  { intros z Hz. rewrite firstn_app. apply in_or_app. right. exact Hz. }
  assert (Suf : skipn (k - length semis) (y :: rem) = skipn k (semis ++ y :: rem)).
  { rewrite skipn_app. rewrite (skipn_all2 semis) by lia. reflexivity. }
  assert (Z1 : forall z, In z (y :: rem) -> exists p q, stands (l_layout ll) z p q).
  { intros z Hz. destruct (In_nth_error _ _ Hz) as (m & Hm).
    assert (X : nth_error (semis ++ y :: rem) (length semis + m) = Some z) by (rewrite nth_error_app2 by lia; replace (length semis + m - length semis) with m by lia; exact Hm).
    destruct (nth_error (skipn (S n) sp) (length semis + m)) as [u|] eqn:Hu.
    - exists (fst u), (snd u). eapply laid_nth; eauto.
    - apply nth_error_None in Hu. rewrite (laid_length _ _ _ _ P2) in Hu. apply nth_error_None in Hu. congruence. }
  assert (Inr : forall z, In z (firstn (k - length semis) (y :: rem)) -> In z (y :: rem)).
  { intros z Hz. rewrite <- (firstn_skipn (k - length semis)). apply in_or_app. left. exact Hz. }
  assert (Ins : forall z, In z (skipn (k - length semis) (y :: rem)) -> In z (y :: rem)).
  { intros z Hz. rewrite <- (firstn_skipn (k - length semis)). apply in_or_app. right. exact Hz. }
  rewrite (rmap_map _ _ (shift_cols (Z.of_nat (snd c))) (shifted (snd c)) (firstn (k - length semis) (y :: rem))).
  2:{ intros z Hz. destruct (Z1 z (Inr z Hz)) as (p & q & Sz). exact (shift_cols_ok _ _ _ _ _ Sz). }
  cbn [bind].
  rewrite (rmap_map _ _ (move_lines 1) (lined 1)).
  2:{ intros z Hz. apply in_app_or in Hz as [Hz|Hz].
      - apply in_map_iff in Hz as (w & <- & Hw). destruct (Z1 w (Inr w Hw)) as (p & q & S1 & S2 & S3 & _).
        apply move_lines_ok; cbn; [rewrite S1|rewrite S3]; discriminate.
      - destruct (Z1 z (Ins z Hz)) as (p & q & S1 & S2 & S3 & _). apply move_lines_ok; [rewrite S1|rewrite S3]; discriminate. }
  cbn [bind]. destruct (k - length semis) as [|k'] eqn:Kk; [lia|]. cbn [firstn map app].
  cbn [lined shifted move_cols mt_bl]. rewrite Y1. cbn [oz rd bind]. rewrite Ec.
  set (big := lined 1 (shifted (snd c) y) :: _).
  assert (Big : big = map (lined 1) (map (shifted (snd c)) (firstn (S k') (y :: rem)) ++ skipn (S k') (y :: rem))) by reflexivity.
  replace (mkTok _ _ _ _ _ _ _ _ _ _ :: map (lined 1) _) with big by (unfold big, lined, shifted, move_cols; cbn [mt_bl mt_bc mt_el mt_ec tok tk_line tk_pos tk_text tk_pre tk_post]; rewrite Y1, Ec; reflexivity).
  rewrite (rmap_map _ _ (move_lines (- (Z.of_nat (fst b) + 1))) (lined (- (Z.of_nat (fst b) + 1))) big).
  2:{ intros z Hz. rewrite Big in Hz. apply in_map_iff in Hz as (w & <- & Hw). apply in_app_or in Hw as [Hw|Hw].
      - apply in_map_iff in Hw as (v & <- & Hv). destruct (Z1 v (Inr v Hv)) as (p & q & S1 & S2 & S3 & _).
        apply move_lines_ok; cbn; [rewrite S1|rewrite S3]; discriminate.
      - destruct (Z1 w (Ins w Hw)) as (p & q & S1 & S2 & S3 & _). apply move_lines_ok; cbn; [rewrite S1|rewrite S3]; discriminate. }
  cbn [bind]. rewrite Nat2Z.id. eexists _, _, _. split; [reflexivity|]. cbn [l_layout l_frags l_label l_cat l_stmts].
  split; [repeat split|]. split; [reflexivity|].
  assert (Fin : map (lined (- (Z.of_nat (fst b) + 1))) big = map (mvt (fst b) (snd c)) (y :: rem)).
  { transitivity (map (mvt (fst b) (snd c)) (firstn (S k') (y :: rem) ++ skipn (S k') (y :: rem))); [|rewrite firstn_skipn; reflexivity].
    rewrite Big, map_map, !map_app. f_equal.
    - rewrite !map_map. apply map_ext_in. intros z Hz. destruct (Z1 z (Inr z Hz)) as (p & q & S1 & S2 & S3 & _).
      apply chain_line; [apply K3; apply Pre; exact Hz|rewrite S3; discriminate].
    - apply map_ext_in. intros z Hz. rewrite Suf in Hz. destruct (K4 z Hz) as (i & Hi & Li). exact (chain_later _ _ _ _ Hi Li). }
  pose proof (split_nth _ _ _ _ Hf) as Dec.
  assert (Lf : length (firstn (fst b) (l_layout ll)) = fst b) by (rewrite firstn_length; lia).
  split. { exists (firstn (fst b) (l_layout ll)), f, (skipn (S (fst b)) (l_layout ll)), src. split; [exact Dec|]. split; [reflexivity|]. split; [exact Lf|]. repeat (split; [assumption|]). assumption. }
  assert (M1 : map main_txt (firstn (fst b) (l_layout ll) ++ [src]) = firstn (fst b) (map main_txt (l_layout ll)) ++ [firstn (snd b) (main_of (l_layout ll) (fst b))]).
  { rewrite map_app, firstn_map. cbn [map]. rewrite G1, Mf. reflexivity. }
  assert (M2 : map main_txt (g :: skipn (S (fst b)) (l_layout ll)) = skipn (snd c) (main_of (l_layout ll) (fst b)) :: skipn (S (fst b)) (map main_txt (l_layout ll))).
  { cbn [map]. rewrite G6, Mf, skipn_map. reflexivity. }
  assert (Lb : snd b <= length (main_of (l_layout ll) (fst b))) by (rewrite Mf; exact X7b).
  destruct (keep_laid _ _ _ _ M1 X7a Lb _ _ _ P1 (fun u Hu => eq_ind b (fun q => before (snd u) q) (P3 u Hu) (fst b, snd b) (surjective_pairing b))) as [Q1 Q2].
  split; [exact Q1|]. split; [exact Q2|]. split; [reflexivity|]. split; [reflexivity|].
  split. { exists (firstn (fst b) (l_layout ll)), f, (skipn (S (fst b)) (l_layout ll)), g. split; [exact Dec|]. split; [reflexivity|]. split; [exact Lf|]. repeat (split; [assumption|]). assumption. }
  split. { intros g0 X. cbn in X. injection X as <-. rewrite G11. unfold is_continued. rewrite G10. reflexivity. }
  fold big. rewrite Fin.
  assert (Lc : snd c <= length (main_of (l_layout ll) (fst b))) by (rewrite Mf; exact Y6b).
  assert (Cp : laid (l_layout ll) c (y :: rem) (skipn (S n + length semis) sp)).
  { destruct (laid_app _ _ _ _ _ P2) as (s1 & s2 & e & S1 & S2 & S3 & S4 & S5 & S6 & S7).
    assert (S8 : s2 = skipn (S n + length semis) sp).
    { rewrite <- skip_skip, S1, skipn_app, <- S2, skipn_all, Nat.sub_diag. reflexivity. }
    rewrite <- S8. rewrite S1, nth_error_app2 in Hc' by lia. rewrite S2, Nat.sub_diag in Hc'. destruct s2 as [|[c' d'] s2]; [discriminate|]. cbn in Hc'. injection Hc' as -> ->.
    cbn [laid] in S4 |- *. destruct S4 as (_ & S4 & S4'). split; [right; lia|]. auto. }
  assert (B0 : before (fst b, snd c) c) by (right; cbn; lia).
  destruct (cut_laid _ _ _ _ M2 X7a Lc _ _ _ B0 Cp) as [R1 R2].
  replace (mv (fst b) (snd c) c) with (0, 0) in R1 by (unfold mv; rewrite Ec, Nat.eqb_refl; f_equal; lia).
  split; [exact R1|exact R2].
Qed.

Lemma uncont_not : forall f, is_continued (make_uncontinued f) = false.
Proof. intros f. unfold make_uncontinued. destruct (right_txt f) as [|h r]; [reflexivity|]. destruct (find_first_not_of _ _); reflexivity. Qed.
Lemma lead_all : forall l r, Forall (fun t => is_semi t = true) l -> lead_semis (length l) (l ++ r) = length l.
Proof. induction l as [|x l IH]; intros r F; [reflexivity|]. inversion F; subst. cbn [length app lead_semis]. rewrite H1, IH; auto. Qed.

Lemma rest_all : forall layout l a sp s, laid layout a l sp -> (forall u, In u sp -> fst (fst u) = s) -> forall r k,
  rest_of_line (Z.of_nat s) r = Ok k -> rest_of_line (Z.of_nat s) (l ++ r) = Ok (length l + k).
Proof.
  intros layout. induction l as [|x l IH]; intros a [|[b e] sp] s H F r k Hk; cbn [laid] in H; try tauto.
  destruct H as (H1 & (A1 & _) & H3). cbn [app rest_of_line length]. rewrite A1. cbn [rd bind].
  rewrite (F (b, e) (or_introl eq_refl) : fst b = s), Z.eqb_refl. rewrite (IH _ _ _ H3 (fun u Hu => F u (or_intror Hu)) _ _ Hk). reflexivity.
Qed.

Lemma split_next : forall ll n sp x a b semis y rem c d f0 f1,
  laid (l_layout ll) (0, 0) (l_frags ll) sp -> Forall (fun f => is_fortran f = true) (l_layout ll) ->
  nth_error (l_layout ll) 0 = Some f0 -> main_txt f0 <> [] ->
  nth_error (l_frags ll) n = Some x -> nth_error sp n = Some (a, b) -> fst b < length (l_frags ll) ->
  skipn (S n) (l_frags ll) = semis ++ y :: rem -> Forall (fun t => is_semi t = true) semis ->
  (forall u, In u (firstn (length semis) (skipn (S n) sp)) -> fst (fst u) = fst b) ->
  nth_error sp (S n + length semis) = Some (c, d) -> fst c = S (fst b) ->
  nth_error (l_layout ll) (fst c) = Some f1 -> adjustable f1 ->
  exists ll' ll2 sp2, split_after ll n = Ok (ll', Some ll2) /\ same_rest ll' ll /\ l_frags ll' = firstn (S n) (l_frags ll) /\
    first_part (l_layout ll) (l_layout ll') (fst b) (length (main_of (l_layout ll) (fst b))) /\
    laid (l_layout ll') (0, 0) (l_frags ll') (firstn (S n) sp) /\
    carried_all (l_layout ll) (l_layout ll') (l_frags ll') (l_frags ll') (firstn (S n) sp) (firstn (S n) sp) /\
    l_label ll2 = 0%Z /\ l_cat ll2 = CAT_UNKNOWN /\
    second_part (l_layout ll) (l_layout ll2) (fst c) 0 (main_first_col f0 - 1) /\
    (forall g, nth_error (l_layout ll2) 0 = Some g -> right_txt g = right_txt f1) /\
    laid (l_layout ll2) (0, 0) (l_frags ll2) sp2 /\
    carried_all (l_layout ll) (l_layout ll2) (y :: rem) (l_frags ll2) (skipn (S n + length semis) sp) sp2.
Proof.
  intros ll n sp x a b semis y rem c d f0 f1 HL HF H0 M0 Hx Hs La Hr Fs Fl Hc Ec Hf1 Ad.
  destruct (laid_cut _ _ _ _ _ _ _ HL Hs) as (P1 & P2 & P3). rewrite Hr in P2.
  pose proof (laid_nth _ _ _ _ _ _ _ HL Hx Hs) as Sx. cbn [fst snd] in Sx.
  assert (Hc' : nth_error (skipn (S n) sp) (length semis) = Some (c, d)) by (rewrite nth_skip_err; exact Hc).
  destruct (laid_app _ _ _ _ _ P2) as (s1 & s2 & e & S1 & S2 & S3 & S4 & S5 & S6 & S7).
  assert (S8 : s2 = skipn (S n + length semis) sp).
  { rewrite <- skip_skip, S1, skipn_app, <- S2, skipn_all, Nat.sub_diag. reflexivity. }
  rewrite <- S8. rewrite S1, nth_error_app2 in Hc' by lia. rewrite S2, Nat.sub_diag in Hc'. destruct s2 as [|[c' d'] s2]; [discriminate|]. cbn in Hc'. injection Hc' as -> ->.
  rewrite S1, <- S2, firstn_app, firstn_all, Nat.sub_diag, firstn_O, app_nil_r in Fl.
  assert (Sy : stands (l_layout ll) y c d) by apply S4.
  pose proof Sx as (X1 & X2 & X3 & _ & X5 & X6 & X7 & _). pose proof Sy as (Y1 & Y2 & Y3 & _ & Y5 & Y6 & Y7 & _).
  unfold split_after. assert (Ln : n < length (l_frags ll)) by (apply nth_error_Some; rewrite Hx; discriminate).
  destruct (Nat.eqb_spec n (length (l_frags ll))); [lia|]. rewrite Hx, X3. cbn [rd bind].
  destruct (Z.ltb_spec (Z.of_nat (fst b)) (zlen (l_frags ll))); [|unfold zlen in *; lia]. cbn [assert_ bind].
  rewrite (get_fl_ok _ 0 _ H0 : get_fl (l_layout ll) 0%Z = _). cbn [bind]. rewrite Hr.
  assert (K0 : rest_of_line (Z.of_nat (fst b)) (y :: rem) = Ok 0).
  { cbn [rest_of_line]. rewrite Y1. cbn [rd bind]. destruct (Z.eqb_spec (Z.of_nat (fst c)) (Z.of_nat (fst b))); [lia|reflexivity]. }
  rewrite (rest_all _ _ _ _ _ S3 Fl _ _ K0), Nat.add_0_r. cbn [bind]. rewrite (lead_all _ _ Fs).
  destruct (nth_error (l_layout ll) (fst b)) as [f|] eqn:Hf; [|apply nth_error_None in Hf; destruct X7; lia].
  rewrite (get_fl_ok _ _ _ Hf). cbn [bind].
  replace (skipn (length semis) (semis ++ y :: rem)) with (y :: rem) by (rewrite skipn_app, skipn_all, Nat.sub_diag; reflexivity).
  rewrite Nat.ltb_irrefl. rewrite Nat2Z.id.
  assert (Ff : is_fortran f1 = true) by (rewrite Forall_forall in HF; apply HF; eapply nth_error_In; exact Hf1).
  pose proof (main_nth _ _ _ Hf) as Mf. pose proof (main_nth _ _ _ Hf1) as Mf1. destruct X7 as [X7a X7b]. destruct Y6 as [Y6a Y6b].
  assert (Id : (0 <= main_first_col f0 - 1)%Z).
  { unfold main_first_col. destruct (main_txt f0); [congruence|]. cbn [is_empty]. unfold zlen. destruct (is_fixed_format f0); lia. }
  pose proof (split_nth _ _ _ _ Hf1) as Dec1. pose proof (split_nth _ _ _ _ Hf) as Dec.
  assert (Tl : skipn (S (fst b)) (l_layout ll) = f1 :: skipn (S (fst c)) (l_layout ll)).
  { rewrite <- Ec. rewrite Dec1 at 1. rewrite skipn_app, firstn_length, Nat.min_l by lia. rewrite skipn_all2 by (rewrite firstn_length; lia). rewrite Nat.sub_diag. reflexivity. }
  rewrite Tl. cbn [indent_next].
  assert (Tr : is_trivial f1 = false) by (unfold is_fortran in Ff; destruct (is_trivial f1); [discriminate|reflexivity]). rewrite Tr.
  destruct (sls_plain (with_text f1 [] (left_space f1) (main_txt f1) (right_space f1) (right_txt f1)) _ Ff eq_refl Id Ad) as (g & ch & E & G1 & G2 & G3 & G4 & G5 & G6).
  rewrite E. cbn [bind]. rewrite Y1. cbn [rd bind].
  assert (Z1 : forall z, In z (y :: rem) -> exists p q, stands (l_layout ll) z p q).
  { intros z Hz. destruct (In_nth_error _ _ Hz) as (m & Hm).
    destruct (nth_error ((c, d) :: s2) m) as [u|] eqn:Hu.
    - exists (fst u), (snd u). eapply laid_nth; eauto.
    - apply nth_error_None in Hu. rewrite (laid_length _ _ _ _ S4) in Hu. apply nth_error_None in Hu. congruence. }
  rewrite (rmap_map _ _ _ (mvt (fst c) 0) (y :: rem)).
  2:{ intros z Hz. destruct (Z1 z Hz) as (p & q & A1 & A2 & A3 & A4 & _). rewrite move_lines_ok by (rewrite ?A1, ?A3; discriminate).
      f_equal. eapply lined_mvt; [exact A1|rewrite A2; discriminate|exact A4]. }
  cbn [bind]. eexists _, _, _. split; [reflexivity|]. cbn [l_layout l_frags l_label l_cat l_stmts].
  split; [repeat split|]. split; [reflexivity|].
  destruct (uncont_text f) as (U1 & U2 & U3 & U4).
  assert (Lf : length (firstn (fst b) (l_layout ll)) = fst b) by (rewrite firstn_length; lia).
  split. { exists (firstn (fst b) (l_layout ll)), f, (skipn (S (fst b)) (l_layout ll)), (make_uncontinued f). split; [exact Dec|]. split; [reflexivity|]. split; [exact Lf|].
    split; [rewrite U1, Mf, firstn_all; reflexivity|]. split; [exact U2|]. split; [exact U3|]. split; [exact U4|]. apply uncont_not. }
  assert (M1 : map main_txt (firstn (fst b) (l_layout ll) ++ [make_uncontinued f]) = firstn (fst b) (map main_txt (l_layout ll)) ++ [firstn (length (main_of (l_layout ll) (fst b))) (main_of (l_layout ll) (fst b))]).
  { rewrite map_app, firstn_map, firstn_all. cbn [map]. rewrite U1, Mf. reflexivity. }
  assert (M2 : map main_txt (g :: skipn (S (fst c)) (l_layout ll)) = skipn 0 (main_of (l_layout ll) (fst c)) :: skipn (S (fst c)) (map main_txt (l_layout ll))).
  { cbn [map]. rewrite G1, Mf1, skipn_map. reflexivity. }
  assert (P3' : forall u, In u (firstn (S n) sp) -> before (snd u) (fst b, length (main_of (l_layout ll) (fst b)))).
  { intros u Hu. specialize (P3 u Hu). unfold before in *. cbn [fst snd]. lia. }
  destruct (keep_laid _ _ _ _ M1 X7a (le_n _) _ _ _ P1 P3') as [Q1 Q2].
  split; [exact Q1|]. split; [exact Q2|]. split; [reflexivity|]. split; [reflexivity|].
  assert (Lf1 : length (firstn (fst c) (l_layout ll)) = fst c) by (rewrite firstn_length; lia).
  split. { exists (firstn (fst c) (l_layout ll)), f1, (skipn (S (fst c)) (l_layout ll)), g. split; [exact Dec1|]. split; [reflexivity|]. split; [exact Lf1|]. repeat (split; [assumption|]). assumption. }
  split. { intros g0 X. cbn in X. injection X as <-. exact G6. }
  assert (S4' : laid (l_layout ll) (fst c, 0) (y :: rem) ((c, d) :: s2)).
  { cbn [laid] in S4 |- *. destruct S4 as (_ & S4 & S4'). split; [right; cbn; lia|]. auto. }
  assert (B0 : before (fst c, 0) (fst c, 0)) by (right; cbn; lia).
  destruct (cut_laid _ _ _ _ M2 Y6a (Nat.le_0_l _) _ _ _ B0 S4') as [R1 R2].
  replace (mv (fst c) 0 (fst c, 0)) with (0, 0) in R1 by (unfold mv; cbn [fst snd]; rewrite Nat.eqb_refl; f_equal; lia).
  split; [exact R1|exact R2].
Qed.

Lemma split_none : forall ll n sp x a b f f0,
  laid (l_layout ll) (0, 0) (l_frags ll) sp ->
  nth_error (l_layout ll) 0 = Some f0 ->
  nth_error (l_frags ll) n = Some x -> nth_error sp n = Some (a, b) -> fst b < length (l_frags ll) ->
  Forall (fun t => is_semi t = true) (skipn (S n) (l_frags ll)) ->
  (forall u, In u (skipn (S n) sp) -> fst (fst u) = fst b) ->
  nth_error (l_layout ll) (fst b) = Some f -> S (fst b) = length (l_layout ll) ->
  split_after ll n = Ok (set_frags ll (firstn (fst b) (l_layout ll) ++ [make_uncontinued f]) (l_frags ll), None).
Proof.
  intros ll n sp x a b f f0 HL H0 Hx Hs La Fs Fl Hf Hl.
  destruct (laid_cut _ _ _ _ _ _ _ HL Hs) as (P1 & P2 & P3).
  pose proof (laid_nth _ _ _ _ _ _ _ HL Hx Hs) as Sx. cbn [fst snd] in Sx.
  pose proof Sx as (X1 & X2 & X3 & _ & X5 & X6 & X7 & _).
  unfold split_after. assert (Ln : n < length (l_frags ll)) by (apply nth_error_Some; rewrite Hx; discriminate).
  destruct (Nat.eqb_spec n (length (l_frags ll))); [lia|]. rewrite Hx, X3. cbn [rd bind].
  destruct (Z.ltb_spec (Z.of_nat (fst b)) (zlen (l_frags ll))); [|unfold zlen in *; lia]. cbn [assert_ bind].
  rewrite (get_fl_ok _ 0 _ H0 : get_fl (l_layout ll) 0%Z = _). cbn [bind].
  pose proof (rest_all _ _ _ _ _ P2 Fl [] 0 eq_refl) as R. rewrite app_nil_r, Nat.add_0_r in R. rewrite R. cbn [bind].
  pose proof (lead_all _ [] Fs) as Ld. rewrite app_nil_r in Ld. rewrite Ld.
  rewrite (get_fl_ok _ _ _ Hf). cbn [bind]. rewrite Nat.ltb_irrefl, Nat2Z.id.
  rewrite (skipn_all2 (l_layout ll)) by lia. reflexivity.
Qed.
