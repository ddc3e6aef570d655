(** Lemmas about the indentation of files. *)
From Verif Require Import Base Base_lemmas Tags SyntaxTags FileLine FileLine_spec FileLine_proofs FileEdit_spec FileEdit_proofs
  Token Stmts LogicalLine StmtSrc StmtSrc_spec LineEdit StmtRules Peg LabelStack Prgm Prgm_spec Prgm_proofs Indent Indent_spec.
Local Open Scope nat_scope.

(** ** One file line *)
Lemma blanks_split n : forall n' x y, spaces n ++ x = spaces n' ++ y -> same_upto_leading_blanks x y.
Proof.
  induction n as [|n IH]; intros n' x y E.
  - cbn [spaces repeat app] in E. subst x. exists n', 0, y. auto.
  - destruct n' as [|n'].
    + cbn [spaces repeat app] in E. subst y. exists 0, (S n), x. auto.
    + apply IH with n'. cbn in E. injection E. auto.
Qed.
Lemma same_upto_trans a b c : same_upto_leading_blanks a b -> same_upto_leading_blanks b c -> same_upto_leading_blanks a c.
Proof.
  intros (n & m & x & -> & ->) (n' & m' & y & E & ->).
  apply blanks_split in E. destruct E as (k & k' & z & -> & ->).
  exists (n + k), (m' + k'), z. unfold spaces. rewrite !repeat_app, <- !app_assoc. auto.
Qed.
Lemma bits_same f f' : bits f' = bits f ->
  is_comment f' = is_comment f /\ is_fortran f' = is_fortran f /\ is_fixed_format f' = is_fixed_format f /\
  has_label f' = has_label f /\ is_continuation f' = is_continuation f.
Proof.
  intros E. unfold is_fortran, is_trivial, is_comment, is_blank, is_preprocessor, is_flpr_pp, is_flpr_lit, is_include,
    is_fixed_format, has_label, is_continuation. rewrite E. auto.
Qed.
Lemma same_but_trans a b c : same_but_blanks a b -> same_but_blanks b c -> same_but_blanks a c.
Proof.
  intros (A1 & A2 & A3 & A4 & A5 & A6) (B1 & B2 & B3 & B4 & B5 & B6).
  destruct (bits_same _ _ A1) as (E1 & E2 & E3 & E4 & E5). unfold same_but_blanks.
  conjs; try congruence.
  - intros C. destruct (A4 C) as (b0 & b1 & p & r & X1 & X2 & X3). rewrite <- E1 in C.
    destruct (B4 C) as (b2 & b3 & p' & r' & Y1 & Y2 & Y3). exists b0, b3, (p ++ p'), r'. conjs; auto.
    + destruct X1 as (X1 & ?), X2 as (X2 & Xb & _), Y1 as (Y1 & Yb & _).
      rewrite X2 in Y1. assert (r = p' ++ r') as -> ; [|rewrite <- app_assoc; split; assumption].
      clear - Y1 Xb Yb. revert b2 Yb Y1. induction b1 as [|x b1 IH]; intros [|y b2] Yb E; cbn [app] in E.
      * injection E; auto.
      * injection E as <- E. apply Forall_inv in Yb. vm_compute in Yb. discriminate.
      * injection E as -> E. apply Forall_inv in Xb. vm_compute in Xb. discriminate.
      * injection E as -> E. apply IH with b2; auto; [exact (Forall_inv_tail Xb)|exact (Forall_inv_tail Yb)].
    + apply Forall_app; auto.
  - intros F. destruct (A5 F) as (X1 & X2 & X3 & X4 & X5 & X6). rewrite <- E2 in F.
    destruct (B5 F) as (Y1 & Y2 & Y3 & Y4 & Y5 & Y6). conjs; try congruence; auto.
    + eapply same_upto_trans; eauto.
    + intros HL. rewrite Y4, X4; congruence.
  - intros C F. rewrite B6, A6; auto; congruence.
Qed.

Lemma sls_left_cont f sp f' ch : is_fortran f = true -> has_label f = false -> left_txt f <> [] ->
  is_continuation f = true -> is_fixed_format f = false ->
  set_leading_spaces f sp = Ok (f', ch) -> left_space f' = left_space f.
Proof.
  intros F HL LT C NF H. unfold set_leading_spaces in H. rewrite (fortran_not_comment _ F), F in H.
  apply bind_Ok in H as (o & HO & H). unfold sls_left in HO.
  apply is_empty_false in LT. rewrite LT, HL, C, NF in HO. cbn [andb negb] in HO.
  destruct (_ =? sp)%Z; [injection HO as <-; injection H as <- _; auto|].
  destruct (_ <? sp)%Z.
  - injection HO as <-. apply bind_Ok in H as (rs & _ & H). injection H as <- _. reflexivity.
  - destruct (find_first_not_of _ _); [|discriminate]. injection HO as <-.
    apply bind_Ok in H as (rs & _ & H). injection H as <- _. reflexivity.
Qed.
Lemma sls_left_empty f sp f' ch : is_fortran f = true -> left_txt f = [] ->
  set_leading_spaces f sp = Ok (f', ch) -> left_txt f' = [].
Proof.
  intros F LT H. unfold set_leading_spaces in H. rewrite (fortran_not_comment _ F), F in H.
  apply bind_Ok in H as (o & HO & H). unfold sls_left in HO. rewrite LT in HO. cbn [is_empty] in HO.
  destruct (_ =? sp)%Z; [injection HO as <-; injection H as <- _; auto|].
  apply bind_Ok in HO as (ls & _ & HO). injection HO as <-. apply bind_Ok in H as (rs & _ & H). injection H as <- _. reflexivity.
Qed.
Lemma blanks_core n m x y : spaces n ++ x = spaces m ++ y -> find_first_not_of [c_sp] x = Some 0 ->
  find_first_not_of [c_sp] y = Some 0 -> x = y.
Proof.
  intros E Hx Hy. pose proof (find_sp_spaces n x Hx) as A. pose proof (find_sp_spaces m y Hy) as B.
  rewrite E, B in A. injection A as ->. eapply app_inv_head; eauto.
Qed.
Lemma core_after n core f' : same_upto_leading_blanks (spaces n ++ core) f' -> find_first_not_of [c_sp] core = Some 0 ->
  exists m, f' = spaces m ++ core.
Proof.
  intros (a & b & z & E & ->) H. apply blanks_split in E as (k & k' & w & -> & ->).
  destruct k as [|k].
  2:{ exfalso. unfold find_first_not_of in H. apply find_from_Some in H as (x & c & q & E & X & Hc & _).
      destruct x; [|discriminate]. cbn in E. injection E as <- _. vm_compute in Hc. discriminate. }
  exists (b + k'). unfold spaces. rewrite repeat_app, <- app_assoc. reflexivity.
Qed.
Lemma core_nil n core : spaces n ++ core = [] -> find_first_not_of [c_sp] core = Some 0 -> False.
Proof. intros E H. apply app_eq_nil in E as [_ ->]. discriminate. Qed.

Lemma same_but_refl_code f : is_fortran f = true -> same_but_blanks f f.
Proof.
  intros F. unfold same_but_blanks. rewrite (fortran_not_comment _ F). conjs; auto; try discriminate.
  intros _. conjs; auto. exists 0, 0, (left_txt f). auto.
Qed.

Lemma sls_moved f sp f' ch : free_line f -> (0 <= sp)%Z -> set_leading_spaces f sp = Ok (f', ch) ->
  moved f f' sp /\ free_line f' /\ (plain_end f -> plain_end f') /\ (ch = false -> f' = f).
Proof.
  intros [[C (b & r & CA)]|[[C F]|FC]] SP H.
  - destruct CA as (E & B & E1 & E2 & E3 & E4).
    destruct (sls_comment_spec f sp b r C SP E B E1 E2 E3 E4) as (g & ch0 & p & r' & H' & -> & P & N & Y & G).
    rewrite H in H'. injection H' as <- <-.
    assert (CC : bits f' = bits f /\ open_delim f' = open_delim f /\ linenum f' = linenum f /\
      exists b' p' r0, comment_at f b (p' ++ r0) /\ comment_at f' b' r0 /\ Forall (fun c => mem c set_st = true) p').
    { destruct ch.
      - destruct (Y eq_refl) as [Y1 Y2]. rewrite Y2. conjs; auto.
        exists (spaces (Z.to_nat sp)), p, r'.
        unfold comment_at. cbn [left_txt left_space main_txt right_space right_txt with_text].
        pose proof (spaces_blank (Z.to_nat sp)). conjs; auto.
      - rewrite (N eq_refl). conjs; auto. exists b, [], (p ++ r'). unfold comment_at. conjs; auto. }
    destruct CC as (C1 & C2 & C3 & b' & p' & r0 & C4 & C5 & C6). destruct (bits_same _ _ C1) as (D1 & D2 & _).
    assert (F : is_fortran f = false) by (destruct (is_fortran f) eqn:F; auto; apply fortran_not_comment in F; congruence).
    conjs; auto.
    + split.
      * unfold same_but_blanks. rewrite C, F. conjs; auto; try discriminate. intros _. exists b, b', p', r0. auto.
      * split; auto. rewrite D2, F. discriminate.
    + left. split; [congruence|]. exists b', r0. auto.
    + intros _. unfold plain_end. rewrite D2, F. discriminate.
  - unfold set_leading_spaces in H. rewrite C, F in H. injection H as <- <-. conjs; auto.
    + split; [|split; [rewrite C|rewrite F]; discriminate].
      unfold same_but_blanks. rewrite C, F. conjs; auto; discriminate.
    + right. left. auto.
  - destruct FC as (F & NF & LT). pose proof H as H0.
    apply sls_fortran in H0 as (A1 & A2 & A3 & A4 & A5 & A6 & A7 & A8 & A9 & A10); auto.
    destruct (bits_same _ _ A3) as (D1 & D2 & D3 & D4 & D5).
    assert (LT' : left_txt f = [] \/ has_label f = true \/ is_continuation f = true) by tauto.
    assert (NIL : left_txt f' = [] <-> left_txt f = []).
    { split; intros X.
      - destruct LT as [LT|[LT|(_ & n & core & EL & FCo)]]; auto.
        + rewrite <- A7; auto.
        + rewrite EL in A6. destruct (core_after _ _ _ A6 FCo) as (m & EM). exfalso. rewrite X in EM. eapply core_nil; eauto.
      - eapply sls_left_empty; eauto. }
    conjs; auto.
    + split.
      * unfold same_but_blanks. rewrite (fortran_not_comment _ F), F. conjs; auto; try discriminate. intros _. conjs; auto.
      * split; [rewrite D1, (fortran_not_comment _ F); discriminate|]. intros _ MN. rewrite A1 in MN.
        destruct (sls_column f sp f' ch F NF SP MN LT' H) as (K1 & K2 & K3). rewrite D4. conjs.
        -- intros X. apply K1. now apply NIL.
        -- intros X HL. rewrite A7; auto. apply K2; auto. intros Y. apply X. now apply NIL.
        -- intros X HL n core EL FCo. assert (X' : left_txt f <> []) by (intros Y; apply X; now apply NIL).
           destruct LT as [LT|[LT|(CT & n0 & core0 & EL0 & FC0)]]; [congruence|congruence|].
           assert (LS : left_space f' = left_space f) by (eapply sls_left_cont; eauto). rewrite LS.
           rewrite EL0 in A6. destruct (core_after _ _ _ A6 FC0) as (m & EM). rewrite EL in EM.
           assert (core = core0) as -> by (eapply blanks_core; eauto). eapply K3; eauto.
    + right. right. unfold free_code. rewrite D2, D3, D4, D5. conjs; auto.
      destruct LT as [LT|[LT|(CT & n0 & core0 & EL0 & FC0)]]; auto.
      * left. now apply NIL.
      * right. right. split; auto. rewrite EL0 in A6. destruct (core_after _ _ _ A6 FC0) as (m & EM). eauto.
    + unfold plain_end. rewrite D2, A2. auto.
Qed.
Lemma sls_ok f sp : free_line f -> plain_end f -> (0 <= sp)%Z -> exists f' ch, set_leading_spaces f sp = Ok (f', ch).
Proof.
  intros [[C (b & r & E & B & E1 & E2 & E3 & E4)]|[[C F]|(F & NF & LT)]] PE SP.
  - destruct (sls_comment_spec f sp b r C SP E B E1 E2 E3 E4) as (g & ch0 & p & r' & H' & _). eauto.
  - unfold set_leading_spaces. rewrite C, F. eauto.
  - apply sls_defined; auto. destruct (PE F) as [X|[X|X]]; auto.
Qed.

(** ** One logical line *)
Lemma indent_all_moved l sp : forall l' ch, Forall free_line l -> (0 <= sp)%Z -> indent_all l sp = Ok (l', ch) ->
  Forall2 (fun g g' => moved g g' sp) l l' /\ Forall free_line l' /\ (Forall plain_end l -> Forall plain_end l') /\ (ch = false -> l' = l).
Proof.
  induction l as [|f l IH]; intros l' ch FL SP H; cbn [indent_all] in H.
  - injection H as <- <-. conjs; auto.
  - apply bind_Ok in H as ([f' c] & H1 & H). apply bind_Ok in H as ([r' d] & H2 & H). injection H as <- <-.
    apply sls_moved in H1 as (M1 & M2 & M3 & M4); auto; [|now apply Forall_inv in FL].
    apply IH in H2 as (N1 & N2 & N3 & N4); auto; [|now apply Forall_inv_tail in FL].
    conjs; auto.
    + intros P. constructor; [apply M3; now apply Forall_inv in P|apply N3; now apply Forall_inv_tail in P].
    + intros X. apply orb_false_iff in X as [-> ->]. rewrite M4, N4; auto.
Qed.
Lemma indent_all_ok l sp : Forall free_line l -> Forall plain_end l -> (0 <= sp)%Z -> exists x, indent_all l sp = Ok x.
Proof.
  induction l as [|f l IH]; intros FL PE SP; cbn [indent_all]; eauto.
  apply Forall_cons_iff in FL as [F1 F2]. apply Forall_cons_iff in PE as [P1 P2].
  destruct (sls_ok f sp F1 P1 SP) as (f' & c & ->). destruct (IH F2 P2 SP) as ([r d] & ->). cbn [bind]. eauto.
Qed.
Lemma has_fortran_iff l : has_fortran l = true <-> holds_code l.
Proof.
  unfold has_fortran, holds_code. rewrite andb_true_iff, negb_true_iff, existsb_exists. reflexivity.
Qed.
Lemma moved_bits f f' sp : moved f f' sp -> is_fortran f' = is_fortran f.
Proof. intros ((E & _) & _). now apply bits_same in E. Qed.

Lemma ll_moved l sp off l' ch : line_ok l -> (0 <= sp)%Z -> (0 <= off)%Z -> ll_set_leading_spaces l sp off = Ok (l', ch) ->
  line_moved l l' sp off /\ line_ok l' /\ (line_plain l -> line_plain l') /\ (ch = false -> l' = l).
Proof.
  intros (NE & FL) SP OF H. unfold ll_set_leading_spaces in H. destruct (l_layout l) as [|f r] eqn:EL; [congruence|].
  apply bind_Ok in H as ([f' c] & H1 & H). apply bind_Ok in H as ([r' d] & H2 & H). injection H as <- <-.
  apply Forall_cons_iff in FL as [F1 F2]. apply sls_moved in H1 as (M1 & M2 & M3 & M4); auto.
  apply indent_all_moved in H2 as (N1 & N2 & N3 & N4); auto; [|destruct (has_fortran l); lia].
  conjs.
  - unfold line_moved, set_frags. cbn [l_label l_cat l_suppress l_reformat l_nsemi l_frags l_stmts l_layout].
    repeat (split; [reflexivity|]). exists f, r, f', r', (if has_fortran l then off else 0)%Z.
    split; [assumption|]. split; [reflexivity|]. split; [assumption|]. split; [|split; [|assumption]].
    + intros X. apply has_fortran_iff in X. now rewrite X.
    + intros X. destruct (has_fortran l) eqn:E; auto. apply has_fortran_iff in E. contradiction.
  - destruct l; cbn in *. split; cbn; [discriminate|constructor; auto].
  - unfold line_plain. rewrite EL. intros P. apply Forall_cons_iff in P as [P1 P2]. destruct l; cbn in *. constructor; auto.
  - intros X. apply orb_false_iff in X as [-> ->]. rewrite M4, N4; auto. destruct l; cbn in *. now subst.
Qed.
Lemma ll_ok l sp off : line_ok l -> line_plain l -> (0 <= sp)%Z -> (0 <= off)%Z -> exists x, ll_set_leading_spaces l sp off = Ok x.
Proof.
  intros (NE & FL) PL SP OF. unfold ll_set_leading_spaces, line_plain in *. destruct (l_layout l) as [|f r] eqn:EL; [congruence|].
  apply Forall_cons_iff in FL as [F1 F2]. apply Forall_cons_iff in PL as [P1 P2].
  destruct (sls_ok f sp F1 P1 SP) as (f' & c & ->).
  destruct (indent_all_ok r (sp + (if has_fortran l then off else 0)) F2 P2) as ([r' d] & ->); [destruct (has_fortran l); lia|].
  cbn [bind]. eauto.
Qed.
Lemma holds_moved l l' sp off : line_moved l l' sp off -> holds_code l <-> holds_code l'.
Proof.
  intros (_ & _ & ES & _ & _ & _ & _ & f & r & f' & r' & o & E & E' & M & _ & _ & F2). unfold holds_code. rewrite ES, E, E'.
  assert (EX : existsb is_fortran (f :: r) = existsb is_fortran (f' :: r')).
  { cbn [existsb]. rewrite (moved_bits _ _ _ M). f_equal. clear - F2. induction F2 as [|a b x y H _ IH]; auto.
    cbn [existsb]. now rewrite (moved_bits _ _ _ H), IH. }
  rewrite <- !existsb_exists, EX. reflexivity.
Qed.
Lemma moved_after f g h sp sp' : moved f g sp -> moved g h sp' -> moved f h sp'.
Proof. intros [A _] [B C]. split; auto. eapply same_but_trans; eauto. Qed.
Lemma line_moved_after l1 l2 l3 sp sp' off : line_moved l1 l2 sp off -> line_moved l2 l3 sp' off -> line_moved l1 l3 sp' off.
Proof.
  intros A B. pose proof (holds_moved _ _ _ _ A) as HC.
  destruct A as (A1 & A2 & A3 & A4 & A5 & A6 & A7 & f & r & g & q & o & E1 & E2 & M & O1 & O2 & F).
  destruct B as (B1 & B2 & B3 & B4 & B5 & B6 & B7 & g' & q' & h & p & o' & E1' & E2' & M' & O1' & O2' & F').
  rewrite E2 in E1'. injection E1' as <- <-.
  unfold line_moved. conjs; try congruence. exists f, r, h, p, o'. conjs; auto; [eapply moved_after; eauto|tauto|tauto|].
  clear - F F'. revert p F'. induction F as [|a b x y H _ IH]; intros p F'; inversion F'; subst; constructor; auto.
  eapply moved_after; eauto.
Qed.

(** ** The lines of a file *)
Lemma nth_skip {A} (l : list A) n k : nth_error (skipn n l) k = nth_error l (n + k).
Proof. revert n; induction l as [|a l IH]; intros [|n]; cbn; auto. destruct k; reflexivity. Qed.
Lemma put_length ls j l : j < length ls -> length (put_line ls j l) = length ls.
Proof. intros H. unfold put_line. rewrite app_length, firstn_length. cbn [length]. rewrite skipn_length. lia. Qed.
Lemma put_same ls j l : j < length ls -> nth_error (put_line ls j l) j = Some l.
Proof. intros H. unfold put_line. rewrite nth_error_app2; rewrite firstn_length; [|lia]. replace (j - _) with 0 by lia. reflexivity. Qed.
Lemma put_other ls j l k : j < length ls -> k <> j -> nth_error (put_line ls j l) k = nth_error ls k.
Proof.
  intros H N. unfold put_line. destruct (Nat.lt_ge_cases k j) as [L|L].
  - rewrite nth_error_app1 by (rewrite firstn_length; lia). revert k j N L H. induction ls as [|x ls IH]; intros [|k] [|j] N L H; cbn in *; auto; try lia.
    apply IH; lia.
  - rewrite nth_error_app2 by (rewrite firstn_length; lia). rewrite firstn_length, Nat.min_l by lia.
    destruct (k - j) as [|d] eqn:E; [lia|]. cbn [nth_error]. rewrite nth_skip. f_equal. lia.
Qed.

Lemma put_Forall (P : LLn -> Prop) ls j l : Forall P ls -> P l -> Forall P (put_line ls j l).
Proof.
  intros H0 X. pose proof H0 as H. unfold put_line. apply Forall_app. rewrite <- (firstn_skipn j ls) in H. apply Forall_app in H as [H _].
  split; auto. constructor; auto. clear - H0.
  rewrite <- (firstn_skipn (S j) ls) in H0. now apply Forall_app in H0.
Qed.

(** a step: exactly the lines in [own] get moved *)
Definition effect (own : nat -> Prop) (sp off : Z) (ls ls' : lines) (c : bool) : Prop :=
  length ls' = length ls /\ file_ok ls' /\ (file_plain ls -> file_plain ls') /\ (c = false -> ls' = ls) /\
  (forall j, own j -> exists l l', nth_error ls j = Some l /\ nth_error ls' j = Some l' /\ line_moved l l' sp off) /\
  (forall j, ~ own j -> nth_error ls' j = nth_error ls j).
Lemma effect_or own own' sp off ls ls1 ls2 c d : (forall j, own j \/ ~ own j) -> (forall j, own' j \/ ~ own' j) ->
  effect own sp off ls ls1 c -> effect own' sp off ls1 ls2 d ->
  effect (fun j => own j \/ own' j) sp off ls ls2 (c || d).
Proof.
  intros D1 D2 (A1 & A2 & A3 & A4 & A5 & A6) (B1 & B2 & B3 & B4 & B5 & B6). unfold effect. conjs; auto; try congruence.
  - intros X. apply orb_false_iff in X as [-> ->]. rewrite B4, A4; auto.
  - intros j O. destruct (D1 j) as [O1|N1]; destruct (D2 j) as [O2|N2]; try tauto.
    + destruct (A5 j O1) as (l & l1 & E & E1 & M). destruct (B5 j O2) as (l1' & l2 & E1' & E2 & M').
      rewrite E1 in E1'. injection E1' as <-. exists l, l2. conjs; auto. eapply line_moved_after; eauto.
    + destruct (A5 j O1) as (l & l1 & E & E1 & M). exists l, l1. conjs; auto. rewrite B6; auto.
    + destruct (B5 j O2) as (l1' & l2 & E1' & E2 & M'). exists l1', l2. conjs; auto. rewrite <- A6; auto.
  - intros j N. rewrite B6, A6; tauto.
Qed.
Lemma line_effect ls j sp off ls' c : file_ok ls -> (0 <= sp)%Z -> (0 <= off)%Z -> line_indent ls j sp off = Ok (ls', c) ->
  effect (eq j) sp off ls ls' c.
Proof.
  intros FO SP OF H. unfold line_indent in H. destruct (nth_error ls j) as [l|] eqn:E; [|discriminate].
  apply bind_Ok in H as ([l' d] & H1 & H). injection H as <- <-.
  assert (J : j < length ls) by (apply nth_error_Some; congruence).
  assert (LO : line_ok l) by (eapply Forall_forall in FO; eauto using nth_error_In).
  apply ll_moved in H1 as (M1 & M2 & M3 & M4); auto. unfold effect. conjs.
  - now apply put_length.
  - now apply put_Forall.
  - intros P. apply put_Forall; auto. apply M3. eapply Forall_forall in P; eauto using nth_error_In.
  - intros X. rewrite (M4 X). unfold put_line. rewrite <- (firstn_skipn j ls) at 3. f_equal.
    clear - E. revert j E. induction ls as [|x ls IH]; intros [|j] E; cbn in *; try discriminate; [congruence|auto].
  - intros k <-. exists l, l'. conjs; auto. now apply put_same.
  - intros k N. apply put_other; auto.
Qed.
Lemma lines_effect js sp off : forall ls ls' c, file_ok ls -> (0 <= sp)%Z -> (0 <= off)%Z -> lines_indent ls js sp off = Ok (ls', c) ->
  effect (fun j => In j js) sp off ls ls' c.
Proof.
  induction js as [|j js IH]; intros ls ls' c FO SP OF H; cbn [lines_indent] in H.
  - injection H as <- <-. unfold effect. conjs; auto. intros j [].
  - apply bind_Ok in H as ([ls1 c1] & H1 & H). apply bind_Ok in H as ([ls2 c2] & H2 & H). injection H as <- <-.
    apply line_effect in H1; auto. pose proof H1 as (_ & FO1 & _). apply IH in H2; auto.
    cbn [In]. apply effect_or with ls1; auto.
    + intros k. destruct (Nat.eq_dec j k); auto.
    + intros k. destruct (in_dec Nat.eq_dec k js); auto.
Qed.
Lemma stmt_effect ls q sp off ls' c : file_ok ls -> (0 <= off)%Z -> stmt_indent ls q sp off = Ok (ls', c) ->
  effect (line_of_stmt q) sp off ls ls' c.
Proof.
  intros FO OF H. unfold stmt_indent in H. apply bind_Ok in H as ([] & H0 & H).
  unfold assert_ in H0. destruct (Z.leb_spec 0 sp) as [SP|]; [|discriminate]. clear H0.
  destruct (Z.ltb_spec (s_compound q) 2) as [C|C].
  - apply bind_Ok in H as ([ls1 c1] & H1 & H). destruct (s_line q) as [j|] eqn:EL; [|discriminate].
    apply bind_Ok in H as ([ls2 c2] & H2 & H). injection H as <- <-.
    apply lines_effect in H1; auto. pose proof H1 as (_ & FO1 & _). apply line_effect in H2; auto.
    assert (E : effect (fun k => In k (s_prefix q) \/ j = k) sp off ls ls2 (c1 || c2)).
    { apply effect_or with ls1; auto.
      + intros k. destruct (in_dec Nat.eq_dec k (s_prefix q)); auto.
      + intros k. destruct (Nat.eq_dec j k); auto. }
    destruct E as (E1 & E2 & E3 & E4 & E5 & E6). unfold effect. conjs; auto.
    + intros k (_ & [K|K]); apply E5; auto. right. congruence.
    + intros k K. apply E6. intros [X| ->]; apply K; split; auto.
  - injection H as <- <-. unfold effect. conjs; auto. intros j (X & _). lia.
Qed.

Section Calls.
Variable it : Indent_Table.
Variable sts : list LL_Stmt.
Let off := it_cont it.

(** the calls of LL_Stmt::set_leading_spaces *)
Definition outer_b (tag : Z) (j n : nat) : bool := begin_end_construct tag && ((j =? 0) || (S j =? n)).
Section Kids.
Variable F : ptree -> Z -> list (nat * Z).
Variables (tag : Z) (n : nat) (sp : Z).
Fixpoint calls_kids (j : nat) (l : list ptree) : list (nat * Z) :=
  match l with
  | [] => []
  | k :: l' => F k (if outer_b tag j n then sp else (sp + it_off it tag)%Z) ++ calls_kids (S j) l'
  end.
End Kids.
Fixpoint calls (t : ptree) (sp : Z) : list (nat * Z) :=
  match t with
  | PT tag _ st kids =>
      match kids with
      | [] => match st with Some i => [(i, sp)] | None => [] end
      | _ => calls_kids calls tag (length kids) sp 0 kids
      end
  end.
Definition call (ls : lines) (p : nat * Z) : res (lines * bool) :=
  match nth_error sts (fst p) with
  | None => UB
  | Some q => if (s_compound q <? 2)%Z then stmt_indent ls q (snd p) off else Ok (ls, false)
  end.
Fixpoint run (l : list (nat * Z)) (ls : lines) : res (lines * bool) :=
  match l with
  | [] => Ok (ls, false)
  | p :: l' => ' (ls1, c) <- call ls p ;; ' (ls2, d) <- run l' ls1 ;; Ok (ls2, c || d)
  end.
Lemma run_app a : forall b ls, run (a ++ b) ls = (' (ls1, c) <- run a ls ;; ' (ls2, d) <- run b ls1 ;; Ok (ls2, c || d)).
Proof using.
  induction a as [|p a IH]; intros b ls; cbn [run app bind].
  - destruct (run b ls) as [[x d]| |]; auto.
  - destruct (call ls p) as [[ls1 c]| |]; cbn [bind]; auto. rewrite IH.
    destruct (run a ls1) as [[ls2 d]| |]; cbn [bind]; auto. destruct (run b ls2) as [[ls3 e]| |]; cbn [bind]; auto.
    now rewrite orb_assoc.
Qed.

(** the trees on which the recursion asserts nothing false *)
Inductive tree_fine : ptree -> Prop :=
| fine_leaf g r s : tree_fine (PT g r s [])
| fine_node g r s kids : pg_index g = true -> (begin_end_construct g = true -> 2 <= length kids) -> Forall tree_fine kids ->
    tree_fine (PT g r s kids).

Section Go.
Variable R : ptree -> Z -> lines -> res (lines * bool).
Variables (be : bool) (n : nat) (sp d : Z).
Fixpoint rgo (j : nat) (l : list ptree) (ls : lines) {struct l} : res (lines * bool) :=
  match l with
  | [] => Ok (ls, false)
  | k :: l' =>
      let outer := be && ((j =? 0) || (S j =? n))%nat in
      ' (ls1, c) <- R k (if outer then sp else (sp + d)%Z) ls ;;
      ' (ls2, c') <- rgo (S j) l' ls1 ;;
      Ok (ls2, c || c')
  end.
End Go.
Lemma indent_node tag r st k0 kids sp ls : indent_recurse it sts (PT tag r st (k0 :: kids)) sp ls =
  (_ <- assert_ (negb (begin_end_construct tag) || (2 <=? length (k0 :: kids))) ;;
   d <- it_get it tag ;;
   rgo (indent_recurse it sts) (begin_end_construct tag) (length (k0 :: kids)) sp d 0 (k0 :: kids) ls).
Proof using. reflexivity. Qed.

Lemma indent_calls t : forall sp ls x, indent_recurse it sts t sp ls = Ok x -> run (calls t sp) ls = Ok x.
Proof using.
  induction t as [tag r st kids IH] using ptree_rect'. intros sp ls x H. destruct kids as [|k0 kids].
  - cbn [indent_recurse] in H. cbn [calls]. destruct st as [i|]; auto.
    cbn [run]. unfold call. cbn [fst snd]. destruct (nth_error sts i) as [q|]; [|discriminate].
    destruct (s_compound q <? 2)%Z; [|injection H as <-; reflexivity].
    fold off in H. rewrite H. destruct x as [y b]. cbn [bind]. now rewrite orb_false_r.
  - rewrite indent_node in H. apply bind_Ok in H as ([] & _ & H). apply bind_Ok in H as (d & D & H).
    unfold it_get in D. apply bind_Ok in D as ([] & _ & D). injection D as <-.
    change (calls (PT tag r st (k0 :: kids)) sp) with (calls_kids calls tag (length (k0 :: kids)) sp 0 (k0 :: kids)).
    set (n := length (k0 :: kids)) in *. clearbody n. revert IH H. generalize (k0 :: kids) as l. generalize 0 as j. clear.
    intros j l IH. revert j ls x. induction IH as [|k l Hk _ IHl]; intros j ls x H; cbn [rgo] in H; [exact H|].
    cbn [calls_kids]. rewrite run_app. apply bind_Ok in H as ([ls1 c] & H1 & H). apply bind_Ok in H as ([ls2 c'] & H2 & H).
    unfold outer_b. rewrite (Hk _ _ _ H1). cbn [bind]. rewrite (IHl _ _ _ H2). exact H.
Qed.
Lemma calls_indent t : forall sp ls x, tree_fine t -> run (calls t sp) ls = Ok x -> indent_recurse it sts t sp ls = Ok x.
Proof using.
  induction t as [tag r st kids IH] using ptree_rect'. intros sp ls x TF H. destruct kids as [|k0 kids].
  - cbn [indent_recurse]. cbn [calls] in H. destruct st as [i|]; auto.
    cbn [run] in H. unfold call in H. cbn [fst snd] in H. destruct (nth_error sts i) as [q|]; [|discriminate].
    destruct (s_compound q <? 2)%Z; [|exact H].
    apply bind_Ok in H as ([ls1 c] & H1 & H). cbn [bind] in H. rewrite orb_false_r in H. now rewrite <- H.
  - inversion TF as [|? ? ? ? T1 T2 T3]; subst. rewrite indent_node.
    assert (A1 : negb (begin_end_construct tag) || (2 <=? length (k0 :: kids)) = true).
    { destruct (begin_end_construct tag); auto. apply Nat.leb_le. auto. }
    rewrite A1. unfold it_get. rewrite T1. cbn [assert_ bind].
    change (calls (PT tag r st (k0 :: kids)) sp) with (calls_kids calls tag (length (k0 :: kids)) sp 0 (k0 :: kids)) in H.
    set (n := length (k0 :: kids)) in *. clearbody n. clear T2 A1 TF. revert IH T3 H. generalize (k0 :: kids) as l. generalize 0 as j. clear.
    intros j l IH. revert j ls x. induction IH as [|k l Hk _ IHl]; intros j ls x T3 H; cbn [rgo]; [exact H|].
    cbn [calls_kids] in H. rewrite run_app in H. apply bind_Ok in H as ([ls1 c] & H1 & H). apply bind_Ok in H as ([ls2 c'] & H2 & H).
    apply Forall_cons_iff in T3 as [T3 T4].
    unfold outer_b in H1. rewrite (Hk _ _ _ T3 H1). cbn [bind]. rewrite (IHl _ _ _ T4 H2). exact H.
Qed.

(** ** Levels *)
Lemma begin_end_iff g : begin_end_construct g = true <-> begins_and_ends g.
Proof using. clear. unfold begin_end_construct, begins_and_ends. rewrite !orb_true_iff, !Z.eqb_eq. tauto. Qed.
Lemma outer_iff g j n : outer_b g j n = true <-> outer_part g j n.
Proof using.
  clear. unfold outer_b, outer_part. rewrite andb_true_iff, orb_true_iff, !Nat.eqb_eq, begin_end_iff. reflexivity.
Qed.
Lemma calls_kids_app F tag n sp l1 : forall j l2,
  calls_kids F tag n sp j (l1 ++ l2) = calls_kids F tag n sp j l1 ++ calls_kids F tag n sp (j + length l1) l2.
Proof using.
  induction l1 as [|k l1 IH]; intros j l2; cbn [calls_kids app length]; [now rewrite Nat.add_0_r|].
  rewrite IH, <- app_assoc. do 3 f_equal. lia.
Qed.
Lemma calls_kids_in F tag n sp p l : forall j, In p (calls_kids F tag n sp j l) -> exists k sp', In k l /\ In p (F k sp').
Proof using.
  induction l as [|k l IH]; intros j H; [destruct H|]. cbn [calls_kids] in H. apply in_app_or in H as [H|H].
  - eexists k, _. split; [now left|exact H].
  - apply IH in H as (k' & sp' & A & B). exists k', sp'. split; [now right|exact B].
Qed.
Lemma calls_occur i t : forall sp, In i (map fst (calls t sp)) -> occurs i t.
Proof using.
  induction t as [tag r st kids IH] using ptree_rect'. intros sp H. apply in_map_iff in H as ([i' n] & <- & H). cbn [fst].
  destruct kids as [|k0 kids].
  - cbn [calls] in H. destruct st as [a|]; [|destruct H]. destruct H as [H|[]]. injection H as -> <-. constructor.
  - change (calls (PT tag r st (k0 :: kids)) sp) with (calls_kids calls tag (length (k0 :: kids)) sp 0 (k0 :: kids)) in H.
    apply calls_kids_in in H as (k & sp' & A & B). apply occurs_in with k; auto.
    rewrite Forall_forall in IH. apply IH with sp'; auto. apply in_map_iff. exists (i', n). auto.
Qed.
Lemma level_calls i t n : level (it_off it) i t n -> forall sp, exists l1 l2, calls t sp = l1 ++ (i, (sp + n)%Z) :: l2 /\ ~ In i (map fst l2).
Proof using.
  induction 1 as [g r|g r s kids j k n O E L IH NO|g r s kids j k n O E L IH NO]; intros sp.
  - exists [], []. cbn. rewrite Z.add_0_r. auto.
  - apply nth_error_split in E as (l1 & l2 & -> & EJ).
    assert (SK : skipn (S j) (l1 ++ k :: l2) = l2).
    { rewrite <- EJ. replace (l1 ++ k :: l2) with ((l1 ++ [k]) ++ l2) by now rewrite <- app_assoc.
      replace (S (length l1)) with (length (l1 ++ [k])) by (rewrite app_length; cbn; lia). apply skipn_app_len. }
    rewrite SK in NO.
    assert (EC : calls (PT g r s (l1 ++ k :: l2)) sp = calls_kids calls g (length (l1 ++ k :: l2)) sp 0 (l1 ++ k :: l2)) by (destruct l1; reflexivity).
    rewrite EC, calls_kids_app. cbn [calls_kids]. rewrite Nat.add_0_l, EJ. apply outer_iff in O. rewrite O.
    destruct (IH sp) as (a & b & -> & NB). rewrite <- app_assoc, app_assoc. cbn [app].
    eexists _, _. split; [reflexivity|]. rewrite map_app. intros X. apply in_app_or in X as [X|X]; auto.
    apply in_map_iff in X as (p & <- & X). apply calls_kids_in in X as (k' & sp' & A & B).
    apply (NO k' A). apply calls_occur with sp'. now apply in_map.
  - apply nth_error_split in E as (l1 & l2 & -> & EJ).
    assert (SK : skipn (S j) (l1 ++ k :: l2) = l2).
    { rewrite <- EJ. replace (l1 ++ k :: l2) with ((l1 ++ [k]) ++ l2) by now rewrite <- app_assoc.
      replace (S (length l1)) with (length (l1 ++ [k])) by (rewrite app_length; cbn; lia). apply skipn_app_len. }
    rewrite SK in NO.
    assert (EC : calls (PT g r s (l1 ++ k :: l2)) sp = calls_kids calls g (length (l1 ++ k :: l2)) sp 0 (l1 ++ k :: l2)) by (destruct l1; reflexivity).
    rewrite EC, calls_kids_app. cbn [calls_kids]. rewrite Nat.add_0_l, EJ.
    assert (O' : outer_b g j (length (l1 ++ k :: l2)) = false) by (apply not_true_iff_false; rewrite outer_iff; exact O). rewrite O'.
    destruct (IH (sp + it_off it g)%Z) as (a & b & -> & NB). rewrite <- app_assoc, app_assoc. cbn [app].
    rewrite <- Z.add_assoc.
    eexists _, _. split; [reflexivity|]. rewrite map_app. intros X. apply in_app_or in X as [X|X]; auto.
    apply in_map_iff in X as (p & <- & X). apply calls_kids_in in X as (k' & sp' & A & B).
    apply (NO k' A). apply calls_occur with sp'. now apply in_map.
Qed.
Lemma occurs_dec i t : occurs i t \/ ~ occurs i t.
Proof using.
  clear. induction t as [tag r st kids IH] using ptree_rect'. destruct kids as [|k0 kids].
  - destruct st as [a|].
    + destruct (Nat.eq_dec a i) as [->|N]; [left; constructor|right]. inversion 1; subst; [congruence|contradiction].
    + right. inversion 1; subst. contradiction.
  - assert (D : (exists k, In k (k0 :: kids) /\ occurs i k) \/ (forall k, In k (k0 :: kids) -> ~ occurs i k)).
    { clear - IH. induction IH as [|k l [H|H] _ IHl]; [right; intros k []|left; exists k; split; [now left|auto]|].
      destruct IHl as [(k' & A & B)|N]; [left; exists k'; split; [now right|auto]|].
      right. intros k' [<-|K]; auto. }
    destruct D as [(k & A & B)|N]; [left; econstructor; eauto|right]. inversion 1; subst. eapply N; eauto.
Qed.
Lemma occurs_level off' i t : occurs i t -> exists n, level off' i t n.
Proof using.
  clear. induction t as [tag r st kids IH] using ptree_rect'. intros H. inversion H as [|? ? ? ? k K OK]; subst.
  - exists 0%Z. constructor.
  - assert (L : exists j k', nth_error kids j = Some k' /\ occurs i k' /\ forall k'', In k'' (skipn (S j) kids) -> ~ occurs i k'').
    { clear - K OK. induction kids as [|a l IHl]; [destruct K|].
      assert (D : (exists k, In k l /\ occurs i k) \/ (forall k, In k l -> ~ occurs i k)).
      { clear. induction l as [|k l IHl]; [right; intros k []|]. destruct (occurs_dec i k) as [H|H]; [left; exists k; split; [now left|auto]|].
        destruct IHl as [(k' & A & B)|N]; [left; exists k'; split; [now right|auto]|]. right. intros k' [<-|K]; auto. }
      destruct D as [(k1 & A & B)|N].
      - clear IHl K. assert (I : exists j k', nth_error l j = Some k' /\ occurs i k' /\ forall k'', In k'' (skipn (S j) l) -> ~ occurs i k'').
        { revert k1 A B. clear. induction l as [|a l IHl]; intros k1 A B; [destruct A|].
          assert (D : (exists k, In k l /\ occurs i k) \/ (forall k, In k l -> ~ occurs i k)).
          { clear. induction l as [|k l IHl]; [right; intros k []|]. destruct (occurs_dec i k) as [H|H]; [left; exists k; split; [now left|auto]|].
            destruct IHl as [(k' & A & B)|N]; [left; exists k'; split; [now right|auto]|]. right. intros k' [<-|K]; auto. }
          destruct D as [(k & A' & B')|N].
          - destruct (IHl k A' B') as (j & k' & X1 & X2 & X3). exists (S j), k'. auto.
          - destruct A as [->|A]; [|exfalso; eapply N; eauto]. exists 0, k1. auto. }
        destruct I as (j & k' & X1 & X2 & X3). exists (S j), k'. auto.
      - destruct K as [->|K]; [|exfalso; eapply N; eauto]. exists 0, k. auto. }
    destruct L as (j & k' & E & O & N). rewrite Forall_forall in IH. destruct (IH k') as (n & Hn); eauto using nth_error_In.
    destruct (outer_b tag j (length kids)) eqn:OB.
    + exists n. apply outer_iff in OB. eapply level_outer; eauto.
    + exists (off' tag + n)%Z. apply level_inner with j k'; auto. rewrite <- outer_iff. congruence.
Qed.

(** ** All calls *)
Definition owns (i j : nat) : Prop := exists q, nth_error sts i = Some q /\ line_of_stmt q j.
Lemma owns_dec i j : owns i j \/ ~ owns i j.
Proof using.
  clear. unfold owns, line_of_stmt. destruct (nth_error sts i) as [q|]; [|right; intros (q & E & _); discriminate].
  destruct (Z_lt_ge_dec (s_compound q) 2) as [C|C]; [|right; intros (q' & E & X & _); injection E as <-; lia].
  destruct (in_dec Nat.eq_dec j (s_prefix q)) as [I|I]; [left; eauto|].
  destruct (s_line q) as [k|] eqn:E.
  - destruct (Nat.eq_dec k j) as [->|N]; [left; eauto|]. right. intros (q' & X & _ & [Y|Y]); injection X as <-; [congruence|auto].
  - right. intros (q' & X & _ & [Y|Y]); injection X as <-; [congruence|auto].
Qed.
Lemma call_effect ls p ls' c : file_ok ls -> (0 <= off)%Z -> call ls p = Ok (ls', c) -> effect (owns (fst p)) (snd p) off ls ls' c.
Proof using.
  intros FO OF H. unfold call in H. destruct (nth_error sts (fst p)) as [q|] eqn:E; [|discriminate].
  assert (X : effect (line_of_stmt q) (snd p) off ls ls' c).
  { destruct (Z.ltb_spec (s_compound q) 2) as [C|C]; [now apply stmt_effect|].
    injection H as <- <-. unfold effect. conjs; auto. intros j (X & _). lia. }
  destruct X as (E1 & E2 & E3 & E4 & E5 & E6). unfold effect, owns. conjs; auto.
  - intros j (q' & X & Y). apply E5. congruence.
  - intros j N. apply E6. intros Y. apply N. eauto.
Qed.
Lemma run_effect l : forall ls ls' c, file_ok ls -> (0 <= off)%Z -> run l ls = Ok (ls', c) ->
  length ls' = length ls /\ file_ok ls' /\ (c = false -> ls' = ls) /\
  (forall j, (forall i, In i (map fst l) -> ~ owns i j) -> nth_error ls' j = nth_error ls j) /\
  (forall j a, nth_error ls j = Some a -> exists b, nth_error ls' j = Some b /\ (b = a \/ exists sp, line_moved a b sp off)).
Proof using.
  induction l as [|p l IH]; intros ls ls' c FO OF H; cbn [run] in H.
  - injection H as <- <-. conjs; auto. intros j a E. exists a. auto.
  - apply bind_Ok in H as ([ls1 c1] & H1 & H). apply bind_Ok in H as ([ls2 c2] & H2 & H). injection H as <- <-.
    apply call_effect in H1; auto. destruct H1 as (A1 & A2 & A3 & A4 & A5 & A6).
    apply IH in H2 as (B1 & B2 & B3 & B4 & B5); auto. conjs; auto; try congruence.
    + intros X. apply orb_false_iff in X as [-> ->]. rewrite B3, A4; auto.
    + intros j N. rewrite B4, A6; auto.
      * apply N. now left.
      * intros i I. apply N. now right.
    + intros j a E. destruct (owns_dec (fst p) j) as [O|O].
      * destruct (A5 j O) as (a' & b' & E1 & E2 & M). rewrite E in E1. injection E1 as <-.
        destruct (B5 j b' E2) as (b & E3 & HB). exists b. split; auto. right. destruct HB as [->|(sp & M')]; eauto.
        exists sp. eapply line_moved_after; eauto.
      * rewrite <- (A6 j O) in E. apply B5; auto.
Qed.
Lemma run_level l1 i n l2 j : forall ls ls' c, file_ok ls -> (0 <= off)%Z -> run (l1 ++ (i, n) :: l2) ls = Ok (ls', c) ->
  owns i j -> (forall i', In i' (map fst l2) -> ~ owns i' j) ->
  exists a b, nth_error ls j = Some a /\ nth_error ls' j = Some b /\ line_moved a b n off.
Proof using.
  intros ls ls' c FO OF H O N. rewrite run_app in H. apply bind_Ok in H as ([ls1 c1] & H1 & H).
  apply bind_Ok in H as ([ls2 c2] & H2 & H). injection H as <- <-. cbn [run] in H2.
  apply bind_Ok in H2 as ([ls3 c3] & H2 & H3). apply bind_Ok in H3 as ([ls4 c4] & H3 & H4). injection H4 as <- <-.
  apply run_effect in H1 as (A1 & A2 & A3 & A4 & A5); auto.
  apply call_effect in H2 as (B1 & B2 & B3 & B4 & B5 & B6); auto. cbn [fst snd] in *.
  apply run_effect in H3 as (C1 & C2 & C3 & C4 & C5); auto.
  destruct (B5 j O) as (b1 & b & E1 & E2 & M). rewrite <- (C4 j N) in E2.
  destruct (nth_error ls j) as [a|] eqn:E.
  - exists a, b. conjs; auto. destruct (A5 j a E) as (b0 & E0 & [->|(sp & M')]); rewrite E0 in E1; injection E1 as <-; auto.
    eapply line_moved_after; eauto.
  - exfalso. apply nth_error_None in E. assert (j < length ls1) by (apply nth_error_Some; congruence). lia.
Qed.
End Calls.
