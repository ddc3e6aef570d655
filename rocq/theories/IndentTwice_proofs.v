(** Proofs for C77: indenting again what was indented. *)
From Verif Require Import Base Base_lemmas Tags SyntaxTags FileLine FileLine_spec FileEdit_spec FileLine_proofs FileEdit_proofs LogicalFile Token Stmts LogicalLine LineEdit StmtSrc StmtSrc_spec
  StmtRules Peg LabelStack Prgm Prgm_spec Prgm_proofs PrgmSource Indent Indent_spec Indent_proofs IndentFile_proofs FormatMain FormatMain_proofs IndentTwice_spec.
Local Open Scope nat_scope.

(** ** one line *)
Definition still (f : File_Line) (sp : Z) : Prop := exists c, set_leading_spaces f sp = Ok (f, c).
Lemma comment_still f sp f' ch b r : is_comment f = true -> comment_at f b r -> (0 <= sp)%Z -> set_leading_spaces f sp = Ok (f', ch) -> still f' sp.
Proof.
  intros C (E & B & E1 & E2 & E3 & E4) SP H. destruct (sls_comment_spec f sp b r C SP E B E1 E2 E3 E4) as (g & c & p & r' & H' & ER & HP & N & Y & G).
  rewrite H in H'. injection H' as <- <-. destruct ch.
  - destruct (Y eq_refl) as (L & X). exists false. unfold set_leading_spaces. assert (C' : is_comment f' = true) by (rewrite X; exact C). rewrite C'.
    unfold sls_comment. rewrite L, find_bang_blank by apply spaces_blank. rewrite spaces_length, Z2Nat.id by auto. rewrite Z.eqb_refl. cbv zeta. rewrite <- L.
    f_equal. f_equal. clear - X. destruct f, f'. unfold with_text in *. cbn in *. injection X; intros; subst; reflexivity.
  - rewrite (N eq_refl) in *. exists false. exact H.
Qed.
Lemma sls_still f sp f' ch : free_line f -> (0 <= sp)%Z -> set_leading_spaces f sp = Ok (f', ch) -> still f' sp.
Proof.
  intros FL SP H. destruct FL as [(C & b & r & CA)|[(C & F)|(F & NF & LT)]].
  - eapply comment_still; eauto.
  - unfold set_leading_spaces in H. rewrite C, F in H. injection H as <- <-. exists false. unfold set_leading_spaces. now rewrite C, F.
  - destruct (sls_idem f sp f' ch F NF SP) as (c & H' & _); auto; [|exists c; exact H']. destruct LT as [LT|[LT|(LT & _)]]; auto.
Qed.
Lemma all_still l sp : forall l' ch, Forall free_line l -> (0 <= sp)%Z -> indent_all l sp = Ok (l', ch) -> exists c, indent_all l' sp = Ok (l', c).
Proof.
  induction l as [|f l IH]; intros l' ch FL SP H; cbn [indent_all] in H; [injection H as <- <-; exists false; reflexivity|].
  apply bind_Ok in H as ([f' c1] & H1 & H). apply bind_Ok in H as ([r' c2] & H2 & H). injection H as <- <-. apply Forall_cons_iff in FL as [F1 F2].
  destruct (sls_still _ _ _ _ F1 SP H1) as (c & E). destruct (IH _ _ F2 SP H2) as (d & E2). exists (c || d). cbn [indent_all]. rewrite E. cbn [bind]. rewrite E2. reflexivity.
Qed.
Definition settled (off sp : Z) (l : LLn) : Prop := exists c, ll_set_leading_spaces l sp off = Ok (l, c).
Lemma ll_settled l sp off l' ch : line_ok l -> (0 <= sp)%Z -> (0 <= off)%Z -> ll_set_leading_spaces l sp off = Ok (l', ch) -> settled off sp l'.
Proof.
  intros LO SP OF H. pose proof (ll_moved _ _ _ _ _ LO SP OF H) as (M & _ & _ & _). pose proof (holds_moved _ _ _ _ M) as HM. destruct LO as (NE & FL).
  unfold ll_set_leading_spaces in H. destruct (l_layout l) as [|f r] eqn:EL; [congruence|]. apply bind_Ok in H as ([f' c1] & H1 & H). apply bind_Ok in H as ([r' c2] & H2 & H). injection H as <- <-.
  apply Forall_cons_iff in FL as [F1 F2]. destruct (sls_still _ _ _ _ F1 SP H1) as (c & E).
  assert (HF : has_fortran (set_frags l (f' :: r') (l_frags l)) = has_fortran l).
  { destruct (has_fortran l) eqn:A; [now apply has_fortran_iff, HM, has_fortran_iff|]. destruct (has_fortran (set_frags l (f' :: r') (l_frags l))) eqn:B; auto. apply has_fortran_iff, HM, has_fortran_iff in B. congruence. }
  apply all_still in H2 as (d & E2); auto; [|destruct (has_fortran l); lia]. exists (c || d). unfold ll_set_leading_spaces. rewrite HF. cbn [l_layout set_frags]. rewrite E. cbn [bind]. rewrite E2. cbn [bind]. reflexivity.
Qed.
Lemma settled_layout off sp l l' : l_layout l' = l_layout l -> l_suppress l' = l_suppress l -> settled off sp l -> settled off sp l'.
Proof.
  intros E1 E2 (c & H). exists c. unfold ll_set_leading_spaces, has_fortran in *. rewrite E1, E2. destruct (l_layout l) as [|f r] eqn:EL; [discriminate|].
  apply bind_Ok in H as ([f' c1] & H1 & H). apply bind_Ok in H as ([r' c2] & H2 & H). rewrite H1. cbn [bind]. rewrite H2. cbn [bind]. injection H as H <-.
  assert (X : f' :: r' = f :: r) by (rewrite <- EL, <- H at 1; reflexivity). rewrite X. do 2 f_equal. destruct l'. cbn in *. subst. reflexivity.
Qed.

(** ** the calls *)
Definition still_at (off sp : Z) (ls : lines) (j : nat) : Prop := exists l, nth_error ls j = Some l /\ settled off sp l.
Lemma put_self ls j l : nth_error ls j = Some l -> put_line ls j l = ls.
Proof.
  unfold put_line. revert j; induction ls as [|x ls IH]; intros [|j] E; try discriminate; [injection E as ->; reflexivity|]. cbn in *. now rewrite IH.
Qed.
Lemma line_still ls j sp off : still_at off sp ls j -> exists c, line_indent ls j sp off = Ok (ls, c).
Proof. intros (l & E & c & H). exists c. unfold line_indent. rewrite E, H. cbn [bind]. now rewrite put_self. Qed.
Lemma lines_still sp off js : forall ls, (forall j, In j js -> still_at off sp ls j) -> exists c, lines_indent ls js sp off = Ok (ls, c).
Proof.
  induction js as [|j js IH]; intros ls H; cbn [lines_indent]; [exists false; reflexivity|]. destruct (line_still ls j sp off) as (c & E); [apply H; now left|]. rewrite E. cbn [bind].
  destruct (IH ls) as (d & E2); [intros k K; apply H; now right|]. rewrite E2. cbn [bind]. eauto.
Qed.
Lemma stmt_still ls q sp off : (0 <= sp)%Z -> s_line q <> None -> (forall j, line_of_stmt q j -> still_at off sp ls j) -> exists c, stmt_indent ls q sp off = Ok (ls, c).
Proof.
  intros SP NL H. unfold stmt_indent. assert ((0 <=? sp)%Z = true) as -> by now apply Z.leb_le. cbn [assert_ bind]. destruct (Z.ltb_spec (s_compound q) 2) as [C|C]; [|exists false; reflexivity].
  destruct (lines_still sp off (s_prefix q) ls) as (c & E); [intros j J; apply H; split; auto|]. rewrite E. cbn [bind]. destruct (s_line q) as [j|] eqn:EL; [|congruence].
  destruct (line_still ls j sp off) as (d & E2); [apply H; split; auto|]. rewrite E2. cbn [bind]. eauto.
Qed.
(** after a call, the lines of the statement are still *)
Lemma line_settles ls j sp off ls' c : file_ok ls -> (0 <= sp)%Z -> (0 <= off)%Z -> line_indent ls j sp off = Ok (ls', c) ->
  still_at off sp ls' j /\ forall k, still_at off sp ls k -> still_at off sp ls' k.
Proof.
  intros FO SP OF H. unfold line_indent in H. destruct (nth_error ls j) as [l|] eqn:E; [|discriminate]. apply bind_Ok in H as ([l' d] & H1 & H). injection H as <- <-.
  assert (J : j < length ls) by (apply nth_error_Some; congruence). assert (LO : line_ok l) by (eapply Forall_forall in FO; eauto using nth_error_In).
  assert (A : still_at off sp (put_line ls j l') j) by (exists l'; split; [now apply Indent_proofs.put_same|eapply ll_settled; eauto]). split; auto.
  intros k (x & EX & SX). destruct (Nat.eq_dec k j) as [->|N]; auto. exists x. split; auto. now rewrite put_other.
Qed.
Lemma lines_settle js sp off : forall ls ls' c, file_ok ls -> (0 <= sp)%Z -> (0 <= off)%Z -> lines_indent ls js sp off = Ok (ls', c) ->
  (forall j, In j js -> still_at off sp ls' j) /\ forall k, still_at off sp ls k -> still_at off sp ls' k.
Proof.
  induction js as [|j js IH]; intros ls ls' c FO SP OF H; cbn [lines_indent] in H; [injection H as <- <-; split; [intros j []|auto]|].
  apply bind_Ok in H as ([ls1 c1] & H1 & H). apply bind_Ok in H as ([ls2 c2] & H2 & H). injection H as <- <-.
  pose proof (line_effect _ _ _ _ _ _ FO SP OF H1) as (_ & FO1 & _). apply line_settles in H1 as (A & B); auto. apply IH in H2 as (C & D); auto. split; [intros k [<-|K]; auto|auto].
Qed.
Lemma stmt_settles ls q sp off ls' c : file_ok ls -> (0 <= off)%Z -> stmt_indent ls q sp off = Ok (ls', c) ->
  (0 <= sp)%Z /\ ((s_compound q < 2)%Z -> s_line q <> None) /\ (forall j, line_of_stmt q j -> still_at off sp ls' j) /\ forall k, still_at off sp ls k -> still_at off sp ls' k.
Proof.
  intros FO OF H. unfold stmt_indent in H. apply bind_Ok in H as ([] & H0 & H). unfold assert_ in H0. destruct (Z.leb_spec 0 sp) as [SP|]; [|discriminate]. split; auto.
  destruct (Z.ltb_spec (s_compound q) 2) as [C|C]; [|injection H as <- <-; split; [lia|split; [intros j (X & _); lia|auto]]].
  apply bind_Ok in H as ([ls1 c1] & H1 & H). destruct (s_line q) as [j|] eqn:EL; [|discriminate]. apply bind_Ok in H as ([ls2 c2] & H2 & H). injection H as <- <-. split; [discriminate|].
  pose proof (lines_effect _ _ _ _ _ _ FO SP OF H1) as (_ & FO1 & _). apply lines_settle in H1 as (A & A2); auto. apply line_settles in H2 as (B & D); auto. split; auto.
  intros k (_ & [K|K]); [rewrite EL in K; injection K as <-; auto|auto].
Qed.

Section Calls.
Variable it : Indent_Table.
Variable sts : list LL_Stmt.
Let off := it_cont it.
(** what a second call needs *)
Definition calm (ls : lines) (p : nat * Z) : Prop := exists q, nth_error sts (fst p) = Some q /\
  ((s_compound q < 2)%Z -> (0 <= snd p)%Z /\ s_line q <> None /\ forall j, line_of_stmt q j -> still_at off (snd p) ls j).
Lemma call_calm ls p : calm ls p -> exists c, call it sts ls p = Ok (ls, c).
Proof using.
  intros (q & E & H). unfold call. rewrite E. destruct (Z.ltb_spec (s_compound q) 2) as [C|C]; [|exists false; reflexivity]. destruct (H C) as (A & B & D). now apply stmt_still.
Qed.
Lemma run_calm l : forall ls, Forall (calm ls) l -> exists c, run it sts l ls = Ok (ls, c).
Proof using.
  induction l as [|p l IH]; intros ls H; cbn [run]; [exists false; reflexivity|]. apply Forall_cons_iff in H as [H1 H2]. destruct (call_calm _ _ H1) as (c & ->). cbn [bind].
  destruct (IH _ H2) as (d & ->). cbn [bind]. eauto.
Qed.
Lemma call_calms ls p ls' c : file_ok ls -> (0 <= off)%Z -> call it sts ls p = Ok (ls', c) -> calm ls' p.
Proof using.
  intros FO OF H. unfold call in H. destruct (nth_error sts (fst p)) as [q|] eqn:E; [|discriminate]. exists q. split; auto. intros C. assert ((s_compound q <? 2)%Z = true) as X by now apply Z.ltb_lt.
  rewrite X in H. apply stmt_settles in H as (A & B & D & _); auto.
Qed.
Lemma call_keeps ls p ls' c j : file_ok ls -> (0 <= off)%Z -> call it sts ls p = Ok (ls', c) -> forall a, (owns sts (fst p) j -> snd p = a) -> still_at off a ls j -> still_at off a ls' j.
Proof using.
  intros FO OF H a O S. pose proof (call_effect _ _ _ _ _ _ FO OF H) as (_ & _ & _ & _ & _ & R). destruct (owns_dec sts (fst p) j) as [Y|N].
  - rewrite <- (O Y) in *. unfold call in H. destruct (nth_error sts (fst p)) as [q|] eqn:E; [|discriminate]. destruct (s_compound q <? 2)%Z; [|injection H as <- <-; auto].
    apply stmt_settles in H as (_ & _ & _ & D); auto.
  - destruct S as (x & E & S). exists x. split; auto. now rewrite R.
Qed.
Lemma run_keeps l j a : forall ls ls' c, file_ok ls -> (0 <= off)%Z -> run it sts l ls = Ok (ls', c) -> (forall p, In p l -> owns sts (fst p) j -> snd p = a) -> still_at off a ls j -> still_at off a ls' j.
Proof using.
  induction l as [|p l IH]; intros ls ls' c FO OF H O S; cbn [run] in H; [injection H as <- <-; auto|].
  apply bind_Ok in H as ([ls1 c1] & H1 & H). apply bind_Ok in H as ([ls2 c2] & H2 & H). injection H as <- <-. pose proof (call_effect _ _ _ _ _ _ FO OF H1) as (_ & FO1 & _).
  apply (IH _ _ _ FO1 OF H2); [intros q Q; apply O; now right|]. apply (call_keeps _ _ _ _ _ FO OF H1); auto. intros Y. apply O; auto. now left.
Qed.
Lemma run_calms l : (forall i i' j, owns sts i j -> owns sts i' j -> i = i') -> (forall i a b, In (i, a) l -> In (i, b) l -> a = b) ->
  forall ls ls' c, file_ok ls -> (0 <= off)%Z -> run it sts l ls = Ok (ls', c) -> Forall (calm ls') l.
Proof using.
  intros OU. induction l as [|p l IH]; intros ND ls ls' c FO OF H; cbn [run] in H; constructor;
    apply bind_Ok in H as ([ls1 c1] & H1 & H); apply bind_Ok in H as ([ls2 c2] & H2 & H); injection H as <- <-; pose proof (call_effect _ _ _ _ _ _ FO OF H1) as (_ & FO1 & _).
  - apply call_calms in H1; auto. destruct H1 as (q & E & H1). exists q. split; auto. intros C. destruct (H1 C) as (A & B & D). split; auto. split; auto. intros j J.
    eapply run_keeps; [exact FO1|exact OF|exact H2| |now apply D]. intros [i' b] I O. cbn [fst snd] in *. assert (i' = fst p) as -> by (eapply OU; eauto; exists q; auto). apply (ND (fst p)); [now right|]. left. now destruct p.
  - eapply IH; eauto. intros i a b X Y. apply (ND i); now right.
Qed.
Lemma calm_layout ls ls' p : Forall2 (fun l l' => l_layout l' = l_layout l /\ l_suppress l' = l_suppress l) ls ls' -> calm ls p -> calm ls' p.
Proof using.
  intros F (q & E & H). exists q. split; auto. intros C. destruct (H C) as (A & B & D). split; auto. split; auto. intros j J. destruct (D j J) as (l & E1 & S1). clear - F E1 S1.
  revert j E1. induction F as [|x y a b (X & Y) F IH]; intros [|j] E1; try discriminate.
  - injection E1 as ->. exists y. split; auto. eapply settled_layout; eauto.
  - destruct (IH j E1) as (z & Z1 & Z2). exists z. auto.
Qed.
Lemma recurse_fine t : forall sp ls x, indent_recurse it sts t sp ls = Ok x -> tree_fine t.
Proof using.
  induction t as [tag r st kids IH] using ptree_rect'. intros sp ls x H. destruct kids as [|k0 kids]; [constructor|]. rewrite indent_node in H.
  apply bind_Ok in H as ([] & H0 & H). apply bind_Ok in H as (d & D & H). unfold it_get in D. apply bind_Ok in D as ([] & D & _).
  constructor.
  - unfold assert_ in D. destruct (pg_index tag); [reflexivity|discriminate].
  - intros BE. rewrite BE in H0. cbn [negb orb] in H0. unfold assert_ in H0. destruct (Nat.leb_spec 2 (length (k0 :: kids))); [assumption|discriminate].
  - clear H0 D. set (n := length (k0 :: kids)) in *. clearbody n. revert IH H. generalize (k0 :: kids) as l. generalize 0 as j. clear.
    intros j l IH. revert j ls x. induction IH as [|k l Hk _ IHl]; intros j ls x H; constructor; cbn [rgo] in H; apply bind_Ok in H as ([ls1 c] & H1 & H); apply bind_Ok in H as ([ls2 c'] & H2 & H); eauto.
Qed.
End Calls.
Lemma calls_leaves it t : tiled t -> forall sp sh, map fst (calls it t sp) = map fst (g_leaves sh t).
Proof.
  induction t as [tag r st kids IH] using ptree_rect'. intros T sp sh. inversion T as [g i|g ks F _]; subst; [reflexivity|]. destruct kids as [|k0 kids]; [reflexivity|].
  change (calls it (PT tag (span (leaves_of (PT tag None None (k0 :: kids)))) None (k0 :: kids)) sp) with (calls_kids it (calls it) tag (length (k0 :: kids)) sp 0 (k0 :: kids)).
  cbn [g_leaves]. generalize (length (k0 :: kids)) as n. intros n. clear T. revert IH F. generalize (k0 :: kids) as l. generalize 0 as j.
  intros j l IH. revert j. induction IH as [|k l Hk _ IHl]; intros j F; [reflexivity|]. apply Forall_cons_iff in F as [F1 F2]. cbn [calls_kids flat_map]. rewrite !map_app. f_equal; auto.
Qed.
Lemma calls_hang it i t : forall sp a, In (i, a) (calls it t sp) -> hangs (it_off it) i t (a - sp).
Proof.
  induction t as [tag r st kids IH] using ptree_rect'. intros sp a H. destruct kids as [|k0 kids].
  - cbn [calls] in H. destruct st as [k|]; [|destruct H]. destruct H as [H|[]]. injection H as -> ->. rewrite Z.sub_diag. constructor.
  - change (calls it (PT tag r st (k0 :: kids)) sp) with (calls_kids it (calls it) tag (length (k0 :: kids)) sp 0 (k0 :: kids)) in H.
    assert (X : exists j k, nth_error (k0 :: kids) j = Some k /\ In (i, a) (calls it k (if outer_b tag j (length (k0 :: kids)) then sp else (sp + it_off it tag)%Z))).
    { revert H. generalize (length (k0 :: kids)) as n. clear. generalize (k0 :: kids) as l. intros l n.
      assert (G : forall b, In (i, a) (calls_kids it (calls it) tag n sp b l) -> exists j k, nth_error l j = Some k /\ In (i, a) (calls it k (if outer_b tag (b + j) n then sp else (sp + it_off it tag)%Z))).
      { induction l as [|k l IHl]; intros b H; cbn [calls_kids] in H; [destruct H|]. apply in_app_iff in H as [H|H].
        - exists 0, k. rewrite Nat.add_0_r. auto.
        - apply IHl in H as (j & k' & E & I). exists (S j), k'. split; auto. now rewrite Nat.add_succ_r. }
      intros H. exact (G 0 H). }
    destruct X as (j & k & E & I). rewrite Forall_forall in IH. apply IH in I; [|eauto using nth_error_In]. destruct (outer_b tag j (length (k0 :: kids))) eqn:OB.
    + apply outer_iff in OB. eapply hangs_outer; eauto.
    + replace (a - sp)%Z with (it_off it tag + (a - (sp + it_off it tag)))%Z by lia. eapply hangs_inner; eauto. rewrite <- outer_iff. congruence.
Qed.
Lemma hang_calls it i t n : hangs (it_off it) i t n -> forall sp, In (i, (sp + n)%Z) (calls it t sp).
Proof.
  induction 1 as [g r|g r s kids j k n O E H IH|g r s kids j k n O E H IH]; intros sp; [left; now rewrite Z.add_0_r| |].
  all: destruct kids as [|k0 kids]; [destruct j; discriminate|]; change (calls it (PT g r s (k0 :: kids)) sp) with (calls_kids it (calls it) g (length (k0 :: kids)) sp 0 (k0 :: kids)).
  all: assert (G : forall n l b j, nth_error l j = Some k -> forall x, In x (calls it k (if outer_b g (b + j) n then sp else (sp + it_off it g)%Z)) -> In x (calls_kids it (calls it) g n sp b l)).
  1,3: intros n0 l; induction l as [|k1 l IHl]; intros b j0 E0; [destruct j0; discriminate|]; intros x X; cbn [calls_kids]; apply in_app_iff; destruct j0 as [|j0];
      [injection E0 as ->; left; now rewrite Nat.add_0_r in X|right; apply (IHl (S b) j0 E0); now rewrite Nat.add_succ_r in X].
  - apply (G (length (k0 :: kids)) _ 0 _ E). apply outer_iff in O. cbn [Nat.add]. rewrite O. apply IH.
  - apply (G (length (k0 :: kids)) _ 0 _ E). cbn [Nat.add]. destruct (outer_b g j (length (k0 :: kids))) eqn:OB; [apply outer_iff in OB; contradiction|]. rewrite Z.add_assoc. apply IH.
Qed.
Lemma once_level it t : tiled t -> NoDup (map fst (leaves_of t)) -> one_level (it_off it) t.
Proof.
  intros T N i a b A B. apply (hang_calls it i t) with (sp := 0%Z) in A, B. unfold leaves_of in N. rewrite <- (calls_leaves it t T 0%Z) in N. clear - N A B.
  rewrite Z.add_0_l in *. induction (calls it t 0) as [|[k c] l IH]; [destruct A|]. cbn [map fst] in N. apply NoDup_cons_iff in N as [N1 N2].
  destruct A as [A|A], B as [B|B]; [congruence| | |auto]; exfalso; apply N1.
  - injection A as -> ->. apply (in_map fst) in B. exact B.
  - injection B as -> ->. apply (in_map fst) in A. exact A.
Qed.

(** ** files *)
Theorem indent_again exts m n it ls ls1 c ls2 : lines_sane ls -> file_ok ls -> (0 <= it_cont it)%Z -> file_indent exts m n it ls = Done (ls1, c) ->
  (forall sts t, prefetch exts m n ls = Done (sts, Some t) -> one_level (it_off it) t) ->
  prefetch exts m n ls2 = prefetch exts m n ls -> Forall2 (fun l l' => l_layout l' = l_layout l /\ l_suppress l' = l_suppress l) ls1 ls2 ->
  exists c', file_indent exts m n it ls2 = Done (ls2, c').
Proof.
  intros LS FO OF H OL P F. rewrite indent_file_eq in *. rewrite P. ob H. destruct a as [sts [t|]]; [|cbn in *; exists false; reflexivity]. specialize (OL _ _ eq_refl).
  assert (ST : sts = stmts_of_file ls).
  { unfold prefetch in E. rewrite (make_stmts_ok ls) in E; [|exact LS|rewrite stmts_num; lia]. cbn [lift obind] in E. destruct (is_empty (stmts_of_file ls)); [discriminate|]. ob E. destruct a as [[b t0] s0]. destruct t0; [|discriminate]. congruence. }
  subst sts. unfold indent_file in *. cbn [fst snd obind] in *. destruct (indent_recurse it (stmts_of_file ls) t 0 ls) as [[x d]| |] eqn:I; cbn [lift] in H; try discriminate. injection H as <- <-.
  pose proof (recurse_fine _ _ _ _ _ _ I) as TF. apply indent_calls in I.
  assert (CA : Forall (calm it (stmts_of_file ls) x) (calls it t 0)).
  { eapply run_calms; eauto; [apply own_unique|]. intros i a b A B. apply calls_hang in A, B. rewrite Z.sub_0_r in *. eapply OL; eauto. }
  destruct (run_calm it (stmts_of_file ls) (calls it t 0) ls2) as (c' & R).
  { eapply Forall_impl; [|exact CA]. intros p. now apply calm_layout. }
  apply calls_indent in R; auto. rewrite R. cbn [lift]. eauto.
Qed.
