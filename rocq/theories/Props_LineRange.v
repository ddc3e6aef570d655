(** C58: replacing a range of tokens that reaches over several lines. *)
From Verif Require Import Base Tags FileLine LogicalFile Token LogicalLine Stmts Stmts_spec Peg Lexer Lexer_spec Lexer_proofs LineAccum_spec
  LexPos_spec LexPos_proofs LineEdit LineEdit_spec LineEdit_proofs LineRange_proofs Base_lemmas Props_Lexer Props_LineEdit.
From Coq Require Import Lia.
Local Open Scope nat_scope.

Lemma range_replace_stmt st ll b e text sp x y a a' q' q p f mid g l2 : between_lines st ->
  laid (l_layout ll) (0, 0) (l_frags ll) sp -> b < e ->
  nth_error (l_frags ll) b = Some x -> nth_error sp b = Some (a, a') ->
  nth_error (l_frags ll) (e - 1) = Some y -> nth_error sp (e - 1) = Some (q', q) -> end_right y q ->
  l_layout ll = p ++ f :: mid ++ g :: l2 -> fst a = length p -> fst q = S (length p + length mid) ->
  is_fortran f = true -> is_fortran g = true -> Forall bare mid -> (find_first_not_of [c_sp] (skipn (snd q) (main_txt g)) = None -> bare g) ->
  forall lay lab, lay = p ++ range_result f mid g (snd a) (snd q) text ++ l2 -> init_label lay = Ok lab -> Forall plain (joined (lines_of lay)) -> not_first white (joined (lines_of lay)) ->
  exists ll' st', replace_stmt_substr st ll b e text = Done (ll', st') /\ l_layout ll' = lay /\ l_label ll' = lab /\ stmts_right ll' /\
    exists lx fss, scan_string st (joined (lines_of lay)) = Done (lx, st') /\ l_frags ll' = concat fss /\ Forall2 (fragments_of (lines_of lay)) lx fss.
Proof.
  intros Hst La Be Hx Hu Hy Hv Er EL PA PQ Ff Fg Bm Bg lay lab El Hl P NF.
  pose proof (laid_nth _ _ _ _ _ _ _ La Hx Hu) as (A1 & A2 & _ & _ & _ & A6 & _). cbn [fst snd] in *.
  pose proof (laid_nth _ _ _ _ _ _ _ La Hy Hv) as (_ & _ & B3 & _ & _ & _ & B7 & _). cbn [fst snd] in *.
  assert (Nf : nth_error (l_layout ll) (fst a) = Some f) by (rewrite EL, PA; apply nth_error_mid).
  assert (Ng : nth_error (l_layout ll) (fst q) = Some g).
  { rewrite EL, PQ. replace (p ++ f :: mid ++ g :: l2) with ((p ++ f :: mid) ++ g :: l2) by (rewrite <- app_assoc; reflexivity).
    replace (S (length p + length mid)) with (length (p ++ f :: mid)) by (rewrite app_length; cbn; lia). apply nth_error_mid. }
  assert (M : forall i h, nth_error (l_layout ll) i = Some h -> main_of (l_layout ll) i = main_txt h).
  { intros i h N. unfold main_of. erewrite nth_error_nth; [reflexivity|rewrite nth_error_map, N; reflexivity]. }
  destruct A6 as [_ A6]. destruct B7 as [_ B7]. rewrite (M _ _ Nf) in A6. rewrite (M _ _ Ng) in B7.
  destruct (range_replace p f mid g l2 (fst a) (snd a) (snd q) text) as (l3 & U1 & U2); auto.
  destruct (rederive st ll lay lab Hst Hl P NF) as (ll' & st' & E1 & E2 & E3 & E4 & E5). exists ll', st'.
  unfold replace_stmt_substr. rewrite Hx, Hy, A1, A2, B3, Er. cbn [rd bind]. rewrite EL, PQ, <- PA, U1. cbn [bind]. rewrite U2, <- El. cbn [lift obind]. auto.
Qed.

(** C58.  From a token of one line to a token of a later one with text behind it: the first line is kept up to the range and gets
    the new text, the last is kept from the end of the range on, the statement lines between are blank, comment lines stay.
    Everything is derived again from that.  The lines between have no comments behind their text (C58_lines_refuted). *)
Theorem C58_lines_partial : forall st ll b e text sp x y a a' q' q p f mid g l2, between_lines st ->
  laid (l_layout ll) (0, 0) (l_frags ll) sp -> b < e ->
  nth_error (l_frags ll) b = Some x -> nth_error sp b = Some (a, a') ->
  nth_error (l_frags ll) (e - 1) = Some y -> nth_error sp (e - 1) = Some (q', q) -> end_right y q ->
  l_layout ll = p ++ f :: mid ++ g :: l2 -> fst a = length p -> fst q = S (length p + length mid) ->
  is_fortran f = true -> is_fortran g = true -> Forall bare mid ->
  Exists (fun c => c <> " "%char) (skipn (snd q) (main_txt g)) ->
  forall lay lab,
  lay = p ++ with_main f (firstn (snd a) (main_txt f) ++ text) :: map taken_out mid ++ with_main g (skipn (snd q) (main_txt g)) :: l2 ->
  init_label lay = Ok lab -> Forall plain (joined (lines_of lay)) -> not_first white (joined (lines_of lay)) ->
  exists ll' st', replace_stmt_substr st ll b e text = Done (ll', st') /\ l_layout ll' = lay /\ l_label ll' = lab /\ stmts_right ll' /\
    exists lx fss, scan_string st (joined (lines_of lay)) = Done (lx, st') /\ l_frags ll' = concat fss /\ Forall2 (fragments_of (lines_of lay)) lx fss.
Proof.
  intros st ll b e text sp x y a a' q' q p f mid g l2 Hst La Be Hx Hu Hy Hv Er EL PA PQ Ff Fg Bm Ex lay lab El Hl P NF.
  destruct (not_blank _ Ex) as [k Hk]. eapply range_replace_stmt; eauto. { rewrite Hk. discriminate. }
  rewrite El. unfold range_result. rewrite Hk. cbn [app]. rewrite <- app_assoc. reflexivity.
Qed.
(** C58.  The same to the end of the last line of the statement: that line becomes blank too, and the first line is no longer continued;
    a comment behind it stays. *)
Theorem C58_to_end_partial : forall st ll b e text sp x y a a' q' q p f mid g l2, between_lines st ->
  laid (l_layout ll) (0, 0) (l_frags ll) sp -> b < e ->
  nth_error (l_frags ll) b = Some x -> nth_error sp b = Some (a, a') ->
  nth_error (l_frags ll) (e - 1) = Some y -> nth_error sp (e - 1) = Some (q', q) -> end_right y q ->
  l_layout ll = p ++ f :: mid ++ g :: l2 -> fst a = length p -> fst q = S (length p + length mid) ->
  is_fortran f = true -> is_fortran g = true -> Forall bare mid -> bare g ->
  Forall (fun c => c = " "%char) (skipn (snd q) (main_txt g)) ->
  exists f', linenum f' = linenum f /\ left_txt f' = left_txt f /\ left_space f' = left_space f /\ main_txt f' = firstn (snd a) (main_txt f) ++ text /\ is_continued f' = false /\
    (forall k, right_txt f = "&"%char :: spaces k -> right_txt f' = []) /\ (forall k r, right_txt f = "&"%char :: spaces k ++ "!"%char :: r -> right_txt f' = "!"%char :: r) /\
  forall lay lab, lay = p ++ f' :: map taken_out mid ++ make_blank g :: l2 ->
  init_label lay = Ok lab -> Forall plain (joined (lines_of lay)) -> not_first white (joined (lines_of lay)) ->
  exists ll' st', replace_stmt_substr st ll b e text = Done (ll', st') /\ l_layout ll' = lay /\ l_label ll' = lab /\ stmts_right ll' /\
    exists lx fss, scan_string st (joined (lines_of lay)) = Done (lx, st') /\ l_frags ll' = concat fss /\ Forall2 (fragments_of (lines_of lay)) lx fss.
Proof.
  intros st ll b e text sp x y a a' q' q p f mid g l2 Hst La Be Hx Hu Hy Hv Er EL PA PQ Ff Fg Bm Bg Bl.
  set (f0 := with_main f (firstn (snd a) (main_txt f) ++ text)).
  assert (NB : find_first_not_of [c_sp] (skipn (snd q) (main_txt g)) = None).
  { apply find_from_None. apply forallb_forall. intros c Hc. rewrite Forall_forall in Bl. apply Bl in Hc. now subst. }
  assert (SK : forall k (r : str), find_first_not_of [c_sp] (" "%char :: spaces k ++ "!"%char :: r) = Some (S k)).
  { intros k r. unfold find_first_not_of. cbn [find_from]. change (negb (mem " "%char [c_sp])) with false. cbn iota.
    assert (G : forall n, find_from (fun c => negb (mem c [c_sp])) (spaces k ++ "!"%char :: r) n = Some (n + k)).
    { induction k as [|k IHk]; intros n; cbn [spaces repeat app find_from]; [change (negb (mem "!"%char [c_sp])) with true; cbn iota; rewrite Nat.add_0_r; reflexivity|].
      change (negb (mem c_sp [c_sp])) with false. cbn iota. unfold spaces in IHk. rewrite IHk. f_equal. lia. }
    rewrite G. reflexivity. }
  exists (make_uncontinued f0). destruct (uncont_text f0) as (T1 & T2 & T3 & T4).
  split; [exact T4|]. split; [exact T2|]. split; [exact T3|]. split; [exact T1|]. split.
  { unfold make_uncontinued. destruct (right_txt f0) as [|c r]; [reflexivity|]. cbv zeta. match goal with |- context [find_first_not_of ?a ?b] => destruct (find_first_not_of a b) end; reflexivity. }
  split.
  { intros k R. unfold make_uncontinued. change (right_txt f0) with (right_txt f). rewrite R. cbv zeta. change (ceq "&"%char c_amp) with true. cbn iota.
    replace (find_first_not_of [c_sp] (c_sp :: spaces k)) with (@None nat); [reflexivity|]. symmetry. apply find_from_None. apply forallb_forall. intros c [<-|Hc]; [reflexivity|].
    apply repeat_spec in Hc. now subst. }
  split.
  { intros k r R. unfold make_uncontinued. change (right_txt f0) with (right_txt f). rewrite R. cbv zeta. change (ceq "&"%char c_amp) with true. cbn iota. change c_sp with " "%char at 2 3. rewrite SK.
    cbn [right_txt skipn]. rewrite skipn_app, (skipn_all2 (spaces k)) by (unfold spaces; rewrite repeat_length; lia). unfold spaces. rewrite repeat_length, Nat.sub_diag. reflexivity. }
  intros lay lab El Hl P NF. eapply range_replace_stmt; eauto. rewrite El. unfold range_result. rewrite NB. cbn [app]. rewrite <- app_assoc. reflexivity.
Qed.

(** Cases. *)
Definition rng_ll : LLn := match line_from [L "call f(ab, & ! u"; L "   & cc, &"; L "   & d, e)"] with Done ll => ll | _ => mkLLn 0 CAT_UNKNOWN false false 0 [] [] [] end.
Definition rng_sp : list (spot * spot) :=
  [((0, 0), (0, 4)); ((0, 5), (0, 6)); ((0, 6), (0, 7)); ((0, 7), (0, 9)); ((0, 9), (0, 10));
   ((1, 1), (1, 3)); ((1, 3), (1, 4)); ((2, 1), (2, 2)); ((2, 2), (2, 3)); ((2, 4), (2, 5)); ((2, 5), (2, 6))].
Example C58_case_laid : laid (l_layout rng_ll) (0, 0) (l_frags rng_ll) rng_sp /\ Forall bare (tl (l_layout rng_ll)).
Proof.
  split.
  2: { let x := eval vm_compute in (tl (l_layout rng_ll)) in replace (tl (l_layout rng_ll)) with x by (vm_compute; reflexivity).
       repeat apply Forall_cons; try apply Forall_nil; intros H; split.
       1, 3: intros X; vm_compute in X; intuition discriminate.
       all: intros C; first [discriminate C|eexists; vm_compute; reflexivity]. }
  vm_compute l_frags. vm_compute l_layout. cbn [laid rng_sp].
  repeat match goal with
  | |- _ /\ _ => split
  | |- True => exact I
  | |- before (?i, _) (?i, _) => apply before_le; lia
  | |- before _ _ => left; cbn; lia
  | |- stands _ _ _ _ => unfold stands
  | |- inside _ _ => unfold inside
  | |- _ -> _ => intro
  | |- _ <= _ => vm_compute; lia
  | |- _ < _ => vm_compute; lia
  | |- _ => first [reflexivity|discriminate|congruence]
  end.
Qed.
Example C58_case_lines : exists ll' st', replace_stmt_substr ls_init rng_ll 3 8 (L "new") = Done (ll', st') /\
  map print_line (l_layout ll') = [L "call f(new & ! u"; []; L "   &, e)"] /\ map tk_text (l_frags ll') = [L "call"; L "f"; L "("; L "new"; L ","; L "e"; L ")"].
Proof. eexists. eexists. split; [vm_compute; reflexivity|]. split; vm_compute; reflexivity. Qed.
Example C58_case_to_end : exists ll' st', replace_stmt_substr ls_init rng_ll 3 11 (L "new)") = Done (ll', st') /\
  map print_line (l_layout ll') = [L "call f(new)   ! u"; []; []] /\ map tk_text (l_frags ll') = [L "call"; L "f"; L "("; L "new"; L ")"].
Proof. eexists. eexists. split; [vm_compute; reflexivity|]. split; vm_compute; reflexivity. Qed.
Definition C58_all := (C58_lines_partial, C58_to_end_partial).
Print Assumptions C58_all.
