(** Reading a line again that got another end behind its text. *)
From Coq Require Import Lia.
From Verif Require Import Base Base_lemmas FileLine FileLine_spec FileLine_proofs ConvertRead_proofs IndentRead_proofs Props_FileLine.
Local Open Scope nat_scope.

Lemma st_iff s : Forall (fun c => c = c_sp \/ c = c_tab) s <-> Forall st s.
Proof. split; apply Forall_impl; intros c; unfold st; [intros [-> | ->]; reflexivity|apply st_char]. Qed.

Lemma pre_eq {A} (P x b y : list A) : P ++ x = b ++ y -> length b <= length P -> firstn (length b) P = b.
Proof.
  intros E G. apply (f_equal (firstn (length b))) in E. rewrite firstn_app_len, firstn_app in E. replace (length b - length P) with 0 in E by lia.
  cbn [firstn] in E. now rewrite app_nil_r in E.
Qed.

(** the kind of the line *)
Lemma code_keep P x y c t : code_line (P ++ x) -> ~ all_blank P -> Forall st y -> c = c_bang \/ c = c_amp -> code_line (P ++ y ++ c :: t).
Proof.
  intros (N1 & N2 & N3 & N4) NB Y C. repeat split.
  - intros H. apply Forall_app in H as (H & _). exact (NB H).
  - intros (b & r & B & E). destruct (Nat.lt_ge_cases (length b) (length P)) as [LT|GE].
    + apply N2. exists b, (skipn (S (length b)) P ++ x). split; [exact B|]. assert (NP : nth_error P (length b) = Some c_bang) by (rewrite <- (nth_error_app1 P (y ++ c :: t) LT), E; apply nth_error_app_mid).
      assert (FP : firstn (length b) P = b) by (eapply pre_eq; [exact E|lia]).
      rewrite <- (firstn_skipn (length b) P) at 1. rewrite FP, (skipn_cons_nth _ _ _ NP), <- app_assoc. reflexivity.
    + apply NB. assert (FB : firstn (length P) b = P) by (eapply pre_eq; [symmetry; exact E|lia]).
      rewrite <- FB. unfold all_blank in *. rewrite <- (firstn_skipn (length P) b) in B. apply Forall_app in B as (B & _). exact B.
  - intros (r & E). destruct P as [|p P]; [apply NB; constructor|]. injection E as -> _. apply N3. exists (P ++ x). reflexivity.
  - intros (b & kw & sp & q & r & E & B & K & S & Q). set (w := b ++ kw ++ sp).
    assert (EW : P ++ y ++ c :: t = w ++ q :: r) by (unfold w; rewrite E, <- !app_assoc; reflexivity).
    assert (NW : forall d, In d w -> d <> c_bang /\ d <> c_amp).
    { intros d I. unfold w in I. apply in_app_or in I as [I|I]; [unfold all_blank in B; rewrite Forall_forall in B; apply B, str_char in I; destruct I as [-> | [-> | ->]]; split; discriminate|].
      apply in_app_or in I as [I|I]; [now apply (kw_char kw)|]. rewrite Forall_forall in S. apply S in I. subst d. split; discriminate. }
    destruct (Nat.lt_ge_cases (length w) (length P)) as [LT|GE].
    + apply N4. assert (NP : nth_error P (length w) = Some q) by (rewrite <- (nth_error_app1 P (y ++ c :: t) LT), EW; apply nth_error_app_mid).
      assert (FP : firstn (length w) P = w) by (eapply pre_eq; [exact EW|lia]).
      exists b, kw, sp, q, (skipn (Datatypes.S (length w)) P ++ x). split; [|auto]. rewrite <- (firstn_skipn (length w) P) at 1. rewrite FP, (skipn_cons_nth _ _ _ NP). unfold w. rewrite <- !app_assoc. reflexivity.
    + assert (NQ : nth_error (P ++ y ++ c :: t) (length w) = Some q) by (rewrite EW; apply nth_error_app_mid). rewrite nth_error_app2 in NQ by exact GE.
      destruct (Nat.lt_ge_cases (length w - length P) (length y)) as [LY|GY].
      * rewrite nth_error_app1 in NQ by exact LY. apply nth_error_In in NQ. rewrite Forall_forall in Y. apply Y, st_char in NQ. destruct Q as [-> | ->], NQ; discriminate.
      * rewrite nth_error_app2 in NQ by exact GY. destruct (length w - length P - length y) as [|n] eqn:EN.
        -- injection NQ as ->. destruct Q as [-> | ->], C; discriminate.
        -- assert (IC : nth_error w (length (P ++ y)) = Some c).
           { assert (LW : length (P ++ y) < length w) by (rewrite app_length; lia). rewrite <- (nth_error_app1 w (q :: r) LW), <- EW, app_assoc. apply nth_error_app_mid. }
           apply nth_error_In, NW in IC. destruct IC, C; congruence.
Qed.

Lemma left_text plc raw lt ls body : left_part plc raw lt ls body -> raw = lt ++ ls ++ body.
Proof. intros H; destruct H; rewrite <- ?app_assoc; reflexivity. Qed.
Lemma left_keep plc raw lt ls m x y : left_part plc raw lt ls (m ++ x) -> m <> [] -> left_part plc (lt ++ ls ++ m ++ y) lt ls (m ++ y).
Proof.
  intros H N. destruct m as [|c m]; [congruence|]. clear N. remember ((c :: m) ++ x) as body eqn:E.
  assert (SW : forall p a b, starts_with p ((c :: a) ++ b) <-> p c = true).
  { intros p a b. split; [intros (d & r & [= <- _] & D); exact D|intros D; now exists c, (a ++ b)]. }
  destruct H as [b body B NE S1 S2 S3|b body B|b d w body CF B D LD W S1 S2]; subst body.
  - rewrite SW in *. apply (LP_plain plc b ((c :: m) ++ y) B); rewrite ?SW; auto. discriminate. 
  - rewrite <- app_assoc. apply (LP_amp plc b ((c :: m) ++ y) B).
  - rewrite SW in S2. rewrite <- app_assoc. apply (LP_label plc b d w ((c :: m) ++ y)); auto; [|rewrite SW; exact S2].
    intros L. specialize (S1 L). destruct w as [|e w]; [intros (g & r & [= <- _] & G); apply S1; exists c, (m ++ x); split; [reflexivity|exact G]|].
    intros (g & r & [= <- _] & G). apply S1. exists e, (w ++ (c :: m) ++ x). split; [reflexivity|exact G].
Qed.
Lemma left_not_blank plc raw lt ls m x : left_part plc raw lt ls (m ++ x) -> m <> [] -> ~ all_blank (lt ++ ls ++ m).
Proof.
  intros H N AB. destruct m as [|c m]; [congruence|]. unfold all_blank in AB. rewrite !Forall_app in AB. destruct AB as (A1 & _ & A3). apply Forall_inv in A3. remember ((c :: m) ++ x) as body eqn:E.
  destruct H as [b body B NE S1 S2 S3|b body B|b d w body CF B D LD W S1 S2]; subst body.
  - apply S1. exists c, (m ++ x). auto.
  - rewrite Forall_app in A1. destruct A1 as (_ & A1). inversion A1; discriminate.
  - rewrite Forall_app in A1. destruct A1 as (_ & A1). destruct d as [|e d]; [cbn in LD; lia|]. apply Forall_inv in A1, D. apply digit_not_blank in D. congruence.
Qed.

(** two texts and the white space behind them *)
Lemma st_end m : forall m' r r', m ++ r = m' ++ r' -> Forall st r -> Forall st r' -> (forall p c, m = p ++ [c] -> ~ st c) -> (forall p c, m' = p ++ [c] -> ~ st c) -> m = m' /\ r = r'.
Proof.
  assert (X : forall m m' r r', m ++ r = m' ++ r' -> Forall st r -> (forall p c, m' = p ++ [c] -> ~ st c) -> length m' <= length m).
  { intros m0 m' r r' E R N. destruct (Nat.le_gt_cases (length m') (length m0)) as [|G]; [assumption|exfalso].
    destruct m' as [|a m'] using rev_ind; [cbn in G; lia|]. clear IHm'. apply (N m' a eq_refl). rewrite app_length in G. cbn in G.
    assert (NE : nth_error (m0 ++ r) (length m') = Some a) by (rewrite E, <- app_assoc; apply nth_error_app_mid). rewrite nth_error_app2 in NE by lia. apply nth_error_In in NE. rewrite Forall_forall in R. auto. }
  intros m' r r' E R R' N N'. assert (EL : length m = length m') by (apply Nat.le_antisymm; [eapply X; [symmetry|..]; eauto|eapply X; eauto]).
  split; [apply (f_equal (firstn (length m))) in E; rewrite firstn_app_len, EL, firstn_app_len in E; exact E|].
  apply (f_equal (skipn (length m))) in E. rewrite skipn_app_ge, Nat.sub_diag in E by lia. rewrite EL, skipn_app_ge, Nat.sub_diag in E by lia. exact E.
Qed.

Lemma not_st c : c <> c_sp /\ c <> c_tab -> ~ st c.
Proof. intros (A & B) H. apply st_char in H. tauto. Qed.

Lemma new_end ln raw pod plc f l rs t c q : analyze_free ln raw pod plc false = Ok (f, l) -> is_fortran f = true -> delim_ok pod = true -> main_txt f <> [] -> open_delim f = c_nul ->
  Forall st rs -> t = c :: q -> c = c_bang \/ c = c_amp -> ascii7 (left_txt f ++ left_space f ++ main_txt f ++ rs ++ t) ->
  exists g, analyze_free ln (left_txt f ++ left_space f ++ main_txt f ++ rs ++ t) pod plc false = Ok (g, false) /\
    linenum g = linenum f /\ left_txt g = left_txt f /\ left_space g = left_space f /\ main_txt g = main_txt f /\ right_space g = rs /\ right_txt g = t /\ open_delim g = c_nul /\
    is_fortran g = true /\ is_fixed_format g = false /\ is_continuation g = is_continuation f /\ has_label g = has_label f /\ (is_continued g = true <-> c = c_amp).
Proof.
  intros H F D N O RS T C A7. pose proof (proj1 (proj1 (C03_free_classes _ _ _ _ _ _ H)) F) as CL.
  destruct (C02_free_cut _ _ _ _ _ _ H CL) as (body & LP & EB & CUT). subst body.
  destruct (C03_free_shape _ _ _ _ _ _ H CL) as (_ & _ & SR & SM & _ & _ & _ & SL & SK). apply st_iff in SR.
  set (m := main_txt f) in *. set (raw' := left_txt f ++ left_space f ++ m ++ rs ++ t) in *.
  assert (LP' : left_part plc raw' (left_txt f) (left_space f) (m ++ rs ++ t)) by (eapply left_keep; eauto).
  assert (CL' : code_line raw').
  { unfold raw'. rewrite T. replace (left_txt f ++ left_space f ++ m ++ rs ++ c :: q) with ((left_txt f ++ left_space f ++ m) ++ rs ++ c :: q) by (rewrite <- !app_assoc; reflexivity).
    apply (code_keep _ (right_space f ++ right_txt f)); auto; [|eapply left_not_blank; eauto]. rewrite <- !app_assoc. rewrite <- (left_text _ _ _ _ _ LP). exact CL. }
  assert (CM : ctx_after pod m = c_nul).
  { assert (X : ctx_after pod (m ++ right_space f) = c_nul).
    { destruct CUT as [(E & _ & X & _)|(_ & _ & X)]; [rewrite E, app_nil_r in X; exact X|congruence]. }
    rewrite ctx_after_app, ctx_blanks in X; auto. now apply delim_ok_after. }
  assert (CX : ctx_after pod (m ++ rs) = c_nul) by (rewrite ctx_after_app, CM; apply ctx_blanks; auto).
  assert (NBM : forall j d, nth_error m j = Some d -> ctx_after pod (firstn j m) = c_nul -> d = c_bang \/ d = c_amp -> False).
  { intros j d X1 X2 X3. assert (LT : j < length m) by (apply nth_error_Some; congruence).
    assert (BR : breaks pod (m ++ right_space f ++ right_txt f) j).
    { exists d. rewrite nth_error_app1 by exact LT. split; [exact X1|]. left. rewrite firstn_app. replace (j - length m) with 0 by lia. cbn [firstn]. rewrite app_nil_r. auto. }
    destruct CUT as [(_ & X & _)|(_ & (_ & X) & _)]; [exact (X _ BR)|]. apply (X j); [rewrite app_length; lia|exact BR]. }
  assert (FB : first_break pod (m ++ rs ++ t) (length (m ++ rs))).
  { split.
    - exists c. rewrite app_assoc, T, nth_error_app_mid, firstn_app_len. split; [reflexivity|]. left. auto.
    - intros j LT (d & ND & B). rewrite app_length in LT. destruct (Nat.lt_ge_cases j (length m)) as [LM|GM].
      + rewrite nth_error_app1 in ND by exact LM. rewrite firstn_app in B. replace (j - length m) with 0 in B by lia. cbn [firstn] in B. rewrite app_nil_r in B.
        destruct B as [(B1 & B2)|(_ & _ & B)]; [exact (NBM _ _ ND B1 B2)|]. rewrite skipn_app, Forall_app in B. destruct B as (_ & B). replace (S j - length m) with 0 in B by lia. cbn [skipn] in B.
        rewrite Forall_app in B. destruct B as (_ & B). rewrite T in B. apply Forall_inv in B. destruct C as [-> | ->]; discriminate.
      + rewrite nth_error_app2, nth_error_app1 in ND by lia. apply nth_error_In in ND. rewrite Forall_forall in RS. apply RS, st_char in ND.
        destruct B as [(_ & [-> | ->])|(_ & -> & _)]; destruct ND; discriminate. }
  destruct (analyze_free ln raw' pod plc false) as [(g & l')| |] eqn:E.
  3:{ exfalso. exact (analyze_free_total _ _ _ _ _ A7 D E). }
  2:{ exfalso. apply analyze_free_throw_iff in E; auto. destruct E as (_ & _ & lt & ls & body & LP2 & NB & _).
      destruct (left_part_det _ _ _ _ _ _ _ _ LP' LP2) as (_ & _ & <-). exact (NB _ (proj1 FB)). }
  destruct (C02_free_cut _ _ _ _ _ _ E CL') as (body & LP2 & EB & CUT2). destruct (left_part_det _ _ _ _ _ _ _ _ LP' LP2) as (L1 & L2 & <-).
  destruct (C03_free_shape _ _ _ _ _ _ E CL') as (FG & _ & SRg & SMg & _ & _ & SCg & SLg & SKg). apply st_iff in SRg.
  destruct CUT2 as [(_ & X & _)|(_ & (X1 & X2) & XO)]; [exfalso; exact (X _ (proj1 FB))|]. destruct FB as (Y1 & Y2).
  assert (EL : length (m ++ rs) = length (main_txt g ++ right_space g)).
  { destruct (Nat.lt_trichotomy (length (m ++ rs)) (length (main_txt g ++ right_space g))) as [LT|[EQ|LT]]; [exfalso; exact (X2 _ LT Y1)|exact EQ|exfalso; exact (Y2 _ LT X1)]. }
  rewrite !(app_assoc _ _ t), !(app_assoc _ _ (right_txt g)) in EB.
  assert (E1 : m ++ rs = main_txt g ++ right_space g) by (apply (f_equal (firstn (length (m ++ rs)))) in EB; rewrite firstn_app_len, EL, firstn_app_len in EB; exact EB).
  assert (E2 : t = right_txt g) by (rewrite E1 in EB; exact (app_inv_head _ _ _ EB)).
  rewrite <- E1, CX in XO. assert (EM : m = main_txt g /\ rs = right_space g).
  { apply (st_end m (main_txt g) rs (right_space g) E1 RS SRg); intros p d X; apply not_st; [exact (SM O p d X)|exact (SMg XO p d X)]. }
  destruct EM as (EM & ER). destruct (analyze_free_lossless_lem _ _ _ _ _ _ _ H) as (LN & _). destruct (analyze_free_lossless_lem _ _ _ _ _ _ _ E) as (LNg & FX & _).
  exists g. assert (l' = false) as ->. { destruct l'; [|reflexivity]. destruct (C03_free_classes _ _ _ _ _ _ E) as (_ & _ & _ & _ & _ & _ & _ & _ & X). apply (proj1 X) in eq_refl as Y || pose proof (proj1 X eq_refl) as Y.
    exfalso. apply lit_dir, dir_bang in Y. exact (proj1 (proj2 CL') Y). }
  split; [reflexivity|]. split; [congruence|]. do 6 (split; [congruence|]). split; [exact FG|]. split; [exact FX|].
  assert (BE : forall x y : bool, (x = true <-> y = true) -> x = y) by (intros [] []; intuition congruence).
  split; [apply BE; rewrite SKg, SK, L1; reflexivity|]. split; [apply BE; rewrite SLg, SL, L1; reflexivity|]. rewrite SCg, <- E2, T. split; [intros (r & [= -> _]); reflexivity|intros ->; eauto].
Qed.
