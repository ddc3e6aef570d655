(** Reading again what was indented: one line. *)
From Verif Require Import Base Base_lemmas Tags FileLine FileLine_spec FileLine_proofs FileEdit_spec FileEdit_proofs LogicalFile LogicalFile_spec LogicalFile_proofs
  Token LogicalLine LineEdit Convert Convert_spec Convert_proofs ConvertRead_proofs ConvertFile_proofs ReadFile ReadFile_proofs Indent Indent_spec Indent_proofs IndentRead_spec.
From Coq Require Import Lia.
Local Open Scope nat_scope.

Definition st (c : ascii) : Prop := mem c set_st = true.
Definition tidy_end (f : File_Line) : Prop := forall r, right_txt f = c_bang :: r -> right_space f <> [].

(** a line that begins with '&' *)
Definition amp_line (f : File_Line) : Prop := left_txt f <> [] /\ has_label f = false /\ is_continuation f = true.

(** ** What indenting may change on a line of code; [k]: the line continues another *)
Definition left_drift (f f' : File_Line) : Prop :=
  (left_txt f = [] /\ left_txt f' = [] /\ (all_blank (left_space f) -> all_blank (left_space f'))) \/
  (left_txt f <> [] /\ has_label f = true /\ left_txt f' = left_txt f /\ (left_space f' = left_space f \/ exists n, left_space f' = spaces (S n))) \/
  (left_txt f <> [] /\ has_label f = false /\ is_continuation f = true /\ left_space f' = left_space f /\
   exists n m core, left_txt f = spaces n ++ core /\ left_txt f' = spaces m ++ core /\ find_first_not_of [c_sp] core = Some 0).
Definition right_drift (f f' : File_Line) : Prop :=
  (tidy_end f -> is_empty (right_space f') = is_empty (right_space f)) /\
  (Forall st (right_space f) -> Forall st (right_space f')) /\
  (~ In c_bang (right_txt f) -> right_space f' = right_space f).
Definition code_drift (k : bool) (f f' : File_Line) : Prop :=
  left_drift f f' /\ right_drift f f' /\
  (k = true -> amp_line f \/ left_space f <> [] -> is_empty (left_space f') = is_empty (left_space f)).
Definition drift (k : bool) (f f' : File_Line) : Prop :=
  same_but_blanks f f' /\ (is_fortran f = true -> code_drift k f f').

Lemma spaces_st n : Forall st (spaces n).
Proof. unfold spaces. induction n; constructor; auto. reflexivity. Qed.
Lemma core_ne core : find_first_not_of [c_sp] core = Some 0 -> core <> [].
Proof. intros H ->. discriminate. Qed.

Lemma drift_refl k f : free_line f -> drift k f f.
Proof.
  intros FL. split.
  - destruct FL as [[C (b & r & CA)]|[[C F]|FC]].
    + assert (F : is_fortran f = false) by (destruct (is_fortran f) eqn:F; auto; apply fortran_not_comment in F; congruence).
      unfold same_but_blanks. rewrite F. conjs; auto; try discriminate. intros _. exists b, b, [], r. conjs; auto.
    + unfold same_but_blanks. rewrite C, F. conjs; auto; discriminate.
    + apply same_but_refl_code, FC.
  - intros F. assert (FC : free_code f).
    { destruct FL as [[C _]|[[_ X]|FC]]; auto; [apply fortran_not_comment in F|]; congruence. }
    unfold code_drift. conjs; auto.
    + destruct FC as (_ & _ & LT). destruct (is_empty (left_txt f)) eqn:E.
      * apply is_empty_eq in E. left. auto.
      * apply is_empty_false in E. right. destruct (has_label f) eqn:HL; [left; auto|right].
        destruct LT as [LT|[LT|(C & n & core & E1 & E2)]]; try congruence. conjs; auto. exists n, n, core. auto.
    + unfold right_drift. auto.
Qed.
Lemma drift_trans k f g h : drift k f g -> drift k g h -> drift k f h.
Proof.
  intros [A1 A2] [B1 B2]. split; [eapply same_but_trans; eauto|]. intros F. specialize (A2 F).
  pose proof A1 as (Bf & _ & _ & _ & FF & _). destruct (bits_same _ _ Bf) as (X1 & X2 & X3 & X4 & X5).
  rewrite X2 in B2. specialize (B2 F). destruct (FF F) as (_ & RT & _).
  destruct A2 as (A2 & (A3 & A4 & A5) & A6), B2 as (B2 & (B3 & B4 & B5) & B6). rewrite RT in *.
  unfold code_drift, right_drift. conjs; auto.
  - unfold left_drift in *. rewrite X4, X5 in B2.
    destruct A2 as [(E1 & E2 & E3)|[(E1 & E2 & E3 & E4)|(E1 & E2 & E3 & E4 & n & m & core & E5 & E6 & E7)]].
    + left. destruct B2 as [(G1 & G2 & G3)|[(G1 & _)|(G1 & _)]]; try congruence. auto.
    + right. left. destruct B2 as [(G1 & G2 & G3)|[(G1 & G2 & G3 & G4)|(G1 & G2 & _)]]; try congruence. conjs; auto; [congruence|].
      destruct G4 as [G4|G4]; auto. rewrite G4. auto.
    + right. right. assert (NN : left_txt g <> []). { rewrite E6. intros Y. apply app_eq_nil in Y as [_ Y]. now apply core_ne in E7. }
      destruct B2 as [(G1 & G2 & G3)|[(G1 & G2 & G3 & G4)|(G1 & G2 & G3 & G4 & n' & m' & core' & G5 & G6 & G7)]]; try congruence.
      conjs; auto; [congruence|]. exists n, m', core. conjs; auto. rewrite E6 in G5. rewrite (blanks_core _ _ _ _ G5 E7 G7). auto.
  - intros T. rewrite B3; auto. intros r E. specialize (A3 T). rewrite RT in E. apply T in E. intros Y. rewrite Y in A3. cbn in A3. destruct (right_space f); auto. discriminate.
  - intros N. rewrite B5, A5; auto.
  - intros K X. rewrite B6, A6; auto. destruct X as [X|X].
    { left. unfold amp_line in *. rewrite X4, X5. destruct X as (Y1 & Y2 & Y3). conjs; auto.
      destruct A2 as [(E1 & _)|[(_ & E2 & _)|(E1 & E2 & E3 & E4 & n & m & core & E5 & E6 & E7)]]; try congruence.
      rewrite E6. intros Y. apply app_eq_nil in Y as [_ Y]. now apply core_ne in E7. }
    right. specialize (A6 K (or_intror X)).
    intros Y. rewrite Y in A6. destruct (left_space f); auto. discriminate.
Qed.

Lemma sls_right_drift f rs off : sls_right (right_space f) (right_txt f) off = Ok rs ->
  (tidy_end f -> is_empty rs = is_empty (right_space f)) /\ (Forall st (right_space f) -> Forall st rs) /\
  (~ In c_bang (right_txt f) -> rs = right_space f).
Proof.
  unfold sls_right. intros H. assert (SAME : right_space f = rs -> (tidy_end f -> is_empty rs = is_empty (right_space f)) /\ (Forall st (right_space f) -> Forall st rs) /\
    (~ In c_bang (right_txt f) -> rs = right_space f)) by (intros <-; auto).
  destruct (is_empty (right_txt f)); [injection H as H; auto|]. destruct off as [off|]; [|discriminate].
  destruct (off =? 0)%Z; [injection H as H; auto|].
  destruct (find_char c_bang (right_txt f)) as [pos|] eqn:E; [|injection H as H; auto]. unfold find_char in E.
  apply find_from_Some in E as (pre & c & post & E1 & E2 & E3 & _). apply ceq_true in E3. subst c. cbn in E2. subst pos.
  assert (IN : ~ In c_bang (right_txt f) -> rs = right_space f).
  { intros N. exfalso. apply N. rewrite E1. apply in_or_app. right. left. reflexivity. }
  destruct (Z.ltb_spec off 0) as [LT|GE].
  - unfold insert_at in H. destruct (Nat.leb_spec (length pre) (length (right_space f))) as [LE|]; [|discriminate]. injection H as <-. conjs; auto.
    + intros T. destruct (right_space f) as [|x q] eqn:RS.
      * exfalso. destruct pre; [|cbn in LE; lia]. apply (T post); auto.
      * cbn [is_empty]. apply is_empty_false. intros X. apply app_eq_nil in X as [_ X]. apply app_eq_nil in X as [X _].
        destruct (Z.to_nat (- off)) eqn:ZN; [lia|discriminate].
    + intros W. rewrite <- (firstn_skipn (length pre) (right_space f)) in W. apply Forall_app in W as [W1 W2].
      apply Forall_app. split; auto. apply Forall_app. split; auto. apply spaces_st.
  - destruct (Z.eqb_spec (zlen (right_space f)) (Z.max (if is_empty (right_space f) then 0 else 1) (zlen (right_space f) - off))) as [EQ|NE].
    + injection H as H; auto.
    + injection H as <-. conjs; auto.
      * intros _. destruct (right_space f) as [|x q] eqn:RS.
        -- exfalso. apply NE. rewrite ?RS. cbn [is_empty]. unfold zlen. cbn [length]. lia.
        -- cbn [is_empty]. apply is_empty_false.
           destruct (Z.to_nat _) eqn:ZN; [|discriminate].
           cbn [is_empty] in ZN. lia.
      * intros _. apply spaces_st.
Qed.

Lemma blanks_z_eq n s : blanks_z n = Ok s -> (0 <= n)%Z /\ s = spaces (Z.to_nat n).
Proof. apply blanks_z_Ok. Qed.

Lemma sls_drift k f sp f' ch : free_line f -> (0 <= sp)%Z -> (k = true -> is_fortran f = true -> (0 < sp)%Z) ->
  set_leading_spaces f sp = Ok (f', ch) -> drift k f f'.
Proof.
  intros FL SP KP H. pose proof (sls_moved _ _ _ _ FL SP H) as ((M & _) & _). split; auto. intros F.
  assert (FC : free_code f).
  { destruct FL as [[C _]|[[_ X]|FC]]; auto; [apply fortran_not_comment in F|]; congruence. }
  pose proof (drift_refl k f FL) as [_ R]. specialize (R F).
  unfold set_leading_spaces in H. rewrite (fortran_not_comment _ F), F in H. apply bind_Ok in H as (o & HO & H).
  destruct o as [[[lt ls] off]|]; [|injection H as <- <-; exact R].
  apply bind_Ok in H as (rs & HR & H). injection H as <- <-. apply sls_right_drift in HR as (R1 & R2 & R3).
  unfold code_drift, right_drift, left_drift. cbn [left_txt left_space right_space right_txt with_text].
  destruct FC as (_ & NF & LT). unfold sls_left in HO.
  destruct (is_empty (left_txt f)) eqn:E.
  { apply is_empty_eq in E. destruct (zlen (left_space f) =? sp)%Z; [discriminate|].
    apply bind_Ok in HO as (ls' & HL & HO). apply blanks_z_eq in HL as [P ->]. injection HO as <- <- <-. conjs; auto.
    - left. conjs; auto. intros _. apply spaces_blank.
    - intros K X. destruct (left_space f) as [|c q] eqn:EL; cbn [is_empty].
      + exfalso. destruct X as [(X & _)|X]; congruence.
      + apply is_empty_false. destruct (Z.to_nat sp) eqn:ZN; [specialize (KP K F); lia|discriminate]. }
  apply is_empty_false in E. destruct (has_label f) eqn:HL.
  { assert (HX : lt = left_txt f /\ exists n, ls = spaces (S n)).
    { destruct (Z.ltb_spec (zlen (left_txt f)) sp).
      - destruct (_ =? _)%Z; [discriminate|]. apply bind_Ok in HO as (ls' & HB & HO). apply blanks_z_eq in HB as [P ->].
        injection HO as <- <- <-. split; auto. exists (Z.to_nat (sp - zlen (left_txt f)) - 1). f_equal. lia.
      - destruct (_ =? _)%Z; [discriminate|]. apply Ok_Some3 in HO as (<- & <- & _). split; auto. exists 0. reflexivity. }
    destruct HX as (-> & n & ->). conjs; auto.
    - right. left. conjs; auto. right. eauto.
    - intros K X. destruct (left_space f) as [|c q] eqn:EL; cbn [is_empty]; auto.
      exfalso. destruct X as [(_ & X & _)|X]; congruence. }
  destruct LT as [LT|[LT|(CT & n & core & E1 & E2)]]; try congruence. rewrite CT, NF in HO. cbn [andb negb] in HO.
  destruct (_ =? _)%Z; [discriminate|]. destruct (_ <? _)%Z.
  - apply Ok_Some3 in HO as (<- & <- & _). conjs; auto. right. right. conjs; auto.
    set (d := Z.to_nat _). exists n, (d + n), core. conjs; auto.
    rewrite E1. unfold spaces. rewrite repeat_app, <- app_assoc. reflexivity.
  - rewrite E1 in HO at 1. rewrite find_sp_spaces in HO by auto. apply Ok_Some3 in HO as (<- & <- & _). conjs; auto. right. right. conjs; auto.
    set (rc := Z.to_nat _). exists n, (n - rc), core. conjs; auto. rewrite E1 at 1.
    assert (rc <= n) by (unfold rc; lia). replace n with (rc + (n - rc)) at 1 by lia. rewrite spaces_add, <- app_assoc.
    rewrite <- (spaces_length rc) at 1. apply skipn_app_len.
Qed.

(** ** Reading a line again: what is behind the text *)
Lemma breaks_main pod m x y t j : j < length m -> In c_bang t -> breaks pod (m ++ x ++ t) j -> breaks pod (m ++ y ++ t) j.
Proof.
  intros LT IB (c & N & B). rewrite nth_error_app1 in N by auto. exists c. rewrite nth_error_app1 by auto. split; auto.
  assert (FJ : forall z, firstn j (m ++ z) = firstn j m).
  { intros z. rewrite firstn_app. replace (j - length m) with 0 by lia. cbn. now rewrite app_nil_r. }
  rewrite FJ in *. destruct B as [B|(_ & _ & W)]; auto. exfalso.
  rewrite skipn_app, !Forall_app in W. destruct W as (_ & W).
  replace (S j - length m) with 0 in W by lia. cbn [skipn] in W. rewrite Forall_app in W. destruct W as (_ & W). rewrite Forall_forall in W. apply W in IB. discriminate.
Qed.
Lemma right_part_drift pod f f' : main_txt f' = main_txt f -> right_txt f' = right_txt f -> open_delim f' = open_delim f ->
  delim_ok pod = true -> right_drift f f' -> right_part pod (main_txt f ++ right_space f ++ right_txt f) f ->
  right_part pod (main_txt f' ++ right_space f' ++ right_txt f') f'.
Proof.
  intros EM ER EO D (_ & R2 & R3) (_ & RP & ST & TR & NR). unfold right_part. rewrite EM, ER, EO. split; auto.
  destruct (in_dec Ascii.ascii_dec c_bang (right_txt f)) as [IB|NB].
  2:{ rewrite (R3 NB). auto. }
  specialize (R2 ST). destruct RP as [(RT & _)|(RT & (B1 & B2) & O)]; [rewrite RT in IB; contradiction|].
  assert (ON : open_delim f = c_nul).
  { destruct B1 as (c & N & B). rewrite app_assoc, firstn_app_len in B. rewrite O. destruct B as [(B & _)|(_ & CA & W)]; auto. exfalso.
    destruct (right_txt f) as [|x q] eqn:E; [contradiction|].
    replace (skipn (S (length (main_txt f ++ right_space f))) ((main_txt f ++ right_space f) ++ x :: q)) with q in W.
    2:{ replace (S (length (main_txt f ++ right_space f))) with (length ((main_txt f ++ right_space f) ++ [x])) by (rewrite app_length; cbn; lia).
        change (x :: q) with ([x] ++ q). rewrite app_assoc, skipn_app_len. reflexivity. }
    assert (CX0 : c = x). { rewrite app_assoc, nth_error_app_mid in N. congruence. }
    rewrite Forall_forall in W. destruct IB as [IB|IB]; [|apply W in IB; discriminate]. rewrite IB, CA in CX0. discriminate. }
  rewrite ON in *. split; [|conjs; auto; congruence]. right. split; auto.
  assert (CM : ctx_after pod (main_txt f) = c_nul).
  { symmetry. rewrite O. rewrite ctx_after_app. apply ctx_blanks; auto. now apply delim_ok_after. }
  assert (CX : ctx_after pod (main_txt f ++ right_space f') = c_nul).
  { rewrite ctx_after_app, CM. apply ctx_blanks; auto. }
  split; [split|]; auto.
  - destruct B1 as (c & N & B). destruct (right_txt f) as [|x q] eqn:E; [contradiction|].
    rewrite app_assoc, nth_error_app_mid in N. injection N as <-. exists x. rewrite app_assoc, nth_error_app_mid, firstn_app_len. split; auto. left. split; auto.
    rewrite app_assoc, firstn_app_len in B. destruct B as [(_ & B)|(_ & B & _)]; auto.
  - intros j LT B. destruct (Nat.lt_ge_cases j (length (main_txt f))) as [LM|GE].
    + apply (B2 j); [rewrite app_length; lia|]. eapply breaks_main; eauto.
    + destruct B as (c & N & B). rewrite nth_error_app2 in N by auto. rewrite app_length in LT. rewrite nth_error_app1 in N by lia.
      apply nth_error_In in N. rewrite Forall_forall in R2. apply R2, st_char in N.
      destruct B as [(_ & [-> | ->])|(_ & -> & _)]; destruct N; discriminate.
Qed.

(** ** Reading a line again: its kind *)
Definition include_head (s : str) : Prop := exists kw sp q r, s = kw ++ sp ++ q :: r /\ map lower_b kw = L "include" /\ Forall (eq c_sp) sp /\ (q = c_squote \/ q = c_dquote).
Lemma include_shift b c post : all_blank b -> mem c set_str = false -> (include_line (b ++ c :: post) <-> include_head (c :: post)).
Proof.
  intros B C. split.
  - intros (b' & kw & sp & q & r & E & B' & K & S & Q). exists kw, sp, q, r. conjs; auto.
    destruct kw as [|x kw]; [discriminate|]. pose proof K as K'. injection K' as Kx _. apply lower_i in Kx. cbn [app] in E |- *.
    apply (first_split_unique (fun c => mem c set_str)) in E as (_ & -> & E); auto; [now rewrite E|]. destruct Kx as [->| ->]; reflexivity.
  - intros (kw & sp & q & r & E & K & S & Q). exists b, kw, sp, q, r. rewrite E. auto.
Qed.
Lemma kw_char kw c : map lower_b kw = L "include" -> In c kw -> c <> c_bang /\ c <> c_amp.
Proof.
  intros K I. apply (in_map lower_b) in I. rewrite K in I. split; intros ->; vm_compute in I; repeat (destruct I as [I|I]; [discriminate|]); contradiction.
Qed.
Lemma include_cut m x y t : Forall st x -> (exists c r, t = c :: r /\ (c = c_bang \/ c = c_amp)) -> include_head (m ++ x ++ t) -> include_head (m ++ y ++ t).
Proof.
  intros X (c & r & -> & C) (kw & sp & q & r' & E & K & S & Q). set (n := length (kw ++ sp)).
  assert (NQ : nth_error (m ++ x ++ c :: r) n = Some q) by (rewrite E, app_assoc; apply nth_error_app_mid).
  destruct (Nat.lt_ge_cases n (length m)) as [LT|GE].
  - assert (M : m = kw ++ sp ++ q :: skipn (Datatypes.S n) m).
    { rewrite <- (firstn_skipn n m) at 1. rewrite nth_error_app1 in NQ by auto. rewrite (skipn_cons_nth _ _ _ NQ). rewrite app_assoc. f_equal.
      apply (f_equal (firstn n)) in E. rewrite firstn_app in E. replace (n - length m) with 0 in E by lia. cbn [firstn] in E. rewrite app_nil_r in E.
      rewrite E, app_assoc. apply firstn_app_len. }
    exists kw, sp, q, (skipn (Datatypes.S n) m ++ y ++ c :: r). conjs; auto. rewrite M at 1. rewrite <- !app_assoc. reflexivity.
  - exfalso. rewrite nth_error_app2 in NQ by auto. destruct (Nat.lt_ge_cases (n - length m) (length x)) as [L2|G2].
    + rewrite nth_error_app1 in NQ by auto. apply nth_error_In in NQ. rewrite Forall_forall in X. apply X, st_char in NQ.
      destruct Q as [->| ->]; destruct NQ; discriminate.
    + assert (N2 : nth_error (kw ++ sp ++ q :: r') (length (m ++ x)) = Some c) by (rewrite <- E, app_assoc; apply nth_error_app_mid).
      assert (IC : In c (kw ++ sp ++ [q])).
      { assert (LE : length (m ++ x) < length (kw ++ sp ++ [q])). { unfold n in *. rewrite !app_length in *. cbn. lia. }
        replace (kw ++ sp ++ q :: r') with ((kw ++ sp ++ [q]) ++ r') in N2 by (rewrite <- !app_assoc; reflexivity).
        rewrite nth_error_app1 in N2 by auto. now apply nth_error_In in N2. }
      apply in_app_or in IC as [I|I]; [apply kw_char in I as [I1 I2]; auto; destruct C; auto|].
      apply in_app_or in I as [I|[I|[]]].
      * rewrite Forall_forall in S. apply S in I. subst c. destruct C; discriminate.
      * subst c. destruct Q as [->| ->], C; discriminate.
Qed.
Lemma code_first b c post : all_blank b -> mem c set_str = false -> c <> c_bang -> (c = c_hash -> b <> []) -> ~ include_head (c :: post) -> code_line (b ++ c :: post).
Proof.
  intros B C NB NH NI. unfold code_line. conjs.
  - intros X. apply Forall_app in X as [_ X]. inversion X; congruence.
  - intros X. apply FixedLine_proofs.bang_iff in X; auto.
  - intros (r & E). destruct b as [|x b]; cbn in E; injection E as E1 E2; [now apply NH|]. subst x. inversion B; discriminate.
  - intros X. apply include_shift in X; auto.
Qed.
Lemma not_include c post : c <> "i"%char -> c <> "I"%char -> ~ include_head (c :: post).
Proof.
  intros N1 N2 (kw & sp & q & r & E & K & _). destruct kw as [|x kw]; [discriminate|]. injection K as K _. apply lower_i in K. injection E as -> _. tauto.
Qed.

(** ** A line of code *)
Lemma reread_code ln raw pod plc f l k f' : analyze_free ln raw pod plc false = Ok (f, l) -> is_fortran f = true -> drift k f f' -> tidy_line f -> ascii7 raw ->
  analyze_free ln (line_text f') pod plc false = Ok (f', l).
Proof.
  intros H F (SB & CD) (_ & TI) A. specialize (CD F). specialize (TI F). destruct TI as (TE & TH).
  destruct CD as (LD & RD & _). pose proof SB as (EB & EO & EN & _ & FF & _). destruct (FF F) as (EM & ER & _).
  pose proof (free_classes _ _ _ _ _ _ H) as (CL & _). pose proof (proj1 CL F) as C.
  pose proof (analyze_free_spec ln raw pod plc false) as SP. rewrite H in SP. cbv beta iota in SP.
  destruct SP as [(_ & SP)|(_ & -> & LN & D & body & b1 & LP & RAW & LB & RP & BF)].
  { exfalso. destruct C as (C1 & C2 & C3 & C4). pose proof (dir_bang raw) as X4. pose proof (lit_dir raw) as X5. tauto. }
  pose proof RP as (BE & RP1 & ST & TR & _). rewrite BE in RP. pose proof (right_part_drift pod f f' EM ER EO D RD RP) as RP'.
  destruct RD as (RD1 & RD2 & RD3). specialize (RD2 ST). specialize (RD1 TE).
  (* the body of the new line *)
  set (body' := main_txt f' ++ right_space f' ++ right_txt f') in *.
  assert (BODY : (~ In c_bang (right_txt f) /\ body' = body) \/
                 ((exists c r, right_txt f = c :: r /\ (c = c_bang \/ c = c_amp)) /\ is_empty (right_space f') = is_empty (right_space f))).
  { destruct (in_dec Ascii.ascii_dec c_bang (right_txt f)) as [IB|NB].
    - right. split; auto. destruct RP1 as [(X & _)|(_ & ((c & N & B) & _) & _)]; [rewrite X in IB; contradiction|].
      destruct (right_txt f) as [|x q]; [contradiction|]. exists x, q. split; auto. rewrite BE, app_assoc, nth_error_app_mid in N. injection N as <-. tauto.
    - left. split; auto. unfold body'. rewrite EM, ER, RD3, BE; auto. }
  assert (HD : right_txt f = [] \/ exists c r, right_txt f = c :: r /\ (c = c_bang \/ c = c_amp)).
  { destruct RP1 as [(X & _)|(_ & ((c & N & B) & _) & _)]; auto. destruct (right_txt f) as [|x q]; auto. right. exists x, q. split; auto.
    rewrite BE, app_assoc, nth_error_app_mid in N. injection N as <-. tauto. }
  assert (INC : include_head body' -> include_head body).
  { destruct BODY as [(_ & ->)|(X & _)]; auto. unfold body'. rewrite BE, EM, ER. apply include_cut; auto. }
  assert (A7 : ascii7 body').
  { rewrite RAW in A. apply Forall_app in A as [_ A]. apply Forall_app in A as [_ A]. rewrite BE in A. apply Forall_app in A as [A1 A]. apply Forall_app in A as [_ A2].
    unfold body'. rewrite EM, ER. apply Forall_app. split; auto. apply Forall_app. split; auto. eapply Forall_impl; [|apply RD2]. intros c X. apply st_char in X as [->| ->]; reflexivity. }
  assert (BL7 : forall b, all_blank b -> ascii7 b).
  { intros b X. eapply Forall_impl; [|apply X]. intros c Y. apply str_char in Y as [->|[->| ->]]; reflexivity. }
  assert (LT : line_text f' = left_txt f' ++ left_space f' ++ body') by (unfold line_text, body'; reflexivity).
  rewrite <- LN, <- EN.
  assert (GO : ascii7 (left_txt f') -> ascii7 (left_space f') -> code_line (line_text f') -> left_part plc (line_text f') (left_txt f') (left_space f') body' ->
    left_bits (left_txt f') b1 -> analyze_free (linenum f') (line_text f') pod plc false = Ok (f', false)).
  { intros G1 G2 G3 G4 G5. eapply read_back with (b1 := b1); auto.
    - rewrite LT. apply Forall_app. split; auto. apply Forall_app. split; auto.
    - rewrite EB, ER. exact BF. }
  clear RP RP' RP1 H CL. inversion LP as [b bd Hb NE N1 N2 N3 E0 E1 E2 E3|b bd Hb E0 E1 E2 E3|b d w bd Hc Hb Hd Hl Hw Hn Hs E0 E1 E2 E3]; subst bd.
  - (* nothing in front *)
    destruct LD as [(_ & L2 & L3)|[(L1 & _)|(L1 & _)]]; try congruence. specialize (L3 Hb).
    assert (MC : exists c m, main_txt f = c :: m).
    { destruct (main_txt f) as [|c m] eqn:EMF; eauto. exfalso. destruct (right_space f) as [|x q] eqn:ERS.
      - cbn [app] in BE. destruct HD as [X|(c & r & X & [->| ->])]; rewrite X in BE.
        + auto.
        + destruct C as (_ & C2 & _). apply C2. exists b, r. rewrite <- E0, BE. split; congruence.
        + apply N2. exists c_amp, r. auto.
      - apply N1. exists x, (q ++ right_txt f). split; auto. inversion ST as [|? ? X]; subst. apply st_char in X as [->| ->]; reflexivity. }
    destruct MC as (c & m & EMF).
    assert (B1 : body = c :: m ++ right_space f ++ right_txt f) by (rewrite BE, EMF; reflexivity).
    assert (B2 : body' = c :: m ++ right_space f' ++ right_txt f') by (unfold body'; rewrite EM, EMF; reflexivity).
    assert (CC : mem c set_str = false). { destruct (mem c set_str) eqn:X; auto. exfalso. apply N1. exists c. eauto. }
    apply GO.
    + rewrite L2. constructor.
    + auto.
    + rewrite LT, L2. cbn [app]. rewrite B2. apply code_first; auto.
      * intros ->. destruct C as (_ & C2 & _). apply C2. exists b. rewrite <- E0, B1. eexists; split; [congruence|reflexivity].
      * intros ->. exfalso. eapply TH; eauto.
      * rewrite <- B2. intros X. apply INC in X. destruct C as (_ & _ & _ & C4). apply C4. rewrite <- E0, B1. apply include_shift; [congruence|auto|]. now rewrite <- B1.
    + rewrite LT, L2. cbn [app]. constructor; auto.
      * rewrite B2. discriminate.
      * rewrite B2. intros (x & y & X & Y). injection X as <- _. congruence.
      * rewrite B2. intros (x & y & X & Y). injection X as <- _. apply N2. exists c. eauto.
      * rewrite B2. intros P (x & y & X & Y). injection X as <- _. apply (N3 P). exists c. eauto.
    + rewrite L2. now rewrite <- E1 in LB.
  - (* '&' *)
    assert (LNE : left_txt f <> []) by (rewrite <- E1; destruct b; discriminate).
    assert (B1 : b1 = set_continuation bits0) by (eapply left_bits_det; [exact LB|]; right; left; eauto).
    destruct LD as [(L1 & _)|[(_ & L2 & _)|(_ & _ & _ & LS & n & m & core & L5 & L6 & L7)]]; try congruence.
    { exfalso. unfold has_label in L2. rewrite BF, B1 in L2. destruct (starts_amp _); discriminate. }
    assert (CR : exists b2, core = b2 ++ [c_amp] /\ all_blank b2).
    { destruct (@exists_last _ core (core_ne _ L7)) as (b2 & y & ->). rewrite <- E1 in L5. rewrite app_assoc in L5. apply app_inj_tail in L5 as [L5 <-].
      exists b2. split; auto. rewrite L5 in Hb. apply Forall_app in Hb. apply Hb. }
    destruct CR as (b2 & -> & HB2). rewrite app_assoc in L6.
    assert (AB : all_blank (spaces m ++ b2)) by (apply Forall_app; split; auto; apply spaces_blank).
    assert (LSE : left_space f' = []) by congruence.
    assert (LT2 : line_text f' = (spaces m ++ b2) ++ c_amp :: body') by (rewrite LT, L6, LSE, <- app_assoc; reflexivity).
    apply GO.
    + rewrite L6. apply Forall_app. split; [exact (BL7 _ AB)|]. constructor; [reflexivity|constructor].
    + rewrite LSE. constructor.
    + rewrite LT2. apply code_first; auto; try reflexivity; try discriminate. apply not_include; discriminate.
    + rewrite LT2, L6, LSE. now constructor.
    + right. left. rewrite L6. eauto.
  - (* a label *)
    subst w.
    assert (DNE : d <> []) by (destruct d; [cbn in Hl; lia|discriminate]).
    assert (LNE : left_txt f <> []) by (rewrite <- E1; intros X; apply app_eq_nil in X as [_ X]; auto).
    assert (B1 : b1 = put_label true bits0) by (eapply left_bits_det; [exact LB|]; right; right; split; auto; exists b, d; auto).
    destruct LD as [(L1 & _)|[(_ & _ & L2 & L3)|(_ & L2 & _)]]; try congruence.
    2:{ exfalso. unfold has_label in L2. rewrite BF, B1 in L2. destruct (starts_amp _); discriminate. }
    assert (SPC : ~ starts_with is_space_b body').
    { destruct BODY as [(_ & ->)|(_ & _)]; auto. unfold body'. rewrite EM, ER. rewrite BE in Hs. destruct (main_txt f) as [|c mm].
      - cbn [app] in *. destruct (right_space f) as [|x q].
        + destruct (right_space f'); [|discriminate]. exact Hs.
        + exfalso. apply Hs. exists x, (q ++ right_txt f). split; auto. inversion ST as [|? ? X]; subst. apply st_char in X as [->| ->]; reflexivity.
      - intros (x & y & X & Y). injection X as <- _. apply Hs. exists c. eexists. split; [reflexivity|exact Y]. }
    assert (HW : all_white (left_space f') /\ ascii7 (left_space f') /\ (length d < 6 -> ~ starts_with is_digit_b (left_space f' ++ body'))).
    { destruct L3 as [->|(n & ->)].
      - conjs; auto.
        + rewrite <- E0 in A. unfold ascii7 in *. rewrite !Forall_app in A. tauto.
        + intros X. specialize (Hn X). intros (x & y & X1 & X2). apply Hn. destruct (left_space f) as [|z w].
          * cbn [app] in *. destruct BODY as [(_ & EQ)|_]; [rewrite <- EQ; exists x, y; auto|].
            exists x. rewrite BE. unfold body' in X1. rewrite EM, ER in X1. destruct (main_txt f) as [|c mm].
            -- cbn [app] in X1 |- *. destruct (right_space f') as [|u q] eqn:RS'; [destruct (right_space f); [eauto|discriminate]|].
               exfalso. injection X1 as <- _. inversion RD2 as [|? ? Y]; subst. apply st_char in Y as [->| ->]; discriminate.
            -- injection X1 as <- _. cbn [app]. eauto.
          * injection X1 as <- _. cbn [app]. exists z. eauto.
      - conjs.
        + apply white_spaces.
        + apply BL7, spaces_blank.
        + intros _ (x & y & X1 & X2). injection X1 as <- _. discriminate. }
    destruct HW as (W1 & W2 & W3). rewrite <- E1 in L2.
    assert (LT2 : line_text f' = b ++ d ++ left_space f' ++ body') by (rewrite LT, L2, <- app_assoc; reflexivity).
    apply GO; auto.
    + rewrite L2. rewrite <- E0 in A. unfold ascii7 in *. rewrite !Forall_app in *. tauto.
    + rewrite LT2. destruct d as [|c d]; [congruence|]. cbn [app]. assert (DC : is_digit_b c = true) by now inversion Hd.
      apply code_first; auto.
      * now apply digit_not_blank.
      * intros ->; discriminate.
      * intros ->; discriminate.
      * apply not_include; intros ->; discriminate.
    + rewrite LT2, L2. constructor; auto.
    + now rewrite L2, E1.
Qed.

(** ** Any line *)
Lemma line_text_read ln raw pod plc lit f l : analyze_free ln raw pod plc lit = Ok (f, l) -> line_text f = raw.
Proof. intros H. apply analyze_free_lossless_lem in H as (_ & _ & H). exact H. Qed.
Lemma comment_bits_only f p : bits f = set_comment (put_continued p bits0) -> is_comment f = true /\ is_fortran f = false.
Proof. intros E. unfold is_fortran, is_trivial, is_comment. rewrite E. split; reflexivity. Qed.
Lemma drift_other k f f' : drift k f f' -> is_comment f = false -> is_fortran f = false -> f' = f.
Proof. intros (SB & _) C F. apply SB; auto. Qed.
Lemma reread_line ln raw pod plc lit f l k f' : analyze_free ln raw pod plc lit = Ok (f, l) -> drift k f f' -> tidy_line f -> ascii7 raw -> delim_ok pod = true ->
  analyze_free ln (line_text f') pod plc lit = Ok (f', l).
Proof.
  intros H DR TI A D. pose proof (analyze_free_spec ln raw pod plc lit) as SP. rewrite H in SP. cbv beta iota in SP.
  assert (SAME : is_comment f = false -> is_fortran f = false -> analyze_free ln (line_text f') pod plc lit = Ok (f', l)).
  { intros C F. rewrite (drift_other _ _ _ DR C F), (line_text_read _ _ _ _ _ _ _ H). exact H. }
  destruct lit.
  - destruct SP as (_ & B & _). apply SAME; unfold is_fortran, is_trivial, is_comment, is_blank, is_preprocessor, is_flpr_pp, is_flpr_lit, is_include; rewrite B; reflexivity.
  - destruct (is_fortran f) eqn:F; [eapply reread_code; eauto|].
    destruct (is_comment f) eqn:C; [|auto].
    destruct SP as [(PL & SP)|(CL & _)].
    2:{ exfalso. apply (free_classes _ _ _ _ _ _ H) in CL. congruence. }
    pose proof DR as ((EB & EO & EN & CM & _) & _). destruct (CM C) as (b & b' & p & r & CA & CA' & P).
    assert (SP' : bang_line raw /\ ~ flpr_dir_line raw /\ bits f = set_comment (put_continued plc bits0) /\ l = false).
    { unfold is_comment in C. destruct SP as [(_ & B & _)|[(_ & B & _)|[(_ & B & _)|[(_ & B & _)|[(_ & _ & B & _)|SP]]]]]; try (rewrite B in C; discriminate). exact SP. }
    clear SP. destruct SP' as (BL & ND & BF & ->). destruct CA as (E1 & E2 & E3 & E4 & E5 & E6). destruct CA' as (G1 & G2 & G3 & G4 & G5 & G6).
    destruct PL as (P1 & P2 & _ & _ & _ & _ & P7).
    assert (LT : line_text f' = b' ++ c_bang :: r) by (unfold line_text; rewrite G1, G3, G4, G5, G6, !app_nil_r; reflexivity).
    assert (A' : ascii7 (line_text f')).
    { rewrite LT. rewrite <- P2, E1 in A. unfold ascii7 in *. rewrite !Forall_app in *. rewrite Forall_cons_iff in *. rewrite Forall_app in A. destruct A as (_ & A1 & _ & A2). conjs; auto.
      eapply Forall_impl; [|apply G2]. intros c Y. apply str_char in Y as [->|[->| ->]]; reflexivity. }
    assert (W : f' = with_bits f' (bits f)) by (rewrite <- EB; destruct f'; reflexivity). rewrite W at 2. rewrite <- P1, <- EN.
    apply free_plain; auto.
    + unfold plain_left. rewrite LT. conjs; auto. congruence.
    + right. right. right. right. conjs; auto.
      * rewrite LT. exists b', r. auto.
      * rewrite LT. rewrite dir_prefix by auto. intros X. apply prefixb_true in X as (r' & ->). destruct TI as (TI & _). eapply TI; eauto.
Qed.

(** ** All lines *)
Definition D (f f' : File_Line) : Prop := tidy_line f /\ exists k, drift k f f'.
Definition dr (f f' : File_Line) : Prop := f' = f \/ D f f'.
Lemma dr_bits f f' : dr f f' -> bits f' = bits f /\ open_delim f' = open_delim f.
Proof. intros [->|(_ & k & (SB & _))]; auto. destruct SB as (A & B & _). auto. Qed.
Lemma delim_next ln raw pod plc lit f l : analyze_free ln raw pod plc lit = Ok (f, l) -> delim_ok pod = true -> delim_ok (open_delim f) = true.
Proof.
  intros H D. pose proof (analyze_free_spec ln raw pod plc lit) as SP. rewrite H in SP. cbv beta iota in SP.
  assert (PL : plain_left f ln raw -> delim_ok (open_delim f) = true) by (intros (_ & _ & _ & _ & _ & _ & ->); reflexivity).
  destruct lit; [apply PL, SP|]. destruct SP as [(X & _)|(_ & _ & _ & _ & body & b1 & _ & _ & _ & RP & _)]; auto.
  destruct RP as (_ & [(_ & _ & _ & ->)|(_ & _ & ->)] & _); [reflexivity|now apply delim_ok_after].
Qed.
Lemma reread_all raws : forall i pod plc lit fls fls', analyze_all_free i raws pod plc lit = Ok fls -> Forall2 dr fls fls' -> Forall ascii7 raws -> delim_ok pod = true ->
  analyze_all_free i (map line_text fls') pod plc lit = Ok fls'.
Proof.
  induction raws as [|r raws IH]; intros i pod plc lit fls fls' H F2 A DO; cbn [analyze_all_free] in H.
  - injection H as <-. inversion F2; subst. reflexivity.
  - apply bind_Ok in H as ([f l] & H1 & H). apply bind_Ok in H as (fs & H2 & H). injection H as <-.
    inversion F2 as [|? f' ? fs' X Y]; subst. inversion A; subst. cbn [map analyze_all_free].
    assert (E : analyze_free i (line_text f') pod plc lit = Ok (f', l)).
    { destruct X as [->|(TI & k & X)]; [rewrite (line_text_read _ _ _ _ _ _ _ H1); auto|eapply reread_line; eauto]. }
    rewrite E. cbn [bind]. destruct (dr_bits _ _ X) as (EB & EO). rewrite EO. replace (is_continued f') with (is_continued f) by (unfold is_continued; now rewrite EB).
    rewrite (IH _ _ _ _ _ fs' H2); auto. eapply delim_next; eauto.
Qed.
