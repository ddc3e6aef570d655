(** Proofs about the editing operations of File_Line. *)
From Verif Require Import Base Base_lemmas FileLine FileLine_spec FileLine_proofs FileEdit_spec.

(** ** set_leading_spaces *)
Lemma blanks_z_Ok n s : blanks_z n = Ok s <-> (0 <= n)%Z /\ s = spaces (Z.to_nat n).
Proof.
  unfold blanks_z. destruct (Z.ltb_spec n 0); split; intros H1; try discriminate; try lia.
  - injection H1 as <-. auto.
  - destruct H1 as [_ ->]. auto.
Qed.
Lemma zlen_spaces n : (0 <= n)%Z -> zlen (spaces (Z.to_nat n)) = n.
Proof. intros H. unfold zlen. rewrite spaces_length. lia. Qed.

Lemma white_spaces n : all_white (spaces n).
Proof. apply Forall_forall. intros x Hx. apply repeat_spec in Hx. now subst. Qed.

Lemma same_refl s : same_upto_leading_blanks s s.
Proof. exists 0, 0, s. auto. Qed.

Lemma find_sp_split lt pos :
  find_first_not_of [c_sp] lt = Some pos ->
  exists core, lt = spaces pos ++ core /\ core <> [] /\
    find_first_not_of [c_sp] core = Some 0.
Proof.
  unfold find_first_not_of. intros H.
  apply find_from_Some in H as (b & c & post & -> & -> & Hc & Hb).
  exists (c :: post). split; [|split]; [|discriminate|].
  - f_equal. clear Hc. induction b as [|x b IH]; auto.
    simpl in Hb. apply andb_prop in Hb as [H1 H2]. simpl.
    rewrite negb_involutive in H1. apply mem_In in H1. destruct H1 as [<-|[]].
    change (spaces (S (length b))) with (c_sp :: spaces (length b)). f_equal. now apply IH.
  - simpl. now rewrite Hc.
Qed.

Lemma find_sp_spaces n core :
  find_first_not_of [c_sp] core = Some 0 ->
  find_first_not_of [c_sp] (spaces n ++ core) = Some n.
Proof.
  unfold find_first_not_of. intros H.
  apply find_from_Some in H as (b & c & post & -> & E & Hc & Hb).
  destruct b; [|discriminate]. apply find_from_Some.
  exists (spaces n), c, post. conjs; auto.
  - simpl. now rewrite spaces_length.
  - clear. induction n; auto.
Qed.

Definition sls_left_spec (f : File_Line) (sp : Z) lt ls (off : option Z) : Prop :=
  same_upto_leading_blanks (left_txt f) lt /\
  (has_label f = true \/ is_continuation f = false \/ is_fixed_format f = true -> lt = left_txt f) /\
  (all_white (left_space f) -> all_white ls) /\
  (off = Some (zlen lt + zlen ls - (zlen (left_txt f) + zlen (left_space f)))%Z \/
   (off = None /\ left_txt f <> [] /\ has_label f = false /\
    (is_continuation f = false \/ is_fixed_format f = true) /\ ls = left_space f)).

Lemma is_empty_eq {A} (l : list A) : is_empty l = true -> l = [].
Proof. apply is_empty_true. Qed.

Lemma Ok_Some3 {A B C} (a a' : A) (b b' : B) (c c' : C) :
  Ok (Some (a, b, c)) = Ok (Some (a', b', c')) -> a = a' /\ b = b' /\ c = c'.
Proof. intros H. inversion H; auto. Qed.

Lemma sls_left_Ok f sp lt ls off :
  sls_left f sp = Ok (Some (lt, ls, off)) -> sls_left_spec f sp lt ls off.
Proof.
  unfold sls_left, sls_left_spec. intros H.
  destruct (is_empty (left_txt f)) eqn:E.
  { apply is_empty_eq in E. destruct (zlen (left_space f) =? sp)%Z; [discriminate|].
    apply bind_Ok in H as (ls' & HL & H). apply blanks_z_Ok in HL as [P ->].
    injection H as <- <- <-. rewrite E. conjs.
    - apply same_refl.
    - auto.
    - intros _. apply white_spaces.
    - left. f_equal. rewrite zlen_spaces by auto. unfold zlen. simpl. lia. }
  apply is_empty_false in E.
  destruct (has_label f) eqn:HL.
  { destruct (zlen (left_txt f) <? sp)%Z.
    - destruct (zlen (left_space f) =? sp - zlen (left_txt f))%Z; [discriminate|].
      apply bind_Ok in H as (ls' & HB & H). apply blanks_z_Ok in HB as [P ->].
      injection H as <- <- <-. conjs.
      + apply same_refl.
      + auto.
      + intros _. apply white_spaces.
      + left. f_equal. rewrite zlen_spaces by auto. lia.
    - destruct (zlen (left_space f) =? 1)%Z; [discriminate|].
      apply Ok_Some3 in H as (<- & <- & <-). conjs.
      + apply same_refl.
      + auto.
      + intros _. apply white_spaces.
      + left. f_equal. change (zlen (spaces 1)) with 1%Z. lia. }
  destruct (is_continuation f && negb (is_fixed_format f)) eqn:C.
  { apply andb_prop in C as [C1 C2]. apply negb_true_iff in C2.
    destruct (_ =? sp)%Z; [discriminate|].
    destruct (Z.ltb_spec (zlen (left_txt f) + zlen (left_space f)) sp).
    - injection H as <- <- <-. conjs.
      + exists 0, (Z.to_nat (sp - (zlen (left_txt f) + zlen (left_space f)))), (left_txt f). auto.
      + rewrite C1, C2. intuition discriminate.
      + auto.
      + left. f_equal. unfold zlen in *. rewrite app_length, spaces_length. lia.
    - destruct (find_first_not_of [c_sp] (left_txt f)) as [pos|] eqn:F; [|discriminate].
      injection H as <- <- <-. apply find_sp_split in F as (core & EL & _ & _).
      set (rc := Z.min (Z.of_nat pos) (zlen (left_txt f) + zlen (left_space f) - sp)) in *.
      assert (0 <= rc <= Z.of_nat pos)%Z as RC by lia.
      assert (skipn (Z.to_nat rc) (left_txt f) = spaces (pos - Z.to_nat rc) ++ core) as ES.
      { rewrite EL. replace pos with (Z.to_nat rc + (pos - Z.to_nat rc)) at 1 by lia.
        rewrite spaces_add, <- app_assoc.
        rewrite <- (spaces_length (Z.to_nat rc)) at 1. apply skipn_app_len. }
      conjs.
      + exists pos, (pos - Z.to_nat rc), core. auto.
      + rewrite C1, C2. intuition discriminate.
      + auto.
      + left. f_equal. unfold zlen. rewrite skipn_length.
        apply (f_equal (@length _)) in EL. rewrite app_length, spaces_length in EL. lia. }
  injection H as <- <- <-. conjs; auto.
  - apply same_refl.
  - right. conjs; auto. apply andb_false_iff in C as [C|C]; auto.
    apply negb_false_iff in C. auto.
Qed.

Lemma sls_right_white rs rt off rs' :
  sls_right rs rt off = Ok rs' -> all_white rs -> all_white rs'.
Proof.
  unfold sls_right. intros H W. destruct (is_empty rt); [now injection H as <-|].
  destruct off as [off|]; [|discriminate].
  destruct (off =? 0)%Z; [now injection H as <-|].
  destruct (find_char c_bang rt) as [pos|]; [|now injection H as <-].
  destruct (off <? 0)%Z.
  - unfold insert_at in H. destruct (pos <=? length rs); [|discriminate]. injection H as <-.
    rewrite <- (firstn_skipn pos rs) in W. apply Forall_app in W as [W1 W2].
    apply Forall_app. split; auto. apply Forall_app. split; auto. apply white_spaces.
  - destruct (_ =? _)%Z; injection H as <-; auto. apply white_spaces.
Qed.

Lemma fortran_not_comment f : is_fortran f = true -> is_comment f = false.
Proof.
  unfold is_fortran, is_trivial. destruct (is_comment f); auto.
Qed.

Lemma sls_fortran f sp f' ch :
  is_fortran f = true -> set_leading_spaces f sp = Ok (f', ch) ->
  main_txt f' = main_txt f /\ right_txt f' = right_txt f /\ bits f' = bits f /\
  open_delim f' = open_delim f /\ linenum f' = linenum f /\
  same_upto_leading_blanks (left_txt f) (left_txt f') /\
  (has_label f = true \/ is_continuation f = false \/ is_fixed_format f = true ->
     left_txt f' = left_txt f) /\
  (all_white (left_space f) -> all_white (left_space f')) /\
  (all_white (right_space f) -> all_white (right_space f')) /\
  (ch = false -> f' = f).
Proof.
  intros F H. unfold set_leading_spaces in H. rewrite (fortran_not_comment _ F), F in H.
  apply bind_Ok in H as (o & HO & H). destruct o as [[[lt ls] off]|].
  - apply bind_Ok in H as (rs & HR & H). injection H as <- <-.
    apply sls_left_Ok in HO as (H1 & H2 & H3 & _). cbn. conjs; auto.
    + intros W. eapply sls_right_white; eauto.
    + discriminate.
  - injection H as <- <-. conjs; auto. apply same_refl.
Qed.

(** where the statement text of a free-format line ends up *)
Lemma sls_column f sp f' ch :
  is_fortran f = true -> is_fixed_format f = false -> (0 <= sp)%Z ->
  main_txt f <> [] ->
  (left_txt f = [] \/ has_label f = true \/ is_continuation f = true) ->
  set_leading_spaces f sp = Ok (f', ch) ->
  (left_txt f = [] -> get_leading_spaces f' = sp) /\
  (left_txt f <> [] -> has_label f = true ->
     get_leading_spaces f' = Z.max sp (zlen (left_txt f) + 1)%Z) /\
  (left_txt f <> [] -> has_label f = false ->
     forall n core, left_txt f = spaces n ++ core -> find_first_not_of [c_sp] core = Some 0 ->
       get_leading_spaces f' = Z.max sp (zlen core + zlen (left_space f))%Z).
Proof.
  intros F NF SP MN LT H. pose proof H as H0.
  apply sls_fortran in H0 as (E1 & E2 & E3 & E4 & _); auto.
  assert (G : get_leading_spaces f' = (zlen (left_txt f') + zlen (left_space f'))%Z).
  { unfold get_leading_spaces, is_comment, is_fortran, is_trivial, is_comment, is_blank, is_preprocessor,
      is_flpr_pp, is_flpr_lit, is_include, main_first_col, is_fixed_format in *.
    rewrite E3, E1, NF. destruct (main_txt f); [congruence|].
    destruct (b_comment (bits f)); [discriminate|]. rewrite F. cbn [is_empty]. lia. }
  rewrite G. clear G. unfold set_leading_spaces in H.
  rewrite (fortran_not_comment _ F), F in H.
  apply bind_Ok in H as (o & HO & H).
  assert (O : (o = None -> f' = f) /\ forall lt ls off, o = Some (lt, ls, off) ->
            left_txt f' = lt /\ left_space f' = ls).
  { destruct o as [[[lt ls] off]|].
    - apply bind_Ok in H as (rs & HR & H). injection H as <- <-. split; [discriminate|].
      intros ? ? ? X. injection X as <- <- <-. auto.
    - injection H as <- <-. split; auto. discriminate. }
  clear H. destruct O as [O1 O2]. unfold sls_left in HO.
  destruct (is_empty (left_txt f)) eqn:E.
  { apply is_empty_eq in E. conjs; try congruence. intros _.
    destruct (Z.eqb_spec (zlen (left_space f)) sp) as [EQ|NE].
    - injection HO as <-. rewrite (O1 eq_refl), E, EQ. reflexivity.
    - apply bind_Ok in HO as (ls' & HL & HO). apply blanks_z_Ok in HL as [P ->].
      injection HO as <-. destruct (O2 _ _ _ eq_refl) as [-> ->]. rewrite E, zlen_spaces; auto. }
  apply is_empty_false in E. destruct LT as [LT|LT]; [congruence|].
  conjs; [congruence| |].
  - intros _ HL. rewrite HL in HO.
    destruct (Z.ltb_spec (zlen (left_txt f)) sp).
    + destruct (Z.eqb_spec (zlen (left_space f)) (sp - zlen (left_txt f))).
      * injection HO as <-. rewrite (O1 eq_refl). lia.
      * apply bind_Ok in HO as (ls' & HB & HO). apply blanks_z_Ok in HB as [P ->].
        injection HO as <-. destruct (O2 _ _ _ eq_refl) as [-> ->]. rewrite zlen_spaces; lia.
    + destruct (Z.eqb_spec (zlen (left_space f)) 1).
      * injection HO as <-. rewrite (O1 eq_refl). lia.
      * injection HO as <-. destruct (O2 _ _ _ eq_refl) as [-> ->].
        change (zlen (spaces 1)) with 1%Z. lia.
  - intros _ HL n core EL FC. rewrite HL in HO. destruct LT as [LT|LT]; [congruence|].
    rewrite LT, NF in HO. cbn [andb negb] in HO.
    assert (zlen (left_txt f) = Z.of_nat n + zlen core)%Z as ZL.
    { rewrite EL. unfold zlen. rewrite app_length, spaces_length. lia. }
    assert (0 <= zlen (left_space f))%Z by (unfold zlen; lia).
    destruct (Z.eqb_spec (zlen (left_txt f) + zlen (left_space f)) sp).
    { injection HO as <-. rewrite (O1 eq_refl). lia. }
    destruct (Z.ltb_spec (zlen (left_txt f) + zlen (left_space f)) sp).
    + injection HO as <-. destruct (O2 _ _ _ eq_refl) as [-> ->].
      unfold zlen in *. rewrite app_length, spaces_length. lia.
    + rewrite EL in HO at 1. rewrite find_sp_spaces in HO by auto.
      injection HO as <-. destruct (O2 _ _ _ eq_refl) as [-> ->].
      unfold zlen in *. rewrite skipn_length. lia.
Qed.

(** setting the same indentation twice changes nothing more *)
Lemma sls_idem f sp f' ch :
  is_fortran f = true -> is_fixed_format f = false -> (0 <= sp)%Z ->
  (left_txt f = [] \/ has_label f = true \/ is_continuation f = true) ->
  set_leading_spaces f sp = Ok (f', ch) ->
  exists ch', set_leading_spaces f' sp = Ok (f', ch') /\
    (left_txt f = [] \/ has_label f = true -> ch' = false).
Proof.
  intros F NF SP LT H. pose proof H as H0.
  apply sls_fortran in H0 as (E1 & E2 & E3 & E4 & E5 & _); auto.
  assert (BB : is_comment f' = false /\ is_fortran f' = true /\ has_label f' = has_label f /\
     is_continuation f' = is_continuation f /\ is_fixed_format f' = false).
  { pose proof (fortran_not_comment _ F) as NC.
    unfold is_comment, is_fortran, is_trivial, is_comment, is_blank, is_preprocessor,
      is_flpr_pp, is_flpr_lit, is_include, is_fixed_format, has_label, is_continuation in *.
    rewrite E3. auto. }
  destruct BB as (B1 & B2 & B3 & B4 & B5).
  unfold set_leading_spaces in H. rewrite (fortran_not_comment _ F), F in H.
  apply bind_Ok in H as (o & HO & H).
  unfold set_leading_spaces. rewrite B1, B2.
  (* if the second call to sls_left says None, done *)
  assert (NONE : sls_left f' sp = Ok None -> exists ch',
    (o <- sls_left f' sp ;;
     match o with
     | None => Ok (f', false)
     | Some (lt, ls, off) =>
        rs <- sls_right (right_space f') (right_txt f') off ;;
        Ok (with_text f' lt ls (main_txt f') rs (right_txt f'), true)
     end) = Ok (f', ch') /\ (left_txt f = [] \/ has_label f = true -> ch' = false)).
  { intros ->. exists false. auto. }
  assert (ZERO : has_label f = false -> left_txt f <> [] ->
     sls_left f' sp = Ok (Some (left_txt f', left_space f', Some 0%Z)) -> exists ch',
    (o <- sls_left f' sp ;;
     match o with
     | None => Ok (f', false)
     | Some (lt, ls, off) =>
        rs <- sls_right (right_space f') (right_txt f') off ;;
        Ok (with_text f' lt ls (main_txt f') rs (right_txt f'), true)
     end) = Ok (f', ch') /\ (left_txt f = [] \/ has_label f = true -> ch' = false)).
  { intros HL HT ->. exists true. cbn [bind]. split; [|intuition congruence].
    unfold sls_right. destruct (is_empty (right_txt f')); cbn [bind Z.eqb];
    unfold with_text; destruct f'; reflexivity. }
  assert (O : (o = None -> f' = f) /\ forall lt ls off, o = Some (lt, ls, off) ->
            left_txt f' = lt /\ left_space f' = ls).
  { destruct o as [[[lt ls] off]|].
    - apply bind_Ok in H as (rs & HR & H). injection H as <- <-. split; [discriminate|].
      intros ? ? ? X. injection X as <- <- <-. auto.
    - injection H as <- <-. split; auto. discriminate. }
  clear H. destruct O as [O1 O2].
  destruct o as [[[lt ls] off]|].
  2:{ apply NONE. rewrite (O1 eq_refl). exact HO. }
  destruct (O2 _ _ _ eq_refl) as [EL ES]. clear O1 O2.
  unfold sls_left in HO |- *. unfold sls_left in NONE, ZERO. rewrite B3, B4, B5 in *. rewrite NF in HO.
  destruct (is_empty (left_txt f)) eqn:E.
  { apply is_empty_eq in E. apply NONE.
    destruct (Z.eqb_spec (zlen (left_space f)) sp) as [EQ|NE]; [discriminate|].
    apply bind_Ok in HO as (ls' & HL & HO). apply blanks_z_Ok in HL as [P ->].
    injection HO as <- <- <-. rewrite EL, ES, E. cbn [is_empty].
    rewrite zlen_spaces by auto. now rewrite Z.eqb_refl. }
  apply is_empty_false in E. destruct LT as [LT|LT]; [congruence|].
  destruct (has_label f) eqn:HL.
  - apply NONE.
    destruct (Z.ltb_spec (zlen (left_txt f)) sp).
    + destruct (Z.eqb_spec (zlen (left_space f)) (sp - zlen (left_txt f))); [discriminate|].
      apply bind_Ok in HO as (ls' & HB & HO). apply blanks_z_Ok in HB as [P ->].
      injection HO as <- <- <-. rewrite EL, ES.
      assert (is_empty (left_txt f) = false) as -> by now apply is_empty_false.
      destruct (Z.ltb_spec (zlen (left_txt f)) sp); [|lia].
      rewrite zlen_spaces by auto. now rewrite Z.eqb_refl.
    + destruct (Z.eqb_spec (zlen (left_space f)) 1); [discriminate|].
      injection HO as <- <- <-. rewrite EL, ES.
      assert (is_empty (left_txt f) = false) as -> by now apply is_empty_false.
      destruct (Z.ltb_spec (zlen (left_txt f)) sp); [lia|]. reflexivity.
  - destruct LT as [LT|LT]; [congruence|]. rewrite LT in *. cbn [andb negb] in *.
    destruct (Z.eqb_spec (zlen (left_txt f) + zlen (left_space f)) sp); [discriminate|].
    destruct (Z.ltb_spec (zlen (left_txt f) + zlen (left_space f)) sp).
    + apply NONE. injection HO as <- <- <-.
      assert (zlen (left_txt f') + zlen (left_space f') = sp)%Z as ->.
      { rewrite EL, ES. unfold zlen in *. rewrite app_length, spaces_length. lia. }
      assert (is_empty (left_txt f') = false) as ->.
      { rewrite EL. apply is_empty_false. intros X. apply app_eq_nil in X as [_ X]. auto. }
      now rewrite Z.eqb_refl.
    + destruct (find_first_not_of [c_sp] (left_txt f)) as [pos|] eqn:FS; [|discriminate].
      injection HO as <- <- <-. apply find_sp_split in FS as (core & EC & CN & FC).
      set (rc := Z.min (Z.of_nat pos) (zlen (left_txt f) + zlen (left_space f) - sp)) in *.
      assert (left_txt f' = spaces (pos - Z.to_nat rc) ++ core) as EF.
      { rewrite EL, EC. replace pos with (Z.to_nat rc + (pos - Z.to_nat rc)) at 1 by lia.
        rewrite spaces_add, <- app_assoc.
        rewrite <- (spaces_length (Z.to_nat rc)) at 1. apply skipn_app_len. }
      assert (is_empty (left_txt f') = false) as NE.
      { rewrite EF. apply is_empty_false. intros X. apply app_eq_nil in X as [_ X]. auto. }
      rewrite NE in *.
      assert (zlen (left_txt f) = Z.of_nat pos + zlen core)%Z as Z1.
      { rewrite EC. unfold zlen. rewrite app_length, spaces_length. lia. }
      assert (zlen (left_txt f') = Z.of_nat pos - rc + zlen core)%Z as Z2.
      { rewrite EF. unfold zlen. rewrite app_length, spaces_length. lia. }
      destruct (Z.eqb_spec (zlen (left_txt f') + zlen (left_space f')) sp).
      { now apply NONE. }
      rewrite ES in *.
      destruct (Z.ltb_spec (zlen (left_txt f') + zlen (left_space f)) sp); [lia|].
      apply ZERO; auto. rewrite EF at 1. rewrite find_sp_spaces by auto.
      assert (pos - Z.to_nat rc = 0) as P0 by lia. rewrite P0. simpl Z.of_nat.
      rewrite Z.min_l by lia. reflexivity.
Qed.

(** defined: unless a trailing comment has to be shifted right from behind an
    '&' *)
Lemma sls_defined f sp :
  is_fortran f = true -> is_fixed_format f = false -> (0 <= sp)%Z ->
  (left_txt f = [] \/ has_label f = true \/
   (is_continuation f = true /\ exists n core, left_txt f = spaces n ++ core /\
      find_first_not_of [c_sp] core = Some 0)) ->
  (right_txt f = [] \/ (exists r, right_txt f = c_bang :: r) \/ ~ In c_bang (right_txt f) \/
   2 <= length (right_space f) /\ exists r, right_txt f = c_amp :: c_sp :: c_bang :: r) ->
  exists f' ch, set_leading_spaces f sp = Ok (f', ch).
Proof.
  intros F NF SP LT RT. unfold set_leading_spaces. rewrite (fortran_not_comment _ F), F.
  assert (RR : forall off, exists rs, sls_right (right_space f) (right_txt f) (Some off) = Ok rs).
  { intros off. unfold sls_right. destruct (is_empty (right_txt f)) eqn:E; eauto.
    destruct (off =? 0)%Z; eauto.
    destruct (find_char c_bang (right_txt f)) as [pos|] eqn:FB; eauto.
    destruct (off <? 0)%Z.
    - unfold insert_at.
      assert (pos <= length (right_space f)) as LE.
      { destruct RT as [RT|[(r & RT)|[RT|(L2 & r & RT)]]].
        - rewrite RT in E. discriminate.
        - rewrite RT in FB. injection FB as <-. lia.
        - exfalso. unfold find_char in FB. apply find_from_Some in FB as (p & c & q & EQ & _ & Hc & _).
          apply ceq_true in Hc. subst c. apply RT. rewrite EQ. apply in_or_app. right. now left.
        - rewrite RT in FB. injection FB as <-. lia. }
      apply Nat.leb_le in LE. rewrite LE. eauto.
    - destruct (_ =? _)%Z; eauto. }
  assert (OO : exists o, sls_left f sp = Ok o /\ (o = None \/ exists lt ls off, o = Some (lt, ls, Some off))).
  { unfold sls_left. destruct (is_empty (left_txt f)) eqn:E.
    - destruct (_ =? _)%Z; eauto.
      assert (blanks_z sp = Ok (spaces (Z.to_nat sp))) as -> by now apply blanks_z_Ok.
      cbn [bind]. eexists. split; eauto 6.
    - apply is_empty_false in E. destruct LT as [LT|LT]; [congruence|].
      destruct (has_label f) eqn:HL.
      + destruct (Z.ltb_spec (zlen (left_txt f)) sp).
        * destruct (_ =? _)%Z; eauto.
          assert (blanks_z (sp - zlen (left_txt f)) = Ok (spaces (Z.to_nat (sp - zlen (left_txt f))))) as ->
            by (apply blanks_z_Ok; split; auto; lia).
          cbn [bind]. eexists. split; eauto 6.
        * destruct (_ =? _)%Z; eauto. eexists. split; eauto 6.
      + destruct LT as [LT|(LT & n & core & EL & FC)]; [congruence|].
        rewrite LT, NF. cbn [andb negb].
        destruct (_ =? sp)%Z; eauto. destruct (_ <? sp)%Z; [eexists; split; eauto 6|].
        assert (find_first_not_of [c_sp] (left_txt f) = Some n) as -> by (rewrite EL; now apply find_sp_spaces). eexists. split; eauto 6. }
  destruct OO as (o & -> & [->|(lt & ls & off & ->)]); cbn [bind]; eauto.
  destruct (RR off) as (rs & ->). cbn [bind]. eauto.
Qed.

(** ** comment lines *)
Lemma find_bang_blank b r : all_blank b -> find_char c_bang (b ++ c_bang :: r) = Some (length b).
Proof.
  intros Hb. unfold find_char. apply find_from_Some. exists b, c_bang, r. conjs; auto.
  - apply forallb_forall. intros x Hx. unfold all_blank in Hb. rewrite Forall_forall in Hb.
    apply Hb in Hx. apply negb_true_iff. destruct (ceq c_bang x) eqn:E; auto.
    apply ceq_true in E. subst. discriminate.
Qed.

Lemma spaces_blank n : all_blank (spaces n).
Proof. apply Forall_forall. intros x Hx. apply repeat_spec in Hx. now subst. Qed.

Lemma sls_comment_spec f sp b r :
  is_comment f = true -> (0 <= sp)%Z ->
  left_txt f = b ++ c_bang :: r -> all_blank b ->
  left_space f = [] -> main_txt f = [] -> right_space f = [] -> right_txt f = [] ->
  exists f' ch p r', set_leading_spaces f sp = Ok (f', ch) /\
    r = p ++ r' /\ Forall (fun c => mem c set_st = true) p /\
    (ch = false -> f' = f) /\
    (ch = true -> left_txt f' = spaces (Z.to_nat sp) ++ c_bang :: r' /\ f' = with_text f (left_txt f') [] [] [] []) /\
    get_leading_spaces f' = sp.
Proof.
  intros C SP E Hb E1 E2 E3 E4. unfold set_leading_spaces. rewrite C. unfold sls_comment.
  rewrite E, find_bang_blank by auto.
  assert (SELF : with_text f (b ++ c_bang :: r) [] [] [] [] = f).
  { destruct f; cbn in *. now subst. }
  assert (GET : forall r', get_leading_spaces (with_text f (spaces (Z.to_nat sp) ++ c_bang :: r') [] [] [] []) = sp).
  { intros r'. unfold get_leading_spaces.
    change (is_comment (with_text f (spaces (Z.to_nat sp) ++ c_bang :: r') [] [] [] [])) with (is_comment f).
    rewrite C. cbn [left_txt with_text]. rewrite find_bang_blank by apply spaces_blank.
    rewrite spaces_length. lia. }
  cbv zeta. destruct (Z.eqb_spec (Z.of_nat (length b)) sp) as [EQ|NE].
  { exists f, false, [], r. rewrite SELF. conjs; auto; try discriminate.
    unfold get_leading_spaces. rewrite C, E, find_bang_blank by auto. lia. }
  assert (BZ : blanks_z sp = Ok (spaces (Z.to_nat sp))) by now apply blanks_z_Ok.
  assert (FIN : forall p r', r = p ++ r' -> Forall (fun c => mem c set_st = true) p ->
     exists f' ch p0 r'0, (pre <- blanks_z sp;; Ok (with_text f (pre ++ c_bang :: r') [] [] [] [], true)) = Ok (f', ch) /\
      r = p0 ++ r'0 /\ Forall (fun c => mem c set_st = true) p0 /\
      (ch = false -> f' = f) /\
      (ch = true -> left_txt f' = spaces (Z.to_nat sp) ++ c_bang :: r'0 /\ f' = with_text f (left_txt f') [] [] [] []) /\
      get_leading_spaces f' = sp).
  { intros p r' EP HP. rewrite BZ. cbn [bind]. do 2 eexists. exists p, r'. conjs; eauto; discriminate. }
  destruct (Nat.eqb_spec (length b) 0) as [B0|BN].
  - destruct b; [|discriminate]. simpl app.
    assert (GEN : forall k, erase_n (c_bang :: r) 1 k = Ok (c_bang :: skipn k r)).
    { intros k. unfold erase_n. cbn [length]. destruct (Nat.leb_spec 1 (S (length r))); [|lia].
      reflexivity. }
    destruct (find_first_not_of_from set_st (c_bang :: r) 1) as [tp|] eqn:FT.
    2:{ cbn [bind]. apply (FIN [] r); auto. }
    unfold find_first_not_of_from in FT. cbn [skipn] in FT.
    apply find_from_Some in FT as (p & c & q & EQ & -> & Hc & Hp).
    assert (PRE : forall k, k <= length p -> Forall (fun c => mem c set_st = true) (firstn k r)).
    { intros k LK. rewrite EQ, firstn_app. replace (k - length p) with 0 by lia.
      simpl. rewrite app_nil_r. apply Forall_forall. intros x Hx. apply In_firstn in Hx.
      rewrite forallb_forall in Hp. apply Hp in Hx. now rewrite negb_involutive in Hx. }
    destruct (Z.ltb_spec 5 (Z.of_nat (1 + length p))).
    + destruct (Z.leb_spec (sp + 5) (Z.of_nat (1 + length p))).
      * unfold erase_z. destruct (Z.ltb_spec (sp + 4) 0); [lia|].
        rewrite GEN. cbn [bind].
        apply (FIN (firstn (Z.to_nat (sp + 4)) r)); [symmetry; apply firstn_skipn|].
        apply PRE. lia.
      * rewrite GEN. cbn [bind].
        apply (FIN (firstn 4 r)); [symmetry; apply firstn_skipn|]. apply PRE. lia.
    + cbn [bind]. apply (FIN [] r); auto.
  - unfold erase_n. rewrite app_length. cbn [length Nat.leb].
    cbn [firstn app]. rewrite Nat.add_0_l, skipn_app_len. cbn [bind].
    apply (FIN [] r); auto.
Qed.
