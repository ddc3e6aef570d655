(** Proofs about the fixed to free conversion: the converted lines. *)
From Verif Require Import Base Tags FileLine FileLine_spec FixedLine_spec LogicalFile LogicalFile_spec
  LogicalLine Token LineEdit Convert Convert_spec Base_lemmas.
From Coq Require Import Sorting.Sorted.
Local Open Scope nat_scope.

Lemma lines_from_In n : forall b x, In x (lines_from b n) <-> (b <= x < b + Z.of_nat n)%Z.
Proof.
  induction n as [|n IH]; intros b x; cbn [lines_from In]; [lia|]. rewrite IH. lia.
Qed.
Lemma lines_from_sorted n : forall b, StronglySorted Z.lt (lines_from b n).
Proof.
  induction n as [|n IH]; intros b; cbn [lines_from]; constructor; auto.
  apply Forall_forall. intros x H. apply lines_from_In in H. lia.
Qed.
Lemma sorted_app (a b : list Z) : StronglySorted Z.lt a -> StronglySorted Z.lt b ->
  (forall x y, In x a -> In y b -> (x < y)%Z) -> StronglySorted Z.lt (a ++ b).
Proof.
  induction 1 as [|x a A IH F]; intros B H; cbn [app]; auto. constructor.
  - apply IH; auto. intros. apply H; cbn; auto.
  - apply Forall_app; split; auto. apply Forall_forall. intros y Y. apply H; cbn; auto.
Qed.

Lemma in_order_from l : forall from x b, in_order from l -> In x l -> mt_bl x = Some b -> (from <= b)%Z.
Proof.
  induction l as [|y r IH]; intros from x b; cbn [in_order In]; [tauto|].
  intros (b' & e' & B & E & LE & O) [<-|I] HB.
  - rewrite B in HB. injection HB as <-. lia.
  - specialize (IH _ _ _ O I HB). lia.
Qed.
Lemma front_lines_ok l : forall from, in_order from l ->
  exists ns, front_lines l = Ok ns /\ StronglySorted Z.lt ns /\
    forall n, In n ns <->
      exists x b e, In x l /\ mt_bl x = Some b /\ mt_el x = Some e /\ (b < n <= e)%Z.
Proof.
  induction l as [|x r IH]; intros from; cbn [in_order front_lines].
  - intros _. exists []. split; auto. split; [constructor|]. intros n. split; [intros []|].
    intros (x & _ & _ & [] & _).
  - intros (b & e & B & E & LE & O). pose proof O as O'. apply IH in O as (ns & -> & SS & I).
    unfold is_split_token. rewrite B, E. cbn [rd bind].
    assert (forall n, In n ns -> (e < n)%Z) as GT.
    { intros n N. apply I in N as (y & b' & e' & Y & YB & _ & ?).
      pose proof (in_order_from _ _ _ _ O' Y YB). lia. }
    destruct (Z.eqb_spec b e) as [->|NE]; cbn [negb]; eexists; (split; [reflexivity|]).
    + split; auto. intros n. rewrite I. split.
      * intros (y & b' & e' & Y & ?). exists y, b', e'. cbn [In]. tauto.
      * intros (y & b' & e' & [<-|Y] & HB & HE & ?); [|exists y, b', e'; auto].
        rewrite B in HB. rewrite E in HE. injection HB as <-. injection HE as <-. lia.
    + split.
      * apply sorted_app; auto using lines_from_sorted.
        intros u v U V. apply lines_from_In in U. apply GT in V. lia.
      * intros n. rewrite in_app_iff, lines_from_In, I. split.
        -- intros [H|(y & b' & e' & Y & ?)].
           ++ exists x, b, e. cbn [In]. conjs; auto; lia.
           ++ exists y, b', e'. cbn [In]. tauto.
        -- intros (y & b' & e' & [<-|Y] & HB & HE & ?).
           ++ left. rewrite B in HB. rewrite E in HE. injection HB as <-. injection HE as <-. lia.
           ++ right. exists y, b', e'. auto.
Qed.

(** ** The loop over the lines *)
Lemma line_converted_iff (P P' Q Q' R R' : Prop) f g : (P <-> P') -> (Q <-> Q') -> (R <-> R') ->
  line_converted P Q R f g -> line_converted P' Q' R' f g.
Proof. unfold line_converted, code_converted. tauto. Qed.

Lemma same_content_refl f : is_fixed_format f = false -> same_content f f.
Proof. unfold same_content. auto 12. Qed.

Lemma free_comment_ok f : is_fixed_format f = false -> left_txt f <> [] ->
  exists g, free_comment f = Ok g /\ comment_converted f g.
Proof.
  intros X N. unfold free_comment. destruct (left_txt f) as [|c r] eqn:E; [congruence|].
  eexists. split; [reflexivity|]. destruct (ceq c c_sp) eqn:C.
  - apply ceq_true in C. unfold comment_converted. split; [now apply same_content_refl|].
    conjs; auto. exists c, r. auto.
  - apply ceq_false in C. unfold comment_converted, same_content, with_text.
    cbn [linenum left_txt left_space main_txt right_space right_txt open_delim].
    conjs; auto. exists c, r. auto.
Qed.

Lemma mark_end_fields f :
  linenum (mark_end f) = linenum f /\ left_txt (mark_end f) = left_txt f /\
  left_space (mark_end f) = left_space f /\ main_txt (mark_end f) = main_txt f /\
  open_delim (mark_end f) = open_delim f /\ bits (mark_end f) = put_continued true (bits f).
Proof. unfold mark_end. destruct (is_empty (right_txt f)); cbn; auto 10. Qed.
Lemma mark_end_ok f : end_mark f (mark_end f).
Proof.
  unfold end_mark, mark_end, is_continued. destruct (right_txt f) as [|c r] eqn:E; cbn [is_empty].
  - cbn. auto.
  - split; [reflexivity|]. right. split; [discriminate|].
    cbn [with_text with_bits right_txt right_space]. split; [reflexivity|].
    destruct (ceq (open_delim f) c_nul && (2 <? length (right_space f))) eqn:B; [right|auto].
    apply andb_prop in B as [_ B]. apply Nat.ltb_lt in B.
    destruct (right_space f) as [|a [|b q]]; cbn [length] in B; try lia. exists a, b. split; [reflexivity|]. destruct q; [cbn [length] in B; lia|discriminate].
Qed.

Lemma skip_S {A} (l : list A) i : skipn (S i) l = skipn i (tl l).
Proof. destruct l; cbn; [now rewrite skipn_nil|reflexivity]. Qed.

Lemma spaces_eqb s : forallb (ceq c_sp) s = true <-> s = spaces (length s).
Proof.
  induction s as [|c s IH]; cbn [forallb length spaces repeat]; [tauto|].
  unfold spaces in *. cbn [repeat]. rewrite andb_true_iff, IH. split.
  - intros [H1 H2]. apply ceq_true in H1. congruence.
  - intros H. injection H as H1 H2. split; auto. apply ceq_true. auto.
Qed.

Definition continues (l : list File_Line) : Prop :=
  forall i f, nth_error l i = Some f ->
    (is_comment f = true -> left_txt f <> []) /\ is_fixed_format f = false.

Lemma code_not_comment f : is_fortran f = true -> is_comment f = false.
Proof.
  unfold is_fortran, is_trivial. destruct (is_comment f); auto.
Qed.

Lemma free_stmt_ok : forall l idx k needs, (0 <= idx)%Z ->
  continues l ->
  (forall i f, nth_error l i = Some f -> is_fortran f = true -> (k = 0 -> ~ first_code l i) ->
     exists c, left_txt f = spaces 5 ++ [c]) ->
  StronglySorted Z.lt needs ->
  (forall n, In n needs -> (idx <= n)%Z /\ fortran_upto l (Z.to_nat (n - idx))) ->
  (k = 0 -> ~ In idx needs) ->
  exists l', free_stmt l idx k (k + count_fortran l) needs = Ok l' /\ length l' = length l /\
    forall i f, nth_error l i = Some f ->
      exists g, nth_error l' i = Some g /\
        line_converted (k = 0 /\ first_code l i) (more_code l i) (In (idx + Z.of_nat i)%Z needs) f g.
Proof.
  induction l as [|f r IH]; intros idx k needs I0 C M SS N N0; cbn [free_stmt].
  { exists []. split; auto. split; auto. intros [|i] f; discriminate. }
  assert (continues r) as Cr by (intros i g H; exact (C (S i) g H)).
  destruct (C 0 f eq_refl) as [Cf Xf].
  assert (TOT : count_fortran (f :: r) = (if is_fortran f then 1 else 0) + count_fortran r).
  { unfold count_fortran. cbn [filter]. destruct (is_fortran f); reflexivity. }
  destruct (is_fortran f) eqn:F.
  - (* a Fortran line *)
    rewrite TOT.
    assert (MORE : more_code (f :: r) 0 <-> 0 < count_fortran r).
    { unfold more_code, count_fortran. cbn [skipn]. clear. induction r as [|g r IH]; cbn [filter].
      - split; [intros H; inversion H|cbn; lia].
      - rewrite Exists_cons. destruct (is_fortran g) eqn:G; cbn [length].
        + split; [lia|auto].
        + rewrite IH. split; [intros [?|?]; auto; congruence|auto]. }
    assert (REST : forall needs', StronglySorted Z.lt needs' ->
      (forall n, In n needs' -> (idx + 1 <= n)%Z /\ In n needs) ->
      exists l', free_stmt r (idx + 1) (k + 1) (k + (1 + count_fortran r)) needs' = Ok l' /\
        length l' = length r /\
        forall i g, nth_error r i = Some g -> exists g', nth_error l' i = Some g' /\
          line_converted False (more_code r i) (In (idx + 1 + Z.of_nat i)%Z needs') g g').
    { intros needs' S' N'. destruct (IH (idx + 1)%Z (k + 1) needs') as (l' & E & LE & P); auto; try lia.
      - intros i g G GF _. apply (M (S i) g G GF). intros _ FC.
        inversion FC; subst. congruence.
      - intros n IN. apply N' in IN as [G IN]. apply N in IN as (_ & FU).
        replace (Z.to_nat (n - idx)) with (S (Z.to_nat (n - (idx + 1)))) in FU by lia.
        split; auto.
        unfold fortran_upto in *. cbn [firstn] in FU. inversion FU; auto.
      - exists l'. replace (k + (1 + count_fortran r)) with (k + 1 + count_fortran r) by lia.
        split; auto. split; auto. intros i g G. apply P in G as (g' & G' & LC).
        exists g'. split; auto. eapply line_converted_iff; [| | |exact LC]; try tauto. split; [lia|tauto]. }
    set (f1 := if k + 1 <? k + (1 + count_fortran r) then mark_end f else f).
    assert (F1 : same_content f f1 /\ left_txt f1 = left_txt f /\ left_space f1 = left_space f /\
                 is_continuation f1 = is_continuation f /\
                 (more_code (f :: r) 0 -> end_mark f f1) /\ (~ more_code (f :: r) 0 -> end_same f f1)).
    { subst f1. rewrite MORE. destruct (Nat.ltb_spec (k + 1) (k + (1 + count_fortran r))).
      - destruct (mark_end_fields f) as (E1 & E2 & E3 & E4 & E5 & E6).
        split; [|split; auto; split; auto; split; [|split; [intros _; apply mark_end_ok|lia]]].
        + unfold same_content, has_label, is_comment, is_blank, is_preprocessor, is_include, is_flpr_pp,
            is_flpr_lit, is_fixed_format. rewrite E6. unfold is_fixed_format in Xf.
          cbn [put_continued b_fixed b_label b_comment b_blank b_preprocessor b_include b_flpr_pp b_flpr_lit].
          auto 12.
        + unfold is_continuation. rewrite E6. reflexivity.
      - split; [now apply same_content_refl|]. conjs; auto; [lia|]. intros _. unfold end_same. auto. }
    destruct F1 as (SC & LT1 & LS1 & CN1 & EM & ES).
    assert (NC : is_comment f = false) by now apply code_not_comment.
    (* put the pieces together *)
    assert (FIN : forall f2 needs',
      ((if k =? 0 then Ok (shift_first f1, needs) else mark_front f1 idx needs) = Ok (f2, needs')) ->
      StronglySorted Z.lt needs' ->
      (forall n, In n needs <-> In n needs' \/ (In idx needs /\ n = idx)) -> 
      (forall n, In n needs' -> (idx + 1 <= n)%Z) ->
      code_converted (k = 0) (more_code (f :: r) 0) (In idx needs) f f2 ->
      exists l', (' (f2, needs') <- (if k =? 0 then Ok (shift_first f1, needs) else mark_front f1 idx needs) ;;
        r' <- free_stmt r (idx + 1) (k + 1) (k + (1 + count_fortran r)) needs' ;; Ok (f2 :: r')) = Ok l' /\
        length l' = length (f :: r) /\
        forall i g, nth_error (f :: r) i = Some g -> exists g', nth_error l' i = Some g' /\
        line_converted (k = 0 /\ first_code (f :: r) i) (more_code (f :: r) i) (In (idx + Z.of_nat i)%Z needs) g g').
    { intros f2 needs' E S' I' G' CC. rewrite E. cbn [bind].
      destruct (REST needs') as (l' & E' & LE & P); auto.
      { intros n H. split; auto. apply I'. auto. }
      rewrite E'. cbn [bind]. exists (f2 :: l'). split; auto. split; [cbn; lia|].
      intros [|i] g H; cbn [nth_error] in *.
      - injection H as <-. exists f2. split; auto. rewrite Z.add_0_r.
        split; [|split; [congruence|congruence]]. intros _.
        assert ((k = 0 /\ first_code (f :: r) 0) <-> k = 0) as T.
        { split; [tauto|]. intros. split; auto. constructor. }
        revert CC. unfold code_converted. rewrite !T. auto.
      - apply P in H as (g' & HG & LC). exists g'. split; auto.
        eapply line_converted_iff; [| | |exact LC].
        + split; [tauto|]. intros [_ FC]. inversion FC; subst. congruence.
        + unfold more_code. cbn [skipn]. tauto.
        + rewrite I'. replace (idx + Z.of_nat (S i))%Z with (idx + 1 + Z.of_nat i)%Z by lia.
          split; [auto|]. intros [?|[_ ?]]; auto; lia. }
    destruct (Nat.eqb_spec k 0) as [K0|K1].
    + (* the first one *)
      apply (FIN (shift_first f1) needs); auto.
      * intros n. split; auto. intros [?|[? ->]]; auto.
      * intros n H. destruct (Z.eq_dec n idx) as [->|NE]; [exfalso; now apply N0|].
        apply N in H as (? & _). lia.
      * assert (SF : same_content f (shift_first f1) /\ is_continuation (shift_first f1) = is_continuation f /\
          right_space (shift_first f1) = right_space f1 /\ right_txt (shift_first f1) = right_txt f1 /\
          is_continued (shift_first f1) = is_continued f1).
        { unfold shift_first. destruct (is_empty (left_txt f1)); auto 8. }
        destruct SF as (SF & CN & RS & RT & CT).
        split; auto. split; [|split; [tauto|split; [tauto|]]].
        -- intros _. split; auto. unfold front_plain, front_same, shift_first. rewrite LT1.
           destruct (left_txt f); cbn [is_empty with_text left_txt left_space].
           ++ rewrite LS1. split; auto. congruence.
           ++ split; [discriminate|]. auto.
        -- unfold end_mark, end_same in *. rewrite RS, RT, CT. auto.
    + (* a later one *)
      destruct (M 0 f eq_refl F) as (c & LT); [intros; lia|].
      assert (LEN : length (left_txt f1) =? 6 = true) by (rewrite LT1, LT; reflexivity).
      assert (F5 : firstn 5 (left_txt f1) = spaces 5) by (rewrite LT1, LT; reflexivity).
      assert (CUT : In idx needs -> 
        code_converted (k = 0) (more_code (f :: r) 0) (In idx needs) f
         (with_text f1 (firstn 5 (left_txt f1) ++ [c_amp]) (left_space f1) (main_txt f1) (right_space f1) (right_txt f1)) ).
      { intros H. split.
        { unfold same_content, has_label, is_comment, is_blank, is_preprocessor, is_include, is_flpr_pp,
            is_flpr_lit, is_fixed_format in *.
          cbn [with_text linenum main_txt open_delim bits]. tauto. }
        split; [lia|]. split; [intros _ _|split; [tauto|]].
        - split; [exact CN1|]. unfold front_mark. cbn [with_text left_txt left_space]. rewrite LT1, LS1. auto.
        - unfold end_mark, end_same, is_continued in *. cbn [with_text right_space right_txt bits]. auto. }
      assert (UNC : ~ In idx needs ->
        code_converted (k = 0) (more_code (f :: r) 0) (In idx needs) f
         (with_text (with_bits f1 (unset_continuation (bits f1)))
              [] (spaces 6 ++ left_space f1) (main_txt f1) (right_space f1) (right_txt f1))).
      { intros H. split.
        { unfold same_content, has_label, is_comment, is_blank, is_preprocessor, is_include, is_flpr_pp,
            is_flpr_lit, is_fixed_format in *.
          cbn [with_text with_bits linenum main_txt open_delim bits unset_continuation
            b_fixed b_label b_comment b_blank b_preprocessor b_include b_flpr_pp b_flpr_lit]. tauto. }
        split; [lia|]. split; [tauto|]. split; [intros _ _|].
        - split; [reflexivity|]. unfold front_plain. cbn [with_text left_txt left_space]. rewrite LS1. auto.
        - unfold end_mark, end_same, is_continued in *.
          cbn [with_text with_bits right_space right_txt bits unset_continuation b_continued]. auto. }
      unfold mark_front in *. rewrite LEN, F5 in *. cbn [assert_ bind] in *.
      replace (forallb (ceq c_sp) (spaces 5)) with true in * by reflexivity. cbn [assert_ bind] in *.
      destruct needs as [|n needs'].
      * eapply FIN; try reflexivity; auto; cbn [In]; try tauto.
      * inversion SS as [|? ? SS' LTN]; subst. rewrite Forall_forall in LTN.
        destruct (Z.eqb_spec n idx) as [->|NE].
        -- eapply FIN; try reflexivity; auto; cbn [In] in *.
           ++ intros m. intuition.
           ++ intros m H. apply LTN in H. lia.
           ++ apply CUT; auto.
        -- assert (~ In idx (n :: needs')) as NI.
           { cbn [In]. intros [?|H]; [congruence|]. apply LTN in H.
             destruct (N n (or_introl eq_refl)) as (? & _). lia. }
           eapply FIN; try reflexivity; auto.
           ++ intros m. tauto.
           ++ intros m H. destruct (N m H) as (? & _). destruct (Z.eq_dec m idx); [congruence|lia].
  - (* another line: no token is cut from here on *)
    assert (needs = []) as ->.
    { destruct needs as [|n needs]; auto. exfalso. destruct (N n (or_introl eq_refl)) as (_ & FU).
      unfold fortran_upto in FU. cbn [firstn] in FU. inversion FU; congruence. }
    rewrite TOT. cbn [Nat.add].
    destruct (IH (idx + 1)%Z k []) as (l' & E & LE & P); auto; try lia.
    { intros i g G GF H. apply (M (S i) g G GF). intros K0 FC. apply (H K0).
      unfold first_code in *. cbn [firstn] in FC. now inversion FC. }
    { intros n []. }
    rewrite E.
    assert (exists g, (if is_comment f then free_comment f else Ok f) = Ok g /\
              (is_comment f = true -> comment_converted f g) /\
              (is_comment f = false -> other_converted f g)) as (g & -> & G1 & G2).
    { destruct (is_comment f) eqn:CM.
      - destruct (free_comment_ok f Xf) as (g & G & CC); auto. exists g. split; auto. split; auto. discriminate.
      - exists f. split; auto. split; [discriminate|]. intros _. unfold other_converted.
        split; [now apply same_content_refl|]. auto 10. }
    cbn [bind]. exists (g :: l'). split; auto. split; [cbn; lia|].
    intros [|i] h H; cbn [nth_error] in *.
    + injection H as <-. exists g. split; auto. split; [congruence|]. auto.
    + apply P in H as (g' & HG & LC). exists g'. split; auto.
      eapply line_converted_iff; [| | |exact LC].
      * unfold first_code. cbn [firstn]. split; [intros [? ?]; auto|].
        intros [? FC]. inversion FC; auto.
      * unfold more_code. cbn [skipn]. tauto.
      * cbn [In]. tauto.
Qed.

Lemma unset_fixed_is f :
  is_fortran (unset_fixed f) = is_fortran f /\ is_comment (unset_fixed f) = is_comment f /\
  left_txt (unset_fixed f) = left_txt f /\ is_fixed_format (unset_fixed f) = false.
Proof. unfold unset_fixed, with_bits. cbn. auto. Qed.
Lemma unset_converted P Q R f g : line_converted P Q R (unset_fixed f) g -> line_converted P Q R f g.
Proof.
  unfold line_converted, code_converted, comment_converted, other_converted, same_content, front_plain,
    front_same, front_mark, end_same, end_mark.
  exact (fun H => H).
Qed.
Lemma first_code_map l i : first_code (map unset_fixed l) i <-> first_code l i.
Proof.
  unfold first_code. rewrite firstn_map. rewrite Forall_map. reflexivity.
Qed.
Lemma more_code_map l i : more_code (map unset_fixed l) i <-> more_code l i.
Proof.
  unfold more_code. rewrite skipn_map. rewrite Exists_map. reflexivity.
Qed.
Lemma count_map l : count_fortran (map unset_fixed l) = count_fortran l.
Proof.
  unfold count_fortran. induction l as [|f l IH]; auto. cbn [map filter].
  destruct (unset_fixed_is f) as (-> & _). destruct (is_fortran f); cbn [length]; auto.
Qed.

Lemma free_other_ok l : continues l -> Forall (fun f => is_fortran f = false) l ->
  exists l', free_other l = Ok l' /\ length l' = length l /\
    forall i f, nth_error l i = Some f -> exists g, nth_error l' i = Some g /\
      forall P Q R, line_converted P Q R f g.
Proof.
  induction l as [|f r IH]; intros C F; cbn [free_other].
  { exists []. split; auto. split; auto. intros [|i] f; discriminate. }
  inversion F as [|? ? Ff Fr]; subst.
  destruct IH as (l' & -> & LE & P); auto. { intros i g H; exact (C (S i) g H). }
  destruct (C 0 f eq_refl) as [Cf Xf].
  assert (exists g, (if is_comment f then free_comment f else Ok f) = Ok g /\
              (is_comment f = true -> comment_converted f g) /\
              (is_comment f = false -> other_converted f g)) as (g & -> & G1 & G2).
  { destruct (is_comment f) eqn:CM.
    - destruct (free_comment_ok f Xf) as (g & G & CC); auto. exists g. split; auto. split; auto. discriminate.
    - exists f. split; auto. split; [discriminate|]. intros _. unfold other_converted.
      split; [now apply same_content_refl|]. auto 10. }
  cbn [bind]. exists (g :: l'). split; auto. split; [cbn; lia|].
  intros [|i] h H; cbn [nth_error] in *.
  - injection H as <-. exists g. split; auto. intros A B D. split; [congruence|]. auto.
  - apply P in H. exact H.
Qed.

Lemma nth_error_map_inv {A B} (f : A -> B) l : forall i y, nth_error (map f l) i = Some y ->
  exists x, nth_error l i = Some x /\ y = f x.
Proof.
  induction l as [|x l IH]; intros [|i] y; cbn [map nth_error]; try discriminate; auto.
  intros H. injection H as <-. eauto.
Qed.
Lemma convertible_continues l : convertible l -> continues (map unset_fixed l).
Proof.
  intros C i f H. apply nth_error_map_inv in H as (f0 & H & ->). split; [|apply unset_fixed_is].
  destruct (unset_fixed_is f0) as (_ & -> & -> & _). apply (C i f0 H).
Qed.

Lemma convert_stmt_ok ll f : hd_error (l_layout ll) = Some f -> is_fixed_format f = true ->
  is_fortran f = true -> convertible (l_layout ll) -> tokens_fit ll ->
  exists l', convert_ll ll = Ok (with_layout ll l', true) /\
    layout_converted (l_frags ll) (l_layout ll) l'.
Proof.
  intros HD X F C (O & FIT). unfold convert_ll. destruct (l_layout ll) as [|f0 r] eqn:EL; [discriminate|].
  injection HD as ->. rewrite X, F. rewrite <- EL in *.
  destruct (front_lines_ok _ _ O) as (ns & -> & SS & IN). cbn [bind].
  assert (CI : forall i, In (Z.of_nat i) ns <-> cuts (l_frags ll) i).
  { intros i. rewrite IN. reflexivity. }
  assert (POS : forall n, In n ns -> (1 <= n)%Z).
  { intros n H. apply IN in H as (x & b & e & Ix & B & _ & ?).
    pose proof (in_order_from _ _ _ _ O Ix B). lia. }
  destruct (free_stmt_ok (map unset_fixed (l_layout ll)) 0 0 ns) as (l' & E & LE & P); auto; try lia.
  - now apply convertible_continues.
  - intros i g H G FC. apply nth_error_map_inv in H as (g0 & H & ->).
    destruct (unset_fixed_is g0) as (E1 & _ & E2 & _). rewrite E1 in G. rewrite E2.
    apply (C i g0 H); auto. rewrite <- first_code_map. auto.
  - intros n H. pose proof (POS n H). split; [lia|]. rewrite Z.sub_0_r.
    assert (cuts (l_frags ll) (Z.to_nat n)) as CT by (apply CI; rewrite Z2Nat.id by lia; auto).
    apply FIT in CT. unfold fortran_upto in *. rewrite firstn_map, Forall_map. exact CT.
  - intros _ H. apply POS in H. lia.
  - cbn [Nat.add] in E. rewrite E. cbn [bind]. exists l'. split; auto.
    rewrite map_length in LE. split; auto. intros i g H.
    destruct (P i (unset_fixed g)) as (h & Hh & LC). { now apply map_nth_error. }
    exists h. split; auto. apply unset_converted. eapply line_converted_iff; [| | |exact LC].
    + rewrite first_code_map. tauto.
    + apply more_code_map.
    + rewrite <- CI. replace (0 + Z.of_nat i)%Z with (Z.of_nat i) by lia. tauto.
Qed.

Lemma convert_other_ok ll f : hd_error (l_layout ll) = Some f -> is_fixed_format f = true ->
  Forall (fun f => is_fortran f = false) (l_layout ll) -> convertible (l_layout ll) ->
  exists l', convert_ll ll = Ok (with_layout ll l', true) /\
    layout_converted (l_frags ll) (l_layout ll) l'.
Proof.
  intros HD X F C. unfold convert_ll. destruct (l_layout ll) as [|f0 r] eqn:EL; [discriminate|].
  injection HD as ->. rewrite X. assert (is_fortran f = false) as -> by now inversion F. rewrite <- EL in *.
  destruct (free_other_ok (map unset_fixed (l_layout ll))) as (l' & -> & LE & P).
  - now apply convertible_continues.
  - rewrite Forall_map. exact F.
  - cbn [bind]. exists l'. split; auto. rewrite map_length in LE. split; auto. intros i g H.
    destruct (P i (unset_fixed g)) as (h & Hh & LC). { now apply map_nth_error. }
    exists h. split; auto. apply unset_converted. apply LC.
Qed.
