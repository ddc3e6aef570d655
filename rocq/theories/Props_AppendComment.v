(** C91: Logical_Line::append_comment (Logical_Line.cc:809-828). *)
From Coq Require Import Lia.
From Verif Require Import Base Base_lemmas FileLine FileLine_spec FileLine_proofs LogicalFile LogicalLine LineEdit IndentRead_proofs ConvertRead_proofs AppendComment_proofs Props_FileLine.
Local Open Scope nat_scope.

Lemma find_bang s : is_none (find_char c_bang s) = true <-> ~ In c_bang s.
Proof.
  destruct (find_char c_bang s) as [i|] eqn:E; cbn; unfold find_char in E.
  - apply find_from_Some in E as (p & c & q & -> & _ & C & _). apply Ascii.eqb_eq in C. subst c. split; [discriminate|]. intros N. exfalso. apply N, in_elt.
  - apply find_from_None in E. rewrite forallb_forall in E. split; [intros _ I; apply E in I; discriminate I|reflexivity].
Qed.

(** Nothing but the end of the first line of the layout changes.  Where that line
    has no end yet, it gets "! " and the text behind blanks: four blanks, or as
    many as make a line of 71 characters.  Where there is an end, it stays and
    the text follows, separated by " : " if there is a comment and by " ! " if
    not.  An empty text changes nothing; a logical line without a layout is
    undefined behaviour. *)
Theorem C91_fields : forall ll text,
  append_comment ll [] = Ok ll /\
  (text <> [] -> l_layout ll = [] -> append_comment ll text = UB) /\
  (forall f r, text <> [] -> l_layout ll = f :: r -> exists ll' f',
    append_comment ll text = Ok ll' /\ l_layout ll' = f' :: r /\
    l_frags ll' = l_frags ll /\ l_stmts ll' = l_stmts ll /\ l_label ll' = l_label ll /\ l_cat ll' = l_cat ll /\
    l_suppress ll' = l_suppress ll /\ l_reformat ll' = l_reformat ll /\ l_nsemi ll' = l_nsemi ll /\
    linenum f' = linenum f /\ left_txt f' = left_txt f /\ left_space f' = left_space f /\ main_txt f' = main_txt f /\
    open_delim f' = open_delim f /\ bits f' = bits f /\
    (right_txt f = [] -> right_txt f' = L "! " ++ text /\
       (right_space f' = spaces 4 \/
        exists n, n > 0 /\ right_space f' = spaces n /\ (is_fixed_format f = false -> main_txt f <> [] -> length (print_line f') = 71))) /\
    (right_txt f <> [] -> right_space f' = right_space f /\
       (In c_bang (right_txt f) -> right_txt f' = right_txt f ++ L " : " ++ text) /\
       (~ In c_bang (right_txt f) -> right_txt f' = right_txt f ++ L " ! " ++ text))).
Proof.
  intros ll text. split; [reflexivity|]. split; [intros N LL; unfold append_comment; rewrite LL; now destruct text|intros f r N LL].
  unfold append_comment. rewrite LL. destruct text as [|a x] eqn:ET; [congruence|]. rewrite <- ET in *. clear N.
  destruct (right_txt f) as [|b s] eqn:ER; cbn [is_empty].
  - do 2 eexists. split; [reflexivity|]. cbn [l_layout set_frags l_frags l_stmts l_label l_cat l_suppress l_reformat l_nsemi]. split; [reflexivity|]. do 13 (split; [reflexivity|]). split; [|congruence].
    intros _. split; [reflexivity|]. cbn [right_space with_text]. destruct (Z.ltb_spec (main_first_col f + zlen (main_txt f)) (72 - (2 + zlen text))) as [LT|_]; [right|left; reflexivity].
    eexists. split; [|split; [reflexivity|]]; [lia|]. intros FX NM. unfold print_line, with_text. cbn [left_txt left_space main_txt right_space right_txt is_fortran is_fixed_format bits].
    unfold is_fixed_format in *. cbn [bits]. rewrite FX, andb_false_r, !app_length, spaces_length. change (length (L "! ")) with 2. unfold main_first_col, is_fixed_format, zlen in *. destruct (main_txt f) as [|m mm]; [congruence|]. cbn [is_empty] in *. rewrite FX in *. cbn [length app] in *. lia.
  - rewrite <- ER. do 2 eexists. split; [reflexivity|]. cbn [l_layout set_frags l_frags l_stmts l_label l_cat l_suppress l_reformat l_nsemi]. split; [reflexivity|]. do 13 (split; [reflexivity|]). split; [congruence|].
    intros _. split; [reflexivity|]. cbn [right_txt with_text]. pose proof (find_bang (right_txt f)) as FB. destruct (is_none (find_char c_bang (right_txt f))).
    + split; [intros I; exfalso; now apply (proj1 FB)|reflexivity].
    + split; [reflexivity|]. intros I. apply (proj2 FB) in I. discriminate.
Qed.

(** A free-format line with text and no open literal at its end reads back: the
    line that is now printed has the same parts in front, the new end, and the
    same kind.  A line that was continued still is. *)
Theorem C91_reread_partial : forall ll text f r ll' ln raw pod plc l,
  l_layout ll = f :: r -> text <> [] -> append_comment ll text = Ok ll' ->
  analyze_free ln raw pod plc false = Ok (f, l) -> is_fortran f = true -> delim_ok pod = true ->
  main_txt f <> [] -> open_delim f = c_nul -> ascii7 raw -> ascii7 text ->
  exists f' g, l_layout ll' = f' :: r /\ analyze_free ln (print_line f') pod plc false = Ok (g, false) /\
    linenum g = linenum f /\ left_txt g = left_txt f /\ left_space g = left_space f /\ main_txt g = main_txt f /\
    right_space g = right_space f' /\ right_txt g = right_txt f' /\ open_delim g = c_nul /\
    is_fortran g = true /\ is_continuation g = is_continuation f /\ has_label g = has_label f /\ is_continued g = is_continued f.
Proof.
  intros ll text f r ll' ln raw pod plc l LL NT AC H F D NM O A7 AT.
  destruct (C91_fields ll text) as (_ & _ & X). destruct (X f r NT LL) as (ll2 & f' & AC2 & LL' & _ & _ & _ & _ & _ & _ & _ & _ & E1 & E2 & E3 & _ & EB & R0 & R1).
  assert (ll2 = ll') by congruence. subst ll2. clear X AC2. exists f'.
  pose proof (proj1 (proj1 (C03_free_classes _ _ _ _ _ _ H)) F) as CL. destruct (C03_free_shape _ _ _ _ _ _ H CL) as (_ & _ & SR & _ & _ & SE & SC & _). apply st_iff in SR.
  destruct (analyze_free_lossless_lem _ _ _ _ _ _ _ H) as (_ & FX & ERAW). rewrite <- ERAW in A7. unfold ascii7 in A7. rewrite !Forall_app in A7. destruct A7 as (A1 & A2 & A3 & A4 & A5).
  assert (PL : print_line f' = left_txt f ++ left_space f ++ main_txt f ++ right_space f' ++ right_txt f').
  { unfold print_line. assert (is_fixed_format f' = false) as -> by (unfold is_fixed_format in *; now rewrite EB). rewrite andb_false_r. congruence. }
  assert (T : exists c q, right_txt f' = c :: q /\ (c = c_bang \/ c = c_amp) /\ Forall st (right_space f') /\ ascii7 (right_space f' ++ right_txt f') /\ (is_continued f = true <-> c = c_amp)).
  { destruct (right_txt f) as [|b s] eqn:ER.
    - destruct (R0 eq_refl) as (-> & RS). exists c_bang, (c_sp :: text). split; [reflexivity|]. split; [auto|].
      assert (RS' : exists n, right_space f' = spaces n) by (destruct RS as [->|(n & _ & -> & _)]; eauto). destruct RS' as (n & ->). split; [apply spaces_st|].
      split; [apply Forall_app; split; [apply spaces_ascii|]; repeat constructor; exact AT|]. rewrite SC. split; [intros (? & [=])|discriminate].
    - destruct R1 as (-> & RA & RB); [discriminate|]. assert (RE : exists w, right_txt f' = (b :: s) ++ w /\ ascii7 w).
      { destruct (In_dec ascii_dec c_bang (b :: s)) as [I|I]; [rewrite (RA I)|rewrite (RB I)]; eexists; (split; [reflexivity|repeat constructor; exact AT]). }
      destruct RE as (w & -> & AW). exists b, (s ++ w). split; [reflexivity|]. split; [destruct SE as [SE|(q & [[= -> _]|[= -> _]])]; [discriminate|auto|auto]|]. split; [exact SR|].
      split; [apply Forall_app; split; [exact A4|]; apply Forall_app; auto|]. rewrite SC. split; [intros (q & [= -> _]); reflexivity|intros ->; eauto]. }
  destruct T as (c & q & ET & C & RS & AR & CC). unfold ascii7 in AR. rewrite Forall_app in AR. destruct AR as (AR1 & AR2).
  destruct (new_end ln raw pod plc f l (right_space f') (right_txt f') c q H F D NM O RS ET C) as (g & G & G1 & G2 & G3 & G4 & G5 & G6 & G7 & G8 & _ & G10 & G11 & G12); [unfold ascii7; rewrite !Forall_app; auto|].
  exists g. rewrite PL. do 12 (split; [first [assumption|congruence]|]). destruct (is_continued g), (is_continued f); intuition congruence.
Qed.

(** Where a character literal goes on in the next line, the comment ends up in
    the literal: the printed line is rejected when read again. *)
Theorem C91_literal_refuted :
  exists f1 f2 ll', analyze_free 1 (L "x = 'ab&") c_nul false false = Ok (f1, false) /\ is_fortran f1 = true /\ main_txt f1 <> [] /\
    analyze_free 2 (L "&cd'") (open_delim f1) true false = Ok (f2, false) /\
    append_comment (mkLLn 0 CAT_UNKNOWN false false 0 [f1; f2] [] []) (L "note") = Ok ll' /\
    map print_line (l_layout ll') = [L "x = 'ab& ! note"; L "&cd'"] /\
    analyze_free 1 (L "x = 'ab& ! note") c_nul false false = Throw.
Proof.
  do 3 eexists. split; [vm_compute; reflexivity|]. split; [vm_compute; reflexivity|]. split; [vm_compute; discriminate|]. split; [vm_compute; reflexivity|]. split; [vm_compute; reflexivity|].
  split; [vm_compute; reflexivity|vm_compute; reflexivity].
Qed.

(** a labelled, continued line with a comment *)
Example C91_case : exists f ll', analyze_free 1 (L "10 x = y + & ! sum") c_nul false false = Ok (f, false) /\ is_fortran f = true /\ main_txt f <> [] /\ open_delim f = c_nul /\
  append_comment (mkLLn 10 CAT_UNKNOWN false false 0 [f] [] []) (L "note") = Ok ll' /\ map print_line (l_layout ll') = [L "10 x = y + & ! sum : note"].
Proof.
  do 2 eexists. split; [vm_compute; reflexivity|]. split; [vm_compute; reflexivity|]. split; [vm_compute; discriminate|]. split; [vm_compute; reflexivity|]. split; [vm_compute; reflexivity|vm_compute; reflexivity].
Qed.
Definition C91_all := (C91_fields, C91_reread_partial, C91_literal_refuted).
Print Assumptions C91_all.
