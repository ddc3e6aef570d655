(** C92: set_leading_spaces leaves the comment behind a statement where it is
    (File_Line.cc:557-576). *)
From Coq Require Import Lia.
From Verif Require Import Base Base_lemmas FileLine FileEdit_proofs IndentRead_proofs Props_FileEdit.
Local Open Scope nat_scope.

(** where the main text of a printed free-format line begins, and where its end begins *)
Definition main_at (f : File_Line) : nat := length (left_txt f ++ left_space f).
Definition end_at (f : File_Line) : nat := length (left_txt f ++ left_space f ++ main_txt f ++ right_space f).

Lemma left_shift f sp lt ls off : is_fixed_format f = false -> sls_left f sp = Ok (Some (lt, ls, off)) ->
  match off with Some o => (zlen lt + zlen ls = zlen (left_txt f) + zlen (left_space f) + o)%Z | None => True end.
Proof.
  intros FX H. unfold sls_left in H. rewrite FX, andb_true_r in H. unfold zlen in *. destruct (is_empty (left_txt f)) eqn:E.
  { destruct (_ =? _)%Z; [discriminate|]. apply bind_Ok in H as (l & B & H). apply blanks_z_eq in B as (P & ->). injection H as <- <- <-. rewrite spaces_length. lia. }
  destruct (has_label f).
  { destruct (Z.ltb_spec (Z.of_nat (length (left_txt f))) sp).
    - destruct (_ =? _)%Z; [discriminate|]. apply bind_Ok in H as (l & B & H). apply blanks_z_eq in B as (P & ->). injection H as <- <- <-. rewrite spaces_length. lia.
    - destruct (_ =? _)%Z; [discriminate|]. assert (lt = left_txt f) as -> by congruence. assert (ls = spaces 1) as -> by congruence. assert (off = Some (1 - Z.of_nat (length (left_space f)))%Z) as -> by congruence. change (length (spaces 1)) with 1. lia. }
  destruct (is_continuation f); [|injection H as <- <- <-; exact I].
  destruct (_ =? _)%Z; [discriminate|]. destruct (Z.ltb_spec (Z.of_nat (length (left_txt f)) + Z.of_nat (length (left_space f))) sp) as [LT|GE].
  - injection H as <- <- <-. rewrite app_length, spaces_length. lia.
  - destruct (find_first_not_of [c_sp] (left_txt f)) as [pos|] eqn:FF; [|discriminate]. injection H as <- <- <-. rewrite skipn_length.
    unfold find_first_not_of in FF. apply find_from_Some in FF as (pre & c & post & EL & -> & _). rewrite EL, app_length in *. cbn [length] in *. lia.
Qed.

(** d is how far the main text moved.  A comment in the end of the line, alone or
    behind '&', keeps its column when the main text moves to the left, and when
    it moves to the right by less than the blanks in front; otherwise one blank
    is left in front of it, or none if there was none.  An end without a comment
    moves along with the main text. *)
Theorem C92_column : forall f sp f' ch, is_fortran f = true -> is_fixed_format f = false -> set_leading_spaces f sp = Ok (f', ch) ->
  let d := (Z.of_nat (main_at f') - Z.of_nat (main_at f))%Z in
  right_txt f' = right_txt f /\ main_txt f' = main_txt f /\
  (In c_bang (right_txt f) ->
     ((d <= 0)%Z -> end_at f' = end_at f) /\
     ((0 < d < zlen (right_space f))%Z -> end_at f' = end_at f) /\
     ((0 < d)%Z -> (zlen (right_space f) <= d)%Z -> length (right_space f') = Nat.min 1 (length (right_space f)))) /\
  (right_txt f <> [] -> ~ In c_bang (right_txt f) -> right_space f' = right_space f).
Proof.
  intros f sp f' ch F FX H. unfold set_leading_spaces in H. assert (is_comment f = false) as NC.
  { revert F. unfold is_fortran, is_trivial. destruct (is_comment f); [cbn; discriminate|reflexivity]. }
  rewrite NC, F in H. apply bind_Ok in H as ([[[lt ls] off]|] & SL & H).
  2:{ injection H as <- <-. cbn zeta. rewrite Z.sub_diag. split; [reflexivity|]. split; [reflexivity|]. split; [|reflexivity]. intros _. split; [reflexivity|]. split; intros; lia. }
  apply left_shift in SL; [|exact FX]. apply bind_Ok in H as (rs & SR & H). injection H as <- <-. unfold main_at, end_at. cbn [left_txt left_space main_txt right_space right_txt with_text].
  split; [reflexivity|]. split; [reflexivity|]. unfold sls_right in SR. destruct (right_txt f) as [|a t] eqn:ER.
  { split; [intros []|congruence]. } cbn [is_empty] in SR. rewrite <- ER in *. clear ER. destruct off as [o|]; [|discriminate]. unfold zlen in *. rewrite !app_length.
  destruct (Z.eqb_spec o 0) as [->|NO]. { injection SR as <-. split; [intros _; conjs; lia|reflexivity]. }
  destruct (find_char c_bang (right_txt f)) as [pos|] eqn:FC; unfold find_char in FC.
  2:{ injection SR as <-. apply find_from_None in FC. rewrite forallb_forall in FC. split; [intros I; apply FC in I; discriminate I|reflexivity]. }
  apply find_from_Some in FC as (pre & c & post & EP & _ & C & _). apply Ascii.eqb_eq in C. subst c.
  split; [intros _|intros _ N; exfalso; apply N; rewrite EP; apply in_elt]. destruct (Z.ltb_spec o 0) as [NEG|POS].
  - unfold insert_at in SR. destruct (pos <=? length (right_space f)) eqn:LE; [|discriminate]. injection SR as <-. apply Nat.leb_le in LE. rewrite !app_length, spaces_length, firstn_length, skipn_length. conjs; lia.
  - assert (RL : Z.of_nat (length rs) = Z.max (if is_empty (right_space f) then 0 else 1) (Z.of_nat (length (right_space f)) - o)%Z).
    { destruct (Z.eqb_spec (Z.of_nat (length (right_space f))) (Z.max (if is_empty (right_space f) then 0 else 1) (Z.of_nat (length (right_space f)) - o))%Z) as [E|_].
      - injection SR as <-. exact E.
      - injection SR as <-. rewrite spaces_length. destruct (is_empty (right_space f)); lia. }
    destruct (right_space f) as [|b r]; cbn [is_empty length] in *; conjs; lia.
Qed.

(** Moving to the left fails where the comment stands further behind the '&' than
    there are blanks in front of it: the position of '!' in the end of the line is
    taken as a position in the blanks. *)
Theorem C92_left_refuted : forall f sp a t, is_fortran f = true -> is_fixed_format f = false -> left_txt f = [] -> (0 <= sp < zlen (left_space f))%Z ->
  right_txt f = a ++ c_bang :: t -> ~ In c_bang a -> length (right_space f) < length a -> set_leading_spaces f sp = Throw.
Proof.
  intros f sp a t F FX LT SP RT NA LEN. unfold set_leading_spaces. assert (is_comment f = false) as ->.
  { revert F. unfold is_fortran, is_trivial. destruct (is_comment f); [cbn; discriminate|reflexivity]. }
  rewrite F. unfold sls_left. rewrite LT. cbn [is_empty]. destruct (Z.eqb_spec (zlen (left_space f)) sp); [lia|].
  destruct (blanks_z sp) as [b| |] eqn:B.
  2,3: exfalso; unfold blanks_z in B; destruct (Z.leb_spec 0 sp); destruct (Z.ltb_spec sp 0); try lia; discriminate.
  cbn [bind]. unfold sls_right. rewrite RT. assert (is_empty (a ++ c_bang :: t) = false) as -> by (destruct a; reflexivity).
  destruct (Z.eqb_spec (sp - zlen (left_space f)) 0); [lia|].
  assert (find_char c_bang (a ++ c_bang :: t) = Some (length a)) as ->.
  { unfold find_char. apply find_from_Some. exists a, c_bang, t. conjs; try reflexivity. apply forallb_forall. intros x I. unfold ceq. destruct (Ascii.eqb_spec c_bang x) as [<-|]; [exfalso; auto|reflexivity]. }
  destruct (Z.ltb_spec (sp - zlen (left_space f)) 0); [|lia]. unfold insert_at. destruct (Nat.leb_spec (length a) (length (right_space f))); [lia|reflexivity].
Qed.

(** That is the only way to fail: on the lines that the reader makes (no left text,
    a label, or a continuation mark) the call returns unless the first '!' of the
    end lies further in than there are blanks in front. *)
Theorem C92_returns : forall f sp, is_fortran f = true -> is_fixed_format f = false -> (0 <= sp)%Z ->
  left_txt f = [] \/ has_label f = true \/ (is_continuation f = true /\ exists c, In c (left_txt f) /\ c <> c_sp) ->
  (forall a t, right_txt f = a ++ c_bang :: t -> ~ In c_bang a -> length a <= length (right_space f)) ->
  exists f' ch, set_leading_spaces f sp = Ok (f', ch).
Proof.
  intros f sp F FX P LT RT. unfold set_leading_spaces. assert (is_comment f = false) as ->.
  { revert F. unfold is_fortran, is_trivial. destruct (is_comment f); [cbn; discriminate|reflexivity]. }
  rewrite F. assert (SL : exists o, sls_left f sp = Ok o /\ match o with Some (_, _, None) => False | _ => True end).
  { unfold sls_left. rewrite FX, andb_true_r. assert (B : forall n, (0 <= n)%Z -> blanks_z n = Ok (spaces (Z.to_nat n))) by (intros n N; apply blanks_z_Ok; auto).
    destruct (is_empty (left_txt f)) eqn:E. { destruct (_ =? _)%Z; [(eexists; split; [reflexivity|exact Logic.I])|]. rewrite B by exact P. cbn [bind]. (eexists; split; [reflexivity|exact Logic.I]). }
    destruct (has_label f) eqn:HL.
    { destruct (Z.ltb_spec (zlen (left_txt f)) sp); [|destruct (_ =? _)%Z; (eexists; split; [reflexivity|exact Logic.I])]. destruct (_ =? _)%Z; [(eexists; split; [reflexivity|exact Logic.I])|]. rewrite B by lia. cbn [bind]. (eexists; split; [reflexivity|exact Logic.I]). }
    destruct LT as [LT|[LT|(LT & c & I & NC)]]; [rewrite LT in E; discriminate|discriminate|]. rewrite LT. destruct (_ =? _)%Z; [(eexists; split; [reflexivity|exact Logic.I])|]. destruct (_ <? _)%Z; [(eexists; split; [reflexivity|exact Logic.I])|].
    destruct (find_first_not_of [c_sp] (left_txt f)) as [pos|] eqn:FF; [(eexists; split; [reflexivity|exact Logic.I])|]. exfalso. unfold find_first_not_of in FF. apply find_from_None in FF. rewrite forallb_forall in FF. apply FF in I.
    rewrite negb_involutive, mem_In in I. destruct I as [I|[]]. congruence. }
  destruct SL as (o & -> & NO). cbn [bind]. destruct o as [[[lt ls] [off|]]|]; [|contradiction|eauto].
  assert (SR : exists rs, sls_right (right_space f) (right_txt f) (Some off) = Ok rs).
  { unfold sls_right. destruct (is_empty (right_txt f)); [eauto|]. destruct (off =? 0)%Z; [eauto|]. destruct (find_char c_bang (right_txt f)) as [pos|] eqn:FC; [|eauto].
    destruct (off <? 0)%Z; [|destruct (_ =? _)%Z; eauto]. unfold find_char in FC. apply find_from_Some in FC as (pre & c & post & EP & EPOS & C & NB). apply Ascii.eqb_eq in C. subst c. cbn [plus] in EPOS. subst pos.
    unfold insert_at. assert (length pre <= length (right_space f)) as LE.
    { apply (RT pre post EP). intros I. rewrite forallb_forall in NB. apply NB in I. discriminate I. }
    apply Nat.leb_le in LE. rewrite LE. eauto. }
  destruct SR as (rs & ->). cbn [bind]. eauto.
Qed.

Example C92_case : exists f' g', is_fortran (fl "    x = y & ! sum") = true /\ is_fixed_format (fl "    x = y & ! sum") = false /\ In c_bang (right_txt (fl "x = y  ! sum")) /\
  set_leading_spaces (fl "x = y     ! sum") 3 = Ok (f', true) /\ print_line f' = L "   x = y  ! sum" /\
  set_leading_spaces (fl "    x = y  ! sum") 1 = Ok (g', true) /\ print_line g' = L " x = y     ! sum".
Proof. do 2 eexists. split; [reflexivity|]. split; [reflexivity|]. split; [vm_compute; auto|]. split; [vm_compute; reflexivity|]. split; [vm_compute; reflexivity|]. split; [vm_compute; reflexivity|vm_compute; reflexivity]. Qed.
Example C92_left_case : let f := fl "  x = y & ! sum" in is_fortran f = true /\ left_txt f = [] /\ left_space f = L "  " /\ right_txt f = L "& " ++ c_bang :: L " sum" /\ right_space f = L " " /\ set_leading_spaces f 0 = Throw.
Proof. cbn zeta. conjs; vm_compute; reflexivity. Qed.
Example C92_returns_case : let f := fl "10 x = y &  ! sum" in is_fortran f = true /\ has_label f = true /\ right_txt f = L "&  " ++ c_bang :: L " sum" /\ length (right_space f) = 1 /\
  (let g := fl "10    x = y   & ! sum" in right_txt g = L "& " ++ c_bang :: L " sum" /\ length (right_space g) = 3 /\ exists g', set_leading_spaces g 4 = Ok (g', true) /\ print_line g' = L "10  x = y     & ! sum").
Proof. cbn zeta. do 4 (split; [vm_compute; reflexivity|]). split; [vm_compute; reflexivity|]. split; [vm_compute; reflexivity|]. eexists. split; [vm_compute; reflexivity|vm_compute; reflexivity]. Qed.
Definition C92_all := (C92_column, C92_left_refuted, C92_returns).
Print Assumptions C92_all.
