(** C09: the line accumulator. *)
From Verif Require Import Base LineAccum LineAccum_spec LineAccum_proofs.

(** Character [k] of the main text of line [i] appears in the accumulated text
    at offset [main_start ls i + k], and that offset is mapped back to
    line [i], character [k], and to that line's file position. *)
Theorem C09_char_position : forall ls i l k c,
  nth_error ls i = Some l -> nth_error (l_main l) k = Some c -> (0 < l_col l)%Z ->
  let o := main_start ls i + k in
  nth_error (la_accum (accum_of ls)) o = Some c /\
  linecolno (accum_of ls) (Z.of_nat o) =
    Ok (Some (l_no l, l_col l + Z.of_nat k, Z.of_nat i, Z.of_nat k))%Z.
Proof. exact linecolno_char. Qed.
Print Assumptions C09_char_position.

(** Every offset of the accumulated text is one of those, or a separating
    blank. *)
Theorem C09_cover : forall ls o, o < length (la_accum (accum_of ls)) ->
  (exists i l k, nth_error ls i = Some l /\ k < length (l_main l) /\ o = main_start ls i + k) \/
  nth_error (la_accum (accum_of ls)) o = Some c_sp.
Proof. intros ls o. rewrite (accum_text ls). exact (joined_cover ls o). Qed.
Print Assumptions C09_cover.

(** The accumulated text: main texts in order, a blank where a line ended or a
    continuation began with white space. *)
Theorem C09_text : forall ls, la_accum (accum_of ls) = joined ls.
Proof. exact accum_text. Qed.
Print Assumptions C09_text.

(** Any other offset belongs to the last line whose main text starts at or
    before it. *)
Theorem C09_separator_position : forall ls i l o,
  nth_error ls i = Some l -> main_start ls i <= o ->
  (S i < length ls -> o < main_start ls (S i)) ->
  (0 < l_col l + Z.of_nat (o - main_start ls i))%Z ->
  linecolno (accum_of ls) (Z.of_nat o) =
    Ok (Some (l_no l, l_col l + Z.of_nat (o - main_start ls i), Z.of_nat i, Z.of_nat (o - main_start ls i)))%Z.
Proof. exact linecolno_line. Qed.
Print Assumptions C09_separator_position.

(** The two-result form agrees with the four-result form. *)
Theorem C09_short_form : forall ls o,
  linecolno2 (accum_of ls) o =
  match linecolno (accum_of ls) o with
  | Ok (Some (a, b, _, _)) => Ok (Some (a, b))
  | Ok None => Ok None | Throw => Throw | UB => UB
  end.
Proof. exact linecolno_same. Qed.
Print Assumptions C09_short_form.

Definition ex_lines : list line :=
  [mkLine 7 2 3 (L "call f(a,") 1; mkLine 9 4 5 (L "") 0; mkLine 10 4 5 (L "b") 0; mkLine 11 0 1 (L "c)") 0].
Example C09_case : la_accum (accum_of ex_lines) = L "call f(a,   bc)" /\
  main_start ex_lines 3 = 13 /\
  linecolno (accum_of ex_lines) 13 = Ok (Some (11, 1, 3, 0))%Z /\
  linecolno (accum_of ex_lines) 12 = Ok (Some (10, 5, 2, 0))%Z.
Proof. vm_compute. auto. Qed.
(* a column that is not positive is an assertion failure *)
Example C09_needs_column : linecolno (accum_of [mkLine 1 0 0 (L "x") 0]) 0 = UB.
Proof. reflexivity. Qed.
