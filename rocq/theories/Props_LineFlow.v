(** C46: re-flowing the text of a logical line from its tokens. *)
From Verif Require Import Base Tags FileLine LogicalFile Token LogicalLine Peg Lexer LineEdit LineEdit_spec LineFlow_spec LineFlow_proofs Props_LineEdit Props_LineSplit.
Local Open Scope nat_scope.

(** C46, for a line whose layout starts with a Fortran line and has no other lines
    than Fortran lines and comments after it (see [C46_blank_refuted]), the main
    text of the first starting before column 74: it never fails, and the main texts
    of the Fortran lines spell the tokens in order with their blanks; a token is
    broken only where it starts a line; no main text goes past column 79; all
    Fortran lines but the last are continued; the first keeps its label and its
    indentation; no comment line is lost.  The tokens, label, category stay and the
    statements are those of the tokens. *)
Theorem C46_reflow_partial : forall ll f r, l_layout ll = f :: r -> is_fortran f = true ->
  Forall (fun g => is_comment g = true \/ is_fortran g = true) r -> lead f + 2 < 76 ->
  Forall (fun x => tk_pre x <> None) (tl (l_frags ll)) ->
  exists ll', text_from_frags ll = Ok ll' /\ spelled (l_frags ll) (map main_txt (fortran_lines (l_layout ll'))) /\
    Forall (fun g => width g <= 79) (fortran_lines (l_layout ll')) /\
    continues (fortran_lines (l_layout ll')) /\
    (l_frags ll <> [] -> exists g q, l_layout ll' = g :: q /\ is_fortran g = true /\ left_txt g = left_txt f /\ left_space g = left_space f) /\
    (forall c, In c (l_layout ll) -> is_comment c = true -> is_blank c = false -> In c (l_layout ll')) /\
    l_frags ll' = l_frags ll /\ l_label ll' = l_label ll /\ l_cat ll' = l_cat ll /\ stmts_right ll'.
Proof.
  intros ll f r El F U W P. destruct (flow_ok ll f r El F U W P) as (ll' & E & Sp & R1 & R2 & R3 & R4 & R5 & R6 & R7 & R8 & R9).
  exists ll'. split; [exact E|]. split; [exact Sp|]. split; [exact R6|]. split; [exact R7|]. split; [exact R8|]. split; [exact R9|]. auto.
Qed.
Print Assumptions C46_reflow_partial.

(** C46 when every token is short: none is broken and no main text goes past
    column 76. *)
Theorem C46_short_partial : forall ll f r, l_layout ll = f :: r -> is_fortran f = true ->
  Forall (fun g => is_comment g = true \/ is_fortran g = true) r -> lead f + 2 < 76 ->
  Forall (fun x => tk_pre x <> None) (tl (l_frags ll)) ->
  Forall (fun x => length (tk_text x) <= 38 /\ length (tk_text x) + lead f + 3 <= 76) (l_frags ll) ->
  exists ll', text_from_frags ll = Ok ll' /\ unbroken (l_frags ll) (map main_txt (fortran_lines (l_layout ll'))) /\
    Forall (fun g => width g <= 76) (fortran_lines (l_layout ll')) /\ continues (fortran_lines (l_layout ll')) /\
    l_frags ll' = l_frags ll.
Proof.
  intros ll f r El F U W P Sh. destruct (flow_short ll f r El F U W P Sh) as (ll' & E & Sp & R1 & R2 & R3 & R4 & R5 & R6 & R7 & R8 & R9).
  exists ll'. split; [exact E|]. split; [exact Sp|]. split; [exact R6|]. split; [exact R7|]. exact R1.
Qed.
Print Assumptions C46_short_partial.

Definition reflowed (raws : list str) : out (LLn * list str) :=
  ll <~ line_from raws ;; ll' <~ lift (text_from_frags ll) ;; Done (ll', map print_line (l_layout ll')).

(** C46 refuted when a blank line stands between the lines of the statement: the
    tokens put on it are lost. *)
Theorem C46_blank_refuted : exists ll',
  reflowed [L "abcdefghijklmnopqrstuvwxyz1 = abcdefghijklmnopqrstuvwxyz1 + bcdefghijklmnop + x &"; L ""; L " + y &"; L " + z"] =
    Done (ll', [L "abcdefghijklmnopqrstuvwxyz1 = abcdefghijklmnopqrstuvwxyz1 + bcdefghijklmnop &"]) /\
  map tk_text (l_frags ll') = [L "abcdefghijklmnopqrstuvwxyz1"; L "="; L "abcdefghijklmnopqrstuvwxyz1"; L "+"; L "bcdefghijklmnop"; L "+"; L "x"; L "+"; L "y"; L "+"; L "z"].
Proof. eexists. split; [vm_compute; reflexivity|]. vm_compute. reflexivity. Qed.
Print Assumptions C46_blank_refuted.
(** C46 refuted for a broken character literal: a blank is put before the '&', so
    that it is another literal when the line is read again. *)
Theorem C46_literal_refuted : exists ll',
  reflowed [L "a = 'aaaaaaaaaaaaaaaaaaaaaaaaaaaaaaaaaaaaaaaaaaaaaaaaaaaaaaaaaaaaaaaaaaaaaaaaaaaaaaaaaaaaaaaaaaa'"] =
    Done (ll', [L "a = &"; L "  'aaaaaaaaaaaaaaaaaaaaaaaaaaaaaaaaaaaaaaaaaaaaaa &"; L "  &aaaaaaaaaaaaaaaaaaaaaaaaaaaaaaaaaaaaaaaaaaaaa'"]) /\
  reread ll' = Done [L "a"; L "="; L "'aaaaaaaaaaaaaaaaaaaaaaaaaaaaaaaaaaaaaaaaaaaaaa aaaaaaaaaaaaaaaaaaaaaaaaaaaaaaaaaaaaaaaaaaaaa'"].
Proof. eexists. split; [vm_compute; reflexivity|]. vm_compute. reflexivity. Qed.
Print Assumptions C46_literal_refuted.
(** C46 refuted for a real literal with an exponent, whose parts are separate
    tokens: it may be split between two lines, and is then something else. *)
Theorem C46_real_refuted : exists ll',
  reflowed [L "abcdefghijklmnopqrstuvwxyz1 = abcdefghijklmnopqrstuvwxyz1 + bcdefghij + 2.5e-3"] =
    Done (ll', [L "abcdefghijklmnopqrstuvwxyz1 = abcdefghijklmnopqrstuvwxyz1 + bcdefghij + 2.5 &"; L "  e-3"]) /\
  map tk_text (skipn 6 (l_frags ll')) = [L "2.5"; L "e"; L "-3"] /\
  reread ll' = Done [L "abcdefghijklmnopqrstuvwxyz1"; L "="; L "abcdefghijklmnopqrstuvwxyz1"; L "+"; L "bcdefghij"; L "+"; L "2.5"; L "e"; L "-"; L "3"].
Proof. eexists. split; [vm_compute; reflexivity|]. split; [vm_compute; reflexivity|]. vm_compute. reflexivity. Qed.
Print Assumptions C46_real_refuted.
(** C46 refuted for a statement indented past column 75: an assertion fails. *)
Theorem C46_indent_refuted : exists ll, line_from [spaces 76 ++ L "a = b"] = Done ll /\ text_from_frags ll = UB.
Proof. eexists. split; [vm_compute; reflexivity|]. vm_compute. reflexivity. Qed.
Print Assumptions C46_indent_refuted.

(** * Cases *)
Example C46_case : exists ll ll', line_from [L "10 call subroutine_name(first_argument, second_argument, third_argument,  & ! one"; L "! two"; L "    fourth) ! three"] = Done ll /\
  Forall (fun g => is_comment g = true \/ is_fortran g = true) (tl (l_layout ll)) /\ forallb (fun x => match tk_pre x with Some _ => true | None => false end) (l_frags ll) = true /\
  text_from_frags ll = Ok ll' /\
  map print_line (l_layout ll') = [L "10 call subroutine_name(first_argument, second_argument,  & ! one"; L "! two"; L "     third_argument,  fourth) ! three"].
Proof.
  eexists. eexists. split; [vm_compute; reflexivity|]. split; [|split; [vm_compute; reflexivity|]; split; [vm_compute; reflexivity|]; vm_compute; reflexivity].
  cbn [l_layout tl]. repeat constructor; (left; reflexivity) || (right; reflexivity).
Qed.
