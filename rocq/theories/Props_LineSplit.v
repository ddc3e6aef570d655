(** C42: splitting a logical line after a token. *)
From Verif Require Import Base Tags FileLine LogicalFile Token LogicalLine Peg Lexer LineEdit LineEdit_spec LineEdit_proofs LineSplit_spec LineSplit_proofs Props_LineEdit.
Local Open Scope nat_scope.

(** C42, when the next token [y] that is not a semicolon is on the line where the
    split is made.  The first line keeps the tokens up to [x], standing where they
    stood, and its text ends where [x] ends; the second has the tokens from [y] on,
    each standing at the text where it stood, its first physical line starting with
    [y] in the column where the original statement starts; the semicolons between
    [x] and [y] are gone.  (Every layout line is Fortran, the split line's index is
    less than the number of tokens, [x]'s recorded end is right: see the
    refutations.) *)
Theorem C42_split_here_partial : forall ll n sp x a b semis y rem c d f0,
  laid (l_layout ll) (0, 0) (l_frags ll) sp -> Forall (fun f => is_fortran f = true) (l_layout ll) ->
  nth_error (l_layout ll) 0 = Some f0 -> main_txt f0 <> [] ->
  nth_error (l_frags ll) n = Some x -> nth_error sp n = Some (a, b) -> end_right x b -> fst b < length (l_frags ll) ->
  skipn (S n) (l_frags ll) = semis ++ y :: rem -> Forall (fun t => is_semi t = true) semis -> is_semi y = false ->
  nth_error sp (S n + length semis) = Some (c, d) -> fst c = fst b ->
  exists ll' ll2 sp2, split_after ll n = Ok (ll', Some ll2) /\ same_rest ll' ll /\ l_frags ll' = firstn (S n) (l_frags ll) /\
    first_part (l_layout ll) (l_layout ll') (fst b) (snd b) /\
    laid (l_layout ll') (0, 0) (l_frags ll') (firstn (S n) sp) /\
    carried_all (l_layout ll) (l_layout ll') (l_frags ll') (l_frags ll') (firstn (S n) sp) (firstn (S n) sp) /\
    l_label ll2 = 0%Z /\ l_cat ll2 = CAT_UNKNOWN /\
    second_part (l_layout ll) (l_layout ll2) (fst c) (snd c) (main_first_col f0 - 1) /\
    (forall g, nth_error (l_layout ll2) 0 = Some g -> right_txt g = if is_continued g then L "&" else []) /\
    laid (l_layout ll2) (0, 0) (l_frags ll2) sp2 /\
    carried_all (l_layout ll) (l_layout ll2) (y :: rem) (l_frags ll2) (skipn (S n + length semis) sp) sp2.
Proof. exact split_here. Qed.
Print Assumptions C42_split_here_partial.

(** C42, when only semicolons are left on the line of the split and the next token
    is on the line after it: the text of the split line stays as it is. *)
Theorem C42_split_next_partial : forall ll n sp x a b semis y rem c d f0 f1,
  laid (l_layout ll) (0, 0) (l_frags ll) sp -> Forall (fun f => is_fortran f = true) (l_layout ll) ->
  nth_error (l_layout ll) 0 = Some f0 -> main_txt f0 <> [] ->
  nth_error (l_frags ll) n = Some x -> nth_error sp n = Some (a, b) -> fst b < length (l_frags ll) ->
  skipn (S n) (l_frags ll) = semis ++ y :: rem -> Forall (fun t => is_semi t = true) semis ->
  (forall u, In u (firstn (length semis) (skipn (S n) sp)) -> fst (fst u) = fst b) ->
  nth_error sp (S n + length semis) = Some (c, d) -> fst c = S (fst b) ->
  nth_error (l_layout ll) (fst c) = Some f1 -> adjustable f1 ->
  exists ll' ll2 sp2, split_after ll n = Ok (ll', Some ll2) /\ same_rest ll' ll /\ l_frags ll' = firstn (S n) (l_frags ll) /\
    first_part (l_layout ll) (l_layout ll') (fst b) (length (main_of (l_layout ll) (fst b))) /\
    laid (l_layout ll') (0, 0) (l_frags ll') (firstn (S n) sp) /\
    carried_all (l_layout ll) (l_layout ll') (l_frags ll') (l_frags ll') (firstn (S n) sp) (firstn (S n) sp) /\
    l_label ll2 = 0%Z /\ l_cat ll2 = CAT_UNKNOWN /\
    second_part (l_layout ll) (l_layout ll2) (fst c) 0 (main_first_col f0 - 1) /\
    (forall g, nth_error (l_layout ll2) 0 = Some g -> right_txt g = right_txt f1) /\
    laid (l_layout ll2) (0, 0) (l_frags ll2) sp2 /\
    carried_all (l_layout ll) (l_layout ll2) (y :: rem) (l_frags ll2) (skipn (S n + length semis) sp) sp2.
Proof. exact split_next. Qed.
Print Assumptions C42_split_next_partial.

(** C42, when nothing but semicolons follows, on the last line: no second line is
    made, and of the first only the continuation mark of its last line is removed. *)
Theorem C42_split_none_partial : forall ll n sp x a b f f0,
  laid (l_layout ll) (0, 0) (l_frags ll) sp ->
  nth_error (l_layout ll) 0 = Some f0 ->
  nth_error (l_frags ll) n = Some x -> nth_error sp n = Some (a, b) -> fst b < length (l_frags ll) ->
  Forall (fun t => is_semi t = true) (skipn (S n) (l_frags ll)) ->
  (forall u, In u (skipn (S n) sp) -> fst (fst u) = fst b) ->
  nth_error (l_layout ll) (fst b) = Some f -> S (fst b) = length (l_layout ll) ->
  exists ll', split_after ll n = Ok (ll', None) /\ same_rest ll' ll /\ l_frags ll' = l_frags ll /\ l_stmts ll' = l_stmts ll /\
    first_part (l_layout ll) (l_layout ll') (fst b) (length (main_txt f)).
Proof.
  intros ll n sp x a b f f0 HL H0 Hx Hs La Fs Fl Hf Hl. rewrite (split_none ll n sp x a b f f0 HL H0 Hx Hs La Fs Fl Hf Hl).
  eexists. split; [reflexivity|]. split; [repeat split|]. split; [reflexivity|]. split; [reflexivity|].
  destruct (uncont_text f) as (U1 & U2 & U3 & U4). exists (firstn (fst b) (l_layout ll)), f, (skipn (S (fst b)) (l_layout ll)), (make_uncontinued f).
  split; [apply split_nth; exact Hf|]. split; [reflexivity|]. split; [rewrite firstn_length; lia|]. split; [rewrite U1, firstn_all; reflexivity|].
  split; [exact U2|]. split; [exact U3|]. split; [exact U4|]. apply uncont_not.
Qed.
Print Assumptions C42_split_none_partial.

(** * What is false *)
Definition reread (ll : LLn) : out (list str) := ll' <~ line_from (map print_line (l_layout ll)) ;; Done (map tk_text (l_frags ll')).

(** C42 refuted when a character literal is continued from the line of the split:
    blanks are put before its '&', so that the literal is another one when the
    line is read again. *)
Theorem C42_literal_refuted : exists ll ll' ll2,
  line_from [L "a = 1; b = 'x&"; L "  &y'"] = Done ll /\ split_after ll 2 = Ok (ll', Some ll2) /\
  map tk_text (l_frags ll2) = [L "b"; L "="; L "'xy'"] /\
  map print_line (l_layout ll2) = [L "b = 'x       &"; L "  &y'"] /\
  reread ll2 = Done [L "b"; L "="; L "'x       y'"].
Proof. eexists. eexists. eexists. split; [vm_compute; reflexivity|]. split; [vm_compute; reflexivity|]. split; [vm_compute; reflexivity|]. split; vm_compute; reflexivity. Qed.
Print Assumptions C42_literal_refuted.
(** C42 refuted for a labelled line: the second line has no label but says that it
    has one, and any edit of it that looks at its tokens again fails. *)
Theorem C42_label_refuted : exists ll ll' ll2,
  line_from [L "10 a=1; b=2"] = Done ll /\ split_after ll 2 = Ok (ll', Some ll2) /\
  map print_line (l_layout ll2) = [L "   b=2"] /\ map has_label (l_layout ll2) = [true] /\
  insert_text_after ls_init ll2 2 (L "+1") = Bad.
Proof. eexists. eexists. eexists. split; [vm_compute; reflexivity|]. split; [vm_compute; reflexivity|]. split; [vm_compute; reflexivity|]. split; vm_compute; reflexivity. Qed.
Print Assumptions C42_label_refuted.
(** C42 refuted for a semicolon at the start of the next line: it stays. *)
Theorem C42_semicolon_refuted : exists ll ll' ll2,
  line_from [L "a = 1 &"; L "; b = 2"] = Done ll /\ split_after ll 2 = Ok (ll', Some ll2) /\
  map tk_text (l_frags ll2) = [L ";"; L "b"; L "="; L "2"] /\ map print_line (l_layout ll2) = [L "; b = 2"].
Proof. eexists. eexists. eexists. split; [vm_compute; reflexivity|]. split; [vm_compute; reflexivity|]. split; vm_compute; reflexivity. Qed.
Print Assumptions C42_semicolon_refuted.
(** C42 refuted after a comment line: the wrong line is split. *)
Theorem C42_comment_refuted : exists ll,
  line_from [L "a = (1 + &"; L "! c"; L " 2); b = 3"] = Done ll /\ nth_error (map tk_text (l_frags ll)) 6 = Some (L ")") /\
  (forall r, split_after ll 6 <> Ok r).
Proof.
  eexists. split; [vm_compute; reflexivity|]. split; [vm_compute; reflexivity|]. intros r.
  match goal with |- ?e <> _ => let v := eval vm_compute in e in replace e with v by (vm_compute; reflexivity) end. discriminate.
Qed.
Print Assumptions C42_comment_refuted.
(** C42 refuted by the assertion that compares a line with the number of tokens. *)
Theorem C42_assert_refuted : exists ll,
  line_from [L "en&"; L "&d"] = Done ll /\ map tk_text (l_frags ll) = [L "end"] /\ split_after ll 0 = UB.
Proof. eexists. split; [vm_compute; reflexivity|]. split; vm_compute; reflexivity. Qed.
Print Assumptions C42_assert_refuted.

(** * Cases *)
Definition two_ll : LLn := match line_from [L "  a = 1;; b = 2 + & ! t"; L "  c; d = 3"] with Done ll => ll | _ => mkLLn 0 CAT_UNKNOWN false false 0 [] [] [] end.
Definition two_sp : list (spot * spot) :=
  [((0, 0), (0, 1)); ((0, 2), (0, 3)); ((0, 4), (0, 5)); ((0, 5), (0, 6)); ((0, 6), (0, 7)); ((0, 8), (0, 9)); ((0, 10), (0, 11)); ((0, 12), (0, 13)); ((0, 14), (0, 15));
   ((1, 0), (1, 1)); ((1, 1), (1, 2)); ((1, 3), (1, 4)); ((1, 5), (1, 6)); ((1, 7), (1, 8))].
Example C42_case_laid : laid (l_layout two_ll) (0, 0) (l_frags two_ll) two_sp /\ Forall (fun f => is_fortran f = true) (l_layout two_ll) /\
  map is_semi (skipn 3 (l_frags two_ll)) = [true; true; false; false; false; false; false; true; false; false; false].
Proof.
  split; [|split; [|vm_compute; reflexivity]].
  - vm_compute l_frags. vm_compute l_layout. cbn [laid two_sp].
    repeat match goal with
    | |- _ /\ _ => split
    | |- True => exact I
    | |- before (?i, _) (?i, _) => apply before_le; lia
    | |- before _ _ => left; cbn; lia
    | |- stands _ _ _ _ => unfold stands
    | |- inside _ _ => unfold inside
    | |- _ -> _ => intro
    | |- _ <= _ => vm_compute; lia
    | |- _ < _ => vm_compute; lia
    | |- _ => first [reflexivity|discriminate|congruence]
    end.
  - vm_compute l_layout. repeat constructor.
Qed.
Example C42_case_here : exists ll' ll2, split_after two_ll 2 = Ok (ll', Some ll2) /\
  map print_line (l_layout ll') = [L "  a = 1             ! t"] /\ map print_line (l_layout ll2) = [L "  b = 2 +        &"; L "  c; d = 3"] /\
  map tk_text (l_frags ll2) = [L "b"; L "="; L "2"; L "+"; L "c"; L ";"; L "d"; L "="; L "3"] /\
  map mt_bc (l_frags ll2) = map Some [0; 2; 4; 6; 0; 1; 3; 5; 7]%Z.
Proof. eexists. eexists. split; [vm_compute; reflexivity|]. split; [vm_compute; reflexivity|]. split; [vm_compute; reflexivity|]. split; vm_compute; reflexivity. Qed.
Example C42_case_next : exists ll ll' ll2, line_from [L "  a = 1; &"; L "& b = 2 & ! z"; L " + 3"] = Done ll /\ split_after ll 2 = Ok (ll', Some ll2) /\
  map print_line (l_layout ll') = [L "  a = 1;"] /\ map print_line (l_layout ll2) = [L "   b = 2 & ! z"; L " + 3"].
Proof. eexists. eexists. eexists. split; [vm_compute; reflexivity|]. split; [vm_compute; reflexivity|]. split; vm_compute; reflexivity. Qed.
Example C42_case_none : exists ll ll', line_from [L "  a = 1; ! c"] = Done ll /\ split_after ll 2 = Ok (ll', None) /\
  map print_line (l_layout ll') = [L "  a = 1; ! c"].
Proof. eexists. eexists. split; [vm_compute; reflexivity|]. split; vm_compute; reflexivity. Qed.
