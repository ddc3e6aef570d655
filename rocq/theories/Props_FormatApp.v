(** C71: splitting compound lines. *)
From Coq Require Import Lia.
From Verif Require Import Base Base_lemmas Tags FileLine LogicalFile Token LogicalLine Stmts Stmts_spec Peg Lexer LineEdit LineEdit_spec LineFlow_spec
  FormatApp FormatApp_spec FormatApp_proofs Props_LineEdit.
Local Open Scope nat_scope.

(** For lines whose text can be made again (C46): split_compound_stmts never fails;
    a line without semicolons, or without Fortran, stays as it is; of any other
    line there is one line for each of its statements, whose text spells the
    statement (see [rewritten]).  So the file has the same statements in the same
    order, no two on a line, and no semicolon is left; the answer is whether
    there was one. *)
Theorem C71_split_partial : forall lines, Forall line_ready lines ->
  exists groups changed, split_compound_stmts lines = Ok (concat groups, changed) /\
    Forall2 split_into lines groups /\
    program_of (concat groups) = program_of lines /\
    Forall (fun l => has_fortran l = true -> has_semi l = false /\ length (statements_of l) <= 1) (concat groups) /\
    (changed = true <-> exists l, In l lines /\ has_fortran l = true /\ has_semi l = true).
Proof.
  intros lines R. destruct (split_all lines R) as (groups & c & E & F & EC). exists groups, c. split; [exact E|]. split; [exact F|].
  destruct (split_programs _ _ F) as (P & Q). split; [exact P|]. split; [exact Q|]. rewrite EC, existsb_exists. split; intros (l & I & H); exists l; [apply andb_true_iff in H; tauto|rewrite andb_true_iff; tauto].
Qed.
(** Doing it again changes nothing. *)
Theorem C71_again_partial : forall lines lines' changed, Forall line_ready lines -> split_compound_stmts lines = Ok (lines', changed) ->
  split_compound_stmts lines' = Ok (lines', false).
Proof.
  intros lines lines' changed R H. destruct (split_all lines R) as (groups & c & E & F & _). unfold split_compound_stmts in H. rewrite E in H. injection H as <- _.
  destruct (split_programs _ _ F) as (_ & Q).
  assert (R' : Forall (fun l => redo_stmts l = l) (concat groups)).
  { clear E Q. revert groups F. induction R as [|ll lines (RD & _) R IH]; intros groups F; inversion F; subst; [constructor|]. cbn [concat]. apply Forall_app. split; [eapply split_ready; eauto|apply IH; assumption]. }
  assert (RY : Forall line_ready (concat groups)).
  { rewrite Forall_forall in *. intros l I. split; [apply R'; exact I|]. intros HF HS. destruct (Q l I HF) as (NS & _). congruence. }
  destruct (split_all _ RY) as (g & c' & E' & F' & EC).
  assert (N : forall l, In l (concat groups) -> has_fortran l && has_semi l = false) by (intros l I; rewrite Forall_forall in Q; specialize (Q l I); destruct (has_fortran l); [destruct Q; auto|reflexivity]).
  unfold split_compound_stmts. rewrite E'.
  assert (concat g = concat groups) as ->.
  { clear -F' N. induction F' as [|l o ls g S F' IH]; [reflexivity|]. cbn [concat]. unfold split_into in S. rewrite (N l (or_introl eq_refl)) in S. subst o. rewrite IH; [reflexivity|]. intros; apply N; right; assumption. }
  assert (c' = false) as ->; [|reflexivity]. rewrite EC. clear -N. induction (concat groups) as [|l ls IH]; [reflexivity|]. cbn [existsb]. rewrite (N l (or_introl eq_refl)). apply IH. intros; apply N; right; assumption.
Qed.

Definition split_text (files : list (list str)) : out (list (list str) * bool) :=
  lines <~ (fix go l := match l with [] => Done [] | r :: l => x <~ line_from r ;; xs <~ go l ;; Done (x :: xs) end) files ;;
  ' (l, c) <~ lift (split_compound_stmts lines) ;;
  Done (map (fun ll => map print_line (l_layout ll)) l, c).

(** The statements keep the label of their line: a label is defined as often as its
    line has statements.  In general (C71_split_partial) and in the text. *)
Theorem C71_label_refuted : forall ll, line_ready ll -> has_fortran ll = true -> 2 <= length (statements_of ll) -> l_label ll <> 0%Z ->
  exists a b r changed, split_compound_stmts [ll] = Ok (a :: b :: r, changed) /\ l_label a = l_label ll /\ l_label b = l_label ll.
Proof.
  intros ll R HF L NZ. destruct (C71_split_partial [ll]) as (groups & c & E & F & _ & _ & _); [constructor; auto|].
  inversion F as [|? out ? g S F']; subst. inversion F'; subst. cbn [concat] in E. rewrite app_nil_r in E. unfold split_into in S. rewrite HF in S. cbn [andb] in S.
  destruct (has_semi ll) eqn:HS.
  - destruct (statements_of ll) as [|s1 [|s2 ss]]; [cbn in L; lia|cbn in L; lia|]. inversion S as [|? a ? o R1 S1]; subst. inversion S1 as [|? b ? o' R2 S2]; subst.
    exists a, b, o', c. split; [exact E|]. split; [apply R1|apply R2].
  - exfalso. unfold statements_of in L. unfold has_semi in HS. rewrite semis_count in HS. apply Nat.ltb_ge in HS.
    pose proof (Stmts_proofs.segments_length (l_frags ll)). pose proof (Stmts_proofs.filter_len_le (@nonempty Token) (segments (l_frags ll))). lia.
Qed.
Theorem C71_label_text_refuted : split_text [[L "10 a = 1; b = 2"]] = Done ([[L "10 a = 1"]; [L "10 b = 2"]], true).
Proof. vm_compute. reflexivity. Qed.

(** remove_empty_stmts looks at the lines without Fortran only: it does nothing. *)
Theorem C71_remove_refuted : forall lines, Forall (fun ll => redo_stmts ll = ll /\ (has_fortran ll = false -> has_semi ll = false)) lines ->
  remove_empty_stmts lines = Ok (lines, false).
Proof.
  induction 1 as [|ll lines (RD & H) F IH]; [reflexivity|]. cbn [remove_empty_stmts]. rewrite IH. destruct (has_fortran ll); [reflexivity|].
  unfold ll_has_empty. rewrite (nsemi_of ll RD). specialize (H eq_refl). unfold has_semi in H. rewrite semis_count in H. apply Nat.ltb_ge in H. replace (semicolons (l_frags ll)) with 0 by lia. reflexivity.
Qed.

(** * Cases *)
Example C71_ex : exists l1 l2 l3, line_from [L "  if (a) b = 1; ; c = 2 ;; call s(x, & ! one"; L "! two"; L "    y); ! three"] = Done l1 /\ line_from [L "; ; "] = Done l2 /\ line_from [L "d = 3"] = Done l3 /\
  Forall line_ready [l1; l2; l3] /\ has_semi l1 = true /\ length (statements_of l1) = 3 /\ statements_of l2 = [] /\ has_semi l2 = true.
Proof.
  eexists _, _, _. split; [vm_compute; reflexivity|]. split; [vm_compute; reflexivity|]. split; [vm_compute; reflexivity|].
  split; [|split; [vm_compute; reflexivity|]; split; [vm_compute; reflexivity|]; split; vm_compute; reflexivity].
  apply Forall_cons; [|apply Forall_cons; [|apply Forall_cons; [|apply Forall_nil]]]; (split; [vm_compute; reflexivity|]); intros _ S; try (vm_compute in S; discriminate S); eexists _, _; (split; [reflexivity|]); (split; [reflexivity|]);
    (split; [repeat constructor; (left; reflexivity) || (right; reflexivity)|]); (split; [vm_compute; lia|]); (split; [apply spacedb_ok; vm_compute; reflexivity|]); repeat (apply Forall_cons; [cbn; congruence|]); apply Forall_nil.
Qed.
Example C71_ex_text : split_text [[L "  if (a) b = 1; ; c = 2 ;; call s(x, & ! one"; L "! two"; L "    y); ! three"]; [L "; ; "]; [L "d = 3"]] =
  Done ([[L "  if (a) b = 1   ! one"; L "! two"; L "     ! three"];
         [L "  c = 2   ! one"; L "! two"; L "     ! three"];
         [L "  call s(x,  y)   ! one"; L "! two"; L "     ! three"]; []; [L "d = 3"]], true).
Proof. vm_compute. reflexivity. Qed.
Example C71_label_ex : exists ll, line_from [L "10 a = 1; b = 2"] = Done ll /\ line_ready ll /\ has_fortran ll = true /\ length (statements_of ll) = 2 /\ l_label ll = 10%Z.
Proof.
  eexists. split; [vm_compute; reflexivity|]. split; [|repeat split; vm_compute; reflexivity].
  split; [vm_compute; reflexivity|]. intros _ _. eexists _, _. split; [reflexivity|]. split; [reflexivity|]. split; [constructor|]. split; [vm_compute; lia|]. split; [apply spacedb_ok; vm_compute; reflexivity|]. repeat (apply Forall_cons; [cbn; congruence|]); apply Forall_nil.
Qed.
Example C71_remove_ex : exists ll, line_from [L "a = 1;; b = 2;"] = Done ll /\ redo_stmts ll = ll /\ has_fortran ll = true /\ has_semi ll = true /\ remove_empty_stmts [ll] = Ok ([ll], false).
Proof. eexists. split; [vm_compute; reflexivity|]. repeat split; vm_compute; reflexivity. Qed.

Definition C71_all := (C71_split_partial, C71_again_partial, C71_label_refuted, C71_label_text_refuted, C71_remove_refuted).
Print Assumptions C71_all.
