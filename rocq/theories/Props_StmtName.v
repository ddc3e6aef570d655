(** C68: the names of procedures. *)
From Coq Require Import Lia.
From Verif Require Import Base Base_lemmas Tags SyntaxTags Token TTStream TTStream_spec StmtRules Peg Peg_spec Stmt_spec StmtGrammar StmtParser
  StmtTree_spec FileLine LogicalLine LexPos_spec LineEdit LineEdit_spec StmtWalk StmtWalk_spec StmtName_proofs.
From Verif Require Import Props_Stmt Props_LineEdit Props_StmtWalk.
Local Open Scope nat_scope.

(** C68.  name() of a procedure with a first statement is the token after the word
    PROGRAM, FUNCTION, SUBROUTINE or PROCEDURE; in front of the word there is
    nothing, MODULE (for PROCEDURE), or a series of prefix-specs. *)
Theorem C68_name : forall exts n r kw s t s', exts_ok exts -> proper_stmt s -> In (r, kw) heads -> parse_rule grammar exts n r s = Done (Some t, s') ->
  exists k x, before_word r s k /\ kind (frags s) k kw /\ nth_error (frags s) (S k) = Some x /\ is_name_tag (tok x) = Ok true /\
    to_name t = Ok (S k) /\ proc_name (frags s) (Some t) = Ok (tk_text x).
Proof.
  intros exts n r kw s t s' He Hs I H. destruct (head_walk _ _ _ _ _ _ _ He Hs I H) as (k & B & T & (x & X & N & _) & W). exists k, x. split; [exact B|]. split; [exact T|]. split; [exact X|]. split; [exact N|].
  split; [exact W|]. unfold proc_name, text_at. rewrite W. cbn [bind]. rewrite X. reflexivity.
Qed.

(** C68.  The end statement is END, END word or END word name, and the walk finds the
    name if there is one. *)
Theorem C68_end : forall exts n r kw g s t s', exts_ok exts -> exts_end exts -> proper_stmt s -> In (r, kw, g) ends -> parse_rule grammar exts n r s = Done (Some t, s') ->
  kind (frags s) (pos s) KW_END /\
  (s_end s = pos s + 1 \/ s_end s = pos s + 2 /\ kind (frags s) (pos s + 1) kw \/
   s_end s = pos s + 3 /\ kind (frags s) (pos s + 1) kw /\ name_at (frags s) (pos s + 2) (fun _ => True)) /\
  to_end_name t = Ok (end_name s).
Proof.
  intros exts n r kw g s t s' He Hee Hs I H. destruct (end_run _ _ _ _ _ _ _ _ He Hee Hs I H) as (T & C). cbn zeta in C. split; [exact T|]. split; [tauto|]. eapply end_walk; eauto.
Qed.

(** C68.  rename(new): nothing happens if that is the name.  Otherwise the token that
    is the name in the first statement (on line i), and the one in the end statement (on
    line j) if it has one, say [new]; all other tokens say what they said, all other
    lines are as they were, the tokens stand where they say, and the name is [new].
    The lines may be the same one. *)
Theorem C68_rename : forall exts n rb kb sb tb sb' re ke g se te se' ls i lb j le new,
  exts_ok exts -> exts_end exts -> proper_stmt sb -> proper_stmt se -> In (rb, kb) heads -> In (re, ke, g) ends ->
  parse_rule grammar exts n rb sb = Done (Some tb, sb') -> parse_rule grammar exts n re se = Done (Some te, se') ->
  nth_error ls i = Some lb -> l_frags lb = frags sb -> in_place lb -> nth_error ls j = Some le -> l_frags le = frags se -> in_place le ->
  exists k x, before_word rb sb k /\ kind (frags sb) k kb /\ nth_error (frags sb) (S k) = Some x /\ proc_name (l_frags lb) (Some tb) = Ok (tk_text x) /\
   (tk_text x = new -> rename ls i tb j te new = Ok (ls, false)) /\
   (tk_text x <> new -> unsplit lb (S k) -> (forall q, end_name se = Some q -> unsplit le q) ->
    exists ls' lb', rename ls i tb j te new = Ok (ls', true) /\
      renamed ((i, S k) :: match end_name se with Some q => [(j, q)] | None => [] end) new ls ls' /\
      nth_error ls' i = Some lb' /\ proc_name (l_frags lb') (Some tb) = Ok new).
Proof.
  intros exts n rb kb sb tb sb' re ke g se te se' ls i lb j le new He Hee Hsb Hse Ib Ie PB PE LI FB IB LJ FE IE.
  destruct (C68_name _ _ _ _ _ _ _ He Hsb Ib PB) as (k & x & B & T & X & _ & W & P). pose proof (end_walk _ _ _ _ _ _ _ _ He Hee Hse Ie PE) as WE. rewrite <- FB in P.
  exists k, x. split; [exact B|]. split; [exact T|]. split; [exact X|]. split; [exact P|].
  unfold rename. unfold line_at at 1. unfold line_at at 1. rewrite LI. cbn [bind]. rewrite P. cbn [bind]. split.
  - intros <-. destruct (list_eq_dec ascii_dec (tk_text x) (tk_text x)) as [_|N]; [reflexivity|congruence].
  - intros N U1 U2. destruct (list_eq_dec ascii_dec new (tk_text x)) as [Q|_]; [congruence|]. rewrite W. cbn [bind].
    destruct (put_ok ls i lb (S k) new LI IB U1) as (lb1 & E1 & P1 & L1 & W1). rewrite E1. cbn [bind]. rewrite WE. cbn [bind].
    assert (LEN : i < length ls) by (apply nth_error_Some; rewrite LI; discriminate).
    pose proof (put_renamed ls i lb lb1 (S k) new LI P1 L1 W1) as R1.
    destruct (end_name se) as [q|].
    + assert (exists le1, nth_error (put_line ls i lb1) j = Some le1 /\ in_place le1 /\ unsplit le1 q) as (le1 & LJ1 & IE1 & UE1).
      { rewrite put_nth by exact LEN. destruct (Nat.eqb_spec j i) as [->|NE]; [|exists le; auto]. exists lb1. split; [reflexivity|]. split; [exact P1|]. rewrite LI in LJ. injection LJ as <-.
        destruct (U2 q eq_refl) as (y & Y & YE). destruct (W1 _ _ Y) as (y' & Y1 & Y2 & Y3 & _). exists y'. split; [exact Y1|congruence]. }
      destruct (put_ok _ j le1 q new LJ1 IE1 UE1) as (le2 & E2 & P2 & L2 & W2). rewrite E2. cbn [bind].
      pose proof (put_renamed _ j le1 le2 q new LJ1 P2 L2 W2) as R2. pose proof (renamed_trans _ _ _ _ _ _ R1 R2) as R.
      exists (put_line (put_line ls i lb1) j le2). destruct (proj2 R _ _ LI) as (lb' & LB' & _ & WB & _). exists lb'. split; [reflexivity|]. split; [exact R|]. split; [exact LB'|].
      rewrite FB in WB. destruct (WB _ _ X) as (x' & X' & A & _). unfold proc_name, StmtWalk.text_at. rewrite W. cbn [bind]. rewrite X'. f_equal. specialize (A (or_introl eq_refl)). unfold word in A. congruence.
    + exists (put_line ls i lb1), lb1. cbn [bind]. split; [reflexivity|]. split; [exact R1|]. split; [rewrite put_nth, Nat.eqb_refl by exact LEN; reflexivity|].
      rewrite <- FB in X. destruct (W1 _ _ X) as (x' & X' & _ & _ & A). unfold proc_name, StmtWalk.text_at. rewrite W. cbn [bind]. rewrite X'. f_equal. rewrite Nat.eqb_refl in A. unfold word in A. congruence.
Qed.

(** C68.  complete_end_stmt appends what is missing: the word for the kind of procedure
    and its name, or the name, or nothing.  A main program without a program statement has no name. *)
Theorem C68_complete : forall exts n r kw g w s t s' fr b nm, exts_ok exts -> exts_end exts -> proper_stmt s -> In (r, kw, g) ends -> end_word g w ->
  parse_rule grammar exts n r s = Done (Some t, s') -> proc_name fr b = Ok nm ->
  end_suffix g fr b t = Ok (if s_end s - pos s =? 1 then L " " ++ w ++ L " " ++ nm
                            else if s_end s - pos s =? 2 then match b with Some _ => L " " ++ nm | None => [] end
                            else []).
Proof.
  intros exts n r kw g w s t s' fr b nm He Hee Hs I EW H P. destruct (end_run _ _ _ _ _ _ _ _ He Hee Hs I H) as (T & C). cbn zeta in C. unfold end_suffix, w_down, w_root. cbn [fst].
  assert (KW : kind_word g = L " " ++ w ++ L " ").
  { unfold end_word in EW. cbn [In] in EW. destruct EW as [E|[E|[E|[E|[]]]]]; injection E as <- <-; reflexivity. }
  destruct C as [(-> & ->)|[(-> & -> & _)|(-> & -> & _)]]; cbn [bind]; unfold w_is, w_tag, leaf_at; cbn [fst t_tag]; rewrite Z.eqb_refl; cbn [assert_ bind w_has_next snd length Nat.eqb negb w_next].
  - replace (pos s + 1 - pos s =? 1) with true by (symmetry; apply Nat.eqb_eq; lia). rewrite KW.
    change (negb (length (L " " ++ w ++ L " ") =? 0)) with true. cbn [assert_ bind]. rewrite P. cbn [bind]. rewrite <- !app_assoc. reflexivity.
  - replace (pos s + 2 - pos s =? 1) with false by (symmetry; apply Nat.eqb_neq; lia). replace (pos s + 2 - pos s =? 2) with true by (symmetry; apply Nat.eqb_eq; lia). destruct b; [rewrite P|]; reflexivity.
  - replace (pos s + 3 - pos s =? 1) with false by (symmetry; apply Nat.eqb_neq; lia). replace (pos s + 3 - pos s =? 2) with false by (symmetry; apply Nat.eqb_neq; lia). reflexivity.
Qed.

(** A main program without a program statement: a bare END gets the word and no name, "end program" stays. *)
Theorem C68_nameless : forall exts n r kw s t s' fr, exts_ok exts -> exts_end exts -> proper_stmt s -> In (r, kw, PG_MAIN_PROGRAM) ends ->
  parse_rule grammar exts n r s = Done (Some t, s') ->
  proc_name fr None = Ok [] /\ end_suffix PG_MAIN_PROGRAM fr None t = Ok (if s_end s - pos s =? 1 then L " program " else []).
Proof.
  intros exts n r kw s t s' fr He Hee Hs I H. split; [reflexivity|].
  rewrite (C68_complete _ _ _ _ _ (L "program") _ _ _ fr None [] He Hee Hs I ltac:(unfold end_word; cbn [In]; auto 6) H eq_refl).
  destruct (s_end s - pos s =? 1); [reflexivity|]. destruct (s_end s - pos s =? 2); reflexivity.
Qed.

(** elemental function f(x) result(y) / end function F *)
Definition none : LLn := mkLLn 0 CAT_UNKNOWN false false 0 [] [] [].
Definition l_beg : LLn := match line_from [L "elemental function &"; L "  & f(x) result(y)"] with Done ll => ll | _ => none end.
Definition l_end : LLn := match line_from [L "end function F ! done"] with Done ll => ll | _ => none end.
Definition s_of (ll : LLn) : stream := stream_of (l_frags ll) 0 (length (l_frags ll)).
Ltac stands_there :=
  repeat match goal with
  | |- _ /\ _ => split
  | |- True => exact I
  | |- before (?i, _) (?i, _) => apply before_le; lia
  | |- before _ _ => left; cbn; lia
  | |- stands _ _ _ _ => unfold stands
  | |- inside _ _ => unfold inside
  | |- _ -> _ => intro
  | |- _ => cbn in *; lia
  | |- _ => cbn; reflexivity
  | |- _ => cbn; discriminate
  end.
Lemma beg_laid : in_place l_beg.
Proof.
  exists [((0, 0), (0, 9)); ((0, 10), (0, 18)); ((1, 1), (1, 2)); ((1, 2), (1, 3)); ((1, 3), (1, 4)); ((1, 4), (1, 5)); ((1, 6), (1, 12)); ((1, 12), (1, 13)); ((1, 13), (1, 14)); ((1, 14), (1, 15))].
  vm_compute l_frags. vm_compute l_layout. cbn [laid]. stands_there.
Qed.
Lemma end_laid : in_place l_end.
Proof. exists [((0, 0), (0, 3)); ((0, 4), (0, 12)); ((0, 13), (0, 14))]. vm_compute l_frags. vm_compute l_layout. cbn [laid]. stands_there. Qed.

Lemma tagged_beg : proper_stmt (s_of l_beg).
Proof.
  split; [cbn; lia|]. split; [split; vm_compute; repeat constructor|]. split.
  - vm_compute stmt_toks. repeat constructor; try (intro H; vm_compute in H; discriminate H); eexists; vm_compute; reflexivity.
  - vm_compute stmt_toks. do 3 (apply nest_tok; [reflexivity..|]). apply (nest_paren _ [_]); [reflexivity..| |].
    + apply nest_tok; [reflexivity..|]. constructor.
    + apply nest_tok; [reflexivity..|]. apply (nest_paren _ [_]); [reflexivity..| |constructor]. apply nest_tok; [reflexivity..|]. constructor.
Qed.
Lemma tagged_end : proper_stmt (s_of l_end).
Proof.
  split; [cbn; lia|]. split; [split; vm_compute; repeat constructor|]. split.
  - vm_compute stmt_toks. repeat constructor; try (intro H; vm_compute in H; discriminate H); eexists; vm_compute; reflexivity.
  - vm_compute stmt_toks. do 3 (apply nest_tok; [reflexivity..|]). constructor.
Qed.
(** All the hypotheses of C68_rename, and what it does: *)
Example C68_case : exists tb sb' te se' ls',
  proper_stmt (s_of l_beg) /\ proper_stmt (s_of l_end) /\ in_place l_beg /\ in_place l_end /\ exts_ok no_exts /\ exts_end no_exts /\
  parse_rule grammar no_exts 60 r_function_stmt (s_of l_beg) = Done (Some tb, sb') /\ parse_rule grammar no_exts 60 r_end_function_stmt (s_of l_end) = Done (Some te, se') /\
  proc_name (l_frags l_beg) (Some tb) = Ok (L "f") /\ unsplit l_beg 2 /\ end_name (s_of l_end) = Some 2 /\ unsplit l_end 2 /\
  rename [l_beg; none; l_end] 0 tb 2 te (L "longer") = Ok (ls', true) /\
  map (fun ll => map print_line (l_layout ll)) ls' = [[L "elemental function &"; L "  & longer(x) result(y)"]; []; [L "end function longer ! done"]].
Proof.
  do 5 eexists. split; [exact tagged_beg|]. split; [exact tagged_end|]. split; [exact beg_laid|]. split; [exact end_laid|]. pose proof no_exts_fine as (F1 & F2 & _). split; [exact F1|]. split; [exact F2|].
  split; [vm_compute; reflexivity|]. split; [vm_compute; reflexivity|]. split; [vm_compute; reflexivity|]. split; [eexists; split; vm_compute; reflexivity|]. split; [vm_compute; reflexivity|].
  split; [eexists; split; vm_compute; reflexivity|]. split; [vm_compute; reflexivity|]. vm_compute; reflexivity.
Qed.
Example C68_case_complete : exists t s', let s := S_of [T KW_END "end"] in parse_rule grammar no_exts 60 r_end_mp_subprogram_stmt s = Done (Some t, s') /\
  exists tb sb', parse_rule grammar no_exts 60 r_mp_subprogram_stmt (S_of [T KW_MODULE "module"; T KW_PROCEDURE "procedure"; T TK_NAME "p"]) = Done (Some tb, sb') /\
  end_suffix PG_SEPARATE_MODULE_SUBPROGRAM [T KW_MODULE "module"; T KW_PROCEDURE "procedure"; T TK_NAME "p"] (Some tb) t = Ok (L " procedure p").
Proof. do 2 eexists. split; [vm_compute; reflexivity|]. do 2 eexists. split; vm_compute; reflexivity. Qed.

Example C68_nameless_ex : let s := S_of [T KW_END "end"] in exts_ok no_exts /\ exts_end no_exts /\ proper_stmt s /\ In (r_end_program_stmt, KW_PROGRAM, PG_MAIN_PROGRAM) ends /\
  exists t s', parse_rule grammar no_exts 60 r_end_program_stmt s = Done (Some t, s') /\ end_suffix PG_MAIN_PROGRAM [] None t = Ok (L " program ").
Proof.
  cbn zeta. pose proof no_exts_fine as (F1 & F2 & _). split; [exact F1|]. split; [exact F2|]. split.
  { split; [cbn; lia|]. split; [split; vm_compute; repeat constructor|]. split.
    - vm_compute stmt_toks. repeat constructor; try (intro H; vm_compute in H; discriminate H); eexists; vm_compute; reflexivity.
    - vm_compute stmt_toks. apply nest_tok; [reflexivity..|]. constructor. }
  split; [unfold ends; cbn [In]; auto 6|]. eexists _, _. split; [vm_compute; reflexivity|vm_compute; reflexivity].
Qed.
Definition C68_all := (C68_nameless, C68_name, C68_end, C68_rename, C68_complete).
Print Assumptions C68_all.
