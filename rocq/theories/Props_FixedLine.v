(** Final theorems about fixed-format line analysis (C07, C08). *)
From Verif Require Import Base Base_lemmas FileLine FileLine_spec FileLine_proofs FixedLine_spec FixedLine_proofs.

(** C07 as stated is false: 73 blanks followed by "x", last column 72.  The "x"
    in column 74 becomes statement text (and is printed twice). *)
Theorem C07_fixed_beyond_refuted :
  exists f, analyze_fixed 1 (spaces 73 ++ L "x") c_nul 72 = Ok f /\
    main_txt f = L "x" /\ ~ In "x"%char (firstn 72 (spaces 73 ++ L "x")) /\
    right_txt f = L "!  x".
Proof.
  eexists. split; [vm_compute; reflexivity|]. split; [reflexivity|]. split; [|reflexivity].
  vm_compute. intuition discriminate.
Qed.
Print Assumptions C07_fixed_beyond_refuted.

(** C07, largest true part: if the statement text (the first character after
    the control columns and white space) starts no later than the last column,
    then main_txt is the raw text found there and ends within the last column;
    what lies beyond is in right_txt, as comment text. *)
Theorem C07_fixed_beyond_partial : forall ln raw0 pod lc f,
  analyze_fixed ln raw0 pod lc = Ok f -> is_fortran f = true -> (0 < lc)%Z ->
  let raw := expand_tabs raw0 in
  exists lt w body, fixed_left pod raw lt w body /\ raw = lt ++ w ++ body /\
    left_txt f = lt /\
    (length (lt ++ w) <= Z.to_nat lc ->
     let n := length (lt ++ w) in
     main_txt f ++ right_space f =
       firstn (length (main_txt f ++ right_space f)) (skipn n raw) /\
     (n + length (main_txt f ++ right_space f) <= Z.to_nat lc) /\
     ((exists k, first_bang pod (window lc n body) k /\
          right_txt f = skipn k body /\ open_delim f = c_nul) \/
      (no_bang pod (window lc n body) /\
       open_delim f = ctx_after pod (window lc n body) /\
       beyond (skipn (Z.to_nat lc) raw) (right_txt f)))).
Proof.
  intros * H FO LC raw. apply analyze_fixed_Ok in H. cbv zeta in H. fold raw in H.
  destruct H as [(X & _)|(_ & FX & lt & w & body & FL & FB & _ & ELT & ELS & R)]; [congruence|].
  exists lt, w, body. pose proof (fixed_left_app _ _ _ _ _ FL) as EA. conjs; auto.
  intros LE n. destruct (R (or_intror LE)) as (_ & RR & _). fold n in RR.
  assert (skipn n raw = body) as SB.
  { rewrite EA, app_assoc. apply skipn_app_len. }
  rewrite SB. pose proof (window_length lc n body LC LE) as WL.
  destruct RR as [(k & FBG & E1 & E2 & E3)|(NBG & E1 & E2 & E3)].
  - pose proof (first_bang_lt _ _ _ FBG) as LK.
    rewrite E1, firstn_length, Nat.min_l by lia. conjs.
    + apply window_firstn. lia.
    + lia.
    + left. exists k. auto.
  - rewrite E1. conjs; auto.
    + apply window_prefix.
    + right. conjs; auto.
      assert (skipn (Z.to_nat lc) raw = skipn (length (window lc n body)) body) as ->; auto.
      { rewrite <- SB at 2. rewrite skipn_add.
        destruct (Nat.eq_dec (n + length (window lc n body)) (Z.to_nat lc)) as [->|NE]; auto.
        assert (length (window lc n body) = length body) as WB.
        { unfold window in *. destruct (Z.ltb_spec 0 lc); [|lia].
          rewrite firstn_length in *. unfold n in *. lia. }
        rewrite !skipn_all2; auto; rewrite EA, app_assoc, app_length; unfold n in *; lia. }
Qed.
Print Assumptions C07_fixed_beyond_partial.

Definition ex_long : str :=
  L "      x = 1" ++ spaces 61 ++ L "SEQ00010".
Example C07_ex :
  exists f, analyze_fixed 1 ex_long c_nul 72 = Ok f /\ is_fortran f = true /\
    main_txt f = L "x = 1" /\ right_txt f = L "! SEQ00010".
Proof. eexists. split; [vm_compute; reflexivity|]. auto. Qed.

(** C08: fixed-format Fortran lines with a well-formed control field are
    printed back unchanged (no last-column truncation).  Inside an open
    character literal a labelled line is excluded. *)
Theorem C08_fixed_lossless : forall ln ctl rest pod lc f,
  analyze_fixed ln (ctl ++ rest) pod lc = Ok f ->
  control_field ctl -> ~ In c_tab ctl ->
  ((lc <= 0)%Z \/ (Z.of_nat (length (ctl ++ rest)) <= lc)%Z) ->
  (has_label f = true -> pod = c_nul) ->
  print_line f = ctl ++ rest.
Proof. exact fixed_print_fortran. Qed.
Print Assumptions C08_fixed_lossless.

Example C08_ex :
  exists f, analyze_fixed 1 (L " 100    if (x) ! doc") c_nul 72 = Ok f /\
    control_field (L " 100  ") /\ has_label f = true /\ is_fortran f = true /\
    main_txt f = L "if (x)" /\ print_line f = L " 100    if (x) ! doc".
Proof.
  eexists. split; [vm_compute; reflexivity|]. split; [|vm_compute; auto].
  right. right. exists [c_sp], (L "100"), 2.
  conjs; try reflexivity; try discriminate; repeat constructor.
Qed.

(** C08: the other lines are printed back exactly (tabs in the control columns
    are expanded). *)
Theorem C08_fixed_other_lossless : forall ln raw pod lc f,
  analyze_fixed ln raw pod lc = Ok f -> is_fortran f = false ->
  print_line f = expand_tabs raw.
Proof. exact fixed_print_plain. Qed.
Print Assumptions C08_fixed_other_lossless.

Theorem C08_fixed_no_tab : forall raw,
  ~ In c_tab (firstn 6 raw) -> expand_tabs raw = raw.
Proof. exact expand_tabs_id. Qed.
Print Assumptions C08_fixed_no_tab.

(** The control-field condition is needed: a '0' in column 6 of a labelled
    line ends up in the statement text, and a statement starting before
    column 7 is shifted. *)
Example C08_zero_col6 :
  exists f, analyze_fixed 1 (L "  10 0x=1") c_nul 72 = Ok f /\
    main_txt f = L "0x=1" /\ print_line f = L "  10  0x=1".
Proof. eexists. split; [vm_compute; reflexivity|]. auto. Qed.
Example C08_early_stmt :
  exists f, analyze_fixed 1 (L "   x=1") c_nul 72 = Ok f /\
    print_line f = L "      x=1".
Proof. eexists. split; [vm_compute; reflexivity|]. auto. Qed.

(** C08: classification of fixed-format lines by their text. *)
Theorem C08_fixed_classes : forall ln raw0 pod lc f,
  analyze_fixed ln raw0 pod lc = Ok f ->
  let raw := expand_tabs raw0 in
  (is_preprocessor f = true <-> hash_line raw) /\
  (is_include f = true <-> include_line raw /\ ~ column6_line raw) /\
  (is_comment f = true \/ is_flpr_pp f = true <-> fixed_comment_line raw) /\
  (is_fortran f = true -> fixed_code_line raw) /\
  (fixed_code_line raw -> is_fortran f = true \/ is_blank f = true) /\
  (blank_line raw -> is_blank f = true) /\
  is_flpr_lit f = false.
Proof. exact fixed_class. Qed.
Print Assumptions C08_fixed_classes.

(** C08: never undefined on 7-bit text. *)
Theorem C08_fixed_defined : forall ln raw pod lc,
  ascii7 raw -> (pod = c_nul \/ pod = c_squote \/ pod = c_dquote) ->
  (exists f, analyze_fixed ln raw pod lc = Ok f) \/ analyze_fixed ln raw pod lc = Throw.
Proof.
  intros * A D.
  assert (delim_ok pod = true) as D' by (destruct D as [-> | [-> | ->]]; reflexivity).
  destruct (analyze_fixed ln raw pod lc) as [f| |] eqn:E; eauto.
  exfalso. exact (analyze_fixed_defined _ _ _ _ A D' E).
Qed.
Print Assumptions C08_fixed_defined.

(** C08, tabs: the first run of tabs, if it starts within columns 1-6, is
    replaced by six blanks per tab; nothing else changes. *)
Theorem C08_fixed_tabs : forall a n rest,
  ~ In c_tab a -> length a < 6 -> (forall r, rest <> c_tab :: r) ->
  expand_tabs (a ++ repeat c_tab (S n) ++ rest) = a ++ spaces (6 * S n) ++ rest.
Proof.
  intros a n rest NT L6 NR. unfold expand_tabs.
  assert (find_first_of [c_tab] (a ++ repeat c_tab (S n) ++ rest) = Some (length a)) as ->.
  { apply find_from_Some. exists a, c_tab, (repeat c_tab n ++ rest). conjs; auto.
    apply forallb_forall. intros x Hx. apply negb_true_iff.
    destruct (mem x [c_tab]) eqn:M; auto. apply mem_In in M. destruct M as [<-|[]]. contradiction. }
  destruct (Nat.ltb_spec (length a) 6); [|lia]. cbv zeta.
  rewrite skipn_app_len.
  assert (forall k, count_tabs (repeat c_tab k ++ rest) = k) as CT.
  { induction k as [|k IH]; cbn [repeat app count_tabs].
    - destruct rest as [|x r]; auto. cbn [count_tabs]. destruct (ceq x c_tab) eqn:E; auto.
      apply ceq_true in E. subst. exfalso. eapply NR. reflexivity.
    - rewrite ceq_refl. now rewrite IH. }
  rewrite CT, firstn_app_len. replace (S n + 5 * S n) with (6 * S n) by lia.
  assert (skipn (length a + S n) (a ++ repeat c_tab (S n) ++ rest) = rest) as ->; auto.
  { rewrite skipn_app_ge by lia. replace (length a + S n - length a) with (length (repeat c_tab (S n))) by (rewrite repeat_length; lia).
    apply skipn_app_len. }
Qed.
Print Assumptions C08_fixed_tabs.

Example C08_tabs_ex : expand_tabs (L "10" ++ repeat c_tab 1 ++ L "x") = L "10      x".
Proof. reflexivity. Qed.
