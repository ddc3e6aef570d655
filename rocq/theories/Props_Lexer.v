(** C35, C36, C56: the lexical scanner. *)
From Verif Require Import Base Tags FileLine LogicalFile LineAccum LineAccum_spec Token Smash Peg Lexer Lexer_spec Smash_spec LexPos_spec
  Lexer_proofs LexLongest_proofs LexWord_proofs LexPos_proofs.
Local Open Scope nat_scope.

(** The scanner is between two lines: nothing but the current start condition
    survives, and it is INITIAL or real_parse. *)
Definition between_lines (st : LS) : Prop := st = ls_init \/ st = mkLS real_parse [].

(** C35.  Every text (up to its first NUL) is scanned completely: the tokens
    with the white space between them spell it, none is empty, each ends at its
    end offset, has the form of its kind, and is as long as possible (a real
    literal counts as one). *)
Theorem C35_tiles : forall st s, between_lines st ->
  exists l st', scan_string st s = Done (l, st') /\ lexed 0 (c_str s) l /\ between_lines st'.
Proof. exact scan_string_ok. Qed.
Print Assumptions C35_tiles.

(** C35.  Letter case changes neither the number of tokens, nor their kinds,
    nor where they end. *)
Theorem C35_case : forall st s1 s2 l1 l2 st1 st2, between_lines st ->
  map lower_b s1 = map lower_b s2 -> scan_string st s1 = Done (l1, st1) -> scan_string st s2 = Done (l2, st2) ->
  map (fun '(t, _, e) => (t, e)) l1 = map (fun '(t, _, e) => (t, e)) l2 /\ st1 = st2.
Proof.
  intros st s1 s2 l1 l2 st1 st2 _ E H1 H2.
  pose proof (scan_string_low st s1) as X1. pose proof (scan_string_low st s2) as X2.
  rewrite H1 in X1. rewrite H2 in X2. rewrite E, X2 in X1. inversion X1 as [[X E2]]. split; [|reflexivity].
  apply (f_equal (map (fun '(t, _, e) => (t, e)))) in X. rewrite !tags_low in X. symmetry. exact X.
Qed.
Print Assumptions C35_case.

(** C35.  A complete word is one token: the keyword, or else a name.  (A word
    that ends in "_" directly before a quote belongs to the literal.) *)
Theorem C35_word : forall f w rest pos, is_name w -> not_first name_char rest ->
  ~ (ends_under w /\ ~ not_first quote_char rest) ->
  exists t, yylex (S f) ls_init (w ++ rest) pos = Done (Some (t, w), ls_init, rest, pos + zlen w)%Z /\
    (keyword t w \/ t = TK_NAME /\ forall t', ~ keyword t' w).
Proof. exact word_token. Qed.
Print Assumptions C35_word.

(** C35.  A character literal, with its doubled delimiters and kind, is one
    token whatever is inside. *)
Theorem C35_literal : forall f k q b rest pos, kind_prefix k -> quote_char q -> quoted_body q b ->
  not_first (eq q) rest -> let w := k ++ [q] ++ b ++ [q] in
  yylex (S f) ls_init (w ++ rest) pos =
    Done (Some (SG_CHAR_LITERAL_CONSTANT, w), ls_init, rest, pos + zlen w)%Z.
Proof. exact literal_token. Qed.
Print Assumptions C35_literal.

(** C35 does not extend to: operators are found wherever Fortran has them. *)
Theorem C35_operator_refuted :
  exists l st', scan_string ls_init (L "1.eq.2") = Done (l, st') /\
    map (fun '(_, w, _) => w) l = [L "1."; L "eq"; L ".2"].
Proof. eexists. eexists. split; vm_compute; reflexivity. Qed.
Print Assumptions C35_operator_refuted.

(** C56 refuted: the tokens of a line depend on the line before. *)
Theorem C56_lines_independent_refuted :
  exists l1 l2, scan_string ls_init (L "x = 1.") = Done (l1, mkLS real_parse []) /\
    scan_string (mkLS real_parse []) (L "d1 = x") = Done (l2, ls_init) /\
    map (fun '(t, w, _) => (t, w)) l2 =
      [(SG_EXPONENT_LETTER, L "d"); (SG_EXPONENT, L "1"); (TK_EQUAL, L "="); (TK_NAME, L "x")] /\
    exists l3, scan_string ls_init (L "d1 = x") = Done (l3, ls_init) /\
      map (fun '(t, w, _) => (t, w)) l3 = [(TK_NAME, L "d1"); (TK_EQUAL, L "="); (TK_NAME, L "x")].
Proof. do 2 eexists. split; [vm_compute; reflexivity|]. split; [vm_compute; reflexivity|].
  split; [reflexivity|]. eexists. split; [vm_compute; reflexivity|reflexivity]. Qed.
Print Assumptions C56_lines_independent_refuted.

(** C56 (partial).  A line that could not continue a real literal is scanned
    the same after any line.  Missing: lines that begin like an exponent, such
    as "d1 = x". *)
Theorem C56_lines_independent_partial : forall s st1 st2, between_lines st1 -> between_lines st2 ->
  ~ continues_real (c_str s) -> c_str s <> [] -> scan_string st1 s = scan_string st2 s.
Proof.
  intros s st1 st2 [->| ->] [->| ->] H1 H2; try reflexivity; [symmetry|]; apply fresh_scan; assumption.
Qed.
Print Assumptions C56_lines_independent_partial.

(** C56 (partial).  Only a line whose last character ends a real literal has an
    effect on the next. *)
Theorem C56_left_partial : forall st s l st', between_lines st -> scan_string st s = Done (l, st') -> st' <> ls_init ->
  (c_str s = [] /\ st' = st) \/
  (exists l0 t w, l = l0 ++ [(t, w, zlen (c_str s))] /\ real_part t).
Proof.
  intros st s l st' Hst H Hne. destruct (scan_string_ok st s Hst) as (l1 & st1 & E & _ & [->|E1]).
  - rewrite H in E. inversion E; subst. contradiction.
  - rewrite H in E. injection E as El Es. subst l1. rewrite <- Es in E1.
    destruct (scan_left (scan_fuel (c_str s)) st (c_str s) 0%Z l st') as [(A & B & _)|B]; auto.
    + destruct Hst as [->| ->]; cbn; auto.
    + rewrite E1. reflexivity.
Qed.
Print Assumptions C56_left_partial.

(** C36 (partial).  The tokens of a line and where they say they are.  Each
    lexeme makes one fragment that records the file line and column of its first
    character, the line (counting those that are not comments or blank) and
    column of its first and last character in the main texts, and the white
    space before and after it; a smashed pair of keywords makes two.
    Missing: text that begins with white space or contains \n, \v, \f, NUL or
    bytes above 127; the first half of a smashed pair. *)
Theorem C36_positions_partial : forall st layout, between_lines st ->
  let ls := lines_of layout in
  Forall plain (joined ls) -> not_first white (joined ls) ->
  exists l st' fss, scan_string st (joined ls) = Done (l, st') /\
    tokenize_layout st layout = Done (concat fss, st') /\ Forall2 (fragments_of ls) l fss.
Proof.
  intros st layout Hst ls P NF. unfold tokenize_layout. rewrite accum_layout_lines.
  apply tokenize_ok; auto. apply line_cols.
Qed.
Print Assumptions C36_positions_partial.

(** C36 (partial).  In a layout without comment or blank lines, a token that
    begins and ends on one line is that part of that line's main text. *)
Theorem C36_selects_partial : forall layout x b e i,
  Forall (fun f => is_trivial f = false) layout ->
  text_at (joined (lines_of layout)) b e (tk_text x) ->
  mt_begins (lines_of layout) x b -> mt_ends (lines_of layout) x e ->
  mt_bl x = Some (Z.of_nat i) -> mt_el x = Some (Z.of_nat i) ->
  exists f bc ec, nth_error layout i = Some f /\ mt_bc x = Some (Z.of_nat bc) /\ mt_ec x = Some (Z.of_nat ec) /\
    bc < ec <= length (main_txt f) /\ tk_text x = firstn (ec - bc) (skipn bc (main_txt f)).
Proof.
  intros layout x b e i NT T (i1 & l1 & k & P1 & A1 & B1) (i2 & l2 & m & P2 & A2 & B2) E1 E2.
  assert (EL : lines_of layout = map line_of layout).
  { unfold lines_of. f_equal. clear -NT. induction NT as [|f r Hf _ IH]; [reflexivity|]. cbn [filter]. rewrite Hf. cbn. congruence. }
  rewrite EL in *. rewrite E1 in A1. rewrite E2 in A2. inversion A1. inversion A2.
  assert (i1 = i) by lia. assert (i2 = i) by lia. subst i1 i2.
  assert (l2 = l1) by (destruct P1 as (X & _); destruct P2 as (Y & _); congruence). subst l2.
  pose proof (one_line _ _ _ _ _ _ _ _ T P1 P2) as W.
  destruct P1 as (X1 & X2 & X3). destruct P2 as (_ & Y2 & Y3). destruct T as (T1 & T2 & _).
  rewrite nth_error_map in X1. destruct (nth_error layout i) as [f|]; [|discriminate X1]. inversion X1; subst l1.
  exists f, k, (m + 1). cbn [line_of l_main] in *. repeat split; auto; try lia.
  rewrite B2. f_equal. lia.
Qed.
Print Assumptions C36_selects_partial.

(** C36 refuted for layouts with a comment line in the middle: the line index is
    the comment's. *)
Theorem C36_comment_refuted : exists layout fr x f,
  analyze_all_free 1 [L "x = y + &"; L "! why"; L "  z"] c_nul false false = Ok layout /\
  tokenize_layout ls_init layout = Done (fr, ls_init) /\ last fr default_token = x /\ tk_text x = L "z" /\
  mt_bl x = Some 1%Z /\ nth_error layout 1 = Some f /\ is_comment f = true.
Proof.
  eexists. eexists. eexists. eexists. split; [vm_compute; reflexivity|]. split; [vm_compute; reflexivity|].
  split; [vm_compute; reflexivity|]. repeat split.
Qed.
Print Assumptions C36_comment_refuted.

(** C36 refuted for smashed keywords: the first half has no main-text position,
    the second half has that of the pair. *)
Theorem C36_smashed_refuted : exists layout a b,
  analyze_all_free 1 [L "enddo"] c_nul false false = Ok layout /\
  tokenize_layout ls_init layout = Done ([a; b], ls_init) /\
  tk_text a = L "end" /\ mt_bl a = None /\ tk_text b = L "do" /\ mt_bc b = Some 0%Z /\ mt_ec b = Some 5%Z.
Proof.
  eexists. eexists. eexists. split; [vm_compute; reflexivity|]. split; [vm_compute; reflexivity|]. repeat split.
Qed.
Print Assumptions C36_smashed_refuted.

(** C36 refuted for a form feed, which the scanner takes for a token and the
    position code for white space. *)
Theorem C36_form_feed_refuted : exists layout fr x,
  analyze_all_free 1 [L "a" ++ ["012"%char] ++ L "b"] c_nul false false = Ok layout /\
  tokenize_layout ls_init layout = Done (fr, ls_init) /\ nth_error fr 1 = Some x /\
  tk_text x = ["012"%char] /\ mt_bc x = Some 2%Z.
Proof.
  eexists. eexists. eexists. split; [vm_compute; reflexivity|]. split; [vm_compute; reflexivity|]. repeat split.
Qed.
Print Assumptions C36_form_feed_refuted.

(** * Cases *)
Definition ex_text : str := L "If (X_1 >= 2.5e-3_rk) call F('it''s', .TRUE.)".
Example C35_case_text : exists l, scan_string ls_init ex_text = Done (l, ls_init) /\
  map (fun '(t, w, _) => w) l = [L "If"; L "("; L "X_1"; L ">="; L "2.5"; L "e"; L "-3"; L "_"; L "rk"; L ")"; L "call"; L "F";
    L "("; L "'it''s'"; L ","; L ".TRUE."; L ")"].
Proof. eexists. split; vm_compute; reflexivity. Qed.
Example C35_case_word : is_name (L "endd_o") /\ not_first name_char (L " x") /\ ~ (ends_under (L "endd_o") /\ ~ not_first quote_char (L " x")).
Proof.
  split; [|split].
  - exists "e"%char, (L "ndd_o"). split; [reflexivity|]. split; [right; vm_compute; lia|].
    cbn [L map]. repeat (apply Forall_cons; [apply LexForm_proofs.name_char_iff; vm_compute; reflexivity|]). apply Forall_nil.
  - intros [[H|H]|[H|H]]; vm_compute in H; try lia. discriminate H.
  - intros [_ H]. apply H. intros [X|X]; discriminate X.
Qed.
Example C35_case_literal : kind_prefix (L "ck_") /\ quote_char "'"%char /\ quoted_body "'"%char (L "a""''&b").
Proof.
  split; [|split].
  - right. exists (L "ck"). split; [reflexivity|]. right. exists "c"%char, (L "k"). split; [reflexivity|].
    split; [right; vm_compute; lia|]. constructor; [left; right; vm_compute; lia|constructor].
  - left. reflexivity.
  - apply qb_other; [discriminate|]. apply qb_other; [discriminate|]. apply qb_twice.
    apply qb_other; [discriminate|]. apply qb_other; [discriminate|]. constructor.
Qed.
Example C56_case : ~ continues_real (L "call d1") /\ continues_real (L "d1 = x").
Proof.
  split.
  - intros (u & v & E & H). destruct u as [|c u].
    + destruct H as [[[H _]|[(a & b & H & _)|(b & H & _)]]|[(a & b & H & Ha & _)|(k & H & _)]]; try (exact (H eq_refl)); try discriminate H.
      * destruct a; discriminate H.
      * destruct Ha as [<-|[<-|[<-|[<-|[]]]]]; discriminate H.
    + inversion E; subst c. destruct H as [[[_ H]|[(a & b & H & Ha & _)|(b & H & _)]]|[(a & b & H & Ha & _)|(k & H & _)]]; try discriminate H.
      * inversion H; subst. apply LexForm_proofs.digit_iff in H3. vm_compute in H3. discriminate H3.
      * destruct Ha as [Hn Ha]. destruct a as [|c a]; [contradiction|]. inversion H; subst. inversion Ha; subst.
        match goal with X : digit "c" |- _ => apply LexForm_proofs.digit_iff in X; vm_compute in X; discriminate X end.
      * destruct Ha as [<-|[<-|[<-|[<-|[]]]]]; discriminate H.
  - exists (L "d1"), (L " = x"). split; [reflexivity|]. right. left. exists (L "d"), (L "1").
    split; [reflexivity|]. split; [cbn; auto|]. exists [], (L "1"). split; [reflexivity|]. split; [auto|].
    split; [discriminate|]. constructor; [unfold digit; vm_compute; lia|constructor].
Qed.
Definition ex_layout : res (list File_Line) := analyze_all_free 1 [L "10 call sub(a, &"; L "   & bcd) "] c_nul false false.
Example C36_case : exists layout fr, ex_layout = Ok layout /\ tokenize_layout ls_init layout = Done (fr, ls_init) /\
  map tk_text fr = [L "call"; L "sub"; L "("; L "a"; L ","; L "bcd"; L ")"] /\
  map (fun x => (tk_line x, tk_pos x)) fr = [(1, 4); (1, 9); (1, 12); (1, 13); (1, 14); (2, 6); (2, 9)]%Z /\
  map (fun x => (mt_bl x, mt_bc x, mt_ec x)) fr =
    [(Some 0, Some 0, Some 4); (Some 0, Some 5, Some 8); (Some 0, Some 8, Some 9); (Some 0, Some 9, Some 10);
     (Some 0, Some 10, Some 11); (Some 1, Some 1, Some 4); (Some 1, Some 4, Some 5)]%Z /\
  map (fun x => (tk_pre x, tk_post x)) fr =
    [(Some 0, Some 1); (Some 1, Some 0); (Some 0, Some 0); (Some 0, Some 0); (Some 0, Some 2); (Some 2, Some 0); (Some 0, Some 1)]%Z.
Proof. eexists. eexists. split; [vm_compute; reflexivity|]. split; [vm_compute; reflexivity|]. repeat split. Qed.
