(** C39: converting a fixed-format file to free format. *)
From Verif Require Import Base Base_lemmas Tags FileLine FileLine_spec FileLine_proofs FixedLine_spec
  LogicalFile LogicalFile_spec LogicalLine Token LineEdit Peg Lexer
  Convert Convert_spec Convert_proofs ConvertFile_proofs.
Local Open Scope nat_scope.

(** C39, one statement: if its lines have the form [convertible] and its tokens
    stand in order, the conversion is defined, changes nothing but the layout, and
    converts each line as [layout_converted] says.  Missing from the full claim:
    statements whose tokens do not fit (see the refutations). *)
Theorem C39_convert_stmt_partial : forall ll f,
  hd_error (l_layout ll) = Some f -> is_fixed_format f = true -> is_fortran f = true ->
  convertible (l_layout ll) -> tokens_fit ll ->
  exists l', convert_ll ll = Ok (with_layout ll l', true) /\
    layout_converted (l_frags ll) (l_layout ll) l'.
Proof. exact convert_stmt_ok. Qed.
Print Assumptions C39_convert_stmt_partial.

(** C39, a block of lines without Fortran. *)
Theorem C39_convert_other : forall ll f,
  hd_error (l_layout ll) = Some f -> is_fixed_format f = true ->
  Forall (fun f => is_fortran f = false) (l_layout ll) -> convertible (l_layout ll) ->
  exists l', convert_ll ll = Ok (with_layout ll l', true) /\
    layout_converted (l_frags ll) (l_layout ll) l'.
Proof. exact convert_other_ok. Qed.
Print Assumptions C39_convert_other.

(** C39, whole files: a standard fixed-format file is converted line by line, and
    the text written is a free-format file in which the free-format reader finds
    exactly the converted logical lines again. *)
Theorem C39_reread_partial : forall raws lc n lls lns,
  scan_fixed n raws lc = Some (Ok lls) -> tokenized lls lns ->
  Forall (Forall source_char) raws -> (0 < lc -> 6 <= lc)%Z ->
  Forall (standard lc) lns -> Forall tokens_fit lns ->
  exists lns', convert_file lns = Ok (lns', negb (is_empty lns)) /\ Forall2 ll_converted lns lns' /\
    exists lls', scan_free n (printed lns') = Some (Ok lls') /\ Forall2 ll_again lns' lls'.
Proof. exact convert_reread. Qed.
Print Assumptions C39_reread_partial.

(** ** A file that meets the hypotheses *)
(** the logical lines with the tokens the lexer finds *)
Definition tokens_of_scan (l : list LLine) : out (list LLn) :=
  (fix go st l := match l with
   | [] => Done []
   | x :: r =>
       ' (ll, st') <~ init_from_layout st (mkLLn (ll_label x) (ll_cat x) false (ll_needs_reformat x)
                        (-1) (ll_layout x) [] []) (ll_layout x) ;;
       r' <~ go st' r ;; Done (ll :: r')
   end) ls_init l.
Definition scanned (raws : list str) : list LLn :=
  match scan_fixed 100 raws 72 with
  | Some (Ok lls) => match tokens_of_scan lls with Done l => l | _ => [] end
  | _ => []
  end.
Definition converted (raws : list str) : option (list str) :=
  match convert_file (scanned raws) with Ok (l, true) => Some (printed l) | _ => None end.

Definition ex_file : list str :=
  [L "C head"; L "      x = 1 +        ! hi"; L "C mid"; L "     &  2 + 'it''s'";
   L "   10 print *, intege"; L "     &r(y),'ab  "; L "     & cd'"].
Example C39_ex_text : converted ex_file = Some
  [L "! head"; L "      x = 1 +      & ! hi"; L "! mid"; L "        2 + 'it''s'";
   L "   10print *, intege&"; L "     &r(y),'ab  &"; L "     & cd'"].
Proof. vm_compute. reflexivity. Qed.

(** checks for the hypotheses *)
Definition no_ampb d s := forallb (fun i => negb (ceq (nth i s c_nul) c_amp) || negb (ceq (ctx_after d (firstn i s)) c_nul))
  (seq 0 (length s)).
Lemma no_ampb_ok d s : no_ampb d s = true -> no_amp d s.
Proof.
  intros H i N. unfold no_ampb in H. rewrite forallb_forall in H.
  specialize (H i). rewrite (nth_error_nth _ _ _ N) in H. cbn in H.
  assert (I : In i (seq 0 (length s))).
  { apply in_seq. split; [lia|]. apply nth_error_Some. congruence. }
  apply H in I. apply negb_true_iff, ceq_false in I. auto.
Qed.
Definition cutsb (l : list Token) (i : nat) : bool :=
  existsb (fun x => match mt_bl x, mt_el x with
                    | Some b, Some e => (b <? Z.of_nat i)%Z && (Z.of_nat i <=? e)%Z
                    | _, _ => false end) l.
Lemma cutsb_ok l i : cutsb l i = true <-> cuts l i.
Proof.
  unfold cutsb, cuts. rewrite existsb_exists. split.
  - intros (x & I & H). destruct (mt_bl x) as [b|] eqn:B; [|discriminate].
    destruct (mt_el x) as [e|] eqn:E; [|discriminate].
    apply andb_prop in H as [H1 H2]. exists x, b, e. rewrite B, E. conjs; auto; lia.
  - intros (x & b & e & I & B & E & H). exists x. split; auto. rewrite B, E.
    apply andb_true_intro. split; lia.
Qed.
Fixpoint in_orderb (from : Z) (l : list Token) : bool :=
  match l with
  | [] => true
  | x :: r => match mt_bl x, mt_el x with
              | Some b, Some e => (from <=? b)%Z && (b <=? e)%Z && in_orderb e r
              | _, _ => false end
  end.
Lemma in_orderb_ok l : forall from, in_orderb from l = true -> in_order from l.
Proof.
  induction l as [|x l IH]; intros from H; cbn [in_orderb in_order] in *; auto.
  destruct (mt_bl x) as [b|]; [|discriminate]. destruct (mt_el x) as [e|]; [|discriminate].
  apply andb_prop in H as [H H3]. apply andb_prop in H as [H1 H2]. exists b, e. conjs; auto; lia.
Qed.
Definition tokens_fitb (ll : LLn) : bool :=
  in_orderb 0 (l_frags ll) &&
  forallb (fun x => match mt_el x with
                    | Some e => forallb (fun i => negb (cutsb (l_frags ll) i) ||
                                  forallb is_fortran (firstn (S i) (l_layout ll))) (seq 0 (S (Z.to_nat e)))
                    | None => false end) (l_frags ll).
Lemma tokens_fitb_ok ll : tokens_fitb ll = true -> tokens_fit ll.
Proof.
  intros H. apply andb_prop in H as [H1 H2]. split; [now apply in_orderb_ok|].
  intros i C. rewrite forallb_forall in H2. assert (C' := C). destruct C' as (x & b & e & I & B & E & LE).
  apply H2 in I. rewrite E in I. rewrite forallb_forall in I.
  assert (In i (seq 0 (S (Z.to_nat e)))) as Ii by (apply in_seq; lia).
  apply I in Ii. apply orb_prop in Ii as [Ii|Ii].
  - apply cutsb_ok in C. rewrite C in Ii. discriminate.
  - unfold fortran_upto. apply Forall_forall. now apply forallb_forall.
Qed.
Definition headb (p : ascii -> bool) (s : str) : bool := match s with c :: _ => p c | [] => false end.
Definition standard_lineb lc (first : bool) d (cut : bool) f : bool :=
  (negb first || is_empty (left_txt f) || has_label f) &&
  (negb first || negb (headb is_digit_b (main_txt f))) &&
  (ceq d c_nul || cut) && (negb cut || is_empty (left_space f)) && no_ampb d (main_txt f) &&
  code_lineb (main_txt f) && (is_empty (right_txt f) || headb (ceq c_bang) (right_txt f)) &&
  (ceq (open_delim f) c_nul || is_empty (right_txt f)) &&
  ((lc <=? 0)%Z || (6 + Z.of_nat (length (left_space f)) <=? lc)%Z).
Lemma standard_lineb_ok lc first d cut (P : Prop) f : (cut = true <-> P) ->
  standard_lineb lc first d cut f = true -> standard_line lc first d P f.
Proof.
  intros CP H. unfold standard_lineb in H. rewrite !andb_true_iff in H.
  destruct H as ((((((((H1 & H2) & H3) & H4) & H5) & H6) & H7) & H8) & H9).
  constructor.
  - intros ->. cbn in H1. apply orb_prop in H1 as [H1|H1]; [left; now apply is_empty_true|auto].
  - intros -> (c & r & E & D). rewrite E in H2. cbn in H2. rewrite D in H2. discriminate.
  - intros N. apply CP. apply orb_prop in H3 as [H3|H3]; auto. apply ceq_true in H3. congruence.
  - intros C. apply CP in C. rewrite C in H4. cbn in H4. now apply is_empty_true.
  - now apply no_ampb_ok.
  - apply code_lineb_ok in H6. apply H6.
  - apply orb_prop in H7 as [H7|H7]; [left; now apply is_empty_true|right].
    destruct (right_txt f) as [|c r]; [discriminate|]. cbn in H7. apply ceq_true in H7. subst. eauto.
  - intros N. apply orb_prop in H8 as [H8|H8]; [apply ceq_true in H8; congruence|now apply is_empty_true].
  - apply orb_prop in H9 as [H9|H9]; [left|right]; lia.
Qed.
Definition standard_stmtb lc toks l : bool :=
  forallb (fun i => match nth_error l i with
     | Some f => is_comment f || (is_fortran f && standard_lineb lc (i =? 0) (entry l i) (cutsb toks i) f)
     | None => true end) (seq 0 (length l)) &&
  match rev l with f :: _ => ceq (open_delim f) c_nul | [] => true end.
Lemma standard_stmtb_ok lc toks l : standard_stmtb lc toks l = true -> standard_stmt lc toks l.
Proof.
  intros H. apply andb_prop in H as [H1 H2]. split.
  - intros i f N. rewrite forallb_forall in H1.
    assert (I : In i (seq 0 (length l))) by (apply in_seq; split; [lia|]; apply nth_error_Some; congruence).
    apply H1 in I. rewrite N in I. apply orb_prop in I as [I|I]; auto. apply andb_prop in I as [I1 I2].
    right. split; auto. eapply standard_lineb_ok; [|exact I2]. apply cutsb_ok.
  - intros p f ->. rewrite rev_app_distr in H2. cbn in H2. now apply ceq_true.
Qed.

Definition standardb lc (ll : LLn) : bool :=
  if starts_code (l_layout ll) then standard_stmtb lc (l_frags ll) (l_layout ll)
  else forallb (fun f => is_comment f && negb (is_blank f) && negb (is_flpr_pp f)) (l_layout ll).
Lemma standardb_ok lc ll : standardb lc ll = true -> standard lc ll.
Proof.
  unfold standardb, standard. destruct (starts_code (l_layout ll)); [apply standard_stmtb_ok|].
  intros H. rewrite forallb_forall in H. apply Forall_forall. intros f I. apply H in I.
  apply andb_prop in I as [I I3]. apply andb_prop in I as [I1 I2].
  apply negb_true_iff in I2, I3. unfold standard_other. rewrite I1, I2, I3. conjs; discriminate.
Qed.
Definition ex_lns := Eval vm_compute in scanned ex_file.

Example C39_ex : exists lls, scan_fixed 100 ex_file 72 = Some (Ok lls) /\
  tokenized lls ex_lns /\ Forall (Forall source_char) ex_file /\
  Forall (standard 72) ex_lns /\ Forall tokens_fit ex_lns /\
  length ex_lns = 3 /\ scanned ex_file = ex_lns.
Proof.
  eexists. split; [vm_compute; reflexivity|]. split; [|split; [|split; [|split; [|split]]]].
  - unfold tokenized, ex_lns. repeat (constructor; [cbn; auto|]). constructor.
  - apply Forall_forall. intros r I. apply Forall_forall. intros c J. apply ConvertRead_proofs.source_bb.
    revert c J. apply forallb_forall. revert r I. apply forallb_forall. vm_compute. reflexivity.
  - apply Forall_forall. intros x I. apply standardb_ok. revert x I. apply forallb_forall. vm_compute. reflexivity.
  - apply Forall_forall. intros x I. apply tokens_fitb_ok. revert x I. apply forallb_forall. vm_compute. reflexivity.
  - reflexivity.
  - vm_compute. reflexivity.
Qed.

(** ** Where the full claim fails *)
(** A keyword the lexer splits in two ([enddo]) has a part without line numbers:
    converting it reads them. *)
Theorem C39_smash_refuted :
  length (scanned [L "      enddo"]) = 1 /\ convert_file (scanned [L "      enddo"]) = UB.
Proof. split; [vm_compute; reflexivity|]. vm_compute. reflexivity. Qed.
(** A comment between the two halves of a name: the second half gets no '&' and
    becomes a name of its own. *)
Theorem C39_comment_refuted :
  converted [L "      inte"; L "c x"; L "     &ger x"] = Some [L "      inte&"; L "! x"; L "      ger x"].
Proof. vm_compute. reflexivity. Qed.
(** A '0' in column 6 of an initial line stays as text of the line. *)
Theorem C39_zero_refuted : converted [L "     0y=1"] = Some [L "     0y=1"].
Proof. vm_compute. reflexivity. Qed.
(** A FLPR directive written with a comment character other than '!' stays so. *)
Theorem C39_directive_refuted : converted [L "C#flpr x"] = Some [L "C#flpr x"].
Proof. vm_compute. reflexivity. Qed.
(** A continuation line without text keeps its mark, which is then read as text. *)
Theorem C39_mark_refuted :
  converted [L "      x = 1+"; L "     1"; L "     2 y"] =
  Some [L "      x = 1+&"; L "     1"; L "       y"].
Proof. vm_compute. reflexivity. Qed.
(** A literal continued past column 72: the text beyond column 72 becomes a
    comment and a '&' inside the literal. *)
Theorem C39_beyond_refuted : exists t,
  converted [L "      x = 'a                                                              bcde"; L "     &b'"] =
  Some [t; L "     &b'"] /\
  skipn 70 t = L "  & !   bcde".
Proof. eexists. split; [vm_compute; reflexivity|]. vm_compute. reflexivity. Qed.
