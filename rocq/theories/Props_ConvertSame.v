(** C80: a fixed-format file converted to free format is the same program. *)
From Verif Require Import Base Base_lemmas Tags SyntaxTags FileLine Token LogicalFile LogicalLine TTStream StmtRules Peg StmtGrammar LabelStack Prgm PrgmSource Lexer LineEdit StmtSrc
  Lexer_spec ReadFile ReadFixed Convert Convert_spec FormatMain FormatMain_spec ParseSame_spec ParseSame_proofs ParseSameFile_proofs Props_Stmt Props_Convert Props_ParseSame ConvertSame_spec ConvertSame_proofs.
Local Open Scope nat_scope.

(** C80 (partial).  A standard fixed-format file whose tokens fit and whose real literals stay on one line is converted,
    and the free-format reader finds in the text that is written the same logical lines: the same labels,
    statements and tokens, kind by kind and text by text. *)
Theorem C80_text_partial : forall lc s lns, read_fixed lc (getlines [] s) = Done lns ->
  Forall (Forall source_char) (getlines [] s) -> (0 < lc -> 6 <= lc)%Z ->
  Forall (standard lc) lns -> Forall tokens_fit lns -> Forall reals_whole lns ->
  exists lns' c ls2, convert_file lns = Ok (lns', c) /\
    read_free (getlines [] (write_file lns')) = Done ls2 /\ Forall2 same_code lns ls2.
Proof.
  intros lc s lns R S L6 ST TF RW. destruct (convert_same lc _ lns R S L6 ST TF RW) as (lns' & CV & _ & ls2 & RF & SC & _ & GL).
  do 3 eexists. split; [exact CV|]. rewrite GL. eauto.
Qed.
(** C80 (partial).  And it is parsed to the same statements and the same tree. *)
Lemma code_alike ls ls' : Forall2 same_code ls ls' -> Forall2 alike_line ls ls'.
Proof.
  induction 1 as [|l l' r r' (A & B & C & D & E) _ IH]; constructor; auto. unfold alike_line. repeat (split; [assumption|]).
  clear - E. induction E as [|x y a b (H1 & H2) _ IH]; constructor; auto. split; auto. now rewrite H2.
Qed.
Theorem C80_tree_partial : forall exts m n lc s lns, (forall a, Forall fair_ext (exts a)) -> read_fixed lc (getlines [] s) = Done lns ->
  Forall (Forall source_char) (getlines [] s) -> (0 < lc -> 6 <= lc)%Z ->
  Forall (standard lc) lns -> Forall tokens_fit lns -> Forall reals_whole lns ->
  exists lns' c ls2, convert_file lns = Ok (lns', c) /\
    read_free (getlines [] (write_file lns')) = Done ls2 /\ prefetch exts m n ls2 = prefetch exts m n lns.
Proof.
  intros exts m n lc s lns FE R S L6 ST TF RW. destruct (C80_text_partial lc s lns R S L6 ST TF RW) as (lns' & c & ls2 & CV & RF & SC).
  do 3 eexists. split; [exact CV|]. split; [exact RF|]. apply C76_file; auto. now apply code_alike.
Qed.

(** ** A file that meets the hypotheses *)
Definition real_partb (t : Z) : bool := existsb (Z.eqb t) [SG_SIGNIFICAND; SG_EXPONENT_LETTER; SG_EXPONENT; TK_UNDERSCORE; SG_KIND_PARAM].
Lemma real_partb_ok t : real_part t -> real_partb t = true.
Proof. intros H. unfold real_partb. apply existsb_exists. exists t. split; [exact H|]. apply Z.eqb_refl. Qed.
Definition same_lineb (a b : option Z) : bool := match a, b with Some x, Some y => (x =? y)%Z | None, None => true | _, _ => false end.
Fixpoint wholeb (l : list Token) : bool :=
  match l with
  | x :: (y :: _) as r => (negb (real_partb (tok x) && real_partb (tok y)) || same_lineb (mt_el x) (mt_bl y)) && wholeb r
  | _ => true
  end.
Lemma wholeb_ok ln : wholeb (l_frags ln) = true -> reals_whole ln.
Proof.
  intros H a x y b E RX RY. rewrite E in H. clear E. induction a as [|z a IH].
  - cbn [app wholeb] in H. apply andb_prop in H as [H _]. rewrite (real_partb_ok _ RX), (real_partb_ok _ RY) in H. cbn [andb negb orb] in H.
    destruct (mt_el x), (mt_bl y); cbn in H; try discriminate; auto. apply Z.eqb_eq in H. congruence.
  - apply IH. destruct a; cbn [app wholeb] in H; apply andb_prop in H; apply H.
Qed.
Definition same_file : str := text_of
  [L "      program p"; L "      x = 1 +        ! hi"; L "C mid"; L "     &  2.5e3_rk"; L "   10 print *, intege"; L "     &r(y),'ab  "; L "     & cd'";
   L "     &+z"; L "      end program p"].
Definition same_lns := Eval vm_compute in match read_fixed 72 (getlines [] same_file) with Done l => l | _ => [] end.
Example C80_case : read_fixed 72 (getlines [] same_file) = Done same_lns /\ Forall (Forall source_char) (getlines [] same_file) /\
  Forall (standard 72) same_lns /\ Forall tokens_fit same_lns /\ Forall reals_whole same_lns /\
  exists t, prefetch no_exts 200 200 same_lns = Done t /\ snd t <> None.
Proof.
  split; [vm_compute; reflexivity|]. split; [|split; [|split; [|split]]].
  - apply Forall_forall. intros r I. apply Forall_forall. intros c J. apply ConvertRead_proofs.source_bb.
    revert c J. apply forallb_forall. revert r I. apply forallb_forall. vm_compute. reflexivity.
  - apply Forall_forall. intros x I. apply standardb_ok. revert x I. apply forallb_forall. vm_compute. reflexivity.
  - apply Forall_forall. intros x I. apply tokens_fitb_ok. revert x I. apply forallb_forall. vm_compute. reflexivity.
  - apply Forall_forall. intros x I. apply wholeb_ok. revert x I. apply forallb_forall. vm_compute. reflexivity.
  - eexists. split; [vm_compute; reflexivity|]. discriminate.
Qed.
Example C80_case_text : match convert_file same_lns with Ok (l, _) => Some (printed l) | _ => None end = Some
  [L "      program p"; L "      x = 1 +      & ! hi"; L "! mid"; L "        2.5e3_rk"; L "   10print *, intege&"; L "     &r(y),'ab  &"; L "     & cd'&"; L "      +z"; L "      end program p"].
Proof. vm_compute. reflexivity. Qed.

(** ** Where the full claim fails *)
(** A real literal continued between its parts: the second part gets no '&', the free-format
    line starts with blanks, and the exponent is read as a name.  All other hypotheses hold. *)
Definition cut_real : list str := [L "      x = 1.0"; L "     &e3"].
Definition words (l : list LLn) : list (Z * str) := map (fun x => (tok x, tk_text x)) (flat_map l_frags l).
Theorem C80_real_refuted : exists lns lns' ls2, read_fixed 72 cut_real = Done lns /\
  Forall (Forall source_char) cut_real /\ Forall (standard 72) lns /\ Forall tokens_fit lns /\
  convert_file lns = Ok (lns', true) /\ read_free (printed lns') = Done ls2 /\
  words lns = [(TK_NAME, L "x"); (TK_EQUAL, L "="); (SG_SIGNIFICAND, L "1.0"); (SG_EXPONENT_LETTER, L "e"); (SG_EXPONENT, L "3")] /\
  words ls2 = [(TK_NAME, L "x"); (TK_EQUAL, L "="); (SG_SIGNIFICAND, L "1.0"); (TK_NAME, L "e3")].
Proof.
  do 3 eexists. split; [vm_compute; reflexivity|]. split; [|split; [|split; [|split; [|split; [|split]]]]].
  - apply Forall_forall. intros r I. apply Forall_forall. intros c J. apply ConvertRead_proofs.source_bb.
    revert c J. apply forallb_forall. revert r I. apply forallb_forall. vm_compute. reflexivity.
  - apply Forall_forall. intros x I. apply standardb_ok. revert x I. apply forallb_forall. vm_compute. reflexivity.
  - apply Forall_forall. intros x I. apply tokens_fitb_ok. revert x I. apply forallb_forall. vm_compute. reflexivity.
  - vm_compute. reflexivity.
  - vm_compute. reflexivity.
  - vm_compute. reflexivity.
  - vm_compute. reflexivity.
Qed.
Definition C80_all := (C80_text_partial, C80_tree_partial, C80_real_refuted).
Print Assumptions C80_all.
