(** C76: what the parsers see of the source. *)
From Verif Require Import Base Tags SyntaxTags FileLine FileLine_spec Token LogicalFile LogicalLine TTStream StmtRules Peg StmtGrammar LabelStack Prgm PrgmSource Lexer LineEdit StmtSrc Prgm_proofs
  Convert_proofs ReadFile Indent Indent_spec FormatMain FormatMain_spec FormatMain_proofs IndentRead_spec IndentRead_proofs IndentReadFile_proofs ParseSame_spec ParseSame_proofs ParseSameFile_proofs Props_Stmt Props_IndentRead.
Local Open Scope nat_scope.

(** C76.  A statement parser gives for tokens of the same kinds, with texts that differ at most in case, the same tree and
    stops at the same token. *)
Theorem C76_stmt : forall exts n r s fr, (forall a, Forall fair_ext (exts a)) -> Forall2 alike (frags s) fr ->
  parse_rule grammar exts n r (on_tokens fr s) = on_tokens_out fr (parse_rule grammar exts n r s).
Proof. exact parse_same. Qed.
(** C76.  Every parser of the grammar is allowed as an extension. *)
Theorem C76_fair : forall exts n r, (forall a, Forall fair_ext (exts a)) -> fair_ext (parse_rule grammar exts n r).
Proof. exact rule_fair. Qed.
(** C76.  The program parsers: the same outcome, the same tree. *)
Theorem C76_prgm : forall exts m n r l l', (forall a, Forall fair_ext (exts a)) -> Forall2 alike_stmt l l' ->
  parse_prgm (of_source exts m l') n r = parse_prgm (of_source exts m l) n r.
Proof. exact prgm_same. Qed.
(** C76.  Files: the same statements, the same tree. *)
Theorem C76_file : forall exts m n ls ls', (forall a, Forall fair_ext (exts a)) -> Forall2 alike_line ls ls' ->
  prefetch exts m n ls' = prefetch exts m n ls.
Proof. exact prefetch_same. Qed.
(** C76.  A tidy file that was indented, written and read again has the statements and the tree it had. *)
Lemma content_alike ls ls' : Forall2 same_content ls ls' -> Forall2 alike_line ls ls'.
Proof.
  induction 1 as [|l l' r r' H F IH]; constructor; auto. destruct H as (A & B & C & _ & _ & D & E). unfold alike_line. repeat (split; [assumption|]).
  clear - E. induction E as [|x y a b H E IH]; constructor; auto. destruct H as (H1 & H2 & _). split; auto. now rewrite H2.
Qed.
Theorem C76_indented : forall exts m n it s ls ls1 c, (forall a, Forall fair_ext (exts a)) -> read_free (getlines [] s) = Done ls -> Forall ascii7 (getlines [] s) -> tidy ls -> (0 < it_cont it)%Z ->
  file_indent exts m n it ls = Done (ls1, c) ->
  exists ls2, read_free (getlines [] (write_file ls1)) = Done ls2 /\ prefetch exts m n ls2 = prefetch exts m n ls.
Proof.
  intros exts m n it s ls ls1 c FE R A T OF H. destruct (C75_reread _ _ _ _ _ _ _ _ R A T OF H) as (ls2 & R2 & _ & SC). exists ls2. split; auto.
  apply prefetch_same; auto. now apply content_alike.
Qed.

(** A case: the text of a file in other columns and other case. *)
Definition no_ext_fair : forall a, Forall fair_ext (no_exts a) := fun a => Forall_nil _.
Definition file_a : str := text_of [L "program p"; L "do 10 i = 1, 3"; L "10 x = x + 1.0e3_rk"; L "end program p"].
Definition file_b : str := text_of [L "   PROGRAM p"; L "Do 10 I=1,&"; L "  3"; L "10    x=X+1.0E3_RK ! c"; L "END Program P"].
Example C76_case : exists la lb t, read_free (getlines [] file_a) = Done la /\ read_free (getlines [] file_b) = Done lb /\ Forall2 alike_line la lb /\
  prefetch no_exts 200 200 la = Done t /\ prefetch no_exts 200 200 lb = Done t /\ fst t <> [] /\ snd t <> None.
Proof.
  do 3 eexists. split; [vm_compute; reflexivity|]. split; [vm_compute; reflexivity|]. split.
  - repeat constructor.
  - split; [vm_compute; reflexivity|]. split; [vm_compute; reflexivity|]. split; discriminate.
Qed.
(** an extension that looks at the columns *)
Example C76_ext : exists (e : ext) s fr, Forall2 alike (frags s) fr /\ e (on_tokens fr s) <> on_tokens_out fr (e s).
Proof.
  exists (fun s => match frags s with x :: _ => if (tk_pos x =? 1)%Z then Done (None, s) else Bad | [] => Bad end), (S_of [T TK_NAME "x"]), [new_token (L "x") TK_NAME 1 7].
  split; [repeat constructor|]. vm_compute. discriminate.
Qed.
Definition C76_all := (C76_stmt, C76_fair, C76_prgm, C76_file, C76_indented).
Print Assumptions C76_all.
