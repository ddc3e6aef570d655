(** C31: the indentation of a file. *)
From Coq Require Import Lia.
From Verif Require Import Base Base_lemmas Tags SyntaxTags FileLine FileLine_spec FileEdit_spec LogicalFile Token Stmts LogicalLine StmtSrc StmtSrc_spec
  LineEdit StmtRules Peg StmtGrammar LabelStack Prgm Prgm_spec Prgm_proofs PrgmExact_proofs PrgmSource PrgmSource_proofs Props_Peg Props_Prgm ReadFile ReadFile_proofs
  Indent Indent_spec Indent_proofs IndentTree_proofs IndentFile_proofs.
Local Open Scope nat_scope.

(** The logical lines of a free-format file, as the reader makes them, meet the
    two hypotheses used below: their physical lines are free-format lines, and
    no macro or suppressed line has statements. *)
Theorem C31_read : forall raws ls, read_free raws = Done ls -> file_ok ls /\ lines_sane ls.
Proof. exact read_free_ok. Qed.
Print Assumptions C31_read.

(** A statement has at most one level in a tree, and one if it is in it. *)
Theorem C31_level_unique : forall off i t,
  (occurs i t <-> exists n, level off i t n) /\ forall n m, level off i t n -> level off i t m -> n = m.
Proof.
  intros off i t. split; [|apply level_fun]. split; [apply occurs_level|]. intros (n & H). eapply level_occurs; eauto.
Qed.
Print Assumptions C31_level_unique.

(** Whatever the table and the tree: if the call returns, every statement that
    is the first of its line is moved to its level, with the lines of comments
    in front of it; only blanks change (line_moved), continuation lines go
    further in by the table's continuation offset, no other line changes, and
    the flag is false only if nothing changed. *)
Theorem C31_levels : forall it ls t ls' ch, file_ok ls -> (0 <= it_cont it)%Z ->
  indent_recurse it (stmts_of_file ls) t 0 ls = Ok (ls', ch) ->
  length ls' = length ls /\
  (forall i q n j, nth_error (stmts_of_file ls) i = Some q -> level (it_off it) i t n -> line_of_stmt q j ->
     exists l l', nth_error ls j = Some l /\ nth_error ls' j = Some l' /\ line_moved l l' n (it_cont it)) /\
  (forall j, (forall i q, nth_error (stmts_of_file ls) i = Some q -> occurs i t -> ~ line_of_stmt q j) -> nth_error ls' j = nth_error ls j) /\
  (ch = false -> ls' = ls).
Proof. exact indent_effect. Qed.
Print Assumptions C31_levels.

(** Parsed_File::indent on a file that was read: it returns if and only if the
    program parser finds a tree, provided that no line has a comment behind its
    continuation mark (C30_indent_refuted) and no offset is negative. *)
Theorem C31_defined : forall exts m n it ls, lines_sane ls -> file_ok ls -> file_plain ls ->
  (0 <= it_cont it)%Z -> (forall g, (0 <= it_off it g)%Z) -> stmts_of_file ls <> [] ->
  (exists x, file_indent exts m n it ls = Done x) <->
  exists t s', parse_prgm (of_source exts m (map (src_of ls) (stmts_of_file ls))) n g_program = Done (true, Some t, s').
Proof.
  intros exts m n it ls LS FO FP OF OFF NE. rewrite file_indent_eq by auto.
  destruct (stmts_of_file ls) as [|q0 qs] eqn:EQ; [congruence|]. cbn [is_empty]. rewrite <- EQ. clear NE. split.
  - intros (x & H). ob H. destruct a as [[b t] s']. destruct t as [t|]; [|discriminate]. unfold file_stmts in E.
    pose proof (program_tag _ _ _ _ _ E) as [-> _]. eauto.
  - intros (t & s' & H). fold (file_stmts exts m ls) in H. rewrite H. cbn [obind].
    destruct (tree_indented _ _ _ _ _ _ _ _ LS FO FP OF OFF H) as (x & ->). exists x. reflexivity.
Qed.
Print Assumptions C31_defined.

(** And if it returns: every statement of the tree is at its level.  If no
    parser gave up a construct it had begun, that is every statement of the
    file. *)
Theorem C31_file : forall exts m n it ls ls' ch, lines_sane ls -> file_ok ls -> (0 <= it_cont it)%Z ->
  stmts_of_file ls <> [] -> file_indent exts m n it ls = Done (ls', ch) ->
  exists t s', parse_prgm (of_source exts m (map (src_of ls) (stmts_of_file ls))) n g_program = Done (true, Some t, s') /\
    length ls' = length ls /\
    (forall i q k j, nth_error (stmts_of_file ls) i = Some q -> level (it_off it) i t k -> line_of_stmt q j ->
       exists l l', nth_error ls j = Some l /\ nth_error ls' j = Some l' /\ line_moved l l' k (it_cont it)) /\
    (forall j, (forall i q, nth_error (stmts_of_file ls) i = Some q -> occurs i t -> ~ line_of_stmt q j) -> nth_error ls' j = nth_error ls j) /\
    (ch = false -> ls' = ls) /\
    (p_left s' = 0 -> forall i q, nth_error (stmts_of_file ls) i = Some q -> exists k, level (it_off it) i t k).
Proof.
  intros exts m n it ls ls' ch LS FO OF NE H. rewrite file_indent_eq in H by auto.
  destruct (stmts_of_file ls) as [|q0 qs] eqn:EQ; [congruence|]. cbn [is_empty] in H. rewrite <- EQ in *. clear NE.
  ob H. destruct a as [[b t] s']. destruct t as [t|]; [|discriminate].
  destruct (indent_recurse it (stmts_of_file ls) t 0 ls) as [[l c]| |] eqn:I; try discriminate. injection H as <- <-.
  unfold file_stmts in E. pose proof (program_tag _ _ _ _ _ E) as [-> _]. exists t, s'. split; auto.
  destruct (indent_effect _ _ _ _ _ FO OF I) as (A1 & A2 & A3 & A4). conjs; auto.
  intros PL i q EI. apply occurs_level.
  destruct (C28_exact _ _ _ _ (source_roots _ _ _) E PL) as (t0 & X & _ & EX & _). injection X as <-.
  eapply occurs_leaves with (sh := false); [eapply program_shaped; [apply source_roots|exact E]|].
  eapply exactly_in; eauto. split; [lia|]. cbn. rewrite map_length. apply nth_error_Some. congruence.
Qed.
Print Assumptions C31_file.

(** The begin and end statements: every construct of the tree of a program that
    is bracketed by statements begins with a statement leaf and ends with one,
    and both are at the level of the construct itself, in each table where
    bracketed constructs other than derived types, enumerations and CASE
    constructs have no offset of their own. *)
Theorem C31_brackets : forall exts m l n off b t s' c k,
  parse_prgm (of_source exts m l) n g_program = Done (b, Some t, s') ->
  (forall g, bracketed g = true -> begins_and_ends g \/ off g = 0%Z) ->
  base off c t k -> g_stmt c = None -> bracketed (g_tag c) = true ->
  exists a i e j mid, g_kids c = stmt_leaf a i :: mid ++ [stmt_leaf e j] /\ level off i t k /\ level off j t k.
Proof.
  intros exts m l n off b t s' c k H TB B ST BR.
  pose proof (program_shaped _ _ _ _ _ (source_roots _ _ _) H) as SH. destruct (C28_tiled _ _ _ _ _ _ H) as (T & _).
  destruct (brackets _ _ _ _ _ SH T TB B BR) as [(a & i & ->)|X]; auto. discriminate.
Qed.
Print Assumptions C31_brackets.

(** The tables that the library offers. *)
Theorem C31_tables : forall it0 n, (forall g, it_off it0 g = 0%Z) ->
  (offsets (it_off (apply_constant_indent it0 n)) n n n /\ it_cont (apply_constant_indent it0 n) = 5%Z) /\
  (offsets (it_off (apply_emacs_indent it0)) 3 2 2 /\ it_cont (apply_emacs_indent it0) = 5%Z) /\
  (offsets (it_off (apply_constant_fixed_indent it0 n)) n 0 n /\ it_cont (apply_constant_fixed_indent it0 n) = 5%Z).
Proof.
  intros it0 n Z0.
  assert (SB : forall it n, set_begin_ends it n = set_indents it [(PG_CASE_CONSTRUCT, n); (PG_DERIVED_TYPE_DEF, n); (PG_ENUM_DEF, n)]) by reflexivity.
  assert (SI : forall l it g, it_off (set_indents it l) g = match find (fun p => (g =? fst p)%Z) (rev l) with Some p => snd p | None => it_off it g end).
  { clear. induction l as [|p l IH] using rev_ind; intros it g; [reflexivity|]. unfold set_indents. rewrite fold_left_app, rev_app_distr.
    cbn [fold_left rev app find]. unfold set_indent at 1. cbn [it_off]. destruct (g =? fst p)%Z; auto. apply IH. }
  assert (GO : forall it l b u s, it_off it = it_off (set_indents (set_indents it0 l) [(PG_CASE_CONSTRUCT, b); (PG_DERIVED_TYPE_DEF, b); (PG_ENUM_DEF, b)]) ->
    l = [(PG_BLOCK, b); (PG_EXECUTION_PART, u); (PG_INTERFACE_SPECIFICATION, b); (PG_INTERNAL_SUBPROGRAM, s);
     (PG_MODULE_SUBPROGRAM, s); (PG_SPECIFICATION_PART, u); (PG_WHERE_BODY_CONSTRUCT, b)] -> offsets (it_off it) b u s).
  { intros it l b u s E ->. rewrite E. intros g. rewrite !SI. cbn [rev app find fst].
    split; [|split; [|split]]; [..|intros N1 N2 N3]; [intros I; cbn [In block_tags unit_tags subprogram_tags] in I;
      repeat (destruct I as [<-|I]; [reflexivity|]); destruct I..|].
    assert (NE : forall x, In x (block_tags ++ unit_tags ++ subprogram_tags) -> (g =? x)%Z = false).
    { intros x I. apply Z.eqb_neq. intros ->. rewrite !in_app_iff in I. tauto. }
    repeat match goal with |- context [(g =? ?x)%Z] => rewrite (NE x) by (cbn [In app block_tags unit_tags subprogram_tags]; tauto) end.
    apply Z0. }
  conjs; try reflexivity; eapply GO; try reflexivity; unfold apply_constant_indent, apply_emacs_indent, apply_constant_fixed_indent; rewrite SB; reflexivity.
Qed.
Print Assumptions C31_tables.

(** ** Files that meet the hypotheses *)
(** from text to text: reading, Parsed_File::indent, printing *)
Definition text_of (ls : list LLn) : list str := concat (map (fun l => map print_line (l_layout l)) ls).
Definition indent_text (it : Indent_Table) (raws : list str) : out (list str) :=
  ls <~ read_free raws ;; ' (ls', _) <~ file_indent no_exts 300 300 it ls ;; Done (text_of ls').
Definition ex_text : list str :=
  [L "module m"; L "contains"; L "subroutine s(a)"; L "integer a"; L "! a comment"; L "if (a > 1) then"; L "x = 1 + &"; L "2";
   L "y = 2; w = 3"; L "else"; L "  z = 3"; L "     end if"; L "do i = 1, 3"; L "10 a = b"; L "end do"; L "select case (i)"; L "case (1)"; L "x = 2";
   L "end select"; L "end subroutine s"; L "end module m"].
Definition ex_read := Eval vm_compute in match read_free ex_text with Done l => l | _ => [] end.
Definition plain_endb (f : File_Line) : bool :=
  negb (is_fortran f) || is_empty (right_txt f) || negb (existsb (ceq c_bang) (right_txt f)).
Lemma plain_endb_ok f : plain_endb f = true -> plain_end f.
Proof.
  unfold plain_endb, plain_end. intros H F. rewrite F in H. cbn [negb orb] in H. apply orb_true_iff in H as [H|H].
  - left. now destruct (right_txt f).
  - right. right. intros I. apply negb_true_iff in H. assert (existsb (ceq c_bang) (right_txt f) = true); [|congruence].
    apply existsb_exists. exists c_bang. split; auto.
Qed.
Lemma C31_ex_plain : file_plain ex_read.
Proof.
  assert (H : forallb (fun l => forallb plain_endb (l_layout l)) ex_read = true) by (vm_compute; reflexivity).
  apply Forall_forall. intros l I. rewrite forallb_forall in H. apply H in I. apply Forall_forall. intros f J. rewrite forallb_forall in I.
  apply plain_endb_ok, I, J.
Qed.
Example C31_ex : read_free ex_text = Done ex_read /\ file_ok ex_read /\ lines_sane ex_read /\ file_plain ex_read /\
  stmts_of_file ex_read <> [] /\
  (exists t s', parse_prgm (of_source no_exts 300 (map (src_of ex_read) (stmts_of_file ex_read))) 300 g_program = Done (true, Some t, s') /\ p_left s' = 0) /\
  (forall g, (0 <= it_off (apply_constant_indent it_init 3) g)%Z) /\
  indent_text (apply_constant_indent it_init 3) ex_text = Done
  [L "module m"; L "contains"; L "   subroutine s(a)"; L "      integer a"; L "      ! a comment"; L "      if (a > 1) then"; L "         x = 1 + &"; L "              2";
   L "         y = 2; w = 3"; L "      else"; L "         z = 3"; L "      end if"; L "      do i = 1, 3"; L "10       a = b"; L "      end do"; L "      select case (i)";
   L "         case (1)"; L "            x = 2"; L "      end select"; L "   end subroutine s"; L "end module m"].
Proof.
  assert (R : read_free ex_text = Done ex_read) by (vm_compute; reflexivity).
  destruct (C31_read _ _ R) as [A B]. split; [exact R|]. split; [exact A|]. split; [exact B|]. split; [exact C31_ex_plain|].
  split; [|split; [|split]].
  - vm_compute. discriminate.
  - eexists _, _. split; vm_compute; reflexivity.
  - intros g. destruct (C31_tables it_init 3 (fun _ => eq_refl)) as ((O & _) & _). destruct (O g) as (O1 & O2 & O3 & O4).
    destruct (in_dec Z.eq_dec g block_tags); [rewrite O1; auto; lia|]. destruct (in_dec Z.eq_dec g unit_tags); [rewrite O2; auto; lia|].
    destruct (in_dec Z.eq_dec g subprogram_tags); [rewrite O3; auto; lia|]. rewrite O4; auto. lia.
  - vm_compute. reflexivity.
Qed.
(** The tables do meet the hypothesis of C31_brackets. *)
Example C31_brackets_ex : forall n g, bracketed g = true ->
  begins_and_ends g \/ it_off (apply_constant_indent it_init n) g = 0%Z.
Proof.
  intros n g H. unfold bracketed in H. apply existsb_exists in H as (x & I & E). apply Z.eqb_eq in E as ->.
  cbn [In] in I. repeat (destruct I as [<-|I]; [first [right; reflexivity|left; unfold begins_and_ends; tauto]|]). destruct I.
Qed.

(** What the tables leave flat: the body of a DO loop that ends in a labelled
    action statement, and of loops that share their last statement; that
    statement gets the level of the outermost of them. *)
Example C31_flat_loops : indent_text (apply_constant_indent it_init 3)
  [L "subroutine s"; L "do 10 i = 1, 2"; L "do 10 j = 1, 2"; L "x = 1"; L "10 y = 2"; L "end"] = Done
  [L "subroutine s"; L "   do 10 i = 1, 2"; L "   do 10 j = 1, 2"; L "   x = 1"; L "10 y = 2"; L "end"].
Proof. vm_compute. reflexivity. Qed.

(** C31 is false without the hypothesis of C31_defined on comments: pulling such
    a line to the left leaves the function with an exception.  And a statement
    that is not the first of its line is not moved by itself. *)
Theorem C31_comment_refuted : exists ls,
  read_free [L "program p"; L "     x = 1 & ! c"; L "+ 2"; L "end"] = Done ls /\
  (exists t s', parse_prgm (of_source no_exts 300 (map (src_of ls) (stmts_of_file ls))) 300 g_program = Done (true, Some t, s')) /\
  file_indent no_exts 300 300 (apply_constant_indent it_init 3) ls = Bad.
Proof.
  eexists. split; [vm_compute; reflexivity|]. split; [eexists _, _; vm_compute; reflexivity|vm_compute; reflexivity].
Qed.
Print Assumptions C31_comment_refuted.
