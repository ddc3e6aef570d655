(** C63, C64, C65: the editing members of Logical_File. *)
From Coq Require Import Lia.
From Verif Require Import Base Base_lemmas Tags SyntaxTags FileLine LogicalFile LogicalLine Token Stmts Stmts_spec StmtSrc StmtSrc_spec Peg Lexer LineEdit ReadFile StmtEdit StmtEdit_spec StmtEdit_proofs.
Local Open Scope nat_scope.

(** C63.  After make_stmts on lines with the statements that init_stmts found, the
    statements and lines of the file belong together, and every stored end is there. *)
Theorem C63_fresh : forall ls, Forall right ls ->
  exists F n, (forall f, n <= f -> make_file f ls = Some (Ok F)) /\ lf_lines F = ls /\ in_sync F /\ Forall (fun s => fs_end s <> None) (lf_stmts F).
Proof. exact fresh_sync. Qed.
Print Assumptions C63_fresh.

(** C63.  split_compound_before(p) on such a file leaves such a file: every
    statement has its words, its label and its kind, in the same order; true is
    returned if and only if p was not the first statement of its line; then only
    its line was changed, into two, the statement before p being on the first and p
    the first statement of the second; otherwise nothing was changed. *)
Theorem C63_split : forall F p s F' b, in_sync F -> nth_error (lf_stmts F) p = Some s -> split_compound_before F p = Ok (F', b) ->
  in_sync F' /\ Forall2 (kept F F') (lf_stmts F) (lf_stmts F') /\ b = (2 <=? fs_compound s)%Z /\ (b = false -> F' = F) /\
  (exists s', nth_error (lf_stmts F') p = Some s' /\ (fs_compound s' < 2)%Z) /\
  (b = true -> exists A l B l1 l2 q s0 s', p = S q /\ lf_lines F = A ++ l :: B /\ lf_lines F' = A ++ l1 :: l2 :: B /\ line_of F s = Some l /\
     nth_error (lf_stmts F') q = Some s0 /\ line_of F' s0 = Some l1 /\ nth_error (lf_stmts F') p = Some s' /\ line_of F' s' = Some l2).
Proof.
  intros F p s F' b IS N E. assert (LP : p < length (lf_stmts F)) by (apply nth_error_Some; rewrite N; discriminate).
  destruct (split_next F p F' b IS LP E) as (Q1 & Q2 & Q3 & _ & Q4 & Q5). specialize (Q4 s N). split; [exact Q1|]. split; [exact Q2|]. split; [exact Q4|]. split; [exact Q5|]. split; [exact Q3|].
  intros ->. symmetry in Q4. apply Z.leb_le in Q4. destruct (split_full F p s IS N Q4) as (A & l & B & q & n & EP & EL & GL & _ & H & _).
  destruct (H F' true E) as (l1 & l2 & _ & _ & EL' & _ & _ & s1 & s2 & D1 & _ & D3 & D4 & D5 & _).
  exists A, l, B, (redo_stmts l1), (redo_stmts l2), q, s1, s2. unfold line_of. rewrite GL, D3, D5, EL, EL'. rewrite !nth_app_mid.
  replace (nth_error (A ++ redo_stmts l1 :: redo_stmts l2 :: B) (S (length A))) with (Some (redo_stmts l2)); [auto 10|].
  rewrite nth_error_app2 by lia. replace (S (length A) - length A) with 1 by lia. reflexivity.
Qed.
Print Assumptions C63_split.

(** C63.  It is defined for a statement that is the first of its line, and for another
    one exactly if Logical_Line::split_after can split the line after some token. *)
Theorem C63_split_defined : forall F p s, in_sync F -> nth_error (lf_stmts F) p = Some s ->
  ((fs_compound s < 2)%Z -> split_compound_before F p = Ok (F, false)) /\
  ((2 <= fs_compound s)%Z -> exists l n, line_of F s = Some l /\
     ((exists F' b, split_compound_before F p = Ok (F', b)) <-> (exists l1 l2, split_after l n = Ok (l1, Some l2)))).
Proof.
  intros F p s IS N. split; [apply split_small; exact N|]. intros C. destruct (split_full F p s IS N C) as (A & l & B & q & n & EP & EL & GL & H1 & H2 & _).
  exists l, n. unfold line_of. rewrite GL, EL, nth_app_mid. split; [reflexivity|]. split.
  - intros (F' & b & E). destruct (H2 F' b E) as (l1 & l2 & E' & _). eauto.
  - intros (l1 & l2 & E). destruct (H1 l1 l2 E) as (F' & E'). eauto.
Qed.
Print Assumptions C63_split_defined.

(** C63.  isolate_stmt(p): as above, and p is the only statement of its line. *)
Theorem C63_isolate : forall F p F' b, in_sync F -> p < length (lf_stmts F) -> isolate_stmt F p = Ok (F', b) ->
  in_sync F' /\ Forall2 (kept F F') (lf_stmts F) (lf_stmts F') /\
  exists s l, nth_error (lf_stmts F') p = Some s /\ line_of F' s = Some l /\ length (l_stmts l) = 1.
Proof.
  intros F p F' b IS LP E. destruct (isolate_full F p F' b IS LP E) as (Q1 & Q2 & s & i & l & r & D1 & D2 & D3 & D4 & _).
  split; [exact Q1|]. split; [exact Q2|]. exists s, l. unfold line_of. rewrite D2, D4. auto.
Qed.
Print Assumptions C63_isolate.

(** C64.  emplace_ll_stmt(p, ll): the new line has one statement.  The statements of
    the file stay in order with their words, labels and kinds; the new one comes
    before p, is the statement of [ll] and has the given kind and no prefix lines.
    If p is the first statement of its line then [ll] is put between two of the
    lines and nothing else is changed. *)
Theorem C64_emplace : forall F p ll r tag F', in_sync F -> p < length (lf_stmts F) -> right ll -> l_stmts ll = [r] -> emplace_ll_stmt F p ll tag = Ok F' ->
  in_sync F' /\ exists s1 n s2, lf_stmts F' = s1 ++ n :: s2 /\ length s1 = p /\ Forall2 (kept F F') (lf_stmts F) (s1 ++ s2) /\
    line_of F' n = Some ll /\ words F' n = map face (firstn (snd r - fst r) (skipn (fst r) (l_frags ll))) /\ fs_label n = l_label ll /\ fs_tag n = tag /\ fs_prefix n = [] /\
    (forall s, nth_error (lf_stmts F) p = Some s -> (fs_compound s < 2)%Z -> exists A B, lf_lines F = A ++ B /\ lf_lines F' = A ++ ll :: B).
Proof.
  intros F p ll r tag F' IS LP RL EL E. destruct (emplace_full F p ll r tag F' IS LP RL EL E) as (F1 & b & n & ES & IS' & (A & B & s1 & n' & s2 & P1 & P2 & P3 & P4 & P5 & P6 & P7 & P8 & P9 & P10) & NN & NP).
  split; [exact IS'|]. exists s1, n', s2. rewrite P2, <- P3, nth_app_mid in NN. injection NN as ->.
  destruct (split_next F p F1 b IS LP ES) as (_ & K1 & _ & _ & BB & BF).
  split; [exact P2|]. split; [exact P3|]. split; [eapply F2_trans; [apply kept_trans|exact K1|exact P10]|].
  unfold line_of, words. rewrite P5, P6, P7, P1, nth_app_mid. conjs; auto.
  intros s N C. assert (b = false) by (rewrite (BB s N); apply Z.leb_gt; lia). specialize (BF H). subst F1. exists A, B. auto.
Qed.
Print Assumptions C64_emplace.
(** C64.  It is defined in front of every statement that is the first of its line. *)
Theorem C64_emplace_defined : forall F p s ll r tag, in_sync F -> nth_error (lf_stmts F) p = Some s -> (fs_compound s < 2)%Z -> right ll -> l_stmts ll = [r] ->
  exists F', emplace_ll_stmt F p ll tag = Ok F'.
Proof. exact emplace_defined. Qed.
Print Assumptions C64_emplace_defined.
(** C64.  emplace_ll_stmt_after_prefix(p, ll) with p having prefix lines: it is defined;
    as above, but the new line comes after the prefix lines, which now belong to
    the new statement, and p has none. *)
Theorem C64_after_prefix : forall F p s ll r tag, in_sync F -> nth_error (lf_stmts F) p = Some s -> fs_prefix s <> [] -> right ll -> l_stmts ll = [r] ->
  exists F' s1 n s' s2 A B, emplace_after_prefix F p ll tag = Ok F' /\ in_sync F' /\ lf_stmts F' = s1 ++ n :: s' :: s2 /\ length s1 = p /\
    Forall2 (kept F F') (lf_stmts F) (s1 ++ s' :: s2) /\ line_of F' n = Some ll /\ fs_label n = l_label ll /\ fs_tag n = tag /\
    fs_prefix n = fs_prefix s /\ fs_prefix s' = [] /\ lf_lines F = A ++ B /\ lf_lines F' = A ++ ll :: B.
Proof.
  intros F p s ll r tag IS N P RL EL. destruct (after_prefix_full F p s ll r tag IS N P RL EL) as
    (F' & n & s' & E & IS' & (A & B & s1 & n' & s2 & P1 & P2 & P3 & P4 & P5 & P6 & P7 & P8 & P9 & P10) & NN & NP & NS & SP & _).
  rewrite P2 in NN, NS. rewrite <- P3, nth_app_mid in NN. injection NN as ->. rewrite <- P3 in NS. rewrite nth_error_app2 in NS by lia. replace (S (length s1) - length s1) with 1 in NS by lia.
  cbn [nth_error] in NS. destruct s2 as [|s'' s2]; [discriminate|]. injection NS as ->.
  exists F', s1, n, s', s2, A, B. unfold line_of. rewrite P5, P1, nth_app_mid. conjs; auto.
Qed.
Print Assumptions C64_after_prefix.
(** C64 refuted at ll_stmts.end(): a statement cannot be put after the last one. *)
Theorem C64_end_refuted : forall F ll tag, emplace_ll_stmt F (length (lf_stmts F)) ll tag = UB.
Proof.
  intros F ll tag. unfold emplace_ll_stmt. destruct (is_empty (l_stmts ll)); [reflexivity|]. cbn [negb assert_ bind]. destruct (length (l_stmts ll) =? 1); [|reflexivity].
  cbn [assert_ bind]. unfold get_stmt. rewrite Nat.eqb_refl. cbn [bind]. change (1 <? fs_compound fs_default)%Z with false. cbn [bind]. rewrite Nat.eqb_refl. reflexivity.
Qed.
Print Assumptions C64_end_refuted.

(** C65.  Editing the text of statement p: if it succeeds, then after putting p on a
    line of its own only that line [l] was replaced, by some [l']; p is on it; every
    other statement has its words, label and kind; and, if the label stored for
    [l] is the one in its text and (for insert_text_after) [l'] has one statement,
    statements and lines belong together again. *)
Theorem C65_edit_partial : forall st F p e F' st', in_sync F -> p < length (lf_stmts F) -> apply_edit st F p e = Done (F', st') ->
  exists F1 b i l l' s', isolate_stmt F p = Ok (F1, b) /\ nth_error (lf_lines F1) i = Some l /\ length (l_stmts l) = 1 /\
    lf_lines F' = firstn i (lf_lines F1) ++ l' :: skipn (S i) (lf_lines F1) /\
    nth_error (lf_stmts F') p = Some s' /\ fs_line s' = Some i /\ length (lf_stmts F') = length (lf_stmts F) /\
    (forall x s0 s0', x <> p -> nth_error (lf_stmts F) x = Some s0 -> nth_error (lf_stmts F') x = Some s0' -> kept F F' s0 s0') /\
    (forall ts tag, e = Text ts tag -> fs_tag s' = tag) /\
    (init_label (l_layout l) = Ok (l_label l) -> ((forall n t, e <> After n t) \/ length (l_stmts l') = 1) -> in_sync F').
Proof.
  intros st F p e F' st' IS LP E. destruct (apply_edit_full st F p e F' st' IS LP E) as (F1 & b & i & l & l' & s' & Q1 & _ & Q3 & Q4 & Q5 & Q6 & Q7 & Q8 & Q9 & Q10 & Q11).
  exists F1, b, i, l, l', s'. conjs; auto.
Qed.
Print Assumptions C65_edit_partial.
(** C65.  set_stmt_label(p, n): p has the label n, with the same words and kind;
    every other statement has its words, label and kind; it returns whether the
    label is another one, and then the line of p has it and p is its first statement. *)
Theorem C65_label : forall F p s n F' b, in_sync F -> nth_error (lf_stmts F) p = Some s -> (0 <= fs_label s)%Z -> set_stmt_label F p n = Ok (F', b) ->
  in_sync F' /\ length (lf_stmts F') = length (lf_stmts F) /\ b = negb (n =? fs_label s)%Z /\
  (exists s', nth_error (lf_stmts F') p = Some s' /\ fs_label s' = n /\ words F' s' = words F s /\ fs_tag s' = fs_tag s /\
     (b = true -> (fs_compound s' < 2)%Z /\ exists l, line_of F' s' = Some l /\ l_label l = n)) /\
  (forall x s0 s0', x <> p -> nth_error (lf_stmts F) x = Some s0 -> nth_error (lf_stmts F') x = Some s0' -> kept F F' s0 s0').
Proof. exact label_full. Qed.
Print Assumptions C65_label.
(** C65.  After an edit the statement has no hook; it has no tree of what it was
    before, unless its text was replaced by a statement of the same kind. *)
Theorem C65_tree : forall st F p e F' st', in_sync F -> p < length (lf_stmts F) -> apply_edit st F p e = Done (F', st') ->
  exists F1 b s s', isolate_stmt F p = Ok (F1, b) /\ nth_error (lf_stmts F1) p = Some s /\ nth_error (lf_stmts F') p = Some s' /\
    fs_hook s' = false /\ fs_tree s' = match e with Text _ tag => (tag =? fs_tag s)%Z && fs_tree s | _ => false end.
Proof.
  intros st F p e F' st' IS LP E.
  assert (G : forall edit one fin, edit_line edit one fin F p = Done (F', st') ->
    (forall s, fs_hook (fin s) = false /\ fs_tree (fin s) = match e with Text _ tag => (tag =? fs_tag s)%Z && fs_tree s | _ => false end) ->
    exists F1 b s s', isolate_stmt F p = Ok (F1, b) /\ nth_error (lf_stmts F1) p = Some s /\ nth_error (lf_stmts F') p = Some s' /\
      fs_hook s' = false /\ fs_tree s' = match e with Text _ tag => (tag =? fs_tag s)%Z && fs_tree s | _ => false end).
  { clear E. intros edit one fin E FIN. unfold edit_line in E. destruct (isolate_stmt F p) as [[F1 b]| |] eqn:EI; try discriminate. cbn [lift obind] in E.
    destruct (isolate_full F p F1 b IS LP EI) as (_ & _ & s & i & l & r & N & LI & LN & _). rewrite (get_stmt_nth _ _ _ N) in E. cbn [lift obind] in E.
    unfold fs_it in E. rewrite LI in E. cbn [lift obind] in E. unfold get in E. rewrite LN in E. cbn [lift obind] in E.
    destruct (edit l s) as [[l' st1]| |]; try discriminate. cbn [obind] in E.
    destruct (assert_ (negb one || (length (l_stmts l') =? 1))) as [u| |]; try discriminate. cbn [lift obind] in E.
    destruct (assign_range s l') as [s1| |] eqn:EA; try discriminate. cbn [lift obind] in E. injection E as <- _.
    unfold assign_range in EA. destruct (l_stmts l') as [|[b' e'] rs']; [discriminate|]. injection EA as EA.
    exists F1, b, s, (fin s1). split; [reflexivity|]. split; [exact N|]. split.
    - cbn [lf_stmts]. unfold set_nth. assert (p < length (lf_stmts F1)) by (apply nth_error_Some; rewrite N; discriminate).
      rewrite nth_error_app2 by (rewrite firstn_length, map_length; lia). rewrite firstn_length, map_length, Nat.min_l by lia. now rewrite Nat.sub_diag.
    - destruct (FIN s1) as (-> & ->). split; [reflexivity|]. rewrite <- EA. reflexivity. }
  destruct e as [ts tag|b0 e0 t|n t|t]; cbn [apply_edit] in E.
  - unfold replace_stmt_text in E. destruct ts as [|t ts]; [discriminate|]. eapply G; [exact E|]. intros s. split; [reflexivity|].
    unfold unhook, set_syntag. cbn [fs_tree]. destruct (tag =? fs_tag s)%Z; reflexivity.
  - eapply G; [exact E|]. intros s. split; reflexivity.
  - eapply G; [exact E|]. intros s. split; reflexivity.
  - eapply G; [exact E|]. intros s. split; reflexivity.
Qed.
Print Assumptions C65_tree.
(** C65 refuted for append_stmt_text on a statement with another one after it on its
    line: the stored end is that of the semicolon, which is gone. *)
Theorem C65_append_refuted : forall F p s', in_sync F -> nth_error (lf_stmts F) (S p) = Some s' -> (2 <= fs_compound s')%Z ->
  forall st text, append_stmt_text st F p text = Bad.
Proof. intros F p s' IS N C st text. eapply append_bad; eauto. Qed.
Print Assumptions C65_append_refuted.

(** ** Concrete cases *)
Definition file_from (raws : list str) : out LFile :=
  ls <~ read_free raws ;;
  match make_file (3 * length ls + 20) ls with Some (Ok F) => Done F | Some _ => Bad | None => Fuel end.
Definition shown (F : LFile) : list str := flat_map (fun l => map print_line (l_layout l)) (lf_lines F).
Definition said (F : LFile) : list (list str) := map (fun s => map snd (words F s)) (lf_stmts F).
Definition ex_raws : list str := [L "! first"; L "a = 1; b = 2; c = 3"; L "10 d = 4"; L "! last"; L "end"].
Definition ex_F : LFile := match file_from ex_raws with Done F => F | _ => mkLF [] [] end.
Example C63_case_file : file_from ex_raws = Done ex_F /\ shown ex_F = ex_raws /\
  said ex_F = [[L "a"; L "="; L "1"]; [L "b"; L "="; L "2"]; [L "c"; L "="; L "3"]; [L "d"; L "="; L "4"]; [L "end"]] /\
  map fs_compound (lf_stmts ex_F) = [1; 2; 3; 0; 0]%Z /\ map fs_prefix (lf_stmts ex_F) = [[0]; []; []; []; [3]].
Proof. vm_compute. auto 10. Qed.
Example C63_case_sync : in_sync ex_F.
Proof. apply sync_by; vm_compute; reflexivity. Qed.
Definition one_line (raws : list str) : LLn := match read_free raws with Done (l :: _) => l | _ => mkLLn 0 CAT_UNKNOWN false false (-1) [] [] [] end.
Definition the {A} (d : A) (r : res (A * bool)) : A := match r with Ok (x, _) => x | _ => d end.
(** C63: the second of three statements, and on its own *)
Example C63_case_split : exists F, split_compound_before ex_F 1 = Ok (F, true) /\ said F = said ex_F /\
  shown F = [L "! first"; L "a = 1"; L "b = 2; c = 3"; L "10 d = 4"; L "! last"; L "end"] /\ map fs_compound (lf_stmts F) = [1; 1; 2; 0; 0]%Z.
Proof. eexists. split; [vm_compute; reflexivity|]. vm_compute. auto. Qed.
Example C63_case_isolate : exists F, isolate_stmt ex_F 1 = Ok (F, true) /\ said F = said ex_F /\
  shown F = [L "! first"; L "a = 1"; L "b = 2"; L "c = 3"; L "10 d = 4"; L "! last"; L "end"] /\ map fs_end (lf_stmts F) = [None; None; Some 3; Some 3; Some 1].
Proof. eexists. split; [vm_compute; reflexivity|]. vm_compute. auto. Qed.
(** C64: before and after the comment in front of the last statement *)
Example C64_case : right (one_line [L "x = 0"]) /\ l_stmts (one_line [L "x = 0"]) = [(0, 3)] /\
  (exists F, emplace_ll_stmt ex_F 4 (one_line [L "x = 0"]) SG_ASSIGNMENT_STMT = Ok F /\
     shown F = [L "! first"; L "a = 1; b = 2; c = 3"; L "10 d = 4"; L "x = 0"; L "! last"; L "end"]) /\
  (exists F, emplace_after_prefix ex_F 4 (one_line [L "x = 0"]) SG_ASSIGNMENT_STMT = Ok F /\
     shown F = [L "! first"; L "a = 1; b = 2; c = 3"; L "10 d = 4"; L "! last"; L "x = 0"; L "end"] /\ map fs_prefix (lf_stmts F) = [[0]; []; []; []; [3]; []]).
Proof.
  split; [vm_compute; split; [reflexivity|intros _; split; [reflexivity|discriminate]]|]. split; [vm_compute; reflexivity|].
  split; eexists; (split; [vm_compute; reflexivity|]); vm_compute; auto.
Qed.
(** C65 *)
Example C65_case : exists F st, apply_edit ls_init ex_F 1 (Text [L "call f(b)"] SG_CALL_STMT) = Done (F, st) /\
  shown F = [L "! first"; L "a = 1"; L "call f(b)"; L "c = 3"; L "10 d = 4"; L "! last"; L "end"].
Proof. eexists. eexists. split; vm_compute; reflexivity. Qed.
Example C65_case_append : exists F st, apply_edit ls_init ex_F 3 (Append (L "+5")) = Done (F, st) /\
  shown F = [L "! first"; L "a = 1; b = 2; c = 3"; L "10 d = 4+5"; L "! last"; L "end"].
Proof. eexists. eexists. split; vm_compute; reflexivity. Qed.
Example C65_case_label : exists F, set_stmt_label ex_F 1 99 = Ok (F, true) /\ map fs_label (lf_stmts F) = [0; 99; 0; 10; 0]%Z /\
  shown F = [L "! first"; L "a = 1"; L "99 b = 2; c = 3"; L "10 d = 4"; L "! last"; L "end"].
Proof. eexists. split; [vm_compute; reflexivity|]. vm_compute. auto. Qed.

(** C65 refuted on a line that begins with a semicolon: the positions are counted from
    the first token of the statement, but used from the first token of the line;
    here the 1 (token 2 of "a = 1") was to be replaced. *)
Theorem C65_offset_refuted : exists F F' st, file_from [L "; a = 1"] = Done F /\ in_sync F /\ said F = [[L "a"; L "="; L "1"]] /\
  apply_edit ls_init F 0 (Substr 2 3 (L "2")) = Done (F', st) /\ shown F' = [L "; a 2 1"].
Proof.
  eexists. eexists. eexists. split; [vm_compute; reflexivity|]. split; [apply sync_by; vm_compute; reflexivity|]. split; [vm_compute; reflexivity|].
  split; vm_compute; reflexivity.
Qed.
Print Assumptions C65_offset_refuted.
(** C65 refuted behind a label: a statement that is not the first of a labelled line
    cannot be edited. *)
Theorem C65_labelled_refuted : exists F, file_from [L "10 a = 1; b = 2"] = Done F /\ in_sync F /\ said F = [[L "a"; L "="; L "1"]; [L "b"; L "="; L "2"]] /\
  apply_edit ls_init F 1 (Text [L "b = 3"] SG_ASSIGNMENT_STMT) = Bad /\ apply_edit ls_init F 1 (Append (L "+1")) = Bad.
Proof.
  eexists. split; [vm_compute; reflexivity|]. split; [apply sync_by; vm_compute; reflexivity|]. split; [vm_compute; reflexivity|]. split; vm_compute; reflexivity.
Qed.
Print Assumptions C65_labelled_refuted.
Example C65_case_compound : append_stmt_text ls_init ex_F 0 (L "+1") = Bad.
Proof. vm_compute. reflexivity. Qed.

(** C65 refuted for the tree: when the text of an assignment whose tree has been
    built is replaced by another assignment, the tree of the old one, with the
    tokens that are gone, stays. *)
Definition with_trees (F : LFile) : LFile :=
  mkLF (lf_lines F) (map (fun s => mkFS (fs_line s) (fs_beg s) (fs_size s) (fs_end s) (fs_label s) (fs_compound s) (fs_prefix s) SG_ASSIGNMENT_STMT true (fs_hook s)) (lf_stmts F)).
Lemma with_trees_sync F : in_sync F -> in_sync (with_trees F).
Proof.
  intros (R & A). split; [exact R|]. cbn [with_trees lf_lines lf_stmts]. induction A as [|s m l l' H _ IH]; cbn [map]; constructor; auto.
Qed.
Theorem C65_tree_refuted : exists F F' st, file_from [L "a = 1"] = Done F /\ in_sync (with_trees F) /\
  apply_edit ls_init (with_trees F) 0 (Text [L "b = x + 2"] SG_ASSIGNMENT_STMT) = Done (F', st) /\ shown F' = [L "b = x + 2"] /\ map fs_tree (lf_stmts F') = [true] /\
  (exists F2 st2, apply_edit ls_init (with_trees F) 0 (Text [L "call f"] SG_CALL_STMT) = Done (F2, st2) /\ map fs_tree (lf_stmts F2) = [false]).
Proof.
  eexists. eexists. eexists. split; [vm_compute; reflexivity|]. split; [apply with_trees_sync; apply sync_by; vm_compute; reflexivity|]. split; [vm_compute; reflexivity|].
  split; [vm_compute; reflexivity|]. split; [vm_compute; reflexivity|]. eexists. eexists. split; vm_compute; reflexivity.
Qed.
Print Assumptions C65_tree_refuted.
