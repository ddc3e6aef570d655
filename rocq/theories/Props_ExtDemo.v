(** C82: an extension of the grammar changes only what it adds. *)
From Verif Require Import Base Base_lemmas Tags SyntaxTags Token TTStream StmtRules Peg Peg_spec Peg_proofs StmtGrammar Stmt_spec LabelStack Prgm PrgmSource.
From Verif Require Import ExtDemo ExtDemo_spec ExtDemo_proofs Props_Stmt.
Local Open Scope nat_scope.

(** C82.  A statement parser gives with extensions what it gives without them, on
    every statement in which the extensions decline wherever the built-in
    parsers decline. *)
Theorem C82_stmt : forall exts n r s, exts_same exts -> adds_nothing exts n (frags s) ->
  parse_rule grammar exts n r s = parse_rule grammar no_exts n r s.
Proof. intros exts n r s HS HA. exact (rule_inert exts n (frags s) HS HA n r s (le_n n) eq_refl). Qed.
(** So does the program parser. *)
Theorem C82_program : forall exts m l n r, exts_same exts -> Forall (fun q => adds_nothing exts m (ss_frags q)) l ->
  parse_prgm (of_source exts m l) n r = parse_prgm (of_source no_exts m l) n r.
Proof. exact prgm_inert. Qed.
(** The extension of ext_demo, under either tag, changes nothing in a file without
    "WRITE (...) ,". *)
Theorem C82_demo : forall tag m l n r, Forall (fun q => no_comma_write (ss_frags q)) l ->
  parse_prgm (of_source (demo_exts tag m) m l) n r = parse_prgm (of_source no_exts m l) n r.
Proof.
  intros tag m l n r H. apply prgm_inert; [apply demo_same|]. eapply Forall_impl; [|exact H]. intros q Q. apply demo_adds_nothing. exact Q.
Qed.
(** What it accepts is a WRITE with a comma, up to the end of the statement, under
    the tag it was given. *)
Theorem C82_accepts : forall tag m s t s', comma_ext tag m s = Done (Some t, s') ->
  comma_write (skipn (pos s) (frags s)) /\ t_tag t = tag /\ peek s' = Ok BAD.
Proof. exact comma_accepts. Qed.
(** It accepts "WRITE (...) , items" if the items are a list of output items up to
    the end, and so does the built-in parser with "WRITE (...) items". *)
Theorem C82_comma : forall tag m s w g c r o s', rest s = w :: g ++ c :: r -> tok w = KW_WRITE -> paren_group g -> tok c = TK_COMMA ->
  comma_ext tag m s = Done (o, s') -> o <> None <-> items_to_end (set_pos s (pos s + length g + 2)).
Proof. exact comma_items. Qed.
Theorem C82_builtin : forall m s w g r o s', rest s = w :: g ++ r -> tok w = KW_WRITE -> paren_group g ->
  parse_rule grammar no_exts m r_write_stmt s = Done (o, s') -> o <> None <-> items_to_end (set_pos s (pos s + length g + 1)).
Proof. exact write_items. Qed.

(** The two statements of the demo: with and without a comma behind the control list. *)
Definition ctl : list Token := [T TK_PARENL "("; T TK_ASTERISK "*"; T TK_COMMA ","; T SG_INT_LITERAL_CONSTANT "100"; T TK_PARENR ")"].
Definition ab : list Token := [T TK_NAME "a"; T TK_COMMA ","; T TK_NAME "b"].
Definition standard : list Token := T KW_WRITE "write" :: ctl ++ ab.
Definition with_comma : list Token := T KW_WRITE "write" :: ctl ++ T TK_COMMA "," :: ab.
Example ctl_group : paren_group ctl.
Proof.
  split; [eexists; eexists; split; reflexivity|]. split; [reflexivity|]. intros u v E NU NV.
  assert (U : u = firstn (length u) ctl) by (rewrite E, firstn_app, Nat.sub_diag, firstn_all; cbn [firstn]; now rewrite app_nil_r).
  pose proof (f_equal (@length Token) E) as EL. rewrite app_length in EL. cbn in EL. destruct v as [|x v]; [contradiction|]. cbn in EL.
  destruct (length u) as [|[|[|[|[|?]]]]]; try lia; try (rewrite U; cbn; lia). contradiction.
Qed.
(** Without the extension only the first is a statement; with it the second one is, too, under the tag that the extension gives. *)
Definition act (exts : bool -> list ext) (l : list Token) : option (Z * list Z) :=
  match parse_rule grammar exts 60 r_action_stmt (S_of l) with
  | Done (Some t, _) => Some (t_tag t, map t_tag (t_kids t))
  | _ => None
  end.
Example C82_ex :
  act no_exts standard = Some (SG_ACTION_STMT, [SG_WRITE_STMT]) /\ act no_exts with_comma = None /\
  act (demo_exts SG_WRITE_STMT 60) standard = Some (SG_ACTION_STMT, [SG_WRITE_STMT]) /\
  act (demo_exts SG_WRITE_STMT 60) with_comma = Some (SG_ACTION_STMT, [SG_WRITE_STMT]) /\
  act (demo_exts MY_WRITE_STMT 60) standard = Some (SG_ACTION_STMT, [SG_WRITE_STMT]) /\
  act (demo_exts MY_WRITE_STMT 60) with_comma = Some (SG_ACTION_STMT, [MY_WRITE_STMT]) /\
  comma_write with_comma /\ ~ comma_write standard.
Proof.
  do 6 (split; [vm_compute; reflexivity|]). split.
  - exists (T KW_WRITE "write"), ctl, (T TK_COMMA ","), ab. conjs; try reflexivity. exact ctl_group.
  - intros (w & g & c & r & E & _ & G & TC). unfold standard in E. injection E as _ E. change (ctl ++ ab = g ++ c :: r) in E. pose proof (group_unique _ _ _ _ ctl_group G E) as <-.
    apply app_inv_head in E. injection E as <- _. discriminate TC.
Qed.
(** A file with both kinds of WRITE in an IF: the hypothesis of C82_demo holds of the first file. *)
Definition whole (l : list Token) : source_stmt := mkSource 0 l 0 (length l).
Definition iff : list Token := [T KW_IF "if"; T TK_PARENL "("; T TK_NAME "p"; T TK_PARENR ")"].
Definition fin : list Token := [T KW_END "end"].
Definition accepted (exts : bool -> list ext) (l : list source_stmt) : option bool :=
  match parse_prgm (of_source exts 60 l) 200 g_program with Done (b, t, _) => Some b | _ => None end.
Example C82_file_ex :
  accepted no_exts [whole (iff ++ standard); whole fin] = Some true /\
  accepted no_exts [whole (iff ++ with_comma); whole fin] = Some false /\
  accepted (demo_exts MY_WRITE_STMT 60) [whole (iff ++ standard); whole fin] = Some true /\
  accepted (demo_exts MY_WRITE_STMT 60) [whole (iff ++ with_comma); whole fin] = Some true /\
  Forall (fun q => no_comma_write (ss_frags q)) [whole (iff ++ standard); whole fin].
Proof.
  do 4 (split; [vm_compute; reflexivity|]).
  assert (X : forall l, (forall i w, nth_error l i = Some w -> tok w = KW_WRITE -> ~ comma_write (skipn i l)) -> no_comma_write l).
  { intros l H u k E C. pose proof C as (w & g & c & r & -> & TW & _). apply (H (length u) w); auto; rewrite E.
    - rewrite nth_error_app2, Nat.sub_diag by lia. reflexivity.
    - rewrite skipn_app, Nat.sub_diag, skipn_all. exact C. }
  constructor; [|constructor; [|constructor]]; apply X; intros i w N TW.
  - cbn [whole ss_frags] in *. destruct i as [|[|[|[|[|i]]]]]; try (cbn in N; injection N as <-; discriminate TW).
    + exact (proj2 (proj2 (proj2 (proj2 (proj2 (proj2 (proj2 C82_ex))))))).
    + do 8 (destruct i as [|i]; [cbn in N; injection N as <-; discriminate TW|]). destruct i; discriminate N.
  - destruct i as [|i]; [cbn in N; injection N as <-; discriminate TW|]. destruct i; discriminate N.
Qed.
(** An extension that accepts more may take statements away from the rest of the grammar:
    this one takes every statement of one token, and the END statement with them. *)
Definition greedy (s : stream) : out fresult :=
  '(x, s') <~ leaf TK_NAME s ;; t <~ peek_o s' ;; Done (if (t =? BAD)%Z then Some x else None, s').
Theorem C82_any_refuted : exists e l, ext_same e /\ accepted no_exts l = Some true /\ accepted (fun a => if a then [e] else []) l <> Some true.
Proof.
  exists greedy, [whole standard; whole fin]. split; [|split; [vm_compute; reflexivity|vm_compute; discriminate]].
  intros s o s' H. unfold greedy in H. apply obind_done in H as ((x & s1) & E & H). apply obind_done in H as (t & _ & H). injection H as _ <-.
  unfold leaf, digest in E. destruct (next_n s (pos s) 1); try discriminate. cbn in E. injection E as _ <-. repeat split.
Qed.

Definition C82_all := (C82_stmt, C82_program, C82_demo, C82_accepts, C82_comma, C82_builtin, C82_any_refuted).
Print Assumptions C82_all.
