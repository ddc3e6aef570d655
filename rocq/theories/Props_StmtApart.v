(** C62: statements of different kinds are told apart. *)
From Coq Require Import Lia.
From Verif Require Import Base Base_lemmas Tags SyntaxTags Token TTStream StmtRules Peg Peg_spec Peg_proofs StmtGrammar
  StmtPrefix StmtPrefix_proofs StmtApart_spec StmtApart_proofs.
From Verif Require Import Props_Stmt.
Local Open Scope nat_scope.

Definition stay (exts : bool -> list ext) : Prop := forall a, Forall ext_same (exts a).

(** The parser for a kind of statement takes only statements that begin with the
    word, or one of the words, of that kind. *)
Theorem C62_openings : forall exts s r ks, stay exts -> statement s -> In (r, ks) openings -> takes exts r s ->
  exists k, kind_at s 0 = Some k /\ In k ks.
Proof.
  intros exts s r ks HX HS HI (n & t & s' & H). apply statement_real in HS as (RS & P).
  pose proof openings_ok as T. rewrite forallb_forall in T. specialize (T _ HI). cbn [fst snd] in T.
  destruct (all_pre_ok exts true HX ltac:(discriminate) _ _ _ _ _ _ _ _ _ RS P (fits_nil s) T H) as (pre & F & X & _).
  apply existsb_exists in X as (z & I & X). exists z. split; [eapply isk_ok; eauto|exact I].
Qed.
Print Assumptions C62_openings.
(** With a construct name in front: name, colon, word. *)
Theorem C62_constructs : forall exts s r k, stay exts -> statement s -> In (r, k) construct_openings -> takes exts r s ->
  kind_at s 0 = Some k \/ (exists w, kind_at s 0 = Some w /\ is_name_tag w <> Ok false) /\ kind_at s 1 = Some TK_COLON /\ kind_at s 2 = Some k.
Proof.
  intros exts s r k HX HS HI (n & t & s' & H). apply statement_real in HS as (RS & P).
  pose proof constructs_ok as T. rewrite forallb_forall in T. specialize (T _ HI). cbn [fst snd] in T.
  destruct (all_pre_ok exts true HX ltac:(discriminate) _ _ _ _ _ _ _ _ _ RS P (fits_nil s) T H) as (pre & F & X & _).
  apply orb_true_iff in X as [X|X]; [left; eapply isk_ok; eauto|right]. apply andb_true_iff in X as (X & X2). apply andb_true_iff in X as (X0 & X1).
  split; [|split; eapply isk_ok; eauto]. destruct (isn_ok _ _ _ F X0) as (w & W & N). exists w. split; [exact W|]. intros E. apply N in E. discriminate.
Qed.
Print Assumptions C62_constructs.
(** Assignments and macro calls: a name and one of a few tokens. *)
Theorem C62_names : forall exts s r ks, stay exts -> statement s -> In (r, ks) name_openings -> takes exts r s ->
  exists w k, kind_at s 0 = Some w /\ is_name_tag w <> Ok false /\ kind_at s 1 = Some k /\ In k ks.
Proof.
  intros exts s r ks HX HS HI (n & t & s' & H). apply statement_real in HS as (RS & P).
  pose proof names_ok as T. rewrite forallb_forall in T. specialize (T _ HI). cbn [fst snd] in T.
  destruct (all_pre_ok exts true HX ltac:(discriminate) _ _ _ _ _ _ _ _ _ RS P (fits_nil s) T H) as (pre & F & X & _).
  apply andb_true_iff in X as (X0 & X1). apply existsb_exists in X1 as (z & I & X1). destruct (isn_ok _ _ _ F X0) as (w & W & N).
  exists w, z. split; [exact W|]. split; [intros E; apply N in E; discriminate|]. split; [eapply isk_ok; eauto|exact I].
Qed.
Print Assumptions C62_names.
(** END statements: the second word is that of the kind; only the ends of program
    units may be END alone. *)
Theorem C62_ends : forall exts s r k bare, stay exts -> statement s -> In (r, k, bare) end_words -> takes exts r s ->
  kind_at s 0 = Some KW_END /\ (kind_at s 1 = Some k \/ bare = true /\ s_end s = s_beg s + 1).
Proof.
  intros exts s r k bare HX HS HI (n & t & s' & H). apply statement_real in HS as (RS & P).
  pose proof ends_ok as T. rewrite forallb_forall in T. specialize (T _ HI). cbn [fst snd] in T.
  destruct (all_pre_ok exts true HX ltac:(discriminate) _ _ _ _ _ _ _ _ _ RS P (fits_nil s) T H) as (pre & F & X & _).
  apply andb_true_iff in X as (X0 & X1). split; [eapply isk_ok; eauto|]. apply orb_true_iff in X1 as [X1|X1]; [left; eapply isk_ok; eauto|right].
  apply andb_true_iff in X1 as (-> & X1). split; [reflexivity|]. eapply ise_ok; eauto.
Qed.
Print Assumptions C62_ends.

(** A statement that ends or divides a part of the program is not an action
    statement. *)
Theorem C62_not_actions : forall s r, statement s -> In r delimiters -> takes no_exts r s -> ~ takes no_exts r_action_stmt s.
Proof.
  intros s r HS HI (n & t & s' & H) (n2 & t2 & s2 & H2). apply statement_real in HS as (RS & P).
  pose proof actions_ok as T. rewrite forallb_forall in T. specialize (T _ HI). cbv beta in T.
  destruct (clash false 60 4 [] r r_action_stmt) eqn:C; [|discriminate].
  eapply (clash_ok no_exts false); [intros a; constructor|intros _ a; reflexivity|exact RS|exact P|apply fits_nil|exact C|exact H|exact H2].
Qed.
Print Assumptions C62_not_actions.
(** No statement is two of them, but those in a group. *)
Theorem C62_apart : forall exts s r1 r2, stay exts -> statement s -> In r1 delimiters -> In r2 delimiters -> r1 <> r2 -> ~ share r1 r2 ->
  takes exts r1 s -> ~ takes exts r2 s.
Proof.
  intros exts s r1 r2 HX HS H1 H2 NE NS (n & t & s' & H) (n2 & t2 & s2 & H'). apply statement_real in HS as (RS & P).
  pose proof pairs_ok as T. rewrite forallb_forall in T. specialize (T _ H1). cbv beta in T. rewrite forallb_forall in T. specialize (T _ H2). cbv beta in T.
  apply orb_true_iff in T as [T|T]; [apply orb_true_iff in T as [T|T]; [apply rule_eqb_ok in T; contradiction|apply share_b_ok in T; contradiction]|].
  destruct (clash true 60 4 [] r1 r2) eqn:C; [|discriminate].
  eapply (clash_ok exts true HX); [discriminate|exact RS|exact P|apply fits_nil|exact C|exact H|exact H'].
Qed.
Print Assumptions C62_apart.

(** The members of a group do take the same statement. *)
Definition stm (l : list (Z * string)) : stream := stream_of (map (fun x => new_token (L (snd x)) (fst x) 1 1) l) 0 (length l).
Example C62_shared_ex :
  Forall (fun r => takes no_exts r (stm [(KW_END, "end")]%string)) unit_ends /\
  Forall (fun r => takes no_exts r (stm [(KW_END, "end"); (KW_SELECT, "select")]%string)) select_ends /\
  Forall (fun r => takes no_exts r (stm [(KW_ELSE, "else"); (KW_WHERE, "where")]%string)) [r_else_stmt; r_elsewhere_stmt].
Proof. split; [|split]; repeat (constructor; [eexists 20, _, _; vm_compute; reflexivity|]); constructor. Qed.
(** A statement is one, and has one reading. *)
Example C62_ex : let s := stm [(KW_END, "end"); (KW_IF, "if"); (TK_NAME, "a")]%string in statement s /\ takes no_exts r_end_if_stmt s /\
  ~ takes no_exts r_action_stmt s /\ ~ takes no_exts r_end_do_stmt s.
Proof.
  intros s. assert (S : statement s).
  { split; [reflexivity|]. split; [cbn; lia|]. split; [cbn; lia|]. intros p t _ H E. cbn in H. destruct p as [|[|[|p]]]; cbn in E; [..|lia]; injection E as <-; discriminate. }
  assert (T : takes no_exts r_end_if_stmt s) by (eexists 20, _, _; vm_compute; reflexivity).
  split; [exact S|]. split; [exact T|]. split.
  - eapply C62_not_actions; [exact S| |exact T]. vm_compute. auto 20.
  - eapply (C62_apart no_exts); [intros a; constructor|exact S| | | | |exact T]; [vm_compute; auto 30..|discriminate|].
    intros (g & G & A & B). vm_compute in G. repeat (destruct G as [<-|G]; [vm_compute in A; intuition discriminate|]). exact G.
Qed.
(** IMPORT and INTERFACE statements: a misplaced parenthesis makes the end of the
    statement an alternative, so they take an empty statement. *)
Theorem C62_import_refuted : takes no_exts r_import_stmt (stm []) /\ takes no_exts r_interface_stmt (stm []).
Proof. split; eexists 20, _, _; vm_compute; reflexivity. Qed.
Print Assumptions C62_import_refuted.
