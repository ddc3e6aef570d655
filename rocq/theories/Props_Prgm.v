(** C28, C29: the program parsers. *)
From Coq Require Import Lia.
From Verif Require Import Base Tags Token TTStream StmtRules Peg Peg_spec StmtGrammar StmtParser Props_Stmt LabelStack Prgm Prgm_spec Prgm_proofs
  PrgmExact_proofs PrgmTop_proofs PrgmTerm_proofs PrgmLoops_spec PrgmLoops_proofs PrgmSource PrgmSource_proofs.
Local Open Scope nat_scope.

(** Statements for the examples *)
Definition st (l : Z) (t : list (Z * string)) : source_stmt := mkSource l (map (fun p => T (fst p) (snd p)) t) 0 (length t).
Definition name (w : string) := (TK_NAME, w).
Definition int (w : string) := (SG_INT_LITERAL_CONSTANT, w).
Definition t_sub := [(KW_SUBROUTINE, "subroutine"); name "s"]%string.
Definition t_do l := [(KW_DO, "do"); int l; name "i"; (TK_EQUAL, "="); int "1"; (TK_COMMA, ","); int "3"]%string.
Definition t_do0 := [(KW_DO, "do"); name "i"; (TK_EQUAL, "="); int "1"; (TK_COMMA, ","); int "3"]%string.
Definition t_set := [name "a"; (TK_EQUAL, "="); name "b"]%string.
Definition t_cont := [(KW_CONTINUE, "continue")]%string.
Definition t_if := [(KW_IF, "if"); (TK_PARENL, "("); name "a"; (TK_PARENR, ")"); (KW_THEN, "then")]%string.
Definition t_else := [(KW_ELSE, "else")]%string.
Definition t_endif := [(KW_END, "end"); (KW_IF, "if")]%string.
Definition t_enddo := [(KW_END, "end"); (KW_DO, "do")]%string.
Definition t_end := [(KW_END, "end")]%string.
Definition t_type := [(KW_TYPE, "type"); name "t"]%string.
Definition t_int := [(KW_INTEGER, "integer"); name "x"]%string.
Definition t_par := [(KW_PARAMETER, "parameter"); (TK_PARENL, "("); name "a"; (TK_EQUAL, "="); int "1"; (TK_PARENR, ")")]%string.
Definition src (l : list source_stmt) : stmts := of_source no_exts 200 l.
(** subroutine s; integer x; do 10; do 10; a = b; 10 a = b; do 20; if (a) then;
    a = b; else; a = b; end if; 20 continue; end *)
Definition sub1 : list source_stmt :=
  [st 0 t_sub; st 0 t_int; st 0 (t_do "10"); st 0 (t_do "10"); st 0 t_set; st 10 t_set; st 0 (t_do "20"); st 0 t_if; st 0 t_set; st 0 t_else;
   st 0 t_set; st 0 t_endif; st 20 t_cont; st 0 t_end].

(** ** C28 *)

(** Whatever parser is called on whatever statements: at every node of the tree
    that it returns the leaves are consecutive statements of the file, only the
    last statement of a shared DO loop occurs more than once, and the statement
    range of the node goes from its first to its last leaf.  No leaf is behind
    the statement where the parser stopped. *)
Theorem C28_tiled : forall x n r m t s', parse_prgm x n r = Done (m, Some t, s') ->
  tiled t /\ p_pos s' <= x_num x /\ Forall (fun p => fst p < p_pos s' \/ (snd p = true /\ fst p = p_pos s')) (leaves_of t).
Proof.
  intros x n r m t s' H. apply grun_ok in H; [|cbn; lia]. destruct H as ((H1 & H2) & H3 & _). split; [exact H1|]. split; [exact H3|].
  apply Forall_forall. intros [i f] Hi. eapply ordp_in in H2; [|exact Hi]. cbn [fst snd]. destruct H2 as [_ [H2|[H2 H4]]]; auto.
Qed.
Print Assumptions C28_tiled.

(** If program() succeeds, its tree goes up to the last statement of the file. *)
Theorem C28_ends : forall x n t s', roots_real x -> parse_prgm x n g_program = Done (true, t, s') ->
  p_pos s' = x_num x /\ exists t0 k, t = Some t0 /\ g_rng t0 = Some (k, x_num x) /\ k < x_num x.
Proof.
  intros x n t s' Hx H. destruct (program_ends x Hx _ _ _ H) as (H1 & t0 & -> & _ & l & i & f & H2 & H3).
  split; [exact H1|]. destruct (C28_tiled _ _ _ _ _ _ H) as (Ht & _ & _).
  destruct (tiled_end _ _ _ _ Ht H2) as (b & Hb & Hi). exists t0, b. split; [reflexivity|].
  assert (E : x_num x = S i) by congruence. rewrite E. split; [exact Hb|lia].
Qed.
Print Assumptions C28_ends.

(** If moreover no parser gave up after it had begun a construct, the leaves of
    the tree are the statements of the file from the first to the last, each
    once, but for the terminating statements of shared DO loops.  Every
    statement has got its own tree exactly once, in the order of the file, and
    the leaf carries the tag of that tree. *)
Theorem C28_exact : forall x n t s', roots_real x -> parse_prgm x n g_program = Done (true, t, s') -> p_left s' = 0 ->
  exists t0, t = Some t0 /\ g_rng t0 = Some (0, x_num x) /\ exactly 0 (leaves_of t0) (x_num x) /\
    rev (map fst (p_trees s')) = seq 0 (x_num x) /\
    (forall i u, In (i, u) (p_trees s') -> exists r, x_parse x i r = Done (Some u)) /\
    forall i f g, In (i, f, g) (g_tags false t0) ->
      (exists r u, x_parse x i r = Done (Some u) /\ t_tag u = g) /\ (f = false -> exists u, In (i, u) (p_trees s') /\ t_tag u = g).
Proof.
  intros x n t s' Hx H Hl. destruct (C28_ends _ _ _ _ Hx H) as (H1 & t0 & k & -> & H2 & H3). exists t0. split; [reflexivity|].
  pose proof H as Hg. unfold parse_prgm in Hg.
  apply (grun_x prgm_grammar x for_statements) in Hg; auto using prgm_uses, prgm_do.
  destruct Hg as (_ & _ & _ & G). destruct (G Hl) as (G1 & new & G2 & (G3 & _ & G4) & G5). cbn [p_init p_pos p_trees] in *. rewrite app_nil_r in G2.
  rewrite H1, Nat.sub_0_r in G3. rewrite H1 in G1. rewrite G2. split; [|repeat split; auto; apply (G5 _ _ _ H0)].
  destruct (C28_tiled _ _ _ _ _ _ H) as (Ht & _ & _).
  destruct (program_ends x Hx _ _ _ H) as (_ & t1 & E & _ & l & i & f & H4 & _). injection E as <-.
  destruct (exactly_head _ _ _ G1) as (f0 & l' & E); [unfold leaves_of in *; rewrite H4; intro C; destruct l; discriminate|].
  destruct (tiled_begin _ _ _ _ Ht E) as (e & E2). congruence.
Qed.
Print Assumptions C28_exact.
(** Without shared DO loops, simply the statements of the file. *)
Corollary C28_once : forall x n t s', roots_real x -> parse_prgm x n g_program = Done (true, t, s') -> p_left s' = 0 ->
  exists t0, t = Some t0 /\ (Forall (fun p => snd p = false) (leaves_of t0) -> map fst (leaves_of t0) = seq 0 (x_num x)).
Proof.
  intros x n t s' Hx H Hl. destruct (C28_exact _ _ _ _ Hx H Hl) as (t0 & -> & _ & E & _). exists t0. split; [reflexivity|]. intro F.
  rewrite (exactly_once _ _ _ E F), Nat.sub_0_r. reflexivity.
Qed.
Print Assumptions C28_once.
(** The same for any program parser, up to where it stopped. *)
Theorem C28_exact_part : forall x n r m t s', roots_real x -> parse_prgm x n r = Done (m, Some t, s') -> p_left s' = 0 ->
  exactly 0 (leaves_of t) (p_pos s') /\ rev (map fst (p_trees s')) = seq 0 (p_pos s').
Proof.
  intros x n r m t s' Hx Hg Hl. unfold parse_prgm in Hg.
  apply (grun_x prgm_grammar x for_statements) in Hg; auto using prgm_uses, prgm_do.
  destruct Hg as (_ & _ & _ & G). destruct (G Hl) as (G1 & new & G2 & (G3 & _ & G4) & G5). cbn [p_init p_pos p_trees] in *. rewrite app_nil_r in G2.
  rewrite Nat.sub_0_r in G3. rewrite G2. auto.
Qed.
Print Assumptions C28_exact_part.

(** The parsers return, provided that the statement parsers do. *)
Theorem C28_terminates : forall x r, (forall i q, x_parse x i q <> Fuel) ->
  exists n0 res, res <> Fuel /\ forall n, n0 <= n -> parse_prgm x n r = res.
Proof.
  intros x r H. exists (x_num x * W 5 7 + 7 * 7 + 2), (parse_prgm x (x_num x * W 5 7 + 7 * 7 + 2) r).
  assert (E : parse_prgm x (x_num x * W 5 7 + 7 * 7 + 2) r <> Fuel) by (apply prgm_terminates; [exact H|apply le_n]).
  split; [exact E|]. intros n Hn. apply parse_prgm_mono; assumption.
Qed.
Print Assumptions C28_terminates.

(** With the statement grammar of parse_stmt.cc: the hypotheses hold for every
    list of statements. *)
Theorem C28_source : forall exts l r, (forall a, Forall ext_ok (exts a)) -> well l ->
  (exists n0 res, res <> Fuel /\ forall m n, n0 <= m -> n0 <= n -> parse_prgm (of_source exts m l) n r = res) /\
  forall m, roots_real (of_source exts m l).
Proof. intros exts l r He Hw. split; [apply source_terminates; assumption|intro m; apply source_roots]. Qed.
Print Assumptions C28_source.
Example C28_ex : exists t s', parse_prgm (src sub1) 200 g_program = Done (true, Some t, s') /\ p_left s' = 0 /\ well sub1 /\
  map fst (leaves_of t) = [0; 1; 2; 3; 4; 5; 5; 6; 7; 8; 9; 10; 11; 12; 13].
Proof. eexists _, _. split; [vm_compute; reflexivity|]. split; [reflexivity|]. split; [repeat constructor|vm_compute; reflexivity]. Qed.
Example C28_once_ex : exists t s', parse_prgm (src [st 0 t_sub; st 0 t_do0; st 0 t_set; st 0 t_enddo; st 0 t_end]) 200 g_program = Done (true, Some t, s') /\
  p_left s' = 0 /\ Forall (fun p => snd p = false) (leaves_of t).
Proof. eexists _, _. split; [vm_compute; reflexivity|]. split; [reflexivity|repeat constructor]. Qed.

(** Why nothing may be given up: main_program on  type t / integer x /
    parameter (a = 1) / end  succeeds, but the first two statements are in no
    leaf. *)
Theorem C28_all_statements_refuted : exists t s', parse_prgm (src [st 0 t_type; st 0 t_int; st 0 t_par; st 0 t_end]) 200 g_program = Done (true, Some t, s') /\
  map fst (leaves_of t) = [2; 3] /\ g_rng t = Some (2, 4) /\ p_left s' = 1.
Proof. eexists _, _. split; [vm_compute; reflexivity|]. repeat split. Qed.
Print Assumptions C28_all_statements_refuted.
(** A program that ends too early is not rejected: the parser looks at the
    statement behind the last one. *)
Theorem C28_truncated_refuted : forall n, 100 <= n -> parse_prgm (src [st 0 t_sub; st 0 t_set]) n g_program = Bad.
Proof. intros n Hn. rewrite (parse_prgm_mono _ 100); [vm_compute; reflexivity|exact Hn|vm_compute; discriminate]. Qed.
Print Assumptions C28_truncated_refuted.

(** ** C29 *)

(** Action statements, IF constructs and DO loops, nested in any way: loops
    ended by END DO, by a labelled CONTINUE or END DO, by a labelled action
    statement, and any number of loops that share their last statement.  The
    parser builds the tree that PrgmLoops_spec.v gives for them, stops behind
    them with an empty label stack and has given up nothing. *)
Theorem C29_nests : forall x ts j, roots_real x -> items x None 0 ts j -> closes x None j ->
  exists n0 s', (forall n, n0 <= n -> parse_prgm x n g_block = Done (true, Some (node PG_BLOCK 0 j ts), s')) /\
    p_pos s' = j /\ p_stack s' = [] /\ p_left s' = 0.
Proof. intros x ts j Hx Hi Hc. exact (block_nest x Hx ts j Hi Hc). Qed.
Print Assumptions C29_nests.
(** A loop inside anything else: the parser of one construct, called where the
    loop begins with the labels of the loops around it on the stack, returns
    the loop's tree and leaves the stack as it was. *)
Theorem C29_loop : forall x tp i t j s, roots_real x -> loop x tp i t j -> p_pos s = i -> top (p_stack s) = tp ->
  exists n0 s', (forall n, n0 <= n -> grun prgm_grammar x n (GCall g_execution_part_construct) s = Done (true, Some (exec t i j), s')) /\
    p_pos s' = j /\ p_stack s' = p_stack s /\ p_left s' = p_left s.
Proof.
  intros x tp i t j s Hx Hl Hp Ht. destruct (nests x Hx) as (_ & _ & H & _). destruct (H _ _ _ _ Hl) as (_ & _ & IH).
  destruct (IH s Hp Ht) as (s' & [n0 E] & A1 & A2 & A3). exists n0, s'. auto.
Qed.
Print Assumptions C29_loop.

(** do 10 / do 10 / do 10 / a = b / 10 a = b / do 20 / if (a) then / a = b /
    else / do / a = b / end do / end if / 20 continue / end *)
Definition block1 : list source_stmt :=
  [st 0 (t_do "10"); st 0 (t_do "10"); st 0 (t_do "10"); st 0 t_set; st 10 t_set; st 0 (t_do "20"); st 0 t_if; st 0 t_set; st 0 t_else;
   st 0 t_do0; st 0 t_set; st 0 t_enddo; st 0 t_endif; st 20 t_cont; st 0 t_end].
Ltac a_stmt := split; [apply Nat.ltb_lt; reflexivity|eexists; split; [vm_compute; reflexivity|first [reflexivity|split; [reflexivity|vm_compute; reflexivity]]]].
Ltac not_stmt := split; [apply Nat.ltb_lt; reflexivity|unfold openers, before_do, others; cbn [app]; repeat (apply Forall_cons; [vm_compute; reflexivity|]); apply Forall_nil].
Ltac freed := try unfold free; vm_compute; discriminate.
Example C29_ex : exists ts, items (src block1) None 0 ts 14 /\ closes (src block1) None 14 /\
  exists t s', parse_prgm (src block1) 200 g_block = Done (true, Some t, s') /\ t = node PG_BLOCK 0 14 ts.
Proof.
  eexists. split; [|split].
  - eapply items_loop.
    { eapply loop_shared with (l := 10%Z); [freed|not_stmt|lia|discriminate|a_stmt|apply items_nil| |].
      - eapply share_more; [freed|not_stmt|a_stmt|apply items_nil| |].
        + eapply share_last; [freed|not_stmt|a_stmt| | |].
          * eapply items_action; [freed|a_stmt|apply items_nil].
          * split; [reflexivity|not_stmt].
          * a_stmt.
        + a_stmt.
      - a_stmt. }
    eapply items_loop; [|apply items_nil].
    eapply loop_label with (l := 20%Z); [freed|not_stmt|lia|discriminate|a_stmt| | |].
    + eapply items_if; [freed|not_stmt|a_stmt| | |apply items_nil].
      * eapply items_action; [freed|a_stmt|apply items_nil].
      * eapply tail_else; [split; [freed|not_stmt]|not_stmt|a_stmt| | |].
        -- eapply items_loop; [|apply items_nil]. eapply loop_block; [freed|not_stmt|a_stmt| | | |].
           ++ eapply items_action; [freed|a_stmt|apply items_nil].
           ++ split; [freed|not_stmt].
           ++ reflexivity.
           ++ a_stmt.
        -- split; [freed|not_stmt].
        -- a_stmt.
    + split; [reflexivity|not_stmt].
    + a_stmt.
  - split; [freed|not_stmt].
  - eexists _, _. split; [vm_compute; reflexivity|reflexivity].
Qed.

(** Not covered because the code does not do it: DO without a label that is ended
    by a labelled END DO fails an assertion ... *)
Theorem C29_labelled_end_do_refuted : forall n, 100 <= n ->
  parse_prgm (src [st 0 t_do0; st 0 t_set; st 100 t_enddo; st 0 t_end]) n g_block = Bad.
Proof. intros n Hn. rewrite (parse_prgm_mono _ 100); [vm_compute; reflexivity|exact Hn|vm_compute; discriminate]. Qed.
Print Assumptions C29_labelled_end_do_refuted.
(** ... and DO 10 is ended by an END DO without the label; the label stays on the
    stack. *)
Theorem C29_other_label_refuted : exists t s',
  parse_prgm (src [st 0 (t_do "10"); st 0 t_set; st 0 t_enddo; st 0 t_end]) 200 g_block = Done (true, Some t, s') /\
  p_stack s' = [(10, -1)]%Z /\ map fst (leaves_of t) = [0; 1; 2].
Proof. eexists _, _. split; [vm_compute; reflexivity|split; reflexivity]. Qed.
Print Assumptions C29_other_label_refuted.
