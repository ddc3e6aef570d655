(** C79: the program flpr_show_cst. *)
From Coq Require Import Sorting.Sorted Lia.
From Verif Require Import Base Tags SyntaxTags FileLine Token TTStream StmtRules Peg Peg_spec Peg_proofs StmtGrammar StmtParser Stmt_spec StmtTables_proofs StmtDispatch_proofs
  Prgm Prgm_proofs PrgmSource LogicalFile LogicalLine StmtSrc Lexer ReadFile Indent FormatMain ShowCst ShowCst_spec ShowCst_proofs Props_Stmt.
Local Open Scope nat_scope.

(** C79.  For every kind of statement there is a parser. *)
Theorem C79_kinds : forall k, statement_kind k -> exists r, dispatch_rule k = Some r.
Proof.
  intros k H. apply show_in in H. assert (G : forallb (fun k => match dispatch_rule k with Some _ => true | None => false end) show_tags = true) by (vm_compute; reflexivity).
  rewrite forallb_forall in G. apply G in H. destruct (dispatch_rule k); [eauto|discriminate].
Qed.
(** C79.  The parsers run one after the other on one stream, but what is shown is what each gives by itself. *)
Theorem C79_shows : forall exts n s l, exts_same exts -> pos s = s_beg s -> show_loop exts n show_tags 0 s = Done l -> shows exts n s l.
Proof.
  intros exts n s l E P H. apply loop_shows in H; auto using show_sorted. destruct H as (H1 & kinds & H2 & H3 & H4). split; [exact H1|]. exists kinds. split; [exact H2|]. split.
  - clear - H3. induction H3 as [|q r ks l (A & B) F IH]; constructor; [split; [exact (proj1 (show_in _) A)|exact B]|exact IH].
  - intros k t K A. exact (H4 k t (proj2 (show_in k) K) A).
Qed.
(** C79.  It gets through exactly if every parser does. *)
Theorem C79_defined : forall exts n s, exts_same exts -> pos s = s_beg s ->
  (exists l, show_loop exts n show_tags 0 s = Done l) <-> (forall k, statement_kind k -> exists x, parse_stmt_dispatch exts n k s = Done x).
Proof.
  intros exts n s E P. rewrite (loop_done exts n E s P). split; intros H k K; apply H; [exact (proj2 (show_in k) K)|exact (proj1 (show_in k) K)].
Qed.
Ltac oc H a Ha := match type of H with obind ?e _ = _ => destruct e as [a| |] eqn:Ha; cbn [obind] in H; [|discriminate H|discriminate H] end.
(** C79.  The program: nothing typed in, a line that cannot be read, or a text for each statement in turn. *)
Theorem C79_program : forall exts n s code out, exts_same exts -> show_cst exts n s = Done (code, out) ->
  exists raws, until_blank (getlines [] s) raws /\
  ((code = 1 /\ raws = [] /\ out = []) \/
   (code = 2 /\ raws <> [] /\ scan_free (length raws) raws = Some Throw /\ out = []) \/
   (code = 0 /\ raws <> [] /\ exists ls sts texts, read_free raws = Done ls /\ make_stmts (3 + length ls + length (flat_map l_stmts ls)) ls = Some (Ok sts) /\
      Forall2 (stmt_text exts n ls) sts texts /\ out = concat texts)).
Proof.
  intros exts n s code out E H. unfold show_cst in H. exists (input_lines (getlines [] s)). split.
  { clear H. induction (getlines [] s) as [|x r (I1 & rest & I2 & I3)]; cbn [input_lines]. { split; [constructor|]. exists []. auto. }
    destruct x as [|c x]; cbn [is_empty]. { split; [constructor|]. exists ([] :: r). split; [reflexivity|right; exists r; reflexivity]. }
    split; [constructor; [discriminate|auto]|]. exists rest. split; [cbn [app]; now rewrite <- I2|auto]. }
  set (raws := input_lines (getlines [] s)) in *. destruct (is_empty raws) eqn:EM.
  { injection H as <- <-. left. destruct raws; [auto|discriminate]. }
  assert (NE : raws <> []) by (intros X; rewrite X in EM; discriminate). right.
  unfold read_free. destruct (scan_free (length raws) raws) as [[lls| |]|]; try discriminate.
  2:{ injection H as <- <-. left. auto. }
  right. cbn [lift obind]. oc H ls Hls. destruct (make_stmts (3 + length ls + length (flat_map l_stmts ls)) ls) as [[sts| |]|] eqn:M; cbn [lift obind] in H; try discriminate.
  oc H a Ha0. injection H as <- <-. split; [auto|]. split; [auto|]. exists ls, sts.
  assert (X : exists texts, Forall2 (stmt_text exts n ls) sts texts /\ a = concat texts).
  { clear M. revert a Ha0. induction sts as [|st sts IH]; intros a Hx; cbn [show_stmts] in Hx.
    - injection Hx as <-. exists []. split; [constructor|reflexivity].
    - oc Hx a0 Ha. oc Hx a1 Ha0. injection Hx as <-. destruct (IH _ eq_refl) as (texts & F & ->). exists (a0 :: texts). split; [|reflexivity]. constructor; [|exact F].
      unfold show_stmt in Ha. cbv zeta in Ha. oc Ha l Ha1. exists l. split; [apply C79_shows; auto|]. destruct l as [|r0 l0].
      + left. split; [reflexivity|]. destruct (print_stmt ls st) as [x| |]; cbn [bind lift] in Ha; try discriminate. injection Ha as <-. eauto.
      + right. split; [discriminate|]. remember (r0 :: l0) as l eqn:D. clear D Ha1. revert a0 Ha. clear. induction l as [|r l IH]; intros x H; cbn [print_all] in H.
        * injection H as <-. exists []. split; [constructor|reflexivity].
        * destruct (result_line r) as [y| |] eqn:Y; cbn [bind lift] in H; try discriminate. destruct (print_all result_line l) as [z| |] eqn:Z1; cbn [bind lift] in H; try discriminate.
          injection H as <-. destruct (IH z eq_refl) as (ts & F & ->). exists (y :: ts). split; [|reflexivity]. constructor; auto.
          unfold result_line in Y. destruct (print_tree (snd r)) as [w| |] eqn:W; cbn [bind] in Y; try discriminate. injection Y as <-. exists w. auto. }
  destruct X as (texts & F & ->). exists texts. auto.
Qed.
(** C79.  Trees that are printed alike have the same labels in the same places, if no label begins with a bracket. *)
Theorem C79_print_partial : forall t u x, plain_tree t -> plain_tree u -> print_tree t = Ok x -> print_tree u = Ok x -> same_labels t u.
Proof. intros t u x P Q A B. apply (all_readable t u x x [] [] P Q A B); [now left|now left|reflexivity]. Qed.
(** Otherwise the text can be that of another tree. *)
Definition two_ways : stree * stree :=
  let leaf k := ST k None [] in
  (ST SG_EXPR None [ST SG_EXPR None [leaf TK_NAME; leaf TK_REL_LE]; leaf TK_REL_GT], ST SG_EXPR None [ST SG_EXPR None [ST TK_NAME None [leaf TK_EQUAL]]]).
Theorem C79_print_refuted : exists t u x, print_tree t = Ok x /\ print_tree u = Ok x /\ ~ same_labels t u.
Proof.
  exists (fst two_ways), (snd two_ways). eexists. split; [vm_compute; reflexivity|]. split; [vm_compute; reflexivity|].
  intros H. inversion H as [? ? ? ? ? ? _ F]; subst. inversion F as [|? ? ? ? _ F']; subst. inversion F'.
Qed.
(** C79.  It gets to the end only if every parser is defined on every statement ... *)
Theorem C79_all_defined : forall exts n s out, exts_same exts -> show_cst exts n s = Done (0, out) ->
  exists ls sts, read_free (input_lines (getlines [] s)) = Done ls /\ make_stmts (3 + length ls + length (flat_map l_stmts ls)) ls = Some (Ok sts) /\
    Forall (fun st => let q := src_of ls st in forall k, statement_kind k -> exists x, parse_stmt_dispatch exts n k (stream_of (ss_frags q) (ss_beg q) (ss_end q)) = Done x) sts.
Proof.
  intros exts n s out E H. unfold show_cst in H. set (raws := input_lines (getlines [] s)) in *. destruct (is_empty raws) eqn:EM; [discriminate|].
  unfold read_free. destruct (scan_free (length raws) raws) as [[lls| |]|]; try discriminate. cbn [lift obind]. oc H ls Hls.
  destruct (make_stmts (3 + length ls + length (flat_map l_stmts ls)) ls) as [[sts| |]|] eqn:M; cbn [lift obind] in H; try discriminate.
  oc H a Ha0. exists ls, sts. split; [auto|]. split; [auto|]. clear M H. revert a Ha0. induction sts as [|st sts IH]; intros a Hx; [constructor|]. cbn [show_stmts] in Hx. oc Hx a0 Ha. oc Hx a1 Ha0.
  constructor; [|exact (IH _ eq_refl)]. cbv zeta. unfold show_stmt in Ha. cbv zeta in Ha. oc Ha l Ha1. apply C79_defined; eauto.
Qed.
(** ... and READ from a unit without a list of items is a statement on which one is not. *)
Theorem C79_read_refuted : forall n, 60 <= n -> forall out, show_cst no_exts n (L "read (5,*)") <> Done (0, out).
Proof.
  intros n Hn out H. apply C79_all_defined in H; [|intro; constructor]. destruct H as (ls & sts & R & M & F).
  vm_compute in R. injection R as R. subst ls. vm_compute in M. injection M as M. subst sts. apply Forall_inv in F. cbv zeta in F.
  destruct (F SG_READ_STMT) as (x & X). { split; [split; reflexivity|vm_compute; reflexivity]. } clear F.
  unfold parse_stmt_dispatch in X. replace (dispatch_rule SG_READ_STMT) with (Some r_read_stmt) in X by (vm_compute; reflexivity).
  rewrite (parse_rule_mono grammar no_exts 60 n r_read_stmt _ Hn) in X; [vm_compute in X; discriminate|]. intro Y. vm_compute in Y. discriminate.
Qed.

(** C79.  How a tree is printed. *)
Theorem C79_printed : forall t x, print_tree t = Ok x <-> printed t x.
Proof.
  induction t as [a r k IH] using stree_ind2. intros x. rewrite print_eq.
  assert (K : forall b, print_kids k = Ok b <-> exists xs, Forall2 printed k xs /\ b = concat (map (fun x => x ++ L " ") xs)).
  { clear x. induction IH as [|t k Ht F IH]; intros b; cbn [print_kids].
    - split; [intros [= <-]; exists []; split; constructor|]. intros (xs & G & ->). inversion G; subst. reflexivity.
    - split.
      + intros H. destruct (print_tree t) as [y| |] eqn:E; [|discriminate|discriminate]. cbn [bind] in H. destruct (print_kids k) as [z| |] eqn:Z; [|discriminate|discriminate]. injection H as <-.
        destruct (proj1 (IH z) eq_refl) as (xs & G & ->). exists (y :: xs). split; [constructor; [apply Ht; reflexivity|exact G]|]. cbn [map concat]. now rewrite <- app_assoc.
      + intros (xs & G & ->). inversion G as [|? y ? ys P Q]; subst. apply Ht in P. rewrite P. cbn [bind]. rewrite (proj2 (IH _) (ex_intro _ ys (conj Q eq_refl))). cbn [bind map concat]. now rewrite <- app_assoc. }
  split.
  - intros H. destruct (tag_label [] a) as [h| |] eqn:T; [|discriminate|discriminate]. cbn [bind] in H. destruct k as [|t k]; [injection H as <-; now constructor|].
    destruct (print_kids (t :: k)) as [b| |] eqn:B; [|discriminate|discriminate]. injection H as <-. destruct (proj1 (K b) eq_refl) as (xs & F & ->). constructor; [exact T|discriminate|exact F].
  - intros H. inversion H as [? ? h T|? ? ? h xs T N F]; subst; rewrite T; cbn [bind]; [reflexivity|].
    rewrite (proj2 (K _) (ex_intro _ xs (conj F eq_refl))). destruct k; [congruence|reflexivity].
Qed.
Example C79_printed_case : printed (ST SG_LABEL None [ST SG_INT_LITERAL_CONSTANT None []; ST TK_NAME None []]) (L "label <int-literal-constant name >").
Proof. apply C79_printed. vm_compute. reflexivity. Qed.
(** C79.  What is written of a statement that is not recognised: its prefix lines with their numbers, then the line of its
    first token and the tokens. *)
Lemma render_spelled t r : forall x, render (t :: r) = Ok x -> spelled (t :: r) x.
Proof.
  revert t. induction r as [|u r IH]; intros t x H; [injection H as <-; constructor|]. change (render (t :: u :: r)) with
    (a <- rd (tk_post t) ;; b <- rd (tk_pre u) ;; s <- render (u :: r) ;; Ok (tk_text t ++ spaces (Z.to_nat (Z.max a b)) ++ s)) in H.
  unfold rd in H. destruct (tk_post t) as [a|] eqn:A; [|discriminate]. destruct (tk_pre u) as [b|] eqn:B; [|discriminate]. cbn [bind] in H.
  destruct (render (u :: r)) as [y| |] eqn:Y; [|discriminate|discriminate]. injection H as <-. constructor; auto.
Qed.
Theorem C79_unrecognized : forall ls st x, print_stmt ls st = Ok x ->
  (stmt_tokens (src_of ls st) = [] /\ x = L "? : <empty stmt>") \/
  exists t r ps txt, stmt_tokens (src_of ls st) = t :: r /\ Forall2 (prefix_text ls) (s_prefix st) ps /\ spelled (t :: r) txt /\
    x = concat ps ++ L "Line:" ++ to_dec_z (tk_line t) ++ L ": " ++ txt.
Proof.
  intros ls st x H. unfold print_stmt in H. destruct (stmt_tokens (src_of ls st)) as [|t r] eqn:T; [left; injection H as <-; auto|right].
  destruct (print_all (print_prefix ls) (s_prefix st)) as [p| |] eqn:P; [|discriminate|discriminate]. cbn [bind] in H.
  destruct (render (t :: r)) as [y| |] eqn:Y; [|discriminate|discriminate]. injection H as <-.
  assert (E : exists ps, Forall2 (prefix_text ls) (s_prefix st) ps /\ p = concat ps).
  { clear - P. revert p P. induction (s_prefix st) as [|j l IH]; intros p P; cbn [print_all] in P; [injection P as <-; exists []; split; constructor|].
    destruct (print_prefix ls j) as [a| |] eqn:A; [|discriminate|discriminate]. cbn [bind] in P. destruct (print_all (print_prefix ls) l) as [b| |]; [|discriminate|discriminate]. injection P as <-.
    destruct (IH _ eq_refl) as (ps & F & ->). exists (a :: ps). split; [|reflexivity]. constructor; [|exact F].
    unfold print_prefix in A. destruct (nth_error ls j) as [k|] eqn:K; [|discriminate]. injection A as <-. exists k. split; [exact K|].
    unfold print_lln. rewrite flat_map_concat_map. destruct (l_layout k); reflexivity. }
  destruct E as (ps & F & ->). exists t, r, ps, y. split; [reflexivity|]. split; [exact F|]. split; [apply render_spelled; exact Y|]. reflexivity.
Qed.
Example C79_unrecognized_case : show_cst no_exts 100 (L "! note" ++ [c_nl] ++ L "foo bar") = Done (0,
  L "Unrecognized: Line:1:" ++ [c_nl] ++ L "! note" ++ [c_nl] ++ L "Line:2: foo bar" ++ [c_nl]).
Proof. vm_compute. reflexivity. Qed.

(** A case: two statements on a line, one of them with two readings, and one that is none. *)
Definition typed : str := L "if (a < b) goto 10 ; foo bar" ++ [c_nl] ++ [c_nl] ++ L "not read".
Example C79_case : exists out, show_cst no_exts 100 typed = Done (0, out) /\ out =
  L "1: action-stmt <if-stmt <IF ( logical-expr <expr <name < name > > ) action-stmt <goto-stmt <GO TO label <int-literal-constant > > > > >" ++ [c_nl] ++
  L "2: if-stmt <IF ( logical-expr <expr <name < name > > ) action-stmt <goto-stmt <GO TO label <int-literal-constant > > > >" ++ [c_nl] ++
  L "Unrecognized: Line:1: foo bar" ++ [c_nl].
Proof. eexists. split; [vm_compute; reflexivity|vm_compute; reflexivity]. Qed.
Example C79_case_print : plain_tree (ST SG_EXPR None [ST TK_NAME None []; ST TK_PARENL None []; ST TK_NAME None []; ST TK_PARENR None []]).
Proof.
  assert (X : forall k, match tag_label [] k with Ok (c :: r) => negb (ceq c "<"%char) && negb (ceq c ">"%char) && forallb (fun d => negb (ceq d " "%char)) (c :: r) | _ => false end = true -> plain_label k).
  { intros k H. unfold plain_label. destruct (tag_label [] k) as [[|c r]| |]; try discriminate. exists c, r. apply andb_true_iff in H. destruct H as (H & H3). apply andb_true_iff in H. destruct H as (H1 & H2).
    apply negb_true_iff in H1, H2. split; [reflexivity|]. split; [intros ->; discriminate|]. split; [intros ->; discriminate|]. intros I. rewrite forallb_forall in H3. apply H3 in I. discriminate. }
  repeat constructor; apply X; vm_compute; reflexivity.
Qed.
Definition C79_all := (C79_kinds, C79_shows, C79_defined, C79_program, C79_print_partial, C79_print_refuted, C79_all_defined, C79_read_refuted, C79_printed, C79_unrecognized).
Print Assumptions C79_all.
