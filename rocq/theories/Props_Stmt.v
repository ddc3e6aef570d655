(** C24, C25, C27, C45, C53, C54, C55: the Fortran statement grammar. *)
From Verif Require Import Base Tags SyntaxTags Token TTStream TTStream_spec StmtRules Peg Peg_spec Peg_proofs PegCover_proofs PegSafe_proofs PegOk_proofs
  PegEnd_proofs StmtGrammar StmtParser Stmt_spec StmtTables_proofs StmtSafe_proofs StmtDispatch_proofs.
Local Open Scope nat_scope.

Definition T (t : Z) (w : string) : Token := new_token (L w) t 1 1.
Definition S_of (l : list Token) : stream := stream_of l 0 (length l).
Definition no_exts : bool -> list ext := fun _ => [].

(** ** C25 *)

(** Every parser function returns, whatever the tokens are. *)
Theorem C25_terminates : forall exts r s,
  (forall a, Forall ext_ok (exts a)) -> s_end s <= length (frags s) ->
  exists n0 x, x <> Fuel /\ forall n, n0 <= n -> parse_rule grammar exts n r s = x.
Proof.
  intros exts r s He Hs. destruct (rule_terminates exts r s He Hs) as (n0 & H).
  exists n0, (parse_rule grammar exts n0 r s). split; [apply H; lia|]. intros n Hn. apply parse_rule_mono; [exact Hn|apply H; lia].
Qed.
Print Assumptions C25_terminates.
(** The reasons: the rules that a rule may call before it has consumed a token
    have a smaller rank, and what is repeated consumes. *)
Theorem C25_no_left_recursion : exists (N : rule -> bool) (rank : rule -> nat),
  (forall r, N r = true -> eats_body N (grammar r) = true) /\
  forall r p, body_exp (grammar r) = Some p -> left N rank (rank r) p = true /\ stars N p = true.
Proof. exists g_eats, g_rank. split; [exact g_eats_ok|]. intros r p H. split; [apply g_left; exact H|eapply g_stars; eauto]. Qed.
Print Assumptions C25_no_left_recursion.
Example C25_ex : forall r, exists n0 x, x <> Fuel /\ forall n, n0 <= n ->
  parse_rule grammar no_exts n r (S_of [T KW_READ "read"; T TK_PARENL "("; T TK_PARENL "("; T TK_SEMICOLON ";"]) = x.
Proof. intro r. apply C25_terminates; [intro; constructor|cbn; lia]. Qed.

(** ** C53 *)

(** A parser function that does not come to procedure_designator has no
    undefined behaviour, stays on the statement and returns a tree of just the
    tokens it consumed, on every statement that closes what it opens. *)
Theorem C53_defined_partial : forall exts r s,
  exts_ok exts -> avoids_designator r -> sound s ->
  exists o s' n0, (forall n, n0 <= n -> parse_rule grammar exts n r s = Done (o, s')) /\
    same s s' /\ pos s' <= s_end s /\ forall t, o = Some t -> covers s t (pos s) (pos s').
Proof.
  intros exts r s He Hr Hs. assert (H1 : forall a, Forall ext_ok (exts a)) by (intro a; apply He).
  destruct (C25_terminates exts r s H1) as (n0 & x & HX & H); [apply Hs|].
  pose proof (avoids_ok exts n0 r s He Hr Hs) as OK. pose proof (H n0 ltac:(lia)) as E. rewrite E in OK.
  destruct x as [(o & s')| |]; [|contradiction|congruence]. exists o, s', n0. destruct OK as (O1 & O2 & O3).
  repeat split; auto; try apply O1. intros t ->. apply O3.
Qed.
Print Assumptions C53_defined_partial.
(** So does every parser function on statements that do not end in ")". *)
Theorem C53_no_final_paren_partial : forall exts r s,
  exts_ok exts -> sound s -> s_beg s <= pos s -> ~ ends_in_paren s ->
  exists o s' n0, (forall n, n0 <= n -> parse_rule grammar exts n r s = Done (o, s')) /\
    same s s' /\ pos s' <= s_end s /\ forall t, o = Some t -> covers s t (pos s) (pos s').
Proof.
  intros exts r s He Hs Hb Hp. assert (H1 : forall a, Forall ext_ok (exts a)) by (intro a; apply He).
  assert (H2 : forall a, Forall ext_safe (exts a)) by (intro a; apply He).
  destruct (C25_terminates exts r s H1) as (n0 & x & HX & H); [apply Hs|].
  pose proof (rule_ok exts H1 H2 n0 r s Hs (conj Hb Hp)) as OK. pose proof (H n0 ltac:(lia)) as E. rewrite E in OK.
  destruct x as [(o & s')| |]; [|contradiction|congruence]. exists o, s', n0. destruct OK as (O1 & O2 & O3).
  repeat split; auto; try apply O1. intros t ->. apply O3.
Qed.
Print Assumptions C53_no_final_paren_partial.
(** Which statements are meant by the first theorem. *)
Theorem C53_which : forall tag r, dispatch_rule tag = Some r -> ~ In tag designator_stmts -> avoids_designator r.
Proof.
  intros tag r H N. apply plain_avoids. apply dispatch_in in H.
  assert (G : forallb (fun p => existsb (Z.eqb (fst p)) designator_stmts || g_plainset (snd p)) dispatch_table = true) by (vm_compute; reflexivity).
  rewrite forallb_forall in G. apply G in H. cbn [fst snd] in H. apply orb_true_iff in H. destruct H as [H|H]; [|exact H].
  apply existsb_exists in H. destruct H as (x & H1 & H2). apply Z.eqb_eq in H2. subst x. contradiction.
Qed.
Print Assumptions C53_which.
(** Not so for the others: a list-directed read from unit 5 without an item
    list and a read with an implied do are Fortran, and undefined behaviour. *)
Definition read5 : list Token :=
  [T KW_READ "read"; T TK_PARENL "("; T SG_INT_LITERAL_CONSTANT "5"; T TK_COMMA ","; T TK_ASTERISK "*"; T TK_PARENR ")"].
Definition readdo : list Token :=
  [T KW_READ "read"; T TK_ASTERISK "*"; T TK_COMMA ","; T TK_PARENL "("; T TK_NAME "a"; T TK_PARENL "("; T TK_NAME "i"; T TK_PARENR ")";
   T TK_COMMA ","; T TK_NAME "i"; T TK_EQUAL "="; T SG_INT_LITERAL_CONSTANT "1"; T TK_COMMA ","; T SG_INT_LITERAL_CONSTANT "3"; T TK_PARENR ")"].
Ltac nest := repeat first [apply nest_nil | apply nest_tok; [reflexivity|reflexivity|]].
Lemma read5_proper : proper_stmt (S_of read5).
Proof.
  split; [cbn; lia|]. split; [split; cbn; lia|]. split.
  - repeat constructor; try (intro H; vm_compute in H; discriminate H); eexists; vm_compute; reflexivity.
  - change (stmt_toks (S_of read5)) with read5. unfold read5. apply nest_tok; [reflexivity..|].
    apply (nest_paren (T TK_PARENL "(") [T SG_INT_LITERAL_CONSTANT "5"; T TK_COMMA ","; T TK_ASTERISK "*"] (T TK_PARENR ")") []); try reflexivity; nest.
Qed.
Theorem C53_read_refuted : exists s, proper_stmt s /\ pos s = s_beg s /\
  forall n, 60 <= n -> parse_stmt_dispatch no_exts n SG_READ_STMT s = Bad.
Proof.
  exists (S_of read5). split; [exact read5_proper|]. split; [reflexivity|]. intros n Hn.
  unfold parse_stmt_dispatch. change (dispatch_rule SG_READ_STMT) with (Some r_read_stmt). cbn iota.
  rewrite (parse_rule_mono grammar no_exts 60 n r_read_stmt (S_of read5) Hn).
  - vm_compute. reflexivity.
  - intro H. vm_compute in H. discriminate H.
Qed.
Print Assumptions C53_read_refuted.
Example C53_readdo_refuted : parse_stmt_dispatch no_exts 80 SG_READ_STMT (S_of readdo) = Bad.
Proof. vm_compute. reflexivity. Qed.
Definition nullp : list Token := [T KW_NULLIFY "nullify"; T TK_PARENL "("; T TK_NAME "p"; T TK_PARENR ")"].
Example C53_nullify_defined : exists t, parse_stmt_dispatch no_exts 80 SG_NULLIFY_STMT (S_of nullp) = Done (Some t, set_pos (S_of nullp) 4).
Proof. vm_compute. eexists. reflexivity. Qed.

(** ** C24 *)

(** On a statement with properly nested parentheses, from any place in it, a
    parser function that returns a tree has consumed just its leaves. *)
Theorem C24_grammar : forall exts n r s t s',
  exts_ok exts -> proper_stmt s -> parse_rule grammar exts n r s = Done (Some t, s') ->
  same s s' /\ pos s' <= s_end s /\ covers s t (pos s) (pos s') /\ leaf_positions t = seq (pos s) (pos s' - pos s).
Proof.
  intros exts n r s t s' He Hs H. apply proper_in in Hs. destruct Hs as (Hs & Hi).
  assert (H1 : forall a, Forall ext_ok (exts a)) by (intro a; apply He). assert (H2 : forall a, Forall ext_safe (exts a)) by (intro a; apply He).
  pose proof (nest_rule_ok exts H1 H2 n r s Hs Hi) as OK. rewrite H in OK. destruct OK as (O1 & O2 & O3 & _).
  repeat split; auto; try apply O1. apply (covers_leaves s). exact O3.
Qed.
Print Assumptions C24_grammar.
Lemma nullp_proper : proper_stmt (S_of nullp).
Proof.
  split; [cbn; lia|]. split; [split; cbn; lia|]. split.
  - repeat constructor; try (intro H; vm_compute in H; discriminate H); eexists; vm_compute; reflexivity.
  - change (stmt_toks (S_of nullp)) with nullp. unfold nullp. apply nest_tok; [reflexivity..|].
    apply (nest_paren (T TK_PARENL "(") [T TK_NAME "p"] (T TK_PARENR ")") []); try reflexivity; nest.
Qed.
Example C24_ex : proper_stmt (S_of nullp) /\ exists t s',
  parse_stmt_dispatch no_exts 80 SG_NULLIFY_STMT (S_of nullp) = Done (Some t, s') /\ leaf_positions t = [0; 1; 2; 3].
Proof. split; [exact nullp_proper|]. do 2 eexists. split; vm_compute; reflexivity. Qed.

(** ** C27 *)

(** A statement parser that returns a tree is at the end of the statement. *)
Theorem C27_whole_partial : forall exts n tag s t s',
  exts_ok exts -> exts_end exts -> proper_stmt s -> ~ In tag partial_stmts ->
  parse_stmt_dispatch exts n tag s = Done (Some t, s') -> pos s' = s_end s.
Proof.
  intros exts n tag s t s' He Hee Hs Ht H. unfold parse_stmt_dispatch in H. destruct (dispatch_rule tag) as [r|] eqn:ED; [|discriminate].
  assert (GE : g_ends r = true).
  { apply dispatch_in in ED.
    assert (G : forallb (fun p => existsb (Z.eqb (fst p)) partial_stmts || g_ends (snd p)) dispatch_table = true) by (vm_compute; reflexivity).
    rewrite forallb_forall in G. apply G in ED. cbn [fst snd] in ED. apply orb_true_iff in ED. destruct ED as [ED|ED]; [|exact ED].
    apply existsb_exists in ED. destruct ED as (x & H1 & H2). apply Z.eqb_eq in H2. subst x. contradiction. }
  assert (HES : forall a, Forall ext_same (exts a)).
  { intro a. destruct (He a) as (X & _). eapply Forall_impl; [|exact X]. intros e (Y & _). exact Y. }
  pose proof (parse_rule_ends grammar exts g_ends g_clean HES Hee g_ends_ok n r s t s' GE H) as HB.
  pose proof (C24_grammar _ _ _ _ _ _ He Hs H) as (HS & HP & HC & _). apply proper_in in Hs. destruct Hs as (Hs & _).
  apply covers_rng in HC. destruct HS as (F1 & F2 & F3). rewrite <- F3. apply peek_bad; [|exact HB].
  apply (sound_move s); auto; [repeat split; auto|lia].
Qed.
Print Assumptions C27_whole_partial.
(** The end of the statement is what the parser sees, on every stream. *)
Theorem C27_sees_end : forall exts n tag s t s',
  exts_same exts -> exts_end exts -> ~ In tag partial_stmts ->
  parse_stmt_dispatch exts n tag s = Done (Some t, s') -> peek s' = Ok BAD.
Proof.
  intros exts n tag s t s' He Hee Ht H. unfold parse_stmt_dispatch in H. destruct (dispatch_rule tag) as [r|] eqn:ED; [|discriminate].
  assert (GE : g_ends r = true).
  { apply dispatch_in in ED.
    assert (G : forallb (fun p => existsb (Z.eqb (fst p)) partial_stmts || g_ends (snd p)) dispatch_table = true) by (vm_compute; reflexivity).
    rewrite forallb_forall in G. apply G in ED. cbn [fst snd] in ED. apply orb_true_iff in ED. destruct ED as [ED|ED]; [|exact ED].
    apply existsb_exists in ED. destruct ED as (x & H1 & H2). apply Z.eqb_eq in H2. subst x. contradiction. }
  exact (parse_rule_ends grammar exts g_ends g_clean He Hee g_ends_ok n r s t s' GE H).
Qed.
Print Assumptions C27_sees_end.
(** import_stmt and interface_stmt have eol() as an alternative of its own. *)
Definition importx : list Token := [T KW_IMPORT "import"; T TK_COMMA ","; T KW_ALL "all"; T TK_NAME "xyz"].
Theorem C27_import_refuted : exists t s', parse_stmt_dispatch no_exts 60 SG_IMPORT_STMT (S_of importx) = Done (Some t, s') /\ pos s' <> s_end s'.
Proof. do 2 eexists. split; [vm_compute; reflexivity|]. cbn. lia. Qed.
Print Assumptions C27_import_refuted.
Definition interfacex : list Token := [T KW_ABSTRACT "abstract"; T KW_INTERFACE "interface"; T TK_NAME "xyz"].
Theorem C27_interface_refuted : exists t s', parse_stmt_dispatch no_exts 60 SG_INTERFACE_STMT (S_of interfacex) = Done (Some t, s') /\ pos s' <> s_end s'.
Proof. do 2 eexists. split; [vm_compute; reflexivity|]. cbn. lia. Qed.
Print Assumptions C27_interface_refuted.
(** Without nested parentheses the parser may leave the statement: x = (a ; b)
    read as an assignment of the statement "x = (a". *)
Definition runaway : list Token :=
  [T TK_NAME "x"; T TK_EQUAL "="; T TK_PARENL "("; T TK_NAME "a"; T TK_SEMICOLON ";"; T TK_NAME "b"; T TK_PARENR ")"].
Theorem C27_unnested_refuted : exists t s', parse_stmt_dispatch no_exts 60 SG_ASSIGNMENT_STMT (stream_of runaway 0 4) = Done (Some t, s') /\
  s_end s' = 4 /\ pos s' = 7.
Proof. do 2 eexists. split; [vm_compute; reflexivity|]. split; reflexivity. Qed.
Print Assumptions C27_unnested_refuted.
Example C27_ex : exists t s', parse_stmt_dispatch no_exts 60 SG_CYCLE_STMT (S_of [T KW_CYCLE "cycle"; T TK_NAME "a"]) = Done (Some t, s') /\ pos s' = 2.
Proof. do 2 eexists. split; [vm_compute; reflexivity|reflexivity]. Qed.

(** ** C45 *)

(** expr takes the tokens up to the end of the expression, unless it begins
    with * or /, is empty or is followed by "=". *)
Theorem C45_expr : forall exts n s o s' k,
  exts_ok exts -> sound s -> expr_length (rest s) k ->
  parse_rule grammar exts n r_expr s = Done (o, s') ->
  let starts t := exists a, nth_error (rest s) 0 = Some a /\ tok a = t in
  let equals := exists b, nth_error (rest s) k = Some b /\ tok b = TK_EQUAL in
  let refused := starts TK_ASTERISK \/ starts TK_SLASHF \/ k = 0 \/ equals in
  (refused -> o = None /\ s' = s) /\
  (~ refused -> exists t, o = Some t /\ t_tag t = SG_EXPR /\ same s s' /\ pos s' = pos s + k /\ covers s t (pos s) (pos s + k)).
Proof.
  intros exts n s o s' k He Hs Hk H starts equals refused. pose proof (expr_exact exts n s o s' He Hs H k Hk) as X.
  destruct (nth_error (rest s) 0) as [a|] eqn:E0.
  - set (eq := match nth_error (rest s) k with Some b => (tok b =? TK_EQUAL)%Z | None => false end) in X.
    assert (HE : eq = true <-> equals).
    { unfold eq, equals. destruct (nth_error (rest s) k) as [b|]; [|split; [discriminate|intros (b & Y & _); discriminate]].
      rewrite Z.eqb_eq. split; [eauto|]. intros (b' & [= <-] & Y). exact Y. }
    assert (HS : forall t, (tok a =? t)%Z = true <-> starts t).
    { intro t. unfold starts. rewrite Z.eqb_eq. split; [eauto|]. intros (b & [= <-] & Y). exact Y. }
    assert (HR : (tok a =? TK_ASTERISK)%Z || (tok a =? TK_SLASHF)%Z || (k =? 0) || eq = true <-> refused).
    { unfold refused. rewrite !orb_true_iff, !HS, HE, Nat.eqb_eq. tauto. }
    destruct ((tok a =? TK_ASTERISK)%Z || (tok a =? TK_SLASHF)%Z || (k =? 0) || eq).
    + split; [auto|]. intro N. exfalso. apply N, HR. reflexivity.
    + split; [intro R; apply HR in R; discriminate|]. intros _. destruct X as (t & -> & HT & HSm & HP & HC & _). exists t.
      rewrite HP in HC. auto.
  - split; [auto|]. intro N. exfalso. apply N. right. right. left. destruct Hk as (Hk & _). apply nth_error_None in E0. lia.
Qed.
Print Assumptions C45_expr.
(** Every list of tokens has exactly one such length. *)
Theorem C45_length_exists : forall s, sound s -> exists k, expr_length (rest s) k.
Proof.
  intros s (_ & _ & HT). exists (xlen 1 (rest s)). apply xlen_length. eapply Forall_impl; [|exact HT]. intros t (X & _). exact X.
Qed.
Print Assumptions C45_length_exists.
Theorem C45_length_unique : forall l j k, expr_length l j -> expr_length l k -> j = k.
Proof. exact expr_length_unique. Qed.
Print Assumptions C45_length_unique.
(** a(b, c) + d, e *)
Definition abc : list Token := [T TK_NAME "a"; T TK_PARENL "("; T TK_NAME "b"; T TK_COMMA ","; T TK_NAME "c"; T TK_PARENR ")"; T TK_PLUS "+"; T TK_NAME "d";
  T TK_COMMA ","; T TK_NAME "e"].
Example C45_ex : exists t, parse_rule grammar no_exts 40 r_expr (S_of abc) = Done (Some t, set_pos (S_of abc) 8) /\ leaf_positions t = seq 0 8.
Proof. eexists. split; vm_compute; reflexivity. Qed.
Example C45_ex_equal : parse_rule grammar no_exts 40 r_expr (S_of [T TK_NAME "a"; T TK_EQUAL "="; T TK_NAME "b"]) =
  Done (None, S_of [T TK_NAME "a"; T TK_EQUAL "="; T TK_NAME "b"]).
Proof. vm_compute. reflexivity. Qed.

(** ** C54 *)

(** The tree that parse_stmt_dispatch returns bears the tag asked for. *)
Theorem C54_tag_partial : forall exts n tag s t s', tag <> SG_SYNC_IMAGES_STMT ->
  parse_stmt_dispatch exts n tag s = Done (Some t, s') -> t_tag t = tag.
Proof.
  intros exts n tag s t s' Ht H. unfold parse_stmt_dispatch in H. destruct (dispatch_rule tag) as [r|] eqn:ED; [|discriminate].
  eapply root_rule; [|exact H]. apply dispatch_roots; auto.
Qed.
Print Assumptions C54_tag_partial.
Definition syncim : list Token := [T KW_SYNC "sync"; T KW_IMAGES "images"; T TK_PARENL "("; T TK_ASTERISK "*"; T TK_PARENR ")"].
Theorem C54_sync_images_refuted : exists t s', parse_stmt_dispatch no_exts 60 SG_SYNC_IMAGES_STMT (S_of syncim) = Done (Some t, s') /\
  t_tag t = SG_SYNC_ALL_STMT.
Proof. do 2 eexists. split; vm_compute; reflexivity. Qed.
Print Assumptions C54_sync_images_refuted.
(** No two entries for one tag, and a tag without an entry is no statement. *)
Theorem C54_table : NoDup (map fst dispatch_table) /\
  forall exts n tag s, ~ In tag (map fst dispatch_table) -> parse_stmt_dispatch exts n tag s = Done (None, s).
Proof.
  split.
  - assert (X : forall l : list Z, (fix go l := match l with [] => true | x :: r => negb (existsb (Z.eqb x) r) && go r end) l = true -> NoDup l).
    { induction l as [|x l IH]; intro H; [constructor|]. apply andb_true_iff in H. destruct H as (H1 & H2). constructor; [|auto].
      intro HI. apply negb_true_iff in H1. assert (existsb (Z.eqb x) l = true); [|congruence]. apply existsb_exists. exists x. split; [exact HI|apply Z.eqb_refl]. }
    apply X. vm_compute. reflexivity.
  - intros exts n tag s H. unfold parse_stmt_dispatch. destruct (dispatch_rule tag) as [r|] eqn:E; [|reflexivity].
    exfalso. apply H. apply dispatch_in in E. apply (in_map fst) in E. exact E.
Qed.
Print Assumptions C54_table.
Example C54_ex : exists t s', parse_stmt_dispatch no_exts 80 SG_NULLIFY_STMT (S_of nullp) = Done (Some t, s') /\ t_tag t = SG_NULLIFY_STMT.
Proof. do 2 eexists. split; vm_compute; reflexivity. Qed.

(** ** C55 *)

(** is_action_stmt holds of just the statements that action_stmt tries. *)
Theorem C55_in_sync : forall tag, is_action_stmt tag = true <->
  exists r, dispatch_rule tag = Some r /\ In (PRule r) action_alternatives.
Proof.
  intro tag. split.
  - intro H. unfold is_action_stmt in H. apply existsb_exists in H. destruct H as (x & HI & HE). apply Z.eqb_eq in HE. subst x.
    assert (G : forallb (fun tag => match dispatch_rule tag with
                 | Some r => existsb (fun p => match p with PRule q => rule_idx q =? rule_idx r | _ => false end) action_alternatives
                 | None => false end) action_tags = true) by (vm_compute; reflexivity).
    rewrite forallb_forall in G. apply G in HI. destruct (dispatch_rule tag) as [r|]; [|discriminate]. exists r. split; [reflexivity|].
    apply existsb_exists in HI. destruct HI as (p & HI & HE). destruct p; try discriminate HE.
    assert (X : r0 = r); [|congruence]. apply Nat.eqb_eq in HE. clear -HE.
    assert (Y : forall q, nth (rule_idx q) all_rules r_expr = q) by (intro q; destruct q; reflexivity).
    rewrite <- (Y r0), <- (Y r), HE. reflexivity.
  - intros (r & H & HI). apply dispatch_in in H.
    assert (G : forallb (fun p => is_action_stmt (fst p) || negb (existsb (fun q => match q with PRule q => rule_idx q =? rule_idx (snd p) | _ => false end) action_alternatives))
      dispatch_table = true) by (vm_compute; reflexivity).
    rewrite forallb_forall in G. apply G in H. cbn [fst snd] in H. apply orb_true_iff in H. destruct H as [H|H]; [exact H|].
    apply negb_true_iff in H. assert (X : existsb (fun q => match q with PRule q => rule_idx q =? rule_idx r | _ => false end) action_alternatives = true); [|congruence].
    apply existsb_exists. exists (PRule r). split; [exact HI|apply Nat.eqb_refl].
Qed.
Print Assumptions C55_in_sync.
(** What a built-in action_stmt returns is a node over one action statement. *)
Theorem C55_tree : forall n s t s',
  parse_rule grammar no_exts n r_action_stmt s = Done (Some t, s') ->
  exists k, t_tag t = SG_ACTION_STMT /\ t_kids t = [k] /\ is_action_stmt (t_tag k) = true.
Proof.
  intros n s t s' H. unfold parse_rule, call_rule in H. change (grammar r_action_stmt) with (RExt true SG_ACTION_STMT (PAlts SG_ACTION_STMT action_alternatives)) in H.
  cbn iota in H. step3 H m t1 s1. destruct m; [|discriminate]. injection H as -> ->.
  destruct n as [|n]; [discriminate|]. cbn [run] in E. step3 E m t1 s1. destruct m; [|discriminate].
  destruct (covered _) as [x| |] eqn:EC; cbn [obind] in E; try discriminate. injection E as -> ->.
  assert (G : exists k, t1 = Some k /\ is_action_stmt (t_tag k) = true).
  { clear EC t. assert (HA : forall p, In p action_alternatives -> exists r g, p = PRule r /\ root_body (grammar r) = Some g /\ is_action_stmt g = true).
    { assert (G : forallb (fun p => match p with PRule r => match root_body (grammar r) with Some g => is_action_stmt g | None => false end | _ => false end) action_alternatives = true)
        by (vm_compute; reflexivity).
      intros p HI. rewrite forallb_forall in G. apply G in HI. destruct p; try discriminate HI. destruct (root_body (grammar r)) as [g|] eqn:EG; [|discriminate]. eauto. }
    revert s E0. induction action_alternatives as [|p ps IH]; intros s E0; cbn [alts_loop] in E0; [discriminate|].
    step3 E0 m t s2. destruct m; [|eapply IH; [|exact E0]; intros; apply HA; right; auto]. injection E0 as -> ->.
    destruct (HA p (or_introl eq_refl)) as (r & g & -> & HG & HT). destruct n as [|n]; [discriminate|]. cbn [run] in E.
    step2 E o s3. destruct o as [k|]; [|discriminate]. injection E as <- <-. exists k. split; [reflexivity|].
    assert (HK : t_tag k = g); [|congruence].
    unfold call_rule in E0. destruct (grammar r) eqn:EG; cbn [root_body] in HG; try discriminate HG.
    - step3 E0 m t s4. injection E0 as -> ->. eapply root_run; eauto.
    - destruct (root_exp p) as [h|] eqn:EP; [|discriminate]. destruct (Z.eqb_spec tag h); [|discriminate]. injection HG as ->. subst h.
      step3 E0 m t s4. destruct m; [injection E0 as -> ->; eapply root_run; eauto|]. step3 E0 m t2 s5. injection E0 as -> ->. eapply ext_root; eauto. }
  destruct G as (k & -> & HK). exists k. pose proof (covered_tag _ _ _ _ EC) as HT. pose proof (covered_kids _ _ _ _ EC) as HC.
  split; [exact HT|]. split; [|exact HK]. rewrite HC. destruct k as [g r kids]. cbn [hoist app]. cbn [t_tag] in HK.
  destruct (Z.eqb_spec g HOIST) as [->|]; [vm_compute in HK; discriminate HK|reflexivity].
Qed.
Print Assumptions C55_tree.
Example C55_ex : exists t s', parse_rule grammar no_exts 80 r_action_stmt (S_of nullp) = Done (Some t, s') /\ t_tag t = SG_ACTION_STMT.
Proof. do 2 eexists. split; vm_compute; reflexivity. Qed.
