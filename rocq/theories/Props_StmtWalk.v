(** C67: the kind and the tree of a statement. *)
From Coq Require Import Lia.
From Verif Require Import Base Base_lemmas Tags SyntaxTags Token TTStream TTStream_spec StmtRules Peg Peg_spec Peg_proofs PegCover_proofs Stmt_spec StmtGrammar StmtParser
  StmtTables_proofs StmtRoots_proofs StmtTree_spec StmtTree_proofs LogicalLine LexPos_spec LineEdit LineEdit_spec StmtWalk StmtWalk_spec StmtWalk_proofs StmtRun_proofs.
From Verif Require Import Props_Stmt Props_LineEdit.
Local Open Scope nat_scope.

(** ** C67: the kind and the tree of a statement *)

(** Asked to look behind the condition of an IF statement, stmt_tag gives minus the
    kind of the statement after the parenthesis that closes the condition. *)
Theorem C67_if : forall exts n s t s', exts_ok exts -> foreign exts SG_IF_STMT -> proper_stmt s ->
  parse_stmt_dispatch exts n SG_ACTION_STMT s = Done (Some t, s') -> extract_tag (Some t) = Ok SG_IF_STMT ->
  let x := mkSt s (Some t) SG_IF_STMT in
  exists k n' y g, kind (frags s) (pos s) KW_IF /\ matched TK_PARENL TK_PARENR (rest (set_pos s (S (pos s)))) k /\
    parse_stmt_dispatch exts n' SG_ACTION_STMT (set_pos s (pos s + 1 + k)) = Done (Some y, s') /\ pos s' = s_end s /\
    extract_tag (Some y) = Ok g /\ forall m, stmt_tag exts m x true = Done (x, (- g)%Z) /\ stmt_tag exts m x false = Done (x, SG_IF_STMT).
Proof.
  intros exts n s t s' He Hf Hs H X. pose proof (exts_same_of _ He) as HX. change (parse_rule grammar exts n r_action_stmt s = Done (Some t, s')) in H.
  assert (exists k ks, t_kids t = k :: ks /\ t_tag k = SG_IF_STMT) as (k & ks & K & TK).
  { pose proof (any_root_ok grammar exts n r_action_stmt SG_ACTION_STMT _ _ _ eq_refl H) as TG. unfold extract_tag in X. rewrite TG, Z.eqb_refl in X. unfold w_down, w_root in X. cbn [fst] in X.
    destruct (t_kids t) as [|k ks]; [discriminate|]. cbn [bind] in X. unfold w_tag in X. cbn [fst] in X. injection X as X. eauto. }
  destruct (action_kind _ _ _ _ _ _ _ r_if_stmt HX H K) as (TG & -> & n1 & P); [rewrite TK; exact Hf|rewrite TK; vm_compute; reflexivity|].
  destruct (if_run _ _ _ _ _ He Hs P) as (k0 & n2 & y & e & TI & KI & T1 & M & PA & EP). exists k0, n2, y.
  pose proof (any_root_ok grammar exts n2 r_action_stmt SG_ACTION_STMT _ _ _ eq_refl PA) as TY.
  assert (exists z zs, t_kids y = z :: zs) as (z & zs & KY).
  { destruct (t_kids y) as [|z zs] eqn:KY; [exfalso|eauto]. pose proof (grammar_gives _ _ _ _ _ _ HX PA) as GV. rewrite root_kids in GV by (rewrite TY; vm_compute; discriminate).
    apply shape_action in GV. destruct GV as (r & l & -> & [(r0 & w & _ & _ & ->)|(w & (ex & sa & sb & I & E) & ->)]); cbn [t_kids] in KY; [discriminate|].
    destruct (Hf _ _ _ _ I E) as (_ & NH). rewrite root_kids in KY by exact NH. discriminate. }
  exists (t_tag z). split; [exact T1|]. split; [exact M|]. split; [exact PA|]. split; [exact EP|].
  assert (XY : extract_tag (Some y) = Ok (t_tag z)) by (unfold extract_tag; rewrite TY, Z.eqb_refl; unfold w_down, w_root; cbn [fst]; rewrite KY; reflexivity).
  split; [exact XY|]. intros m. split; [|reflexivity].
  unfold stmt_tag. cbn [st_tag]. rewrite Z.eqb_refl. cbn [andb]. unfold stmt_tree. cbn [st_tree obind assert_ lift].
  assert (I : into_if t = Ok (y, [])).
  { unfold into_if, w_is, w_tag, w_down, w_root. cbn [fst]. rewrite TG, Z.eqb_refl. cbn [assert_ bind]. rewrite K. cbn [bind fst]. rewrite TI, Z.eqb_refl. cbn [assert_ bind]. rewrite KI. cbn [bind fst].
    change (t_tag (leaf_at KW_IF (pos s))) with KW_IF. rewrite Z.eqb_refl. cbn [assert_ bind w_next snd]. cbn [fst]. rewrite TY, Z.eqb_refl. reflexivity. }
  rewrite I. cbn [lift obind]. unfold w_down. cbn [fst]. rewrite KY. reflexivity.
Qed.

(** The tree is thrown away to save space; asked again, the statement has the same
    tree and kind as before.  Every entry of parse_stmt_dispatch, except those for
    the kinds of action statements themselves, which are built through the entry
    for action statements. *)
Theorem C67_again : forall exts n tag s t s', exts_same exts -> exts true = [] -> is_action_stmt tag = false ->
  parse_stmt_dispatch exts n tag s = Done (Some t, s') ->
  exists x, set_stmt_tree (mkSt s None UNKNOWN) (Some t) = Ok x /\ st_src x = s /\ st_tree x = Some t /\
    (st_tag x = tag \/ tag = SG_ACTION_STMT /\ is_action_stmt (st_tag x) = true) /\
    stmt_tree exts n (drop_stmt_tree x) = Done (x, t).
Proof.
  intros exts n tag s t s' HX HE HA H.
  assert (TU : tag <> SG_SYNC_IMAGES_STMT) by (intros ->; vm_compute in HA; discriminate).
  pose proof (C54_tag_partial _ _ _ _ _ _ TU H) as TG.
  destruct (Z.eq_dec tag SG_ACTION_STMT) as [->|NA].
  - assert (exists k, t_kids t = [k] /\ is_action_stmt (t_tag k) = true) as (k & K & KA).
    { change (parse_rule grammar exts n r_action_stmt s = Done (Some t, s')) in H. pose proof (grammar_gives _ _ _ _ _ _ HX H) as GV. rewrite root_kids in GV by (rewrite TG; vm_compute; discriminate).
      apply shape_action in GV. destruct GV as (r & l & -> & [(r0 & w & I & G & ->)|(w & (ex & sa & sb & I & E) & ->)]); [|rewrite HE in I; contradiction].
      apply shape_alt in G; [|exact I]. destruct G as (x & [= <-] & A). exists w. split; [reflexivity|exact A]. }
    assert (X : extract_tag (Some t) = Ok (t_tag k)) by (unfold extract_tag; rewrite TG, Z.eqb_refl; unfold w_down, w_root; cbn [fst]; rewrite K; reflexivity).
    exists (mkSt s (Some t) (t_tag k)). unfold set_stmt_tree. rewrite X. cbn [bind st_src st_tree st_tag drop_stmt_tree]. repeat (split; [auto|]).
    unfold stmt_tree, rebuild_tree. cbn [st_tree drop_stmt_tree st_tag st_src]. destruct (t_tag k =? UNKNOWN)%Z eqn:EU; [apply Z.eqb_eq in EU; rewrite EU in KA; vm_compute in KA; discriminate|].
    rewrite KA, H. cbn [obind]. unfold set_stmt_tree. rewrite X. reflexivity.
  - assert (X : extract_tag (Some t) = Ok tag) by (unfold extract_tag; rewrite TG; apply Z.eqb_neq in NA; rewrite NA; reflexivity).
    exists (mkSt s (Some t) tag). unfold set_stmt_tree. rewrite X. cbn [bind st_src st_tree st_tag drop_stmt_tree]. repeat (split; [auto|]).
    unfold stmt_tree, rebuild_tree. cbn [st_tree drop_stmt_tree st_tag st_src]. destruct (tag =? UNKNOWN)%Z eqn:EU; [apply Z.eqb_eq in EU; rewrite EU in H; unfold parse_stmt_dispatch in H; replace (dispatch_rule UNKNOWN) with (@None rule) in H by (vm_compute; reflexivity);
  discriminate|].
    rewrite HA, H. cbn [obind]. unfold set_stmt_tree. rewrite X. reflexivity.
Qed.
(** A statement that is given another kind gets its tree from its tokens, by the
    parser for that kind. *)
Theorem C67_retag : forall exts n x g x' t, g <> st_tag x -> stmt_tree exts n (set_stmt_syntag x g) = Done (x', t) ->
  st_src x' = st_src x /\ st_tree x' = Some t /\ exists s', parse_stmt_dispatch exts n (if is_action_stmt g then SG_ACTION_STMT else g) (st_src x) = Done (Some t, s').
Proof.
  intros exts n x g x' t N H. unfold set_stmt_syntag in H. apply Z.eqb_neq in N. rewrite N in H. unfold stmt_tree, rebuild_tree in H. cbn [st_tree st_tag st_src] in H.
  destruct (g =? UNKNOWN)%Z; [discriminate|]. destruct (parse_stmt_dispatch _ _ _ _) as [(o & s')| |]; cbn [obind] in H; [|discriminate|discriminate].
  unfold set_stmt_tree in H. destruct (extract_tag o); cbn [bind lift obind] in H; [|discriminate|discriminate]. destruct o as [t0|]; [|discriminate].
  cbn [lift assert_ obind st_tree] in H. injection H as <- <-. cbn [st_src st_tree]. eauto.
Qed.
(** The parsers for the constructs call the parsers for some action statements
    directly: then the tree comes back with a different root. *)
Definition assign : list Token := [T TK_NAME "a"; T TK_EQUAL "="; T TK_NAME "b"].
Example C67_retag_ex : let x := mkSt (S_of assign) (Some (ST SG_CALL_STMT None [])) SG_CALL_STMT in
  SG_ASSIGNMENT_STMT <> st_tag x /\ exists x' t, stmt_tree no_exts 60 (set_stmt_syntag x SG_ASSIGNMENT_STMT) = Done (x', t).
Proof. cbn zeta. split; [discriminate|]. eexists _, _. vm_compute. reflexivity. Qed.
Theorem C67_assignment_refuted : exists t s' x t' x',
  parse_stmt_dispatch no_exts 60 SG_ASSIGNMENT_STMT (S_of assign) = Done (Some t, s') /\ set_stmt_tree (mkSt (S_of assign) None UNKNOWN) (Some t) = Ok x /\
  stmt_tree no_exts 60 (drop_stmt_tree x) = Done (x', t') /\ t_tag t = SG_ASSIGNMENT_STMT /\ t_tag t' = SG_ACTION_STMT.
Proof. do 5 eexists. do 4 (split; [vm_compute; reflexivity|]). vm_compute; reflexivity. Qed.
(** The end of a labelled DO loop has no entry at all: asked for its tree again, the
    program stops at an assertion. *)
Definition enddo : list Token := [T KW_END "end"; T KW_DO "do"].
Theorem C67_end_do_refuted : exists t s' x,
  parse_rule grammar no_exts 60 r_end_do (S_of enddo) = Done (Some t, s') /\ set_stmt_tree (mkSt (S_of enddo) None UNKNOWN) (Some t) = Ok x /\
  stmt_tree no_exts 60 (drop_stmt_tree x) = Bad.
Proof. do 3 eexists. cbv zeta. do 2 (split; [vm_compute; reflexivity|]). vm_compute; reflexivity. Qed.
(** An action statement of an extension cannot be found again either, if its kind is
    not one of the grammar's. *)
Definition my_ext : ext := fun s => t <~ lift (peek s) ;; if (t =? KW_INCLUDE)%Z then '(x, s') <~ leaf KW_INCLUDE s ;; Done (Some x, s') else Done (None, s).
Definition my_exts (a : bool) : list ext := if a then [my_ext] else [].
Theorem C67_extension_refuted : exists t s' x, let s := S_of [T KW_INCLUDE "include"] in
  parse_stmt_dispatch my_exts 60 SG_ACTION_STMT s = Done (Some t, s') /\ set_stmt_tree (mkSt s None UNKNOWN) (Some t) = Ok x /\
  st_tag x = KW_INCLUDE /\ stmt_tree my_exts 60 (drop_stmt_tree x) = Bad.
Proof. do 3 eexists. cbv zeta. do 2 (split; [vm_compute; reflexivity|]). split; [vm_compute; reflexivity|]. vm_compute; reflexivity. Qed.

(** IF (a(i) > 0) CALL b(c, (d)) *)
Definition ifcall : list Token := [T KW_IF "if"; T TK_PARENL "("; T TK_NAME "a"; T TK_PARENL "("; T TK_NAME "i"; T TK_PARENR ")"; T TK_REL_GT ">"; T SG_INT_LITERAL_CONSTANT "0"; T TK_PARENR ")";
  T KW_CALL "call"; T TK_NAME "B"; T TK_PARENL "("; T TK_NAME "c"; T TK_COMMA ","; T TK_PARENL "("; T TK_NAME "d"; T TK_PARENR ")"; T TK_PARENR ")"].
Lemma ifcall_proper : proper_stmt (S_of ifcall).
Proof.
  split; [cbn; lia|]. split; [split; cbn; lia|]. split.
  - repeat constructor; try (intro H; vm_compute in H; discriminate H); eexists; vm_compute; reflexivity.
  - change (stmt_toks (S_of ifcall)) with ifcall. unfold ifcall.
    apply nest_tok; [reflexivity..|]. apply (nest_paren _ [_; _; _; _; _; _]); [reflexivity..| |].
    + apply nest_tok; [reflexivity..|]. apply (nest_paren _ [_]); [reflexivity..| |]; repeat (apply nest_tok; [reflexivity..|]); constructor.
    + do 2 (apply nest_tok; [reflexivity..|]). apply (nest_paren _ [_; _; _; _; _]); [reflexivity..| |constructor].
      do 2 (apply nest_tok; [reflexivity..|]). apply (nest_paren _ [_]); [reflexivity..| |constructor]. apply nest_tok; [reflexivity..|]. constructor.
Qed.
Lemma no_exts_fine : exts_ok no_exts /\ exts_end no_exts /\ forall g, foreign no_exts g.
Proof. split; [intro a; split; constructor|]. split; [intro a; constructor|]. intros g e s t s' []. Qed.
Lemma is_if : exists t s', parse_stmt_dispatch no_exts 60 SG_ACTION_STMT (S_of ifcall) = Done (Some t, s') /\ extract_tag (Some t) = Ok SG_IF_STMT.
Proof. do 2 eexists. split; vm_compute; reflexivity. Qed.
Example C67_if_call : exists x, stmt_tag no_exts 60 x true = Done (x, (- SG_CALL_STMT)%Z) /\ st_src x = S_of ifcall /\ st_tag x = SG_IF_STMT /\
  exists n y s', parse_stmt_dispatch no_exts n SG_ACTION_STMT (set_pos (S_of ifcall) 9) = Done (Some y, s').
Proof.
  destruct is_if as (t & s' & P & X). pose proof no_exts_fine as (F1 & F2 & F3).
  destruct (C67_if _ _ _ _ _ F1 (F3 _) ifcall_proper P X) as (k & n' & y & g & _ & M & Y & _ & XY & W). cbn zeta in W. exists (mkSt (S_of ifcall) (Some t) SG_IF_STMT).
  assert (k = 8) as ->.
  { destruct M as ((M1 & M2) & M3 & M4). destruct (Nat.lt_trichotomy k 8) as [L|[L|L]]; [|exact L|].
    - exfalso. do 8 (destruct k as [|k]; [first [lia|vm_compute in M3; discriminate]|]). lia.
    - exfalso. specialize (M4 8 ltac:(lia)). vm_compute in M4. discriminate. }
  assert (g = SG_CALL_STMT) as <-.
  { assert (exists t0 s0, parse_stmt_dispatch no_exts 60 SG_ACTION_STMT (set_pos (S_of ifcall) 9) = Done (Some t0, s0) /\ extract_tag (Some t0) = Ok SG_CALL_STMT) as (t0 & s0 & P0 & X0) by (do 2 eexists; split; vm_compute; reflexivity).
    assert (Some y = Some t0) as E; [|injection E as ->; rewrite XY in X0; injection X0 as ->; reflexivity].
    change (parse_rule grammar no_exts 60 r_action_stmt (set_pos (S_of ifcall) 9) = Done (Some t0, s0)) in P0. change (parse_rule grammar no_exts n' r_action_stmt (set_pos (S_of ifcall) 9) = Done (Some y, s')) in Y.
    destruct (Nat.le_ge_cases n' 60) as [L|L].
    - pose proof (parse_rule_mono grammar no_exts n' 60 r_action_stmt (set_pos (S_of ifcall) 9) L) as Q. rewrite Y in Q. specialize (Q ltac:(discriminate)). congruence.
    - pose proof (parse_rule_mono grammar no_exts 60 n' r_action_stmt (set_pos (S_of ifcall) 9) L) as Q. rewrite P0 in Q. specialize (Q ltac:(discriminate)). congruence. }
  split; [apply W|]. split; [reflexivity|]. split; [reflexivity|]. exists n', y, s'. exact Y.
Qed.

Definition C67_all := (C67_if, C67_again, C67_retag, C67_assignment_refuted, C67_end_do_refuted, C67_extension_refuted).
Print Assumptions C67_all.
