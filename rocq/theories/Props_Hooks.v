(** C70: from a statement to its node in the program tree. *)
From Coq Require Import Lia.
From Verif Require Import Base Base_lemmas Tags SyntaxTags Token TTStream StmtRules Peg StmtGrammar LabelStack Prgm Prgm_spec Prgm_proofs
  PrgmExact_proofs PrgmSource PrgmSource_proofs PrgmTree_spec PrgmTree_proofs Visitor_spec Hooks Hooks_spec Hooks_proofs Props_Prgm Props_PrgmTree.
Local Open Scope nat_scope.

Lemma derived_leaves x t : derives x t -> forall u, node_of u t -> g_stmt u <> None -> g_kids u = [].
Proof.
  intros D u N. induction N as [t|t g r i kids k K N IH].
  - inversion D; subst; intro HS; [reflexivity|exfalso; apply HS; reflexivity].
  - apply IH. inversion D; subst; [destruct K|]. rewrite Forall_forall in *. auto.
Qed.
Lemma derived_stmt x t : derives x t -> forall u i, node_of u t -> g_stmt u = Some i -> i < x_num x /\ stmt_is x i (g_tag u).
Proof.
  intros D u i N. induction N as [t|t g r o kids k K N IH].
  - inversion D; subst; cbn [g_stmt stmt_leaf g_tag]; intro E; [injection E as <-; auto|discriminate].
  - apply IH. inversion D; subst; [destruct K|]. rewrite Forall_forall in *. auto.
Qed.
Lemma node_at_of : forall p t u, node_at t p = Some u -> node_of u t.
Proof.
  induction p as [|a p IH]; intros [g r o kids] u H; cbn [node_at g_kids] in H; [injection H as <-; constructor|].
  destruct (nth_error kids a) as [k|] eqn:N; [|discriminate]. apply nth_error_In in N. econstructor; [exact N|apply IH; exact H].
Qed.

(** Whenever build_tree_ returns on a file that has statements, it has a tree and
    the file is in a good state; the link of a statement leads to the last leaf of
    the tree that holds this statement, which reads as the kind of statement that
    the leaf says, and a statement has no link only if no leaf holds it. *)
Theorem C70_hooks : forall exts m l n bad t h, l <> [] -> build_tree (of_source exts m l) n = Done (bad, t, h) ->
  bad = false /\ exists t0, t = Some t0 /\ g_tag t0 = PG_PROGRAM /\
    (forall i p, h i = Some p <-> last_holds t0 p i) /\
    (forall i, h i = None <-> forall p, ~ holds t0 p i) /\
    (forall i p u, h i = Some p -> node_at t0 p = Some u -> i < length l /\ stmt_is (of_source exts m l) i (g_tag u)).
Proof.
  intros exts m l n bad t h NE H. unfold build_tree in H.
  assert (E0 : (x_num (of_source exts m l) =? 0) = false) by (destruct l; [congruence|reflexivity]). rewrite E0 in H.
  destruct (parse_prgm (of_source exts m l) n g_program) as [[[mm [t0|]] s']| |] eqn:P; try discriminate. injection H as <- <- <-.
  destruct (C59_derives _ _ _ _ _ _ _ _ P) as (-> & D & T). split; [reflexivity|]. exists t0. split; [reflexivity|].
  split; [destruct T as [T|[]]; symmetry; exact T|].
  assert (A : forall i p, hooks_of t0 i = Some p <-> last_holds t0 p i).
  { intros i p. destruct (hooks_last t0 i) as [(q & Q & E)|(Q & E)]; rewrite E; split; intro H.
    - injection H as <-. exact Q.
    - f_equal. apply (last_one _ _ _ _ Q H).
    - discriminate.
    - destruct H as (H & _). exfalso. apply (Q _ H). }
  split; [exact A|]. split.
  - intros i. destruct (hooks_last t0 i) as [(q & Q & E)|(Q & E)]; rewrite E; split; intro H; auto; [discriminate|]. destruct Q as (Q & _). exfalso. apply (H _ Q).
  - intros i p u E U. apply A in E. destruct E as ((v & V & _ & S) & _). rewrite U in V. injection V as <-.
    apply node_at_of in U. apply (derived_stmt _ _ D _ _ U S).
Qed.

(** If no parser gave up after it had begun a construct, every statement of the
    file has a link, and a statement that is not at the end of several loops has
    one leaf only. *)
Theorem C70_every : forall exts m l n mm t s', parse_prgm (of_source exts m l) n g_program = Done (mm, Some t, s') -> p_left s' = 0 ->
  forall i, i < length l -> exists p, hooks_of t i = Some p /\ last_holds t p i.
Proof.
  intros exts m l n mm t s' P PL i LT. destruct (C59_derives _ _ _ _ _ _ _ _ P) as (-> & D & T).
  destruct (C28_exact _ _ _ _ (source_roots exts m l) P PL) as (t0 & E & _ & X & _). injection E as <-.
  pose proof (exactly_in _ _ _ X i (conj (Nat.le_0_l i) LT)) as I. apply in_map_iff in I. destruct I as ((i0 & f) & <- & I). cbn [fst] in *.
  destruct (leaves_held _ _ _ _ (derived_leaves _ _ D) I) as (q & Q).
  destruct (hooks_last t i0) as [(p & P1 & P2)|(P1 & _)]; [eauto|exfalso; apply (P1 _ Q)].
Qed.
Theorem C70_only : forall exts m l n mm t s', parse_prgm (of_source exts m l) n g_program = Done (mm, Some t, s') -> p_left s' = 0 ->
  Forall (fun p => snd p = false) (leaves_of t) -> forall i p, holds t p i -> hooks_of t i = Some p.
Proof.
  intros exts m l n mm t s' P PL F i p H. destruct (C59_derives _ _ _ _ _ _ _ _ P) as (-> & D & T).
  destruct (C28_once _ _ _ _ (source_roots exts m l) P PL) as (t0 & E & S). injection E as <-. specialize (S F).
  destruct (hooks_last t i) as [(q & (Q1 & Q2) & E)|(Q & _)]; [|exfalso; apply (Q _ H)]. rewrite E. destruct (Q2 _ H) as [->|(c & a & b & x & y & E1 & E2 & LT)]; [reflexivity|].
  exfalso. subst. apply (parted_twice c t false i a b x y (derived_leaves _ _ D) H Q1 LT). unfold leaves_of in S. rewrite S. apply seq_NoDup.
Qed.
(** [sub1]: statement 5 is the last of two loops and has the link to its second
    leaf; 8 is inside an IF construct in the next loop *)
Example C70_ex : exists t h, build_tree (src sub1) 200 = Done (false, Some t, h) /\
  (forall i, i < 14 -> h i <> None) /\ h 14 = None /\
  h 0 = Some [0; 0; 0; 0] /\ h 13 = Some [0; 0; 0; 3] /\
  exists p u v w, h 5 = Some p /\ node_at t p = Some u /\ node_at t (removelast p) = Some v /\ g_tag v = PG_DO_TERM_SHARED_STMT /\ g_stmt u = Some 5 /\
  h 8 = Some w /\ length w = 15.
Proof.
  eexists _, _. split; [vm_compute; reflexivity|]. split.
  - intros i L. do 14 (destruct i as [|i]; [vm_compute; discriminate|]). lia.
  - split; [vm_compute; reflexivity|]. split; [vm_compute; reflexivity|]. split; [vm_compute; reflexivity|].
    eexists _, _, _, _. split; [vm_compute; reflexivity|]. split; [vm_compute; reflexivity|]. split; [vm_compute; reflexivity|]. split; [vm_compute; reflexivity|]. split; [vm_compute; reflexivity|]. split; vm_compute; reflexivity.
Qed.

(** Why nothing may be given up: the tree of  type t / integer x / parameter
    (a = 1) / end  (see C28) is good, but its first two statements have no link. *)
Theorem C70_every_refuted : exists t h, build_tree (src [st 0 t_type; st 0 t_int; st 0 t_par; st 0 t_end]) 200 = Done (false, Some t, h) /\
  h 0 = None /\ h 1 = None /\ h 2 <> None /\ h 3 <> None.
Proof. eexists _, _. split; [vm_compute; reflexivity|]. repeat split; vm_compute; try reflexivity; discriminate. Qed.

(** A file that the program parser rejects never gets as far as being in a bad
    state: linking takes the root of the empty tree. *)
Theorem C70_rejected_refuted : forall exts m l n t s', parse_prgm (of_source exts m l) n g_program = Done (false, t, s') ->
  l <> [] -> build_tree (of_source exts m l) n = Bad.
Proof.
  intros exts m l n t s' P NE. unfold build_tree.
  assert (E0 : (x_num (of_source exts m l) =? 0) = false) by (destruct l; [congruence|reflexivity]). rewrite E0, P.
  destruct t as [t|]; [|reflexivity]. apply C59_derives in P as (E & _). discriminate.
Qed.
(** end if *)
Example C70_rejected_ex : exists s', parse_prgm (src [st 0 t_endif]) 200 g_program = Done (false, None, s').
Proof. eexists. vm_compute. reflexivity. Qed.

Definition C70_all := (C70_hooks, C70_every, C70_only, C70_every_refuted, C70_rejected_refuted).
Print Assumptions C70_all.
