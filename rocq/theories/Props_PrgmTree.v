(** C59: program trees follow the grammar. *)
From Coq Require Import Lia.
From Verif Require Import Base Base_lemmas Tags SyntaxTags Token TTStream StmtRules Peg StmtGrammar LabelStack Prgm Prgm_spec Prgm_proofs
  PrgmSource PrgmSource_proofs PrgmTree_spec PrgmTree_proofs Props_Prgm.
Local Open Scope nat_scope.

(** Whatever program parser is called on whatever statements: if it returns a
    tree then it has matched, the tree is the part that was asked for, every node
    consists of the parts that its kind of part has, and every leaf is a
    statement that reads as the kind of statement it stands for. *)
Theorem C59_derives : forall exts m l n r mm t s', parse_prgm (of_source exts m l) n r = Done (mm, Some t, s') ->
  mm = true /\ derives (of_source exts m l) t /\ In (g_tag t) (parts_of r).
Proof. exact prgm_derives. Qed.
Print Assumptions C59_derives.

(** A kind of part consists of one thing, and no kind of part is a kind of
    statement: the description leaves nothing open. *)
Theorem C59_one_production : forall g e e', In (g, e) productions -> In (g, e') productions -> e = e'.
Proof.
  assert (H : forallb (fun p => forallb (fun q => negb (fst p =? fst q)%Z || rx_eqb (snd p) (snd q)) productions) productions = true) by (vm_compute; reflexivity).
  intros g e e' A B. rewrite forallb_forall in H. apply H in A. rewrite forallb_forall in A. apply A in B. cbn [fst snd] in B.
  rewrite Z.eqb_refl in B. now apply rx_eqb_eq in B.
Qed.
Print Assumptions C59_one_production.

(** So the contents of any part of the tree are known from its tag. *)
Theorem C59_contents : forall exts m l n r mm t s' u g e, parse_prgm (of_source exts m l) n r = Done (mm, Some t, s') ->
  node_of u t -> g_tag u = g -> In (g, e) productions -> spells e (map g_tag (g_kids u)) /\ g_stmt u = None.
Proof.
  intros exts m l n r mm t s' u g e H N T I. apply C59_derives in H as (_ & D & _).
  assert (derives (of_source exts m l) u) as DU.
  { clear -D N. induction N as [|g0 r0 o kids k t0 K N IH]; [exact D|]. apply IH. inversion D; subst; [destruct K|]. rewrite Forall_forall in *. auto. }
  inversion DU as [g0 i A B C E|g0 e0 r0 kids A B C E]; subst u.
  - cbn in T. subst g0. now apply C in I.
  - cbn in T. subst g0. cbn [g_kids g_stmt]. rewrite (C59_one_production _ _ _ I A). auto.
Qed.
Print Assumptions C59_contents.

(** subroutine s; integer x; the loops and the IF of [sub1]; end: the parts of
    the subroutine and of the IF construct *)
Fixpoint parts (t : ptree) : list (Z * list Z) :=
  match t with PT g _ None kids => (g, map g_tag kids) :: flat_map parts kids | PT _ _ (Some _) _ => [] end.
Example C59_ex : exists t s', parse_prgm (src sub1) 200 g_program = Done (true, Some t, s') /\ g_tag t = PG_PROGRAM /\
  In (PG_SUBROUTINE_SUBPROGRAM, [SG_SUBROUTINE_STMT; PG_SPECIFICATION_PART; PG_EXECUTION_PART; SG_END_SUBROUTINE_STMT]) (parts t) /\
  In (PG_SPECIFICATION_PART, [PG_IMPLICIT_PART; PG_DECLARATION_CONSTRUCT]) (parts t) /\
  In (PG_IF_CONSTRUCT, [SG_IF_THEN_STMT; PG_BLOCK; SG_ELSE_STMT; PG_BLOCK; SG_END_IF_STMT]) (parts t) /\
  In (PG_OUTER_SHARED_DO_CONSTRUCT, [SG_DO_STMT; PG_DO_BODY; PG_DO_TERM_SHARED_STMT]) (parts t).
Proof.
  eexists _, _. split; [vm_compute; reflexivity|]. split; [reflexivity|].
  assert (M : forall (p : Z * list Z) l, existsb (fun q => (fst q =? fst p)%Z && (if list_eq_dec Z.eq_dec (snd q) (snd p) then true else false)) l = true -> In p l).
  { intros p l H. apply existsb_exists in H as (q & H & E). apply andb_true_iff in E as [E1 E2]. apply Z.eqb_eq in E1.
    destruct (list_eq_dec _ _ _) as [E3|]; [|discriminate]. destruct p, q. cbn in *. now subst. }
  split; [|split; [|split]]; apply M; vm_compute; reflexivity.
Qed.
