(** C87: the statements of a line as iterators; copying and moving a line. *)
From Verif Require Import Base Base_lemmas Tags Token Stmts Stmts_spec Stmts_proofs SafeList SafeList_spec SafeList_proofs LineCopy LineCopy_spec LineCopy_proofs.
Local Open Scope nat_scope.

(** [holds d s p]: s is a list of tokens as any history of insertions and
    removals leaves it, and p is the ordinary list after the same history *)
Definition holds (d : Token) (s : @SL Token) (p : @Plain Token) : Prop :=
  exists h, plain_run d (mkPlain [] 0 1) h = Some p /\ sl_run d (sl_new d 0) h = Ok s.

Lemma holds_R d s p : holds d s p -> R d s p.
Proof.
  intros (h & E & ES). destruct (run_R d h (sl_new d 0) (mkPlain [] 0 1) p (new_R d 0) E) as (s' & ES' & H).
  assert (s' = s) by congruence. now subst s'.
Qed.

(** ** init_stmts: the ranges are the non-empty runs of tokens between the
    semicolons, in order; every range ends at its semicolon or at end(). *)
Theorem C87_init : forall d s p, holds d s p ->
  exists rs, it_init s = Ok (rs, semicolons (map snd (elems p))) /\ spans s rs (statements p) /\
    contents (statements p) = filter nonempty (segments (map snd (elems p))).
Proof.
  intros d s p H. apply holds_R in H. exists (map mk (statements p)). split; [now apply it_init_ok with (d := d)|].
  split; [now apply statements_spans with (d := d)|]. clear. unfold contents, statements.
  assert (G : map (fun b => map snd (fst b)) (pieces (elems p) (p_end p)) = segments (map snd (elems p))).
  { induction (elems p) as [|[i x] l IH]; [reflexivity|]. cbn [pieces map snd segments]. destruct (is_semi x); [cbn [map fst]; now rewrite IH|].
    rewrite <- IH. destruct (pieces_cons l (p_end p)) as (b & j & q & ->). reflexivity. }
  rewrite <- G. clear G. induction (pieces (elems p) (p_end p)) as [|[b j] l IH]; [reflexivity|]. cbn [map filter fst].
  destruct b as [|n b]; cbn [nonempty is_empty negb map fst]; now rewrite IH.
Qed.

(** ** A copy: its members are those of the original, its ranges denote blocks
    of its own tokens with the same contents, and no token is shared. *)
Theorem C87_copy : forall (D : Type) d (l : LineIt D) p bs fr,
  holds d (li_frags l) p -> fresh (li_frags l) <= fr -> spans (li_frags l) (li_stmts l) bs ->
  exists c cs, li_copy l fr = Ok c /\ (forall dst, li_assign dst l fr = Ok c) /\
    li_data c = li_data l /\ li_nsemi c = li_nsemi l /\
    map snd (nodes (li_frags c)) = map snd (nodes (li_frags l)) /\
    spans (li_frags c) (li_stmts c) cs /\ contents cs = contents bs /\
    (forall n, In n (map fst (nodes (li_frags c))) -> ~ In n (map fst (nodes (li_frags l)))).
Proof.
  intros D d l p bs fr H F S. apply holds_R in H. destruct (li_copy_ok d l p bs fr H S) as (c & cs & C & C1 & C2 & C3 & C4 & C5 & _ & _).
  exists c, cs. conjs; auto.
  - rewrite C3. unfold sl_copy. cbn [nodes]. apply renumber_vals.
  - intros n I J. rewrite C3 in I. apply in_map_iff in J as (x & <- & J). pose proof (R_lt _ _ _ H) as LT. rewrite Forall_forall in LT. apply LT in J.
    unfold sl_copy in I. cbn [nodes] in I. rewrite (proj2 (renumber_vals _ _)) in I. apply in_seq in I. lia.
Qed.
(** Its statements are exactly those that init_stmts finds in it. *)
Theorem C87_copy_init : forall (D : Type) d (l0 l : LineIt D) p fr,
  holds d (li_frags l0) p -> li_init l0 = Ok l ->
  exists c, li_copy l fr = Ok c /\ li_init c = Ok c.
Proof.
  intros D d l0 l p fr H I. apply holds_R in H. unfold li_init in I. rewrite (it_init_ok d _ _ H) in I. cbn [bind] in I. injection I as <-.
  match goal with |- context [li_copy ?m fr] => destruct (li_copy_ok d m p (statements p) fr H (statements_spans d _ _ H)) as (c & cs & C & C1 & C2 & C3 & _ & _ & C6 & C7) end.
  cbn [li_frags li_data li_nsemi] in *. exists c. split; [exact C|]. unfold li_init. rewrite C3. rewrite (it_init_ok d _ _ (copy_R d _ _ fr H)). cbn [bind elems].
  rewrite (copy_statements d _ _ fr H), <- C6, <- C7, (proj1 (renumber_vals _ _)), <- C2, <- C3. now destruct c.
Qed.
(** Assigning a line to itself changes nothing. *)
Theorem C87_assign_self : forall (D : Type) d (l : LineIt D) p bs,
  holds d (li_frags l) p -> spans (li_frags l) (li_stmts l) bs -> li_assign_self l = Ok l.
Proof.
  intros D d l p bs H S. apply holds_R in H. unfold li_assign_self. destruct (begin_R d _ _ H) as (b & B).
  assert (is_empty (nodes (li_frags l)) = false) as -> by (rewrite (R_nodes _ _ _ H); destruct (elems p); reflexivity).
  cbn [negb assert_ bind]. rewrite B. cbn [bind]. rewrite (rebase_all_self _ _ (R_ids _ _ _ H) B _ _ S). now destruct l.
Qed.

(** ** A move: the ranges stay what they were, as the tokens go with them; the
    old line has no statements and can be used again after clear(). *)
Theorem C87_move : forall (D : Type) d0 d (l new old : LineIt D) p bs c,
  holds d (li_frags l) p -> spans (li_frags l) (li_stmts l) bs -> li_move l = (new, old) ->
  li_data new = li_data l /\ li_nsemi new = li_nsemi l /\ nodes (li_frags new) = nodes (li_frags l) /\
  spans (li_frags new) (li_stmts new) bs /\ li_stmts old = [] /\
  it_init (li_frags (li_clear d0 c old)) = Ok ([], 0) /\ li_nsemi (li_clear d0 c old) = (-1)%Z /\
  (forall h q, plain_run d0 (mkPlain [] (fresh (li_frags l)) (S (fresh (li_frags l)))) h = Some q ->
     exists s, sl_run d0 (li_frags (li_clear d0 c old)) h = Ok s /\ nodes s = elems q ++ [(my_end s, d0)] /\ my_end s = p_end q).
Proof.
  intros D d0 d l new old p bs c H S M. unfold li_move, sl_move in M. injection M as <- <-. cbn [li_data li_nsemi li_frags li_stmts li_clear].
  conjs; auto.
  - exact (it_init_ok d0 _ _ (new_R d0 (fresh (li_frags l)))).
  - intros h q E. destruct (run_R d0 h _ _ q (new_R d0 (fresh (li_frags l))) E) as (s & ES & HS).
    exists s. conjs; auto. { rewrite (R_end _ _ _ HS). apply (R_nodes _ _ _ HS). } apply (R_end _ _ _ HS).
Qed.

(** ** remove_empty_statements: the ranges it leaves are those that init_stmts
    would find in what is left, they denote the same tokens as before, and the
    tokens are those of the model of C12. *)
Theorem C87_remove : forall d s p rs n, holds d s p -> is_semi d = false ->
  Forall (fun x => is_semi x = true -> tk_text x <> []) (map snd (elems p)) ->
  it_init s = Ok (rs, n) ->
  exists s' p' rs' c, it_remove s rs = Ok (s', rs', c) /\
    nodes s' = elems p' ++ [(my_end s', d)] /\ my_end s' = my_end s /\
    spans s' rs' (statements p') /\ map fst (statements p') = map fst (statements p) /\
    (exists n', it_init s' = Ok (rs', n')) /\
    remove_empty_frags (map snd (elems p)) (length rs) = Ok (map snd (elems p'), c).
Proof.
  intros d s p rs n H SD TX I. apply holds_R in H. rewrite (it_init_ok d _ _ H) in I. injection I as <- <-.
  apply Forall_map in TX. destruct (remove_ok d s p H SD TX) as (s' & p' & c & E & H' & N & M & FR).
  exists s', p', (map mk (statements p')), c. rewrite map_length. conjs; auto.
  - rewrite (R_end _ _ _ H'). apply (R_nodes _ _ _ H').
  - rewrite (R_end _ _ _ H'), (R_end _ _ _ H). exact N.
  - now apply statements_spans with (d := d).
  - eexists. now apply it_init_ok with (d := d).
Qed.

(** A line that has been moved from can not be copied, and its fragments have
    neither a size nor a first position. *)
Theorem C87_moved_from_refuted : forall (D : Type) (l : LineIt D) fr,
  li_copy (snd (li_move l)) fr = UB /\ sl_size (li_frags (snd (li_move l))) = (2 ^ 64 - 1)%Z /\
  li_init (snd (li_move l)) = UB.
Proof. intros D l fr. repeat split. Qed.

(** ** A concrete case: "; a ; ; b ;" *)
Definition t0 : Token := mkTok UNKNOWN (-1) (-1) [] None None None None None None.
Definition tk (k : Z) (s : String.string) : Token := mkTok k 1 1 (L s) None None None None None None.
Definition case_tokens : list (@sl_op Token) :=
  map OpPushBack [tk TK_SEMICOLON ";"; tk TK_NAME "a"; tk TK_SEMICOLON ";"; tk TK_SEMICOLON ";"; tk TK_NAME "b"; tk TK_SEMICOLON ";"].
Definition rmap {A B} (f : A -> B) (r : res A) : res B := bind r (fun a => Ok (f a)).
Definition case_plain : option (@Plain Token) := plain_run t0 (mkPlain [] 0 1) case_tokens.
Definition case_list : res (@SL Token) := sl_run t0 (sl_new t0 0) case_tokens.
Definition case_line : res (LineIt unit) := s <- case_list ;; li_init (mkLI Datatypes.tt (-1)%Z s []).
Example C87_ex :
  (exists p s, case_plain = Some p /\ case_list = Ok s) /\ is_semi t0 = false /\
  rmap (fun l => (li_stmts l, li_nsemi l)) case_line = Ok ([mkRange 2 1 3 false; mkRange 5 1 6 false], 4%Z) /\
  rmap (fun c => (li_stmts c, map fst (nodes (li_frags c)))) (bind case_line (fun l => li_copy l 20)) =
    Ok ([mkRange 21 1 22 false; mkRange 24 1 25 false], [20; 21; 22; 23; 24; 25; 26]) /\
  rmap (fun '(s, rs, c) => (map fst (nodes s), rs, c)) (bind case_line (fun l => it_remove (li_frags l) (li_stmts l))) =
    Ok ([2; 3; 5; 0], [mkRange 2 1 3 false; mkRange 5 1 0 false], true).
Proof.
  split; [|repeat split; vm_compute; reflexivity]. destruct case_plain as [p|] eqn:E; [|vm_compute in E; discriminate].
  exists p. destruct case_list as [s| |] eqn:E2; [|vm_compute in E2; discriminate|vm_compute in E2; discriminate]. exists s. auto.
Qed.

Definition C87_all := (C87_init, C87_copy, C87_copy_init, C87_assign_self, C87_move, C87_remove, C87_moved_from_refuted).
Print Assumptions C87_all.
