(** Facts about the grammar, decided by computation over its 284 rules. *)
From Verif Require Import Base Tags SyntaxTags Token TTStream StmtRules Peg Peg_spec Peg_proofs PegSafe_proofs StmtGrammar StmtParser.
Local Open Scope nat_scope.

Lemma rules_all : forall r, In r all_rules.
Proof. intro r. destruct r; vm_compute; repeat (first [left; reflexivity | right]). Qed.
Lemma by_rules (f : rule -> bool) : forallb f all_rules = true -> forall r, f r = true.
Proof. intros H r. rewrite forallb_forall in H. apply H, rules_all. Qed.
Definition on_exp (f : pexp -> bool) (r : rule) : bool :=
  match body_exp (grammar r) with Some p => f p | None => true end.
Lemma by_exps (f : pexp -> bool) : forallb (on_exp f) all_rules = true ->
  forall r p, body_exp (grammar r) = Some p -> f p = true.
Proof. intros H r p E. pose proof (by_rules _ H r) as G. unfold on_exp in G. rewrite E in G. exact G. Qed.

Lemma g_clean : forall r, clean_body (grammar r) = true.
Proof. apply (by_rules (fun r => clean_body (grammar r))). vm_compute. reflexivity. Qed.
Lemma g_solid : forall r, solid_body (grammar r) = true.
Proof. apply (by_rules (fun r => solid_body (grammar r))). vm_compute. reflexivity. Qed.
Lemma g_plain : forall r p, body_exp (grammar r) = Some p -> plain p = true.
Proof. apply by_exps. vm_compute. reflexivity. Qed.
Lemma g_firm : forall r p, body_exp (grammar r) = Some p -> firm p = true.
Proof. apply by_exps. vm_compute. reflexivity. Qed.

(** tables indexed by rule *)
Definition tab {A} (d : A) (l : list A) (r : rule) : A := nth (rule_idx r) l d.

(** rules that consume: the greatest solution *)
Definition eats_tab : list bool := Eval vm_compute in
  Nat.iter 20 (fun l => map (fun r => eats_body (tab false l) (grammar r)) all_rules) (map (fun _ => true) all_rules).
Definition g_eats : rule -> bool := tab false eats_tab.
Lemma g_eats_ok : forall r, g_eats r = true -> eats_body g_eats (grammar r) = true.
Proof.
  intros r H. assert (G : (negb (g_eats r) || eats_body g_eats (grammar r)) = true).
  { revert r H. intros r _. revert r. apply by_rules. vm_compute. reflexivity. }
  rewrite H in G. exact G.
Qed.
Lemma g_stars : forall r p, body_exp (grammar r) = Some p -> stars g_eats p = true.
Proof. apply by_exps. vm_compute. reflexivity. Qed.

(** the rank of a rule: one more than those it calls before it consumes *)
Fixpoint leading (N : rule -> bool) (p : pexp) : list rule :=
  match p with
  | PAlts _ ps => flat_map (leading N) ps
  | PSeq _ ps => (fix go ps := match ps with [] => [] | q :: r => leading N q ++ (if eats N q then [] else go r) end) ps
  | PNeg q | POpt q | PStar q | PTag _ q => leading N q
  | PRule r => [r]
  | _ => []
  end.
Definition leading_body (b : rbody) : list rule :=
  match b with
  | RBreak _ _ => [r_real_literal_constant]
  | _ => match body_exp b with Some p => leading g_eats p | None => [] end
  end.
Definition rank_tab : list nat := Eval vm_compute in
  let lead := map (fun r => map rule_idx (leading_body (grammar r))) all_rules in
  Nat.iter 20 (fun l => map (fold_right (fun i a => Nat.max (S (nth i l 0)) a) 0) lead) (map (fun _ => 0) all_rules).
Definition g_rank : rule -> nat := tab 0 rank_tab.
Lemma g_left : forall r p, body_exp (grammar r) = Some p -> left g_eats g_rank (g_rank r) p = true.
Proof.
  intros r p E. assert (G : on_exp (left g_eats g_rank (g_rank r)) r = true).
  { clear. revert r. apply (by_rules (fun r => on_exp (left g_eats g_rank (g_rank r)) r)). vm_compute. reflexivity. }
  unfold on_exp in G. rewrite E in G. exact G.
Qed.
Definition g_maxrank : nat := Eval vm_compute in fold_right Nat.max 0 rank_tab.
Lemma g_rank_le : forall r, g_rank r <= g_maxrank.
Proof. intro r. apply Nat.leb_le. revert r. apply by_rules. vm_compute. reflexivity. Qed.
Definition g_height : nat := Eval vm_compute in
  fold_right (fun r a => match body_exp (grammar r) with Some p => Nat.max (height p) a | None => a end) 1 all_rules.
Lemma g_height_le : forall r p, body_exp (grammar r) = Some p -> height p <= g_height.
Proof.
  intros r p E. apply Nat.leb_le. revert r p E. apply (by_exps (fun p => height p <=? g_height)). vm_compute. reflexivity.
Qed.
Lemma g_break : forall r t l, grammar r = RBreak t l -> g_rank r_real_literal_constant < g_rank r.
Proof.
  intros r t l E. apply Nat.ltb_lt.
  assert (G : (match grammar r with RBreak _ _ => g_rank r_real_literal_constant <? g_rank r | _ => true end) = true).
  { clear. revert r. apply (by_rules (fun r => match grammar r with RBreak _ _ => g_rank r_real_literal_constant <? g_rank r | _ => true end)).
    vm_compute. reflexivity. }
  rewrite E in G. exact G.
Qed.

(** the rules that never come to procedure_designator: the greatest solution *)
Definition plain_tab : list bool := Eval vm_compute in
  Nat.iter 30 (fun l => map (fun r => match grammar r with
                                      | RDesignator _ => false
                                      | b => match body_exp b with Some p => calls (tab false l) p | None => true end
                                      end) all_rules) (map (fun _ => true) all_rules).
Definition g_plainset : rule -> bool := tab false plain_tab.
Lemma g_calls : forall r p, g_plainset r = true -> body_exp (grammar r) = Some p -> calls g_plainset p = true.
Proof.
  intros r p H E. assert (G : (negb (g_plainset r) || on_exp (calls g_plainset) r) = true).
  { clear. revert r. apply by_rules. vm_compute. reflexivity. }
  rewrite H in G. unfold on_exp in G. rewrite E in G. exact G.
Qed.
Lemma g_nodes : forall r, g_plainset r = true -> not_designator (grammar r) = true.
Proof.
  intros r H. assert (G : (negb (g_plainset r) || not_designator (grammar r)) = true).
  { clear. revert r. apply by_rules. vm_compute. reflexivity. }
  rewrite H in G. exact G.
Qed.
Lemma g_lit : exists tag l, grammar r_real_literal_constant = RExp (PSeq tag (PTok SG_SIGNIFICAND :: map POpt l)) /\
  flat (PSeq tag (PTok SG_SIGNIFICAND :: map POpt l)) = true.
Proof.
  exists SG_REAL_LITERAL_CONSTANT, [h_seq [PTok SG_EXPONENT_LETTER; PTok SG_EXPONENT]; h_seq [PTok TK_UNDERSCORE; PTok SG_KIND_PARAM]].
  split; reflexivity.
Qed.

(** the rules that match whole statements only: the greatest solution *)
Definition ends_tab : list bool := Eval vm_compute in
  Nat.iter 30 (fun l => map (fun r => ends_body (tab false l) (grammar r)) all_rules) (map (fun _ => true) all_rules).
Definition g_ends : rule -> bool := tab false ends_tab.
Lemma g_ends_ok : forall r, g_ends r = true -> ends_body g_ends (grammar r) = true.
Proof.
  intros r H. assert (G : (negb (g_ends r) || ends_body g_ends (grammar r)) = true).
  { clear. revert r. apply by_rules. vm_compute. reflexivity. }
  rewrite H in G. exact G.
Qed.
