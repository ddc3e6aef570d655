(** The tables of StmtApart_spec, by the prefix analysis. *)
From Coq Require Import Lia.
From Verif Require Import Base Base_lemmas Tags SyntaxTags Token TTStream StmtRules Peg Peg_spec Peg_proofs StmtGrammar StmtTables_proofs
  StmtPrefix StmtPrefix_proofs StmtApart_spec.
Local Open Scope nat_scope.

Definition isk (z : Z) (a : option atok) : bool := match a with Some (Tag t) => (t =? z)%Z | _ => false end.
Definition isn (a : option atok) : bool := match a with Some b => match is_name b with Some b => b | None => false end | _ => false end.
Definition ise (a : option atok) : bool := match a with Some End => true | _ => false end.
Lemma isk_ok s pre j z : fits pre s -> isk z (nth_error pre j) = true -> kind_at s j = Some z.
Proof.
  intros F H. destruct (nth_error pre j) as [[t| |]|] eqn:E; cbn [isk] in H; try discriminate. apply Z.eqb_eq in H as ->. apply F in E.
  cbn [tok_at] in E. destruct E as (L & k & N & T). unfold kind_at. apply Nat.ltb_lt in L. rewrite L, N. cbn. congruence.
Qed.
Lemma ise_ok s pre j : fits pre s -> ise (nth_error pre j) = true -> s_end s = s_beg s + j.
Proof. intros F H. destruct (nth_error pre j) as [[t| |]|] eqn:E; cbn [ise] in H; try discriminate. apply F in E. cbn [tok_at] in E. lia. Qed.
(** a token that the analysis says is a name is none or is one *)
Lemma isn_ok s pre j : fits pre s -> isn (nth_error pre j) = true -> exists k, kind_at s j = Some k /\ (forall b, is_name_tag k = Ok b -> b = true).
Proof.
  intros F H. destruct (nth_error pre j) as [[t|nm|]|] eqn:E; cbn [isn is_name] in H; try discriminate; apply F in E; cbn [tok_at] in E.
  - destruct E as (L & k & N & T). exists t. split; [unfold kind_at; apply Nat.ltb_lt in L; rewrite L, N; cbn; congruence|].
    intros b B. rewrite B in H. exact H.
  - destruct E as (L & k & N & _ & T). exists (tok k). split; [unfold kind_at; apply Nat.ltb_lt in L; rewrite L, N; reflexivity|].
    intros b B. rewrite (T b B). exact H.
Qed.
Lemma statement_real s : statement s -> real s /\ pos s = s_beg s.
Proof. intros (P & A & B & C). split; [|exact P]. split; [exact A|]. split; [exact B|exact C]. Qed.
Lemma fits_nil s : fits [] s.
Proof. intros j a H. destruct j; discriminate. Qed.

Lemma openings_ok : forallb (fun x => all_pre true 60 1 (fst x) (fun pre => existsb (fun z => isk z (nth_error pre 0)) (snd x)) []) openings = true.
Proof. vm_compute. reflexivity. Qed.
Lemma constructs_ok : forallb (fun x => all_pre true 60 3 (fst x) (fun pre => isk (snd x) (nth_error pre 0) ||
  (isn (nth_error pre 0) && isk TK_COLON (nth_error pre 1) && isk (snd x) (nth_error pre 2))) []) construct_openings = true.
Proof. vm_compute. reflexivity. Qed.
Lemma names_ok : forallb (fun x => all_pre true 60 2 (fst x) (fun pre => isn (nth_error pre 0) && existsb (fun z => isk z (nth_error pre 1)) (snd x)) []) name_openings = true.
Proof. vm_compute. reflexivity. Qed.
Lemma ends_ok : forallb (fun x => all_pre true 60 2 (fst (fst x)) (fun pre => isk KW_END (nth_error pre 0) &&
  (isk (snd (fst x)) (nth_error pre 1) || (snd x && ise (nth_error pre 1)))) []) end_words = true.
Proof. vm_compute. reflexivity. Qed.
Lemma actions_ok : forallb (fun r => is_empty (clash false 60 4 [] r r_action_stmt)) delimiters = true.
Proof. vm_compute. reflexivity. Qed.
Definition rule_eqb (r1 r2 : rule) : bool := rule_idx r1 =? rule_idx r2.
Lemma rule_eqb_ok r1 r2 : rule_eqb r1 r2 = true <-> r1 = r2.
Proof.
  unfold rule_eqb. rewrite Nat.eqb_eq. split; [|congruence]. intros H.
  assert (Y : forall q, nth (rule_idx q) all_rules r_expr = q) by (intro q; destruct q; reflexivity).
  rewrite <- (Y r1), <- (Y r2), H. reflexivity.
Qed.
Definition share_b (r1 r2 : rule) : bool := existsb (fun g => existsb (rule_eqb r1) g && existsb (rule_eqb r2) g) groups.
Lemma share_b_ok r1 r2 : share_b r1 r2 = true -> share r1 r2.
Proof.
  unfold share_b. intros H. apply existsb_exists in H as (g & G & H). apply andb_true_iff in H as (A & B).
  apply existsb_exists in A as (a & A & A'). apply existsb_exists in B as (b & B & B'). apply rule_eqb_ok in A', B'. subst. exists g. auto.
Qed.
Lemma pairs_ok : forallb (fun r1 => forallb (fun r2 => rule_eqb r1 r2 || share_b r1 r2 || is_empty (clash true 60 4 [] r1 r2)) delimiters) delimiters = true.
Proof. vm_compute. reflexivity. Qed.
