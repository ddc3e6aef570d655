(** Lemmas about blanks around a text. *)
From Coq Require Import Lia.
From Verif Require Import Base Base_lemmas FileLine.
Local Open Scope nat_scope.

Lemma mem_sp c : mem c [c_sp] = true <-> c = c_sp.
Proof. destruct c as [[] [] [] [] [] [] [] []]; vm_compute; split; congruence. Qed.
Lemma spaces_len n : length (spaces n) = n.
Proof. apply repeat_length. Qed.
Lemma forallb_spaces s : forallb (fun x => mem x [c_sp]) s = true -> s = spaces (length s).
Proof.
  induction s as [|c s IH]; cbn [forallb length]; [reflexivity|]. intros H. apply andb_prop in H as (A & B). apply mem_sp in A. subst c. unfold spaces in *. cbn [repeat]. now rewrite <- IH.
Qed.
Lemma spaces_forallb n : forallb (fun x => mem x [c_sp]) (spaces n) = true.
Proof. induction n; [reflexivity|]. exact IHn. Qed.

Lemma from_spaces a s k : find_from (fun c => negb (mem c [c_sp])) (spaces a ++ s) k = find_from (fun c => negb (mem c [c_sp])) s (a + k).
Proof.
  revert k. induction a as [|a IH]; intros k; [reflexivity|]. unfold spaces in *. cbn [repeat app find_from].
  replace (negb (mem c_sp [c_sp])) with false by reflexivity. rewrite IH. f_equal. lia.
Qed.
Lemma first_after a c r : c <> c_sp -> find_first_not_of [c_sp] (spaces a ++ c :: r) = Some a.
Proof.
  intros N. unfold find_first_not_of. rewrite from_spaces. cbn [find_from]. destruct (mem c [c_sp]) eqn:M; [apply mem_sp in M; congruence|]. cbn [negb]. f_equal. lia.
Qed.
Lemma first_none a : find_first_not_of [c_sp] (spaces a) = None.
Proof. unfold find_first_not_of. rewrite <- (app_nil_r (spaces a)), from_spaces. reflexivity. Qed.
Lemma last_before p c b : c <> c_sp -> find_last_not_of [c_sp] (p ++ c :: spaces b) = Some (length p).
Proof.
  intros N. induction p as [|x p IH]; cbn [app find_last_not_of length].
  - rewrite (proj2 (find_last_not_of_None [c_sp] (spaces b)) (spaces_forallb b)). destruct (mem c [c_sp]) eqn:M; [apply mem_sp in M; congruence|reflexivity].
  - rewrite IH. reflexivity.
Qed.
(** every text is blank, or a text between blanks *)
Lemma lead s : exists a r, s = spaces a ++ r /\ (r = [] \/ exists c q, r = c :: q /\ c <> c_sp).
Proof.
  induction s as [|c s (a & r & -> & H)]; [exists 0, []; auto|]. destruct (ascii_dec c c_sp) as [->|N].
  - exists (S a), r. auto.
  - exists 0, (c :: spaces a ++ r). split; [reflexivity|]. right. eauto.
Qed.
Lemma trail s : exists r b, s = r ++ spaces b /\ (r = [] \/ exists c q, r = q ++ [c] /\ c <> c_sp).
Proof.
  destruct (find_last_not_of [c_sp] s) as [i|] eqn:E.
  - apply find_last_not_of_Some in E as (p & c & q & -> & _ & M & F). apply forallb_spaces in F. exists (p ++ [c]), (length q). rewrite <- F, <- app_assoc. split; [reflexivity|].
    right. exists c, p. split; [reflexivity|]. intros ->. discriminate.
  - apply find_last_not_of_None, forallb_spaces in E. exists [], (length s). rewrite <- E. auto.
Qed.
