From Verif Require Import Base Tags SyntaxTags Token SmashTab Smash Smash_spec.
Local Open Scope nat_scope.

Local Arguments asso : simpl never.
Lemma seqb_eq a b : seqb a b = true <-> a = b.
Proof.
  revert b. induction a as [|x a IH]; intros [|y b]; cbn; try (split; congruence).
  rewrite andb_true_iff, IH. unfold ceq. rewrite Ascii.eqb_eq. split; [intros [-> ->]; reflexivity|intros [= -> ->]; auto].
Qed.
Lemma c_str_inv s : c_str s = s \/ exists r, s = c_str s ++ c_nul :: r.
Proof.
  induction s as [|c s IH]; cbn; [auto|]. destruct (ceq c c_nul) eqn:E.
  - right. apply Ascii.eqb_eq in E. subst. exists s. reflexivity.
  - destruct IH as [IH|(r & IH)]; [left; congruence|]. right. exists r. cbn. congruence.
Qed.
Lemma hash_ok s : 4 <= length s -> exists k, hash s (length s) = Ok k.
Proof.
  intros H. unfold hash. destruct s as [|a [|b [|c [|d [|e [|f s]]]]]]; cbn in H; try lia; cbn; eauto.
  destruct s; cbn; eauto.
Qed.
(** a buffer with a word in front of a NUL hashes to another value *)
Definition key_of (w : str) : nat :=
  match hash w (length w) with Ok k => k | _ => 0 end.
Lemma hash_val s : 4 <= length s ->
  hash s (length s) = Ok (length s + (if length s <=? 6 then 0 else asso (nth 6 s c_nul)) + asso (nth 3 s c_nul)).
Proof.
  intros H. unfold hash. destruct s as [|a [|b [|c [|d [|e [|f [|g s]]]]]]]; cbn in H; try lia; cbn; f_equal; lia.
Qed.
Lemma padded w r : 4 <= length w -> let s := w ++ c_nul :: r in
  forall k, hash s (length s) = Ok k -> key_of w < k.
Proof.
  intros H s k. assert (LS : length s = length w + S (length r)) by (unfold s; now rewrite app_length).
  rewrite hash_val by lia. intros [= <-]. unfold key_of. rewrite hash_val by lia.
  assert (N3 : nth 3 s c_nul = nth 3 w c_nul) by (unfold s; apply app_nth1; lia). rewrite N3.
  destruct (Nat.leb_spec (length w) 6); [destruct (Nat.leb_spec (length s) 6); lia|].
  assert (N6 : nth 6 s c_nul = nth 6 w c_nul) by (unfold s; apply app_nth1; lia). rewrite N6.
  destruct (Nat.leb_spec (length s) 6); lia.
Qed.
Lemma switch_words : forallb (fun k => match switch k with
    | None => true
    | Some i => match nth_error wordlist i with
                | None => false
                | Some w => (key_of (sm_name w) =? k + 4) && (4 <=? length (sm_name w)) end end) (seq 0 28) = true.
Proof. vm_compute. reflexivity. Qed.
Lemma switch_word k i : switch k = Some i ->
  exists w, nth_error wordlist i = Some w /\ key_of (sm_name w) = k + 4 /\ 4 <= length (sm_name w).
Proof.
  intros E. assert (K : k < 28). { destruct (le_lt_dec 28 k) as [G|]; [|assumption]. exfalso. replace k with (28 + (k - 28)) in E by lia. discriminate E. }
  pose proof switch_words as W. rewrite forallb_forall in W. specialize (W k).
  rewrite in_seq in W. specialize (W ltac:(lia)). rewrite E in W. destruct (nth_error wordlist i) as [w|]; [|discriminate].
  apply andb_true_iff in W as [W1 W2]. apply Nat.eqb_eq in W1. apply Nat.leb_le in W2. eauto.
Qed.
Lemma in_word_set_ok s : exists r, in_word_set s = Ok r.
Proof.
  unfold in_word_set. destruct ((length s <=? 13) && (4 <=? length s)) eqn:E; [|eauto].
  apply andb_true_iff in E as [_ E]. apply Nat.leb_le in E. destruct (hash_ok s E) as (k & ->). cbn [bind].
  destruct ((k <=? 31) && (4 <=? k)); [|eauto].
  destruct (switch (k - 4)) as [i|] eqn:SW; [|eauto]. destruct (switch_word _ _ SW) as (w' & -> & _). destruct (seqb _ _); eauto.
Qed.
Lemma accepted s w : in_word_set s = Ok (Some w) -> In w wordlist /\ s = sm_name w.
Proof.
  unfold in_word_set. destruct ((length s <=? 13) && (4 <=? length s)) eqn:E; [|discriminate].
  destruct (hash s (length s)) as [k| |] eqn:H; try discriminate. cbn [bind].
  destruct ((k <=? 31) && (4 <=? k)) eqn:EK; [|discriminate]. apply andb_true_iff in EK as [_ EK]. apply Nat.leb_le in EK.
  destruct (switch (k - 4)) as [i|] eqn:SW; [|discriminate]. destruct (switch_word _ _ SW) as (w' & N & K & L4). rewrite N.
  destruct (seqb (c_str s) (sm_name w')) eqn:SE; [|discriminate]. intros [= <-]. apply seqb_eq in SE.
  split; [eapply nth_error_In; exact N|].
  destruct (c_str_inv s) as [C|(r & C)]; [congruence|]. exfalso. rewrite SE in C. subst s.
  pose proof (padded (sm_name w') r L4 k H). lia.
Qed.
Definition pair_ok (w : smashed) (e : string * Z * string * Z) : bool :=
  let '(a, t1, b, t2) := e in
  seqb (sm_name w) (L a ++ L b) && (tok1 w =? t1)%Z && (tok2 w =? t2)%Z && (splitpos w =? length (L a)).
Lemma words_listed : forallb (fun w => existsb (pair_ok w) adjacent_keywords) wordlist = true.
Proof. vm_compute. reflexivity. Qed.
Lemma listed_found : forallb (fun '(a, t1, b, t2) => match in_word_set (L a ++ L b) with Ok (Some w) => pair_ok w (a, t1, b, t2) | _ => false end)
   adjacent_keywords = true.
Proof. vm_compute. reflexivity. Qed.

Lemma recognised s w : in_word_set s = Ok (Some w) ->
  is_smashed s (firstn (splitpos w) s) (tok1 w) (skipn (splitpos w) s) (tok2 w).
Proof.
  intros H. apply accepted in H as (I & ->). pose proof words_listed as W. rewrite forallb_forall in W. specialize (W w I).
  apply existsb_exists in W as ([[[a t1] b] t2] & IE & P). unfold pair_ok in P.
  apply andb_true_iff in P as [P P4]. apply andb_true_iff in P as [P P3]. apply andb_true_iff in P as [P1 P2].
  apply seqb_eq in P1. apply Z.eqb_eq in P2, P3. apply Nat.eqb_eq in P4. subst t1 t2.
  exists a, b. rewrite P1, P4.
  rewrite firstn_app, firstn_all, Nat.sub_diag, skipn_app, skipn_all, Nat.sub_diag. cbn [firstn skipn app]. rewrite app_nil_r. auto.
Qed.
Lemma found s w1 t1 w2 t2 : is_smashed s w1 t1 w2 t2 -> exists w, in_word_set s = Ok (Some w) /\ tok1 w = t1 /\ tok2 w = t2 /\ splitpos w = length w1.
Proof.
  intros (a & b & I & -> & -> & ->). pose proof listed_found as W. rewrite forallb_forall in W. specialize (W _ I). cbn beta iota in W.
  destruct (in_word_set (L a ++ L b)) as [[w|]| |]; try discriminate. exists w.
  apply andb_true_iff in W as [P P4]. apply andb_true_iff in P as [P P3]. apply andb_true_iff in P as [P1 P2].
  apply Z.eqb_eq in P2, P3. apply Nat.eqb_eq in P4. auto.
Qed.
Lemma unsmash_ok before x : exists r, unsmash (before ++ [x]) = Ok r /\
  ((tok x <> TK_NAME /\ r = before ++ [x]) \/
   (tok x = TK_NAME /\ (forall w1 t1 w2 t2, ~ is_smashed (map lower_b (tk_text x)) w1 t1 w2 t2) /\ r = before ++ [x]) \/
   (tok x = TK_NAME /\ exists w1 t1 w2 t2 x1 x2, is_smashed (map lower_b (tk_text x)) w1 t1 w2 t2 /\
      r = before ++ [x1; x2] /\ tk_text x1 ++ tk_text x2 = tk_text x /\ map lower_b (tk_text x1) = w1 /\ map lower_b (tk_text x2) = w2 /\
      tok x1 = t1 /\ tok x2 = t2 /\ tk_line x1 = tk_line x /\ tk_line x2 = tk_line x /\
      tk_pos x1 = tk_pos x /\ tk_pos x2 = (tk_pos x + zlen w1)%Z /\ tk_post x1 = Some 0%Z /\ tk_pre x2 = Some 0%Z)).
Proof.
  unfold unsmash. rewrite rev_app_distr. cbn [rev app]. destruct (Z.eqb_spec (tok x) TK_NAME) as [E|N]; cbn [negb]; [|eauto].
  destruct (in_word_set_ok (map lower_b (tk_text x))) as ([w|] & R); rewrite R; cbn [bind].
  - pose proof (recognised _ _ R) as SM. destruct SM as (a & b & I & E1 & E2 & EA).
    pose proof (found _ _ _ _ _ (recognised _ _ R)) as (w' & R' & _ & _ & SP). rewrite R in R'. injection R' as <-.
    assert (SL : splitpos w <= length (tk_text x)).
    { rewrite <- (map_length lower_b). rewrite firstn_length in SP. lia. }
    unfold erase_from, erase_n. destruct (Nat.leb_spec (splitpos w) (length (tk_text x))); [|lia].
    cbn [bind Nat.leb firstn app plus]. rewrite rev_involutive. eexists. split; [reflexivity|]. right; right. split; [exact E|].
    exists (firstn (splitpos w) (map lower_b (tk_text x))), (tok1 w), (skipn (splitpos w) (map lower_b (tk_text x))), (tok2 w).
    eexists. eexists. split; [exact (recognised _ _ R)|]. split; [reflexivity|]. cbn.
    split; [apply firstn_skipn|]. split; [symmetry; apply firstn_map|]. split; [symmetry; apply skipn_map|].
    repeat (split; [reflexivity|]). split; [unfold zlen; now rewrite <- SP|]. auto.
  - eexists. split; [reflexivity|]. right; left. split; [exact E|]. split; [|reflexivity].
    intros w1 t1 w2 t2 SM. destruct (found _ _ _ _ _ SM) as (w & R' & _). congruence.
Qed.
