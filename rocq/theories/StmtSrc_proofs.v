From Verif Require Import Base Base_lemmas Tags SyntaxTags FileLine Token Stmts LogicalLine StmtSrc StmtSrc_spec.
Local Open Scope nat_scope.

Definition okline (l : LLn) : Prop := has_stmts l = true -> l_suppress l = false /\ is_macro (l_cat l) = false.

(** the lines i..: those skipped *)
Definition skipped (ls : list LLn) (i j : nat) : list nat :=
  filter (fun k => line_at ls k (fun l => negb (l_suppress l))) (seq i (j - i)).

Lemma nth_error_skipn {A} (l : list A) n : nth_error l n = hd_error (skipn n l).
Proof. revert l; induction n; destruct l; cbn; auto. Qed.
Lemma skipn_S_of {A} (l : list A) n x r : skipn n l = x :: r -> skipn (S n) l = r.
Proof. intros H. change (S n) with (1 + n). rewrite Nat.add_comm, <- skipn_add, H. reflexivity. Qed.

Lemma skip_prefix_spec all : forall ls i pre, skipn i all = ls ->
  exists j, i <= j /\ j <= i + length ls /\
    skip_prefix ls i pre = (pre ++ skipped all i j, skipn j all, j) /\
    (forall k, i <= k < j -> line_at all k (fun l => negb (has_stmts l)) = true) /\
    (forall l r, skipn j all = l :: r -> has_stmts l = true).
Proof.
  induction ls as [|l r IH]; intros i pre E; cbn [skip_prefix].
  - exists i. unfold skipped. rewrite Nat.sub_diag, E. cbn. rewrite app_nil_r.
    conjs; auto; try lia; try discriminate.
  - assert (N : nth_error all i = Some l) by (rewrite nth_error_skipn, E; reflexivity).
    destruct (is_empty (l_stmts l)) eqn:EM.
    + destruct (IH (S i) (if l_suppress l then pre else pre ++ [i])) as (j & J1 & J2 & J3 & J4 & J5).
      { eapply skipn_S_of; eauto. }
      exists j. cbn [length]. conjs; try lia; auto.
      * rewrite J3. do 2 f_equal. unfold skipped. replace (j - i) with (S (j - S i)) by lia. cbn [seq filter].
        unfold line_at at 2. rewrite N. destruct (l_suppress l); cbn [negb]; auto. now rewrite <- app_assoc.
      * intros k K. destruct (Nat.eq_dec k i) as [->|]; [|apply J4; lia].
        unfold line_at, has_stmts. rewrite N, EM. reflexivity.
    + exists i. unfold skipped. rewrite Nat.sub_diag. cbn. rewrite app_nil_r, E.
      conjs; auto; try lia. intros l' r' [= <- <-]. unfold has_stmts. now rewrite EM.
Qed.

Lemma filter_ext_in_ {A} (p q : A -> bool) l : (forall x, In x l -> p x = q x) -> filter p l = filter q l.
Proof.
  induction l as [|x l IH]; intros H; cbn; auto. rewrite (H x) by now left.
  destruct (q x); rewrite IH; auto; intros y Y; apply H; now right.
Qed.
Lemma filter_none {A} (p : A -> bool) l : (forall x, In x l -> p x = false) -> filter p l = [].
Proof.
  induction l as [|x l IH]; intros H; cbn; auto. rewrite (H x) by now left. apply IH. intros y Y; apply H; now right.
Qed.
Lemma filter_app_s {A} (p : A -> bool) a b : filter p (a ++ b) = filter p a ++ filter p b.
Proof. induction a as [|x a IH]; cbn; auto. destruct (p x); cbn; now rewrite IH. Qed.

(** i = 0 or line i-1 has statements; lines i..j-1 have none *)
Lemma prefix_of_skipped all i j : i <= j -> j < length all ->
  (i = 0 \/ line_at all (i - 1) has_stmts = true) ->
  (forall k, i <= k < j -> line_at all k (fun l => negb (has_stmts l)) = true) ->
  prefix_of all j = skipped all i j.
Proof.
  intros IJ JL B N. unfold prefix_of, skipped.
  replace (seq 0 j) with (seq 0 i ++ seq i (j - i)) by (rewrite <- seq_app; f_equal; lia).
  rewrite filter_app_s. rewrite filter_none.
  - cbn [app]. apply filter_ext_in_. intros k K. apply in_seq in K.
    destruct (line_at all k (fun l => negb (l_suppress l))); auto. cbn [andb].
    apply forallb_forall. intros m M. apply in_seq in M. apply N. lia.
  - intros k K. apply in_seq in K. destruct B as [->|B]; [lia|].
    apply andb_false_iff. right. destruct (forallb _ _) eqn:F; auto.
    rewrite forallb_forall in F. specialize (F (i - 1)). rewrite in_seq in F.
    specialize (F ltac:(lia)). unfold line_at in *. destruct (nth_error all (i - 1)); [|discriminate].
    rewrite B in F. discriminate.
Qed.

Lemma line_stmts_tail i rs : forall c,
  line_stmts i rs 0 c [] = map (fun k => mkStmt (Some i) (nth k rs (0, 0)) 0 (c + Z.of_nat k)%Z []) (seq 0 (length rs)).
Proof.
  induction rs as [|r rs IH]; intros c; [reflexivity|]. cbn [line_stmts length seq map nth].
  f_equal; [f_equal; lia|]. rewrite IH, <- seq_shift, map_map. apply map_ext. intros k. cbn [nth]. f_equal. lia.
Qed.

Lemma line_stmts_spec all i l pre : nth_error all i = Some l -> prefix_of all i = pre ->
  line_stmts i (l_stmts l) (l_label l) (if (1 <? length (l_stmts l))%nat then 1 else 0)%Z pre = stmts_of_line all i.
Proof.
  intros N P. unfold stmts_of_line. rewrite N. unfold nth_stmt. rewrite P.
  destruct (l_stmts l) as [|r rs]; [reflexivity|]. cbn [line_stmts length seq map nth].
  f_equal.
  - cbn [Nat.eqb]. destruct rs; reflexivity.
  - rewrite line_stmts_tail, <- seq_shift, map_map. apply map_ext_in. intros k K. apply in_seq in K. cbn [nth Nat.eqb].
    destruct rs as [|r' rs]; [cbn in K; lia|]. cbn [length Nat.ltb Nat.leb Nat.eqb]. f_equal. lia.
Qed.

(** position invariant: at line i, everything before has been produced *)
Definition at_boundary (all : list LLn) (i : nat) : Prop :=
  i = 0 \/ line_at all (i - 1) has_stmts = true.

Lemma refill_spec all i : Forall okline all -> at_boundary all i -> i <= length all ->
  exists j, i <= j /\ (
   (j = length all /\ refill (skipn i all) i = Ok ([], [], j) /\
      (forall k, i <= k < j -> stmts_of_line all k = [])) \/
   (j < length all /\ stmts_of_line all j <> [] /\ at_boundary all (S j) /\
      refill (skipn i all) i = Ok (stmts_of_line all j, skipn (S j) all, S j) /\
      (forall k, i <= k < j -> stmts_of_line all k = []))).
Proof.
  intros F B LE. destruct (skip_prefix_spec all (skipn i all) i [] eq_refl) as (j & J1 & J2 & J3 & J4 & J5).
  exists j. split; auto. unfold refill. rewrite J3. cbn [app].
  rewrite skipn_length in J2.
  assert (EM : forall k, i <= k < j -> stmts_of_line all k = []).
  { intros k K. apply J4 in K. unfold stmts_of_line, line_at, has_stmts in *.
    destruct (nth_error all k) as [l|]; auto. destruct (l_stmts l); [reflexivity|discriminate]. }
  destruct (skipn j all) as [|l r] eqn:E.
  - left. assert (length (skipn j all) = 0) as Z by now rewrite E. rewrite skipn_length in Z.
    conjs; auto. lia.
  - right. assert (N : nth_error all j = Some l) by (rewrite nth_error_skipn, E; reflexivity).
    assert (JL : j < length all) by (apply nth_error_Some; congruence).
    specialize (J5 l r eq_refl).
    rewrite Forall_forall in F. destruct (F l) as [S M]; [eapply nth_error_In; eauto|auto|].
    rewrite S, M. cbn [negb assert_ bind].
    rewrite (line_stmts_spec all j l) by (auto; apply (prefix_of_skipped all i j); auto).
    rewrite (skipn_S_of _ _ _ _ E). conjs; auto.
    + unfold stmts_of_line. rewrite N. unfold has_stmts in J5. destruct (l_stmts l); discriminate.
    + right. replace (Datatypes.S j - 1) with j by lia. unfold line_at. now rewrite N.
Qed.

(** what is still to come *)
Definition pending (all : list LLn) (s : Src) : list LL_Stmt :=
  tl (src_buf s) ++ flat_map (stmts_of_line all) (seq (src_i s) (length all - src_i s)).
Definition inv (all : list LLn) (s : Src) : Prop :=
  src_rest s = skipn (src_i s) all /\ src_i s <= length all /\ at_boundary all (src_i s) .

Lemma flat_map_nil {A B} (f : A -> list B) l : (forall x, In x l -> f x = []) -> flat_map f l = [].
Proof.
  induction l as [|x l IH]; intros H; cbn; auto. rewrite (H x) by now left. apply IH. intros y Y. apply H. now right.
Qed.

Lemma more_avail_mono f : forall s r, more_avail f s = Some r -> forall g, f <= g -> more_avail g s = Some r.
Proof.
  induction f as [|f IH]; intros s r; [discriminate|]. intros H [|g] G; [lia|]. cbn [more_avail] in *.
  destruct (src_buf s); auto. destruct (src_rest s); auto.
  destruct (refill _ _) as [[[b q] j]| |]; auto. apply IH; auto. lia.
Qed.

(** advance: either the end, or the next pending statement at the head of buf *)
Lemma advance_spec all s : Forall okline all -> inv all s ->
  forall f, 3 <= f ->
  exists b s', src_advance f s = Some (Ok (b, s')) /\
    match pending all s with
    | [] => b = false
    | x :: p => b = true /\ (exists t, src_buf s' = x :: t) /\ inv all s' /\ pending all s' = p
    end.
Proof.
  intros F I f HF. unfold src_advance. cbn [src_buf].
  destruct I as (I1 & I2 & I3). unfold pending.
  destruct (tl (src_buf s)) as [|x t] eqn:T.
  2:{ do 2 eexists. split; [reflexivity|]. cbn [src_buf src_i tl app]. conjs; eauto. unfold inv. cbn. auto. }
  cbn [app].
  destruct f as [|[|[|f]]]; try lia.
  destruct (refill_spec all (src_i s) F I3 I2) as (j & J1 & [(J2 & J3 & J4)|(J2 & J3 & J4 & J5 & J6)]).
  - (* end *)
    rewrite flat_map_nil.
    2:{ intros k K. apply in_seq in K. apply J4. lia. }
    cbn [more_avail src_buf src_rest src_i]. rewrite I1 in *. 
    destruct (skipn (src_i s) all) as [|l r] eqn:E.
    + do 2 eexists. split; reflexivity.
    + rewrite J3. cbn [src_buf src_rest]. do 2 eexists. split; reflexivity.
  - assert (SP : seq (src_i s) (length all - src_i s) = seq (src_i s) (j - src_i s) ++ j :: seq (S j) (length all - S j)).
    { replace (length all - src_i s) with ((j - src_i s) + S (length all - S j)) by lia.
      rewrite seq_app. f_equal. replace (src_i s + (j - src_i s)) with j by lia. reflexivity. }
    rewrite SP, flat_map_app, flat_map_nil.
    2:{ intros k K. apply in_seq in K. apply J6. lia. }
    cbn [app flat_map].
    cbn [more_avail src_buf src_rest src_i]. rewrite I1 in *.
    destruct (skipn (src_i s) all) as [|l r] eqn:E.
    { assert (length (skipn (src_i s) all) = 0) as Z by now rewrite E. rewrite skipn_length in Z. lia. }
    rewrite J5. cbn [src_buf src_rest].
    destruct (stmts_of_line all j) as [|x t] eqn:ST; [congruence|].
    do 2 eexists. split; [reflexivity|]. cbn [is_empty negb app]. conjs; auto.
    + cbn. eauto.
    + unfold inv. cbn. conjs; auto.
Qed.

Lemma make_stmts_spec all : Forall okline all -> forall p s, inv all s -> pending all s = p ->
  forall f, 3 + length p <= f -> make_stmts_loop f s = Some (Ok p).
Proof.
  intros F. induction p as [|x p IH]; intros s I P f HF; (destruct f as [|f]; [cbn in HF; lia|]);
    destruct (advance_spec all s F I (S f)) as (b & s' & E & A); try (cbn in HF; lia);
    cbn [make_stmts_loop]; rewrite E; rewrite P in A.
  - rewrite A. reflexivity.
  - destruct A as (-> & (t & T) & I' & P'). rewrite T, (IH s' I' P' f); auto. cbn [length] in HF. lia.
Qed.

Lemma make_stmts_main all : 
  (forall l, In l all -> l_stmts l <> [] -> l_suppress l = false /\ l_cat l <> CAT_MACRO) ->
  exists n, forall f, n <= f -> make_stmts f all = Some (Ok (stmts_of_file all)).
Proof.
  intros H. exists (3 + length (stmts_of_file all)). intros f HF. unfold make_stmts.
  apply make_stmts_spec with (all := all); auto.
  - apply Forall_forall. intros l I S. destruct (H l I) as [A B].
    + unfold has_stmts in S. destruct (l_stmts l); [discriminate|discriminate].
    + split; auto. destruct (l_cat l); auto; congruence.
  - unfold inv. cbn. conjs; auto; try lia. now left.
  - unfold pending. cbn. unfold stmts_of_file. now rewrite Nat.sub_0_r.
Qed.

(** without hypotheses: a suppressed line with statements is an assertion
    failure as soon as it is reached; so any normal result has none *)
