From Coq Require Import Lia.
From Verif Require Import Base Base_lemmas Tags SyntaxTags FileLine LogicalFile LogicalLine Token Stmts Stmts_spec Stmts_proofs StmtSrc StmtSrc_spec StmtSrc_proofs
  Peg Lexer LineEdit StmtEdit StmtEdit_spec.
Local Open Scope nat_scope.

(** ** The statements of a file, line by line *)
Definition bare (l : LLn) : bool := is_empty (l_stmts l).
Fixpoint sts (i : nat) (pre : list nat) (ls : list LLn) : list LL_Stmt :=
  match ls with
  | [] => []
  | l :: r =>
      if bare l then sts (S i) (if l_suppress l then pre else pre ++ [i]) r
      else line_stmts i (l_stmts l) (l_label l) (if (1 <? length (l_stmts l))%nat then 1 else 0)%Z pre ++ sts (S i) [] r
  end.
Fixpoint pend (i : nat) (pre : list nat) (ls : list LLn) : list nat :=
  match ls with
  | [] => pre
  | l :: r => if bare l then pend (S i) (if l_suppress l then pre else pre ++ [i]) r else pend (S i) [] r
  end.
Lemma sts_app A : forall i pre B, sts i pre (A ++ B) = sts i pre A ++ sts (i + length A) (pend i pre A) B.
Proof.
  induction A as [|l A IH]; intros i pre B; cbn [app sts pend length]; [now rewrite Nat.add_0_r|].
  rewrite <- Nat.add_succ_comm. destruct (bare l); [apply IH|]. now rewrite IH, app_assoc.
Qed.
Lemma pend_app A : forall i pre B, pend i pre (A ++ B) = pend (i + length A) (pend i pre A) B.
Proof.
  induction A as [|l A IH]; intros i pre B; cbn [app pend length]; [now rewrite Nat.add_0_r|].
  rewrite <- Nat.add_succ_comm. destruct (bare l); apply IH.
Qed.
Lemma seq_snoc n : forall a, seq a (S n) = seq a n ++ [a + n].
Proof. intros a. rewrite seq_S. reflexivity. Qed.
Lemma prefix_next all i l : nth_error all i = Some l ->
  prefix_of all (S i) = if bare l then prefix_of all i ++ (if l_suppress l then [] else [i]) else [].
Proof.
  intros N. unfold prefix_of. rewrite seq_snoc, filter_app_s. cbn [filter Nat.add].
  assert (LA : forall q, line_at all i q = q l) by (intros q; unfold line_at; now rewrite N).
  assert (E : forall j, j <= i -> forallb (fun k => line_at all k (fun l => negb (has_stmts l))) (seq j (S i - j)) =
     forallb (fun k => line_at all k (fun l => negb (has_stmts l))) (seq j (i - j)) && bare l).
  { intros j Hj. replace (S i - j) with (S (i - j)) by lia. rewrite seq_snoc, forallb_app. cbn [forallb]. replace (j + (i - j)) with i by lia.
    rewrite LA. unfold has_stmts, bare. now rewrite negb_involutive, andb_true_r. }
  rewrite (E i) by lia. rewrite Nat.sub_diag, LA. cbn [seq forallb]. rewrite andb_true_l. destruct (bare l) eqn:B.
  - rewrite andb_true_r. f_equal; [|now destruct (l_suppress l)]. apply filter_ext_in_. intros j Hj. apply in_seq in Hj. rewrite E by lia. now rewrite andb_true_r.
  - rewrite andb_false_r, app_nil_r. apply filter_none. intros j Hj. apply in_seq in Hj. rewrite E by lia. now rewrite !andb_false_r.
Qed.
Lemma sts_file_gen all : forall n i, i + n = length all ->
  flat_map (stmts_of_line all) (seq i n) = sts i (prefix_of all i) (skipn i all).
Proof.
  induction n as [|n IH]; intros i H; [rewrite skipn_all2 by lia; reflexivity|]. cbn [seq flat_map].
  destruct (nth_error all i) as [l|] eqn:N; [|apply nth_error_None in N; lia].
  destruct (skipn i all) as [|l' r] eqn:ES; [rewrite nth_error_skipn, ES in N; discriminate|]. rewrite nth_error_skipn, ES in N. injection N as ->.
  assert (N : nth_error all i = Some l) by (rewrite nth_error_skipn, ES; reflexivity).
  cbn [sts]. rewrite IH by lia. rewrite (skipn_S_of _ _ _ _ ES), (prefix_next _ _ _ N).
  destruct (bare l) eqn:B.
  - replace (stmts_of_line all i) with (@nil LL_Stmt); [|unfold stmts_of_line; rewrite N; unfold bare in B; destruct (l_stmts l); [reflexivity|discriminate]].
    cbn [app]. destruct (l_suppress l); [now rewrite app_nil_r|reflexivity].
  - rewrite <- (line_stmts_spec all i l _ N eq_refl). reflexivity.
Qed.
Lemma sts_file all : stmts_of_file all = sts 0 [] all.
Proof. unfold stmts_of_file. rewrite (sts_file_gen all (length all) 0 eq_refl). reflexivity. Qed.

(** renumbering *)
Definition bump_m (k : nat) (m : LL_Stmt) : LL_Stmt :=
  mkStmt (option_map (bump k) (s_line m)) (s_range m) (s_label m) (s_compound m) (map (bump k) (s_prefix m)).
Lemma line_stmts_bump k i rs : forall lab c pre, map (bump_m k) (line_stmts i rs lab c pre) = line_stmts (bump k i) rs lab c (map (bump k) pre).
Proof. induction rs as [|r rs IH]; intros lab c pre; [reflexivity|]. cbn [line_stmts map]. rewrite IH. reflexivity. Qed.
Lemma bump_hi k i : k <= i -> bump k i = S i.
Proof. intros H. unfold bump. apply Nat.leb_le in H. now rewrite H. Qed.
Lemma bump_lo k i : i < k -> bump k i = i.
Proof. intros H. unfold bump. apply Nat.leb_gt in H. now rewrite H. Qed.
Lemma sts_bump k ls : forall i pre, k <= i -> map (bump_m k) (sts i pre ls) = sts (S i) (map (bump k) pre) ls.
Proof.
  induction ls as [|l ls IH]; intros i pre H; [reflexivity|]. cbn [sts]. destruct (bare l).
  - rewrite IH by lia. f_equal. destruct (l_suppress l); [reflexivity|]. rewrite map_app. cbn [map]. now rewrite bump_hi.
  - rewrite map_app, IH by lia. rewrite line_stmts_bump, bump_hi by lia. reflexivity.
Qed.
Lemma bump_none k pre : Forall (fun j => j < k) pre -> map (bump k) pre = pre.
Proof. induction 1 as [|j pre A B IH]; [reflexivity|]. cbn [map]. now rewrite IH, bump_lo. Qed.
Lemma line_stmts_keep k i rs : i < k -> forall lab c pre, Forall (fun j => j < k) pre -> map (bump_m k) (line_stmts i rs lab c pre) = line_stmts i rs lab c pre.
Proof. intros H lab c pre P. now rewrite line_stmts_bump, bump_lo, bump_none. Qed.
Lemma sts_keep k ls : forall i pre, i + length ls <= k -> Forall (fun j => j < k) pre -> map (bump_m k) (sts i pre ls) = sts i pre ls.
Proof.
  induction ls as [|l ls IH]; intros i pre H P; [reflexivity|]. cbn [length] in H. cbn [sts]. destruct (bare l).
  - apply IH; [lia|]. destruct (l_suppress l); [exact P|]. apply Forall_app. split; [exact P|]. constructor; [lia|constructor].
  - rewrite map_app, line_stmts_keep by (auto; lia). rewrite IH by (auto; lia). reflexivity.
Qed.
Lemma pend_lt ls : forall i pre k, i + length ls <= k -> Forall (fun j => j < k) pre -> Forall (fun j => j < k) (pend i pre ls).
Proof.
  induction ls as [|l ls IH]; intros i pre k H P; [exact P|]. cbn [length] in H. cbn [pend]. destruct (bare l); apply IH; auto; try lia.
  destruct (l_suppress l); [exact P|]. apply Forall_app. split; [exact P|]. constructor; [lia|constructor].
Qed.

(** ** Where a statement is *)
Lemma line_stmts_len i rs : forall lab c pre, length (line_stmts i rs lab c pre) = length rs.
Proof. induction rs as [|r rs IH]; intros; cbn [line_stmts length]; [|rewrite IH]; reflexivity. Qed.
Lemma line_stmts_app i a : forall b lab c pre, line_stmts i (a ++ b) lab c pre =
  line_stmts i a lab c pre ++ (match a with [] => line_stmts i b lab c pre | _ => line_stmts i b 0 (c + Z.of_nat (length a)) [] end).
Proof.
  induction a as [|r a IH]; intros b lab c pre; [reflexivity|]. cbn [app line_stmts length]. rewrite IH. destruct a; cbn [app line_stmts length].
  - reflexivity.
  - do 4 f_equal. lia.
Qed.
Lemma sts_find ls : forall i pre p m, nth_error (sts i pre ls) p = Some m ->
  exists A l B k, ls = A ++ l :: B /\ p = length (sts i pre A) + k /\ k < length (l_stmts l) /\
    nth_error (line_stmts (i + length A) (l_stmts l) (l_label l) (if (1 <? length (l_stmts l))%nat then 1 else 0)%Z (pend i pre A)) k = Some m.
Proof.
  induction ls as [|l ls IH]; intros i pre p m H; [destruct p; discriminate|]. cbn [sts] in H. destruct (bare l) eqn:B.
  - apply IH in H as (A & l' & C & k & -> & E & K & N). exists (l :: A), l', C, k. cbn [sts pend length]. rewrite B. conjs; auto.
    now rewrite <- Nat.add_succ_comm.
  - destruct (Nat.ltb_spec p (length (l_stmts l))) as [Lp|Lp].
    + rewrite nth_error_app1 in H by (rewrite line_stmts_len; exact Lp). exists [], l, ls, p. cbn [app sts length pend]. conjs; auto. now rewrite Nat.add_0_r.
    + rewrite nth_error_app2 in H by (rewrite line_stmts_len; exact Lp). rewrite line_stmts_len in H.
      apply IH in H as (A & l' & C & k & -> & E & K & N). exists (l :: A), l', C, k. cbn [sts pend length app]. rewrite B. conjs; auto.
      * rewrite app_length, line_stmts_len. lia.
      * now rewrite <- Nat.add_succ_comm.
Qed.
Lemma line_stmts_nth i rs : forall lab c pre k m, nth_error (line_stmts i rs lab c pre) k = Some m ->
  exists r, nth_error rs k = Some r /\ m = mkStmt (Some i) r (if (k =? 0)%nat then lab else 0)%Z (c + Z.of_nat k)%Z (if k =? 0 then pre else []).
Proof.
  induction rs as [|r rs IH]; intros lab c pre k m H; [destruct k; discriminate|]. destruct k as [|k]; cbn [line_stmts nth_error] in H.
  - injection H as <-. exists r. cbn. rewrite Z.add_0_r. auto.
  - apply IH in H as (r' & N & ->). exists r'. split; [exact N|]. destruct k; cbn [Nat.eqb]; f_equal; lia.
Qed.

(** ** Statements of a part of a line *)
Lemma nth_error_firstn_lt {A} (l : list A) : forall n k, k < n -> nth_error (firstn n l) k = nth_error l k.
Proof. induction l as [|x l IH]; intros [|n] [|k] H; cbn; auto; try lia. apply IH. lia. Qed.
Lemma nth_error_skipn_add {A} (l : list A) n k : nth_error (skipn n l) k = nth_error l (n + k).
Proof. rewrite !nth_error_skipn. now rewrite skipn_add. Qed.
Definition shift_r (d : nat) (r : nat * nat) : nat * nat := (fst r + d, snd r + d).
Lemma init_shift l : forall i d sb, fst (init_stmts_loop l (i + d) (option_map (fun b => b + d) sb)) = map (shift_r d) (fst (init_stmts_loop l i sb)).
Proof.
  induction l as [|x l IH]; intros i d sb; cbn [init_stmts_loop].
  - destruct sb as [b|]; cbn [option_map]; [|reflexivity]. replace (b + d =? i + d) with (b =? i); [destruct (b =? i); reflexivity|].
    destruct (Nat.eqb_spec b i), (Nat.eqb_spec (b + d) (i + d)); auto; lia.
  - change (S (i + d)) with (S i + d). destruct (is_semi x).
    + pose proof (IH (S i) d None) as E. cbn [option_map] in E. destruct (init_stmts_loop l (S i + d) None) as [s n], (init_stmts_loop l (S i) None) as [s' n'].
      cbn [fst] in *. subst s. destruct sb as [b|]; cbn [option_map].
      * replace (b + d =? i + d) with (b =? i); [destruct (b =? i); reflexivity|]. destruct (Nat.eqb_spec b i), (Nat.eqb_spec (b + d) (i + d)); auto; lia.
      * rewrite !Nat.eqb_refl. reflexivity.
    + destruct sb as [b|]; cbn [option_map]; [apply (IH (S i) d (Some b))|apply (IH (S i) d (Some i))].
Qed.
Lemma init_app_gen Y : forall i sb z Z, is_semi z = true ->
  fst (init_stmts_loop (Y ++ z :: Z) i sb) = fst (init_stmts_loop Y i sb) ++ fst (init_stmts_loop (z :: Z) (i + length Y) None).
Proof.
  induction Y as [|y Y IH]; intros i sb z Z Hz.
  - cbn [app length]. rewrite Nat.add_0_r. cbn [init_stmts_loop]. rewrite Hz, Nat.eqb_refl. destruct (init_stmts_loop Z (S i) None) as [s n]. cbn [fst].
    destruct sb as [b|]; [destruct (b =? i); reflexivity|]. rewrite Nat.eqb_refl. reflexivity.
  - cbn [app length]. rewrite <- Nat.add_succ_comm. cbn [init_stmts_loop]. destruct (is_semi y).
    + pose proof (IH (S i) None z Z Hz) as E. cbn [init_stmts_loop] in E. destruct (init_stmts_loop (Y ++ z :: Z) (S i) None) as [s n], (init_stmts_loop Y (S i) None) as [s' n'].
      cbn [fst] in *. subst s. match goal with |- (if ?c then _ else _) = _ => destruct c end; reflexivity.
    + apply (IH (S i) _ z Z Hz).
Qed.
Lemma init_app Y z Z : is_semi z = true -> fst (init_stmts (Y ++ z :: Z)) = fst (init_stmts Y) ++ map (shift_r (length Y)) (fst (init_stmts (z :: Z))).
Proof.
  intros H. unfold init_stmts. rewrite (init_app_gen Y 0 None z Z H). f_equal. cbn [Nat.add].
  exact (init_shift (z :: Z) 0 (length Y) None).
Qed.
Lemma init_semis S0 : forall Z, Forall (fun x => is_semi x = true) S0 -> fst (init_stmts (S0 ++ Z)) = map (shift_r (length S0)) (fst (init_stmts Z)).
Proof.
  unfold init_stmts. assert (G : forall Z i, Forall (fun x => is_semi x = true) S0 -> fst (init_stmts_loop (S0 ++ Z) i None) = fst (init_stmts_loop Z (i + length S0) None)).
  { induction S0 as [|x S0 IH]; intros Z i F; [cbn [app length]; now rewrite Nat.add_0_r|]. inversion F as [|? ? F1 F2]. subst. cbn [app length init_stmts_loop].
    rewrite F1, Nat.eqb_refl. rewrite <- Nat.add_succ_comm, <- (IH Z (S i) F2). destruct (init_stmts_loop (S0 ++ Z) (S i) None). reflexivity. }
  intros Z F. rewrite G by exact F. exact (init_shift Z 0 (length S0) None).
Qed.
Lemma init_same l : forall l' i sb, map is_semi l = map is_semi l' -> init_stmts_loop l i sb = init_stmts_loop l' i sb.
Proof.
  induction l as [|x l IH]; intros [|y l'] i sb H; try discriminate; [reflexivity|]. cbn [map] in H. injection H as E H. cbn [init_stmts_loop]. rewrite E.
  destruct (is_semi y); [rewrite (IH l' _ _ H); reflexivity|apply IH; exact H].
Qed.
Lemma face_semi l l' : map face l = map face l' -> map is_semi l = map is_semi l'.
Proof.
  revert l'. induction l as [|x l IH]; intros [|y l'] H; try discriminate; [reflexivity|]. cbn [map] in *. injection H as E1 E2 H.
  rewrite (IH _ H). unfold is_semi. now rewrite E1.
Qed.
Lemma init_bounds l k r : nth_error (fst (init_stmts l)) k = Some r -> fst r < snd r /\ snd r <= length l.
Proof.
  intros N. pose proof (init_stmts_main l) as M. destruct (init_stmts l) as [st n]. destruct M as (_ & _ & F & _). cbn [fst] in N.
  apply nth_error_In in N. rewrite Forall_forall in F. apply F in N. tauto.
Qed.
(** a line cut behind its statement number [k] *)
Lemma cut_line fr k r r' j : let st := fst (init_stmts fr) in
  nth_error st k = Some r -> nth_error st (S k) = Some r' -> Forall (fun x => is_semi x = true) (firstn j (skipn (snd r) fr)) ->
  fst (init_stmts (firstn (snd r) fr)) = firstn (S k) st /\
  map (shift_r (snd r + j)) (fst (init_stmts (skipn (snd r + j) fr))) = skipn (S k) st /\
  snd r < length fr /\ snd r + j <= fst r'.
Proof.
  intros st N N' FJ.
  assert (B := init_bounds _ _ _ N). assert (B' := init_bounds _ _ _ N').
  assert (ORD : snd r < fst r'). { pose proof (init_stmts_main fr) as M. subst st. destruct (init_stmts fr) as [s n]. destruct M as (_ & _ & _ & M). eauto. }
  assert (HS : exists z, nth_error fr (snd r) = Some z /\ is_semi z = true).
  { pose proof (init_stmts_main fr) as M. subst st. destruct (init_stmts fr) as [s n]. destruct M as (_ & _ & F & _). cbn [fst] in *. apply nth_error_In in N.
    rewrite Forall_forall in F. apply F in N as (_ & _ & _ & _ & [E|E]); [lia|exact E]. }
  destruct HS as (z & NZ & SZ).
  assert (ES : exists Z, skipn (snd r) fr = z :: Z).
  { rewrite nth_error_skipn in NZ. destruct (skipn (snd r) fr) as [|z' Z]; [discriminate|]. injection NZ as ->. eauto. }
  destruct ES as (Z & ES).
  assert (EQ : st = fst (init_stmts (firstn (snd r) fr)) ++ map (shift_r (snd r)) (fst (init_stmts (z :: Z)))).
  { unfold st. rewrite <- (firstn_skipn (snd r) fr) at 1. rewrite ES, init_app by exact SZ. do 3 f_equal. rewrite firstn_length. lia. }
  set (U := fst (init_stmts (firstn (snd r) fr))) in *. set (V := map (shift_r (snd r)) (fst (init_stmts (z :: Z)))) in *.
  assert (LU : length U = S k).
  { assert (k < length U).
    { apply Nat.nle_gt. intros H. rewrite EQ, nth_error_app2 in N by exact H. unfold V in N. rewrite nth_error_map in N.
      destruct (nth_error _ (k - length U)) as [q|] eqn:Q; [|discriminate]. injection N as N. assert (fst r = fst q + snd r) by (rewrite <- N at 1; reflexivity). lia. }
    apply Nat.le_antisymm; [|lia]. apply Nat.nlt_ge. intros H1. rewrite EQ, nth_error_app1 in N' by exact H1. apply init_bounds in N'. rewrite firstn_length in N'. lia. }
  assert (E1 : U = firstn (S k) st) by (rewrite EQ, <- LU, firstn_app, Nat.sub_diag, firstn_O, app_nil_r, firstn_all; reflexivity).
  assert (E2 : V = skipn (S k) st) by (rewrite EQ, <- LU, skipn_app, Nat.sub_diag, skipn_all; reflexivity).
  assert (JL : snd r + j <= fst r').
  { apply Nat.nlt_ge. intros H. pose proof (init_stmts_main fr) as M. subst st. destruct (init_stmts fr) as [s n]. destruct M as (_ & _ & F & _). cbn [fst] in *. apply nth_error_In in N'.
    rewrite Forall_forall in F. apply F in N' as (_ & _ & NS & _). destruct (nth_error fr (fst r')) as [y|] eqn:Y; [|apply nth_error_None in Y; lia].
    assert (X := NS (fst r') y ltac:(lia) Y). rewrite Forall_forall in FJ. rewrite FJ in X; [discriminate|].
    replace (fst r') with (snd r + (fst r' - snd r)) in Y by lia. apply nth_error_In with (n := fst r' - snd r). 
    rewrite nth_error_firstn_lt by lia. rewrite nth_error_skipn_add. exact Y. }
  split; [exact E1|]. split; [|lia]. rewrite <- E2. unfold V. rewrite <- ES.
  rewrite <- (firstn_skipn j (skipn (snd r) fr)) at 1. rewrite init_semis by exact FJ. rewrite skipn_add. rewrite map_map.
  assert (LJ : length (firstn j (skipn (snd r) fr)) = j) by (rewrite firstn_length, skipn_length; lia). rewrite LJ.
  rewrite (Nat.add_comm (snd r) j). apply map_ext. intros (u & v). unfold shift_r. cbn [fst snd]. f_equal; lia.
Qed.

(** ** What split_after does to the tokens *)
Lemma rmap_map {A B C} (f : A -> res B) (g : B -> C) (h : A -> C) : (forall a b, f a = Ok b -> g b = h a) ->
  forall l l', rmap f l = Ok l' -> map g l' = map h l.
Proof.
  intros H. induction l as [|a l IH]; intros l' E; cbn [rmap] in E; [now injection E as <-|].
  apply bind_Ok in E as (b & E1 & E). apply bind_Ok in E as (r & E2 & E). injection E as <-. cbn [map]. now rewrite (H _ _ E1), (IH _ E2).
Qed.
Lemma shift_cols_face d a b : shift_cols d a = Ok b -> face b = face a.
Proof.
  unfold shift_cols. intros E. apply bind_Ok in E as (x & _ & E). apply bind_Ok in E as (y & _ & E). apply bind_Ok in E as (z & _ & E). now injection E as <-.
Qed.
Lemma move_lines_face d a b : move_lines d a = Ok b -> face b = face a.
Proof. unfold move_lines. intros E. apply bind_Ok in E as (x & _ & E). apply bind_Ok in E as (y & _ & E). now injection E as <-. Qed.
Lemma lead_semis_ok k : forall l, Forall (fun x => is_semi x = true) (firstn (lead_semis k l) l).
Proof. induction k as [|k IH]; intros [|x l]; cbn [lead_semis]; try constructor. destruct (is_semi x) eqn:E; cbn [firstn]; constructor; auto. Qed.
Lemma split_after_faces ll n l1 l2 : split_after ll n = Ok (l1, Some l2) ->
  n < length (l_frags ll) /\ l_frags l1 = firstn (S n) (l_frags ll) /\ l_label l1 = l_label ll /\ l_cat l1 = l_cat ll /\ l_suppress l1 = l_suppress ll /\
  l_label l2 = 0%Z /\ l_cat l2 = CAT_UNKNOWN /\ l_suppress l2 = false /\
  exists j, Forall (fun x => is_semi x = true) (firstn j (skipn (S n) (l_frags ll))) /\ map face (l_frags l2) = map face (skipn (S n + j) (l_frags ll)).
Proof.
  unfold split_after. intros E. destruct (n =? length (l_frags ll)); [discriminate|].
  destruct (nth_error (l_frags ll) n) as [x|] eqn:N; [|discriminate].
  assert (LN : n < length (l_frags ll)) by (apply nth_error_Some; rewrite N; discriminate). split; [exact LN|].
  apply bind_Ok in E as (sl & _ & E). apply bind_Ok in E as ([] & _ & E). apply bind_Ok in E as (f0 & _ & E). cbv zeta in E.
  apply bind_Ok in E as (k & _ & E). apply bind_Ok in E as (f & _ & E).
  set (after := skipn (S n) (l_frags ll)) in *. set (j := lead_semis k after) in *.
  apply bind_Ok in E as (((src & ex) & rem1) & EX & E).
  assert (FR : map face rem1 = map face (skipn j after)).
  { destruct (j <? k).
    - destruct (skipn j after) as [|y rest] eqn:ER; [discriminate|].
      apply bind_Ok in EX as (ec & _ & EX). apply bind_Ok in EX as (bc & _ & EX). apply bind_Ok in EX as ((sr & g) & _ & EX).
      apply bind_Ok in EX as (a & EA & EX). apply bind_Ok in EX as (rm & ER1 & EX). injection EX as _ _ <-.
      rewrite (rmap_map _ face face (move_lines_face 1) _ _ ER1), map_app, (rmap_map _ face face (shift_cols_face bc) _ _ EA), <- map_app, firstn_skipn. reflexivity.
    - apply bind_Ok in EX as (e & _ & EX). injection EX as _ _ <-. reflexivity. }
  destruct ex as [|e ex]; [discriminate|]. destruct rem1 as [|z rem1]; [discriminate|].
  apply bind_Ok in E as (up & _ & E). apply bind_Ok in E as (rem2 & ER2 & E). injection E as <- <-.
  cbn [l_frags l_label l_cat l_suppress]. conjs; auto. exists j. split; [apply lead_semis_ok|].
  rewrite (rmap_map _ face face (move_lines_face (-up)) _ _ ER2), FR. unfold after. rewrite skipn_add. reflexivity.
Qed.

(** ** Lists in step *)
Lemma F2_nth {A B} (R : A -> B -> Prop) l : forall m, length l = length m ->
  (forall x a b, nth_error l x = Some a -> nth_error m x = Some b -> R a b) -> Forall2 R l m.
Proof.
  induction l as [|a l IH]; intros [|b m] E H; try discriminate; constructor; [exact (H 0 a b eq_refl eq_refl)|].
  apply IH; [now injection E|]. intros x a' b' X Y. exact (H (S x) a' b' X Y).
Qed.
Lemma nth_F2 {A B} (R : A -> B -> Prop) l m : Forall2 R l m -> forall x a b, nth_error l x = Some a -> nth_error m x = Some b -> R a b.
Proof. induction 1 as [|a b l m H F IH]; intros [|x] a' b' X Y; try discriminate; cbn in X, Y; [congruence|eauto]. Qed.
Lemma F2_length {A B} (R : A -> B -> Prop) l m : Forall2 R l m -> length l = length m.
Proof. induction 1; cbn; congruence. Qed.
Lemma F2_map {A B C D} (R : A -> B -> Prop) (R' : C -> D -> Prop) f g l m : Forall2 R l m ->
  (forall a b, In b m -> R a b -> R' (f a) (g b)) -> Forall2 R' (map f l) (map g m).
Proof. induction 1 as [|a b l m H F IH]; intros G; constructor; [apply G; [now left|exact H]|]. apply IH. intros x y I. apply G. now right. Qed.
Lemma F2_impl {A B} (R R' : A -> B -> Prop) l m : (forall a b, R a b -> R' a b) -> Forall2 R l m -> Forall2 R' l m.
Proof. intros H. induction 1; constructor; auto. Qed.
Lemma nth_app_mid {A} (a : list A) x b : nth_error (a ++ x :: b) (length a) = Some x.
Proof. rewrite nth_error_app2, Nat.sub_diag by lia. reflexivity. Qed.
Lemma nth_bump {A} (X : list A) x y z B i : i <> length X ->
  nth_error (X ++ y :: z :: B) (bump (S (length X)) i) = nth_error (X ++ x :: B) i.
Proof.
  intros H. unfold bump. destruct (Nat.leb_spec (S (length X)) i).
  - rewrite !nth_error_app2 by lia. destruct (i - length X) as [|d] eqn:D; [lia|]. replace (S i - length X) with (S (S d)) by lia. reflexivity.
  - rewrite !nth_error_app1 by lia. reflexivity.
Qed.
Lemma line_stmts_in i rs lab c pre m : In m (line_stmts i rs lab c pre) -> s_line m = Some i.
Proof. intros H. apply In_nth_error in H as (k & H). apply line_stmts_nth in H as (r & _ & ->). reflexivity. Qed.
Lemma sts_in ls : forall i pre m, In m (sts i pre ls) -> exists j, s_line m = Some j /\ i <= j < i + length ls.
Proof.
  induction ls as [|l ls IH]; intros i pre m H; [destruct H|]. cbn [sts] in H. cbn [length]. destruct (bare l).
  - apply IH in H as (j & E & L). exists j. split; [exact E|lia].
  - apply in_app_or in H as [H|H]; [exists i; split; [eapply line_stmts_in; eauto|lia]|]. apply IH in H as (j & E & L). exists j. split; [exact E|lia].
Qed.

(** ** split_compound_before *)
Fixpoint upd (a : list FStmt) (b : list LL_Stmt) : list FStmt :=
  match a, b with s :: a', x :: b' => update_range s x :: upd a' b' | _, _ => a end.
Definition split_stmts (i n len : nat) (SA SL1 SL2 SB : list FStmt) (L2 : LLn) : list FStmt :=
  let f s := cut_stmt i n len (bump_stmt (S i) s) in
  map f SA ++ map f SL1 ++
  upd (map f SL2) (line_stmts (S i) (l_stmts L2) 0 (if (1 <? length (l_stmts L2))%nat then 1 else 0)%Z []) ++ map f SB.
Lemma upd_len a : forall b, length (upd a b) = length a.
Proof. induction a as [|s a IH]; intros [|x b]; cbn [upd length]; auto. Qed.
Section Split.
Variables (A : list LLn) (l : LLn) (B : list LLn) (k : nat) (r r' : nat * nat) (SA SL1 SL2 SB : list FStmt).
Let i := length A.
Let ls := A ++ l :: B.
Let fr := l_frags l.
Let pre := pend 0 [] A.
Hypothesis HR : Forall right ls.
Hypothesis Hk : nth_error (l_stmts l) k = Some r.
Hypothesis Hk' : nth_error (l_stmts l) (S k) = Some r'.
Hypothesis HA : Forall2 (agrees ls) SA (sts 0 [] A).
Hypothesis H1 : Forall2 (agrees ls) SL1 (line_stmts i (firstn (S k) (l_stmts l)) (l_label l) 1 pre).
Hypothesis H2 : Forall2 (agrees ls) SL2 (line_stmts i (skipn (S k) (l_stmts l)) 0 (2 + Z.of_nat k) []).
Hypothesis HB : Forall2 (agrees ls) SB (sts (S i) [] B).
Variables (l1 l2 : LLn).
Hypothesis HS : split_after l (snd r - 1) = Ok (l1, Some l2).
Let L1 := redo_stmts l1.
Let L2 := redo_stmts l2.
Let ls' := A ++ L1 :: L2 :: B.
Let f (s : FStmt) := cut_stmt i (S (snd r - 1)) (length fr) (bump_stmt (S i) s).
Let src := line_stmts (S i) (l_stmts L2) 0 (if (1 <? length (l_stmts L2))%nat then 1 else 0)%Z [].
Let stm' := split_stmts i (S (snd r - 1)) (length fr) SA SL1 SL2 SB L2.

Lemma right_l : l_stmts l = fst (init_stmts fr) /\ l_suppress l = false /\ l_cat l <> CAT_MACRO.
Proof using All.
  rewrite Forall_forall in HR. destruct (HR l) as (E & G); [apply in_or_app; right; now left|]. split; [exact E|]. apply G.
  intros X. rewrite X in Hk. destruct k; discriminate.
Qed.
Lemma r_pos : fst r < snd r /\ snd r <= length fr.
Proof using All. apply init_bounds with (k := k). rewrite <- (proj1 right_l). exact Hk. Qed.
Lemma parts : l_stmts L1 = firstn (S k) (l_stmts l) /\ snd r < length fr /\ length (l_frags L1) = snd r /\ l_frags L1 = firstn (snd r) fr /\
  l_label L1 = l_label l /\ right L1 /\ l_label L2 = 0%Z /\ right L2 /\ l_cat L2 = CAT_UNKNOWN /\ l_suppress L2 = false /\
  exists d, map (shift_r d) (l_stmts L2) = skipn (S k) (l_stmts l) /\ map face (l_frags L2) = map face (skipn d fr) /\ snd r <= d.
Proof using All.
  destruct right_l as (E & SU & CA). pose proof r_pos as (P1 & P2).
  destruct (split_after_faces _ _ _ _ HS) as (LN & F1 & LB1 & C1 & S1 & LB2 & C2 & S2 & j & FJ & FF).
  replace (S (snd r - 1)) with (snd r) in * by lia. fold fr in F1, FJ, FF.
  pose proof Hk as K. pose proof Hk' as K'. rewrite E in K, K'. destruct (cut_line fr k r r' j K K' FJ) as (U & V & LT & _).
  assert (X1 : l_stmts L1 = firstn (S k) (l_stmts l)).
  { unfold L1, redo_stmts. rewrite F1. rewrite (surjective_pairing (init_stmts (firstn (snd r) fr))). cbn [l_stmts]. rewrite U, E. reflexivity. }
  assert (Y1 : l_frags L1 = firstn (snd r) fr) by (unfold L1, redo_stmts; destruct (init_stmts (l_frags l1)); exact F1).
  assert (X2 : l_stmts L2 = fst (init_stmts (skipn (snd r + j) fr))).
  { unfold L2, redo_stmts. rewrite (surjective_pairing (init_stmts (l_frags l2))). cbn [l_stmts]. f_equal. unfold init_stmts. apply init_same. apply face_semi. exact FF. }
  assert (Y2 : l_frags L2 = l_frags l2) by (unfold L2, redo_stmts; destruct (init_stmts (l_frags l2)); reflexivity).
  assert (RF : forall q, right (redo_stmts q) <-> (fst (init_stmts (l_frags q)) <> [] -> l_suppress q = false /\ l_cat q <> CAT_MACRO)).
  { intros q. unfold right, redo_stmts. destruct (init_stmts (l_frags q)) as [u v] eqn:Q. cbn [l_stmts l_frags l_suppress l_cat]. rewrite Q. cbn [fst]. tauto. }
  conjs; auto.
  - rewrite Y1, firstn_length. lia.
  - unfold L1, redo_stmts. destruct (init_stmts (l_frags l1)). exact LB1.
  - apply RF. intros _. split; congruence.
  - unfold L2, redo_stmts. destruct (init_stmts (l_frags l2)). exact LB2.
  - apply RF. intros _. split; [exact S2|]. rewrite C2. discriminate.
  - unfold L2, redo_stmts. destruct (init_stmts (l_frags l2)). exact C2.
  - unfold L2, redo_stmts. destruct (init_stmts (l_frags l2)). exact S2.
  - exists (snd r + j). rewrite X2, Y2. split; [rewrite V, E; reflexivity|]. split; [exact FF|lia].
Qed.
Lemma len2 : length (l_stmts L2) = length SL2 /\ SL2 <> [] /\ length SL1 = S k /\ S k + length SL2 = length (l_stmts l).
Proof using All.
  destruct parts as (_ & _ & _ & _ & _ & _ & _ & _ & _ & _ & d & E & _ & _).
  apply F2_length in H2 as X2. apply F2_length in H1 as X1. rewrite line_stmts_len in X1, X2. rewrite <- E, map_length in X2.
  assert (S k < length (l_stmts l)) by (apply nth_error_Some; rewrite Hk'; discriminate).
  apply (f_equal (@length _)) in E. rewrite map_length, skipn_length in E. rewrite firstn_length in X1.
  repeat split; try lia. intros ->. cbn in X2. lia.
Qed.
Lemma agree_other s m j : agrees ls s m -> s_line m = Some j -> j <> i -> agrees ls' (f s) (bump_m (S i) m).
Proof using All.
  intros (E1 & E2 & E3 & E4 & E5 & E6 & E7) SLm NE. unfold f, cut_stmt, bump_stmt, bump_m, agrees. cbn [fs_line s_line]. rewrite E1, SLm. cbn [option_map].
  destruct (Nat.eqb_spec (bump (S i) j) i) as [X|X].
  { exfalso. unfold bump in X. destruct (Nat.leb_spec (S i) j); lia. }
  cbn [fs_line fs_beg fs_size fs_label fs_prefix fs_compound fs_end s_range s_label s_prefix s_compound s_line]. conjs; auto; [cbn [fs_prefix]; now rewrite E5|].
  destruct E7 as [E7|(E7 & (i0 & l0 & Q1 & Q2 & Q3))]; [now left|right]. split; [exact E7|].
  exists (bump (S i) i0), l0. cbn [s_line s_range option_map]. rewrite SLm in Q1. injection Q1 as <-. split; [reflexivity|]. split; [|exact Q3].
  unfold ls', i. rewrite (nth_bump A l L1 L2 B j) by exact NE. exact Q2.
Qed.
Lemma pre_lt : map (bump (S i)) pre = pre.
Proof using All. apply bump_none. apply pend_lt; [cbn; unfold i; lia|constructor]. Qed.
Lemma order x rx : x <= k -> nth_error (l_stmts l) x = Some rx -> fst rx < snd rx /\ (x < k -> snd rx < snd r) /\ (x = k -> rx = r).
Proof using All.
  intros LX N. destruct right_l as (E & _). pose proof Hk as K. rewrite E in N, K. split; [eapply init_bounds; eauto|]. split; [|intros ->; congruence].
  intros LT. pose proof (init_stmts_main fr) as M. destruct (init_stmts fr) as [st n]. destruct M as (_ & _ & F & O). cbn [fst] in *.
  assert (G : forall d y ry, nth_error st y = Some ry -> y + S d = k -> snd ry < snd r).
  { induction d as [|d IH]; intros y ry Y D.
    - assert (KK : nth_error st (S y) = Some r) by (replace (S y) with k by lia; exact K). pose proof (O y ry r Y KK). pose proof (nth_error_In _ _ K) as I.
      rewrite Forall_forall in F. apply F in I. lia.
    - destruct (nth_error st (S y)) as [rz|] eqn:Z; [|apply nth_error_None in Z; assert (k < length st) by (apply nth_error_Some; rewrite K; discriminate); lia].
      pose proof (O _ _ _ Y Z). assert (snd rz < snd r) by (apply (IH (S y)); [exact Z|lia]). apply nth_error_In in Z. rewrite Forall_forall in F. apply F in Z. lia. }
  apply (G (k - S x) x); auto. lia.
Qed.
Lemma agree_first : Forall2 (agrees ls') (map f SL1) (line_stmts i (l_stmts L1) (l_label L1) (if (1 <? length (l_stmts L1))%nat then 1 else 0)%Z pre) /\
  (forall s, nth_error (map f SL1) k = Some s -> fs_end s = None).
Proof using All.
  destruct parts as (E1 & LT & LL1 & FL1 & LB & _). pose proof r_pos as (P1 & P2).
  assert (LL : length SL1 = S k). { apply F2_length in H1. rewrite line_stmts_len, firstn_length in H1. assert (k < length (l_stmts l)) by (apply nth_error_Some; rewrite Hk; discriminate). lia. }
  assert (ST : forall x s, nth_error SL1 x = Some s -> exists rx, x <= k /\ nth_error (l_stmts l) x = Some rx /\
     f s = mkFS (Some i) (Some (fst rx)) (snd rx - fst rx) (if x <? k then Some (snd rx) else None) (if (x =? 0)%nat then l_label l else 0)%Z (1 + Z.of_nat x)%Z
             (if x =? 0 then pre else []) (fs_tag s) (fs_tree s) (fs_hook s)).
  { intros x s N. assert (LX : x < length SL1) by (apply nth_error_Some; rewrite N; discriminate).
    destruct (nth_error (line_stmts i (firstn (S k) (l_stmts l)) (l_label l) 1 pre) x) as [m|] eqn:M;
      [|apply nth_error_None in M; rewrite <- (F2_length _ _ _ H1) in M; lia].
    pose proof (nth_F2 _ _ _ H1 _ _ _ N M) as (G1 & G2 & G3 & G4 & G5 & G6 & G7).
    apply line_stmts_nth in M as (rx & NX & ->). rewrite nth_error_firstn_lt in NX by lia. exists rx. split; [lia|]. split; [exact NX|].
    cbn [s_line s_range s_label s_prefix s_compound] in *. destruct (order x rx ltac:(lia) NX) as (O1 & O2 & O3).
    unfold f, cut_stmt, bump_stmt. cbn [fs_line]. rewrite G1. cbn [option_map]. rewrite bump_lo by lia. rewrite Nat.eqb_refl. cbn [fs_beg fs_size fs_end fs_label fs_compound fs_prefix fs_tag fs_tree fs_hook].
    rewrite G2, G3, G4, G5. replace (S (snd r - 1)) with (snd r) by lia.
    assert (snd rx <= snd r) by (destruct (Nat.eq_dec x k) as [D|D]; [rewrite (O3 D); lia|specialize (O2 ltac:(lia)); lia]).
    f_equal.
    - cbn [cut_it]. destruct (Nat.eqb_spec (fst rx) (length fr)); [lia|]. destruct (Nat.ltb_spec (fst rx) (snd r)); [reflexivity|lia].
    - destruct G7 as [G7|(G7 & (i0 & l0 & Q1 & Q2 & Q3))].
      + rewrite G7. cbn [cut_it]. destruct (Nat.eqb_spec (snd rx) (length fr)); [lia|].
        destruct (Nat.ltb_spec x k) as [D|D].
        * destruct (Nat.ltb_spec (snd rx) (snd r)); [reflexivity|]. specialize (O2 D). lia.
        * rewrite O3 by lia. destruct (Nat.ltb_spec (snd r) (snd r)); [lia|reflexivity].
      + exfalso. cbn [s_line s_range] in *. injection Q1 as <-. unfold ls, i in Q2. rewrite nth_app_mid in Q2. injection Q2 as <-. fold fr in Q3. lia.
    - destruct G6 as [G6|(_ & G6)]; [exact G6|lia].
    - destruct (x =? 0); [apply pre_lt|reflexivity]. }
  split.
  - apply F2_nth.
    { rewrite map_length, line_stmts_len, E1, firstn_length. assert (k < length (l_stmts l)) by (apply nth_error_Some; rewrite Hk; discriminate). lia. }
    intros x s m NS NM. rewrite nth_error_map in NS. destruct (nth_error SL1 x) as [s0|] eqn:N0; [|discriminate]. injection NS as <-.
    destruct (ST x s0 N0) as (rx & LX & NX & ->). apply line_stmts_nth in NM as (ry & NY & ->). rewrite E1, nth_error_firstn_lt in NY by lia.
    rewrite NX in NY. injection NY as <-. rewrite E1, LB. unfold agrees.
    cbn [fs_line s_line fs_beg s_range fs_size fs_label s_label fs_prefix s_prefix fs_compound s_compound fs_end]. conjs; auto.
    + rewrite firstn_length. assert (S k <= length (l_stmts l)) by (apply nth_error_Some; rewrite Hk; discriminate). rewrite Nat.min_l by lia.
      destruct (Nat.ltb_spec 1 (S k)); [left; reflexivity|right]. replace x with 0 by lia. split; reflexivity.
    + destruct (Nat.ltb_spec x k) as [D|D]; [left; reflexivity|right]. split; [reflexivity|]. exists i, L1. cbn [s_line s_range]. split; [reflexivity|].
      split; [unfold ls', i; apply nth_app_mid|]. rewrite LL1. destruct (order x rx LX NX) as (_ & _ & O3). rewrite O3 by lia. reflexivity.
  - intros s N. rewrite nth_error_map in N. destruct (nth_error SL1 k) as [s0|] eqn:N0; [|discriminate]. injection N as <-.
    destruct (ST k s0 N0) as (rx & _ & _ & ->). cbn [fs_end]. now rewrite Nat.ltb_irrefl.
Qed.
Lemma f_second s : In s SL2 -> fs_line (f s) = Some i /\ fs_prefix (f s) = [].
Proof using All.
  intros H. apply In_nth_error in H as (x & N).
  destruct (nth_error (line_stmts i (skipn (S k) (l_stmts l)) 0 (2 + Z.of_nat k) []) x) as [m|] eqn:M;
    [|apply nth_error_None in M; rewrite <- (F2_length _ _ _ H2) in M; assert (x < length SL2) by (apply nth_error_Some; rewrite N; discriminate); lia].
  pose proof (nth_F2 _ _ _ H2 _ _ _ N M) as (G1 & _ & _ & _ & G5 & _). apply line_stmts_nth in M as (rx & NX & ->). cbn [s_line s_prefix] in *.
  unfold f, cut_stmt, bump_stmt. cbn [fs_line]. rewrite G1. cbn [option_map]. rewrite bump_lo by lia. rewrite Nat.eqb_refl. cbn [fs_line fs_prefix].
  split; [reflexivity|]. rewrite G5. destruct (x =? 0); reflexivity.
Qed.
Lemma upd_ok : forall a b rest, length b = length a -> Forall (fun s => fs_line s = Some i) a -> Forall (fun x => s_line x = Some (S i)) b ->
  update_all i (S i) b (a ++ rest) = Ok (upd a b ++ rest).
Proof using All.
  induction a as [|s a IH]; intros [|x b] rest E FA FB; try discriminate; [reflexivity|]. inversion FA as [|? ? A1 A2]. inversion FB as [|? ? B1 B2]. subst.
  cbn [app update_all upd]. unfold fs_it at 1. rewrite A1. cbn [bind]. rewrite Nat.eqb_refl. cbn [assert_ bind]. unfold fs_it, update_range at 1. cbn [fs_line]. rewrite B1. cbn [bind].
  rewrite Nat.eqb_refl. cbn [assert_ bind]. rewrite IH by (auto; now injection E). reflexivity.
Qed.
Lemma upd_length a : forall b, length (upd a b) = length a.
Proof using All. induction a as [|s a IH]; intros [|x b]; cbn [upd length]; auto. Qed.
Lemma upd_nth a : forall b x s, nth_error (upd a b) x = Some s -> length b = length a -> exists s0 m, nth_error a x = Some s0 /\ nth_error b x = Some m /\ s = update_range s0 m.
Proof using All.
  induction a as [|s0 a IH]; intros [|m b] x s N E; try discriminate; [destruct x; discriminate|]. destruct x as [|x]; cbn [upd nth_error] in N.
  - injection N as <-. exists s0, m. auto.
  - apply IH in N as (s1 & m1 & A1 & B1 & C1); [|now injection E]. exists s1, m1. auto.
Qed.
Lemma src_len : length src = length (map f SL2).
Proof using All. unfold src. rewrite line_stmts_len, map_length. apply len2. Qed.
Lemma agree_second : Forall2 (agrees ls') (upd (map f SL2) src) src.
Proof using All.
  apply F2_nth; [rewrite upd_length; symmetry; apply src_len|]. intros x s m N M.
  apply upd_nth in N as (s0 & m0 & N0 & M0 & ->); [|apply src_len]. rewrite M in M0. injection M0 as <-.
  assert (I0 : In s0 (map f SL2)) by (eapply nth_error_In; eauto). apply in_map_iff in I0 as (s1 & <- & I1). destruct (f_second s1 I1) as (_ & PF).
  unfold src in M. apply line_stmts_nth in M as (rx & NX & ->). unfold agrees, update_range.
  cbn [fs_line s_line fs_beg s_range fs_size fs_label s_label fs_prefix s_prefix fs_compound s_compound fs_end]. conjs; auto. rewrite PF. destruct (x =? 0); reflexivity.
Qed.
Lemma made : stmts_of_file ls' = map (bump_m (S i)) (sts 0 [] A) ++ line_stmts i (l_stmts L1) (l_label L1) (if (1 <? length (l_stmts L1))%nat then 1 else 0)%Z pre
   ++ src ++ map (bump_m (S i)) (sts (S i) [] B).
Proof using All.
  destruct parts as (E1 & _ & _ & _ & LB & _ & LB2 & _). destruct len2 as (X2 & X3 & _).
  rewrite sts_file. unfold ls'. rewrite sts_app. cbn [Nat.add]. fold i. fold pre.
  rewrite sts_keep by (try constructor; cbn; lia). f_equal. cbn [sts].
  assert (B1 : bare L1 = false). { unfold bare. rewrite E1. destruct (l_stmts l) as [|a t]; [destruct k; discriminate|reflexivity]. }
  assert (B2 : bare L2 = false). { unfold bare. destruct (l_stmts L2); [|reflexivity]. destruct SL2; [contradiction|discriminate]. }
  rewrite B1, B2, LB2. unfold src. rewrite sts_bump by lia. reflexivity.
Qed.
Lemma other_A : Forall2 (agrees ls') (map f SA) (map (bump_m (S i)) (sts 0 [] A)).
Proof using All.
  eapply F2_map; [exact HA|]. intros s m I G. destruct (sts_in _ _ _ _ I) as (j & E & LJ). apply (agree_other s m j); auto. unfold i. lia.
Qed.
Lemma other_B : Forall2 (agrees ls') (map f SB) (map (bump_m (S i)) (sts (S i) [] B)).
Proof using All.
  eapply F2_map; [exact HB|]. intros s m I G. destruct (sts_in _ _ _ _ I) as (j & E & LJ). apply (agree_other s m j); auto. lia.
Qed.
Lemma sync' : in_sync (mkLF ls' stm').
Proof using All.
  destruct parts as (_ & _ & _ & _ & _ & R1 & _ & R2 & _). split; cbn [lf_lines lf_stmts].
  - unfold ls'. unfold ls in HR. apply Forall_app in HR as (RA & RB). inversion RB. apply Forall_app. auto.
  - rewrite made. unfold stm', split_stmts. repeat apply Forall2_app; auto using other_A, other_B, agree_second. apply agree_first.
Qed.
Lemma kept_other st s j : fs_line s = Some j -> j <> i -> kept (mkLF ls st) (mkLF ls' stm') s (f s).
Proof using All.
  intros E NE. unfold kept, words, f, cut_stmt, bump_stmt. cbn [fs_line lf_lines]. rewrite E. cbn [option_map].
  destruct (Nat.eqb_spec (bump (S i) j) i) as [X|X].
  { exfalso. unfold bump in X. destruct (Nat.leb_spec (S i) j); lia. }
  cbn [fs_line fs_beg fs_size fs_label fs_tag]. unfold ls', ls, i. rewrite (nth_bump A l L1 L2 B j) by exact NE. auto.
Qed.
Lemma keptF_other st S0 T : Forall2 (agrees ls) S0 T -> (forall m, In m T -> exists j, s_line m = Some j /\ j <> i) -> Forall2 (kept (mkLF ls st) (mkLF ls' stm')) S0 (map f S0).
Proof using All.
  induction 1 as [|s m S0 T H F IH]; intros G; constructor; [|apply IH; intros; apply G; now right].
  destruct (G m (or_introl eq_refl)) as (j & E & N). apply (kept_other st s j); [|exact N]. now rewrite (proj1 H).
Qed.
Lemma keptF_first st : Forall2 (kept (mkLF ls st) (mkLF ls' stm')) SL1 (map f SL1).
Proof using All.
  destruct parts as (E1 & LT & LL1 & FL1 & LB & _). pose proof r_pos as (P1 & P2). destruct len2 as (_ & _ & LL & _).
  apply F2_nth; [now rewrite map_length|]. intros x s s' N N'. rewrite nth_error_map, N in N'. injection N' as <-.
  assert (LX : x < length SL1) by (apply nth_error_Some; rewrite N; discriminate).
  destruct (nth_error (line_stmts i (firstn (S k) (l_stmts l)) (l_label l) 1 pre) x) as [m|] eqn:M;
      [|apply nth_error_None in M; rewrite <- (F2_length _ _ _ H1) in M; lia].
  pose proof (nth_F2 _ _ _ H1 _ _ _ N M) as (G1 & G2 & G3 & G4 & G5 & G6 & G7).
  apply line_stmts_nth in M as (rx & NX & ->). rewrite nth_error_firstn_lt in NX by lia.
  cbn [s_line s_range s_label s_prefix s_compound] in *. destruct (order x rx ltac:(lia) NX) as (O1 & O2 & O3).
  assert (SR : snd rx <= snd r) by (destruct (Nat.eq_dec x k) as [D|D]; [rewrite (O3 D); lia|specialize (O2 ltac:(lia)); lia]).
  unfold kept, words, f, cut_stmt, bump_stmt. cbn [fs_line lf_lines]. rewrite G1. cbn [option_map]. rewrite bump_lo by lia. rewrite Nat.eqb_refl.
  cbn [fs_line fs_beg fs_size fs_label fs_tag]. rewrite G2, G3. replace (S (snd r - 1)) with (snd r) by lia.
  assert (CI : cut_it (snd r) (length fr) (Some (fst rx)) = Some (fst rx)).
  { cbn [cut_it]. destruct (Nat.eqb_spec (fst rx) (length fr)); [lia|]. destruct (Nat.ltb_spec (fst rx) (snd r)); [reflexivity|lia]. }
  rewrite CI. unfold ls', ls, i. rewrite !nth_app_mid, FL1. conjs; auto. f_equal. rewrite skipn_firstn_comm, firstn_firstn. f_equal. fold fr. lia.
Qed.
Lemma keptF_second st : Forall2 (kept (mkLF ls st) (mkLF ls' stm')) SL2 (upd (map f SL2) src).
Proof using All.
  destruct parts as (E1 & LT & LL1 & FL1 & LB & _ & LB2 & _ & _ & _ & d & ED & FD & LD). destruct len2 as (_ & _ & LL & _).
  apply F2_nth; [now rewrite upd_length, map_length|]. intros x s s' N N'.
  apply upd_nth in N' as (s0 & m0 & N0 & M0 & ->); [|apply src_len]. rewrite nth_error_map, N in N0. injection N0 as <-.
  destruct (nth_error (line_stmts i (skipn (S k) (l_stmts l)) 0 (2 + Z.of_nat k) []) x) as [m|] eqn:M;
    [|apply nth_error_None in M; rewrite <- (F2_length _ _ _ H2) in M; assert (x < length SL2) by (apply nth_error_Some; rewrite N; discriminate); lia].
  pose proof (nth_F2 _ _ _ H2 _ _ _ N M) as (G1 & G2 & G3 & G4 & G5 & G6 & G7).
  apply line_stmts_nth in M as (rx & NX & ->). unfold src in M0. apply line_stmts_nth in M0 as (ry & NY & ->).
  rewrite <- ED, nth_error_map, NY in NX. injection NX as <-. cbn [s_line s_range s_label] in *.
  unfold kept, words, update_range. cbn [fs_line fs_beg fs_size fs_label fs_tag lf_lines s_line s_range s_label]. rewrite G1, G2, G3, G4.
  unfold ls'. replace (A ++ L1 :: L2 :: B) with ((A ++ [L1]) ++ L2 :: B) by (now rewrite <- app_assoc).
  replace (S i) with (length (A ++ [L1])) by (rewrite app_length; cbn [length]; unfold i; lia). rewrite nth_app_mid. unfold ls, i. rewrite nth_app_mid.
  conjs; [|destruct (x =? 0); reflexivity|].
  - rewrite <- !firstn_map, <- !skipn_map, FD, <- !skipn_map, skipn_add. cbn [shift_r fst snd]. fold fr. destruct ry as [b e]. cbn [fst snd shift_r]. repeat (f_equal; try lia).
  - unfold f, cut_stmt, bump_stmt. cbn [fs_line]. rewrite G1. cbn [option_map]. rewrite bump_lo by lia. rewrite Nat.eqb_refl. reflexivity.
Qed.
Lemma kept' : Forall2 (kept (mkLF ls (SA ++ SL1 ++ SL2 ++ SB)) (mkLF ls' stm')) (SA ++ SL1 ++ SL2 ++ SB) stm'.
Proof using All.
  unfold stm' at 2, split_stmts. repeat apply Forall2_app.
  - eapply keptF_other; [exact HA|]. intros m I. apply sts_in in I as (j & E & LJ). exists j. split; [exact E|]. unfold i. lia.
  - apply keptF_first.
  - apply keptF_second.
  - eapply keptF_other; [exact HB|]. intros m I. apply sts_in in I as (j & E & LJ). exists j. split; [exact E|]. lia.
Qed.
(** the two statements at the cut *)
Lemma cut_here : exists s s', nth_error stm' (length SA + k) = Some s /\ fs_end s = None /\ fs_line s = Some i /\
   nth_error stm' (length SA + S k) = Some s' /\ fs_line s' = Some (S i) /\ (fs_compound s' < 2)%Z /\ fs_end s' <> None.
Proof using All.
  destruct len2 as (X2 & X3 & LL & _). destruct agree_first as (AF & EN). destruct parts as (E1 & _).
  destruct (nth_error (map f SL1) k) as [s|] eqn:N; [|apply nth_error_None in N; rewrite map_length in N; lia].
  destruct (upd (map f SL2) src) as [|s' t] eqn:U. { apply (f_equal (@length _)) in U. rewrite upd_length, map_length in U. cbn in U. destruct SL2; [contradiction|discriminate]. }
  exists s, s'. unfold stm', split_stmts. fold f. fold src. rewrite U.
  split; [rewrite nth_error_app2, map_length by (rewrite map_length; lia); replace (length SA + k - length SA) with k by lia;
          rewrite nth_error_app1 by (rewrite map_length; lia); exact N|].
  split; [exact (EN s eq_refl)|]. split.
  { destruct (nth_error (line_stmts i (l_stmts L1) (l_label L1) (if (1 <? length (l_stmts L1))%nat then 1 else 0)%Z pre) k) as [m|] eqn:M;
      [|apply nth_error_None in M; rewrite <- (F2_length _ _ _ AF), map_length in M; lia].
    rewrite (proj1 (nth_F2 _ _ _ AF _ _ _ N M)). apply nth_error_In in M. eapply line_stmts_in; eauto. }
  split; [rewrite nth_error_app2, map_length by (rewrite map_length; lia); replace (length SA + S k - length SA) with (S k) by lia;
          rewrite nth_error_app2, map_length by (rewrite map_length; lia); replace (S k - length SL1) with 0 by lia; reflexivity|].
  assert (N0 : nth_error (upd (map f SL2) src) 0 = Some s') by (rewrite U; reflexivity).
  apply upd_nth in N0 as (s0 & m & _ & M & ->); [|apply src_len]. unfold src in M. apply line_stmts_nth in M as (rx & _ & ->).
  unfold update_range. cbn [fs_line fs_compound fs_end s_line s_compound s_range]. split; [reflexivity|]. split; [destruct (1 <? length (l_stmts L2)); reflexivity|discriminate].
Qed.
End Split.

Lemma line_src_ok ll i : l_stmts ll <> [] -> l_suppress ll = false -> l_cat ll <> CAT_MACRO ->
  line_src ll i = Ok (line_stmts i (l_stmts ll) (l_label ll) (if (1 <? length (l_stmts ll))%nat then 1 else 0)%Z []).
Proof.
  intros H S C. unfold line_src, refill. cbn [skip_prefix]. destruct (l_stmts ll) as [|r t] eqn:E; [contradiction|]. cbn [is_empty]. rewrite S. cbn [negb assert_ bind].
  rewrite E. destruct (l_cat ll); try reflexivity. now contradict C.
Qed.

Lemma split_run A l B k r r' SA SL1 SL2 SB : let i := length A in let ls := A ++ l :: B in
  Forall right ls -> nth_error (l_stmts l) k = Some r -> nth_error (l_stmts l) (S k) = Some r' ->
  Forall2 (agrees ls) SA (sts 0 [] A) ->
  Forall2 (agrees ls) SL1 (line_stmts i (firstn (S k) (l_stmts l)) (l_label l) 1 (pend 0 [] A)) ->
  Forall2 (agrees ls) SL2 (line_stmts i (skipn (S k) (l_stmts l)) 0 (2 + Z.of_nat k) []) ->
  Forall2 (agrees ls) SB (sts (S i) [] B) ->
  split_compound_before (mkLF ls (SA ++ SL1 ++ SL2 ++ SB)) (length SA + S k) =
  (' (l1, o) <- split_after l (snd r - 1) ;;
   match o with
   | None => UB
   | Some l2 => Ok (mkLF (A ++ redo_stmts l1 :: redo_stmts l2 :: B) (split_stmts i (S (snd r - 1)) (length (l_frags l)) SA SL1 SL2 SB (redo_stmts l2)), true)
   end).
Proof.
  intros i ls HR Hk Hk' HA H1 H2 HB.
  assert (RL : l_stmts l = fst (init_stmts (l_frags l)) /\ l_suppress l = false /\ l_cat l <> CAT_MACRO).
  { rewrite Forall_forall in HR. destruct (HR l) as (E & G); [apply in_or_app; right; now left|]. split; [exact E|]. apply G.
    intros X. rewrite X in Hk. destruct k; discriminate. }
  pose proof (proj1 RL) as E. pose proof Hk as K. pose proof Hk' as K'. rewrite E in K, K'.
  destruct (cut_line _ k r r' 0 K K' (Forall_nil _)) as (_ & _ & LT & _). pose proof (init_bounds _ _ _ K) as (P1 & P2).
  assert (LK : S k < length (l_stmts l)) by (apply nth_error_Some; rewrite Hk'; discriminate).
  assert (LL1 : length SL1 = S k) by (rewrite (F2_length _ _ _ H1), line_stmts_len, firstn_length; lia).
  assert (LL2 : length SL2 = length (l_stmts l) - S k) by (rewrite (F2_length _ _ _ H2), line_stmts_len, skipn_length; lia).
  destruct SL2 as [|s SL2']; [cbn in LL2; lia|]. set (SL2 := s :: SL2') in *.
  destruct (nth_error SL1 k) as [q|] eqn:NQ; [|apply nth_error_None in NQ; lia].
  (* the statement itself *)
  assert (GS : fs_line s = Some i /\ fs_compound s = (2 + Z.of_nat k)%Z).
  { rewrite (skipn_cons_nth _ _ _ Hk') in H2. cbn [line_stmts] in H2. inversion H2 as [|? ? ? ? (G1 & _ & _ & _ & _ & G6 & _)]. subst. cbn [s_line s_compound] in *. split; [exact G1|]. destruct G6 as [G6|(_ & G6)]; [exact G6|]. change (2 + Z.of_nat k = 0)%Z in G6. lia. }
  destruct GS as (GL & GC).
  (* the one before *)
  assert (GQ : fs_line q = Some i /\ fs_compound q = (1 + Z.of_nat k)%Z /\ fs_beg q = Some (fst r) /\ fs_size q = snd r - fst r /\ fs_end q = Some (snd r)).
  { destruct (nth_error (line_stmts i (firstn (S k) (l_stmts l)) (l_label l) 1 (pend 0 [] A)) k) as [m|] eqn:M;
      [|apply nth_error_None in M; rewrite <- (F2_length _ _ _ H1) in M; lia].
    pose proof (nth_F2 _ _ _ H1 _ _ _ NQ M) as (G1 & G2 & G3 & G4 & G5 & G6 & G7). apply line_stmts_nth in M as (rx & NX & ->).
    rewrite nth_error_firstn_lt in NX by lia. rewrite Hk in NX. injection NX as <-. cbn [s_line s_range s_compound] in *. conjs; auto.
    - destruct G6 as [G6|(_ & G6)]; lia.
    - destruct G7 as [G7|(_ & (i0 & l0 & Q1 & Q2 & Q3))]; [exact G7|]. cbn [s_line s_range] in *. injection Q1 as <-. unfold ls, i in Q2. rewrite nth_app_mid in Q2.
      injection Q2 as <-. lia. }
  destruct GQ as (QL & QC & QB & QS & QE).
  assert (AT : nth_error (SA ++ SL1 ++ SL2 ++ SB) (length SA + S k) = Some s).
  { rewrite nth_error_app2 by lia. replace (length SA + S k - length SA) with (S k) by lia. rewrite nth_error_app2 by lia. rewrite LL1, Nat.sub_diag. reflexivity. }
  assert (AQ : nth_error (SA ++ SL1 ++ SL2 ++ SB) (length SA + k) = Some q).
  { rewrite nth_error_app2 by lia. replace (length SA + k - length SA) with k by lia. rewrite nth_error_app1 by lia. exact NQ. }
  assert (LP : length SA + S k < length (SA ++ SL1 ++ SL2 ++ SB)) by (apply nth_error_Some; rewrite AT; discriminate).
  unfold split_compound_before, get_stmt. cbn [lf_stmts lf_lines]. destruct (Nat.eqb_spec (length SA + S k) (length (SA ++ SL1 ++ SL2 ++ SB))); [lia|].
  unfold get. rewrite AT. cbn [bind]. rewrite GC. destruct (Z.ltb_spec (2 + Z.of_nat k) 2); [lia|].
  replace (length SA + S k) with (S (length SA + k)) by lia. rewrite AQ. cbn [bind].
  unfold fs_empty. rewrite QL, QB, QE. cbn [valid bind]. rewrite QS. replace (fst r + (snd r - fst r)) with (snd r) by lia. rewrite Nat.eqb_refl. cbn [assert_ bind].
  destruct (Nat.eqb_spec (snd r - fst r) 0); [lia|]. cbn [negb assert_ bind]. rewrite QC. replace (1 + Z.of_nat k + 1 =? 2 + Z.of_nat k)%Z with true by (symmetry; apply Z.eqb_eq; lia).
  cbn [assert_ bind]. unfold fs_it at 1. rewrite QL. cbn [bind]. unfold fs_it at 1. rewrite GL. cbn [bind]. rewrite Nat.eqb_refl. cbn [assert_ bind].
  unfold ls at 1, i at 1. rewrite nth_app_mid. cbn [bind].
  destruct (split_after l (snd r - 1)) as [[l1 [l2|]]| |] eqn:HS; cbn [bind]; try reflexivity.
  destruct (parts A l B k r r' SA SL1 SL2 SB HR Hk Hk' HA H1 H2 HB l1 l2 HS) as (E1 & _ & _ & _ & _ & _ & E2 & R2 & C2 & S2 & d & ED & _ & _).
  assert (N1 : is_empty (l_stmts (redo_stmts l1)) = false). { rewrite E1. destruct (l_stmts l); [destruct k; discriminate|reflexivity]. }
  assert (LE : length (l_stmts (redo_stmts l2)) = length (l_stmts l) - S k) by (apply (f_equal (@length _)) in ED; rewrite map_length, skipn_length in ED; exact ED).
  assert (N2 : is_empty (l_stmts (redo_stmts l2)) = false). { destruct (l_stmts (redo_stmts l2)); [cbn in LE; lia|reflexivity]. }
  rewrite N1, N2. cbn [negb assert_ bind]. rewrite E1 at 1. rewrite firstn_length, LE. replace (min (S k) (length (l_stmts l)) + (length (l_stmts l) - S k)) with (length (l_stmts l)) by lia.
  rewrite Nat.eqb_refl. cbn [assert_ bind]. rewrite line_src_ok; [|intros X; rewrite X in N2; discriminate|exact S2|rewrite C2; discriminate]. rewrite E2. cbn [bind].
  unfold insert_line. cbn [lf_stmts lf_lines]. rewrite !map_app, !map_map.
  set (f := fun x => cut_stmt i (S (snd r - 1)) (length (l_frags l)) (bump_stmt (S i) x)).
  assert (F1 : firstn (S (length SA + k)) (map f SA ++ map f SL1 ++ map f SL2 ++ map f SB) = map f SA ++ map f SL1).
  { rewrite app_assoc. rewrite firstn_app. replace (S (length SA + k)) with (length (map f SA ++ map f SL1)) by (rewrite app_length, !map_length; lia).
    rewrite firstn_all, Nat.sub_diag. cbn [firstn]. apply app_nil_r. }
  assert (F2 : skipn (S (length SA + k)) (map f SA ++ map f SL1 ++ map f SL2 ++ map f SB) = map f SL2 ++ map f SB).
  { rewrite app_assoc. rewrite skipn_app. replace (S (length SA + k)) with (length (map f SA ++ map f SL1)) by (rewrite app_length, !map_length; lia).
    rewrite skipn_all, Nat.sub_diag. reflexivity. }
  replace (fst r + (snd r - fst r) - 1) with (snd r - 1) by lia. fold f. rewrite F1, F2.
  rewrite (upd_ok A l B k r r' SA SL1 SL2 SB HR Hk Hk' HA H1 H2 HB l1 l2 HS (map f SL2)).
  - cbn [bind]. rewrite line_stmts_len, LE, Nat.eqb_refl. cbn [assert_ bind]. unfold split_stmts. fold f. rewrite <- app_assoc. do 2 f_equal. f_equal; [|rewrite LE; reflexivity].
    unfold set_nth, insert_at, ls. fold i.
    replace (firstn (S i) (A ++ l :: B)) with (A ++ [l]) by (unfold i; rewrite firstn_app, firstn_all2, Nat.sub_succ_l, Nat.sub_diag by lia; reflexivity).
    replace (skipn (S i) (A ++ l :: B)) with B by (unfold i; rewrite skipn_app, skipn_all2, Nat.sub_succ_l, Nat.sub_diag by lia; reflexivity).
    rewrite <- app_assoc. cbn [app].
    replace (firstn i (A ++ l :: redo_stmts l2 :: B)) with A by (unfold i; rewrite firstn_app, firstn_all, Nat.sub_diag; cbn [firstn]; now rewrite app_nil_r).
    replace (skipn (S i) (A ++ l :: redo_stmts l2 :: B)) with (redo_stmts l2 :: B) by (unfold i; rewrite skipn_app, skipn_all2, Nat.sub_succ_l, Nat.sub_diag by lia; reflexivity).
    reflexivity.
  - rewrite line_stmts_len, map_length. lia.
  - apply Forall_forall. intros x IX. apply in_map_iff in IX as (x0 & <- & I0). apply (f_second A l B k r r' SA SL1 SL2 SB HR Hk Hk' HA H1 H2 HB l1 l2 HS x0 I0).
  - apply Forall_forall. intros x IX. eapply line_stmts_in; eauto.
Qed.

(** Where a statement that is not the first of its line sits *)
Lemma locate F p s : in_sync F -> nth_error (lf_stmts F) p = Some s -> (2 <= fs_compound s)%Z ->
  exists A l B k r r' SA SL1 SL2 SB, let i := length A in let ls := A ++ l :: B in
  lf_lines F = ls /\ lf_stmts F = SA ++ SL1 ++ SL2 ++ SB /\ p = length SA + S k /\ fs_line s = Some i /\
  Forall right ls /\ nth_error (l_stmts l) k = Some r /\ nth_error (l_stmts l) (S k) = Some r' /\
  Forall2 (agrees ls) SA (sts 0 [] A) /\
  Forall2 (agrees ls) SL1 (line_stmts i (firstn (S k) (l_stmts l)) (l_label l) 1 (pend 0 [] A)) /\
  Forall2 (agrees ls) SL2 (line_stmts i (skipn (S k) (l_stmts l)) 0 (2 + Z.of_nat k) []) /\
  Forall2 (agrees ls) SB (sts (S i) [] B).
Proof.
  intros (HR & HS) N C. rewrite sts_file in HS.
  destruct (nth_error (sts 0 [] (lf_lines F)) p) as [m|] eqn:M;
    [|apply nth_error_None in M; rewrite <- (F2_length _ _ _ HS) in M; assert (p < length (lf_stmts F)) by (apply nth_error_Some; rewrite N; discriminate); lia].
  pose proof (nth_F2 _ _ _ HS _ _ _ N M) as (G1 & _ & _ & _ & _ & G6 & _).
  destruct (sts_find _ _ _ _ _ M) as (A & l & B & x & EL & EP & LX & NM). cbn [Nat.add] in NM. apply line_stmts_nth in NM as (rx & NX & ->). cbn [s_line s_compound] in *.
  destruct x as [|k]. { exfalso. destruct G6 as [G6|(G6 & _)]; [|lia]. destruct (1 <? length (l_stmts l)); lia. }
  destruct (nth_error (l_stmts l) k) as [r|] eqn:NK; [|apply nth_error_None in NK; lia].
  rewrite EL in HS, HR. rewrite sts_app in HS. cbn [Nat.add] in HS.
  apply Forall2_app_inv_r in HS as (SA & S1 & HA & HS & ES). cbn [sts] in HS. rewrite EL.
  assert (BL : bare l = false). { unfold bare. destruct (l_stmts l); [cbn in LX; lia|reflexivity]. }
  rewrite BL in HS. replace (1 <? length (l_stmts l)) with true in HS by (symmetry; apply Nat.ltb_lt; lia).
  apply Forall2_app_inv_r in HS as (SL & SB & HL & HB & ES1).
  rewrite <- (firstn_skipn (S k) (l_stmts l)) in HL at 1. rewrite line_stmts_app in HL. apply Forall2_app_inv_r in HL as (SL1 & SL2 & H1 & H2 & ES2).
  exists A, l, B, k, r, rx, SA, SL1, SL2, SB. cbv zeta.
  assert (LF : length (firstn (S k) (l_stmts l)) = S k) by (rewrite firstn_length; lia).
  assert (H2' : Forall2 (agrees (A ++ l :: B)) SL2 (line_stmts (length A) (skipn (S k) (l_stmts l)) 0 (2 + Z.of_nat k) [])).
  { destruct (firstn (S k) (l_stmts l)) as [|a t] eqn:FE; [discriminate|]. rewrite LF in H2. replace (2 + Z.of_nat k)%Z with (1 + Z.of_nat (S k))%Z by lia. exact H2. }
  conjs; auto.
  - now rewrite ES, ES1, ES2, <- app_assoc.
  - rewrite EP. rewrite (F2_length _ _ _ HA). reflexivity.
Qed.

Lemma split_small F p s : nth_error (lf_stmts F) p = Some s -> (fs_compound s < 2)%Z -> split_compound_before F p = Ok (F, false).
Proof.
  intros N C. unfold split_compound_before, get_stmt, get. assert (p < length (lf_stmts F)) by (apply nth_error_Some; rewrite N; discriminate).
  destruct (Nat.eqb_spec p (length (lf_stmts F))); [lia|]. rewrite N. cbn [bind]. destruct (Z.ltb_spec (fs_compound s) 2); [reflexivity|lia].
Qed.
Lemma kept_refl F s : kept F F s s.
Proof. repeat split. Qed.
Lemma F2_refl {A} (R : A -> A -> Prop) l : (forall x, R x x) -> Forall2 R l l.
Proof. intros H. induction l; constructor; auto. Qed.

(** everything about split_compound_before on a statement inside its line *)
Lemma split_full F p s : in_sync F -> nth_error (lf_stmts F) p = Some s -> (2 <= fs_compound s)%Z ->
  exists A l B q n, p = S q /\ lf_lines F = A ++ l :: B /\ fs_line s = Some (length A) /\
  (forall l1 l2, split_after l n = Ok (l1, Some l2) -> exists F', split_compound_before F p = Ok (F', true)) /\
  (forall F' b, split_compound_before F p = Ok (F', b) -> exists l1 l2, split_after l n = Ok (l1, Some l2) /\ b = true /\
     lf_lines F' = A ++ redo_stmts l1 :: redo_stmts l2 :: B /\ in_sync F' /\ Forall2 (kept F F') (lf_stmts F) (lf_stmts F') /\
     exists s1 s2, nth_error (lf_stmts F') q = Some s1 /\ fs_end s1 = None /\ fs_line s1 = Some (length A) /\
       nth_error (lf_stmts F') p = Some s2 /\ fs_line s2 = Some (S (length A)) /\ (fs_compound s2 < 2)%Z /\ fs_end s2 <> None /\
     forall x s0, x < p -> nth_error (lf_stmts F) x = Some s0 -> exists s0', nth_error (lf_stmts F') x = Some s0' /\ fs_compound s0' = fs_compound s0) /\
  (forall F' b s3, split_compound_before F p = Ok (F', b) -> nth_error (lf_stmts F) (S p) = Some s3 -> (2 <= fs_compound s3)%Z ->
     exists s3', nth_error (lf_stmts F') (S p) = Some s3' /\ (2 <= fs_compound s3')%Z).
Proof.
  intros IS N C. destruct (locate F p s IS N C) as (A & l & B & k & r & r' & SA & SL1 & SL2 & SB & EL & ES & EP & GL & HR & Hk & Hk' & HA & H1 & H2 & HB).
  destruct F as [ls sl]. cbn [lf_lines lf_stmts] in *. subst ls sl.
  exists A, l, B, (length SA + k), (snd r - 1). split; [lia|]. split; [reflexivity|]. split; [exact GL|].
  pose proof (split_run A l B k r r' SA SL1 SL2 SB HR Hk Hk' HA H1 H2 HB) as RUN. cbv zeta in RUN. rewrite <- EP in RUN. split; [|split].
  - intros l1 l2 HS. rewrite HS in RUN. cbn [bind] in RUN. eauto.
  - intros F' b E. rewrite RUN in E. destruct (split_after l (snd r - 1)) as [[l1 [l2|]]| |] eqn:HS; cbn [bind] in E; try discriminate.
    injection E as <- <-. exists l1, l2. cbn [lf_lines lf_stmts]. split; [reflexivity|]. split; [reflexivity|]. split; [reflexivity|].
    split; [apply (sync' A l B k r r' SA SL1 SL2 SB HR Hk Hk' HA H1 H2 HB l1 l2 HS)|].
    split; [apply (kept' A l B k r r' SA SL1 SL2 SB HR Hk Hk' HA H1 H2 HB l1 l2 HS)|].
    destruct (cut_here A l B k r r' SA SL1 SL2 SB HR Hk Hk' HA H1 H2 HB l1 l2 HS) as (s1 & s2 & D1 & D2 & D3 & D4 & D5 & D6 & D7).
    exists s1, s2. rewrite EP. conjs; auto. intros x s0 LX N0.
    assert (LL1 : length SL1 = S k). { rewrite (F2_length _ _ _ H1), line_stmts_len, firstn_length. assert (S k < length (l_stmts l)) by (apply nth_error_Some; rewrite Hk'; discriminate). lia. }
    rewrite app_assoc, nth_error_app1 in N0 by (rewrite app_length; lia). unfold split_stmts. rewrite app_assoc, nth_error_app1 by (rewrite app_length, !map_length; lia).
    rewrite <- map_app, nth_error_map, N0. cbn [option_map]. eexists. split; [reflexivity|]. unfold cut_stmt, bump_stmt. cbn [fs_line].
    destruct (option_map (bump (S (length A))) (fs_line s0)) as [j|]; [destruct (j =? length A)|]; reflexivity.
  - intros F' b s3 E N3 C3. rewrite RUN in E. destruct (split_after l (snd r - 1)) as [[l1 [l2|]]| |] eqn:HS; cbn [bind] in E; try discriminate.
    injection E as <- <-. cbn [lf_stmts].
    destruct (len2 A l B k r r' SA SL1 SL2 SB HR Hk Hk' HA H1 H2 HB l1 l2 HS) as (X2 & X3 & LL1 & _). unfold split_stmts.
    set (f := fun s => cut_stmt (length A) (S (snd r - 1)) (length (l_frags l)) (bump_stmt (S (length A)) s)).
    rewrite EP in *. do 2 rewrite nth_error_app2 in N3 by lia. rewrite nth_error_app2; rewrite map_length; [|lia]. rewrite nth_error_app2; rewrite map_length; [|lia].
    replace (S (length SA + S k) - length SA - length SL1) with 1 in * by lia. destruct SL2 as [|a [|b t]]; [contradiction| |].
    + rewrite nth_error_app2 in N3 by (cbn; lia). cbn [length Nat.sub] in N3. rewrite nth_error_app2; rewrite upd_len; [|cbn; lia]. cbn [map length Nat.sub]. rewrite nth_error_map, N3.
      cbn [option_map]. eexists. split; [reflexivity|]. unfold f, cut_stmt, bump_stmt. cbn [fs_line].
      destruct (option_map (bump (S (length A))) (fs_line s3)) as [j|]; [destruct (j =? length A)|]; exact C3.
    + destruct (l_stmts (redo_stmts l2)) as [|ra [|rb rt]]; [discriminate|discriminate|]. cbn [map line_stmts upd app nth_error]. eexists. split; [reflexivity|].
      unfold update_range. cbn [fs_compound s_compound length]. cbn. lia.
Qed.

(** ** isolate_stmt *)
Lemma alone F p s : in_sync F -> nth_error (lf_stmts F) p = Some s -> (fs_compound s < 2)%Z ->
  (forall s', nth_error (lf_stmts F) (S p) = Some s' -> (fs_compound s' < 2)%Z) ->
  exists i l r, fs_line s = Some i /\ nth_error (lf_lines F) i = Some l /\ l_stmts l = [r] /\ fs_beg s = Some (fst r) /\ fs_size s = snd r - fst r.
Proof.
  intros (HR & HS) N C NX. rewrite sts_file in HS.
  destruct (nth_error (sts 0 [] (lf_lines F)) p) as [m|] eqn:M;
    [|apply nth_error_None in M; rewrite <- (F2_length _ _ _ HS) in M; assert (p < length (lf_stmts F)) by (apply nth_error_Some; rewrite N; discriminate); lia].
  pose proof (nth_F2 _ _ _ HS _ _ _ N M) as (G1 & G2 & G3 & _ & _ & G6 & _).
  destruct (sts_find _ _ _ _ _ M) as (A & l & B & x & EL & EP & LX & NM). cbn [Nat.add] in NM. apply line_stmts_nth in NM as (rx & NR & ->). cbn [s_line s_compound s_range] in *.
  assert (BL : bare l = false). { unfold bare. destruct (l_stmts l); [cbn in LX; lia|reflexivity]. }
  assert (X0 : x = 0). { destruct (Nat.ltb_spec 1 (length (l_stmts l))); [|lia]. destruct G6 as [G6|(_ & G6)]; lia. } subst x.
  destruct (Nat.ltb_spec 1 (length (l_stmts l))) as [L1|L1].
  - exfalso. destruct (nth_error (sts 0 [] (lf_lines F)) (S p)) as [m'|] eqn:M'.
    + assert (LS : S p < length (lf_stmts F)) by (rewrite (F2_length _ _ _ HS); apply nth_error_Some; rewrite M'; discriminate).
      destruct (nth_error (lf_stmts F) (S p)) as [s'|] eqn:N'; [|apply nth_error_None in N'; lia].
      pose proof (nth_F2 _ _ _ HS _ _ _ N' M') as (_ & _ & _ & _ & _ & G6' & _). specialize (NX s' eq_refl).
      rewrite EL, sts_app in M'. rewrite nth_error_app2 in M' by lia. cbn [sts Nat.add] in M'. rewrite BL in M'. replace (S p - length (sts 0 [] A)) with 1 in M' by lia.
      rewrite nth_error_app1 in M' by (rewrite line_stmts_len; lia). apply line_stmts_nth in M' as (ry & _ & ->). cbn [s_compound] in G6'.
      replace (1 <? length (l_stmts l)) with true in G6' by (symmetry; apply Nat.ltb_lt; lia). destruct G6' as [G6'|(_ & G6')]; lia.
    + apply nth_error_None in M'. rewrite EL, sts_app, app_length in M'. cbn [sts Nat.add] in M'. rewrite BL, app_length, line_stmts_len in M'. lia.
  - exists (length A), l, rx. conjs; auto.
    + rewrite EL. apply nth_app_mid.
    + destruct (l_stmts l) as [|a [|b t]]; cbn in *; try lia. congruence.
Qed.
Lemma split_next F p F' b : in_sync F -> p < length (lf_stmts F) -> split_compound_before F p = Ok (F', b) ->
  in_sync F' /\ Forall2 (kept F F') (lf_stmts F) (lf_stmts F') /\
  (exists s', nth_error (lf_stmts F') p = Some s' /\ (fs_compound s' < 2)%Z) /\
  (forall x s0, x < p -> nth_error (lf_stmts F) x = Some s0 -> exists s0', nth_error (lf_stmts F') x = Some s0' /\ fs_compound s0' = fs_compound s0) /\
  (forall s, nth_error (lf_stmts F) p = Some s -> b = (2 <=? fs_compound s)%Z) /\ (b = false -> F' = F).
Proof.
  intros IS LP E. destruct (nth_error (lf_stmts F) p) as [s|] eqn:N; [|apply nth_error_None in N; lia].
  destruct (Z.ltb_spec (fs_compound s) 2) as [C|C].
  - rewrite (split_small F p s N C) in E. injection E as <- <-. conjs; auto.
    + apply F2_refl. intros. apply kept_refl.
    + eauto.
    + eauto.
    + intros s0 E0. injection E0 as <-. symmetry. apply Z.leb_gt. exact C.
  - destruct (split_full F p s IS N C) as (A & l & B & q & n & EP & EL & GL & _ & H & _). destruct (H F' b E) as (l1 & l2 & _ & -> & _ & IS' & K & s1 & s2 & _ & _ & _ & N2 & _ & C2 & _ & PR).
    conjs; auto.
    + eauto.
    + intros s0 E0. injection E0 as <-. symmetry. apply Z.leb_le. exact C.
    + discriminate.
Qed.
Lemma kept_trans F F1 F2 s s1 s2 : kept F F1 s s1 -> kept F1 F2 s1 s2 -> kept F F2 s s2.
Proof. intros (A1 & A2 & A3) (B1 & B2 & B3). repeat split; congruence. Qed.
Lemma F2_trans {A} (R R' R'' : A -> A -> Prop) a : forall b c, (forall x y z, R x y -> R' y z -> R'' x z) -> Forall2 R a b -> Forall2 R' b c -> Forall2 R'' a c.
Proof. induction a as [|x a IH]; intros b c T H H'; inversion H; subst; inversion H'; subst; constructor; eauto. Qed.
Lemma isolate_full F p F' b : in_sync F -> p < length (lf_stmts F) -> isolate_stmt F p = Ok (F', b) ->
  in_sync F' /\ Forall2 (kept F F') (lf_stmts F) (lf_stmts F') /\
  exists s i l r, nth_error (lf_stmts F') p = Some s /\ fs_line s = Some i /\ nth_error (lf_lines F') i = Some l /\ l_stmts l = [r] /\ fs_beg s = Some (fst r) /\
    fs_size s = snd r - fst r.
Proof.
  intros IS LP E. unfold isolate_stmt in E. destruct (split_compound_before F p) as [[F1 b1]| |] eqn:E1; cbn [bind] in E; try discriminate.
  destruct (split_next F p F1 b1 IS LP E1) as (IS1 & K1 & (s1 & N1 & C1) & _ & _). destruct (Nat.eqb_spec (S p) (length (lf_stmts F1))) as [EN|EN].
  - injection E as <- <-. split; [exact IS1|]. split; [exact K1|].
    destruct (alone F1 p s1 IS1 N1 C1) as (i & l & r & D1 & D2 & D3 & D4 & D5).
    { intros s' N'. assert (S p < length (lf_stmts F1)) by (apply nth_error_Some; rewrite N'; discriminate). lia. }
    exists s1, i, l, r. conjs; auto.
  - destruct (split_compound_before F1 (S p)) as [[F2 b2]| |] eqn:E2; cbn [bind] in E; try discriminate. injection E as <- <-.
    assert (LP1 : S p < length (lf_stmts F1)) by (assert (p < length (lf_stmts F1)) by (apply nth_error_Some; rewrite N1; discriminate); lia).
    destruct (split_next F1 (S p) F2 b2 IS1 LP1 E2) as (IS2 & K2 & (s2 & N2 & C2) & PR & _).
    split; [exact IS2|]. split; [eapply F2_trans; [apply kept_trans|exact K1|exact K2]|].
    destruct (PR p s1 ltac:(lia) N1) as (s1' & N1' & C1'). rewrite <- C1' in C1.
    destruct (alone F2 p s1' IS2 N1' C1) as (i & l & r & D1 & D2 & D3 & D4 & D5).
    { intros s' N'. rewrite N2 in N'. injection N' as <-. exact C2. }
    exists s1', i, l, r. conjs; auto.
Qed.

(** After a split in front of its successor a statement has no end any more *)
Lemma isolate_cut F p F' b s3 : in_sync F -> nth_error (lf_stmts F) (S p) = Some s3 -> (2 <= fs_compound s3)%Z -> isolate_stmt F p = Ok (F', b) ->
  exists s, nth_error (lf_stmts F') p = Some s /\ fs_end s = None.
Proof.
  intros IS N3 C3 E. unfold isolate_stmt in E. assert (LP : S p < length (lf_stmts F)) by (apply nth_error_Some; rewrite N3; discriminate).
  destruct (split_compound_before F p) as [[F1 b1]| |] eqn:E1; cbn [bind] in E; try discriminate.
  destruct (split_next F p F1 b1 IS ltac:(lia) E1) as (IS1 & K1 & _).
  assert (X : exists s3', nth_error (lf_stmts F1) (S p) = Some s3' /\ (2 <= fs_compound s3')%Z).
  { destruct (nth_error (lf_stmts F) p) as [s|] eqn:N; [|apply nth_error_None in N; lia]. destruct (Z.ltb_spec (fs_compound s) 2) as [C|C].
    - rewrite (split_small F p s N C) in E1. injection E1 as <- <-. eauto.
    - destruct (split_full F p s IS N C) as (A & l & B & q & n & _ & _ & _ & _ & _ & H). eapply H; eauto. }
  destruct X as (s3' & N3' & C3'). assert (LP1 : S p < length (lf_stmts F1)) by (apply nth_error_Some; rewrite N3'; discriminate).
  destruct (Nat.eqb_spec (S p) (length (lf_stmts F1))); [lia|].
  destruct (split_compound_before F1 (S p)) as [[F2 b2]| |] eqn:E2; cbn [bind] in E; try discriminate. injection E as <- <-.
  destruct (split_full F1 (S p) s3' IS1 N3' C3') as (A & l & B & q & n0 & EQ & _ & _ & _ & H & _).
  destruct (H F2 b2 E2) as (l1 & l2 & _ & _ & _ & _ & _ & s1 & s2 & D1 & D2 & _). injection EQ as <-. eauto.
Qed.
Lemma append_bad F p s3 st text : in_sync F -> nth_error (lf_stmts F) (S p) = Some s3 -> (2 <= fs_compound s3)%Z -> append_stmt_text st F p text = Bad.
Proof.
  intros IS N3 C3. unfold append_stmt_text, edit_line. destruct (isolate_stmt F p) as [[F' b]| |] eqn:E; try reflexivity. cbn [lift obind].
  assert (LP : S p < length (lf_stmts F)) by (apply nth_error_Some; rewrite N3; discriminate).
  destruct (isolate_cut F p F' b s3 IS N3 C3 E) as (s & N & EN). destruct (isolate_full F p F' b IS ltac:(lia) E) as (_ & _ & s' & i & l & r & N' & LI & LN & _).
  rewrite N in N'. injection N' as <-. unfold get_stmt, get. assert (p < length (lf_stmts F')) by (apply nth_error_Some; rewrite N; discriminate).
  destruct (Nat.eqb_spec p (length (lf_stmts F'))); [lia|]. rewrite N. cbn [lift obind]. unfold fs_it. rewrite LI. cbn [lift obind]. rewrite LN. cbn [lift obind]. rewrite EN. reflexivity.
Qed.

(** ** New statements *)
Lemma pend_snoc A l : pend 0 [] (A ++ [l]) = if bare l then (if l_suppress l then pend 0 [] A else pend 0 [] A ++ [length A]) else [].
Proof. rewrite pend_app. cbn [pend Nat.add]. destruct (bare l); [destruct (l_suppress l)|]; reflexivity. Qed.
Lemma pend_first A : forall k t, pend 0 [] A = k :: t -> exists A1 N, A = A1 ++ N /\ length A1 = k /\ pend 0 [] A1 = [] /\ Forall (fun l => bare l = true) N.
Proof.
  induction A as [|l A IH] using rev_ind; intros k t H; [discriminate|]. rewrite pend_snoc in H. destruct (bare l) eqn:B; [|discriminate].
  assert (X : (exists t', pend 0 [] A = k :: t') \/ (pend 0 [] A = [] /\ k = length A)).
  { destruct (l_suppress l); [left; eauto|]. destruct (pend 0 [] A) as [|k' t']; [right; split; [reflexivity|]; now injection H|left; injection H as -> _; eauto]. }
  destruct X as [(t' & X)|(X & ->)].
  - destruct (IH k t' X) as (A1 & N & -> & E1 & E2 & E3). exists A1, (N ++ [l]). rewrite app_assoc. conjs; auto. apply Forall_app. auto.
  - exists A, [l]. conjs; auto.
Qed.
Lemma pend_last A : forall e t, rev (pend 0 [] A) = e :: t ->
  exists A2 N, A = A2 ++ N /\ length A2 = S e /\ pend 0 [] A2 = pend 0 [] A /\ Forall (fun l => bare l = true /\ l_suppress l = true) N.
Proof.
  induction A as [|l A IH] using rev_ind; intros e t H; [discriminate|]. rewrite pend_snoc in *. destruct (bare l) eqn:B; [|discriminate]. destruct (l_suppress l) eqn:S0.
  - destruct (IH e t H) as (A2 & N & -> & E1 & E2 & E3). exists A2, (N ++ [l]). rewrite app_assoc. conjs; auto. apply Forall_app. auto.
  - rewrite rev_app_distr in H. cbn [rev app] in H. injection H as <- _. exists (A ++ [l]), []. rewrite app_nil_r. conjs; auto; [rewrite app_length; cbn; lia|].
    rewrite pend_snoc, B, S0. reflexivity.
Qed.
Lemma sts_bare N : forall i pre, Forall (fun l => bare l = true) N -> sts i pre N = [].
Proof. induction N as [|l N IH]; intros i pre H; [reflexivity|]. inversion H as [|? ? H1 H2]. cbn [sts]. rewrite H1. auto. Qed.
Lemma pend_suppressed N : forall i pre, Forall (fun l => bare l = true /\ l_suppress l = true) N -> pend i pre N = pre.
Proof. induction N as [|l N IH]; intros i pre H; [reflexivity|]. inversion H as [|? ? (H1 & H2) H3]. cbn [pend]. rewrite H1, H2. auto. Qed.

Lemma nth_insert {A} (X : list A) y B i : nth_error (X ++ y :: B) (bump (length X) i) = nth_error (X ++ B) i.
Proof.
  unfold bump. destruct (Nat.leb_spec (length X) i).
  - rewrite !nth_error_app2 by lia. replace (S i - length X) with (S (i - length X)) by lia. reflexivity.
  - rewrite !nth_error_app1 by lia. reflexivity.
Qed.
Lemma agree_insert A ll B s m : agrees (A ++ B) s m -> agrees (A ++ ll :: B) (bump_stmt (length A) s) (bump_m (length A) m).
Proof.
  intros (E1 & E2 & E3 & E4 & E5 & E6 & E7). unfold agrees, bump_stmt, bump_m. cbn [fs_line s_line fs_beg s_range fs_size fs_label s_label fs_prefix s_prefix fs_compound s_compound fs_end].
  conjs; auto; [now rewrite E1|now rewrite E5|]. destruct E7 as [E7|(E7 & i & l & Q1 & Q2 & Q3)]; [now left|right]. split; [exact E7|].
  exists (bump (length A) i), l. cbn [s_line s_range]. rewrite Q1, nth_insert. auto.
Qed.
Lemma kept_insert A ll B st st' s : kept (mkLF (A ++ B) st) (mkLF (A ++ ll :: B) st') s (bump_stmt (length A) s).
Proof.
  unfold kept, words, bump_stmt. cbn [fs_line fs_beg fs_size fs_label fs_tag lf_lines]. conjs; auto. destruct (fs_line s) as [i|]; [|reflexivity]. cbn [option_map].
  rewrite nth_insert. reflexivity.
Qed.
Lemma bump_with_prefix k s pre : bump_stmt k (with_prefix s pre) = with_prefix (bump_stmt k s) (map (bump k) pre).
Proof. reflexivity. Qed.

Lemma first_src_ok ll r i : right ll -> l_stmts ll = [r] -> first_src ll i = Ok (from_src (mkStmt (Some i) r (l_label ll) 0 [])).
Proof.
  intros (_ & R) E. destruct R as (S0 & C0); [rewrite E; discriminate|]. unfold first_src. rewrite line_src_ok by (auto; rewrite E; discriminate). rewrite E. reflexivity.
Qed.
Lemma insert_at_app {A} (X : list A) y B : insert_at (length X) y (X ++ B) = X ++ y :: B.
Proof. unfold insert_at. rewrite firstn_app, firstn_all, Nat.sub_diag, skipn_app, skipn_all, Nat.sub_diag. cbn [firstn skipn app]. now rewrite app_nil_r. Qed.

(** where the first statement of a line is *)
Lemma locate_first F p s : in_sync F -> nth_error (lf_stmts F) p = Some s -> (fs_compound s < 2)%Z ->
  exists A l B SA SL r rs, lf_lines F = A ++ l :: B /\ lf_stmts F = SA ++ s :: SL /\ p = length SA /\ fs_line s = Some (length A) /\ fs_prefix s = pend 0 [] A /\
  l_stmts l = r :: rs /\ Forall right (A ++ l :: B) /\ Forall2 (agrees (A ++ l :: B)) SA (sts 0 [] A) /\
  Forall2 (agrees (A ++ l :: B)) (s :: SL) (sts (length A) (pend 0 [] A) (l :: B)).
Proof.
  intros (HR & HS) N C. rewrite sts_file in HS.
  destruct (nth_error (sts 0 [] (lf_lines F)) p) as [m|] eqn:M;
    [|apply nth_error_None in M; rewrite <- (F2_length _ _ _ HS) in M; assert (p < length (lf_stmts F)) by (apply nth_error_Some; rewrite N; discriminate); lia].
  pose proof (nth_F2 _ _ _ HS _ _ _ N M) as (G1 & _ & _ & _ & G5 & G6 & _).
  destruct (sts_find _ _ _ _ _ M) as (A & l & B & x & EL & EP & LX & NM). cbn [Nat.add] in NM. apply line_stmts_nth in NM as (rx & NR & ->). cbn [s_line s_compound s_prefix] in *.
  assert (X0 : x = 0). { destruct (Nat.ltb_spec 1 (length (l_stmts l))); [|lia]. destruct G6 as [G6|(_ & G6)]; lia. } subst x. cbn [Nat.eqb] in G5.
  rewrite EL in HS, HR. rewrite sts_app in HS. cbn [Nat.add] in HS. apply Forall2_app_inv_r in HS as (SA & S1 & HA & HS & ES).
  destruct (l_stmts l) as [|r rs] eqn:EQ; [cbn in LX; lia|].
  assert (PA : p = length SA) by (rewrite (F2_length _ _ _ HA); lia).
  rewrite ES, PA in N. rewrite nth_error_app2, Nat.sub_diag in N by lia. destruct S1 as [|s' SL]; [discriminate|]. cbn in N. injection N as ->.
  exists A, l, B, SA, SL, r, rs. conjs; auto.
Qed.

(** the new line and statement in front of position [length A1] *)
Lemma insert_sync A1 R S1 S2 ll r tag : Forall right (A1 ++ R) -> Forall2 (agrees (A1 ++ R)) S1 (sts 0 [] A1) -> Forall2 (agrees (A1 ++ R)) S2 (sts (length A1) [] R) ->
  pend 0 [] A1 = [] -> right ll -> l_stmts ll = [r] ->
  let k := length A1 in let n := set_syntag (from_src (mkStmt (Some k) r (l_label ll) 0 [])) tag in
  in_sync (mkLF (A1 ++ ll :: R) (map (bump_stmt k) S1 ++ n :: map (bump_stmt k) S2)).
Proof.
  intros HR H1 H2 HP HL EL k n. split; cbn [lf_lines lf_stmts].
  - apply Forall_app in HR as (RA & RB). apply Forall_app. auto.
  - rewrite sts_file, sts_app. cbn [Nat.add]. rewrite HP. cbn [sts]. unfold bare. rewrite EL. cbn [is_empty line_stmts length Nat.ltb Nat.leb app]. fold k. apply Forall2_app.
    + rewrite <- (sts_keep k A1 0 []) by (try constructor; unfold k; cbn; lia). eapply F2_map; [exact H1|]. intros s m _ G. apply agree_insert. exact G.
    + constructor.
      * unfold n, set_syntag, from_src, agrees. cbn [fs_line s_line fs_beg s_range fs_size fs_label s_label fs_prefix s_prefix fs_compound s_compound fs_end]. conjs; auto.
      * change (@nil nat) with (map (bump k) []). rewrite <- (sts_bump k R k []) by lia. eapply F2_map; [exact H2|]. intros s m _ G. apply agree_insert. exact G.
Qed.
Lemma kept_lists A ll B st st' S1 : Forall2 (kept (mkLF (A ++ B) st) (mkLF (A ++ ll :: B) st')) S1 (map (bump_stmt (length A)) S1).
Proof. induction S1; constructor; [apply kept_insert|assumption]. Qed.

Lemma get_stmt_nth F p s : nth_error (lf_stmts F) p = Some s -> get_stmt F p = Ok s.
Proof.
  intros N. unfold get_stmt, get. assert (p < length (lf_stmts F)) by (apply nth_error_Some; rewrite N; discriminate).
  destruct (Nat.eqb_spec p (length (lf_stmts F))); [lia|]. now rewrite N.
Qed.

(** what a statement just put in is *)
Definition put_in (F F' : LFile) (p : nat) (ll : LLn) (r : nat * nat) (tag : Z) : Prop :=
  exists A B s1 n s2, lf_lines F' = A ++ ll :: B /\ lf_stmts F' = s1 ++ n :: s2 /\ length s1 = p /\ lf_lines F = A ++ B /\ fs_line n = Some (length A) /\
    fs_beg n = Some (fst r) /\ fs_size n = snd r - fst r /\ fs_label n = l_label ll /\ fs_tag n = tag /\ Forall2 (kept F F') (lf_stmts F) (s1 ++ s2).
Lemma emplace_first F p s ll r tag : in_sync F -> nth_error (lf_stmts F) p = Some s -> (fs_compound s < 2)%Z -> right ll -> l_stmts ll = [r] ->
  exists F' k n, (k0 <- prefix_begin s ;; let F2 := insert_line F k0 ll in n <- first_src ll k0 ;; Ok (mkLF (lf_lines F2) (insert_at p (set_syntag n tag) (lf_stmts F2)))) = Ok F' /\
    in_sync F' /\ put_in F F' p ll r tag /\ nth_error (lf_stmts F') p = Some n /\ fs_prefix n = [] /\ prefix_begin s = Ok k /\ fs_line n = Some k.
Proof.
  intros IS N C RL EL. destruct (locate_first F p s IS N C) as (A & l & B & SA & SL & r0 & rs & E1 & E2 & EP & GL & GP & ER & HR & HA & HB).
  assert (X : exists A1 N0, A = A1 ++ N0 /\ prefix_begin s = Ok (length A1) /\ pend 0 [] A1 = [] /\ Forall (fun l => bare l = true) N0).
  { unfold prefix_begin, fs_it. rewrite GP, GL. destruct (pend 0 [] A) as [|k t] eqn:P.
    - exists A, []. rewrite app_nil_r. conjs; auto.
    - destruct (pend_first A k t P) as (A1 & N0 & -> & <- & Q1 & Q2). exists A1, N0. auto. }
  destruct X as (A1 & N0 & -> & PB & P1 & BN).
  assert (SAE : sts 0 [] (A1 ++ N0) = sts 0 [] A1) by (rewrite sts_app, (sts_bare N0) by exact BN; apply app_nil_r).
  rewrite SAE in HA. rewrite <- app_assoc in *.
  assert (HB' : Forall2 (agrees (A1 ++ N0 ++ l :: B)) (s :: SL) (sts (length A1) [] (N0 ++ l :: B))).
  { rewrite sts_app, (sts_bare N0) by exact BN. cbn [app]. rewrite pend_app, P1, app_length in HB. exact HB. }
  rewrite PB. cbn [bind]. rewrite (first_src_ok ll r _ RL EL). cbn [bind]. unfold insert_line. cbn [lf_lines lf_stmts]. rewrite E1, E2, map_app.
  assert (LSA : length (map (bump_stmt (length A1)) SA) = p) by (rewrite map_length; lia).
  assert (IA : forall x y, insert_at p x (map (bump_stmt (length A1)) SA ++ y) = map (bump_stmt (length A1)) SA ++ x :: y) by (intros; rewrite <- LSA; apply insert_at_app).
  rewrite IA, insert_at_app. do 3 eexists. split; [reflexivity|]. cbn [lf_stmts].
  split; [apply (insert_sync A1 (N0 ++ l :: B) SA (s :: SL) ll r tag HR HA HB' P1 RL EL)|].
  split; [|split; [rewrite nth_error_app2 by lia; rewrite LSA, Nat.sub_diag; reflexivity|]].
  - exists A1, (N0 ++ l :: B), (map (bump_stmt (length A1)) SA), (set_syntag (from_src (mkStmt (Some (length A1)) r (l_label ll) 0 [])) tag), (map (bump_stmt (length A1)) (s :: SL)).
    unfold set_syntag, from_src. cbn [lf_lines lf_stmts fs_line fs_beg fs_size fs_label fs_tag s_line s_range s_label]. conjs; auto.
    rewrite E2, <- map_app. destruct F as [fl fs]. cbn [lf_lines lf_stmts] in *. rewrite E1. apply kept_lists.
  - unfold set_syntag, from_src. cbn [fs_prefix s_prefix fs_line s_line]. auto.
Qed.

Lemma emplace_eq F p s ll r tag : nth_error (lf_stmts F) p = Some s -> l_stmts ll = [r] ->
  emplace_ll_stmt F p ll tag =
  (' (F1, _) <- split_compound_before F p ;; s <- get_stmt F1 p ;; k <- prefix_begin s ;; let F2 := insert_line F1 k ll in
   n <- first_src ll k ;; Ok (mkLF (lf_lines F2) (insert_at p (set_syntag n tag) (lf_stmts F2)))).
Proof.
  intros N EL. unfold emplace_ll_stmt. rewrite EL. cbn [is_empty negb length Nat.eqb assert_ bind]. rewrite (get_stmt_nth _ _ _ N). cbn [bind].
  destruct (Z.ltb_spec 1 (fs_compound s)); [reflexivity|]. rewrite (split_small F p s N) by lia. reflexivity.
Qed.
Lemma emplace_full F p ll r tag F' : in_sync F -> p < length (lf_stmts F) -> right ll -> l_stmts ll = [r] -> emplace_ll_stmt F p ll tag = Ok F' ->
  exists F1 b n, split_compound_before F p = Ok (F1, b) /\ in_sync F' /\ put_in F1 F' p ll r tag /\ nth_error (lf_stmts F') p = Some n /\ fs_prefix n = [].
Proof.
  intros IS LP RL EL E. destruct (nth_error (lf_stmts F) p) as [s|] eqn:N; [|apply nth_error_None in N; lia].
  rewrite (emplace_eq F p s ll r tag N EL) in E. destruct (split_compound_before F p) as [[F1 b]| |] eqn:E1; cbn [bind] in E; try discriminate.
  destruct (split_next F p F1 b IS LP E1) as (IS1 & K1 & (s1 & N1 & C1) & _). rewrite (get_stmt_nth _ _ _ N1) in E. cbn [bind] in E.
  destruct (emplace_first F1 p s1 ll r tag IS1 N1 C1 RL EL) as (F2 & k & n & Q1 & Q2 & Q3 & Q4 & Q5 & _). cbv zeta in Q1. rewrite E in Q1. injection Q1 as <-.
  exists F1, b, n. auto.
Qed.
Lemma emplace_defined F p s ll r tag : in_sync F -> nth_error (lf_stmts F) p = Some s -> (fs_compound s < 2)%Z -> right ll -> l_stmts ll = [r] ->
  exists F', emplace_ll_stmt F p ll tag = Ok F'.
Proof.
  intros IS N C RL EL. rewrite (emplace_eq F p s ll r tag N EL), (split_small F p s N C). cbn [bind]. rewrite (get_stmt_nth _ _ _ N). cbn [bind].
  destruct (emplace_first F p s ll r tag IS N C RL EL) as (F2 & k & n & Q1 & _). eauto.
Qed.

Lemma prefix_compound F p s : in_sync F -> nth_error (lf_stmts F) p = Some s -> fs_prefix s <> [] -> (fs_compound s < 2)%Z.
Proof.
  intros IS N P. destruct (Z.ltb_spec (fs_compound s) 2) as [C|C]; [exact C|exfalso].
  destruct (locate F p s IS N C) as (A & l & B & k & r & r' & SA & SL1 & SL2 & SB & EL & ES & EP & GL & HR & Hk & Hk' & HA & H1 & H2 & HB).
  rewrite ES, EP in N. assert (LL1 : length SL1 = S k). { rewrite (F2_length _ _ _ H1), line_stmts_len, firstn_length. assert (S k < length (l_stmts l)) by (apply nth_error_Some; rewrite Hk'; discriminate). lia. }
  rewrite nth_error_app2 in N by lia. replace (length SA + S k - length SA) with (S k) in N by lia. rewrite nth_error_app2 in N by lia. rewrite LL1, Nat.sub_diag in N.
  rewrite (skipn_cons_nth _ _ _ Hk') in H2. cbn [line_stmts] in H2. inversion H2 as [|s0 ? t ? G]. subst. cbn in N. injection N as ->. destruct G as (_ & _ & _ & _ & G5 & _). cbn [s_prefix] in G5. contradiction.
Qed.
Lemma after_prefix_full F p s ll r tag : in_sync F -> nth_error (lf_stmts F) p = Some s -> fs_prefix s <> [] -> right ll -> l_stmts ll = [r] ->
  exists F' n s', emplace_after_prefix F p ll tag = Ok F' /\ in_sync F' /\ put_in F F' p ll r tag /\
    nth_error (lf_stmts F') p = Some n /\ fs_prefix n = fs_prefix s /\ nth_error (lf_stmts F') (S p) = Some s' /\ fs_prefix s' = [] /\ kept F F' s s'.
Proof.
  intros IS N P RL EL. pose proof (prefix_compound F p s IS N P) as C.
  destruct (locate_first F p s IS N C) as (A & l & B & SA & SL & r0 & rs & E1 & E2 & EP & GL & GP & ER & HR & HA & HB).
  assert (X : exists A2 N0, A = A2 ++ N0 /\ prefix_end s = Ok (length A2) /\ pend 0 [] A2 = fs_prefix s /\ Forall (fun l => bare l = true /\ l_suppress l = true) N0).
  { unfold prefix_end. rewrite GP in *. destruct (rev (pend 0 [] A)) as [|e t] eqn:RV.
    - apply (f_equal (@rev _)) in RV. rewrite rev_involutive in RV. cbn in RV. contradiction.
    - destruct (pend_last A e t RV) as (A2 & N0 & -> & Q1 & Q2 & Q3). exists A2, N0. rewrite Q1. auto. }
  destruct X as (A2 & N0 & -> & PE & P2 & BN).
  assert (BN' : Forall (fun l => bare l = true) N0) by (eapply Forall_impl; [|exact BN]; cbn; tauto).
  assert (SAE : sts 0 [] (A2 ++ N0) = sts 0 [] A2) by (rewrite sts_app, (sts_bare N0) by exact BN'; apply app_nil_r).
  rewrite SAE in HA. rewrite <- app_assoc in *. set (k := length A2) in *.
  assert (PL : map (bump k) (fs_prefix s) = fs_prefix s). { rewrite <- P2. apply bump_none. apply pend_lt; [unfold k; cbn; lia|constructor]. }
  unfold emplace_after_prefix. rewrite EL. cbn [is_empty negb length Nat.eqb assert_ bind]. rewrite (get_stmt_nth _ _ _ N). cbn [bind].
  destruct (fs_prefix s) as [|f0 t0] eqn:FP; [contradiction|]. cbn [is_empty]. rewrite <- FP in *. clear P. replace (fs_compound s <? 2)%Z with true by (symmetry; apply Z.ltb_lt; lia). cbn [assert_ bind].
  rewrite PE. cbn [bind]. rewrite (first_src_ok ll r _ RL EL). cbn [bind].
  assert (N' : nth_error (lf_stmts (insert_line F k ll)) p = Some (bump_stmt k s)). { unfold insert_line. cbn [lf_stmts]. now rewrite nth_error_map, N. }
  rewrite (get_stmt_nth _ _ _ N'). cbn [bind].
  assert (PE' : prefix_end (bump_stmt k s) = Ok k).
  { unfold prefix_end in *. unfold bump_stmt. cbn [fs_prefix]. rewrite PL. destruct (rev (fs_prefix s)) eqn:RV; [|exact PE].
    apply (f_equal (@rev _)) in RV. rewrite rev_involutive in RV. cbn in RV. congruence. }
  rewrite PE'. cbn [bind]. rewrite Nat.eqb_refl. cbn [assert_ bind]. unfold insert_line. cbn [lf_lines lf_stmts]. rewrite E1, E2, map_app. unfold k at 1. rewrite insert_at_app. cbn [map].
  assert (LSA : length (map (bump_stmt k) SA) = p) by (rewrite map_length; lia).
  assert (F1 : firstn p (map (bump_stmt k) SA ++ bump_stmt k s :: map (bump_stmt k) SL) = map (bump_stmt k) SA).
  { rewrite <- LSA. rewrite firstn_app, firstn_all, Nat.sub_diag. cbn [firstn]. apply app_nil_r. }
  assert (F2 : skipn (S p) (map (bump_stmt k) SA ++ bump_stmt k s :: map (bump_stmt k) SL) = map (bump_stmt k) SL).
  { rewrite skipn_app, skipn_all2 by lia. rewrite LSA. replace (S p - p) with 1 by lia. reflexivity. }
  rewrite F1, F2. unfold bump_stmt at 2. cbn [fs_prefix]. rewrite PL.
  set (n := with_prefix (set_syntag (from_src (mkStmt (Some k) r (l_label ll) 0 [])) tag) (fs_prefix s)).
  set (s' := with_prefix (bump_stmt k s) []).
  assert (KS : forall st st', kept (mkLF (A2 ++ N0 ++ l :: B) st) (mkLF (A2 ++ ll :: N0 ++ l :: B) st') s s').
  { intros st st'. exact (kept_insert A2 ll (N0 ++ l :: B) st st' s). }
  destruct F as [fl fs]. cbn [lf_lines lf_stmts] in *. subst fl.
  do 3 eexists. split; [reflexivity|]. cbn [lf_stmts].
  split; [|split; [|split; [rewrite nth_error_app2 by lia; rewrite LSA, Nat.sub_diag; reflexivity|split; [reflexivity|split; [|split]]]]].
  - split; cbn [lf_lines lf_stmts].
    + apply Forall_app in HR as (RA & RB). apply Forall_app. auto.
    + rewrite sts_file, sts_app. cbn [Nat.add sts]. unfold bare. rewrite EL. cbn [is_empty line_stmts length Nat.ltb Nat.leb app]. fold k. apply Forall2_app.
      * rewrite <- (sts_keep k A2 0 []) by (try constructor; unfold k; cbn; lia). eapply F2_map; [exact HA|]. intros x m _ G. apply agree_insert. exact G.
      * constructor.
        -- unfold n, with_prefix, set_syntag, from_src, agrees. cbn [fs_line s_line fs_beg s_range fs_size fs_label s_label fs_prefix s_prefix fs_compound s_compound fs_end]. conjs; auto.
        -- rewrite sts_app, (sts_bare N0) by exact BN'. cbn [app]. rewrite (pend_suppressed N0) by exact BN.
           cbn [sts] in HB |- *. destruct (bare l) eqn:BL; [unfold bare in BL; rewrite ER in BL; discriminate|]. rewrite ER in HB |- *. cbn [line_stmts app] in HB |- *.
           inversion HB as [|? ? ? ? G1 G2]. subst. rewrite app_length in G1, G2. fold k in G1, G2. replace (S k + length N0) with (S (k + length N0)) by lia.
           assert (HI : k <= k + length N0) by lia. constructor.
           ++ apply (agree_insert A2 ll) in G1. fold k in G1. unfold bump_m in G1. cbn [s_line s_range s_label s_compound s_prefix option_map] in G1. rewrite bump_hi in G1 by exact HI.
              destruct G1 as (Z1 & Z2 & Z3 & Z4 & _ & Z6 & Z7). unfold s', agrees, with_prefix. cbn [fs_line fs_beg fs_size fs_label fs_prefix fs_compound fs_end s_line s_range s_label s_prefix s_compound] in *.
              conjs; auto.
           ++ apply (F2_map _ (agrees (A2 ++ ll :: N0 ++ l :: B)) (bump_stmt k) (bump_m k)) in G2; [|intros x m _ G; apply agree_insert; exact G].
              rewrite map_app, line_stmts_bump, bump_hi, sts_bump in G2 by lia. cbn [map] in G2. exact G2.
  - exists A2, (N0 ++ l :: B), (map (bump_stmt k) SA), n, (s' :: map (bump_stmt k) SL). unfold n, with_prefix, set_syntag, from_src.
    cbn [lf_lines lf_stmts fs_line fs_beg fs_size fs_label fs_tag s_line s_range s_label]. conjs; auto. rewrite E2. apply Forall2_app; [apply kept_lists|]. constructor; [apply KS|apply kept_lists].
  - rewrite nth_error_app2 by lia. rewrite LSA. replace (S p - p) with 1 by lia. reflexivity.
  - reflexivity.
  - apply KS.
Qed.

(** ** Editing the line of a statement *)
Lemma set_nth_app {A} (X : list A) y z B : set_nth (X ++ y :: B) (length X) z = X ++ z :: B.
Proof.
  unfold set_nth. rewrite firstn_app, firstn_all, Nat.sub_diag. cbn [firstn]. rewrite app_nil_r. f_equal. f_equal.
  rewrite skipn_app, skipn_all2, Nat.sub_succ_l, Nat.sub_diag by lia. reflexivity.
Qed.
Lemma nth_other {A} (X : list A) y z B j : j <> length X -> nth_error (X ++ z :: B) j = nth_error (X ++ y :: B) j.
Proof.
  intros H. destruct (Nat.ltb_spec j (length X)); [now rewrite !nth_error_app1 by lia|]. rewrite !nth_error_app2 by lia. destruct (j - length X) eqn:D; [lia|reflexivity].
Qed.
Lemma agree_swap A l l' B s m j : agrees (A ++ l :: B) s m -> s_line m = Some j -> j <> length A -> agrees (A ++ l' :: B) s m.
Proof.
  intros (E1 & E2 & E3 & E4 & E5 & E6 & E7) SL NE. unfold agrees. conjs; auto. destruct E7 as [E7|(E7 & i & l0 & Q1 & Q2 & Q3)]; [now left|right]. split; [exact E7|].
  exists i, l0. conjs; auto. rewrite (nth_other A l) by congruence. exact Q2.
Qed.
Lemma F2_swap A l l' B S0 T : Forall2 (agrees (A ++ l :: B)) S0 T -> (forall m, In m T -> exists j, s_line m = Some j /\ j <> length A) -> Forall2 (agrees (A ++ l' :: B)) S0 T.
Proof.
  induction 1 as [|s m S0 T H F IH]; intros G; constructor; [|apply IH; intros; apply G; now right].
  destruct (G m (or_introl eq_refl)) as (j & E & N). eapply agree_swap; eauto.
Qed.
Lemma F2_lines A l B S0 T : Forall2 (agrees (A ++ l :: B)) S0 T -> (forall m, In m T -> exists j, s_line m = Some j /\ j <> length A) ->
  Forall (fun s => exists j, fs_line s = Some j /\ j <> length A) S0.
Proof.
  induction 1 as [|s m S0 T H F IH]; intros G; constructor; [|apply IH; intros; apply G; now right].
  destruct (G m (or_introl eq_refl)) as (j & E & N). exists j. now rewrite (proj1 H).
Qed.
Lemma lose_none i S0 : Forall (fun s => exists j, fs_line s = Some j /\ j <> i) S0 -> map (lose_stmt i) S0 = S0.
Proof.
  induction 1 as [|s S0 (j & E & N) F IH]; [reflexivity|]. cbn [map]. rewrite IH. unfold lose_stmt at 1. rewrite E. destruct (Nat.eqb_spec j i); [contradiction|reflexivity].
Qed.
Lemma kept_swap A l l' B st st' s j : fs_line s = Some j -> j <> length A -> kept (mkLF (A ++ l :: B) st) (mkLF (A ++ l' :: B) st') s s.
Proof. intros E N. unfold kept, words. cbn [lf_lines]. rewrite E, (nth_other A l l' B j N). auto. Qed.
Lemma keptF_swap A l l' B st st' S0 : Forall (fun s => exists j, fs_line s = Some j /\ j <> length A) S0 -> Forall2 (kept (mkLF (A ++ l :: B) st) (mkLF (A ++ l' :: B) st')) S0 S0.
Proof. induction 1 as [|s S0 (j & E & N) F IH]; constructor; [eapply kept_swap; eauto|exact IH]. Qed.

(** a statement alone on its line *)
Lemma locate_alone F p s i l r : in_sync F -> nth_error (lf_stmts F) p = Some s -> fs_line s = Some i -> nth_error (lf_lines F) i = Some l -> l_stmts l = [r] ->
  exists A B SA SB, lf_lines F = A ++ l :: B /\ length A = i /\ lf_stmts F = SA ++ s :: SB /\ p = length SA /\ Forall right (A ++ l :: B) /\
    Forall2 (agrees (A ++ l :: B)) SA (sts 0 [] A) /\ agrees (A ++ l :: B) s (mkStmt (Some i) r (l_label l) 0 (pend 0 [] A)) /\
    Forall2 (agrees (A ++ l :: B)) SB (sts (S i) [] B).
Proof.
  intros IS N LI LN ER. assert (C : (fs_compound s < 2)%Z).
  { destruct (Z.ltb_spec (fs_compound s) 2) as [C|C]; [exact C|exfalso]. destruct (locate F p s IS N C) as (A & l0 & B & k & r0 & r' & _ & _ & _ & _ & EL & _ & _ & GL & _ & _ & Hk' & _).
    rewrite LI in GL. injection GL as ->. rewrite EL, nth_app_mid in LN. injection LN as ->. rewrite ER in Hk'. destruct k; discriminate. }
  destruct (locate_first F p s IS N C) as (A & l0 & B & SA & SL & r0 & rs & E1 & E2 & EP & GL & GP & ER0 & HR & HA & HB).
  rewrite LI in GL. injection GL as ->. rewrite E1, nth_app_mid in LN. injection LN as ->. exists A, B, SA, SL.
  cbn [sts] in HB. unfold bare in HB. rewrite ER in HB. cbn [is_empty line_stmts length Nat.ltb Nat.leb app] in HB. inversion HB as [|? ? ? ? G1 G2]. subst. conjs; auto.
Qed.

(** the new line [l'] in place of [l], the statement with new range and label *)
Lemma swap_sync A l l' B SA SB s s' r' : Forall right (A ++ l :: B) ->
  Forall2 (agrees (A ++ l :: B)) SA (sts 0 [] A) -> Forall2 (agrees (A ++ l :: B)) SB (sts (S (length A)) [] B) ->
  right l' -> l_stmts l' = [r'] ->
  fs_line s' = Some (length A) -> fs_beg s' = Some (fst r') -> fs_size s' = snd r' - fst r' -> fs_end s' = Some (snd r') \/ fs_end s' = None /\ snd r' = length (l_frags l') ->
  fs_label s' = l_label l' -> fs_prefix s' = pend 0 [] A -> (fs_compound s' = 0%Z \/ fs_compound s' = 1%Z) ->
  in_sync (mkLF (A ++ l' :: B) (SA ++ s' :: SB)) /\ Forall2 (kept (mkLF (A ++ l :: B) (SA ++ s :: SB)) (mkLF (A ++ l' :: B) (SA ++ s' :: SB))) SA SA /\
  Forall2 (kept (mkLF (A ++ l :: B) (SA ++ s :: SB)) (mkLF (A ++ l' :: B) (SA ++ s' :: SB))) SB SB.
Proof.
  intros HR HA HB RL EL Q1 Q2 Q3 Q4 Q5 Q6 Q7.
  assert (GA : forall m, In m (sts 0 [] A) -> exists j, s_line m = Some j /\ j <> length A).
  { intros m I. apply sts_in in I as (j & E & LJ). exists j. split; [exact E|lia]. }
  assert (GB : forall m, In m (sts (S (length A)) [] B) -> exists j, s_line m = Some j /\ j <> length A).
  { intros m I. apply sts_in in I as (j & E & LJ). exists j. split; [exact E|lia]. }
  split; [split; cbn [lf_lines lf_stmts]|split; apply keptF_swap; eapply F2_lines; eauto].
  - apply Forall_app in HR as (RA & RB). inversion RB. apply Forall_app. auto.
  - rewrite sts_file, sts_app. cbn [Nat.add sts]. unfold bare. rewrite EL. cbn [is_empty line_stmts length Nat.ltb Nat.leb app].
    apply Forall2_app; [eapply F2_swap; eauto|]. constructor; [|eapply F2_swap; eauto].
    unfold agrees. cbn [s_line s_range s_label s_prefix s_compound]. conjs; auto.
    + destruct Q7; [now left|right; auto].
    + destruct Q4 as [Q4|(Q4 & Q4')]; [now left|right]. split; [exact Q4|]. exists (length A), l'. cbn [s_line s_range]. rewrite nth_app_mid. auto.
Qed.

(** what is said about an edited file [F'] after the statement was put on its own line, in [F1] *)
Lemma edit_full edit one fin F p F' st' : in_sync F -> p < length (lf_stmts F) ->
  (forall s, fs_line (fin s) = fs_line s /\ fs_beg (fin s) = fs_beg s /\ fs_size (fin s) = fs_size s /\ fs_end (fin s) = fs_end s /\ fs_label (fin s) = fs_label s /\
             fs_compound (fin s) = fs_compound s /\ fs_prefix (fin s) = fs_prefix s) ->
  (forall ll s ll' st, edit ll s = Done (ll', st) -> l_stmts ll <> [] -> right ll -> right ll') ->
  edit_line edit one fin F p = Done (F', st') ->
  exists F1 b s i l l' s', isolate_stmt F p = Ok (F1, b) /\ in_sync F1 /\ nth_error (lf_stmts F1) p = Some s /\ fs_line s = Some i /\ nth_error (lf_lines F1) i = Some l /\
    length (l_stmts l) = 1 /\ edit l s = Done (l', st') /\ lf_lines F' = set_nth (lf_lines F1) i l' /\
    nth_error (lf_stmts F') p = Some s' /\
    (forall x s0 s0', x <> p -> nth_error (lf_stmts F) x = Some s0 -> nth_error (lf_stmts F') x = Some s0' -> kept F F' s0 s0') /\
    length (lf_stmts F') = length (lf_stmts F) /\ (one = true -> length (l_stmts l') = 1) /\
    (exists r' rs', l_stmts l' = r' :: rs' /\
       s' = fin (mkFS (Some i) (Some (fst r')) (snd r' - fst r') (Some (snd r')) (fs_label s) (fs_compound s) (fs_prefix s) (fs_tag s) (fs_tree s) (fs_hook s))) /\
    (length (l_stmts l') = 1 -> l_label l' = l_label l -> in_sync F').
Proof.
  intros IS LP HF HE E. unfold edit_line in E. destruct (isolate_stmt F p) as [[F1 b]| |] eqn:EI; try discriminate. cbn [lift obind] in E.
  destruct (isolate_full F p F1 b IS LP EI) as (IS1 & K1 & s & i & l & r & N & LI & LN & LS & LB & LZ). rewrite (get_stmt_nth _ _ _ N) in E. cbn [lift obind] in E.
  unfold fs_it in E. rewrite LI in E. cbn [lift obind] in E. unfold get in E. rewrite LN in E. cbn [lift obind] in E.
  destruct (edit l s) as [[l' st1]| |] eqn:ED; try discriminate. cbn [obind] in E.
  destruct (assert_ (negb one || (length (l_stmts l') =? 1))) as [u| |] eqn:EA; try discriminate. cbn [lift obind] in E.
  unfold assign_range in E. destruct (l_stmts l') as [|[b' e'] rs'] eqn:EL'; try discriminate. cbn [lift obind] in E.
  destruct (locate_alone F1 p s i l r IS1 N LI LN LS) as (A & B & SA & SB & E1 & EA1 & E2 & EP & HR & HA & HS & HB). subst i.
  assert (RL : right l) by (rewrite Forall_forall in HR; apply HR; apply in_or_app; right; now left).
  assert (RL' : right l') by (apply (HE l s l' st1 ED); [rewrite LS; discriminate|exact RL]). rewrite LI in E.
  set (s1 := mkFS (Some (length A)) (Some b') (e' - b') (Some e') (fs_label s) (fs_compound s) (fs_prefix s) (fs_tag s) (fs_tree s) (fs_hook s)) in *.
  assert (GA : Forall (fun s => exists j, fs_line s = Some j /\ j <> length A) SA).
  { eapply F2_lines; [exact HA|]. intros m I. apply sts_in in I as (j & E0 & LJ). exists j. split; [exact E0|lia]. }
  assert (GB : Forall (fun s => exists j, fs_line s = Some j /\ j <> length A) SB).
  { eapply F2_lines; [exact HB|]. intros m I. apply sts_in in I as (j & E0 & LJ). exists j. split; [exact E0|lia]. }
  destruct F1 as [l1 t1]. cbn [lf_lines lf_stmts] in *. subst l1 t1. rewrite map_app in E. cbn [map] in E. rewrite (lose_none _ SA GA), (lose_none _ SB GB) in E.
  rewrite EP in E. rewrite !set_nth_app in E. injection E as <- <-.
  destruct (HF s1) as (T1 & T2 & T3 & T4 & T5 & T6 & T7). destruct HS as (S1 & S2 & S3 & S4 & S5 & S6 & S7). cbn [s_line s_range s_label s_prefix s_compound] in *.
  exists (mkLF (A ++ l :: B) (SA ++ s :: SB)), b, s, (length A), l, l', (fin s1). cbn [lf_lines lf_stmts].
  assert (KA : Forall2 (kept (mkLF (A ++ l :: B) (SA ++ s :: SB)) (mkLF (A ++ l' :: B) (SA ++ fin s1 :: SB))) SA SA) by (apply keptF_swap; exact GA).
  assert (KB : Forall2 (kept (mkLF (A ++ l :: B) (SA ++ s :: SB)) (mkLF (A ++ l' :: B) (SA ++ fin s1 :: SB))) SB SB) by (apply keptF_swap; exact GB).
  split; [reflexivity|]. split; [exact IS1|]. split; [exact N|]. split; [exact LI|]. split; [exact LN|]. split; [now rewrite LS|]. split; [exact ED|].
  split; [symmetry; apply set_nth_app|]. split; [rewrite EP; apply nth_app_mid|]. split; [|split; [|split; [|split]]].
  - intros x s0 s0' NX N0 N0'. destruct (nth_error (SA ++ s :: SB) x) as [sx|] eqn:NSX.
    2:{ apply nth_error_None in NSX. rewrite <- (F2_length _ _ _ K1) in NSX. assert (x < length (lf_stmts F)) by (apply nth_error_Some; rewrite N0; discriminate). lia. }
    apply (kept_trans F (mkLF (A ++ l :: B) (SA ++ s :: SB)) _ s0 sx); [apply (nth_F2 _ _ _ K1 x); auto|].
    destruct (Nat.ltb_spec x (length SA)) as [LX|LX].
    + rewrite nth_error_app1 in N0', NSX by lia. rewrite N0' in NSX. injection NSX as ->. apply (nth_F2 _ _ _ KA x); auto.
    + rewrite nth_error_app2 in N0', NSX by lia. destruct (x - length SA) as [|d] eqn:D; [lia|]. cbn [nth_error] in N0', NSX. rewrite N0' in NSX. injection NSX as ->. apply (nth_F2 _ _ _ KB d); auto.
  - rewrite (F2_length _ _ _ K1), !app_length. reflexivity.
  - intros ->. cbn [negb orb] in EA. destruct (Nat.eqb_spec (length ((b', e') :: rs')) 1) as [Q|Q]; [congruence|discriminate].
  - exists (b', e'), rs'. auto.
  - intros L1 LAB. destruct rs' as [|? ?]; [|rewrite EL' in L1; cbn in L1; lia].
    apply (swap_sync A l l' B SA SB s (fin s1) (b', e')); auto; rewrite ?T1, ?T2, ?T3, ?T4, ?T5, ?T6, ?T7; try reflexivity; unfold s1; cbn [fs_label fs_prefix fs_compound fs_end snd];
      first [now left|exact S5|destruct S6 as [S6|(S6 & _)]; auto; fail|rewrite S4; auto].
Qed.

(** ** The line editors end with init_from_layout and leave the label *)
Definition head_same (l l' : list File_Line) : Prop :=
  match l, l' with f :: _, f' :: _ => has_label f' = has_label f /\ left_txt f' = left_txt f | [], [] => True | _, _ => False end.
Lemma head_same_label l l' : head_same l l' -> init_label l' = init_label l.
Proof. destruct l as [|f l], l' as [|f' l']; cbn [head_same init_label]; try tauto. intros (-> & ->). reflexivity. Qed.
Lemma head_refl l : head_same l l.
Proof. destruct l; cbn; auto. Qed.
Lemma head_trans a b c : head_same a b -> head_same b c -> head_same a c.
Proof. destruct a, b, c; cbn; try tauto. intros (-> & ->) (-> & ->). auto. Qed.
Lemma get_fl_nth l i f : get_fl l i = Ok f -> (0 <= i)%Z /\ nth_error l (Z.to_nat i) = Some f.
Proof.
  unfold get_fl. destruct (Z.ltb_spec i 0); [discriminate|]. destruct (nth_error l (Z.to_nat i)); [|discriminate]. intros E. injection E as <-. auto.
Qed.
Lemma set_fl_head l i f g : nth_error l (Z.to_nat i) = Some f -> has_label g = has_label f -> left_txt g = left_txt f -> head_same l (set_fl l i g).
Proof. unfold set_fl. destruct l as [|x l]; [destruct (Z.to_nat i); discriminate|]. destruct (Z.to_nat i) as [|n]; cbn [firstn app nth_error head_same]; [|auto]. intros E. injection E as ->. auto. Qed.
Lemma set_fl_later l i g : (0 < i)%Z -> l <> [] -> head_same l (set_fl l i g).
Proof. intros H N. unfold set_fl. destruct l as [|x l]; [contradiction|]. destruct (Z.to_nat i) as [|n] eqn:E; [lia|]. cbn [firstn app head_same]. auto. Qed.
Lemma with_main_head f m : has_label (with_main f m) = has_label f /\ left_txt (with_main f m) = left_txt f.
Proof. split; reflexivity. Qed.
Lemma unc_head f : has_label (make_uncontinued f) = has_label f /\ left_txt (make_uncontinued f) = left_txt f.
Proof. unfold make_uncontinued. destruct (right_txt f) as [|c t]; [split; reflexivity|]. destruct (find_first_not_of _ _); split; reflexivity. Qed.
Lemma cont_head f : has_label (make_continued f) = has_label f /\ left_txt (make_continued f) = left_txt f.
Proof. unfold make_continued. destruct (right_txt f) as [|c t]; [split; reflexivity|]. destruct (ceq c c_amp); split; reflexivity. Qed.
Lemma upd_main_head l i g l' : upd_main l i g = Ok l' -> head_same l l'.
Proof.
  unfold upd_main. destruct (get_fl l i) as [f| |] eqn:G; cbn [bind]; try discriminate. destruct (g (main_txt f)) as [m| |]; cbn [bind]; try discriminate. intros E. injection E as <-.
  apply get_fl_nth in G as (_ & G). destruct (with_main_head f m). eapply set_fl_head; eauto.
Qed.
Lemma nonempty_get l i f : get_fl l i = Ok f -> l <> [].
Proof. intros G. apply get_fl_nth in G as (_ & G). destruct l; [destruct (Z.to_nat i); discriminate|discriminate]. Qed.
Lemma erase_mid_head n : forall l i l', 0 < i -> erase_mid l i n = Ok l' -> head_same l l'.
Proof.
  induction n as [|n IH]; intros l i l' H E; cbn [erase_mid] in E; [injection E as <-; apply head_refl|].
  destruct (get_fl l (Z.of_nat i)) as [f| |] eqn:G; cbn [bind] in E; try discriminate. destruct (is_fortran f).
  - destruct (make_comment_or_blank f) as [f'| |]; cbn [bind] in E; try discriminate. apply IH in E; [|lia]. eapply head_trans; [|exact E].
    apply set_fl_later; [lia|]. eapply nonempty_get; eauto.
  - cbn [bind] in E. apply IH in E; [exact E|lia].
Qed.
Lemma erase_head l a b c d l' : erase_stmt_text l a b c d = Ok l' -> head_same l l'.
Proof.
  unfold erase_stmt_text. intros E. destruct (Z.leb_spec a c) as [AC|]; cbn [assert_ bind] in E; [|discriminate]. destruct (Z.leb_spec 0 a) as [A0|]; cbn [assert_ bind] in E; [|discriminate].
  destruct (c <=? zlen l)%Z; cbn [assert_ bind] in E; [|discriminate]. destruct (get_fl l a) as [f| |] eqn:G; cbn [bind] in E; try discriminate.
  destruct (is_fortran f); cbn [assert_ bind] in E; [|discriminate].
  set (X := if (a <? c)%Z then _ else Ok (l, b)) in E.
  destruct X as [[l1 sc]| |] eqn:EX; cbn [bind] in E; try discriminate.
  assert (H1 : head_same l l1 /\ l1 <> []).
  { unfold X in EX. destruct (a <? c)%Z.
    - destruct (get_fl l c) as [e| |]; cbn [bind] in EX; try discriminate. destruct (is_fortran e); cbn [assert_ bind] in EX; [|discriminate].
      destruct (upd_main l a _) as [la| |] eqn:UM; cbn [bind] in EX; try discriminate. destruct (erase_mid la _ _) as [lb| |] eqn:EM; cbn [bind] in EX; try discriminate.
      injection EX as <- <-. apply upd_main_head in UM. apply erase_mid_head in EM; [|lia]. pose proof (head_trans _ _ _ UM EM) as HT. split; [exact HT|].
      apply nonempty_get in G. destruct l; [contradiction|]. destruct lb; [contradiction|discriminate].
    - injection EX as <- <-. split; [apply head_refl|]. eapply nonempty_get; eauto. }
  destruct H1 as (H1 & NE). clear X EX. destruct (sc <=? d)%Z; cbn [assert_ bind] in E; [|discriminate]. destruct (0 <=? sc)%Z; cbn [assert_ bind] in E; [|discriminate].
  destruct (get_fl l1 c) as [g| |] eqn:GC; cbn [bind] in E; try discriminate. destruct (d <=? zlen (main_txt g))%Z; cbn [assert_ bind] in E; [|discriminate].
  destruct (str_erase _ _ _) as [m| |]; cbn [bind] in E; try discriminate.
  match type of E with bind ?x _ = _ => set (Y := x) in E; destruct Y as [g1| |] eqn:EY end; cbn [bind] in E; try discriminate.
  assert (H2 : head_same l1 (set_fl l1 c g1) /\ set_fl l1 c g1 <> []).
  { split; [|unfold set_fl; destruct (firstn (Z.to_nat c) l1); discriminate]. apply get_fl_nth in GC as (C0 & GC). unfold Y in EY. destruct (is_none (find_first_not_of [c_sp] m)).
    - destruct (Z.ltb_spec a c).
      + apply set_fl_later; [lia|exact NE].
      + injection EY as <-. destruct (with_main_head g []). eapply set_fl_head; eauto.
    - injection EY as <-. destruct (with_main_head g m). eapply set_fl_head; eauto. }
  destruct H2 as (H2 & NE2). pose proof (head_trans _ _ _ H1 H2) as H3. destruct (count_fortran _ _ _ =? 1).
  - destruct (get_fl (set_fl l1 c g1) a) as [h| |] eqn:GA; cbn [bind] in E; try discriminate. injection E as <-. eapply head_trans; [exact H3|].
    apply get_fl_nth in GA as (_ & GA). destruct (unc_head h). eapply set_fl_head; eauto.
  - injection E as <-. exact H3.
Qed.
Lemma set_mains_head l ts : head_same l (set_mains l ts).
Proof. destruct l as [|f l], ts; cbn [set_mains head_same]; auto. Qed.
Lemma app_head l r : l <> [] -> head_same l (l ++ r).
Proof. destruct l; [contradiction|]. cbn. auto. Qed.
Lemma new_main_head l ts l' : ts <> [] -> new_main_layout l ts = Ok l' -> head_same l l'.
Proof.
  intros TN E. unfold new_main_layout in E. set (ref := last_fortran l (length l - 1)) in *.
  destruct (get_fl l (Z.of_nat ref)) as [rf| |] eqn:G; cbn [bind] in E; try discriminate. pose proof (nonempty_get _ _ _ G) as NE.
  destruct (is_fortran rf); cbn [assert_ bind] in E; [|discriminate]. destruct (negb (is_continued rf)); cbn [assert_ bind] in E; [|discriminate].
  destruct (length (filter is_fortran l) =? length l); cbn [assert_ bind] in E; [|discriminate].
  match type of E with bind ?x _ = _ => set (X := x) in E; destruct X as [l1| |] eqn:EX end; cbn [bind] in E; try discriminate.
  assert (H1 : head_same l l1).
  { unfold X in EX. destruct (length l <? length ts); [|injection EX as <-; apply head_refl]. destruct (set_leading_spaces _ _) as [[c2 ?]| |]; cbn [bind] in EX; try discriminate.
    injection EX as <-. apply app_head. exact NE. }
  clear X EX. pose proof (head_trans _ _ _ H1 (set_mains_head l1 ts)) as H2. set (l2 := set_mains l1 ts) in *.
  destruct (ref <? length ts); cbn [assert_ bind] in E; [|discriminate].
  set (l3 := if ref <? length ts - 1 then _ else l2) in *.
  assert (H3 : head_same l l3).
  { unfold l3. destruct (ref <? length ts - 1); [|exact H2]. destruct (nth_error l2 ref) as [f|] eqn:NF; [|exact H2]. eapply head_trans; [exact H2|]. destruct (cont_head f).
    eapply set_fl_head; eauto. rewrite Nat2Z.id. exact NF. }
  destruct (get_fl l3 (Z.of_nat (length ts - 1))) as [f| |] eqn:GF; cbn [bind] in E; try discriminate. apply get_fl_nth in GF as (_ & GF).
  assert (H4 : head_same l (set_fl l3 (Z.of_nat (length ts - 1)) (make_uncontinued f))).
  { eapply head_trans; [exact H3|]. destruct (unc_head f). eapply set_fl_head; eauto. }
  destruct (blank_rest _) as [r| |]; cbn [bind] in E; try discriminate. injection E as <-.
  set (l4 := set_fl l3 _ _) in *. eapply head_trans; [exact H4|]. destruct ts as [|t ts]; [contradiction|]. cbn [length firstn]. destruct l4 as [|x l4]; [|cbn; auto].
  destruct l; [contradiction|]. contradiction.
Qed.
Lemma init_layout_right st ll layout ll' st' : init_from_layout st ll layout = Done (ll', st') -> l_stmts ll <> [] -> right ll ->
  right ll' /\ init_label layout = Ok (l_label ll').
Proof.
  intros E N (R1 & R2). unfold init_from_layout in E. destruct (init_label layout) as [lab| |]; try discriminate. cbn [lift obind] in E.
  destruct (tokenize_layout st layout) as [[fr st1]| |]; cbn [obind] in E; try discriminate. injection E as <- <-. unfold redo_stmts. cbn [l_frags].
  destruct (init_stmts fr) as [u v] eqn:U. cbn [l_label]. split; [|reflexivity]. unfold right. cbn [l_stmts l_frags l_suppress l_cat]. rewrite U. split; [reflexivity|]. intros _. exact (R2 N).
Qed.

Ltac edit_tail H :=
  match type of H with obind (lift ?x) _ = _ => let l := fresh "lay" in let E := fresh "EL" in destruct x as [l| |] eqn:E; try discriminate H; cbn [lift obind] in H end.
Lemma before_edit st ll n text ll' st' : insert_text_before st ll n text = Done (ll', st') -> exists lay, init_from_layout st ll lay = Done (ll', st') /\ head_same (l_layout ll) lay.
Proof.
  unfold insert_text_before. intros E. edit_tail E. exists lay. split; [exact E|]. destruct (insert_place _ _) as [[a b]| |]; cbn [bind] in EL; try discriminate. unfold insert_text_at in EL.
  destruct (a <? _)%Z; cbn [assert_ bind] in EL; [|discriminate]. destruct (get_fl _ _) as [f| |]; cbn [bind] in EL; try discriminate. destruct (b <=? _)%Z; cbn [assert_ bind] in EL; [|discriminate].
  eapply upd_main_head; eauto.
Qed.
Lemma after_edit st ll n text ll' st' : insert_text_after st ll n text = Done (ll', st') -> exists lay, init_from_layout st ll lay = Done (ll', st') /\ head_same (l_layout ll) lay.
Proof.
  unfold insert_text_after. intros E. edit_tail E. exists lay. split; [exact E|]. destruct (nth_error (l_frags ll) n) as [x|]; [|discriminate].
  destruct (rd (mt_el x)) as [a| |]; cbn [bind] in EL; try discriminate. destruct (rd (mt_ec x)) as [b| |]; cbn [bind] in EL; try discriminate. unfold insert_text_at in EL.
  destruct (a <? _)%Z; cbn [assert_ bind] in EL; [|discriminate]. destruct (get_fl _ _) as [f| |]; cbn [bind] in EL; try discriminate. destruct (b <=? _)%Z; cbn [assert_ bind] in EL; [|discriminate].
  eapply upd_main_head; eauto.
Qed.
Lemma substr_edit st ll b e text ll' st' : LineEdit.replace_stmt_substr st ll b e text = Done (ll', st') -> exists lay, init_from_layout st ll lay = Done (ll', st') /\ head_same (l_layout ll) lay.
Proof.
  unfold replace_stmt_substr. intros E. edit_tail E. exists lay. split; [exact E|]. destruct (nth_error (l_frags ll) b) as [x|]; [|discriminate]. destruct (nth_error (l_frags ll) (e - 1)) as [y|]; [|discriminate].
  destruct (rd (mt_bl x)) as [a1| |]; cbn [bind] in EL; try discriminate. destruct (rd (mt_bc x)) as [a2| |]; cbn [bind] in EL; try discriminate.
  destruct (rd (mt_el y)) as [a3| |]; cbn [bind] in EL; try discriminate. destruct (rd (mt_ec y)) as [a4| |]; cbn [bind] in EL; try discriminate.
  destruct (erase_stmt_text _ _ _ _ _) as [l1| |] eqn:ER; cbn [bind] in EL; try discriminate. apply erase_head in ER. apply upd_main_head in EL. eapply head_trans; eauto.
Qed.
Lemma main_edit st ll ts ll' st' : ts <> [] -> replace_main_text st ll ts = Done (ll', st') -> exists lay, init_from_layout st ll lay = Done (ll', st') /\ head_same (l_layout ll) lay.
Proof.
  intros TN E. unfold replace_main_text in E. destruct ts as [|t ts]; [contradiction|]. edit_tail E. exists lay. split; [exact E|].
  destruct (is_empty (l_layout ll)); cbn [negb assert_ bind] in EL; [discriminate|]. destruct (is_compound ll); cbn [negb assert_ bind] in EL; [discriminate|].
  apply new_main_head in EL; [exact EL|discriminate].
Qed.

Lemma apply_edit_full st F p e F' st' : in_sync F -> p < length (lf_stmts F) -> apply_edit st F p e = Done (F', st') ->
  exists F1 b i l l' s', isolate_stmt F p = Ok (F1, b) /\ in_sync F1 /\ nth_error (lf_lines F1) i = Some l /\ length (l_stmts l) = 1 /\
    lf_lines F' = set_nth (lf_lines F1) i l' /\ nth_error (lf_stmts F') p = Some s' /\ fs_line s' = Some i /\ length (lf_stmts F') = length (lf_stmts F) /\
    (forall x s0 s0', x <> p -> nth_error (lf_stmts F) x = Some s0 -> nth_error (lf_stmts F') x = Some s0' -> kept F F' s0 s0') /\
    (forall ts tag, e = Text ts tag -> fs_tag s' = tag) /\
    (init_label (l_layout l) = Ok (l_label l) -> ((forall n t, e <> After n t) \/ length (l_stmts l') = 1) -> in_sync F').
Proof.
  intros IS LP E.
  assert (X : exists edit one fin, apply_edit st F p e = edit_line edit one fin F p /\ (one = true \/ exists n t, e = After n t) /\
    (forall s, fs_line (fin s) = fs_line s /\ fs_beg (fin s) = fs_beg s /\ fs_size (fin s) = fs_size s /\ fs_end (fin s) = fs_end s /\ fs_label (fin s) = fs_label s /\
             fs_compound (fin s) = fs_compound s /\ fs_prefix (fin s) = fs_prefix s) /\
    (forall ll s ll' st', edit ll s = Done (ll', st') -> exists lay, init_from_layout st ll lay = Done (ll', st') /\ head_same (l_layout ll) lay) /\
    (forall ts tag, e = Text ts tag -> forall s, fs_tag (fin s) = tag)).
  { destruct e as [ts tag|b0 e0 t|n t|t].
    - cbn [apply_edit] in *. unfold replace_stmt_text in *. destruct ts as [|t ts]; [discriminate|]. do 3 eexists. split; [reflexivity|]. split; [now left|]. split; [intros s0; repeat split|]. split.
      + intros ll s ll' st0 H. apply main_edit in H; [exact H|discriminate].
      + intros ts' tag' H s. injection H as _ <-. reflexivity.
    - cbn [apply_edit] in *. unfold replace_substr. do 3 eexists. split; [reflexivity|]. split; [now left|]. split; [intros s0; repeat split|]. split; [|discriminate]. intros ll s ll' st0 H. eapply substr_edit; eauto.
    - cbn [apply_edit] in *. unfold insert_after. do 3 eexists. split; [reflexivity|]. split; [right; eauto|]. split; [intros s0; repeat split|]. split; [|discriminate]. intros ll s ll' st0 H. eapply after_edit; eauto.
    - cbn [apply_edit] in *. unfold append_stmt_text. do 3 eexists. split; [reflexivity|]. split; [now left|]. split; [intros s0; repeat split|]. split; [|discriminate]. intros ll s ll' st0 H.
      destruct (valid (fs_end s)) as [k| |]; try discriminate. cbn [lift obind] in H. eapply before_edit; eauto. }
  destruct X as (edit & one & fin & EQ & ONE & FIN & ED & TG). rewrite EQ in E.
  destruct (edit_full edit one fin F p F' st' IS LP FIN) with (2 := E) as (F1 & b & s & i & l & l' & s' & Q1 & Q2 & Q3 & Q4 & Q5 & Q6 & Q7 & Q8 & Q9 & Q10 & Q11 & Q12 & (r' & rs' & Q13 & Q14) & Q15).
  { intros ll s0 ll' st0 H NE R. destruct (ED ll s0 ll' st0 H) as (lay & IL & _). eapply init_layout_right; eauto. }
  exists F1, b, i, l, l', s'. conjs; auto.
  - rewrite Q14. destruct (FIN (mkFS (Some i) (Some (fst r')) (snd r' - fst r') (Some (snd r')) (fs_label s) (fs_compound s) (fs_prefix s) (fs_tag s) (fs_tree s) (fs_hook s))) as (-> & _). reflexivity.
  - intros ts tag H. rewrite Q14. eapply TG; eauto.
  - intros LAB O. destruct (ED l s l' st' Q7) as (lay & IL & HD).
    assert (RL : right l) by (destruct Q2 as (RR & _); rewrite Forall_forall in RR; apply RR; eapply nth_error_In; eauto).
    assert (NE : l_stmts l <> []) by (intros X; rewrite X in Q6; discriminate).
    destruct (init_layout_right _ _ _ _ _ IL NE RL) as (_ & LB). rewrite (head_same_label _ _ HD), LAB in LB. injection LB as LB. apply Q15; [|congruence].
    destruct O as [O|O]; [|exact O]. destruct ONE as [->|(n & t & ->)]; [auto|]. exfalso. eapply O; eauto.
Qed.

(** ** set_stmt_label *)
Lemma agree_relabel A l l' B s m : l_frags l' = l_frags l -> agrees (A ++ l :: B) s m -> agrees (A ++ l' :: B) s m.
Proof.
  intros EF (E1 & E2 & E3 & E4 & E5 & E6 & E7). unfold agrees. conjs; auto. destruct E7 as [E7|(E7 & i & l0 & Q1 & Q2 & Q3)]; [now left|right]. split; [exact E7|].
  destruct (Nat.eq_dec i (length A)) as [->|NE].
  - rewrite nth_app_mid in Q2. injection Q2 as <-. exists (length A), l'. rewrite nth_app_mid, EF. auto.
  - exists i, l0. conjs; auto. rewrite (nth_other A l) by congruence. exact Q2.
Qed.
Lemma words_relabel A l l' B st st' s s' : l_frags l' = l_frags l -> fs_line s' = fs_line s -> fs_beg s' = fs_beg s -> fs_size s' = fs_size s ->
  words (mkLF (A ++ l' :: B) st') s' = words (mkLF (A ++ l :: B) st) s.
Proof.
  intros EF E1 E2 E3. unfold words. rewrite E1, E2, E3. destruct (fs_line s) as [i|]; [|reflexivity]. destruct (fs_beg s) as [k|]; [|reflexivity]. cbn [lf_lines].
  destruct (Nat.eq_dec i (length A)) as [->|NE]; [now rewrite !nth_app_mid, EF|]. now rewrite (nth_other A l) by congruence.
Qed.
Lemma label_first F p s : in_sync F -> nth_error (lf_stmts F) p = Some s -> fs_label s <> 0%Z -> (fs_compound s < 2)%Z.
Proof.
  intros IS N P. destruct (Z.ltb_spec (fs_compound s) 2) as [C|C]; [exact C|exfalso].
  destruct (locate F p s IS N C) as (A & l & B & k & r & r' & SA & SL1 & SL2 & SB & EL & ES & EP & GL & HR & Hk & Hk' & HA & H1 & H2 & HB).
  rewrite ES, EP in N. assert (LL1 : length SL1 = S k). { rewrite (F2_length _ _ _ H1), line_stmts_len, firstn_length. assert (S k < length (l_stmts l)) by (apply nth_error_Some; rewrite Hk'; discriminate). lia. }
  rewrite nth_error_app2 in N by lia. replace (length SA + S k - length SA) with (S k) in N by lia. rewrite nth_error_app2 in N by lia. rewrite LL1, Nat.sub_diag in N.
  rewrite (skipn_cons_nth _ _ _ Hk') in H2. cbn [line_stmts] in H2. inversion H2 as [|s0 ? t ? G]. subst. cbn in N. injection N as ->. destruct G as (_ & _ & _ & G4 & _). cbn [s_label] in G4. contradiction.
Qed.
Lemma set_label_line ll n ll' r : ll_set_label ll n = Ok (ll', r) -> l_label ll' = n /\ l_frags ll' = l_frags ll /\ l_stmts ll' = l_stmts ll /\ l_suppress ll' = l_suppress ll /\
  l_cat ll' = l_cat ll /\ r = negb (n =? l_label ll)%Z.
Proof.
  intros H. unfold ll_set_label in H. destruct (Z.eqb_spec n (l_label ll)) as [E|E]; [injection H as <- <-; auto 10|].
  destruct (l_layout ll) as [|f t]; [discriminate H|]. destruct (set_label f n) as [[f' ?]| |]; cbn [bind] in H; try discriminate. injection H as <- <-. auto 10.
Qed.
Lemma label_full F p s n F' b : in_sync F -> nth_error (lf_stmts F) p = Some s -> (0 <= fs_label s)%Z -> set_stmt_label F p n = Ok (F', b) ->
  in_sync F' /\ length (lf_stmts F') = length (lf_stmts F) /\ b = negb (n =? fs_label s)%Z /\
  (exists s', nth_error (lf_stmts F') p = Some s' /\ fs_label s' = n /\ words F' s' = words F s /\ fs_tag s' = fs_tag s /\
     (b = true -> (fs_compound s' < 2)%Z /\ exists l, line_of F' s' = Some l /\ l_label l = n)) /\
  (forall x s0 s0', x <> p -> nth_error (lf_stmts F) x = Some s0 -> nth_error (lf_stmts F') x = Some s0' -> kept F F' s0 s0').
Proof.
  intros IS N L0 E. unfold set_stmt_label in E. destruct (n <? 0)%Z; cbn [negb assert_ bind] in E; [discriminate|]. rewrite (get_stmt_nth _ _ _ N) in E. cbn [bind] in E.
  destruct (negb (0 <? fs_label s)%Z && (n =? 0)%Z) eqn:CASE.
  - injection E as <- <-. apply andb_prop in CASE as (C1 & C2). apply Z.eqb_eq in C2. subst n. apply negb_true_iff, Z.ltb_ge in C1. assert (Z0 : fs_label s = 0%Z) by lia.
    conjs; auto; [now rewrite Z0| |].
    + exists s. conjs; auto. discriminate.
    + intros x s0 s0' _ A1 A2. rewrite A1 in A2. injection A2 as <-. apply kept_refl.
  - set (X := if (0 <? fs_label s)%Z then Ok (F, false) else split_compound_before F p) in E. destruct X as [[F1 b1]| |] eqn:EX; cbn [bind] in E; try discriminate.
    assert (LP : p < length (lf_stmts F)) by (apply nth_error_Some; rewrite N; discriminate).
    assert (H1 : in_sync F1 /\ Forall2 (kept F F1) (lf_stmts F) (lf_stmts F1) /\ exists s1, nth_error (lf_stmts F1) p = Some s1 /\ (fs_compound s1 < 2)%Z).
    { unfold X in EX. destruct (Z.ltb_spec 0 (fs_label s)).
      - injection EX as <- <-. split; [exact IS|]. split; [apply F2_refl; intros; apply kept_refl|]. exists s. split; [exact N|]. apply (label_first F p s IS N). lia.
      - destruct (split_next F p F1 b1 IS LP EX) as (Q1 & Q2 & Q3 & _). auto. }
    clear X EX. destruct H1 as (IS1 & K1 & s1 & N1 & C1). rewrite (get_stmt_nth _ _ _ N1) in E. cbn [bind] in E.
    destruct (locate_first F1 p s1 IS1 N1 C1) as (A & l & B & SA & SL & r & rs & E1 & E2 & EP & GL & GP & ER & HR & HA & HB).
    unfold fs_it in E. rewrite GL in E. cbn [bind] in E. unfold get in E. rewrite E1, nth_app_mid in E. cbn [bind] in E.
    destruct (ll_set_label l n) as [[l' rv]| |] eqn:SLL; cbn [bind] in E; try discriminate. injection E as <- <-.
    destruct (set_label_line _ _ _ _ SLL) as (Y1 & Y2 & Y3 & Y4 & Y5 & Y6). rewrite E2, EP, !set_nth_app, Y1.
    pose proof (nth_F2 _ _ _ K1 _ _ _ N N1) as (W1 & W2 & W3).
    cbn [sts] in HB. unfold bare in HB. rewrite ER in HB. cbn [is_empty line_stmts app] in HB. inversion HB as [|? ? ? ? G1 G2]. subst.
    assert (LAB : fs_label s1 = l_label l) by (destruct G1 as (_ & _ & _ & G4 & _); exact G4).
    set (s2 := mkFS (Some (length A)) (fs_beg s1) (fs_size s1) (fs_end s1) (l_label l') (fs_compound s1) (fs_prefix s1) (fs_tag s1) (fs_tree s1) (fs_hook s1)).
    destruct F1 as [f1 f2]. cbn [lf_lines lf_stmts] in *. subst f1 f2.
    assert (KW : forall q, In q SA \/ In q SL -> kept (mkLF (A ++ l :: B) (SA ++ s1 :: SL)) (mkLF (A ++ l' :: B) (SA ++ s2 :: SL)) q q).
    { intros q _. unfold kept. conjs; auto. apply words_relabel; auto. }
    split; [|split; [|split; [|split]]].
    + split; cbn [lf_lines lf_stmts].
      * apply Forall_app in HR as (RA & RB). inversion RB as [|? ? R1 R2]. apply Forall_app. split; [exact RA|]. constructor; [|exact R2]. unfold right in *. rewrite Y3, Y2, Y4, Y5. exact R1.
      * rewrite sts_file, sts_app. cbn [Nat.add sts]. unfold bare. rewrite Y3, ER. cbn [is_empty line_stmts app]. apply Forall2_app.
        -- eapply F2_impl; [|exact HA]. intros a m G. eapply agree_relabel; eauto.
        -- constructor; [|eapply F2_impl; [|exact G2]; intros a m G; eapply agree_relabel; eauto].
           apply (agree_relabel A l l' B _ _ Y2) in G1. destruct G1 as (Z1 & Z2 & Z3 & Z4 & Z5 & Z6 & Z7). unfold s2, agrees. cbn [fs_line fs_beg fs_size fs_label fs_prefix fs_compound fs_end s_line s_range s_label s_prefix s_compound] in *.
           conjs; auto.
    + cbn [lf_stmts]. rewrite (F2_length _ _ _ K1), !app_length. reflexivity.
    + rewrite <- LAB, W2. reflexivity.
    + exists s2. cbn [lf_stmts]. rewrite nth_app_mid. conjs; auto.
      * rewrite <- W1. apply words_relabel; auto.
      * intros _. split; [exact C1|]. exists l'. unfold line_of, s2. cbn [fs_line lf_lines]. rewrite nth_app_mid. auto.
    + intros x s0 s0' NX N0 N0'. cbn [lf_stmts] in N0'. destruct (nth_error (SA ++ s1 :: SL) x) as [sx|] eqn:NSX.
      2:{ apply nth_error_None in NSX. rewrite <- (F2_length _ _ _ K1) in NSX. assert (x < length (lf_stmts F)) by (apply nth_error_Some; rewrite N0; discriminate). lia. }
      apply (kept_trans F (mkLF (A ++ l :: B) (SA ++ s1 :: SL)) _ s0 sx); [apply (nth_F2 _ _ _ K1 x); auto|].
      destruct (Nat.ltb_spec x (length SA)) as [LX|LX].
      * rewrite nth_error_app1 in N0', NSX by lia. rewrite N0' in NSX. injection NSX as ->. apply KW. left. eapply nth_error_In; eauto.
      * rewrite nth_error_app2 in N0', NSX by lia. destruct (x - length SA) as [|d] eqn:D; [lia|]. cbn [nth_error] in N0', NSX. rewrite N0' in NSX. injection NSX as ->. apply KW. right. eapply nth_error_In; eauto.
Qed.
(** the file as make_stmts makes it *)
Lemma fresh_sync ls : Forall right ls ->
  exists F n, (forall f, n <= f -> make_file f ls = Some (Ok F)) /\ lf_lines F = ls /\ in_sync F /\ Forall (fun s => fs_end s <> None) (lf_stmts F).
Proof.
  intros HR. destruct (make_stmts_main ls) as (n & H). { intros l I. rewrite Forall_forall in HR. apply (HR l I). }
  exists (mkLF ls (map from_src (stmts_of_file ls))), n. cbn [lf_lines lf_stmts]. split; [|split; [reflexivity|split]].
  - intros f HF. unfold make_file. now rewrite H.
  - split; [exact HR|]. cbn [lf_lines lf_stmts]. clear H. induction (stmts_of_file ls) as [|m t IH]; [constructor|]. constructor; [|exact IH].
    unfold agrees, from_src. cbn [fs_line fs_beg fs_size fs_label fs_prefix fs_compound fs_end]. conjs; auto.
  - apply Forall_forall. intros s I. apply in_map_iff in I as (m & <- & _). discriminate.
Qed.

(** for concrete files *)
Lemma sync_by F : map l_stmts (lf_lines F) = map (fun l => fst (init_stmts (l_frags l))) (lf_lines F) ->
  forallb (fun l => is_empty (l_stmts l) || (negb (l_suppress l) && negb (is_macro (l_cat l)))) (lf_lines F) = true ->
  lf_stmts F = map from_src (stmts_of_file (lf_lines F)) -> in_sync F.
Proof.
  intros H1 H2 H3. split.
  - clear H3. induction (lf_lines F) as [|l t IH]; constructor; cbn [map forallb] in *; injection H1 as E1 E2; apply andb_prop in H2 as (G1 & G2); [|auto].
    split; [exact E1|]. intros N. destruct (l_stmts l); [contradiction|]. cbn [is_empty orb] in G1. apply andb_prop in G1 as (G1 & G3).
    split; [now apply negb_true_iff|]. intros X. rewrite X in G3. discriminate.
  - rewrite H3. clear. induction (stmts_of_file (lf_lines F)) as [|m t IH]; [constructor|]. constructor; [|exact IH].
    unfold agrees, from_src. cbn [fs_line fs_beg fs_size fs_label fs_prefix fs_compound fs_end]. conjs; auto.
Qed.
