From Verif Require Import Base Tags SyntaxTags Token TTStream TTStream_spec.
Local Open Scope nat_scope.

Lemma next_n_ok s p n q : (Z.of_nat p + n = Z.of_nat q)%Z -> (q <= S (length (frags s))) -> next_n s p n = Ok q.
Proof.
  intros E L. unfold next_n. rewrite E. rewrite Nat2Z.id.
  destruct (Z.leb_spec 0 (Z.of_nat q)); [|lia]. destruct (Z.leb_spec (Z.of_nat q) (Z.of_nat (S (length (frags s))))); [reflexivity|lia].
Qed.
Ltac cut H := destruct H as (pre & post & EF & EB & EP & EE).

Lemma len_frags s b a : at_cut s b a -> pos s + length a <= length (frags s) /\ s_beg s + length b = pos s /\ pos s + length a = s_end s.
Proof. intros H. cut H. rewrite EF, !app_length. lia. Qed.

(** the token k places behind the cut *)
Lemma deref_after s b a k t : at_cut s b a -> nth_error a k = Some t -> deref s (pos s + k) = Ok t.
Proof.
  intros H E. cut H. unfold deref. rewrite EF, EP.
  rewrite nth_error_app2 by lia. rewrite nth_error_app2 by lia.
  assert (k < length a) by (apply nth_error_Some; congruence).
  rewrite nth_error_app1 by lia. replace (length pre + length b + k - length pre - length b) with k by lia. now rewrite E.
Qed.
Lemma deref_before s b a k t : at_cut s b a -> nth_error b k = Some t -> deref s (s_beg s + k) = Ok t.
Proof.
  intros H E. cut H. unfold deref. rewrite EF, EB.
  assert (k < length b) by (apply nth_error_Some; congruence).
  rewrite nth_error_app2 by lia. rewrite nth_error_app1 by lia. replace (length pre + k - length pre) with k by lia. now rewrite E.
Qed.

Lemma cut_move s b a b' a' : at_cut s b a -> b' ++ a' = b ++ a -> at_cut (set_pos s (s_beg s + length b')) b' a'.
Proof.
  intros H E. cut H. assert (L : length b' + length a' = length b + length a) by (rewrite <- !app_length; now rewrite E).
  exists pre, post. cbn. rewrite EF, EB, EE. rewrite !app_assoc. rewrite <- (app_assoc pre b' a'), E, (app_assoc pre b a). repeat split; lia.
Qed.
Lemma cut_pos s b a p b' a' : at_cut s b a -> b' ++ a' = b ++ a -> p = s_beg s + length b' -> at_cut (set_pos s p) b' a'.
Proof. intros H E ->. now apply (cut_move s b a). Qed.

Lemma peek_ok s b a : at_cut s b a -> peek s = Ok (match a with t :: _ => tok t | [] => BAD end).
Proof.
  intros H. pose proof (len_frags _ _ _ H) as (L & LB & LE). unfold peek. destruct a as [|t a].
  - cbn in LE. destruct (Nat.eqb_spec (pos s) (s_end s)); [reflexivity|lia].
  - cbn in LE. destruct (Nat.eqb_spec (pos s) (s_end s)); [lia|].
    rewrite <- (Nat.add_0_r (pos s)). now rewrite (deref_after s b (t :: a) 0 t H eq_refl).
Qed.
Lemma consume_ok s b a n : at_cut s b a -> n <= length a ->
  exists s', consume s (Z.of_nat n) = Ok s' /\ at_cut s' (b ++ firstn n a) (skipn n a).
Proof.
  intros H L. pose proof (len_frags _ _ _ H) as (LL & LB & LE). unfold consume.
  rewrite (next_n_ok s (pos s) (Z.of_nat n) (pos s + n)) by lia. cbn [bind]. eexists. split; [reflexivity|].
  apply (cut_pos s b a); [exact H| |].
  - now rewrite <- app_assoc, firstn_skipn.
  - rewrite app_length, firstn_length. lia.
Qed.
Lemma curr_tt_ok s b a : at_cut s b a -> curr_tt s = Ok (last b default_token).
Proof.
  intros H. pose proof (len_frags _ _ _ H) as (L & LB & LE). unfold curr_tt. destruct b as [|t b] using rev_ind.
  - cbn in LB. destruct (Nat.eqb_spec (pos s) (s_beg s)); [reflexivity|lia].
  - clear IHb. rewrite app_length in LB. cbn in LB. destruct (Nat.eqb_spec (pos s) (s_beg s)); [lia|]. cbn [negb].
    rewrite (next_n_ok s (pos s) (-1) (s_beg s + length b)) by lia. cbn [bind].
    rewrite (deref_before s (b ++ [t]) a (length b) t H); [now rewrite last_last|].
    rewrite nth_error_app2, Nat.sub_diag by lia. reflexivity.
Qed.
Lemma peek_tt_ok s b a k : at_cut s b a -> 1 <= k <= length a + 1 -> peek_tt s (Z.of_nat k) = Ok (nth (k - 1) a default_token).
Proof.
  intros H K. pose proof (len_frags _ _ _ H) as (L & LB & LE). unfold peek_tt.
  rewrite (next_n_ok s (pos s) (Z.of_nat k - 1) (pos s + (k - 1))) by lia. cbn [bind].
  destruct (Nat.eqb_spec (pos s + (k - 1)) (s_end s)); cbn [negb].
  - rewrite nth_overflow by lia. reflexivity.
  - apply (deref_after s b a); [exact H|]. apply nth_error_nth'. lia.
Qed.
Lemma peek_back_ok s b a : at_cut s b a -> peek_back s = Ok (tok (last (b ++ a) default_token)).
Proof.
  intros H. pose proof (len_frags _ _ _ H) as (L & LB & LE). unfold peek_back.
  assert (H0 : at_cut (set_pos s (s_beg s)) [] (b ++ a)) by (apply (cut_pos s b a); [exact H|reflexivity|cbn; lia]).
  destruct (b ++ a) as [|t l] eqn:E using rev_ind.
  - apply app_eq_nil in E as [-> ->]. cbn in *. destruct (Nat.eqb_spec (s_beg s) (s_end s)); [reflexivity|lia].
  - clear IHl. assert (LN : length b + length a = S (length l)) by (rewrite <- app_length, E, app_length; cbn; lia).
    destruct (Nat.eqb_spec (s_beg s) (s_end s)); [lia|].
    rewrite (next_n_ok s (s_beg s) _ (s_beg s + length l)) by lia. cbn [bind].
    change (deref s (s_beg s + length l)) with (deref (set_pos s (s_beg s)) (pos (set_pos s (s_beg s)) + length l)).
    rewrite (deref_after _ [] (l ++ [t]) (length l) t H0).
    + cbn [bind]. now rewrite last_last.
    + rewrite nth_error_app2, Nat.sub_diag by lia. reflexivity.
Qed.
Lemma num_consumed_ok s b a : at_cut s b a -> num_consumed s = Ok (Z.of_nat (length b)).
Proof.
  intros H. pose proof (len_frags _ _ _ H) as (L & LB & LE). unfold num_consumed.
  destruct (Nat.leb_spec (s_beg s) (pos s)); [|lia]. f_equal. lia.
Qed.
Lemma digest_ok s b a n : at_cut s b a -> n <= length a ->
  exists s' r, digest s (Z.of_nat n) = Ok (s', r) /\ at_cut s' (b ++ firstn n a) (skipn n a) /\ range_toks s' r = firstn n a.
Proof.
  intros H L. pose proof (len_frags _ _ _ H) as (LL & LB & LE).
  destruct (consume_ok s b a n H L) as (s' & C & H'). unfold digest. unfold consume in C.
  rewrite (next_n_ok s (pos s) (Z.of_nat n) (pos s + n)) in * by lia. cbn [bind] in *. injection C as <-.
  eexists. eexists. split; [reflexivity|]. split; [exact H'|].
  unfold range_toks. cbn [fst snd frags set_pos]. replace (pos s + n - pos s) with n by lia.
  clear -H L. cut H. rewrite EF, EP. rewrite skipn_app, (skipn_all2 pre) by lia. cbn [app].
  replace (length pre + length b - length pre) with (length b) by lia.
  rewrite skipn_app, skipn_all, Nat.sub_diag. cbn [app skipn].
  rewrite firstn_app. replace (n - length a) with 0 by lia. rewrite firstn_O, app_nil_r. reflexivity.
Qed.
Lemma put_back_ok s b a : at_cut s b a ->
  exists s', put_back s = Ok s' /\ at_cut s' (firstn (length b - 1) b) (skipn (length b - 1) (b ++ a)).
Proof.
  intros H. pose proof (len_frags _ _ _ H) as (L & LB & LE). unfold put_back.
  destruct b as [|t b].
  - cbn in *. destruct (Nat.eqb_spec (pos s) (s_beg s)); [|lia]. cbn. eauto.
  - cbn [length] in *. destruct (Nat.eqb_spec (pos s) (s_beg s)); [lia|]. cbn [negb].
    rewrite (next_n_ok s (pos s) (-1) (s_beg s + length b)) by lia. cbn [bind]. eexists. split; [reflexivity|].
    apply (cut_pos s (t :: b) a); [exact H| |].
    + replace (S (length b) - 1) with (length b) by lia. rewrite skipn_app.
      replace (length b - length (t :: b)) with 0 by (cbn; lia). cbn [skipn]. rewrite app_assoc, firstn_skipn. reflexivity.
    + rewrite firstn_length. cbn [length]. lia.
Qed.
Lemma is_eol_ok s b a : at_cut s b a ->
  match a with
  | [] => is_eol s = Ok (s, true)
  | t :: a' => if (tok t =? TK_SEMICOLON)%Z
               then exists s', is_eol s = Ok (s', true) /\ at_cut s' (b ++ [t]) a'
               else is_eol s = Ok (s, false)
  end.
Proof.
  intros H. pose proof (len_frags _ _ _ H) as (L & LB & LE). unfold is_eol. destruct a as [|t a]; cbn [length] in *.
  - destruct (Nat.eqb_spec (pos s) (s_end s)); [reflexivity|lia].
  - destruct (Nat.eqb_spec (pos s) (s_end s)); [lia|]. cbn [negb].
    pose proof (deref_after s b (t :: a) 0 t H eq_refl) as D. rewrite Nat.add_0_r in D. rewrite D. cbn [bind].
    rewrite (Z.eqb_sym TK_SEMICOLON). destruct (tok t =? TK_SEMICOLON)%Z; [|reflexivity].
    destruct (consume_ok s b (t :: a) 1 H ltac:(cbn; lia)) as (s' & C & H'). unfold consume in C. change (Z.of_nat 1) with 1%Z in C.
    destruct (next_n s (pos s) 1); try discriminate. cbn [bind] in *. injection C as <-. eauto.
Qed.

Lemma sstep_ok s b a o b' a' : at_cut s b a -> spec_step b a (s_beg s) o = Some (b', a') ->
  exists s', sstep s o = Ok s' /\ at_cut s' b' a' /\ s_beg s' = s_beg s.
Proof.
  intros H. assert (SB : forall s', at_cut s' b' a' -> frags s' = frags s -> s_beg s' = s_beg s -> s_beg s' = s_beg s) by auto.
  pose proof (len_frags _ _ _ H) as (L & LB & LE).
  destruct o as [n|n| | |m| |]; cbn [spec_step sstep].
  - destruct (Nat.leb_spec n (length a)); [|discriminate]. intros [= <- <-].
    destruct (consume_ok s b a n H) as (s' & C & H'); [assumption|]. exists s'. split; [exact C|]. split; [exact H'|].
    unfold consume in C. destruct (next_n s (pos s) (Z.of_nat n)); try discriminate. injection C as <-. reflexivity.
  - destruct (Nat.leb_spec n (length a)); [|discriminate]. intros [= <- <-].
    destruct (digest_ok s b a n H) as (s' & r & C & H' & _); [assumption|]. rewrite C. cbn [bind]. eexists. split; [reflexivity|]. split; [exact H'|].
    unfold digest in C. destruct (next_n s (pos s) (Z.of_nat n)); try discriminate. injection C as <- _. reflexivity.
  - intros [= <- <-]. destruct (put_back_ok s b a H) as (s' & C & H'). exists s'. split; [exact C|]. split; [exact H'|].
    unfold put_back in C. destruct (negb (pos s =? s_beg s)); [|now injection C as <-].
    destruct (next_n s (pos s) (-1)); try discriminate. injection C as <-. reflexivity.
  - intros [= <- <-]. eexists. split; [reflexivity|]. split; [|reflexivity]. apply (cut_pos s b a); [exact H|reflexivity|cbn; lia].
  - destruct ((s_beg s <=? m) && (m - s_beg s <=? length (b ++ a))) eqn:B; [|discriminate]. intros [= <- <-].
    apply andb_true_iff in B as [B1 B2]. apply Nat.leb_le in B1, B2.
    eexists. split; [reflexivity|]. split; [|reflexivity]. apply (cut_pos s b a); [exact H|apply firstn_skipn|].
    rewrite firstn_length. lia.
  - intros [= <- <-]. eexists. split; [reflexivity|]. split; [|reflexivity]. apply (cut_pos s b a); [exact H|apply app_nil_r|].
    rewrite app_length. lia.
  - pose proof (is_eol_ok s b a H) as E. destruct a as [|t a].
    + intros [= <- <-]. rewrite E. cbn. eauto.
    + destruct (tok t =? TK_SEMICOLON)%Z.
      * intros [= <- <-]. destruct E as (s' & E & H'). rewrite E. cbn [bind]. eexists. split; [reflexivity|]. split; [exact H'|].
        unfold is_eol in E. destruct (negb (pos s =? s_end s)); [|injection E as <-; reflexivity].
        destruct (deref s (pos s)); try discriminate. cbn [bind] in E. destruct (TK_SEMICOLON =? tok a0)%Z; [|discriminate].
        destruct (next_n s (pos s) 1); try discriminate. injection E as <-. reflexivity.
      * intros [= <- <-]. rewrite E. cbn. eauto.
Qed.
Lemma srun_ok h : forall s b a b' a', at_cut s b a -> spec_run b a (s_beg s) h = Some (b', a') ->
  exists s', srun s h = Ok s' /\ at_cut s' b' a' /\ s_beg s' = s_beg s.
Proof.
  induction h as [|o h IH]; cbn [spec_run srun]; intros s b a b' a' H E.
  - injection E as <- <-. eauto.
  - destruct (spec_step b a (s_beg s) o) as [[b1 a1]|] eqn:S; [|discriminate].
    destruct (sstep_ok _ _ _ _ _ _ H S) as (s1 & -> & H1 & B1). cbn [bind]. rewrite <- B1 in E.
    destruct (IH s1 b1 a1 b' a' H1 E) as (s2 & R & H2 & B2). exists s2. split; [exact R|]. split; [exact H2|congruence].
Qed.
Lemma run_frags h : forall s s', srun s h = Ok s' -> frags s' = frags s /\ s_beg s' = s_beg s /\ s_end s' = s_end s.
Proof.
  induction h as [|o h IH]; cbn [srun]; intros s s'; [intros [= <-]; auto|].
  destruct (sstep s o) as [s1| |] eqn:S; try discriminate. cbn [bind]. intros R. apply IH in R.
  enough (frags s1 = frags s /\ s_beg s1 = s_beg s /\ s_end s1 = s_end s) by (destruct R as (-> & -> & ->); auto).
  clear R IH. destruct o; cbn [sstep] in S.
  - unfold consume in S. destruct next_n; try discriminate. injection S as <-; auto.
  - unfold digest in S. destruct next_n; try discriminate. injection S as <-; auto.
  - unfold put_back in S. destruct negb; [|injection S as <-; auto]. destruct next_n; try discriminate. injection S as <-; auto.
  - injection S as <-; auto.
  - injection S as <-; auto.
  - injection S as <-; auto.
  - unfold is_eol in S. destruct negb; [|injection S as <-; auto]. destruct deref; try discriminate. cbn [bind] in S.
    destruct (TK_SEMICOLON =? tok a)%Z; [|injection S as <-; auto]. destruct next_n; try discriminate. injection S as <-; auto.
Qed.

(** ** parentheses *)
Section Match.
Variables opn close : Z.
Hypothesis NE : opn <> close.
Hypothesis NB1 : opn <> BAD.
Hypothesis NB2 : close <> BAD.
Local Open Scope Z_scope.

Fixpoint scan (d : Z) (l : list Token) : option nat :=
  match l with
  | [] => None
  | t :: r =>
      let d' := if tok t =? opn then d + 1 else if tok t =? close then d - 1 else d in
      if d' <=? 0 then Some 1%nat else option_map S (scan d' r)
  end.
Notation lev := (level opn close).
Lemma scan_some d l k : 0 < d -> scan d l = Some k ->
  (0 < k <= length l)%nat /\ d + lev (firstn k l) = 0 /\ (forall j, (j < k)%nat -> 0 < d + lev (firstn j l)).
Proof using. clear NE NB1 NB2.
  revert d k. induction l as [|t r IH]; intros d k D; cbn [scan]; [discriminate|].
  set (d' := if tok t =? opn then d + 1 else if tok t =? close then d - 1 else d).
  assert (ST : forall j, lev (firstn (S j) (t :: r)) = (d' - d) + lev (firstn j r)).
  { intros j. cbn. unfold d'. destruct (tok t =? opn); [lia|]. destruct (tok t =? close); lia. }
  destruct (Z.leb_spec d' 0) as [LE|GT].
  - intros [= <-]. split; [cbn; lia|]. split.
    + rewrite ST. cbn. unfold d' in *. destruct (tok t =? opn); [lia|]. destruct (tok t =? close); lia.
    + intros j J. assert (j = 0%nat) by lia. subst. cbn. lia.
  - destruct (scan d' r) as [m|] eqn:S; [|discriminate]. intros [= <-]. destruct (IH d' m GT S) as (A & B & C).
    split; [cbn; lia|]. split; [rewrite ST; lia|]. intros [|j] J; [cbn; lia|]. rewrite ST. specialize (C j ltac:(lia)). lia.
Qed.
Lemma scan_none d l : 0 < d -> scan d l = None -> forall j, (j <= length l)%nat -> 0 < d + lev (firstn j l).
Proof using. clear NE NB1 NB2.
  revert d. induction l as [|t r IH]; intros d D; cbn [scan].
  - intros _ j J. cbn in J. assert (j = 0%nat) by lia. subst. cbn. lia.
  - set (d' := if tok t =? opn then d + 1 else if tok t =? close then d - 1 else d).
    destruct (Z.leb_spec d' 0) as [LE|GT]; [discriminate|]. destruct (scan d' r) eqn:S; [discriminate|]. intros _ [|j] J; [cbn; lia|].
    specialize (IH d' GT S j ltac:(cbn in J; lia)). cbn. unfold d' in *. destruct (tok t =? opn); [lia|]. destruct (tok t =? close); lia.
Qed.
(** for a list starting with an opening token *)
Lemma scan_matched t l : tok t = opn ->
  (forall k, scan 1 l = Some k -> matched opn close (t :: l) (S k)) /\
  (scan 1 l = None -> unmatched opn close (t :: l)) /\
  (forall k, matched opn close (t :: l) k -> scan 1 l = Some (k - 1)%nat).
Proof using. clear NE NB1 NB2.
  intros E.
  assert (ST : forall j, lev (firstn (S j) (t :: l)) = 1 + lev (firstn j l)).
  { intros j. cbn [firstn level]. rewrite E, Z.eqb_refl. lia. }
  assert (M1 : forall k, scan 1 l = Some k -> matched opn close (t :: l) (S k)).
  { intros k S. destruct (scan_some 1 l k ltac:(lia) S) as (A & B & C). split; [cbn; lia|]. split; [rewrite ST; lia|].
    intros [|j] J; [lia|]. rewrite ST. apply C. lia. }
  assert (M2 : scan 1 l = None -> unmatched opn close (t :: l)).
  { intros S [|k] ((L1 & L2) & Z & _); [lia|]. rewrite ST in Z. cbn in L2. pose proof (scan_none 1 l ltac:(lia) S k ltac:(lia)). lia. }
  split; [exact M1|]. split; [exact M2|].
  intros k M. destruct (scan 1 l) as [m|] eqn:SS.
  - specialize (M1 m eq_refl). f_equal.
    destruct M as ((K1 & K2) & KZ & KP), M1 as ((L1 & L2) & LZ & LP).
    destruct (Nat.lt_trichotomy k (S m)) as [H|[H|H]]; [|lia|].
    + specialize (LP k ltac:(lia)). lia.
    + specialize (KP (S m) ltac:(lia)). lia.
  - exfalso. exact (M2 eq_refl k M).
Qed.

Lemma consume1 s b t a : at_cut s b (t :: a) -> exists s', consume s 1 = Ok s' /\ at_cut s' (b ++ [t]) a.
Proof using. clear NE NB1 NB2. intros H. destruct (consume_ok s b (t :: a) 1 H ltac:(cbn; lia)) as (s' & C & H'). eauto. Qed.
Lemma fwd_ok stay l : forall fuel s b d, at_cut s b l -> no_bad l -> 0 < d -> (length l < fuel)%nat ->
  match scan d l with
  | Some k => exists s', fwd opn close stay fuel s d = Ok (s', 0) /\
       at_cut s' (b ++ firstn (if stay then k - 1 else k) l) (skipn (if stay then k - 1 else k) l)
  | None => exists s' d', fwd opn close stay fuel s d = Ok (s', d') /\ 0 < d' /\ at_cut s' (b ++ l) []
  end.
Proof.
  induction l as [|t r IH]; intros fuel s b d H NB D F; (destruct fuel as [|fuel]; [cbn in F; lia|]).
  - cbn [scan fwd]. rewrite (peek_ok _ _ _ H). cbn [bind]. destruct (Z.leb_spec d 0); [lia|].
    destruct (Z.eqb_spec close BAD); [congruence|]. destruct (Z.eqb_spec opn BAD); [congruence|]. rewrite Z.eqb_refl.
    rewrite app_nil_r. eauto.
  - cbn [scan fwd]. rewrite (peek_ok _ _ _ H). cbn [bind]. destruct (Z.leb_spec d 0); [lia|].
    apply Forall_cons_iff in NB as [NBt NB]. cbn [length] in F.
    destruct (consume1 s b t r H) as (s' & C & H').
    assert (GO : forall d', 0 < d' ->
      match option_map S (scan d' r) with
      | Some k => exists s'0, fwd opn close stay fuel s' d' = Ok (s'0, 0) /\
           at_cut s'0 (b ++ firstn (if stay then k - 1 else k) (t :: r)) (skipn (if stay then k - 1 else k) (t :: r))
      | None => exists s'0 d'0, fwd opn close stay fuel s' d' = Ok (s'0, d'0) /\ 0 < d'0 /\ at_cut s'0 (b ++ t :: r) []
      end).
    { intros d' D'. specialize (IH fuel s' (b ++ [t]) d' H' NB D' ltac:(lia)). destruct (scan d' r) as [k|] eqn:SC; cbn [option_map].
      - destruct IH as (s2 & R & H2). exists s2. split; [exact R|].
        destruct (scan_some d' r k D' SC) as ((K & _) & _).
        replace (if stay then (S k - 1)%nat else S k) with (S (if stay then (k - 1)%nat else k)) by (destruct stay; lia).
        cbn [firstn skipn]. now rewrite <- app_assoc in H2.
      - destruct IH as (s2 & d2 & R & D2 & H2). exists s2, d2. rewrite <- app_assoc in H2. auto. }
    destruct (Z.eqb_spec (tok t) opn) as [EO|NO].
    + destruct (Z.eqb_spec close (tok t)); [congruence|]. destruct (Z.eqb_spec opn (tok t)); [|congruence].
      rewrite C. cbn [bind]. destruct (Z.leb_spec (d + 1) 0); [lia|]. apply GO. lia.
    + destruct (Z.eqb_spec (tok t) close) as [EC|NC].
      * destruct (Z.eqb_spec close (tok t)); [|congruence].
        destruct (Z.leb_spec (d - 1) 0).
        -- assert (d = 1) by lia. subst d. change (1 - 1) with 0. destruct stay; cbn [andb].
           ++ exists s. split; [destruct fuel; reflexivity|]. cbn. now rewrite app_nil_r.
           ++ rewrite C. cbn [bind]. exists s'. split; [destruct fuel; reflexivity|]. exact H'.
        -- replace (stay && false) with false by now destruct stay. rewrite C. cbn [bind]. apply GO. lia.
      * destruct (Z.eqb_spec close (tok t)); [congruence|]. destruct (Z.eqb_spec opn (tok t)); [congruence|].
        destruct (Z.eqb_spec BAD (tok t)); [congruence|]. rewrite C. cbn [bind]. destruct (Z.leb_spec d 0); [lia|]. apply GO. lia.
Qed.
End Match.

Lemma expect_ok s b t a : at_cut s b (t :: a) -> exists s', expect_tok s (tok t) = Ok s' /\ at_cut s' (b ++ [t]) a.
Proof.
  intros H. unfold expect_tok. rewrite (peek_ok _ _ _ H). cbn [bind]. destruct (consume1 s b t a H) as (s' & -> & H').
  cbn [bind]. rewrite Z.eqb_refl. eauto.
Qed.
Lemma fuel_enough s b a : at_cut s b a -> length a < fuel_of s.
Proof. intros H. pose proof (len_frags _ _ _ H). unfold fuel_of. lia. Qed.

Lemma plain_scan t x a : tok t = TK_PARENL -> tok x <> TK_PARENL -> tok x <> TK_PARENR ->
  scan TK_PARENL TK_PARENR 1 (x :: a) = option_map S (scan TK_PARENL TK_PARENR 1 a).
Proof.
  intros _ N1 N2. cbn [scan]. destruct (Z.eqb_spec (tok x) TK_PARENL); [congruence|].
  destruct (Z.eqb_spec (tok x) TK_PARENR); [congruence|]. reflexivity.
Qed.

Lemma close_paren_ok s b t x a : at_cut s b (t :: x :: a) -> tok t = TK_PARENL -> tok x <> TK_PARENL -> tok x <> TK_PARENR -> no_bad a ->
  (forall k, matched TK_PARENL TK_PARENR (t :: x :: a) k ->
     (exists s', move_to_close_paren s = Ok (s', true) /\ at_cut s' (b ++ firstn k (t :: x :: a)) (skipn k (t :: x :: a))) /\
     (exists s', move_before_close_paren s = Ok (s', true) /\ at_cut s' (b ++ firstn (k - 1) (t :: x :: a)) (skipn (k - 1) (t :: x :: a)))) /\
  (unmatched TK_PARENL TK_PARENR (t :: x :: a) ->
     (exists s', move_to_close_paren s = Ok (s', false) /\ at_cut s' (b ++ t :: x :: a) []) /\
     (exists s', move_before_close_paren s = Ok (s', false) /\ at_cut s' (b ++ t :: x :: a) [])).
Proof.
  intros H ET N1 N2 NB. destruct (expect_ok s b t (x :: a) H) as (s1 & E1 & H1). rewrite ET in E1.
  destruct (consume1 s1 _ x a H1) as (s2 & C2 & H2).
  assert (D1 : TK_PARENL <> TK_PARENR) by discriminate. assert (D2 : TK_PARENL <> BAD) by discriminate. assert (D3 : TK_PARENR <> BAD) by discriminate.
  destruct (scan_matched TK_PARENL TK_PARENR t (x :: a) ET) as (M1 & M2 & M3).
  pose proof (plain_scan t x a ET N1 N2) as PS.
  pose proof (fun st => fwd_ok _ _ D1 D2 D3 st a (fuel_of s2) s2 _ 1%Z H2 NB ltac:(lia) (fuel_enough _ _ _ H2)) as FW.
  unfold move_to_close_paren, move_before_close_paren. rewrite E1. cbn [bind]. rewrite C2. cbn [bind].
  split.
  - intros k M. apply M3 in M as SC. rewrite PS in SC.
    destruct (scan TK_PARENL TK_PARENR 1 a) as [m|] eqn:SM; [|discriminate]. cbn [option_map] in SC. injection SC as SC.
    destruct M as ((K & _) & _). destruct k as [|[|k]]; try (cbn in SC; lia). cbn in SC. injection SC as <-.
    destruct (scan_some TK_PARENL TK_PARENR 1 a m ltac:(lia) SM) as ((MP & _) & _).
    split.
    + destruct (FW false) as (s3 & R & H3). rewrite R. cbn [bind]. eexists. split; [reflexivity|].
      cbn [firstn skipn]. rewrite <- !app_assoc in H3. exact H3.
    + destruct (FW true) as (s3 & R & H3). rewrite R. cbn [bind]. eexists. split; [reflexivity|].
      replace (S (S m) - 1) with (S (S (m - 1))) by lia.
      cbn [firstn skipn]. rewrite <- !app_assoc in H3. exact H3.
  - intros U. destruct (scan TK_PARENL TK_PARENR 1 a) as [m|] eqn:SM.
    + exfalso. rewrite PS in M1. cbn in M1. exact (U _ (M1 _ eq_refl)).
    + split.
      * destruct (FW false) as (s3 & d & R & D & H3). rewrite R. cbn [bind].
        destruct (Z.eqb_spec d 0); [lia|]. eexists. split; [reflexivity|]. rewrite <- !app_assoc in H3. exact H3.
      * destruct (FW true) as (s3 & d & R & D & H3). rewrite R. cbn [bind].
        destruct (Z.eqb_spec d 0); [lia|]. eexists. split; [reflexivity|]. rewrite <- !app_assoc in H3. exact H3.
Qed.

Lemma bracket_ok s b t a : at_cut s b (t :: a) -> tok t = TK_BRACKETL -> no_bad a ->
  (forall k, matched TK_BRACKETL TK_BRACKETR (t :: a) k ->
     exists s', ignore_bracket_expr s = Ok (s', false) /\ at_cut s' (b ++ firstn k (t :: a)) (skipn k (t :: a))) /\
  (unmatched TK_BRACKETL TK_BRACKETR (t :: a) ->
     exists s', ignore_bracket_expr s = Ok (s', false) /\ at_cut s' (b ++ t :: a) []).
Proof.
  intros H ET NB. destruct (expect_ok s b t a H) as (s1 & E1 & H1). rewrite ET in E1.
  assert (D1 : TK_BRACKETL <> TK_BRACKETR) by discriminate. assert (D2 : TK_BRACKETL <> BAD) by discriminate. assert (D3 : TK_BRACKETR <> BAD) by discriminate.
  destruct (scan_matched TK_BRACKETL TK_BRACKETR t a ET) as (M1 & M2 & M3).
  pose proof (fwd_ok _ _ D1 D2 D3 false a (fuel_of s1) s1 _ 1%Z H1 NB ltac:(lia) (fuel_enough _ _ _ H1)) as FW.
  unfold ignore_bracket_expr. rewrite E1. cbn [bind]. split.
  - intros k M. apply M3 in M as SC. rewrite SC in FW. destruct FW as (s3 & R & H3). rewrite R. cbn [bind].
    eexists. split; [reflexivity|]. destruct M as ((K & _) & _). destruct k as [|k]; [lia|].
    cbn [Nat.sub] in H3. rewrite Nat.sub_0_r in H3. cbn [firstn skipn]. rewrite <- !app_assoc in H3. exact H3.
  - intros U. destruct (scan TK_BRACKETL TK_BRACKETR 1 a) as [m|] eqn:SM.
    + exfalso. exact (U _ (M1 _ eq_refl)).
    + destruct FW as (s3 & d & R & D & H3). rewrite R. cbn [bind]. destruct (Z.eqb_spec d (-1)); [lia|].
      eexists. split; [reflexivity|]. rewrite <- !app_assoc in H3. exact H3.
Qed.

(** ** backwards *)
Lemma put_back_snoc s b t a : at_cut s (b ++ [t]) a -> exists s', put_back s = Ok s' /\ at_cut s' b (t :: a).
Proof.
  intros H. destruct (put_back_ok s _ a H) as (s' & E & H'). exists s'. split; [exact E|].
  rewrite app_length in H'. cbn in H'. replace (length b + 1 - 1) with (length b) in H' by lia.
  rewrite firstn_app, firstn_all, Nat.sub_diag in H'. cbn in H'. rewrite app_nil_r in H'.
  rewrite <- app_assoc, skipn_app, skipn_all, Nat.sub_diag in H'. exact H'.
Qed.
(** rb: the consumed tokens behind the current one, nearest first *)
Lemma bwd_ok rb : forall fuel s u a d, at_cut s (rev rb ++ [u]) a -> no_bad rb -> (0 < d)%Z -> length rb < fuel ->
  match scan TK_PARENR TK_PARENL d rb with
  | Some k => exists s' , bwd fuel s d = Ok (s', 0%Z) /\ at_cut s' (rev (skipn (k - 1) rb)) (rev (firstn (k - 1) rb) ++ u :: a)
  | None => exists s' d', bwd fuel s d = Ok (s', d') /\ (0 < d')%Z /\ at_cut s' [] (rev rb ++ u :: a)
  end.
Proof.
  induction rb as [|t r IH]; intros fuel s u a d H NB D F; (destruct fuel as [|fuel]; [cbn in F; lia|]).
  - cbn [scan bwd rev app]. destruct (Z.leb_spec d 0); [lia|]. destruct (put_back_snoc s [] u a H) as (s' & E & H'). rewrite E. cbn [bind].
    unfold curr. rewrite (curr_tt_ok _ _ _ H'). cbn [bind last]. change (tok default_token) with BAD.
    change (TK_PARENL =? BAD)%Z with false. change (TK_PARENR =? BAD)%Z with false. rewrite Z.eqb_refl. eauto.
  - apply Forall_cons_iff in NB as [NBt NB]. cbn [length] in F. cbn [scan bwd]. destruct (Z.leb_spec d 0); [lia|].
    cbn [rev] in H. destruct (put_back_snoc s _ u a H) as (s' & E & H'). rewrite E. cbn [bind].
    unfold curr. rewrite (curr_tt_ok _ _ _ H'). cbn [bind]. rewrite last_last.
    assert (GO : forall d', (0 < d')%Z ->
      match option_map S (scan TK_PARENR TK_PARENL d' r) with
      | Some k => exists s'0, bwd fuel s' d' = Ok (s'0, 0%Z) /\ at_cut s'0 (rev (skipn (k - 1) (t :: r))) (rev (firstn (k - 1) (t :: r)) ++ u :: a)
      | None => exists s'0 d'0, bwd fuel s' d' = Ok (s'0, d'0) /\ (0 < d'0)%Z /\ at_cut s'0 [] (rev (t :: r) ++ u :: a)
      end).
    { intros d' D'. specialize (IH fuel s' t (u :: a) d' H' NB D' ltac:(lia)). destruct (scan TK_PARENR TK_PARENL d' r) as [k|] eqn:SC; cbn [option_map].
      - destruct IH as (s2 & R & H2). exists s2. split; [exact R|].
        destruct (scan_some TK_PARENR TK_PARENL d' r k D' SC) as ((K & _) & _). destruct k as [|k]; [lia|].
        replace (S (S k) - 1) with (S k) by lia. replace (S k - 1) with k in H2 by lia. cbn [skipn firstn rev]. rewrite <- app_assoc. exact H2.
      - destruct IH as (s2 & d2 & R & D2 & H2). exists s2, d2. split; [exact R|]. split; [exact D2|]. cbn [rev]. rewrite <- app_assoc. exact H2. }
    rewrite (Z.eqb_sym TK_PARENL), (Z.eqb_sym TK_PARENR), (Z.eqb_sym BAD).
    destruct (Z.eqb_spec (tok t) TK_PARENL) as [EL|NL].
    + rewrite EL. change (TK_PARENL =? TK_PARENR)%Z with false. cbn iota. destruct (Z.leb_spec (d - 1) 0) as [LE|GT].
      * assert (d = 1%Z) by lia. subst d. change (1 - 1)%Z with 0%Z. exists s'. split; [destruct fuel; reflexivity|]. cbn [Nat.sub skipn firstn rev app]. exact H'.
      * apply GO. lia.
    + destruct (Z.eqb_spec (tok t) TK_PARENR) as [ER|NR].
      * destruct (Z.leb_spec (d + 1) 0); [lia|]. apply GO. lia.
      * destruct (Z.leb_spec d 0); [lia|]. destruct (Z.eqb_spec (tok t) BAD); [congruence|]. apply GO. lia.
Qed.
Lemma open_paren_ok s b a : at_cut s b a -> no_bad b ->
  (tok (last b default_token) <> TK_PARENR -> move_to_open_paren s = Ok (s, false)) /\
  (forall k, matched TK_PARENR TK_PARENL (rev b) k -> tok (last b default_token) = TK_PARENR ->
     exists s', move_to_open_paren s = Ok (s', true) /\
       at_cut s' (firstn (length b - k + 1) b) (skipn (length b - k + 1) b ++ a)) /\
  (unmatched TK_PARENR TK_PARENL (rev b) -> tok (last b default_token) = TK_PARENR ->
     exists s', move_to_open_paren s = Ok (s', false) /\ at_cut s' [] (b ++ a)).
Proof.
  intros H NB. unfold move_to_open_paren, curr. rewrite (curr_tt_ok _ _ _ H). cbn [bind].
  split. { intros N. destruct (Z.eqb_spec (tok (last b default_token)) TK_PARENR); [congruence|reflexivity]. }
  destruct b as [|u b] using rev_ind.
  - cbn. split; [intros k _ X; discriminate X|intros _ X; discriminate X].
  - clear IHb. rewrite last_last, rev_app_distr. cbn [rev app].
    assert (NBr : no_bad (rev b)). { unfold no_bad in *. apply Forall_app in NB as [NB _]. now apply Forall_rev. }
    assert (H' : at_cut s (rev (rev b) ++ [u]) a) by now rewrite rev_involutive.
    pose proof (bwd_ok (rev b) (fuel_of s) s u a 1%Z H' NBr ltac:(lia)) as BW.
    assert (FU : length (rev b) < fuel_of s).
    { pose proof (len_frags _ _ _ H) as (L1 & L2 & _). rewrite app_length in L2. cbn in L2. rewrite rev_length. unfold fuel_of. lia. }
    specialize (BW FU).
    split.
    + intros k M EU. rewrite EU, Z.eqb_refl. cbn [negb].
      destruct (scan_matched TK_PARENR TK_PARENL u (rev b) EU) as (_ & _ & M3). apply M3 in M as SC. rewrite SC in BW.
      destruct BW as (s' & R & HC). rewrite R. cbn [bind]. eexists. split; [reflexivity|].
      destruct M as ((K1 & K2) & KZ & _). cbn in K2. rewrite rev_length in K2.
      destruct k as [|[|k]]; [lia| |].
      { cbn in KZ. rewrite EU in KZ. cbn in KZ. discriminate. }
      rewrite app_length in *. cbn [length]. replace (S (S k) - 1 - 1) with k in HC by lia.
      replace (length b + 1 - S (S k) + 1) with (length b - k) by lia.
      rewrite skipn_rev, firstn_rev, !rev_involutive in HC.
      rewrite firstn_app, skipn_app. replace (length b - k - length b) with 0 by lia. cbn [firstn skipn]. rewrite app_nil_r, <- app_assoc. exact HC.
    + intros U EU. rewrite EU, Z.eqb_refl. cbn [negb].
      destruct (scan_matched TK_PARENR TK_PARENL u (rev b) EU) as (M1 & _ & _).
      destruct (scan TK_PARENR TK_PARENL 1 (rev b)) as [m|] eqn:SC; [exfalso; exact (U _ (M1 _ eq_refl))|].
      destruct BW as (s' & d & R & D & HC). rewrite R. cbn [bind]. destruct (Z.eqb_spec d 0); [lia|].
      eexists. split; [reflexivity|]. rewrite rev_involutive in HC. rewrite <- app_assoc. exact HC.
Qed.
