(** Proofs about range partitions. *)
From Verif Require Import Base Base_lemmas RangePartition RangePartition_spec.
From Coq Require Import Lia.
Local Open Scope nat_scope.

Lemma upd_length {A} (l : list A) i x : length (upd l i x) = length l.
Proof. revert i; induction l; intros [|i]; simpl; auto. Qed.
Lemma nth_error_upd {A} (l : list A) i x j :
  nth_error (upd l i x) j = if (j =? i) && (i <? length l) then Some x else nth_error l j.
Proof.
  revert i j; induction l; intros [|i] [|j]; simpl; auto.
  - now rewrite Bool.andb_false_r.
  - rewrite IHl. reflexivity.
Qed.
Lemma nth_error_upd_eq {A} (l : list A) i x : i < length l -> nth_error (upd l i x) i = Some x.
Proof. intro H. rewrite nth_error_upd, Nat.eqb_refl. apply Nat.ltb_lt in H. now rewrite H. Qed.
Lemma nth_error_upd_ne {A} (l : list A) i x j : i <> j -> nth_error (upd l i x) j = nth_error l j.
Proof. intro H. rewrite nth_error_upd. destruct (Nat.eqb_spec j i); [lia|reflexivity]. Qed.

(** links over a set of indices below n *)
Definition first_from (n : nat) (u : nat -> bool) (a j : nat) : Prop :=
  a <= j <= n /\ (j < n -> u j = true) /\ forall k, a <= k < j -> u k = false.
Definition last_before (n : nat) (u : nat -> bool) (b j : nat) : Prop :=
  (j < b /\ j < n /\ u j = true /\ forall k, j < k < b -> u k = false) \/
  (j = n /\ forall k, k < b -> u k = false).
Definition us (rs : regions) (k : nat) : bool :=
  match nth_error rs k with Some (Some _) => true | _ => false end.

Lemma used_us rs k : used rs k <-> us rs k = true.
Proof.
  unfold used, us. split.
  - intros [x ->]. reflexivity.
  - destruct (nth_error rs k) as [[x|]|]; try discriminate. eauto.
Qed.
Lemma unused_us rs k : k < length rs -> (unused rs k <-> us rs k = false).
Proof.
  intro H. unfold unused, us. apply nth_error_Some in H. destruct (nth_error rs k) as [[x|]|]; try congruence; split; congruence.
Qed.
Lemma us_lt rs k : us rs k = true -> k < length rs.
Proof. unfold us. intro H. apply nth_error_Some. destruct (nth_error rs k); congruence. Qed.

Record Rel (w : world) (st : partition) : Prop := {
  R_len : length st = S (length (fst w));
  R_unused : forall i, i < length (fst w) -> us (fst w) i = false -> exists b, nth_error st i = Some (mkPart b i i);
  R_used : forall i, us (fst w) i = true -> exists p s,
      nth_error st i = Some (mkPart (hd_error (from (fst w) i ++ snd w)) p s) /\
      last_before (length (fst w)) (us (fst w)) i p /\ first_from (length (fst w)) (us (fst w)) (S i) s;
  R_end : exists e p s, nth_error st (length (fst w)) = Some (mkPart e p s) /\
      last_before (length (fst w)) (us (fst w)) (length (fst w)) p /\ first_from (length (fst w)) (us (fst w)) 0 s }.
(** the end of the regions, once there is one *)
Definition EndB (w : world) (st : partition) : Prop :=
  forall i p, us (fst w) i = true -> nth_error st (length (fst w)) = Some p -> p_begin p = hd_error (snd w).

Lemma end_idx_R w st : Rel w st -> end_idx st = length (fst w).
Proof. intros [H _ _ _]. unfold end_idx. lia. Qed.
Lemma get_Ok st i p : get st i = Ok p <-> nth_error st i = Some p.
Proof. unfold get. destruct (nth_error st i); split; congruence. Qed.

Lemma NoDup_app_r {A} (a b : list A) : NoDup (a ++ b) -> NoDup b.
Proof. induction a; simpl; auto. intro H. inversion H. auto. Qed.

(** two used regions *)
Definition two (rs : regions) : Prop := exists i j, i < j /\ us rs i = true /\ us rs j = true.
Lemma num_used_pos rs : 1 <= num_used rs -> exists i, us rs i = true.
Proof.
  induction rs as [|[x|] rs IH]; unfold num_used; simpl; intro H; [lia| |].
  - now exists 0.
  - destruct (IH H) as [i Hi]. now exists (S i).
Qed.
Lemma num_used_0 rs i : num_used rs = 0 -> us rs i = false.
Proof.
  revert i; induction rs as [|[x|] rs IH]; unfold num_used; simpl; intros i H; [now destruct i|lia|].
  destruct i; [reflexivity|]. now apply IH.
Qed.
Lemma num_used_1 rs : num_used rs = 1 -> exists i, us rs i = true /\ forall j, us rs j = true -> j = i.
Proof.
  induction rs as [|[x|] rs IH]; unfold num_used; simpl; intro H; [lia| |].
  - exists 0. split; [reflexivity|]. intros [|j] Hj; [reflexivity|]. exfalso.
    assert (us rs j = false) by (apply num_used_0; unfold num_used; lia). unfold us in *; simpl in *; congruence.
  - destruct (IH H) as (i & Hi & Hu). exists (S i). split; [exact Hi|]. intros [|j] Hj; [discriminate|]. f_equal. now apply Hu.
Qed.
Lemma num_used_2 rs : 2 <= num_used rs -> two rs.
Proof.
  induction rs as [|[x|] rs IH]; unfold num_used; simpl; intro H; [lia| |].
  - destruct (num_used_pos rs) as [j Hj]; [unfold num_used; lia|]. exists 0, (S j). repeat split; [lia|exact Hj].
  - destruct (IH H) as (i & j & Hij & Hi & Hj). exists (S i), (S j). repeat split; [lia|exact Hi|exact Hj].
Qed.

Lemma active_two w st i : Rel w st -> two (fst w) -> us (fst w) i = true ->
  exists p, nth_error st i = Some p /\ p_active p = true.
Proof.
  intros R (a & b & Hab & Ha & Hb) Hi. destruct (R_used _ _ R i Hi) as (p & s & E & HP & HS).
  eexists. split; [exact E|]. unfold p_active; simpl. destruct (Nat.eqb_spec p s) as [->|]; [exfalso|reflexivity].
  pose proof (us_lt _ _ Hi). pose proof (us_lt _ _ Ha). pose proof (us_lt _ _ Hb).
  destruct HS as (F1 & F2 & F3). destruct HP as [(P1 & _)|(P1 & P2)]; [lia|]. subst s.
  assert (H4 : forall k, k <> i -> us (fst w) k = false).
  { intros k Hk. destruct (us (fst w) k) eqn:Ek; [|reflexivity]. pose proof (us_lt _ _ Ek).
    destruct (Nat.lt_ge_cases k i); [rewrite P2 in Ek by lia|rewrite F3 in Ek by lia]; congruence. }
  destruct (Nat.eq_dec a i); [subst; rewrite (H4 b) in Hb by lia|rewrite (H4 a) in Ha by lia]; congruence.
Qed.
Lemma inactive_unused w st i : Rel w st -> us (fst w) i = false -> i < length (fst w) ->
  exists p, nth_error st i = Some p /\ p_active p = false.
Proof.
  intros R Hi Hl. destruct (R_unused _ _ R i Hl Hi) as [b E]. eexists. split; [exact E|]. unfold p_active; simpl. now rewrite Nat.eqb_refl.
Qed.

Lemma skip_inactive_ok w st : Rel w st -> forall k i,
  length (fst w) < k + i -> i <= length (fst w) ->
  (two (fst w) \/ forall j, i <= j < length (fst w) -> us (fst w) j = false) ->
  exists j, skip_inactive k st i = Ok j /\ first_from (length (fst w)) (us (fst w)) i j.
Proof.
  intros R. induction k as [|k IH]; intros i Hk Hi HT; [lia|]. cbn [skip_inactive]. unfold valid_idx. rewrite (end_idx_R _ _ R).
  destruct (Nat.ltb_spec i (length (fst w))).
  - destruct (us (fst w) i) eqn:Ei.
    + destruct HT as [HT|HT]; [|rewrite HT in Ei by lia; discriminate].
      destruct (active_two _ _ _ R HT Ei) as (p & E & A). unfold get. rewrite E. cbn [bind]. rewrite A.
      exists i. split; [reflexivity|]. split; [lia|]. split; [auto|intros; lia].
    + destruct (inactive_unused _ _ _ R Ei H) as (p & E & A). unfold get. rewrite E. cbn [bind]. rewrite A.
      destruct (IH (S i)) as (j & Ej & F); [lia|lia|destruct HT as [HT|HT]; [now left|right; intros; apply HT; lia]|].
      exists j. split; [exact Ej|]. destruct F as (F1 & F2 & F3). split; [lia|]. split; [exact F2|].
      intros k0 Hk0. destruct (Nat.eq_dec k0 i); [now subst|apply F3; lia].
  - exists i. split; [reflexivity|]. split; [lia|]. split; [intros; lia|intros; lia].
Qed.

(** content of regions *)
Lemma content_app a b : content (a ++ b) = content a ++ content b.
Proof. apply flat_map_app. Qed.
Lemma from_S rs i x : nth_error rs i = Some x -> from rs i = elems x ++ from rs (S i).
Proof. intro E. unfold from. now rewrite (skipn_cons_nth _ _ _ E). Qed.
Lemma region_nth rs i x : nth_error rs i = Some x -> region rs i = elems x.
Proof. intro E. unfold region. now rewrite (nth_error_nth _ _ None E). Qed.
Lemma skipn_upd_ge {A} (l : list A) i x j : i < j -> skipn j (upd l i x) = skipn j l.
Proof. revert i j; induction l; intros [|i] [|j] H; simpl; try lia; auto. apply IHl. lia. Qed.
Lemma upd_split {A} (l : list A) i x : i < length l -> upd l i x = firstn i l ++ x :: skipn (S i) l.
Proof. revert i; induction l; intros [|i] H; simpl in *; try lia; auto. f_equal. apply IHl. lia. Qed.
Lemma list_split {A} (l : list A) i x : nth_error l i = Some x -> l = firstn i l ++ x :: skipn (S i) l.
Proof. revert i; induction l; intros [|i] H; simpl in *; try discriminate; [congruence|]. f_equal. now apply IHl. Qed.
Lemma from_split rs j i x : nth_error rs i = Some x -> j <= i ->
  exists m, (forall y, from (upd rs i y) j = m ++ elems y ++ from rs (S i)) /\ from rs j = m ++ elems x ++ from rs (S i).
Proof.
  intros E Hj. exists (content (skipn j (firstn i rs))).
  assert (Hi : i < length rs) by (apply nth_error_Some; congruence).
  assert (G : forall y, from (firstn i rs ++ y :: skipn (S i) rs) j = content (skipn j (firstn i rs)) ++ elems y ++ from rs (S i)).
  { intro y. unfold from. rewrite skipn_app, content_app. f_equal.
    assert (j - length (firstn i rs) = 0) as -> by (rewrite firstn_length; lia). reflexivity. }
  split.
  - intro y. now rewrite upd_split.
  - rewrite (list_split _ _ _ E) at 1. apply G.
Qed.
Lemma from_upd_gt rs i y j : i < j -> from (upd rs i y) j = from rs j.
Proof. intro H. unfold from. now rewrite skipn_upd_ge. Qed.
Lemma us_upd rs i y j : i < length rs -> us (upd rs i (Some y)) j = if j =? i then true else us rs j.
Proof.
  intro H. unfold us. rewrite nth_error_upd. apply Nat.ltb_lt in H. rewrite H, Bool.andb_true_r. now destruct (j =? i).
Qed.

(** what activation does *)
Definition activated (st st' : partition) (idx pr su : nat) (b : option nat) : Prop :=
  length st' = length st /\
  nth_error st' idx = Some (mkPart b pr su) /\
  forall i p, i <> idx -> nth_error st i = Some p ->
    nth_error st' i = Some (mkPart (p_begin p) (if i =? su then idx else p_pred p) (if i =? pr then idx else p_succ p)).

Lemma mkPart_eta p : mkPart (p_begin p) (p_pred p) (p_succ p) = p.
Proof. now destruct p. Qed.

Lemma activate_unused w st idx : Rel w st -> idx < length (fst w) -> us (fst w) idx = false ->
  (two (fst w) \/ forall j, idx < j < length (fst w) -> us (fst w) j = false) ->
  exists st' pr su b, activate st idx = Ok st' /\ activated st st' idx pr su b /\
    last_before (length (fst w)) (us (fst w)) idx pr /\ first_from (length (fst w)) (us (fst w)) (S idx) su /\
    exists q, nth_error st su = Some q /\ b = p_begin q.
Proof.
  intros R Hi Hu HT. unfold activate.
  destruct (inactive_unused _ _ _ R Hu Hi) as (p & E & A). unfold next_active_idx. unfold get at 1 2. rewrite E. cbn [bind]. rewrite A.
  destruct (skip_inactive_ok _ _ R (S (length st)) (S idx)) as (su & ES & FS).
  { rewrite (R_len _ _ R). lia. } { lia. } { destruct HT as [HT|HT]; [now left|right; intros; apply HT; lia]. }
  rewrite ES. cbn [bind].
  assert (HS : exists q, nth_error st su = Some q /\ last_before (length (fst w)) (us (fst w)) idx (p_pred q)).
  { destruct FS as (F1 & F2 & F3).
    assert (HL : forall j, last_before (length (fst w)) (us (fst w)) su j -> last_before (length (fst w)) (us (fst w)) idx j).
    { intros j [(A1 & A2 & A3 & A4)|(A1 & A2)].
      - assert (j <> idx) by congruence.
        assert (j < idx). { destruct (Nat.lt_ge_cases j idx); [assumption|]. rewrite F3 in A3 by lia. discriminate. }
        left. repeat split; auto. intros k Hk. apply A4. lia.
      - right. split; [exact A1|]. intros k Hk. apply A2. lia. }
    destruct (Nat.eq_dec su (length (fst w))) as [->|].
    - destruct (R_end _ _ R) as (e & pp & s & EE & HP & _). exists (mkPart e pp s). split; [exact EE|]. apply HL, HP.
    - destruct (R_used _ _ R su) as (pp & s & EE & HP & _); [apply F2; lia|]. eexists. split; [exact EE|]. apply HL, HP. }
  destruct HS as (q & EQ & HP).
  unfold get at 1. rewrite EQ. cbn [bind].
  assert (PS : p_pred q <= length (fst w)) by (destruct HP as [(? & ? & _)|(-> & _)]; lia).
  assert (PN : p_pred q <> idx) by (destruct HP as [(? & ? & _)|(-> & _)]; lia).
  assert (SN : su <> idx) by (destruct FS; lia).
  assert (LS : length st = S (length (fst w))) by apply R.
  destruct (nth_error st (p_pred q)) as [r|] eqn:EP; [|apply nth_error_None in EP; lia].
  unfold set_succ at 1, get. rewrite EP. cbn [bind].
  set (st1 := upd st (p_pred q) _).
  assert (L1 : length st1 = length st) by apply upd_length.
  assert (E1 : forall i, nth_error st1 i = if i =? p_pred q then Some (mkPart (p_begin r) (p_pred r) idx) else nth_error st i).
  { intro i. unfold st1. rewrite nth_error_upd. assert (p_pred q <? length st = true) as -> by (apply Nat.ltb_lt; lia). now rewrite Bool.andb_true_r. }
  clearbody st1.
  assert (E1s : exists q1, nth_error st1 su = Some q1 /\ p_begin q1 = p_begin q /\ (p_succ q1 = if su =? p_pred q then idx else p_succ q)).
  { rewrite E1. destruct (Nat.eqb_spec su (p_pred q)) as [->|].
    - eexists. split; [reflexivity|]. simpl. split; congruence.
    - eexists. split; [exact EQ|]. auto. }
  destruct E1s as (q1 & E1s & B1 & S1).
  unfold set_pred at 1, get. rewrite E1s. cbn [bind].
  set (st2 := upd st1 su _).
  assert (L2 : length st2 = length st) by (unfold st2; now rewrite upd_length).
  assert (Hsu : su <= length (fst w)) by (destruct FS; lia).
  assert (E2 : forall i, nth_error st2 i = if i =? su then Some (mkPart (p_begin q) idx (p_succ q1)) else nth_error st1 i).
  { intro i. unfold st2. rewrite nth_error_upd. assert (su <? length st1 = true) as -> by (apply Nat.ltb_lt; lia). rewrite Bool.andb_true_r. now rewrite B1. }
  clearbody st2.
  rewrite E2, Nat.eqb_refl. cbn [bind p_begin].
  assert (E2i : nth_error st2 idx = Some p).
  { rewrite E2. destruct (Nat.eqb_spec idx su); [congruence|]. rewrite E1. destruct (Nat.eqb_spec idx (p_pred q)); [congruence|]. exact E. }
  unfold set_begin, get. rewrite E2i. cbn [bind].
  unfold set_pred, get. rewrite nth_error_upd_eq by lia. cbn [bind p_begin p_pred p_succ].
  unfold set_succ, get. rewrite nth_error_upd_eq by (rewrite upd_length; lia). cbn [bind p_begin p_pred p_succ].
  eexists _, (p_pred q), su, (p_begin q). split; [reflexivity|]. split; [|split; [exact HP|split; [exact FS|exists q; auto]]].
  split; [now rewrite !upd_length|]. split; [rewrite nth_error_upd_eq by (rewrite !upd_length; lia); reflexivity|].
  intros i p0 Hn E0. rewrite !nth_error_upd_ne by congruence. rewrite E2.
  destruct (Nat.eqb_spec i su) as [->|].
  - rewrite E0 in EQ. injection EQ as ->. now rewrite S1.
  - rewrite E1. destruct (Nat.eqb_spec i (p_pred q)) as [->|].
    + congruence.
    + now rewrite E0, mkPart_eta.
Qed.

(** adding an index to the links *)
Lemma add_first n u idx a j pr : idx < n -> u idx = false ->
  last_before n u idx pr -> first_from n u (S a) j -> a <> idx -> a < n ->
  u a = true ->
  first_from n (fun k => if k =? idx then true else u k) (S a) (if a =? pr then idx else j).
Proof.
  intros Hi Hu HP (F1 & F2 & F3) Ha Han Hua.
  destruct (Nat.eqb_spec a pr) as [->|Hne].
  - destruct HP as [(P1 & P2 & P3 & P4)|(P1 & P2)]; [|lia].
    split; [lia|]. split; [now rewrite Nat.eqb_refl|]. intros k Hk. destruct (Nat.eqb_spec k idx); [lia|]. apply P4; lia.
  - assert (idx < a \/ j < idx).
    { destruct (Nat.lt_ge_cases idx a); [now left|]. right. destruct (Nat.lt_ge_cases j idx); [assumption|]. exfalso.
      destruct HP as [(P1 & P2 & P3 & P4)|(P1 & P2)].
      - destruct (Nat.lt_ge_cases pr a); [rewrite P4 in Hua by lia; discriminate|]. rewrite F3 in P3 by lia. discriminate.
      - rewrite P2 in Hua by lia. discriminate. }
    split; [lia|]. split.
    + intro. destruct (j =? idx); auto.
    + intros k Hk. destruct (Nat.eqb_spec k idx); [lia|]. apply F3; lia.
Qed.
Lemma add_first0 n u idx j pr : idx < n -> u idx = false ->
  last_before n u idx pr -> first_from n u 0 j ->
  first_from n (fun k => if k =? idx then true else u k) 0 (if n =? pr then idx else j).
Proof.
  intros Hi Hu HP (F1 & F2 & F3). destruct (Nat.eqb_spec n pr) as [->|Hne].
  - destruct HP as [(P1 & P2 & P3 & P4)|(P1 & P2)]; [lia|].
    split; [lia|]. split; [now rewrite Nat.eqb_refl|]. intros k Hk. destruct (Nat.eqb_spec k idx); [lia|]. apply P2; lia.
  - destruct HP as [(P1 & P2 & P3 & P4)|(P1 & P2)]; [|lia].
    assert (j <= pr). { destruct (Nat.lt_ge_cases pr j); [rewrite F3 in P3 by lia; discriminate|lia]. }
    split; [lia|]. split; [intro; destruct (j =? idx); auto|]. intros k Hk. destruct (Nat.eqb_spec k idx); [lia|]. apply F3; lia.
Qed.
Lemma add_last n u idx a j su : idx < n -> u idx = false ->
  first_from n u (S idx) su -> last_before n u a j -> a <> idx -> a <= n ->
  (a < n -> u a = true) ->
  last_before n (fun k => if k =? idx then true else u k) a (if a =? su then idx else j).
Proof.
  intros Hi Hu (F1 & F2 & F3) HP Ha Han Hua. destruct (Nat.eqb_spec a su) as [->|Hne].
  - left. split; [lia|]. split; [lia|]. split; [now rewrite Nat.eqb_refl|]. intros k Hk. destruct (Nat.eqb_spec k idx); [lia|]. apply F3; lia.
  - assert (a < idx \/ su < a).
    { destruct (Nat.lt_ge_cases a idx); [now left|]. right. destruct (Nat.lt_ge_cases su a); [assumption|]. exfalso.
      rewrite F3 in Hua by lia. assert (a < n) by lia. specialize (Hua H1). discriminate. }
    destruct HP as [(P1 & P2 & P3 & P4)|(P1 & P2)].
    + assert (a < idx \/ su <= j). { destruct H; [now left|]. right. destruct (Nat.lt_ge_cases j su); [|lia]. rewrite P4 in F2 by lia. specialize (F2 ltac:(lia)). discriminate. }
      left. repeat split; auto. * now destruct (j =? idx). * intros k Hk. destruct (Nat.eqb_spec k idx); [lia|]. apply P4; lia.
    + destruct H.
      * right. split; [exact P1|]. intros k Hk. destruct (Nat.eqb_spec k idx); [lia|]. apply P2; lia.
      * rewrite P2 in F2 by lia. specialize (F2 ltac:(lia)). discriminate.
Qed.
Lemma add_self_first n u idx su : first_from n u (S idx) su ->
  first_from n (fun k => if k =? idx then true else u k) (S idx) su.
Proof.
  intros (F1 & F2 & F3). split; [lia|]. split; [intro; destruct (su =? idx); auto|]. intros k Hk. destruct (Nat.eqb_spec k idx); [lia|]. apply F3; lia.
Qed.
Lemma add_self_last n u idx pr : last_before n u idx pr ->
  last_before n (fun k => if k =? idx then true else u k) idx pr.
Proof.
  intros [(P1 & P2 & P3 & P4)|(P1 & P2)].
  - left. repeat split; auto; [now destruct (pr =? idx)|]. intros k Hk. destruct (Nat.eqb_spec k idx); [lia|]. apply P4; lia.
  - right. split; auto. intros k Hk. destruct (Nat.eqb_spec k idx); [lia|]. apply P2; lia.
Qed.
Lemma first_ext n u v a j : (forall k, u k = v k) -> first_from n u a j -> first_from n v a j.
Proof. intros E (F1 & F2 & F3). split; [lia|]. split; [intro; rewrite <- E; auto|]. intros; rewrite <- E; auto. Qed.
Lemma last_ext n u v a j : (forall k, u k = v k) -> last_before n u a j -> last_before n v a j.
Proof.
  intros E [(P1 & P2 & P3 & P4)|(P1 & P2)]; [left|right]; repeat split; auto; intros; rewrite <- E; auto.
Qed.

(** nothing used from su on: from is empty *)
Lemma from_unused rs j : (forall i, j <= i < length rs -> us rs i = false) -> from rs j = [].
Proof.
  revert j; induction rs as [|r rs IH]; intros [|j] H; try reflexivity.
  - unfold from; simpl. destruct r; [specialize (H 0 ltac:(simpl; lia)); discriminate|]. simpl.
    apply (IH 0). intros i Hi. apply (H (S i)). simpl; lia.
  - apply (IH j). intros i Hi. apply (H (S i)). simpl; lia.
Qed.
Lemma from_skip rs a j : a <= j -> (forall i, a <= i < j -> us rs i = false) -> from rs a = from rs j.
Proof.
  intros Haj. remember (j - a) as d. revert a Haj Heqd. induction d as [|d IH]; intros a Haj Hd H; [f_equal; lia|].
  rewrite <- (IH (S a)) by (try lia; intros; apply H; lia).
  destruct (nth_error rs a) as [[x|]|] eqn:E.
  - specialize (H a ltac:(lia)). unfold us in H. rewrite E in H. discriminate.
  - rewrite (from_S _ _ _ E). reflexivity.
  - apply nth_error_None in E. unfold from. rewrite !skipn_all2 by lia. reflexivity.
Qed.

(** a region that becomes used *)
Lemma Rel_activated w st st' idx pr su b x t' :
  Rel w st -> idx < length (fst w) -> us (fst w) idx = false ->
  activated st st' idx pr su b ->
  last_before (length (fst w)) (us (fst w)) idx pr -> first_from (length (fst w)) (us (fst w)) (S idx) su ->
  b = hd_error (x ++ from (fst w) (S idx) ++ t') ->
  (forall i, us (fst w) i = true -> hd_error (from (upd (fst w) idx (Some x)) i ++ t') = hd_error (from (fst w) i ++ snd w)) ->
  Rel (upd (fst w) idx (Some x), t') st'.
Proof.
  intros R Hi Hu (L & EI & EO) HP HS HB HF.
  assert (U : forall k, us (upd (fst w) idx (Some x)) k = (fun k => if k =? idx then true else us (fst w) k) k) by (intro; now apply us_upd).
  destruct w as [rs t]; cbn [fst snd] in *.
  constructor; cbn [fst snd]; rewrite ?upd_length.
  - rewrite L. apply (R_len _ _ R).
  - intros i Hl Hi'. rewrite U in Hi'. cbn in Hi'. destruct (Nat.eqb_spec i idx); [discriminate|].
    destruct (R_unused _ _ R i Hl Hi') as [b0 E0]. rewrite (EO _ _ n E0). cbn [p_begin p_pred p_succ].
    destruct (Nat.eqb_spec i su) as [->|]; [destruct HS as (S1 & S2 & S3); cbn [fst] in *; rewrite S2 in Hi' by lia; discriminate|].
    destruct (Nat.eqb_spec i pr) as [->|]; [destruct HP as [(?&?&?&?)|(?&?)]; cbn [fst] in *; [congruence|lia]|].
    eauto.
  - intros i Hi'. rewrite U in Hi'. cbn beta in Hi'. destruct (Nat.eq_dec i idx) as [e|Hn].
    + subst i. exists pr, su. split.
      * rewrite EI, HB. do 2 f_equal.
        assert (EN : nth_error (upd rs idx (Some x)) idx = Some (Some x)) by now apply nth_error_upd_eq.
        rewrite (from_S _ _ _ EN), from_upd_gt, <- app_assoc by lia. reflexivity.
      * split; [eapply last_ext; [intro; symmetry; apply U|]; now apply add_self_last|eapply first_ext; [intro; symmetry; apply U|]; now apply add_self_first].
    + destruct (Nat.eqb_spec i idx) as [|_]; [congruence|]. destruct (R_used _ _ R i Hi') as (p & s & E0 & P0 & S0). cbn [fst snd] in *.
      rewrite (EO _ _ Hn E0). cbn [p_begin p_pred p_succ]. pose proof (us_lt _ _ Hi').
      eexists _, _. split; [rewrite HF by assumption; reflexivity|].
      split; [eapply last_ext; [intro; symmetry; apply U|]; apply add_last; auto; lia|
              eapply first_ext; [intro; symmetry; apply U|]; apply add_first; auto].
  - destruct (R_end _ _ R) as (e & p & s & E0 & P0 & S0). cbn [fst snd] in *.
    rewrite (EO (length rs) _ ltac:(lia) E0). cbn [p_begin p_pred p_succ].
    eexists _, _, _. split; [reflexivity|].
    split; [eapply last_ext; [intro; symmetry; apply U|]; apply add_last; auto; lia|].
    eapply first_ext; [intro; symmetry; apply U|]; apply add_first0; auto.
Qed.

(** lookups *)
Lemma succ_begin w st i j : Rel w st -> EndB w st -> us (fst w) i = true ->
  first_from (length (fst w)) (us (fst w)) (S i) j ->
  exists p, nth_error st j = Some p /\ p_begin p = hd_error (from (fst w) (S i) ++ snd w).
Proof.
  intros R HE Hi (F1 & F2 & F3). rewrite (from_skip (fst w) (S i) j) by (try lia; assumption).
  destruct (Nat.eq_dec j (length (fst w))) as [->|].
  - destruct (R_end _ _ R) as (e & p & s & E & _). eexists. split; [exact E|].
    rewrite (HE _ _ Hi E). unfold from. now rewrite skipn_all.
  - destruct (R_used _ _ R j) as (p & s & E & _); [apply F2; lia|]. eexists. split; [exact E|]. reflexivity.
Qed.

Lemma activate_used w st i : Rel w st -> two (fst w) -> us (fst w) i = true -> activate st i = Ok st.
Proof.
  intros R HT Hi. destruct (active_two _ _ _ R HT Hi) as (p & E & A). unfold activate, get. rewrite E. cbn [bind]. now rewrite A.
Qed.

Lemma two_used (w : world) : two (fst w) -> exists i, us (fst w) i = true.
Proof. intros (i & _ & _ & H & _). eauto. Qed.

Lemma touch_ok w st i : Rel w st -> EndB w st -> two (fst w) -> i < length (fst w) ->
  exists st', activate st i = Ok st' /\ Rel (upd (fst w) i (Some (region (fst w) i)), snd w) st' /\
    EndB (upd (fst w) i (Some (region (fst w) i)), snd w) st'.
Proof.
  intros R HE HT Hi. destruct w as [rs t]; cbn [fst snd] in *. destruct (us rs i) eqn:Hu.
  - exists st. split; [eapply activate_used; eauto|].
    assert (upd rs i (Some (region rs i)) = rs) as ->; [|split; assumption].
    apply used_us in Hu. destruct Hu as [x Hx]. rewrite (region_nth _ _ _ Hx). simpl. rewrite upd_split by assumption. symmetry. now apply list_split.
  - destruct (activate_unused (rs, t) st i R Hi Hu (or_introl HT)) as (st' & pr & su & b & EA & AC & HP & HS & q & Eq & ->).
    exists st'. split; [exact EA|]. cbn [fst snd] in *.
    assert (ER : region rs i = []).
    { apply unused_us in Hu; [|assumption]. unfold unused in Hu. now rewrite (region_nth _ _ _ Hu). }
    rewrite ER.
    assert (EF : forall j, from (upd rs i (Some [])) j = from rs j).
    { intro j. destruct (Nat.lt_ge_cases i j); [now apply from_upd_gt|].
      apply unused_us in Hu; [|assumption]. destruct (from_split rs j i None Hu H) as (m & E1 & E2). rewrite E1, E2. reflexivity. }
    assert (BQ : p_begin q = hd_error (from rs (S i) ++ t)).
    { pose proof HS as (F1 & F2 & F3). rewrite (from_skip rs (S i) su) by (try lia; assumption).
      destruct (Nat.eq_dec su (length rs)) as [->|].
      - destruct (two_used (rs, t) HT) as [i0 Hi0]. rewrite (HE i0 q Hi0 Eq). unfold from. now rewrite skipn_all.
      - destruct (R_used _ _ R su) as (p0 & s0 & E0 & _); [apply F2; cbn; lia|]. cbn [fst snd] in *. rewrite Eq in E0. injection E0 as ->. reflexivity. }
    split.
    + eapply (Rel_activated (rs, t)); eauto. intros j _. cbn [fst snd]. now rewrite EF.
    + intros j p _ E. cbn [fst snd] in *. rewrite upd_length in E. destruct AC as (_ & _ & AO).
      destruct (R_end _ _ R) as (e & p0 & s0 & E0 & _). cbn [fst] in E0. rewrite (AO (length rs) _ ltac:(lia) E0) in E. injection E as <-. cbn [p_begin].
      destruct (two_used (rs, t) HT) as [i0 Hi0]. apply (HE i0 _ Hi0 E0).
Qed.

(** extending the last region *)
Lemma extend_ok w st i x t' : Rel w st -> us (fst w) i = true -> (forall j, i < j < length (fst w) -> us (fst w) j = false) ->
  snd w = x ++ t' -> t' <> [] ->
  exists st', set_begin st (end_idx st) (hd_error t') = Ok st' /\
    Rel (upd (fst w) i (Some (region (fst w) i ++ x)), t') st' /\ EndB (upd (fst w) i (Some (region (fst w) i ++ x)), t') st'.
Proof.
  intros R Hi HB Et Ht. rewrite (end_idx_R _ _ R). destruct w as [rs t]; cbn [fst snd] in *. subst t.
  pose proof (us_lt _ _ Hi) as Hl.
  destruct (R_end _ _ R) as (e & p & s & E & HP & HS). cbn [fst snd] in *.
  unfold set_begin, get. rewrite E. cbn [bind p_pred p_succ]. eexists. split; [reflexivity|].
  assert (LS : length st = S (length rs)) by apply (R_len _ _ R).
  assert (U : forall y k, us (upd rs i (Some y)) k = us rs k).
  { intros y k. rewrite us_upd by assumption. destruct (Nat.eqb_spec k i); congruence. }
  apply used_us in Hi as HU. destruct HU as [r Hr].
  assert (EI : from rs (S i) = []) by (apply from_unused; intros; apply HB; lia).
  split.
  - constructor; cbn [fst snd]; rewrite ?upd_length.
    + exact LS.
    + intros j Hj Hu. rewrite U in Hu. rewrite nth_error_upd_ne by lia. apply (R_unused _ _ R); assumption.
    + intros j Hj. rewrite U in Hj. pose proof (us_lt _ _ Hj). rewrite nth_error_upd_ne by lia.
      destruct (R_used _ _ R j Hj) as (p0 & s0 & E0 & P0 & S0). cbn [fst snd] in *. exists p0, s0.
      split; [|split; [eapply last_ext; [|exact P0]; intro; now rewrite U|eapply first_ext; [|exact S0]; intro; now rewrite U]].
      rewrite E0. do 2 f_equal. f_equal.
      destruct (Nat.le_gt_cases j i).
      * destruct (from_split rs j i _ Hr H0) as (m & E1 & E2). rewrite E1, E2, EI, (region_nth _ _ _ Hr). simpl. rewrite !app_nil_r, !app_assoc. reflexivity.
      * rewrite HB in Hj by lia. discriminate.
    + rewrite nth_error_upd_eq by lia. eexists _, _, _. split; [reflexivity|].
      split; [eapply last_ext; [|exact HP]|eapply first_ext; [|exact HS]]; intro; now rewrite U.
  - intros j p0 _ E0. cbn [fst snd] in *. rewrite upd_length, nth_error_upd_eq in E0 by lia. injection E0 as <-. reflexivity.
Qed.

Lemma it_eqb_eq a b : it_eqb a b = true <-> a = b.
Proof. destruct a, b; simpl; split; try congruence; [intro H; apply Nat.eqb_eq in H; congruence|intro H; injection H as ->; apply Nat.eqb_refl]. Qed.

Lemma hd_error_app {A} (a b : list A) : a <> [] -> hd_error (a ++ b) = hd_error a.
Proof. destruct a; [congruence|reflexivity]. Qed.

Lemma set_begin_activated st st' idx pr su b b' : idx < length st -> activated st st' idx pr su b ->
  exists st'', set_begin st' idx b' = Ok st'' /\ activated st st'' idx pr su b'.
Proof.
  intros Hi (L & E & O). unfold set_begin, get. rewrite E. cbn [bind p_pred p_succ]. eexists. split; [reflexivity|].
  split; [now rewrite upd_length|]. split; [apply nth_error_upd_eq; lia|].
  intros i p Hn Ep. rewrite nth_error_upd_ne by congruence. now apply O.
Qed.

Lemma append_ok w st i x t' : Rel w st -> EndB w st -> NoDup (snd w) -> i < length (fst w) -> x <> [] -> snd w = x ++ t' -> t' <> [] ->
  (forall j, i < j < length (fst w) -> us (fst w) j = false) ->
  exists st', append st i (hd_error x) (hd_error t') = Ok st' /\
    Rel (upd (fst w) i (Some (region (fst w) i ++ x)), t') st' /\ EndB (upd (fst w) i (Some (region (fst w) i ++ x)), t') st'.
Proof.
  intros R HE ND Hi Hx Et Ht HB. unfold append, valid_idx, all_end, active_empty, last_active_idx.
  assert (LS : length st = S (length (fst w))) by apply R.
  rewrite !(end_idx_R _ _ R). pose proof Hi as Hi'. apply Nat.ltb_lt in Hi'. rewrite Hi'. cbn [assert_ bind].
  destruct (it_eqb (hd_error x) (hd_error t')) eqn:EQ.
  { exfalso. apply it_eqb_eq in EQ. rewrite Et in ND. destruct x as [|a x]; [congruence|]. destruct t' as [|b t']; [congruence|].
    simpl in EQ. injection EQ as ->. simpl in ND. inversion ND as [|? ? NI]. apply NI, in_or_app. right. now left. }
  destruct (R_end _ _ R) as (e & p & s & E & HP & HS). unfold get at 1 2 3. rewrite E. cbn [bind p_pred p_begin].
  destruct (us (fst w) i) eqn:Hu.
  - (* the last region *)
    assert (p = i).
    { destruct HP as [(P1 & P2 & P3 & P4)|(P1 & P2)]; [|rewrite P2 in Hu by lia; discriminate].
      destruct (Nat.lt_trichotomy p i) as [G|[G|G]]; [rewrite P4 in Hu by lia; discriminate|exact G|rewrite HB in P3 by lia; discriminate]. }
    subst p. destruct (Nat.eqb_spec i (length (fst w))); [lia|]. cbn [orb].
    pose proof (HE i _ Hu E) as EE. cbn [p_begin] in EE. rewrite Et, hd_error_app in EE by assumption. subst e.
    assert (it_eqb (hd_error x) (hd_error x) = true) as -> by now apply it_eqb_eq. cbn [assert_ bind].
    rewrite Nat.ltb_irrefl, Nat.eqb_refl. cbn [assert_ bind].
    pose proof (extend_ok w st i x t' R Hu HB Et Ht) as (st' & E1 & E2). exists st'. split; [exact E1|exact E2].
  - assert (A1 : assert_ ((p =? length (fst w)) || it_eqb (hd_error x) e) = Ok tt).
    { apply assert_Ok. destruct (Nat.eqb_spec p (length (fst w))) as [->|]; [reflexivity|]. cbn [orb]. apply it_eqb_eq.
      destruct HP as [(P1 & P2 & P3 & P4)|(P1 & P2)]; [|congruence].
      pose proof (HE p _ P3 E) as EE. cbn [p_begin] in EE. rewrite EE, Et. now rewrite hd_error_app. }
    rewrite A1. cbn [bind].
    assert (A2 : (p =? length (fst w)) || (p <? i) = true).
    { destruct (Nat.eqb_spec p (length (fst w))) as [->|]; [reflexivity|]. cbn [orb]. apply Nat.ltb_lt.
      destruct HP as [(P1 & P2 & P3 & P4)|(P1 & P2)]; [|congruence].
      destruct (Nat.lt_trichotomy p i) as [G|[G|G]]; [exact G|congruence|rewrite HB in P3 by lia; discriminate]. }
    rewrite A2.
    destruct (activate_unused w st i R Hi Hu (or_intror HB)) as (st1 & pr & su & b & EA & AC & AP & AS & q & Eq & Ebq).
    rewrite EA. cbn [bind].
    destruct (set_begin_activated st st1 i pr su b (hd_error x) ltac:(lia) AC) as (st2 & ES & AC2). rewrite ES. cbn [bind].
    assert (ER : region (fst w) i = []).
    { apply unused_us in Hu; [|assumption]. unfold unused in Hu. now rewrite (region_nth _ _ _ Hu). }
    assert (EI : from (fst w) (S i) = []) by (apply from_unused; intros; apply HB; lia).
    assert (R2 : Rel (upd (fst w) i (Some []), snd w) st2).
    { eapply Rel_activated; eauto.
      - simpl. rewrite EI, Et. simpl. now rewrite hd_error_app.
      - intros j Hj. f_equal. f_equal. destruct (Nat.lt_ge_cases i j); [now apply from_upd_gt|].
        apply unused_us in Hu; [|assumption]. destruct (from_split _ _ _ _ Hu H) as (m & E1 & E2). rewrite E1, E2. reflexivity. }
    assert (RI : region (upd (fst w) i (Some [])) i = []).
    { assert (EN : nth_error (upd (fst w) i (Some [])) i = Some (Some [])) by now apply nth_error_upd_eq. now rewrite (region_nth _ _ _ EN). }
    pose proof (extend_ok (upd (fst w) i (Some []), snd w) st2 i x t' R2) as X. cbn [fst snd] in X.
    rewrite RI, ER in *. cbn [app] in *.
    assert (UU : upd (upd (fst w) i (Some [])) i (Some x) = upd (fst w) i (Some x)).
    { clear. generalize (fst w). intro l. revert i. induction l; intros [|i]; simpl; auto. f_equal. apply IHl. }
    rewrite UU in X. apply X; auto.
    + rewrite us_upd by assumption. now rewrite Nat.eqb_refl.
    + intros j Hj. rewrite upd_length in Hj. rewrite us_upd by assumption. destruct (Nat.eqb_spec j i); [lia|]. apply HB; lia.
Qed.

(** inserting *)
Lemma reach_app u a v b : reach (u ++ a :: v) a b = true \/ ~ In b (a :: v).
Proof.
  destruct (in_dec Nat.eq_dec b (a :: v)) as [I|I]; [left|now right].
  induction u as [|c u IH]; cbn [reach app].
  - rewrite Nat.eqb_refl. apply existsb_exists. exists b. split; [exact I|apply Nat.eqb_refl].
  - destruct (c =? a); [|exact IH]. apply existsb_exists. exists b. split; [right; apply in_or_app; now right|apply Nat.eqb_refl].
Qed.

Lemma all_begin_ok w st i : Rel w st -> us (fst w) i = true -> all_begin st = Ok (hd_error (content (fst w) ++ snd w)).
Proof.
  intros R Hi. unfold all_begin, get. rewrite (end_idx_R _ _ R). destruct (R_end _ _ R) as (e & p & s & E & HP & HS).
  rewrite E. cbn [bind p_succ]. destruct HS as (S1 & S2 & S3).
  assert (s <> length (fst w)). { intros ->. rewrite S3 in Hi; [discriminate|]. pose proof (us_lt _ _ Hi). lia. }
  destruct (R_used _ _ R s) as (p0 & s0 & E0 & _); [apply S2; lia|]. rewrite E0. cbn [bind p_begin].
  rewrite <- (from_skip (fst w) 0 s) by (try lia; intros; apply S3; lia). reflexivity.
Qed.

Lemma set_at_used (w : world) i y : us (fst w) i = true -> forall k, us (upd (fst w) i (Some y)) k = us (fst w) k.
Proof. intros H k. rewrite us_upd by now apply us_lt. destruct (Nat.eqb_spec k i); congruence. Qed.

Lemma insert_ok pre w st i k x : Rel w st -> EndB w st -> snd w <> [] -> slegal pre w (SInsert i k x) ->
  exists st', cstep pre w st (SInsert i k x) = Ok st' /\ Rel (sstep w (SInsert i k x)) st' /\ EndB (sstep w (SInsert i k x)) st'.
Proof.
  intros R HE Ht (Hu & H2 & Hx & Hk & ND & HF). apply num_used_2 in H2. apply used_us in Hu.
  destruct w as [rs t]; cbn [fst snd] in *. cbn [cstep].
  assert (Hi := us_lt _ _ Hu). assert (Hr := Hu). apply used_us in Hr. destruct Hr as [r Hr].
  assert (ER : region rs i = r) by (now rewrite (region_nth _ _ _ Hr)).
  cbn [sstep] in *. rewrite ER in *.
  set (y := firstn k r ++ x ++ skipn k r) in *.
  assert (LS : length st = S (length rs)) by apply (R_len _ _ R).
  unfold insert, active_idx, valid_idx. rewrite (end_idx_R _ _ R). cbn [fst].
  pose proof Hi as Hi'. apply Nat.ltb_lt in Hi'. rewrite Hi'.
  destruct (active_two _ _ _ R H2 Hu) as (p & Ep & Ap). unfold get. rewrite Ep. cbn [bind]. rewrite Ap. cbn [assert_ bind].
  destruct (from_split rs 0 i _ Hr ltac:(lia)) as (m & M1 & M2).
  assert (C1 : content (upd rs i (Some y)) = m ++ y ++ from rs (S i)) by apply M1.
  assert (C2 : content rs = m ++ r ++ from rs (S i)) by apply M2.
  set (v := skipn k r ++ from rs (S i) ++ t) in *.
  assert (Hv : v <> []). { unfold v. intro Q. apply app_eq_nil in Q as [_ Q]. apply app_eq_nil in Q as [_ Q]. contradiction. }
  assert (AL : all_of (upd rs i (Some y), t) = m ++ firstn k r ++ x ++ v).
  { unfold all_of. cbn [fst snd]. rewrite C1. unfold y, v. now rewrite <- !app_assoc. }
  assert (AO : content rs ++ t = m ++ firstn k r ++ v).
  { rewrite C2. unfold v. rewrite <- (firstn_skipn k r) at 1. now rewrite <- !app_assoc. }
  assert (D : distance_ok (pre ++ all_of (upd rs i (Some y), t)) (hd_error x) (hd_error v) = true).
  { rewrite AL. destruct x as [|a x]; [congruence|]. destruct v as [|b v']; [congruence|]. cbn [hd_error distance_ok].
    destruct (reach_app (pre ++ m ++ firstn k r) a (x ++ b :: v') b) as [Q|Q].
    - rewrite <- !app_assoc in Q. exact Q.
    - exfalso. apply Q. right. apply in_or_app. right. now left. }
  rewrite D. cbn [assert_ bind]. rewrite (all_begin_ok _ _ i R Hu). cbn [bind fst snd]. rewrite AO.
  assert (U : forall j, us (upd rs i (Some y)) j = us rs j) by (apply (set_at_used (rs, t)); assumption).
  (* the begins of the other regions *)
  assert (GB : forall j, us rs j = true -> (j <> i \/ k <> 0) -> hd_error (from (upd rs i (Some y)) j ++ t) = hd_error (from rs j ++ t)).
  { intros j Hj Hc. destruct (Nat.lt_ge_cases i j); [now rewrite from_upd_gt|].
    destruct (from_split rs j i _ Hr H) as (m' & M1' & M2'). rewrite M1', M2'. simpl.
    destruct m' as [|c m']; [|reflexivity]. simpl. unfold y. destruct k as [|k].
    - exfalso. assert (unused rs j) by (apply HF; lia). apply unused_us in H0; [congruence|now apply us_lt].
    - destruct r as [|c r]; [simpl in Hk; lia|]. reflexivity. }
  assert (EE : EndB (upd rs i (Some y), t) st).
  { intros j q Hj Eq. cbn [fst snd] in *. rewrite upd_length in Eq. now apply (HE i). }
  destruct (Nat.eq_dec k 0) as [->|Hk0].
  - (* in front of the first region in use *)
    assert (m = []).
    { assert (Hc : content (firstn i rs) = m).
      { pose proof C2 as Q. rewrite (list_split _ _ _ Hr) in Q at 1. rewrite content_app in Q. simpl in Q. unfold from in Q. apply app_inv_tail in Q. exact Q. }
      rewrite <- Hc. change (content (firstn i rs)) with (from (firstn i rs) 0). apply from_unused. intros j Hj. rewrite firstn_length in Hj.
      assert (unused rs j) by (apply HF; [reflexivity|lia]). unfold us. unfold unused in H.
      assert (nth_error (firstn i rs) j = nth_error rs j) as ->; [|now rewrite H].
      clear -Hj. revert i j Hj. induction rs; intros [|i] [|j] H; simpl in *; try lia; auto. apply IHrs. lia. }
    subst m. cbn [firstn app]. assert (it_eqb (hd_error v) (hd_error v) = true) as -> by now apply it_eqb_eq.
    unfold set_begin, get. rewrite Ep. cbn [bind]. eexists. split; [reflexivity|]. split.
    + constructor; cbn [fst snd]; rewrite ?upd_length.
      * exact LS.
      * intros j Hj Huj. rewrite U in Huj. rewrite nth_error_upd_ne by congruence. apply (R_unused _ _ R); assumption.
      * intros j Hj. rewrite U in Hj. destruct (R_used _ _ R j Hj) as (p0 & s0 & E0 & P0 & S0). cbn [fst snd] in *. exists p0, s0.
        split; [|split; [eapply last_ext; [|exact P0]; intro; now rewrite U|eapply first_ext; [|exact S0]; intro; now rewrite U]].
        destruct (Nat.eq_dec j i) as [->|].
        -- rewrite nth_error_upd_eq by lia. rewrite E0 in Ep. injection Ep as <-. cbn [p_pred p_succ].
           rewrite (from_S _ i (Some y)) by now apply nth_error_upd_eq. cbn [elems]. unfold y. cbn [firstn app].
           rewrite <- !app_assoc. now rewrite hd_error_app.
        -- rewrite nth_error_upd_ne by congruence. rewrite GB by auto. exact E0.
      * destruct (R_end _ _ R) as (e & p0 & s0 & E0 & P0 & S0). cbn [fst] in *. rewrite nth_error_upd_ne by lia. exists e, p0, s0.
        split; [exact E0|]. split; [eapply last_ext; [|exact P0]|eapply first_ext; [|exact S0]]; intro; now rewrite U.
    + intros j q Hj Eq. cbn [fst snd] in *. rewrite upd_length, nth_error_upd_ne in Eq by lia. now apply (HE i).
  - assert (it_eqb (hd_error v) (hd_error (m ++ firstn k r ++ v)) = false) as ->.
    { destruct (it_eqb _ _) eqn:Q; [|reflexivity]. exfalso. apply it_eqb_eq in Q. rewrite AL in ND.
      destruct k as [|k]; [lia|]. destruct r as [|c r]; [simpl in Hk; lia|].
      assert (NE : m ++ firstn (S k) (c :: r) <> []) by (intro QQ; apply app_eq_nil in QQ as [_ QQ]; discriminate).
      rewrite app_assoc in Q. rewrite hd_error_app in Q by exact NE.
      apply (NoDup_app_r) in ND. rewrite (app_assoc m) in ND. destruct (m ++ firstn (S k) (c :: r)) as [|d z]; [congruence|].
      destruct v as [|b v']; [congruence|]. simpl in Q. injection Q as ->. simpl in ND. inversion ND as [|? ? NI]. apply NI.
      apply in_or_app. right. apply in_or_app. right. now left. }
    exists st. split; [reflexivity|]. split; [|exact EE].
    constructor; cbn [fst snd]; rewrite ?upd_length.
    + exact LS.
    + intros j Hj Huj. rewrite U in Huj. apply (R_unused _ _ R); assumption.
    + intros j Hj. rewrite U in Hj. destruct (R_used _ _ R j Hj) as (p0 & s0 & E0 & P0 & S0). cbn [fst snd] in *. exists p0, s0.
      split; [|split; [eapply last_ext; [|exact P0]; intro; now rewrite U|eapply first_ext; [|exact S0]; intro; now rewrite U]].
      rewrite GB by auto. exact E0.
    + destruct (R_end _ _ R) as (e & p0 & s0 & E0 & P0 & S0). exists e, p0, s0.
      split; [exact E0|]. split; [eapply last_ext; [|exact P0]|eapply first_ext; [|exact S0]]; intro; now rewrite U.
Qed.

(** histories *)
Definition Inv (pre : list nat) (w : world) (st : partition) : Prop :=
  Rel w st /\ EndB w st /\ snd w <> [] /\ NoDup (pre ++ all_of w).

Lemma two_upd rs i x : i < length rs -> two rs -> two (upd rs i (Some x)).
Proof.
  intros Hi (a & b & H & Ha & Hb). exists a, b. rewrite !us_upd by assumption. repeat split; [exact H| |]; [destruct (a =? i)|destruct (b =? i)]; auto.
Qed.
Lemma upd_upd {A} (l : list A) i x y : upd (upd l i x) i y = upd l i y.
Proof. revert i; induction l; intros [|i]; simpl; auto. f_equal. apply IHl. Qed.
Lemma region_upd rs i x : i < length rs -> region (upd rs i (Some x)) i = x.
Proof.
  intro H. assert (EN : nth_error (upd rs i (Some x)) i = Some (Some x)) by now apply nth_error_upd_eq. now rewrite (region_nth _ _ _ EN).
Qed.
Lemma content_upd_same rs i : i < length rs -> content (upd rs i (Some (region rs i))) = content rs.
Proof.
  intro H. destruct (nth_error rs i) as [x|] eqn:E; [|apply nth_error_None in E; lia].
  destruct (from_split rs 0 i x E ltac:(lia)) as (m & E1 & E2). change (content rs) with (from rs 0). change (content (upd rs i (Some (region rs i)))) with (from (upd rs i (Some (region rs i))) 0).
  rewrite E1, E2, (region_nth _ _ _ E). reflexivity.
Qed.

Lemma rbegin_ok w st i : Rel w st -> EndB w st -> two (fst w) -> i < length (fst w) ->
  let w' := (upd (fst w) i (Some (region (fst w) i)), snd w) in
  exists st', rbegin st i = Ok (hd_error (from (fst w) i ++ snd w), st') /\
    rend st' i = Ok (hd_error (from (fst w) (S i) ++ snd w), st') /\ rend st i = Ok (hd_error (from (fst w) (S i) ++ snd w), st') /\
    Rel w' st' /\ EndB w' st'.
Proof.
  intros R HE HT Hi w'. destruct (touch_ok w st i R HE HT Hi) as (st' & E & R' & HE').
  exists st'. fold w' in R', HE'. pose proof (end_idx_R _ _ R') as EI. subst w'. cbn [fst snd] in *. rewrite upd_length in EI.
  pose proof (end_idx_R _ _ R) as EI0.
  assert (Hi' : (i <? length (fst w)) = true) by now apply Nat.ltb_lt.
  assert (UI : us (upd (fst w) i (Some (region (fst w) i))) i = true) by (rewrite us_upd by assumption; now rewrite Nat.eqb_refl).
  destruct (R_used _ _ R' i UI) as (p & s & E0 & HP & HS). cbn [fst snd] in *.
  destruct (succ_begin _ _ i s R' HE' UI) as (q & Eq & Bq); [exact HS|]. cbn [fst snd] in Bq. rewrite from_upd_gt in Bq by lia.
  assert (FI : from (upd (fst w) i (Some (region (fst w) i))) i = from (fst w) i).
  { rewrite (from_S _ _ _ (nth_error_upd_eq _ _ _ Hi)), from_upd_gt by lia. cbn [elems].
    destruct (nth_error (fst w) i) as [x|] eqn:EX; [|apply nth_error_None in EX; lia]. now rewrite (from_S _ _ _ EX), (region_nth _ _ _ EX). }
  rewrite FI in E0.
  assert (A2 : activate st' i = Ok st') by (eapply activate_used; [exact R'|now apply two_upd|exact UI]).
  unfold rbegin, rend, cbegin, cend, valid_idx. rewrite EI0, Hi'. cbn [assert_ bind]. rewrite E. cbn [bind]. rewrite EI, Hi', A2. cbn [assert_ bind].
  unfold get. rewrite EI, Hi', E0. cbn [assert_ bind p_begin p_succ]. rewrite Eq. cbn [bind]. rewrite Bq. repeat split; try reflexivity; apply R' || apply HE'.
Qed.

Lemma step_ok pre w st s : Inv pre w st -> slegal pre w s ->
  exists st', cstep pre w st s = Ok st' /\ Inv pre (sstep w s) st'.
Proof.
  intros (R & HE & Ht & ND) L. destruct s as [i x|i|i k x].
  - destruct L as (Hi & Hx & (t' & Et & Ht') & HB). destruct w as [rs t]; cbn [fst snd cstep sstep] in *.
    assert (NT : NoDup t) by (apply NoDup_app_r in ND; apply NoDup_app_r in ND; exact ND).
    destruct (append_ok (rs, t) st i x t' R HE NT Hi Hx Et Ht') as (st' & E & R' & HE').
    { intros j Hj. apply unused_us; [cbn in *; lia|]. apply HB; cbn in *; lia. }
    cbn [fst] in *. subst t. rewrite skipn_app_len. exists st'. split; [exact E|]. split; [exact R'|]. split; [exact HE'|]. split; [exact Ht'|].
    assert (Q : all_of (upd rs i (Some (region rs i ++ x)), t') = all_of (rs, x ++ t')); [|now rewrite Q].
    unfold all_of; cbn [fst snd]. destruct (nth_error rs i) as [r|] eqn:Er; [|apply nth_error_None in Er; lia].
    destruct (from_split rs 0 i r Er ltac:(lia)) as (m & E1 & E2). change (content rs) with (from rs 0). unfold content at 1.
    change (flat_map elems (upd rs i (Some (region rs i ++ x)))) with (from (upd rs i (Some (region rs i ++ x))) 0).
    rewrite E1, E2, (region_nth _ _ _ Er). assert (EI : from rs (S i) = []).
    { apply from_unused. intros j Hj. apply unused_us; [lia|]. apply HB; lia. }
    rewrite EI. cbn [elems]. rewrite !app_nil_r, <- !app_assoc. reflexivity.
  - destruct L as (Hi & H2). apply num_used_2 in H2. destruct w as [rs t]; cbn [fst snd cstep sstep] in *.
    destruct (rbegin_ok (rs, t) st i R HE H2 Hi) as (st' & E1 & E2 & _ & R' & HE'). cbn [fst snd] in *.
    rewrite E1. cbn [bind snd]. rewrite E2. cbn [bind snd]. exists st'. split; [reflexivity|]. split; [exact R'|]. split; [exact HE'|].
    split; [exact Ht|]. unfold all_of in *. cbn [fst snd] in *. now rewrite content_upd_same.
  - destruct (insert_ok pre w st i k x R HE Ht L) as (st' & E & R' & HE'). exists st'. split; [exact E|]. split; [exact R'|]. split; [exact HE'|].
    destruct L as (_ & _ & _ & _ & NDs & _). destruct w as [rs t]. split; [exact Ht|exact NDs].
Qed.

Lemma runs_ok pre h : forall w st, Inv pre w st -> shist pre w h ->
  exists st', cruns pre w st h = Ok st' /\ Inv pre (sruns w h) st'.
Proof.
  induction h as [|s h IH]; intros w st I H; cbn [cruns sruns].
  - exists st. auto.
  - destruct H as [L H]. destruct (step_ok pre w st s I L) as (st1 & E & I1). rewrite E. cbn [bind]. apply IH; assumption.
Qed.

(** the constructor *)
Lemma us_repeat n i : us (repeat None n) i = false.
Proof. unfold us. destruct (nth_error (repeat None n) i) as [[x|]|] eqn:E; try reflexivity. apply nth_error_In, repeat_spec in E. discriminate. Qed.
Lemma new_ok count pre t : 0 < count -> t <> [] -> NoDup (pre ++ t) ->
  exists st, new_partition count = Ok st /\ Inv pre (repeat None count, t) st.
Proof.
  intros Hc Ht ND. unfold new_partition. pose proof Hc as Hc'. apply Nat.ltb_lt in Hc'. rewrite Hc'. cbn [assert_ bind].
  eexists. split; [reflexivity|].
  assert (N : forall i, i <= count -> nth_error (map (fun i => mkPart None i i) (seq 0 (S count))) i = Some (mkPart None i i)).
  { intros i Hi. rewrite nth_error_map. assert (nth_error (seq 0 (S count)) i = Some i) as ->; [|reflexivity].
    rewrite (nth_error_nth' _ 0) by (rewrite seq_length; lia). f_equal. rewrite seq_nth by lia. reflexivity. }
  split; [|split; [|split; [exact Ht|]]].
  - constructor; cbn [fst snd]; rewrite ?repeat_length.
    + now rewrite map_length, seq_length.
    + intros i Hi _. exists None. apply N. lia.
    + intros i Hi. rewrite us_repeat in Hi. discriminate.
    + exists None, count, count. split; [apply N; lia|]. split.
      * right. split; [reflexivity|]. intros; apply us_repeat.
      * split; [lia|]. split; [lia|]. intros; apply us_repeat.
  - intros i p Hi. cbn [fst] in Hi. rewrite us_repeat in Hi. discriminate.
  - unfold all_of; cbn [fst snd]. replace (content (repeat None count)) with (@nil nat); [exact ND|]. clear. induction count; [reflexivity|exact IHcount].
Qed.
Lemma clear_ok pre w st : Inv pre w st -> forall pre' t, t <> [] -> NoDup (pre' ++ t) ->
  Inv pre' (repeat None (length (fst w)), t) (clear_partitions st).
Proof.
  intros (R & _) pre' t Ht ND. pose proof (R_len _ _ R) as L.
  assert (N : forall i, i <= length (fst w) -> exists b, nth_error (clear_partitions st) i = Some (mkPart b i i)).
  { intros i Hi. unfold clear_partitions. rewrite nth_error_map.
    destruct (nth_error st i) as [p|] eqn:E; [|apply nth_error_None in E; lia]. exists (p_begin p).
    assert (nth_error (combine (seq 0 (length st)) st) i = Some (i, p)) as ->; [|reflexivity].
    assert (G : forall (l : partition) a j q, nth_error l j = Some q -> nth_error (combine (seq a (length l)) l) j = Some (a + j, q)).
    { clear. induction l as [|x l IH]; intros a [|j] q H; simpl in *; try discriminate.
      - now rewrite Nat.add_0_r; injection H as ->.
      - rewrite (IH (S a) j q H). do 2 f_equal. lia. }
    now rewrite (G _ 0 _ _ E). }
  split; [|split; [|split; [exact Ht|]]].
  - constructor; cbn [fst snd]; rewrite ?repeat_length.
    + unfold clear_partitions. rewrite map_length, combine_length, seq_length. lia.
    + intros i Hi _. apply N. lia.
    + intros i Hi. rewrite us_repeat in Hi. discriminate.
    + destruct (N (length (fst w))) as [b Eb]; [lia|]. exists b, (length (fst w)), (length (fst w)). split; [exact Eb|]. split.
      * right. split; [reflexivity|]. intros; apply us_repeat.
      * split; [lia|]. split; [lia|]. intros; apply us_repeat.
  - intros i p Hi. cbn [fst] in Hi. rewrite us_repeat in Hi. discriminate.
  - unfold all_of; cbn [fst snd]. replace (content (repeat None (length (fst w)))) with (@nil nat); [exact ND|]. clear. induction (length (fst w)); [reflexivity|assumption].
Qed.

(** queries *)
Lemma from_delim pre rs t i : i < length rs ->
  delimits (pre ++ all_of (rs, t)) (hd_error (from rs i ++ t)) (hd_error (from rs (S i) ++ t)) (region rs i).
Proof.
  intro Hi. destruct (nth_error rs i) as [r|] eqn:E; [|apply nth_error_None in E; lia].
  destruct (from_split rs 0 i r E ltac:(lia)) as (m & _ & M).
  exists (pre ++ m), (from rs (S i) ++ t). rewrite (region_nth _ _ _ E). split; [|split; [|reflexivity]].
  - unfold all_of; cbn [fst snd]. change (content rs) with (from rs 0). rewrite M, <- !app_assoc. reflexivity.
  - now rewrite (from_S _ _ _ E), <- app_assoc.
Qed.

Lemma cquery_used pre w st i : Inv pre w st -> used (fst w) i ->
  cbegin st i = Ok (hd_error (from (fst w) i ++ snd w)) /\ cend st i = Ok (hd_error (from (fst w) (S i) ++ snd w)).
Proof.
  intros (R & HE & _) Hu. apply used_us in Hu. pose proof (us_lt _ _ Hu) as Hi. apply Nat.ltb_lt in Hi.
  unfold cbegin, cend, valid_idx. rewrite (end_idx_R _ _ R), Hi. cbn [assert_ bind].
  destruct (R_used _ _ R i Hu) as (p & s & E & HP & HS). destruct (succ_begin _ _ i s R HE Hu HS) as (q & Eq & Bq).
  unfold get. rewrite E. cbn [bind p_begin p_succ]. rewrite Eq. cbn [bind]. now rewrite Bq.
Qed.
Lemma cquery_unused pre w st i : Inv pre w st -> unused (fst w) i ->
  exists b, cbegin st i = Ok b /\ cend st i = Ok b.
Proof.
  intros (R & HE & _) Hu. assert (Hi : i < length (fst w)) by (apply nth_error_Some; unfold unused in Hu; congruence).
  apply unused_us in Hu; [|assumption]. destruct (R_unused _ _ R i Hi Hu) as [b E]. exists b. apply Nat.ltb_lt in Hi.
  unfold cbegin, cend, valid_idx. rewrite (end_idx_R _ _ R), Hi. cbn [assert_ bind].
  unfold get. rewrite E. cbn [bind p_begin p_succ]. rewrite E. cbn [bind]. auto.
Qed.
Lemma NoDup_hd_ne (a b : list nat) : NoDup (a ++ b) -> a <> [] -> b <> [] -> hd_error (a ++ b) <> hd_error b.
Proof.
  intros ND Ha Hb. destruct a as [|x a]; [congruence|]. destruct b as [|y b]; [congruence|]. simpl in *. intro Q. injection Q as ->.
  inversion ND as [|? ? NI]. apply NI, in_or_app. right. now left.
Qed.
Lemma empty_ok pre w st i : Inv pre w st -> i < length (fst w) ->
  region_empty st i = Ok (is_empty (region (fst w) i)).
Proof.
  intros I Hi. destruct (us (fst w) i) eqn:Hu.
  - apply used_us in Hu as Hu'. destruct (cquery_used _ _ _ _ I Hu') as (E1 & E2). unfold region_empty. rewrite E1, E2. cbn [bind]. f_equal.
    destruct I as (R & HE & Ht & ND). destruct Hu' as [x Ex]. rewrite (from_S _ _ _ Ex), (region_nth _ _ _ Ex). cbn [elems].
    rewrite <- app_assoc. destruct x as [|c x]; [simpl; now apply it_eqb_eq|].
    destruct (it_eqb _ _) eqn:Q; [|reflexivity]. apply it_eqb_eq in Q. exfalso. revert Q. apply NoDup_hd_ne.
    + destruct (from_split (fst w) 0 i _ Ex ltac:(lia)) as (m & _ & M). unfold all_of in ND. change (content (fst w)) with (from (fst w) 0) in ND. rewrite M in ND.
      apply NoDup_app_r in ND. rewrite <- !app_assoc in ND. apply NoDup_app_r in ND. exact ND.
    + discriminate.
    + intro Q. apply app_eq_nil in Q as [_ Q]. congruence.
  - apply unused_us in Hu; [|assumption]. destruct (cquery_unused _ _ _ _ I Hu) as (b & E1 & E2). unfold region_empty. rewrite E1, E2. cbn [bind]. f_equal.
    unfold unused in Hu. rewrite (region_nth _ _ _ Hu). now apply it_eqb_eq.
Qed.
Lemma all_ok pre w st : Inv pre w st -> num_used (fst w) <> 0 ->
  all_begin st = Ok (hd_error (content (fst w) ++ snd w)) /\ all_end st = Ok (hd_error (snd w)).
Proof.
  intros (R & HE & _) H. destruct (num_used_pos (fst w)) as [i Hi]; [lia|]. split; [eapply all_begin_ok; eauto|].
  unfold all_end. rewrite (end_idx_R _ _ R). destruct (R_end _ _ R) as (e & p & s & E & _). unfold get. rewrite E. cbn [bind].
  now rewrite (HE i _ Hi E).
Qed.
Lemma all_empty_ok pre w st : Inv pre w st -> all_empty st = Ok (num_used (fst w) =? 0).
Proof.
  intros (R & HE & _). unfold all_empty, active_empty, last_active_idx. rewrite (end_idx_R _ _ R).
  destruct (R_end _ _ R) as (e & p & s & E & HP & HS). unfold get. rewrite E. cbn [bind p_pred]. f_equal.
  destruct (Nat.eqb_spec (num_used (fst w)) 0) as [Z|NZ].
  - apply Nat.eqb_eq. destruct HP as [(P1 & P2 & P3 & P4)|(P1 & P2)]; [|exact P1]. rewrite (num_used_0 _ _ Z) in P3. discriminate.
  - apply Nat.eqb_neq. destruct (num_used_pos (fst w)) as [i Hi]; [lia|].
    destruct HP as [(P1 & P2 & P3 & P4)|(P1 & P2)]; [lia|]. rewrite P2 in Hi by now apply us_lt. discriminate.
Qed.

(** validate *)
Lemma last_unique n u b j j' : b <= n -> last_before n u b j -> last_before n u b j' -> j = j'.
Proof.
  intros Hb [(P1 & P2 & P3 & P4)|(P1 & P2)] [(Q1 & Q2 & Q3 & Q4)|(Q1 & Q2)].
  - destruct (Nat.lt_trichotomy j j') as [G|[G|G]]; [rewrite P4 in Q3 by lia; discriminate|exact G|rewrite Q4 in P3 by lia; discriminate].
  - rewrite Q2 in P3 by lia. discriminate.
  - rewrite P2 in Q3 by lia. discriminate.
  - congruence.
Qed.
Lemma validate_loop_ok w st : Rel w st -> num_used (fst w) <> 1 -> forall d i last next,
  d + i = length (fst w) ->
  last_before (length (fst w)) (us (fst w)) i last -> first_from (length (fst w)) (us (fst w)) i next ->
  validate_loop st (skipn i (removelast st)) i last next = Ok tt.
Proof.
  intros R H1. induction d as [|d IH]; intros i la ne Hd HL HF.
  - rewrite skipn_all2; [reflexivity|]. rewrite removelast_firstn_len, firstn_length, (R_len _ _ R). simpl in Hd. lia.
  - assert (Hi : i < length (fst w)) by lia.
    assert (NR : nth_error (removelast st) i = nth_error st i).
    { rewrite removelast_firstn_len. rewrite (R_len _ _ R). cbn [pred]. clear -Hi. revert i Hi. generalize (length (fst w)).
      induction st; intros [|n] [|i] H; simpl in *; try lia; auto. apply IHst. lia. }
    destruct (us (fst w) i) eqn:Hu.
    + destruct (R_used _ _ R i Hu) as (p & s & E & HP & HS). rewrite E in NR. rewrite (skipn_cons_nth _ _ _ NR). cbn [validate_loop p_pred p_succ].
      assert (s <> i) by (destruct HS; lia). destruct (Nat.eqb_spec s i); [contradiction|]. cbn [andb].
      assert (T : two (fst w)).
      { apply num_used_2. destruct (num_used (fst w)) as [|[|m]] eqn:EN; [rewrite (num_used_0 _ i EN) in Hu; discriminate|lia|lia]. }
      destruct (active_two _ _ _ R T Hu) as (q & Eq & Aq). rewrite E in Eq. injection Eq as <-. rewrite Aq. cbn [assert_ bind].
      assert (ne = i). { destruct HF as (F1 & F2 & F3). destruct (Nat.eq_dec ne i); [assumption|]. rewrite F3 in Hu by lia. discriminate. }
      subst ne. rewrite Nat.eqb_refl. cbn [assert_ bind].
      rewrite (last_unique _ _ _ _ _ (Nat.lt_le_incl _ _ Hi) HP HL), Nat.eqb_refl. cbn [assert_ bind].
      assert (i <? s = true) as -> by (apply Nat.ltb_lt; destruct HS; lia). cbn [assert_ bind].
      apply IH; [lia| |exact HS]. left. repeat split; [lia|lia|exact Hu|intros; lia].
    + destruct (R_unused _ _ R i Hi Hu) as (b & E). rewrite E in NR. rewrite (skipn_cons_nth _ _ _ NR). cbn [validate_loop p_pred p_succ].
      rewrite !Nat.eqb_refl. cbn [andb]. unfold p_active; cbn [p_pred p_succ]; rewrite Nat.eqb_refl; cbn [negb assert_ bind].
      apply IH; [lia| |].
      * destruct HL as [(P1 & P2 & P3 & P4)|(P1 & P2)]; [left|right]; repeat split; auto; intros k Hk; (destruct (Nat.eq_dec k i); [now subst|]); [apply P4|apply P2]; lia.
      * destruct HF as (F1 & F2 & F3). assert (ne <> i) by (intros ->; rewrite F2 in Hu by lia; discriminate).
        split; [lia|]. split; [exact F2|]. intros k Hk. apply F3. lia.
Qed.
Lemma validate_ok pre w st : Inv pre w st -> num_used (fst w) <> 1 -> validate st = Ok true.
Proof.
  intros (R & _) H. unfold validate. rewrite (end_idx_R _ _ R), (R_len _ _ R).
  assert (length (fst w) + 1 =? S (length (fst w)) = true) as -> by (apply Nat.eqb_eq; lia). cbn [assert_ bind].
  destruct (R_end _ _ R) as (e & p & s & E & HP & HS). unfold get. rewrite E. cbn [bind p_succ].
  pose proof (validate_loop_ok w st R H (length (fst w)) 0 (length (fst w)) s) as V. cbn [skipn] in V. rewrite V; [reflexivity|lia| |exact HS].
  right. split; [reflexivity|]. intros; lia.
Qed.

Lemma validate_loop_single w st : Rel w st -> num_used (fst w) = 1 -> forall d i last next,
  d + i = length (fst w) -> (exists j, i <= j /\ us (fst w) j = true) ->
  validate_loop st (skipn i (removelast st)) i last next = UB.
Proof.
  intros R H1. destruct (num_used_1 _ H1) as (j & Hj & HU). pose proof (us_lt _ _ Hj) as Lj.
  induction d as [|d IH]; intros i la ne Hd (j' & Hij & Hj'); pose proof (HU _ Hj'); subst j'; [lia|].
  assert (Hi : i < length (fst w)) by lia.
  assert (NR : nth_error (removelast st) i = nth_error st i).
  { rewrite removelast_firstn_len. rewrite (R_len _ _ R). cbn [pred]. clear -Hi. revert i Hi. generalize (length (fst w)).
    induction st; intros [|n] [|i] H; simpl in *; try lia; auto. apply IHst. lia. }
  destruct (us (fst w) i) eqn:Hu.
  - pose proof (HU _ Hu). subst i. destruct (R_used _ _ R j Hu) as (p & s & E & HP & HS). rewrite E in NR. rewrite (skipn_cons_nth _ _ _ NR). cbn [validate_loop p_pred p_succ].
    assert (s = length (fst w)).
    { destruct HS as (S1 & S2 & S3). destruct (Nat.eq_dec s (length (fst w))); [assumption|]. specialize (HU s (S2 ltac:(lia))). lia. }
    assert (p = length (fst w)).
    { destruct HP as [(P1 & P2 & P3 & P4)|(P1 & P2)]; [|exact P1]. specialize (HU p P3). lia. }
    subst. destruct (Nat.eqb_spec (length (fst w)) j); [lia|]. cbn [andb]. unfold p_active. cbn [p_pred p_succ]. rewrite Nat.eqb_refl. reflexivity.
  - destruct (R_unused _ _ R i Hi Hu) as (b & E). rewrite E in NR. rewrite (skipn_cons_nth _ _ _ NR). cbn [validate_loop p_pred p_succ].
    rewrite !Nat.eqb_refl. cbn [andb]. unfold p_active; cbn [p_pred p_succ]; rewrite Nat.eqb_refl; cbn [negb assert_ bind].
    apply IH; [lia|]. exists j. split; [|exact Hj]. destruct (Nat.eq_dec i j); [congruence|lia].
Qed.
Lemma validate_single pre w st : Inv pre w st -> num_used (fst w) = 1 -> validate st = UB.
Proof.
  intros (R & _) H. unfold validate. rewrite (end_idx_R _ _ R), (R_len _ _ R).
  assert (length (fst w) + 1 =? S (length (fst w)) = true) as -> by (apply Nat.eqb_eq; lia). cbn [assert_ bind].
  destruct (R_end _ _ R) as (e & p & s & E & HP & HS). unfold get. rewrite E. cbn [bind p_succ].
  pose proof (validate_loop_single w st R H (length (fst w)) 0 (length (fst w)) s) as V. cbn [skipn] in V. rewrite V; [reflexivity|lia|].
  destruct (num_used_1 _ H) as (j & Hj & _). exists j. split; [lia|exact Hj].
Qed.
