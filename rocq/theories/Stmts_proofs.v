From Verif Require Import Base Base_lemmas Tags SyntaxTags SyntaxTags_proofs Token Stmts Stmts_spec.
Local Open Scope nat_scope.

Lemma segments_cons l : exists s ss, segments l = s :: ss.
Proof.
  destruct l as [|x r]; [exists [], []; reflexivity|].
  cbn [segments]. destruct (is_semi x); [eauto|].
  destruct (segments r); eauto.
Qed.

Lemma segments_length l : length (segments l) = S (semicolons l).
Proof.
  unfold semicolons. induction l as [|x r IH]; [reflexivity|].
  cbn [segments filter]. destruct (is_semi x); [cbn [length]; now rewrite IH|].
  destruct (segments_cons r) as (s & ss & E). rewrite E in *. cbn [length] in *. exact IH.
Qed.

(** the loop, for the suffix l at index i of the whole list *)
Lemma loop_spec l : forall all i sb,
  i + length l = length all ->
  (forall b, sb = Some b -> b < i) -> skipn i all = l ->
  let b := match sb with Some b => b | None => i end in
  let '(st, n) := init_stmts_loop l i sb in
  n = semicolons l /\
  exists s ss, segments l = s :: ss /\
    map (slice all) st =
      filter nonempty ((firstn (i - b) (skipn b all) ++ s) :: ss).
Proof.
  induction l as [|x r IH]; intros all i sb HL Hb Hs; cbv zeta.
  - cbn [init_stmts_loop segments]. cbn [length] in HL. destruct sb as [b|].
    + specialize (Hb b eq_refl). destruct (Nat.eqb_spec b i); [lia|].
      split; [reflexivity|]. exists [], []. split; [reflexivity|]. cbn [map filter]. rewrite app_nil_r.
      unfold slice. cbn [fst snd].
      destruct (firstn (i - b) (skipn b all)) eqn:E; [|reflexivity].
      exfalso. apply (f_equal (@length _)) in E. rewrite firstn_length, skipn_length in E. cbn in E. lia.
    + split; [reflexivity|]. exists [], []. split; [reflexivity|]. now rewrite Nat.sub_diag.
  - cbn [length] in HL.
    assert (Hr : skipn (S i) all = r).
    { change (S i) with (1 + i). rewrite Nat.add_comm, <- skipn_add, Hs. reflexivity. }
    assert (Hx : nth_error all i = Some x).
    { rewrite <- (firstn_skipn i all), nth_error_app2; rewrite firstn_length; [|lia].
      replace (i - Nat.min i (length all)) with 0 by lia. now rewrite Hs. }
    cbn [init_stmts_loop segments]. unfold semicolons. cbn [filter].
    set (b := match sb with Some b => b | None => i end).
    assert (b <= i) as BI. { unfold b. destruct sb; [specialize (Hb _ eq_refl)|]; lia. }
    destruct (is_semi x) eqn:SX.
    + specialize (IH all (S i) None). cbv zeta in IH.
      destruct (init_stmts_loop r (S i) None) as [st n]. destruct IH as (-> & s & ss & E & M); auto; try lia.
      { discriminate. }
      split; [reflexivity|]. exists [], (segments r). split; [reflexivity|]. rewrite app_nil_r.
      rewrite Nat.sub_diag in M. cbn [firstn app] in M. rewrite <- E in M. cbn [filter].
      destruct (Nat.eqb_spec b i) as [->|NE].
      * rewrite Nat.sub_diag. cbn [firstn nonempty is_empty negb]. exact M.
      * assert (nonempty (firstn (i - b) (skipn b all)) = true) as ->.
        { destruct (firstn (i - b) (skipn b all)) eqn:EE; [|reflexivity].
          apply (f_equal (@length _)) in EE. rewrite firstn_length, skipn_length in EE. cbn in EE. lia. }
        cbn [map]. now rewrite M.
    + specialize (IH all (S i) (Some b)). cbv zeta in IH.
      destruct (init_stmts_loop r (S i) (Some b)) as [st n].
      destruct IH as (-> & s & ss & E & M); auto; try lia.
      { intros b' [= <-]. lia. }
      split; [reflexivity|]. rewrite E. exists (x :: s), ss. split; [reflexivity|].
      rewrite M. do 2 f_equal. replace (S i - b) with ((i - b) + 1) by lia.
      rewrite firstn_add, <- app_assoc. f_equal.
      rewrite skipn_add. replace (b + (i - b)) with i by lia. rewrite Hs. reflexivity.
Qed.

Lemma loop_bounds l : forall all i sb,
  i + length l = length all -> skipn i all = l ->
  (forall b, sb = Some b -> b < i /\ (forall j x, b <= j < i -> nth_error all j = Some x -> is_semi x = false) /\
     (b = 0 \/ exists x, nth_error all (b - 1) = Some x /\ is_semi x = true)) ->
  (sb = None -> i = 0 \/ exists x, nth_error all (i - 1) = Some x /\ is_semi x = true) ->
  let '(st, n) := init_stmts_loop l i sb in
  Forall (fun r => fst r < snd r /\ snd r <= length all /\
    (forall j x, fst r <= j < snd r -> nth_error all j = Some x -> is_semi x = false) /\
    (fst r = 0 \/ exists x, nth_error all (fst r - 1) = Some x /\ is_semi x = true) /\
    (snd r = length all \/ exists x, nth_error all (snd r) = Some x /\ is_semi x = true)) st /\
  (forall k r, nth_error st k = Some r -> match sb with Some b => b | None => i end <= fst r /\
      forall r', nth_error st (S k) = Some r' -> snd r < fst r').
Proof.
  induction l as [|x r IH]; intros all i sb HL Hs Hb Hn.
  - cbn [init_stmts_loop]. cbn [length] in HL. destruct sb as [b|].
    + destruct (Hb b eq_refl) as (B1 & B2 & B3). destruct (Nat.eqb_spec b i); [lia|].
      split.
      * constructor; [|constructor]. cbn [fst snd]. conjs; auto; try lia. 
      * intros [|[|k]] r; cbn [nth_error]; try discriminate. intros [= <-]. cbn [fst].
        split; [lia|discriminate].
    + split; [constructor|]. intros [|k] r; discriminate.
  - cbn [length] in HL.
    assert (Hr : skipn (S i) all = r).
    { change (S i) with (1 + i). rewrite Nat.add_comm, <- skipn_add, Hs. reflexivity. }
    assert (Hx : nth_error all i = Some x).
    { rewrite <- (firstn_skipn i all), nth_error_app2; rewrite firstn_length; [|lia].
      replace (i - Nat.min i (length all)) with 0 by lia. now rewrite Hs. }
    cbn [init_stmts_loop].
    set (b := match sb with Some b => b | None => i end).
    assert (BB : b <= i /\ (forall j x, b <= j < i -> nth_error all j = Some x -> is_semi x = false) /\
     (b = 0 \/ exists x, nth_error all (b - 1) = Some x /\ is_semi x = true)).
    { unfold b. destruct sb as [b'|].
      - destruct (Hb b' eq_refl) as (B1 & B2 & B3). conjs; auto. lia.
      - conjs; auto; lia. }
    destruct BB as (B1 & B2 & B3).
    destruct (is_semi x) eqn:SX.
    + specialize (IH all (S i) None).
      destruct (init_stmts_loop r (S i) None) as [st n]. destruct IH as (F & G); auto; try lia.
      { discriminate. }
      { intros _. right. exists x. cbn [Nat.sub]. rewrite Nat.sub_0_r. auto. }
      cbn in G.
      destruct (Nat.eqb_spec b i) as [E|NE].
      * split; auto. intros k q Q. destruct (G k q Q) as [G1 G2]. split; [lia|auto].
      * split.
        -- constructor; auto. cbn [fst snd]. conjs; auto; try lia. right. eauto.
        -- intros [|k] q Q; cbn [nth_error] in Q.
           ++ injection Q as <-. cbn [fst snd]. split; [lia|]. intros q' Q'. cbn [nth_error] in Q'.
              destruct (G 0 q' Q') as [G1 _]. lia.
           ++ destruct (G k q Q) as [G1 G2]. split; [lia|]. intros q' Q'. apply G2. exact Q'.
    + specialize (IH all (S i) (Some b)).
      destruct (init_stmts_loop r (S i) (Some b)) as [st n].
      destruct IH as (F & G); auto; try lia.
      { intros b' [= <-]. conjs; auto; try lia. intros j y J Y.
        destruct (Nat.eq_dec j i) as [->|]; [congruence|]. apply (B2 j y); auto. lia. }
      { discriminate. }
Qed.

Lemma init_stmts_main l :
  let '(st, n) := init_stmts l in
  n = semicolons l /\ map (slice l) st = filter nonempty (segments l) /\
  Forall (fun r => fst r < snd r /\ snd r <= length l /\
    (forall j x, fst r <= j < snd r -> nth_error l j = Some x -> is_semi x = false) /\
    (fst r = 0 \/ exists x, nth_error l (fst r - 1) = Some x /\ is_semi x = true) /\
    (snd r = length l \/ exists x, nth_error l (snd r) = Some x /\ is_semi x = true)) st /\
  (forall k r r', nth_error st k = Some r -> nth_error st (S k) = Some r' -> snd r < fst r').
Proof.
  unfold init_stmts.
  pose proof (loop_spec l l 0 None) as A. pose proof (loop_bounds l l 0 None) as B. cbv zeta in A.
  destruct (init_stmts_loop l 0 None) as [st n].
  destruct A as (A1 & s & ss & A2 & A3); auto; try discriminate.
  destruct B as (B1 & B2); auto; try discriminate.
  conjs; auto.
  - rewrite A3, A2. reflexivity.
  - intros k r r' R R'. destruct (B2 k r R) as [_ X]. auto.
Qed.

Lemma filter_len_le {A} (p : A -> bool) l : length (filter p l) <= length l.
Proof. induction l as [|x l IH]; cbn; [lia|]. destruct (p x); cbn; lia. Qed.
Lemma filter_len_eq {A} (p : A -> bool) l : length (filter p l) = length l <-> Forall (fun x => p x = true) l.
Proof.
  induction l as [|x l IH]; cbn; [split; auto|].
  pose proof (filter_len_le p l) as LE. destruct (p x) eqn:E; cbn; split; intros H.
  - constructor; auto. apply IH. lia.
  - inversion H; subst. f_equal. apply IH; auto.
  - lia.
  - inversion H; congruence.
Qed.

Lemma in_nil_dec {A} (ss : list (list A)) : In [] ss \/ Forall (fun s => nonempty s = true) ss.
Proof.
  induction ss as [|s ss IH]; [right; constructor|].
  destruct IH as [I|F]; [left; now right|].
  destruct s; [left; now left|]. right. constructor; auto.
Qed.

Lemma has_empty_main l :
  let '(st, n) := init_stmts l in
  has_empty_statements st n = true <-> 0 < semicolons l /\ In [] (segments l).
Proof.
  pose proof (init_stmts_main l) as H. destruct (init_stmts l) as [st n].
  destruct H as (-> & M & _ & _).
  assert (LS : length st = length (filter nonempty (segments l))) by (rewrite <- M; now rewrite map_length).
  unfold has_empty_statements. rewrite andb_true_iff, Nat.ltb_lt, Nat.leb_le, LS.
  pose proof (segments_length l) as SL.
  pose proof (filter_len_eq nonempty (segments l)) as FE.
  pose proof (filter_len_le nonempty (segments l)) as FL.
  split; intros [H1 H2]; split; auto.
  - destruct (in_nil_dec (segments l)) as [|F]; auto. apply FE in F. lia.
  - assert (length (filter nonempty (segments l)) <> length (segments l)); [|lia].
    intros E. apply FE in E. rewrite Forall_forall in E. apply E in H2. discriminate.
Qed.

(** ** remove_empty_statements *)
Lemma sublist_refl {A} (l : list A) : sublist l l.
Proof. induction l; constructor; auto. Qed.
Lemma sublist_trans {A} (b c : list A) : sublist b c -> forall a, sublist a b -> sublist a c.
Proof.
  induction 1; intros a' S; auto.
  - inversion S; subst; constructor; auto.
  - constructor; auto.
Qed.
Lemma sublist_app {A} (a b c d : list A) : sublist a b -> sublist c d -> sublist (a ++ c) (b ++ d).
Proof. induction 1; intros; cbn; auto; constructor; auto. Qed.

Lemma segments_app_semi a x b : is_semi x = true ->
  segments (a ++ x :: b) = segments a ++ segments b.
Proof.
  intros S. induction a as [|y a IH]; cbn [app segments].
  - now rewrite S.
  - destruct (is_semi y); [now rewrite IH|]. rewrite IH.
    destruct (segments_cons a) as (s & ss & ->). reflexivity.
Qed.

Lemma drop_semis_split l : exists p, l = p ++ drop_semis l /\ Forall (fun x => is_semi x = true) p /\
  (drop_semis l = [] \/ exists x r, drop_semis l = x :: r /\ is_semi x = false).
Proof.
  induction l as [|x r IH]; [exists []; auto|]. cbn [drop_semis]. destruct (is_semi x) eqn:S.
  - destruct IH as (p & E & F & D). exists (x :: p). cbn. rewrite <- E. auto.
  - exists []. conjs; auto. right. eauto.
Qed.
Lemma drop_back_split l : exists p, l = drop_semis_back l ++ p /\ Forall (fun x => is_semi x = true) p /\
  (drop_semis_back l = [] \/ exists x r, drop_semis_back l = r ++ [x] /\ is_semi x = false).
Proof.
  unfold drop_semis_back. destruct (drop_semis_split (rev l)) as (p & E & F & D).
  exists (rev p). conjs.
  - rewrite <- rev_app_distr, <- E. now rewrite rev_involutive.
  - apply Forall_rev in F. exact F.
  - destruct D as [->|(x & r & -> & S)]; [now left|]. right. exists x, (rev r). auto.
Qed.

Lemma filter_app_ {A} (p : A -> bool) a b : filter p (a ++ b) = filter p a ++ filter p b.
Proof. induction a as [|x a IH]; cbn; auto. destruct (p x); cbn; now rewrite IH. Qed.

Lemma segs_semis p : Forall (fun x => is_semi x = true) p -> filter nonempty (segments p) = [].
Proof. induction 1 as [|x p S F IH]; cbn [segments]; auto. rewrite S. exact IH. Qed.
Lemma segs_front p l : Forall (fun x => is_semi x = true) p ->
  filter nonempty (segments (p ++ l)) = filter nonempty (segments l).
Proof. induction 1 as [|x p S F IH]; cbn [segments app]; auto. rewrite S. exact IH. Qed.
Lemma segs_back p l : Forall (fun x => is_semi x = true) p ->
  filter nonempty (segments (l ++ p)) = filter nonempty (segments l).
Proof.
  destruct 1 as [|x p S F]; [now rewrite app_nil_r|].
  rewrite (segments_app_semi l x p S), filter_app_, (segs_semis p F). apply app_nil_r.
Qed.

(** dropping each semicolon that follows a semicolon *)
Fixpoint dedup (prev : bool) (l : list Token) : list Token :=
  match l with
  | [] => []
  | x :: r => if prev && is_semi x then dedup true r else x :: dedup (is_semi x) r
  end.

Lemma clear_second_dedup l : Forall (fun x => is_semi x = true -> tk_text x <> []) l -> forall prev,
  let '(g, c) := clear_second prev l in
  filter (fun x => negb (is_semi x && is_empty (tk_text x))) g = dedup prev l /\
  (c = false -> g = l /\ dedup prev l = l) /\ (c = true -> length (dedup prev l) < length l).
Proof.
  induction 1 as [|x r P F IH]; intros prev; [cbn; conjs; auto; discriminate|].
  cbn [clear_second dedup]. specialize (IH (is_semi x)).
  destruct (clear_second (is_semi x) r) as [r' c]. destruct IH as (I1 & I2 & I3).
  assert (LEN : length (dedup (is_semi x) r) <= length r).
  { destruct c; [specialize (I3 eq_refl); lia|]. destruct (I2 eq_refl) as [_ ->]. lia. }
  destruct (prev && is_semi x) eqn:PS.
  - apply andb_prop in PS as [-> SX]. rewrite SX in *. cbn [filter]. unfold set_text at 1 2.
    unfold is_semi at 1. cbn [tok tk_text is_empty]. unfold is_semi in SX. rewrite SX. cbn [andb negb].
    conjs; auto; [discriminate|]. intros _. cbn [length]. lia.
  - cbn [filter]. assert (is_semi x && is_empty (tk_text x) = false) as ->.
    { destruct (is_semi x); auto. destruct (tk_text x); auto. exfalso. now apply P. }
    cbn [negb]. conjs.
    + now rewrite I1.
    + intros C. destruct (I2 C) as [-> E]. now rewrite E.
    + intros C. specialize (I3 C). cbn [length]. lia.
Qed.

Lemma dedup_sub l : forall prev, sublist (dedup prev l) l.
Proof.
  induction l as [|x r IH]; intros prev; cbn; [constructor|].
  destruct (prev && is_semi x); constructor; apply IH.
Qed.

Lemma dedup_segs l : forall prev,
  filter nonempty (segments (dedup prev l)) = filter nonempty (segments l).
Proof.
  assert (G : forall l prev, filter nonempty (segments (dedup prev l)) = filter nonempty (segments l) /\
     (prev = false -> hd [] (segments (dedup prev l)) = hd [] (segments l)) /\
     (match l with x :: _ => is_semi x = false | _ => True end -> hd [] (segments (dedup prev l)) = hd [] (segments l))).
  { clear. induction l as [|x r IH]; intros prev; [auto|]. cbn [dedup segments].
    destruct (is_semi x) eqn:S.
    - destruct prev; cbn [andb].
      + destruct (IH true) as (I1 & _ & _). cbn [filter nonempty is_empty negb].
        conjs; auto; discriminate.
      + cbn [segments]. rewrite S. destruct (IH true) as (I1 & _ & _).
        cbn [filter nonempty is_empty negb hd]. conjs; auto.
    - rewrite andb_false_r. cbn [segments]. rewrite S. destruct (IH false) as (I1 & I2 & _).
      destruct (segments_cons (dedup false r)) as (s & ss & E). destruct (segments_cons r) as (s' & ss' & E').
      rewrite E, E' in *. cbn [hd] in *. specialize (I2 eq_refl). subst s'.
      cbn [filter nonempty is_empty negb].
      assert (filter nonempty ss = filter nonempty ss') as ->.
      { cbn [filter] in I1. destruct (nonempty s); congruence. }
      auto. }
  intros prev. apply G.
Qed.

(** no two adjacent semicolons, and the ends *)
Lemma dedup_noempty l : forall prev,
  (exists x r, l = r ++ [x] /\ is_semi x = false) ->
  ~ In [] (tl (segments (dedup prev l))) /\
  ((prev = true \/ match l with x :: _ => is_semi x = false | [] => True end) -> ~ In [] (segments (dedup prev l))).
Proof.
  induction l as [|x r IH]; intros prev (z & q & E & Z).
  { destruct q; discriminate. }
  destruct q as [|y q].
  - injection E as -> ->. cbn [dedup]. rewrite Z, andb_false_r. cbn [dedup segments]. rewrite Z. cbn.
    split; [tauto|]. intros _ [H|[]]; discriminate.
  - cbn [app] in E. injection E as <- E. cbn [dedup]. destruct (is_semi x) eqn:S.
    + destruct (IH true) as [I1 I2]; [eauto|]. specialize (I2 (or_introl eq_refl)).
      destruct prev; cbn [andb].
      * split; auto.
      * cbn [segments]. rewrite S. cbn [tl]. split; auto. intros [H|H]; discriminate.
    + rewrite andb_false_r. destruct (IH false) as [I1 _]; [eauto|]. cbn [segments]. rewrite S.
      destruct (segments_cons (dedup false r)) as (s & ss & EE). rewrite EE in *. cbn [tl] in *.
      split; auto. intros _ [H|H]; [discriminate|auto].
Qed.

Lemma noempty_filter {A} (ss : list (list A)) : ~ In [] ss -> filter nonempty ss = ss.
Proof.
  induction ss as [|s ss IH]; auto. intros H. cbn. destruct s; [exfalso; apply H; now left|].
  cbn. rewrite IH; auto. intros I. apply H. now right.
Qed.

Lemma single_segment l x r : l = r ++ [x] -> is_semi x = false ->
  match l with y :: _ => is_semi y = false | [] => True end ->
  length (filter nonempty (segments l)) <= 1 -> Forall (fun x => is_semi x = false) l.
Proof.
  intros E S H LE.
  (* a semicolon would separate two non-empty segments *)
  destruct (existsb is_semi l) eqn:EX.
  2:{ apply Forall_forall. intros y Y. destruct (is_semi y) eqn:SY; auto.
      rewrite <- EX. symmetry. apply existsb_exists. eauto. }
  exfalso. apply existsb_exists in EX as (y & I & SY). apply in_split in I as (a & b & ->).
  rewrite segments_app_semi, filter_app_, app_length in LE by auto.
  assert (A : 1 <= length (filter nonempty (segments a))).
  { destruct a as [|z a]; [cbn in H; congruence|]. cbn [app] in H. cbn [segments]. rewrite H.
    destruct (segments_cons a) as (s & ss & ->). cbn. lia. }
  assert (B : 1 <= length (filter nonempty (segments b))).
  { assert (exists q, b = q ++ [x]) as (q & ->).
    { destruct b as [|w b] using rev_ind.
      - apply app_inj_tail in E as [_ ->]. congruence.
      - rewrite app_comm_cons, app_assoc in E. apply app_inj_tail in E as [_ ->]. eauto. }
    clear - S. induction q as [|z q IH]; cbn [app segments].
    - rewrite S. cbn. lia.
    - destruct (is_semi z); [exact IH|]. destruct (segments_cons (q ++ [x])) as (s & ss & ->). cbn. lia. }
  lia.
Qed.

Lemma no_semi_segments l : Forall (fun x => is_semi x = false) l -> segments l = [l].
Proof. induction 1 as [|x l S F IH]; cbn [segments]; auto. now rewrite S, IH. Qed.

Lemma sublist_len {A} (a b : list A) : sublist a b -> length a <= length b.
Proof. induction 1; cbn; lia. Qed.
Lemma sublist_len_eq {A} (a b : list A) : sublist a b -> length a = length b -> a = b.
Proof.
  induction 1; intros E; auto.
  - f_equal. apply IHsublist. cbn in E. lia.
  - apply sublist_len in H. cbn in E. lia.
Qed.
Lemma sublist_prefix {A} (a b : list A) : sublist a (a ++ b).
Proof. induction a; cbn; [|constructor; auto]. induction b; constructor; auto. Qed.
Lemma sublist_suffix {A} (a b : list A) : sublist b (a ++ b).
Proof. induction a; cbn; [apply sublist_refl|constructor; auto]. Qed.

Lemma remove_empty_main l :
  Forall (fun x => is_semi x = true -> tk_text x <> []) l ->
  exists r ch, remove_empty_frags l (length (fst (init_stmts l))) = Ok (r, ch) /\
    sublist r l /\ (ch = true <-> r <> l) /\
    match filter nonempty (segments l) with
    | [] => r = []
    | ss => segments r = ss
    end /\
    (let '(st, n) := init_stmts r in has_empty_statements st n = false).
Proof.
  intros P. unfold remove_empty_frags.
  assert (NS : length (fst (init_stmts l)) = length (filter nonempty (segments l))).
  { pose proof (init_stmts_main l) as H. destruct (init_stmts l) as [st n]. destruct H as (_ & M & _).
    cbn [fst]. rewrite <- M. now rewrite map_length. }
  rewrite NS. clear NS.
  destruct (drop_semis_split l) as (p & E1 & F1 & D1). set (f1 := drop_semis l) in *. clearbody f1.
  destruct (drop_back_split f1) as (q & E2 & F2 & D2). set (f2 := drop_semis_back f1) in *. clearbody f2.
  assert (SEG : filter nonempty (segments l) = filter nonempty (segments f2)).
  { rewrite E1, segs_front by auto. rewrite E2, segs_back; auto. }
  assert (SUB2 : sublist f2 l).
  { rewrite E1, E2. eapply sublist_trans; [apply sublist_suffix|apply sublist_prefix]. }
  assert (P2 : Forall (fun x => is_semi x = true -> tk_text x <> []) f2).
  { rewrite E1, E2 in P. apply Forall_app in P as [_ P]. now apply Forall_app in P as [P _]. }
  rewrite SEG. set (k := length (filter nonempty (segments f2))).
  (* f2 empty, or both ends non-semicolon *)
  assert (ENDS : f2 = [] \/ (exists x r, f2 = r ++ [x] /\ is_semi x = false) /\
      match f2 with y :: _ => is_semi y = false | [] => True end).
  { destruct D2 as [->|(x & r & E & S)]; [now left|]. right. split; [eauto|].
    destruct f2 as [|y f2']; auto. destruct D1 as [D1|(y' & r' & D1 & S')].
    - rewrite D1 in E2. discriminate.
    - rewrite D1 in E2. injection E2 as -> _. exact S'. }
  (* the result *)
  assert (RES : exists r ch0,
     (if 1 <? k then
        let '(g, ie) := clear_second false f2 in
        if ie then (filter (fun x => negb (is_semi x && is_empty (tk_text x))) g, true) else (g, negb (length f1 =? length l))
      else (f2, negb (length f1 =? length l))) = (r, ch0) /\
     r = dedup false f2 /\ (ch0 = true <-> (length f1 <> length l \/ length r <> length f2))).
  { destruct (Nat.ltb_spec 1 k) as [K|K].
    - pose proof (clear_second_dedup f2 P2 false) as C. destruct (clear_second false f2) as [g ie].
      destruct C as (C1 & C2 & C3). destruct ie.
      + do 2 eexists. split; [reflexivity|]. rewrite C1. split; auto. split; auto. intros _. right.
        specialize (C3 eq_refl). lia.
      + destruct (C2 eq_refl) as [-> EQ]. do 2 eexists. split; [reflexivity|]. split; auto.
        rewrite negb_true_iff, Nat.eqb_neq. split; [auto|]. intros [|]; auto; congruence.
    - assert (DD : dedup false f2 = f2).
      { destruct ENDS as [->|[(x & r & E & S) HD]]; [reflexivity|].
        pose proof (single_segment _ _ _ E S HD K) as NS. clear - NS.
        induction NS as [|y f S F IH]; [reflexivity|]. cbn [dedup]. rewrite S, andb_false_r. now rewrite IH. }
      do 2 eexists. split; [reflexivity|]. split; auto. rewrite negb_true_iff, Nat.eqb_neq. split; [auto|].
      intros [|]; auto; congruence. }
  destruct RES as (r & ch0 & -> & -> & CH).
  assert (SUBR : sublist (dedup false f2) l) by (eapply sublist_trans; [exact SUB2|apply dedup_sub]).
  assert (AS : negb (negb (length f2 =? length f1)) || (0 <? k) = true).
  { destruct (Nat.eqb_spec (length f2) (length f1)) as [|NE]; [reflexivity|]. cbn [negb orb].
    apply Nat.ltb_lt. unfold k. destruct ENDS as [->|[(x & r & E & S) HD]].
    - exfalso. apply NE. cbn [app] in E2. destruct D1 as [->|(y & r' & D & S)]; [reflexivity|].
      rewrite D in E2. subst q. inversion F2. congruence.
    - destruct f2 as [|y f2']; [destruct r; discriminate|]. cbn [segments]. rewrite HD.
      destruct (segments_cons f2') as (s & ss & ->). cbn. lia. }
  rewrite AS. cbn [assert_ bind]. exists (dedup false f2). eexists. split; [reflexivity|].
  assert (SEGR : match filter nonempty (segments f2) with [] => dedup false f2 = [] | ss => segments (dedup false f2) = ss end).
  { destruct ENDS as [->|[EE HD]]; [reflexivity|].
    destruct (dedup_noempty f2 false EE) as [_ N]. specialize (N (or_intror HD)).
    rewrite <- (dedup_segs f2 false), (noempty_filter _ N).
    destruct (segments_cons (dedup false f2)) as (s & ss & ->). reflexivity. }
  conjs; auto.
  - rewrite orb_true_iff, CH, negb_true_iff, Nat.eqb_neq.
    pose proof (sublist_len _ _ (dedup_sub f2 false)) as L1.
    assert (length f2 <= length f1) as L2 by (rewrite E2, app_length; lia).
    assert (length f1 <= length l) as L3 by (rewrite E1, app_length; lia).
    split.
    + intros H EQ. rewrite EQ in *. lia.
    + intros NE. destruct (Nat.eq_dec (length (dedup false f2)) (length l)) as [EQ|]; [|lia].
      exfalso. apply NE. now apply sublist_len_eq.
  - pose proof (has_empty_main (dedup false f2)) as HE. destruct (init_stmts (dedup false f2)) as [st n].
    destruct (has_empty_statements st n) eqn:H; auto. exfalso. destruct HE as [HE _]. destruct (HE eq_refl) as [H1 H2].
    destruct (filter nonempty (segments f2)) as [|s ss] eqn:FS.
    + rewrite SEGR in H1. cbn in H1. lia.
    + rewrite SEGR, <- FS in H2. apply filter_In in H2 as [_ H2]. discriminate.
Qed.

(** ** unkeyword, render, the lower-case cache *)
Lemma unkeyword_main reg l : forall n l', unkeyword reg l n = Ok l' ->
  length l' = length l /\
  forall i x, nth_error l i = Some x ->
    exists x', nth_error l' i = Some x' /\
      if ((n <? 0)%Z || (Z.of_nat i <? n)%Z)
      then exists k, is_keyword reg (tok x) = Ok k /\ x' = (if k then set_tok x TK_NAME else x)
      else x' = x.
Proof.
  induction l as [|x r IH]; intros n l'; cbn [unkeyword].
  - intros [= <-]. split; auto. intros [|i]; discriminate.
  - destruct (Z.eqb_spec n 0) as [->|NZ].
    + intros [= <-]. split; auto. intros i y Y. exists y. split; auto.
      destruct (Z.ltb_spec 0 0); [lia|]. destruct (Z.ltb_spec (Z.of_nat i) 0); [lia|]. reflexivity.
    + intros H. apply bind_Ok in H as (k & K & H). apply bind_Ok in H as (r' & R & H). injection H as <-.
      apply IH in R as [L I]. split; [cbn; lia|]. intros [|i] y Y.
      * cbn [nth_error] in *. injection Y as <-. eexists. split; [reflexivity|].
        destruct (Z.ltb_spec n 0); cbn [orb]; [eauto|]. destruct (Z.ltb_spec (Z.of_nat 0) n); [eauto|lia].
      * cbn [nth_error] in *. destruct (I i y Y) as (y' & Y' & C). exists y'. split; auto.
        replace ((n <? 0)%Z || (Z.of_nat (S i) <? n)%Z) with ((n - 1 <? 0)%Z || (Z.of_nat i <? n - 1)%Z); auto.
        destruct (Z.ltb_spec (n - 1) 0), (Z.ltb_spec n 0), (Z.ltb_spec (Z.of_nat i) (n - 1)), (Z.ltb_spec (Z.of_nat (S i)) n); cbn; auto; lia.
Qed.

Lemma tag_type_defined reg t : (0 <= t)%Z -> exists ty, tag_type reg t = Ok ty.
Proof.
  intros H. destruct (Z.lt_ge_cases t CLIENT_EXTENSION) as [LT|GE].
  - destruct (builtin_lookup reg t LT) as [_ ->]. destruct (builtin_defined t (conj H LT)) as (s & ty & ->). cbn. eauto.
  - destruct (tag_lookup reg t GE) as [_ ->]. eauto.
Qed.
Lemma unkeyword_total reg l n :
  Forall (fun x => (0 <= tok x)%Z) l -> exists l', unkeyword reg l n = Ok l'.
Proof.
  intros F. revert n. induction F as [|x r H F IH]; intros n; cbn [unkeyword]; eauto.
  destruct (n =? 0)%Z; eauto. unfold is_keyword. destruct (tag_type_defined reg (tok x) H) as (ty & ->).
  cbn [bind]. destruct (IH (n - 1)%Z) as (r' & ->). cbn. eauto.
Qed.

Lemma render_main l : forall s, render l = Ok s ->
  exists gaps, length gaps = length l - 1 /\ s = interleave (map tk_text l) gaps /\
    forall i x y, nth_error l i = Some x -> nth_error l (S i) = Some y ->
      exists a b, tk_post x = Some a /\ tk_pre y = Some b /\ 
        nth_error gaps i = Some (Z.to_nat (Z.max a b)).
Proof.
  induction l as [|x r IH]; intros s H.
  - injection H as <-. exists []. conjs; auto. intros [|i]; discriminate.
  - destruct r as [|y r].
    + injection H as <-. exists []. conjs; auto. intros [|i] ? ? _ E; [discriminate|]. destruct i; discriminate.
    + cbn [render] in H. apply bind_Ok in H as (a & A & H). apply bind_Ok in H as (b & B & H).
      apply bind_Ok in H as (s' & S & H). injection H as <-.
      destruct (IH s' S) as (gaps & G1 & G2 & G3).
      exists (Z.to_nat (Z.max a b) :: gaps). conjs.
      * cbn [length] in *. lia.
      * cbn [map interleave]. now rewrite G2.
      * unfold rd in A, B. destruct (tk_post x) eqn:EX; [|discriminate]. destruct (tk_pre y) eqn:EY; [|discriminate].
        injection A as ->. injection B as ->.
        intros [|i] u v U V.
        -- cbn in U, V. injection U as <-. injection V as <-. eauto.
        -- cbn [nth_error] in U, V |- *. apply G3; auto.
Qed.
Lemma render_total l :
  Forall (fun x => tk_pre x <> None /\ tk_post x <> None) l -> exists s, render l = Ok s.
Proof.
  induction 1 as [|x r [H1 H2] F IH]; [cbn; eauto|]. destruct IH as (s & E).
  destruct r as [|y r]; [cbn; eauto|]. inversion F as [|? ? [F1 F2] F3]; subst.
  cbn [render]. cbn [render] in E. rewrite E.
  destruct (tk_post x); [|congruence]. destruct (tk_pre y); [|congruence]. cbn. eauto.
Qed.

Definition coherent (c : Cached) : Prop := c_lower c = [] \/ c_lower c = map lower_b (c_text c).
Lemma cache_main h : forall s,
  let c := cache_run (cached_new s) h in
  c_text c = last_text s h /\ snd (lower_read c) = map lower_b (last_text s h).
Proof.
  assert (G : forall h c, coherent c ->
     coherent (cache_run c h) /\ c_text (cache_run c h) = last_text (c_text c) h).
  { clear. induction h as [|o h IH]; intros c C; [auto|].
    unfold cache_run, last_text in *. cbn [fold_left].
    destruct o as [|s]; cbn [cache_step].
    - unfold lower_read. destruct (is_empty (c_lower c)).
      + cbn [fst]. destruct (IH (mkCached (c_text c) (map lower_b (c_text c)))) as [I1 I2].
        * right. reflexivity.
        * split; auto.
      + cbn [fst]. apply IH; auto.
    - destruct (IH (write_ref (mod_text c) s)) as [I1 I2].
      + left. reflexivity.
      + split; auto. }
  intros s c. destruct (G h (cached_new s)) as [C T]; [left; reflexivity|]. fold c in C, T.
  change (c_text (cached_new s)) with s in T. split; auto. rewrite <- T. unfold lower_read. destruct (c_lower c) eqn:E; cbn [is_empty snd]; auto.
  destruct C as [C|C]; rewrite E in C; [discriminate|exact C].
Qed.
