From Verif Require Import Base Base_lemmas Token Stmts Stmts_spec Stmts_proofs SafeList SafeList_spec SafeList_proofs LineCopy LineCopy_spec.
Local Open Scope nat_scope.

Notation nd := (nat * Token)%type.
Definition ne (x : list nd * nat) : bool := nonempty (fst x).
Definition mk (x : list nd * nat) : Range := mkRange (hd (snd x) (map fst (fst x))) (length (fst x)) (snd x) false.
Definition attach (cur : list nd) (bs : list (list nd * nat)) : list (list nd * nat) :=
  match bs with (b, e) :: q => (cur ++ b, e) :: q | [] => [] end.

Lemma pieces_cons l e : exists b j q, pieces l e = (b, j) :: q.
Proof.
  induction l as [|[i x] l IH]; cbn [pieces]; eauto. destruct (is_semi x); eauto. destruct IH as (b & j & q & ->). eauto.
Qed.
Lemma attach_nil bs : attach [] bs = bs.
Proof. destruct bs as [|[]]; reflexivity. Qed.
Lemma attach_app cur i x l e : is_semi x = false -> attach (cur ++ [(i, x)]) (pieces l e) = attach cur (pieces ((i, x) :: l) e).
Proof. intros N. cbn [pieces]. rewrite N. destruct (pieces_cons l e) as (b & j & q & ->). cbn [attach]. now rewrite <- app_assoc. Qed.

Lemma pos_mid (a b : list nd) i v : NoDup (map fst (a ++ (i, v) :: b)) -> pos_of (a ++ (i, v) :: b) i = Some (length a).
Proof. apply pos_of_nodup. Qed.

Lemma make_block (s : @SL Token) pre blk e v post : NoDup (map fst (nodes s)) -> nodes s = pre ++ blk ++ (e, v) :: post ->
  range_make s (hd e (map fst blk)) e = Ok (mk (blk, e)).
Proof.
  intros N E. rewrite E in N. unfold range_make, distance, mk. rewrite E. cbn [fst snd].
  assert (PE : pos_of (pre ++ blk ++ (e, v) :: post) e = Some (length pre + length blk)).
  { rewrite app_assoc in *. rewrite pos_mid by exact N. now rewrite app_length. }
  rewrite PE. destruct blk as [|[i w] blk].
  - cbn [map hd app] in *. rewrite PE. cbn [length]. rewrite Nat.leb_refl. cbn [bind]. do 2 f_equal. cbn [length]. lia.
  - cbn [map hd fst] in *. cbn [app] in N |- *. rewrite pos_mid by exact N. replace (length pre <=? length pre + length ((i, w) :: blk)) with true by (symmetry; apply Nat.leb_le; lia). cbn [bind]. do 2 f_equal. lia.
Qed.

Lemma mk_good (s : @SL Token) pre blk e v post : nodes s = pre ++ blk ++ (e, v) :: post -> good s (mk (blk, e)) blk.
Proof.
  intros E. unfold good, mk. cbn [r_bad r_size r_begin r_end fst snd]. conjs; auto. exists pre, post, e, v. conjs; auto.
  destruct blk as [|[i w] blk]; reflexivity.
Qed.

Lemma pieces_in (l : list nd) e : forall b j, In (b, j) (pieces l e) -> exists pre post, (l = pre ++ b /\ j = e) \/ (exists x, l = pre ++ b ++ (j, x) :: post).
Proof.
  induction l as [|[i x] l IH]; intros b j; cbn [pieces].
  - intros [[= <- <-]|[]]. exists [], []. left. auto.
  - destruct (is_semi x).
    + intros [[= <- <-]|I]. { exists [], l. right. exists x. reflexivity. }
      apply IH in I as (pre & post & [(-> & ->)|(y & ->)]); exists ((i, x) :: pre), post; [left; auto|right; exists y; reflexivity].
    + destruct (pieces_cons l e) as (b1 & j1 & q & EQ). rewrite EQ in *. intros [[= <- <-]|I].
      * assert (HH : exists post, (l = b1 /\ j1 = e) \/ (exists y, l = b1 ++ (j1, y) :: post)).
        { clear IH. revert b1 j1 q EQ. induction l as [|[i2 x2] l IH2]; intros b1 j1 q; cbn [pieces].
          - intros [= <- <- <-]. exists []. left. auto.
          - destruct (is_semi x2). { intros [= <- <- <-]. exists l. right. exists x2. reflexivity. }
            destruct (pieces_cons l e) as (b2 & j2 & q2 & EQ2). rewrite EQ2. intros [= <- <- <-].
            destruct (IH2 _ _ _ EQ2) as (post & [(-> & ->)|(y & ->)]); exists post; [left; auto|right; exists y; reflexivity]. }
        destruct HH as (post & [(-> & ->)|(y & ->)]); exists [], post; [left; auto|right; exists y; reflexivity].
      * destruct (IH b j (or_intror I)) as (pre & post & [(-> & ->)|(y & ->)]); exists ((i, x) :: pre), post; [left; auto|right; exists y; reflexivity].
Qed.

Section P.
Variable d : Token.
Notation R := (R d).

Lemma piece_at s p b j : R s p -> In (b, j) (pieces (elems p) (p_end p)) -> exists pre v post, nodes s = pre ++ b ++ (j, v) :: post.
Proof using.
  intros H I. apply pieces_in in I as (pre & post & [(E & ->)|(y & E)]); rewrite (R_nodes _ _ _ H), E.
  - exists pre, d, []. now rewrite <- app_assoc.
  - exists pre, y, (post ++ [(p_end p, d)]). now rewrite <- !app_assoc.
Qed.

Lemma it_loop_ok s p : R s p -> forall rest pre cur, elems p = pre ++ cur ++ rest ->
  it_loop s (rest ++ [(p_end p, d)]) (match cur with [] => None | (b, _) :: _ => Some b end)
  = Ok (map mk (filter ne (attach cur (pieces rest (p_end p)))), length (filter is_semi (map snd rest))).
Proof using.
  intros H. pose proof (R_nodes _ _ _ H) as N. pose proof (R_ids _ _ _ H) as ND.
  induction rest as [|[i x] rest IH]; intros pre cur E.
  - cbn [app it_loop map filter length pieces attach]. rewrite (R_end _ _ _ H), Nat.eqb_refl. rewrite !app_nil_r in *.
    destruct cur as [|[b w] cur]; [reflexivity|]. rewrite E, <- app_assoc in N.
    assert (b <> p_end p) as NB. { intros ->. rewrite N in ND. cbn [app] in ND. rewrite map_app in ND. cbn [map fst] in ND. apply NoDup_remove_2 in ND. apply ND. apply in_or_app. right. rewrite map_app. apply in_or_app. right. left. reflexivity. }
    apply Nat.eqb_neq in NB. rewrite NB. pose proof (make_block _ _ _ _ _ _ ND N) as M. cbn [map hd fst] in M. rewrite M. reflexivity.
  - cbn [app it_loop]. assert (i <> my_end s) as NI.
    { rewrite (R_end _ _ _ H). intros ->. rewrite N, E, !map_app in ND. cbn [map fst] in ND. rewrite <- !app_assoc in ND. rewrite app_assoc in ND. cbn [app] in ND. apply NoDup_remove_2 in ND. apply ND. apply in_or_app. right. apply in_or_app. right. left. reflexivity. }
    apply Nat.eqb_neq in NI. rewrite NI. destruct (is_semi x) eqn:SX.
    + cbn [map snd filter pieces]. rewrite SX. cbn [length]. assert (E2 : elems p = (pre ++ cur ++ [(i, x)]) ++ [] ++ rest) by (rewrite E; cbn [app]; now rewrite <- !app_assoc).
      pose proof (IH _ [] E2) as L. cbn in L. rewrite L. cbn [attach filter]. rewrite attach_nil.
      destruct cur as [|[b w] cur].
      * rewrite Nat.eqb_refl. reflexivity.
      * assert (N2 : nodes s = pre ++ ((b, w) :: cur) ++ (i, x) :: rest ++ [(p_end p, d)]) by (rewrite N, E, <- !app_assoc; reflexivity).
        assert (b <> i) as NB. { intros ->. rewrite N2 in ND. cbn [app] in ND. rewrite map_app in ND. cbn [map fst] in ND. apply NoDup_remove_2 in ND. apply ND. apply in_or_app. right. rewrite map_app. apply in_or_app. right. left. reflexivity. }
        apply Nat.eqb_neq in NB. rewrite NB. pose proof (make_block _ _ _ _ _ _ ND N2) as M. cbn [map hd fst] in M. rewrite M. rewrite app_nil_r. reflexivity.
    + assert (E2 : elems p = pre ++ (cur ++ [(i, x)]) ++ rest) by (rewrite E, <- !app_assoc; reflexivity).
      pose proof (IH _ _ E2) as L. rewrite attach_app in L by exact SX. cbn [map snd filter]. rewrite SX. rewrite <- L. destruct cur as [|[b w] cur]; reflexivity.
Qed.

Lemma it_init_ok s p : R s p -> it_init s = Ok (map mk (statements p), semicolons (map snd (elems p))).
Proof using.
  intros H. unfold it_init. rewrite (R_nodes _ _ _ H). pose proof (it_loop_ok _ _ H (elems p) [] [] eq_refl) as L. cbn in L. rewrite L. now rewrite attach_nil.
Qed.

Lemma statements_spans s p : R s p -> spans s (map mk (statements p)) (statements p).
Proof using.
  intros H. unfold spans, statements.
  assert (G : forall l, (forall b j, In (b, j) l -> In (b, j) (pieces (elems p) (p_end p))) -> Forall2 (fun r b => good s r (fst b) /\ r_end r = snd b) (map mk l) l).
  { induction l as [|[b j] l IH]; intros I; [constructor|]. constructor; [|apply IH; intros; apply I; right; auto].
    destruct (piece_at _ _ b j H (I _ _ (or_introl eq_refl))) as (pre & v & post & E). split; [eapply mk_good; exact E|reflexivity]. }
  apply G. intros b j I. apply filter_In in I. apply I.
Qed.

(** ** Copies *)
Definition hh (s : @SL Token) (fr i : nat) : nat := match pos_of (nodes s) i with Some p => fr + p | None => 0 end.
Definition hn (s : @SL Token) (fr : nat) (n : nd) : nd := (hh s fr (fst n), snd n).

Lemma pieces_map (h : nat -> nat) l e : pieces (map (fun n : nd => (h (fst n), snd n)) l) (h e) = map (fun b => (map (fun n : nd => (h (fst n), snd n)) (fst b), h (snd b))) (pieces l e).
Proof using.
  induction l as [|[i x] l IH]; [reflexivity|]. cbn [map pieces fst snd]. rewrite IH. destruct (is_semi x); [reflexivity|].
  destruct (pieces_cons l e) as (b & j & q & ->). reflexivity.
Qed.

Lemma renumber_map (s : @SL Token) fr : NoDup (map fst (nodes s)) -> forall a b, nodes s = a ++ b -> renumber b (fr + length a) = map (hn s fr) b.
Proof using.
  intros ND a b. revert a. induction b as [|[i v] b IH]; intros a E; [reflexivity|]. cbn [renumber map]. f_equal.
  - unfold hn, hh. cbn [fst snd]. rewrite E in ND |- *. now rewrite pos_mid.
  - specialize (IH (a ++ [(i, v)])). rewrite app_length in IH. cbn [length] in IH. rewrite <- IH; [f_equal; lia|]. now rewrite <- app_assoc.
Qed.

Lemma copy_next (s : @SL Token) fr n i v : NoDup (map fst (nodes s)) -> nth_error (nodes s) n = Some (i, v) -> next_n (sl_copy s fr) fr n = Ok (fr + n).
Proof using.
  intros ND E. unfold next_n, sl_copy. cbn [nodes]. destruct (nodes s) as [|[j w] ns] eqn:NS; [destruct n; discriminate|].
  cbn [renumber pos_of]. rewrite Nat.eqb_refl. cbn [Nat.add].
  assert (G : forall l k m y, nth_error l m = Some y -> exists z : Token, nth_error (renumber l k) m = Some (k + m, z)).
  { clear. induction l as [|[a b] l IH]; intros k [|m] y; cbn [nth_error renumber]; try discriminate.
    - intros _. exists b. now rewrite Nat.add_0_r.
    - intros X. destruct (IH (S k) m y X) as (z & ->). exists z. do 2 f_equal. lia. }
  destruct (G ((j, w) :: ns) fr n (i, v) E) as (z & Z). cbn [renumber] in Z. rewrite Z. reflexivity.
Qed.

Lemma begin_first (s : @SL Token) b : sl_begin s = Ok b -> pos_of (nodes s) b = Some 0.
Proof using. unfold sl_begin. destruct (nodes s) as [|[i v] ns]; [discriminate|]. intros [= <-]. cbn. now rewrite Nat.eqb_refl. Qed.

Lemma copy_nodes (s : @SL Token) fr : NoDup (map fst (nodes s)) -> nodes (sl_copy s fr) = map (hn s fr) (nodes s).
Proof using. intros ND. unfold sl_copy. cbn [nodes]. rewrite <- (renumber_map s fr ND [] (nodes s) eq_refl). cbn [length]. now rewrite Nat.add_0_r. Qed.
Lemma copy_ids (s : @SL Token) fr : NoDup (map fst (nodes (sl_copy s fr))).
Proof using. unfold sl_copy. cbn [nodes]. rewrite (proj2 (renumber_vals _ _)). apply seq_NoDup. Qed.

Lemma rebase_ok (s : @SL Token) fr b0 r blk : NoDup (map fst (nodes s)) -> sl_begin s = Ok b0 -> good s r blk ->
  rebase s b0 r (sl_copy s fr) fr = Ok (mk (map (hn s fr) blk, hh s fr (r_end r))) /\
  good (sl_copy s fr) (mk (map (hn s fr) blk, hh s fr (r_end r))) (map (hn s fr) blk).
Proof using.
  intros ND B (_ & _ & pre & post & e & v & N & E & HD). apply begin_first in B. subst e.
  assert (C : nodes (sl_copy s fr) = map (hn s fr) pre ++ map (hn s fr) blk ++ (hh s fr (r_end r), v) :: map (hn s fr) post).
  { rewrite (copy_nodes s fr ND), N, !map_app. reflexivity. }
  split; [|eapply mk_good; exact C]. unfold rebase, distance. rewrite B.
  assert (PE : pos_of (nodes s) (r_end r) = Some (length (pre ++ blk))).
  { rewrite N, app_assoc in *. now apply pos_mid. }
  assert (PB : pos_of (nodes s) (r_begin r) = Some (length pre)).
  { destruct blk as [|[i w] blk]; cbn in HD; injection HD as HD.
    - rewrite <- HD, PE. now rewrite app_nil_r.
    - rewrite <- HD. rewrite N in ND |- *. cbn [app] in ND |- *. now apply pos_mid. }
  rewrite PB, PE. cbn [Nat.leb bind]. rewrite !Nat.sub_0_r.
  assert (X1 : exists y, nth_error (nodes s) (length pre) = Some y).
  { rewrite N, nth_error_app2 by lia. rewrite Nat.sub_diag. destruct blk; cbn; eauto. }
  assert (X2 : nth_error (nodes s) (length (pre ++ blk)) = Some (r_end r, v)).
  { rewrite N, app_assoc, nth_error_app2 by lia. rewrite Nat.sub_diag. reflexivity. }
  destruct X1 as ([y1 y2] & X1). rewrite (copy_next _ fr _ _ _ ND X1), (copy_next _ fr _ _ _ ND X2). cbn [bind].
  replace (fr + length (pre ++ blk)) with (hh s fr (r_end r)) by (unfold hh; now rewrite PE).
  replace (fr + length pre) with (hd (hh s fr (r_end r)) (map fst (map (hn s fr) blk))).
  - eapply make_block; [apply copy_ids|exact C].
  - destruct blk as [|[i w] blk]; cbn [map hd fst hn]; unfold hh.
    + rewrite PE. now rewrite app_nil_r.
    + cbn in HD. injection HD as HD. rewrite HD. now rewrite PB.
Qed.

Lemma rebase_self_ok (s : @SL Token) b0 r blk : NoDup (map fst (nodes s)) -> sl_begin s = Ok b0 -> good s r blk -> rebase s b0 r s b0 = Ok r.
Proof using.
  intros ND B G. pose proof G as (B0 & S0 & pre & post & e & v & N & E & HD). apply begin_first in B. subst e.
  unfold rebase, distance. rewrite B.
  assert (PE : pos_of (nodes s) (r_end r) = Some (length (pre ++ blk))).
  { rewrite N, app_assoc in *. now apply pos_mid. }
  assert (HB : r_begin r = hd (r_end r) (map fst blk)) by (destruct blk as [|[i w] blk]; cbn in HD; injection HD as HD; now rewrite <- HD).
  assert (PB : pos_of (nodes s) (r_begin r) = Some (length pre)).
  { rewrite HB. destruct blk as [|[i w] blk]; cbn [map hd fst].
    - rewrite PE. now rewrite app_nil_r.
    - rewrite N in ND |- *. cbn [app] in ND |- *. now apply pos_mid. }
  rewrite PB, PE. cbn [Nat.leb bind]. rewrite !Nat.sub_0_r. unfold next_n. rewrite B. cbn [Nat.add].
  assert (X2 : nth_error (nodes s) (length (pre ++ blk)) = Some (r_end r, v)).
  { rewrite N, app_assoc, nth_error_app2 by lia. rewrite Nat.sub_diag. reflexivity. }
  assert (X1 : exists y, nth_error (nodes s) (length pre) = Some (r_begin r, y)).
  { rewrite HB, N, nth_error_app2 by lia. rewrite Nat.sub_diag. destruct blk as [|[i w] blk]; cbn; eauto. }
  destruct X1 as (y & X1). rewrite X1, X2. cbn [bind]. rewrite HB. rewrite (make_block _ _ _ _ _ _ ND N). unfold mk. cbn [fst snd].
  destruct r as [rb rs re rd]. cbn [r_bad r_size r_begin r_end] in *. now subst.
Qed.

Lemma rebase_all_ok (s : @SL Token) fr b0 : NoDup (map fst (nodes s)) -> sl_begin s = Ok b0 -> forall rs bs, spans s rs bs ->
  let cs := map (fun b => (map (hn s fr) (fst b), hh s fr (snd b))) bs in
  rebase_all s b0 rs (sl_copy s fr) fr = Ok (map mk cs) /\ spans (sl_copy s fr) (map mk cs) cs.
Proof using.
  intros ND B rs bs H. induction H as [|r b rs bs (G & E) _ (IH1 & IH2)]; cbn [rebase_all map]; [split; [reflexivity|constructor]|].
  destruct (rebase_ok s fr b0 r (fst b) ND B G) as (A1 & A2). rewrite <- E. rewrite A1. cbn [bind]. cbv zeta in IH1. rewrite IH1. cbn [bind].
  split; [reflexivity|]. constructor; [|exact IH2]. cbn [fst snd]. split; [exact A2|reflexivity].
Qed.
Lemma rebase_all_self (s : @SL Token) b0 : NoDup (map fst (nodes s)) -> sl_begin s = Ok b0 -> forall rs bs, spans s rs bs -> rebase_all s b0 rs s b0 = Ok rs.
Proof using.
  intros ND B rs bs H. induction H as [|r b rs bs (G & E) _ IH]; cbn [rebase_all]; [reflexivity|]. rewrite (rebase_self_ok s b0 r _ ND B G), IH. reflexivity.
Qed.

Lemma contents_map (s : @SL Token) fr bs : contents (map (fun b => (map (hn s fr) (fst b), hh s fr (snd b))) bs) = contents bs.
Proof using.
  unfold contents. rewrite map_map. apply map_ext. intros [b j]. cbn [fst]. rewrite map_map. reflexivity.
Qed.

Lemma begin_R s p : R s p -> exists b, sl_begin s = Ok b.
Proof using. intros H. unfold sl_begin. rewrite (R_nodes _ _ _ H). destruct (elems p) as [|[i v] l]; cbn; eauto. Qed.
Lemma copy_begin s p fr : R s p -> sl_begin (sl_copy s fr) = Ok fr.
Proof using. intros H. unfold sl_begin, sl_copy. cbn [nodes]. rewrite (R_nodes _ _ _ H). destruct (elems p) as [|[i v] l]; reflexivity. Qed.

Lemma li_copy_ok {D} (l : LineIt D) p bs fr : R (li_frags l) p -> spans (li_frags l) (li_stmts l) bs ->
  exists c cs, li_copy l fr = Ok c /\ li_data c = li_data l /\ li_nsemi c = li_nsemi l /\
    li_frags c = sl_copy (li_frags l) fr /\ spans (li_frags c) (li_stmts c) cs /\ contents cs = contents bs /\
    cs = map (fun b => (map (hn (li_frags l) fr) (fst b), hh (li_frags l) fr (snd b))) bs /\ li_stmts c = map mk cs.
Proof using.
  intros H S. unfold li_copy. destruct (begin_R _ _ H) as (b0 & B).
  assert (is_empty (nodes (li_frags l)) = false) as -> by (rewrite (R_nodes _ _ _ H); destruct (elems p); reflexivity).
  cbn [negb assert_ bind]. rewrite (copy_begin _ _ fr H). cbn [bind]. rewrite B. cbn [bind].
  destruct (rebase_all_ok (li_frags l) fr b0 (R_ids _ _ _ H) B _ _ S) as (A1 & A2). cbv zeta in A1, A2. rewrite A1. cbn [bind].
  eexists. exists (map (fun b => (map (hn (li_frags l) fr) (fst b), hh (li_frags l) fr (snd b))) bs). split; [reflexivity|]. cbn [li_data li_nsemi li_frags li_stmts]. conjs; auto. apply contents_map.
Qed.

(** the ranges of a copy are those that init_stmts finds in the copy *)
Lemma copy_statements s p fr : R s p ->
  statements (mkPlain (renumber (elems p) fr) (fr + length (elems p)) (fr + S (length (elems p)))) =
  map (fun b => (map (hn s fr) (fst b), hh s fr (snd b))) (statements p).
Proof using.
  intros H. unfold statements. cbn [elems p_end]. pose proof (R_ids _ _ _ H) as ND. pose proof (R_nodes _ _ _ H) as N.
  assert (E1 : renumber (elems p) fr = map (hn s fr) (elems p)).
  { assert (X : nodes (sl_copy s fr) = renumber (elems p) fr ++ [(fr + length (elems p), d)]) by (pose proof (copy_R d s p fr H) as C; apply (R_nodes _ _ _ C)).
    rewrite (copy_nodes s fr ND), N, map_app in X. cbn [map] in X. apply app_inj_tail in X. symmetry. apply X. }
  assert (E2 : fr + length (elems p) = hh s fr (p_end p)).
  { unfold hh. rewrite N in ND |- *. now rewrite pos_mid. }
  rewrite E1, E2. unfold hn. rewrite (pieces_map (hh s fr)). clear.
  induction (pieces (elems p) (p_end p)) as [|[b j] l IH]; [reflexivity|]. cbn [map filter fst snd]. rewrite IH. destruct b as [|n b]; reflexivity.
Qed.

(** ** remove_empty_statements *)
Definition semi_n (n : nd) : bool := is_semi (snd n).
Fixpoint drop_n (l : list nd) : list nd := match l with n :: r => if semi_n n then drop_n r else l | [] => [] end.
Fixpoint dedup_n (prev : bool) (l : list nd) : list nd :=
  match l with [] => [] | n :: r => if prev && semi_n n then dedup_n true r else n :: dedup_n (semi_n n) r end.

Lemma filter_ne_semis q l e : Forall (fun n => semi_n n = true) q -> filter ne (pieces (q ++ l) e) = filter ne (pieces l e).
Proof using. induction 1 as [|[i x] q Q _ IH]; [reflexivity|]. unfold semi_n in Q. cbn [snd] in Q. cbn [app pieces]. rewrite Q. cbn [filter ne fst nonempty is_empty negb]. exact IH. Qed.
Lemma filter_ne_back l j x q e : is_semi x = true -> Forall (fun n => semi_n n = true) q -> filter ne (pieces (l ++ (j, x) :: q) e) = filter ne (pieces l j).
Proof using.
  intros X Q. assert (G : exists t, pieces (l ++ (j, x) :: q) e = pieces l j ++ t /\ filter ne t = []).
  { induction l as [|[i y] l (t & IH & T)].
    - cbn [app pieces]. rewrite X. exists (pieces q e). split; [reflexivity|]. pose proof (filter_ne_semis q [] e Q) as F. rewrite app_nil_r in F. rewrite F. reflexivity.
    - cbn [app pieces]. rewrite IH. destruct (is_semi y); [exists t; auto|]. destruct (pieces_cons l j) as (b & k & z & ->). exists t. auto. }
  destruct G as (t & -> & T). rewrite filter_app, T. apply app_nil_r.
Qed.
Lemma pieces_last l e : exists A b, pieces l e = A ++ [(b, e)] /\ forall j, pieces l j = A ++ [(b, j)].
Proof using.
  induction l as [|[i x] l (A & b & E & J)]; cbn [pieces].
  - exists [], []. auto.
  - destruct (is_semi x).
    + exists (([], i) :: A), b. split; [now rewrite E|]. intros j. now rewrite J.
    + destruct A as [|[b1 j1] A].
      * exists [], ((i, x) :: b). split; [now rewrite E|]. intros j. now rewrite J.
      * exists (((i, x) :: b1, j1) :: A), b. split; [now rewrite E|]. intros j. now rewrite J.
Qed.
Lemma pieces_tail l i x e : is_semi x = false -> forall A b, pieces (l ++ [(i, x)]) e = A ++ [(b, e)] -> b <> [].
Proof using.
  intros X. induction l as [|[k y] l IH]; intros A b; cbn [app pieces].
  - rewrite X. intros H. apply (app_inj_tail [] A) in H as [_ H]. injection H as <-. discriminate.
  - destruct (pieces_last (l ++ [(i, x)]) e) as (A2 & b2 & E2 & _). rewrite E2. pose proof (IH _ _ E2) as NB. destruct (is_semi y).
    + intros H. change (([], k) :: A2 ++ [(b2, e)]) with ((([], k) :: A2) ++ [(b2, e)]) in H. apply app_inj_tail in H as [_ [= <-]]. exact NB.
    + destruct A2 as [|[b3 j3] A2]; cbn [app].
      * intros H. apply (app_inj_tail [] A) in H as [_ [= <-]]. discriminate.
      * intros H. change (((k, y) :: b3, j3) :: A2 ++ [(b2, e)]) with ((((k, y) :: b3, j3) :: A2) ++ [(b2, e)]) in H. apply app_inj_tail in H as [_ [= <-]]. exact NB.
Qed.
Lemma dedup_pieces l e : forall prev, filter ne (pieces (dedup_n prev l) e) = filter ne (pieces l e).
Proof using.
  assert (G : forall l prev, filter ne (pieces (dedup_n prev l) e) = filter ne (pieces l e) /\
     (prev = false -> hd ([], 0) (pieces (dedup_n prev l) e) = hd ([], 0) (pieces l e))).
  { clear. induction l as [|[i x] r IH]; intros prev; [auto|]. cbn [dedup_n pieces]. unfold semi_n. cbn [snd].
    destruct (is_semi x) eqn:SX.
    - destruct prev; cbn [andb].
      + destruct (IH true) as (I1 & _). split; [exact I1|discriminate].
      + cbn [pieces]. rewrite SX. destruct (IH true) as (I1 & _). split; [exact I1|reflexivity].
    - rewrite andb_false_r. cbn [pieces]. rewrite SX. destruct (IH false) as (I1 & I2). specialize (I2 eq_refl).
      destruct (pieces_cons (dedup_n false r) e) as (b & j & q & E). destruct (pieces_cons r e) as (b' & j' & q' & E').
      rewrite E, E' in *. cbn [hd] in *. injection I2 as <- <-. split; [|reflexivity].
      cbn [filter] in *. cbn [ne fst nonempty is_empty negb] in *. f_equal. destruct (ne (b, j)); [now injection I1|exact I1]. }
  intros prev. apply G.
Qed.

Lemma skip_ok s p : R s p -> skip_semis s (elems p ++ [(p_end p, d)]) = Ok (hd (p_end p) (map fst (drop_n (elems p)))).
Proof using.
  intros H. assert (F : Forall (fun n : nd => fst n <> my_end s) (elems p)).
  { apply Forall_forall. intros [i x] I EI. cbn [fst] in EI. subst i. rewrite (R_end _ _ _ H) in I. pose proof (R_ids _ _ _ H) as N. rewrite (R_nodes _ _ _ H), map_app in N. cbn [map fst] in N. apply NoDup_remove_2 in N. apply N. rewrite app_nil_r. apply (in_map fst) in I. exact I. }
  induction F as [|[i x] l Q _ IH]; cbn [app skip_semis drop_n map hd].
  - rewrite (R_end _ _ _ H), Nat.eqb_refl. reflexivity.
  - cbn [fst] in Q. apply Nat.eqb_neq in Q. rewrite Q. cbn [orb]. unfold semi_n. cbn [snd]. destruct (is_semi x); [exact IH|reflexivity].
Qed.
Lemma drop_n_split l : exists q, l = q ++ drop_n l /\ Forall (fun n => semi_n n = true) q /\ match drop_n l with n :: _ => semi_n n = false | [] => True end.
Proof using.
  induction l as [|n l (q & E & Q & T)]; cbn [drop_n]; [exists []; auto|]. destruct (semi_n n) eqn:SN; [|exists []; auto].
  exists (n :: q). cbn [app]. conjs; auto. now rewrite <- E.
Qed.

Lemma front_ok s p b : R s p -> sl_begin s = Ok b -> exists s1 p1, 
  (if negb (hd (p_end p) (map fst (drop_n (elems p))) =? b) then erase_range s b (hd (p_end p) (map fst (drop_n (elems p)))) else Ok s) = Ok s1 /\
  R s1 p1 /\ elems p1 = drop_n (elems p) /\ p_end p1 = p_end p.
Proof using.
  intros H B. destruct (drop_n_split (elems p)) as (q & E & _ & _). set (t := drop_n (elems p)) in *.
  pose proof (R_nodes _ _ _ H) as N. pose proof (R_ids _ _ _ H) as ND.
  assert (PT : pos_of (nodes s) (hd (p_end p) (map fst t)) = Some (length q)).
  { rewrite N, E, <- app_assoc in ND |- *. destruct t as [|[i x] t]; cbn [map hd fst app] in *; now apply pos_mid. }
  pose proof (begin_first _ _ B) as PB. unfold erase_range. rewrite PB, PT. cbn [Nat.leb].
  destruct (Nat.eqb_spec (hd (p_end p) (map fst t)) b) as [EQ|NE]; cbn [negb].
  - rewrite EQ, PB in PT. injection PT as PT. symmetry in PT. apply length_zero_iff_nil in PT. subst q. exists s, p. conjs; auto.
  - eexists. exists (mkPlain t (p_end p) (p_next p)). split; [reflexivity|]. conjs; auto.
    pose proof (removal_R d s p [] q t H E) as X. cbn [app firstn] in X |- *.
    replace (skipn (length q) (nodes s)) with (t ++ [(p_end p, d)]); [exact X|]. rewrite N, E, <- app_assoc. now rewrite skipn_app_len.
Qed.

Lemma pop_ok : forall n s p c, R s p -> length (elems p) <= n -> exists s' p' q,
  pop_semis n s c = Ok (s', c || nonempty q) /\ R s' p' /\ p_end p' = p_end p /\ elems p = elems p' ++ q /\ Forall (fun n => semi_n n = true) q /\
  (elems p' = [] \/ exists l x, elems p' = l ++ [x] /\ semi_n x = false).
Proof using.
  induction n as [|n IH]; intros s p c H L.
  - destruct (elems p) eqn:E; [|cbn in L; lia]. exists s, p, []. unfold pop_semis. assert (sl_empty s = true) as -> by (unfold sl_empty; rewrite (R_nodes _ _ _ H), E; reflexivity).
    rewrite orb_false_r. conjs; auto. now rewrite E.
  - cbn [pop_semis]. destruct (elems p) as [|x l] eqn:E using rev_ind.
    + exists s, p, []. assert (sl_empty s = true) as -> by (unfold sl_empty; rewrite (R_nodes _ _ _ H), E; reflexivity).
      rewrite orb_false_r. conjs; auto. now rewrite E.
    + clear IHl. assert (sl_empty s = false) as -> by (unfold sl_empty; rewrite (R_nodes _ _ _ H), E, !app_length; cbn [length]; apply Nat.ltb_ge; lia).
      assert (sl_back s = Ok (snd x)) as ->.
      { unfold sl_back. rewrite (R_end _ _ _ H). pose proof (R_nodes _ _ _ H) as N. pose proof (R_ids _ _ _ H) as ND. rewrite N in ND |- *. rewrite pos_mid by exact ND. rewrite E, app_length. cbn [length]. rewrite Nat.add_1_r, <- app_assoc. cbn [app]. rewrite nth_error_app_mid. now destruct x. }
      cbn [bind]. destruct (is_semi (snd x)) eqn:SX.
      * destruct (step_R d s p OpPopBack (mkPlain l (p_end p) (p_next p)) H) as (s' & E' & H').
        { cbn [plain_step]. rewrite E. destruct (l ++ [x]) as [|y z] eqn:LX; [destruct l; discriminate|]. rewrite <- LX. now rewrite removelast_before. }
        cbn [sl_step] in E'. rewrite E'. cbn [bind]. rewrite app_length in L. cbn [length] in L.
        destruct (IH s' _ true H') as (s2 & p2 & q & P1 & P2 & P3 & P4 & P5 & P6); [cbn [elems]; lia|]. cbn [elems p_end] in *.
        exists s2, p2, (q ++ [x]). rewrite P1. cbn [orb]. conjs; auto.
        -- assert (nonempty (q ++ [x]) = true) as -> by (destruct q; reflexivity). now rewrite orb_true_r.
        -- rewrite P4. now rewrite <- app_assoc.
        -- apply Forall_app. split; auto.
      * exists s, p, []. rewrite orb_false_r. conjs; auto. { now rewrite ?E, app_nil_r. } right. exists l, x. auto.
Qed.

Lemma clear_ok s p l : R s p -> (forall n, In n l -> fst n <> my_end s) -> Forall (fun n : nd => is_semi (snd n) = true -> tk_text (snd n) <> []) l -> forall prev, exists l' c,
  it_clear s prev (l ++ [(p_end p, d)]) = (l' ++ [(p_end p, d)], c) /\ map fst l' = map fst l /\ (c = false -> l' = l) /\
  filter (fun n => negb (is_semi (snd n) && is_empty (tk_text (snd n)))) l' = dedup_n prev l /\ clear_second prev (map snd l) = (map snd l', c).
Proof using.
  intros H I F. induction F as [|[i x] l P F IH]; intros prev.
  - exists [], false. cbn [app it_clear]. rewrite (R_end _ _ _ H), Nat.eqb_refl. conjs; auto.
  - cbn [app it_clear]. pose proof (I (i, x) (or_introl eq_refl)) as NI. cbn [fst] in NI. apply Nat.eqb_neq in NI. rewrite NI.
    destruct (IH (fun n J => I n (or_intror J)) (is_semi x)) as (l' & c & E1 & E2 & E3 & E4 & E5). rewrite E1. cbn [map snd clear_second dedup_n]. rewrite E5. unfold semi_n. cbn [snd] in *.
    destruct (prev && is_semi x) eqn:PS.
    + apply andb_prop in PS as [-> SX]. exists ((i, set_text x []) :: l'), true. conjs; auto; try discriminate.
      * cbn [map fst]. now rewrite E2.
      * cbn [filter snd]. assert (is_semi (set_text x []) = true) as -> by exact SX. cbn [set_text tk_text is_empty andb negb]. rewrite SX in E4. exact E4.
    + exists ((i, x) :: l'), c. conjs; auto.
      * cbn [map fst]. now rewrite E2.
      * intros C. now rewrite (E3 C).
      * cbn [filter snd]. assert (is_semi x && is_empty (tk_text x) = false) as -> by (destruct (is_semi x); [|reflexivity]; destruct (tk_text x); [exfalso; now apply P|reflexivity]).
        cbn [negb]. now rewrite E4.
Qed.

Lemma drop_n_vals l : map snd (drop_n l) = drop_semis (map snd l).
Proof using. induction l as [|[i x] l IH]; [reflexivity|]. cbn [drop_n map snd drop_semis]. unfold semi_n. cbn [snd]. destruct (is_semi x); [exact IH|reflexivity]. Qed.
Lemma drop_back_vals (a q : list nd) : Forall (fun n => semi_n n = true) q -> (a = [] \/ exists l x, a = l ++ [x] /\ semi_n x = false) -> drop_semis_back (map snd (a ++ q)) = map snd a.
Proof using.
  intros Q A. unfold drop_semis_back. rewrite map_app, rev_app_distr.
  assert (G : forall q r, Forall (fun x => is_semi x = true) q -> drop_semis (q ++ r) = drop_semis r).
  { clear. induction 1 as [|x q X _ IH]; [reflexivity|]. cbn [app drop_semis]. now rewrite X. }
  rewrite G.
  - destruct A as [->|(l & x & -> & X)]; [reflexivity|]. rewrite map_app, rev_app_distr. cbn [map rev app drop_semis]. unfold semi_n in X. rewrite X. rewrite <- (rev_involutive (map snd l ++ [snd x])). now rewrite rev_app_distr.
  - apply Forall_rev. apply Forall_map. exact Q.
Qed.

Lemma not_end s p : R s p -> forall n, In n (elems p) -> fst n <> my_end s.
Proof using.
  intros H [i x] I E. cbn [fst] in E. subst i. rewrite (R_end _ _ _ H) in I. pose proof (R_ids _ _ _ H) as N. rewrite (R_nodes _ _ _ H), map_app in N. cbn [map fst] in N. apply NoDup_remove_2 in N. apply N. rewrite app_nil_r. apply (in_map fst) in I. exact I.
Qed.

Lemma remove_ok s p : R s p -> is_semi d = false -> Forall (fun n : nd => is_semi (snd n) = true -> tk_text (snd n) <> []) (elems p) ->
  exists s' p' c, it_remove s (map mk (statements p)) = Ok (s', map mk (statements p'), c) /\ R s' p' /\ p_end p' = p_end p /\
    map fst (statements p') = map fst (statements p) /\
    remove_empty_frags (map snd (elems p)) (length (statements p)) = Ok (map snd (elems p'), c).
Proof using.
  intros H SD TX. destruct (begin_R _ _ H) as (b & B). unfold it_remove. rewrite B. cbn [bind].
  rewrite (R_nodes _ _ _ H), (skip_ok _ _ H). cbn [bind].
  destruct (front_ok _ _ b H B) as (s1 & p1 & E1 & H1 & L1 & N1). cbv zeta. rewrite E1. cbn [bind].
  destruct (drop_n_split (elems p)) as (q0 & D1 & D2 & D3).
  destruct (pop_ok (length (nodes s1)) s1 p1 false H1) as (s2 & p2 & q & E2 & H2 & N2 & L2 & Q2 & LAST).
  { rewrite (R_nodes _ _ _ H1), app_length. cbn [length]. lia. }
  rewrite E2. cbn [orb bind].
  assert (ST1 : statements p1 = statements p). { unfold statements. rewrite L1, N1. rewrite D1 at 2. symmetry. apply (filter_ne_semis q0 _ _ D2). }
  assert (TX2 : Forall (fun n : nd => is_semi (snd n) = true -> tk_text (snd n) <> []) (elems p2)).
  { rewrite D1, <- L1, L2 in TX. rewrite !Forall_app in TX. apply TX. }
  assert (ST2 : nonempty q = false /\ statements p2 = statements p \/ nonempty q = true /\ exists A bl j, bl <> [] /\ statements p = A ++ [(bl, j)] /\ statements p2 = A ++ [(bl, p_end p2)]).
  { destruct q as [|[j x] q].
    - left. split; [reflexivity|]. rewrite <- ST1. unfold statements. rewrite L2, app_nil_r, N2. reflexivity.
    - right. split; [reflexivity|]. inversion Q2 as [|? ? SX Q3]; subst. unfold semi_n in SX. cbn [snd] in SX.
      assert (X1 : statements p1 = filter ne (pieces (elems p2) j)) by (unfold statements; rewrite L2; apply filter_ne_back; auto).
      destruct LAST as [Z0|(l & [i y] & Z1 & Z2)].
      { exfalso. rewrite <- L1, L2, Z0 in D3. cbn [app] in D3. unfold semi_n in D3. cbn [snd] in D3. congruence. }
      unfold semi_n in Z2. cbn [snd] in Z2. rewrite <- ST1, X1. unfold statements. fold ne. rewrite Z1 in *.
      destruct (pieces_last (l ++ [(i, y)]) (p_end p2)) as (A & bl & P1 & P2). pose proof (pieces_tail l i y (p_end p2) Z2 _ _ P1) as NB.
      exists (filter ne A), bl, j. conjs; auto.
      + rewrite P2, filter_app. cbn [filter ne fst]. destruct bl; [congruence|reflexivity].
      + change (filter ne (pieces (l ++ [(i, y)]) (p_end p2)) = filter ne A ++ [(bl, p_end p2)]). rewrite P1, filter_app. cbn [filter ne fst]. destruct bl; [congruence|reflexivity]. }
  (* the third step *)
  set (tt := hd (p_end p) (map fst (drop_n (elems p)))) in *.
  assert (FR : negb (tt =? b) = negb (length (drop_semis (map snd (elems p))) =? length (map snd (elems p)))).
  { rewrite <- drop_n_vals, !map_length. f_equal. pose proof (begin_first _ _ B) as PB. pose proof (R_nodes _ _ _ H) as N. pose proof (R_ids _ _ _ H) as ND.
    assert (PT : pos_of (nodes s) tt = Some (length q0)).
    { unfold tt. rewrite N, D1, <- app_assoc in ND |- *. destruct (drop_n (elems p)) as [|[i x] t] eqn:DT.
      - rewrite D1 in DT. rewrite <- D1, DT in *. cbn [map hd fst app] in *. now apply pos_mid.
      - rewrite <- D1, DT. cbn [map hd fst app] in *. now apply pos_mid. }
    destruct (Nat.eqb_spec tt b) as [EQ|NE].
    - rewrite EQ, PB in PT. injection PT as PT. symmetry. apply Nat.eqb_eq. rewrite D1 at 2. rewrite app_length. lia.
    - symmetry. apply Nat.eqb_neq. intros LE. apply NE. rewrite D1 in LE at 2. rewrite app_length in LE. assert (Z : length q0 = 0) by lia. rewrite Z in PT.
      destruct (nodes s) as [|[i v] ns]; [discriminate|]. cbn [pos_of] in PB, PT. destruct (Nat.eqb_spec i b); [|destruct (pos_of ns b); discriminate]. destruct (Nat.eqb_spec i tt); [congruence|destruct (pos_of ns tt); discriminate]. }
  assert (F2 : drop_semis_back (drop_semis (map snd (elems p))) = map snd (elems p2)).
  { rewrite <- drop_n_vals, <- L1, L2. apply drop_back_vals; auto. }
  assert (BK : nonempty q = negb (length (map snd (elems p2)) =? length (drop_semis (map snd (elems p))))).
  { rewrite <- drop_n_vals, <- L1, L2, !map_length, app_length. destruct q; cbn [length nonempty is_empty negb].
    - rewrite Nat.add_0_r, Nat.eqb_refl. reflexivity.
    - symmetry. apply negb_true_iff, Nat.eqb_neq. lia. }
  unfold remove_empty_frags. cbv zeta. rewrite F2, <- BK, <- FR. rewrite map_length.
  assert (MID : exists s3 p3 ch, 
    (if 1 <? length (statements p) then
       let '(ns, internal) := it_clear s2 false (nodes s2) in
       let s2' := mkSL ns (my_end s2) (fresh s2) in
       if internal then bind (sl_remove_if (fun x => is_semi x && is_empty (tk_text x)) s2') (fun s' => Ok (s', true)) else Ok (s2', negb (tt =? b))
     else Ok (s2, negb (tt =? b))) = Ok (s3, ch) /\ R s3 p3 /\ p_end p3 = p_end p2 /\ statements p3 = statements p2 /\
    (if 1 <? length (statements p) then
       let '(g, internal_empty) := clear_second false (map snd (elems p2)) in
       if internal_empty then (filter (fun x => negb (is_semi x && is_empty (tk_text x))) g, true) else (g, negb (tt =? b))
     else (map snd (elems p2), negb (tt =? b))) = (map snd (elems p3), ch)).
  { destruct (1 <? length (statements p)); [|exists s2, p2, (negb (tt =? b)); conjs; auto].
    destruct (clear_ok s2 p2 (elems p2) H2 (not_end _ _ H2) TX2 false) as (l' & c & C1 & C2 & C3 & C4 & C5). rewrite (R_nodes _ _ _ H2), C1, C5.
    destruct c.
    - assert (HR : R (mkSL (l' ++ [(p_end p2, d)]) (my_end s2) (fresh s2)) (mkPlain l' (p_end p2) (p_next p2))).
      { constructor; cbn [nodes my_end fresh elems p_end p_next]; try apply H2; auto.
        - pose proof (R_ids _ _ _ H2) as ND. rewrite (R_nodes _ _ _ H2), map_app in ND. now rewrite map_app, C2.
        - pose proof (R_lt _ _ _ H2) as LT. rewrite (R_nodes _ _ _ H2) in LT. apply Forall_app in LT as (LT1 & LT2). apply Forall_app. split; [|exact LT2].
          apply (Forall_map fst (fun i => i < fresh s2)). rewrite C2. apply (Forall_map fst (fun i => i < fresh s2)). exact LT1. }
      destruct (step_R d _ _ (OpRemoveIf (fun x => is_semi x && is_empty (tk_text x))) (mkPlain (filter (fun n => negb (is_semi (snd n) && is_empty (tk_text (snd n)))) l') (p_end p2) (p_next p2)) HR) as (s3 & S3 & H3).
      { cbn [plain_step]. rewrite SD. reflexivity. }
      cbn [sl_step] in S3. exists s3. eexists. exists true. cbv zeta. cbn [sl_step] in *. split; [match goal with |- bind ?e _ = _ => replace e with (Ok s3) by (symmetry; exact S3) end; reflexivity|]. split; [exact H3|]. cbn [elems p_end]. conjs; auto.
      + unfold statements. cbn [elems p_end]. rewrite C4. apply (dedup_pieces (elems p2) (p_end p2) false).
      + f_equal. clear. induction l' as [|[i x] l IH]; [reflexivity|]. cbn [map filter snd]. destruct (negb (is_semi x && is_empty (tk_text x))); cbn [map snd]; now rewrite IH.
    - rewrite (C3 eq_refl) in *. exists s2, p2, (negb (tt =? b)). conjs; auto. rewrite <- (R_nodes _ _ _ H2). destruct s2; reflexivity. }
  destruct MID as (s3 & p3 & ch & M1 & H3 & N3 & ST3 & M2).
  cbv zeta in M1. rewrite M2. match goal with |- context [bind ?e (fun '(s, c) => _)] => replace e with (Ok (s3, ch)) by (symmetry; exact M1) end. cbn [bind]. rewrite N2, N1 in N3.
  destruct ST2 as [(NQ & ST2)|(NQ & A & bl & j & NB & SA & SB)]; rewrite NQ.
  - exists s3, p3, ch. rewrite orb_false_r. cbn [negb orb assert_ bind]. rewrite ST3, ST2. conjs; auto.
  - exists s3, p3, true. rewrite orb_true_r. rewrite SA, ST3, SB. rewrite !map_app, rev_app_distr. cbn [map rev app].
    assert (IN : In (bl, p_end p3) (pieces (elems p3) (p_end p3))).
    { assert (In (bl, p_end p2) (statements p3)) as IN by (rewrite ST3, SB; apply in_or_app; right; left; reflexivity). apply filter_In in IN as (IN & _). rewrite N3. rewrite <- N1, <- N2. rewrite <- N1, <- N2 in N3. rewrite N3 in IN. exact IN. }
    destruct (piece_at _ _ _ _ H3 IN) as (pre & v & post & NN).
    assert (BG : r_begin (mk (bl, j)) = hd (p_end p3) (map fst bl)) by (destruct bl; [congruence|reflexivity]).
    rewrite BG, (R_end _ _ _ H3), (make_block _ _ _ _ _ _ (R_ids _ _ _ H3) NN). cbn [bind]. rewrite rev_involutive, N2, N1, <- N3.
    conjs; auto.
    rewrite app_length, Nat.add_1_r. reflexivity.
Qed.
End P.
