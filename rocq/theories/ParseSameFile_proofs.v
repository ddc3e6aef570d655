(** Proofs for C76: the statements of alike lines. *)
From Verif Require Import Base Token TTStream StmtRules Peg LabelStack Prgm PrgmSource LogicalLine StmtSrc Indent FormatMain ParseSame_spec ParseSame_proofs.
Local Open Scope nat_scope.

Definition srel (s s' : Src) : Prop := Forall2 alike_line (src_rest s) (src_rest s') /\ src_i s' = src_i s /\ src_buf s' = src_buf s.
Lemma skip_prefix_same ls ls' : Forall2 alike_line ls ls' -> forall i pre,
  fst (fst (skip_prefix ls' i pre)) = fst (fst (skip_prefix ls i pre)) /\ snd (skip_prefix ls' i pre) = snd (skip_prefix ls i pre) /\
  Forall2 alike_line (snd (fst (skip_prefix ls i pre))) (snd (fst (skip_prefix ls' i pre))).
Proof.
  induction 1 as [|l l' r r' H F IH]; intros i pre; cbn [skip_prefix]; [cbn; auto|]. pose proof H as (_ & _ & S1 & S2 & _). rewrite S1, S2.
  destruct (is_empty (l_stmts l)); [apply IH|]. cbn [fst snd]. auto.
Qed.
Definition rrel (a b : res (list LL_Stmt * list LLn * nat)) : Prop :=
  match a, b with
  | Ok (x, r, j), Ok (y, r', j') => y = x /\ Forall2 alike_line r r' /\ j' = j
  | Throw, Throw => True | UB, UB => True | _, _ => False end.
Lemma refill_same ls ls' i : Forall2 alike_line ls ls' -> rrel (refill ls i) (refill ls' i).
Proof.
  intros F. unfold refill. destruct (skip_prefix_same _ _ F i []) as (A & B & C).
  destruct (skip_prefix ls i []) as [[p r] j], (skip_prefix ls' i []) as [[p' r'] j']. cbn [fst snd] in *. subst p' j'.
  inversion C as [|l l' q q' H C']; subst; [cbn; auto|]. destruct H as (H1 & H2 & H3 & H4 & _). rewrite H3. destruct (assert_ _); cbn [bind]; try exact I.
  unfold rrel. rewrite H1, H2, H4. auto.
Qed.
Definition mrel (a b : option (res (bool * Src))) : Prop :=
  match a, b with
  | Some (Ok (x, s)), Some (Ok (y, s')) => y = x /\ srel s s'
  | Some Throw, Some Throw => True | Some UB, Some UB => True | None, None => True | _, _ => False end.
Lemma more_avail_same f : forall s s', srel s s' -> mrel (more_avail f s) (more_avail f s').
Proof.
  induction f as [|f IH]; intros s s' H; cbn [more_avail]; [exact I|]. pose proof H as (A & B & C). rewrite B, C.
  destruct (src_buf s) as [|q qs]; [|cbn; auto]. inversion A as [|l l' r r' H1 H2 E E']; subst; [cbn; auto|].
  assert (F : Forall2 alike_line (l :: r) (l' :: r')) by (constructor; auto). pose proof (refill_same _ _ (src_i s) F) as R.
  destruct (refill (l :: r) (src_i s)) as [[[b r1] j]| |], (refill (l' :: r') (src_i s)) as [[[b' r1'] j']| |]; cbn in R; try contradiction; try exact I.
  destruct R as (-> & R & ->). apply IH. unfold srel. cbn. auto.
Qed.
Lemma advance_same f s s' : srel s s' -> mrel (src_advance f s) (src_advance f s').
Proof.
  intros H. pose proof H as (A & B & C). unfold src_advance. cbn [src_buf]. rewrite C. destruct (tl (src_buf s)) as [|q qs].
  - apply more_avail_same. unfold srel. cbn. auto.
  - cbn. unfold srel. cbn. auto.
Qed.
Lemma make_loop_same f : forall s s', srel s s' -> make_stmts_loop f s' = make_stmts_loop f s.
Proof.
  induction f as [|f IH]; intros s s' H; [reflexivity|]. cbn [make_stmts_loop]. pose proof (advance_same (S f) _ _ H) as R.
  destruct (src_advance (S f) s) as [[[b s1]| |]|], (src_advance (S f) s') as [[[b' s1']| |]|]; cbn in R; try contradiction; auto.
  destruct R as (-> & R). destruct b; auto. pose proof R as (_ & _ & E). rewrite E. destruct (src_buf s1); auto. now rewrite (IH _ _ R).
Qed.
Lemma make_stmts_same f ls ls' : Forall2 alike_line ls ls' -> make_stmts f ls' = make_stmts f ls.
Proof. intros F. apply make_loop_same. unfold srel. cbn. auto. Qed.
Lemma stmts_count ls ls' : Forall2 alike_line ls ls' -> length (flat_map l_stmts ls') = length (flat_map l_stmts ls).
Proof. induction 1 as [|l l' r r' H F IH]; auto. cbn [flat_map]. rewrite !app_length, IH. destruct H as (_ & _ & _ & -> & _). reflexivity. Qed.
Lemma alike_refl x : alike x x. Proof. split; reflexivity. Qed.
Lemma src_same ls ls' : Forall2 alike_line ls ls' -> forall sts, Forall2 alike_stmt (map (src_of ls) sts) (map (src_of ls') sts).
Proof.
  intros F sts. pose proof (F2n _ _ _ F) as N. induction sts as [|q sts IH]; cbn [map]; constructor; auto. unfold alike_stmt, src_of. cbn [ss_label ss_beg ss_end ss_frags].
  split; auto. split; auto. split; auto. destruct (s_line q) as [j|]; [|constructor]. specialize (N j). destruct (nth_error ls j), (nth_error ls' j); try contradiction; [apply N|constructor].
Qed.
Theorem prefetch_same exts m n ls ls' : (forall a, Forall fair_ext (exts a)) -> Forall2 alike_line ls ls' -> prefetch exts m n ls' = prefetch exts m n ls.
Proof.
  intros FE F. unfold prefetch. rewrite (F2l _ _ _ F), (stmts_count _ _ F), (make_stmts_same _ _ _ F). destruct (make_stmts _ ls) as [[sts| |]|]; cbn [lift obind]; auto.
  destruct (is_empty sts); auto. now rewrite (prgm_same exts m n g_program _ _ FE (src_same _ _ F sts)).
Qed.
