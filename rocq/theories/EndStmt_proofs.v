(** A file that the program parsers accept ends in an END statement, so its last token is no part of a real literal. *)
From Coq Require Import Lia.
From Verif Require Import Base Base_lemmas Tags SyntaxTags FileLine Token TTStream StmtRules Peg StmtGrammar LabelStack Prgm Prgm_proofs PrgmTop_proofs PrgmSource Lexer Lexer_spec.
Local Open Scope nat_scope.

(** ** The four statements *)
Definition closers : list rule := [r_end_function_stmt; r_end_subroutine_stmt; r_end_module_stmt; r_end_program_stmt].
Definition no_bad (fr : list Token) : Prop := Forall (fun x => tok x <> BAD) fr.
Definition not_real_at (fr : list Token) (p : nat) : Prop := exists x, nth_error fr p = Some x /\ ~ real_part (tok x).
(** one token further *)
Definition one_on (s s' : stream) : Prop := s' = set_pos s (S (pos s)) /\ not_real_at (frags s) (pos s) /\ pos s <> s_end s.
Lemma leaf_on g s x s' : leaf g s = Done (x, s') -> s' = set_pos s (S (pos s)).
Proof.
  unfold leaf. intros H. ob H. destruct a as [s1 r]. injection H as <- <-. apply lift_done in E. unfold digest in E. apply bind_Ok in E as (p & E & E2).
  injection E2 as <- _. unfold next_n in E. destruct (_ && _)%bool; [|discriminate]. injection E as <-. f_equal. lia.
Qed.
Lemma real_tag t : real_part t -> In t [SG_SIGNIFICAND; SG_EXPONENT_LETTER; SG_EXPONENT; TK_UNDERSCORE; SG_KIND_PARAM].
Proof. exact (fun H => H). Qed.
Lemma peek_tok s t : peek s = Ok t -> t <> BAD -> exists x, nth_error (frags s) (pos s) = Some x /\ tok x = t /\ pos s <> s_end s.
Proof.
  unfold peek. intros H N. destruct (Nat.eqb_spec (pos s) (s_end s)); [congruence|]. apply bind_Ok in H as (x & H & H2). unfold deref in H.
  destruct (nth_error (frags s) (pos s)) as [y|]; [|destruct (_ =? _); [|discriminate]; injection H as <-; injection H2 as <-; exfalso; apply N; reflexivity].
  injection H as ->. injection H2 as <-. eauto.
Qed.
Section Run.
Variable exts : bool -> list ext.
Notation run := (run grammar exts).
Lemma tok_on n k s t s' : ~ real_part k -> k <> BAD -> run n (PTok k) s = Done (true, t, s') -> one_on s s'.
Proof using.
  intros NR NB H. destruct n; [discriminate|]. cbn [Peg.run] in H. ob H. apply lift_done in E. destruct (Z.eqb_spec k a) as [<-|]; [|discriminate]. cbn [negb] in H.
  ob H. destruct a as [y s1]. injection H as <- <-. apply leaf_on in E0. destruct (peek_tok _ _ E NB) as (x & X & T & P). split; [exact E0|]. split; [|exact P]. exists x. split; [exact X|]. now rewrite T.
Qed.
Lemma name_not_real t : is_name_tag t = Ok true -> ~ real_part t.
Proof using.
  intros H R. apply real_tag in R. cbn [In] in R. destruct R as [R|[R|[R|[R|[R|[]]]]]]; subst t; vm_compute in H; discriminate.
Qed.
Lemma name_on n s t s' : run n PName s = Done (true, t, s') -> one_on s s'.
Proof using.
  intros H. destruct n; [discriminate|]. cbn [Peg.run] in H. ob H. apply lift_done in E. ob H. apply lift_done in E0. destruct a0; [|discriminate]. cbn [negb] in H.
  ob H. destruct a0 as [y s1]. injection H as <- <-. apply leaf_on in E1.
  assert (NB : a <> BAD) by (intros ->; vm_compute in E0; discriminate).
  destruct (peek_tok _ _ E NB) as (x & X & T & P). split; [exact E1|]. split; [|exact P]. exists x. split; [exact X|]. rewrite T. now apply name_not_real.
Qed.
(** nothing, or up to a token that is no part of a real literal *)
Definition moved (s s' : stream) : Prop := frags s' = frags s /\ s_beg s' = s_beg s /\ s_end s' = s_end s /\ pos s' <= s_end s /\
  (pos s' = pos s \/ pos s < pos s' /\ not_real_at (frags s) (pos s' - 1)).
Lemma one_moved s s' : pos s <= s_end s -> one_on s s' -> moved s s' /\ pos s < pos s'.
Proof using.
  intros L (-> & NR & NE). unfold moved. cbn [set_pos frags s_beg s_end pos]. repeat split; auto; try lia. right. split; [lia|]. replace (S (pos s) - 1) with (pos s) by lia. exact NR.
Qed.
Lemma moved_trans a b c : moved a b -> moved b c -> moved a c.
Proof using.
  intros (A1 & A2 & A3 & A4 & A5) (B1 & B2 & B3 & B4 & B5). unfold moved. rewrite B1, B2, B3, A1, A2, A3 in *. repeat split; auto.
  destruct B5 as [B5|(B5 & B6)]; [rewrite B5; destruct A5 as [A5|A5]; [left; lia|right; exact A5]|].
  right. split; [destruct A5 as [A5|(A5 & _)]; lia|exact B6].
Qed.
Lemma name_fails n s t s' : run n PName s = Done (false, t, s') -> s' = s.
Proof using.
  intros H. destruct n; [discriminate|]. cbn [Peg.run] in H. ob H. ob H. destruct a0; cbn [negb] in H; [ob H; destruct a0|]; congruence.
Qed.
Lemma opt_name n s t s' m : pos s <= s_end s -> run n (POpt PName) s = Done (m, t, s') -> moved s s'.
Proof using.
  intros L H. destruct n; [discriminate|]. cbn [Peg.run] in H. ob H. destruct a as [[m1 t1] s1]. injection H as <- <- <-. destruct m1.
  - apply name_on in E. now apply one_moved.
  - apply name_fails in E as ->. unfold moved. auto 6.
Qed.
Lemma end_last n r fr b e t s' : In r closers -> no_bad fr -> b <= e -> e <= length fr -> parse_rule grammar exts n r (stream_of fr b e) = Done (Some t, s') -> b < e /\ not_real_at fr (e - 1).
Proof using.
  intros I NB L1 L2 H. unfold parse_rule, call_rule in H.
  assert (exists g k, ~ real_part k /\ k <> BAD /\ grammar r = RExp (PSeq g [PTok KW_END; POpt (h_seq [PTok k; POpt PName]); p_eol])) as (g & k & NR & KB & G).
  { unfold closers in I. cbn [In] in I. destruct I as [<-|[<-|[<-|[<-|[]]]]]; cbn [grammar];
      [exists SG_END_FUNCTION_STMT, KW_FUNCTION|exists SG_END_SUBROUTINE_STMT, KW_SUBROUTINE|exists SG_END_MODULE_STMT, KW_MODULE|exists SG_END_PROGRAM_STMT, KW_PROGRAM];
      (split; [intros R; apply real_tag in R; cbn [In] in R; destruct R as [R|[R|[R|[R|[R|[]]]]]]; discriminate R|split; [discriminate|reflexivity]]). }
  rewrite G in H. ob H. destruct a as [[m t1] s1]. injection H as -> ->. destruct n; [discriminate|]. cbn [Peg.run] in E.
  ob E. destruct a as [[m1 kids] s2]. destruct m1; [|discriminate]. ob E. injection E as <- <- <-. clear E1.
  cbn [seq_loop] in E0. ob E0. destruct a0 as [[m1 t1] s1]. destruct m1; [|discriminate].
  apply tok_on in E; [|intros R; apply real_tag in R; cbn [In] in R; destruct R as [R|[R|[R|[R|[R|[]]]]]]; discriminate R|discriminate].
  apply one_moved in E as (M1 & P1); [|exact L1]. ob E0. destruct a0 as [[m3 t3] s3]. destruct m3; [|discriminate].
  assert (M2 : moved s1 s3).
  { destruct M1 as (F1 & _ & Q1 & Q2 & _). destruct n; [discriminate|]. cbn [Peg.run] in E. ob E. destruct a0 as [[m4 t4] s4]. injection E as <- <-.
    destruct n; [discriminate|]. cbn [h_seq Peg.run] in E1. ob E1. destruct a0 as [[m5 kids5] s5]. destruct m5.
    - ob E1. injection E1 as <- <- <-. cbn [seq_loop] in E. ob E. destruct a1 as [[m6 t6] s6]. destruct m6; [|discriminate].
      apply tok_on in E1; [|exact NR|exact KB]. apply one_moved in E1 as (M3 & _); [|lia]. ob E. destruct a1 as [[m7 t7] s7]. destruct m7; [|discriminate]. injection E as <- <-.
      eapply moved_trans; [exact M3|]. destruct M3 as (_ & _ & Q3 & Q4 & _). eapply opt_name; [|exact E1]. lia.
    - injection E1 as <- <- <-. cbn [seq_loop] in E. unfold moved. unfold rewind, mark. cbn [set_pos frags s_beg s_end pos].
      ob E. destruct a0 as [[m6 t6] s6]. destruct m6.
      + exfalso. ob E. destruct a0 as [[m7 t7] s7]. destruct m7; [discriminate|]. destruct n; [discriminate|]. cbn [Peg.run] in E2. ob E2. destruct a0 as [[m8 t8] s8]. discriminate.
      + injection E as <- <-. destruct n; [discriminate|]. cbn [Peg.run] in E1. ob E1. destruct (negb _); [injection E1 as <- <-; repeat split; auto; lia|]. ob E1. destruct a1. discriminate. }
  pose proof (moved_trans _ _ _ M1 M2) as (F & B1 & Q & LE & D). cbn [stream_of frags s_beg s_end pos] in *.
  ob E0. destruct a0 as [[m8 t8] s8]. destruct m8; [|discriminate]. injection E0 as <- <-. destruct n; [discriminate|]. cbn [p_eol Peg.run] in E1. ob E1. injection E1 as PB <- <-.
  apply lift_done in E0. assert (AB : a0 = BAD) by (symmetry; apply Z.eqb_eq; exact PB). subst a0.
  assert (PE : pos s3 = e).
  { unfold peek in E0. destruct (Nat.eqb_spec (pos s3) (s_end s3)) as [X|X]; [lia|]. exfalso. apply bind_Ok in E0 as (y & E0 & Y). injection Y as Y. unfold deref in E0. rewrite F in E0.
    destruct (nth_error fr (pos s3)) as [z|] eqn:NZ; [|apply nth_error_None in NZ; lia]. injection E0 as ->. unfold no_bad in NB. rewrite Forall_forall in NB. apply (NB y (nth_error_In _ _ NZ)). congruence. }
  destruct M2 as (_ & _ & _ & _ & M2). destruct D as [D|(D & NRA)]; [lia|]. split; [lia|]. rewrite PE in NRA. exact NRA.
Qed.
End Run.

(** ** The program *)
Section Program.
Variable x : stmts.
Notation G := (grun prgm_grammar x).
Definition closed_at (q : nat) : Prop := exists i r t, q = S i /\ i < x_num x /\ In r closers /\ x_parse x i r = Done (Some t).
Lemma seq_closes R r ps : In r closers -> forall kids s kids' s', g_seq R (ps ++ [GStmt r]) kids s = Done (true, kids', s') -> exists s1 t1, R (GStmt r) s1 = Done (true, t1, s').
Proof using.
  intros I. induction ps as [|p ps IH]; intros kids s kids' s' H; cbn [app g_seq] in H.
  - ob H. destruct a as [[m t] s1]. destruct m; [|discriminate]. injection H as <- <-. eauto.
  - ob H. destruct a as [[m t] s1]. destruct m; [|discriminate]. eapply IH; eauto.
Qed.
Lemma stmt_closes n r s t s' : In r closers -> G n (GStmt r) s = Done (true, t, s') -> closed_at (p_pos s').
Proof using.
  intros I H. destruct n; [discriminate|]. cbn [grun] in H. ob H. apply cur_pos in E as (-> & L). ob H. destruct a as [t0|]; [|discriminate]. injection H as <- <-.
  exists (p_pos s), r, t0. cbn [set_tree p_pos]. rewrite advance_pos by exact L. auto.
Qed.
Lemma seqif_closes n g p0 ps r s t s' : In r closers -> G n (GSeqIf g p0 (ps ++ [GStmt r])) s = Done (true, t, s') -> closed_at (p_pos s').
Proof using.
  intros I H. destruct n; [discriminate|]. cbn [grun] in H. ob H. destruct a as [[m t0] s1]. destruct m; [|discriminate]. ob H. destruct a as [[m2 kids] s2].
  destruct m2; [|unfold complain in H; ob H]. ob H. injection H as <- <-. destruct (seq_closes _ _ _ I _ _ _ _ E0) as (s3 & t3 & E3). eapply stmt_closes; eauto.
Qed.
Lemma alts_some n ps : forall s t s', g_alts (G n) ps s = Done (true, t, s') -> exists p s1, In p ps /\ G n p s1 = Done (true, t, s').
Proof using.
  induction ps as [|p ps IH]; intros s t s' H; [discriminate|]. cbn [g_alts] in H. ob H. destruct a as [[m t1] s1]. destruct m.
  - injection H as <- <-. exists p, s. split; [now left|exact E].
  - destruct (IH _ _ _ H) as (q & s2 & I & Q). exists q, s2. split; [now right|exact Q].
Qed.
Lemma alts_closes n g ps s t s' : G n (GAlts g ps) s = Done (true, t, s') -> exists n' p s1 t1, In p ps /\ G n' p s1 = Done (true, t1, s').
Proof using.
  intros H. destruct n; [discriminate|]. cbn [grun] in H. ob H. destruct a as [[m t0] s1]. destruct m; [|discriminate]. destruct t0 as [t0|]; [|discriminate]. ob H. injection H as <- <-.
  destruct (alts_some _ _ _ _ _ E) as (p & s2 & I & Q). exists n, p, s2, (Some t0). auto.
Qed.
Lemma call_body n r p s m t s' : prgm_grammar r = GBody p -> G n (GCall r) s = Done (m, t, s') -> exists n', G n' p s = Done (m, t, s').
Proof using. intros B H. destruct n; [discriminate|]. cbn [grun] in H. unfold g_call in H. rewrite B in H. eauto. Qed.
Ltac call H := eapply call_body in H; [|reflexivity]; destruct H as (? & H).
Lemma unit_closes n s t s' : G n (GCall g_program_unit) s = Done (true, t, s') -> closed_at (p_pos s').
Proof using.
  intros H. call H. apply alts_closes in H as (n1 & p & s1 & t1 & I & H). cbn [In] in I. destruct I as [<-|[<-|[<-|[]]]].
  - call H. apply alts_closes in H as (n2 & p & s2 & t2 & I & H). cbn [In] in I. destruct I as [<-|[<-|[]]]; call H.
    + refine (seqif_closes _ _ _ [_; _; _] _ _ _ _ _ H). cbn. tauto.
    + refine (seqif_closes _ _ _ [_; _; _] _ _ _ _ _ H). cbn. tauto.
  - call H. refine (seqif_closes _ _ _ [_; _] _ _ _ _ _ H). cbn. tauto.
  - call H. refine (seqif_closes _ _ _ [_; _; _] _ _ _ _ _ H). cbn. tauto.
Qed.
Lemma star_closes n k : forall kids s kids' s', p_pos s <= x_num x -> closed_at (p_pos s) -> g_star x (G n) k (GCall g_program_unit) kids s = Done (kids', s') ->
  p_pos s' < x_num x \/ closed_at (p_pos s').
Proof using.
  induction k as [|k IH]; intros kids s kids' s' L C H; [discriminate|]. cbn [g_star] in H. destruct (at_end x s); [injection H as <- <-; auto|].
  ob H. destruct a as [[m t] s1]. pose proof E as E'. apply grun_ok in E' as [_ [L1 _]]; auto. destruct m.
  - eapply IH; [exact L1| |exact H]. eapply unit_closes; eauto.
  - injection H as <- <-. left. eapply grun_hard in E; eauto. exact prgm_hard.
Qed.
Theorem program_closes n m t s' : parse_prgm x n g_program = Done (m, Some t, s') -> closed_at (x_num x).
Proof using.
  unfold parse_prgm. intros H. call H. destruct x0 as [|k]; [discriminate|]. cbn [grun] in H. ob H. destruct a as [[m1 kids] s1].
  destruct m1; [|unfold complain in H; ob H]. ob H. injection H as <- <-. clear E0. cbn [g_seq] in E. ob E. destruct a0 as [[m2 t2] s2]. destruct m2; [|discriminate].
  ob E. destruct a0 as [[m3 t3] s3]. destruct m3; [|discriminate]. injection E as <- <-. destruct k as [|k]; [discriminate|].
  cbn [grun] in E1. destruct (at_end x s2) eqn:Ee; [|discriminate]. injection E1 as <- <-. unfold at_end in Ee. apply negb_true_iff, Nat.ltb_ge in Ee.
  cbn [grun] in E0. destruct (at_end x p_init); [discriminate|]. ob E0. destruct a0 as [[m4 t4] s4]. destruct m4; [|discriminate].
  pose proof E as E'. apply grun_ok in E' as [_ [L4 _]]; [|cbn; lia]. apply unit_closes in E. ob E0. destruct a0 as [kids4 s5]. ob E0. injection E0 as <- <-.
  destruct (star_closes _ _ _ _ _ _ L4 E E1) as [X|X]; [lia|]. destruct X as (i & r & u & P & Q & X). exists i, r, u. split; [|auto]. lia.
Qed.
End Program.
