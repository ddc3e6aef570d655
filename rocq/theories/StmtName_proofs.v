(** Proofs about the names of procedures in their first and last statements. *)
From Coq Require Import Lia.
From Verif Require Import Base Base_lemmas Tags SyntaxTags Token TTStream TTStream_spec StmtRules Peg Peg_spec Peg_proofs PegCover_proofs Stmt_spec StmtGrammar StmtParser
  StmtTables_proofs StmtRoots_proofs StmtTree_spec StmtTree_proofs FileLine LogicalLine LexPos_spec LineEdit LineEdit_spec StmtWalk StmtWalk_spec StmtWalk_proofs StmtRun_proofs.
From Verif Require Import Props_Stmt Props_LineEdit.
Local Open Scope nat_scope.

Lemma rooted_gives exts n r g s t s' : exts_same exts -> any_root (grammar r) = Some g -> g <> HOIST -> parse_rule grammar exts n r s = Done (Some t, s') ->
  gives_rule grammar (frags s) (made exts) r [t].
Proof.
  intros HX A N H. pose proof (grammar_gives _ _ _ _ _ _ HX H) as GV. rewrite root_kids in GV; [exact GV|]. rewrite (any_root_ok grammar exts n r g s t s' A H). exact N.
Qed.
Lemma the_token_leaf g b : the_token (leaf_at g b) = Ok b.
Proof. unfold the_token, leaf_at. cbn [t_rng]. replace (S b - b =? 1) with true; [reflexivity|]. symmetry. apply Nat.eqb_eq. lia. Qed.
Lemma spec_prefix fr x : is_spec fr x -> prefix_spec x.
Proof. intros (r & k & -> & K). exists r, k. split; [reflexivity|]. destruct K as [K|(g & b & -> & I & _)]; [left; exact K|right; exists g, b; split; [reflexivity|exact I]]. Qed.
Lemma walk_head t pre specs kw k more : kw <> SG_PREFIX -> t_kids t = maybe pre ++ leaf_at kw k :: leaf_at TK_NAME (S k) :: more ->
  (pre = None /\ specs = [] \/ exists rp, pre = Some (ST SG_PREFIX rp specs)) -> to_name t = Ok (S k).
Proof.
  intros NK K P. unfold to_name, w_down, w_root. cbn [fst]. rewrite K. destruct P as [(-> & _)|(rp & ->)]; cbn [maybe app bind].
  - unfold w_tag. cbn [fst leaf_at t_tag]. apply Z.eqb_neq in NK. rewrite NK. cbn [bind w_next snd fst leaf_at t_tag]. change (TK_NAME =? KW_PROCEDURE)%Z with false. cbn [bind]. exact (the_token_leaf TK_NAME (S k)).
  - change (w_tag (ST SG_PREFIX rp specs, leaf_at kw k :: leaf_at TK_NAME (S k) :: more)) with SG_PREFIX. rewrite Z.eqb_refl. cbn [bind w_next snd]. unfold w_tag. cbn [fst leaf_at t_tag].
    change (TK_NAME =? KW_PROCEDURE)%Z with false. cbn [bind]. exact (the_token_leaf TK_NAME (S k)).
Qed.
Lemma head_walk exts n r kw s t s' : exts_ok exts -> proper_stmt s -> In (r, kw) heads -> parse_rule grammar exts n r s = Done (Some t, s') ->
  exists k, before_word r s k /\ kind (frags s) k kw /\ name_at (frags s) (S k) (fun _ => True) /\ to_name t = Ok (S k).
Proof.
  intros He Hs I H. pose proof (exts_same_of _ He) as HX. destruct (C24_grammar _ _ _ _ _ _ He Hs H) as (S0 & L0 & CV & _). unfold heads in I. cbn [In] in I.
  destruct I as [I|[I|[I|[I|[]]]]]; injection I as <- <-.
  - eapply rooted_gives in H; [|exact HX|reflexivity|vm_compute; discriminate]. apply shape_program in H. destruct H as (r & b & c & -> & T & N).
    apply node_list in CV; [|discriminate]. apply leaf_list in CV. destruct CV as (<- & CV). apply leaf_list in CV. destruct CV as (<- & CV).
    exists (pos s). split; [reflexivity|]. split; [exact T|]. split; [exact N|]. reflexivity || exact (the_token_leaf TK_NAME (S (pos s))).
  - apply (headed_run _ _ r_function_stmt SG_FUNCTION_STMT KW_FUNCTION _ _ _ _ He Hs ltac:(vm_compute; discriminate) ltac:(vm_compute; discriminate) ltac:(vm_compute; discriminate) eq_refl eq_refl) in H. destruct H as (k & pre & specs & more & K & P & C & F & T & N).
    exists k. split; [exists specs; split; [exact C|eapply Forall_impl; [apply spec_prefix|exact F]]|]. split; [exact T|]. split; [exact N|]. eapply walk_head; [|exact K|exact P]. vm_compute; discriminate.
  - apply (headed_run _ _ r_subroutine_stmt SG_SUBROUTINE_STMT KW_SUBROUTINE _ _ _ _ He Hs ltac:(vm_compute; discriminate) ltac:(vm_compute; discriminate) ltac:(vm_compute; discriminate) eq_refl eq_refl) in H. destruct H as (k & pre & specs & more & K & P & C & F & T & N).
    exists k. split; [exists specs; split; [exact C|eapply Forall_impl; [apply spec_prefix|exact F]]|]. split; [exact T|]. split; [exact N|]. eapply walk_head; [|exact K|exact P]. vm_compute; discriminate.
  - eapply rooted_gives in H; [|exact HX|reflexivity|vm_compute; discriminate]. apply shape_mp in H. destruct H as (r & a & b & c & -> & TA & T & N).
    apply node_list in CV; [|discriminate]. apply leaf_list in CV. destruct CV as (<- & CV). apply leaf_list in CV. destruct CV as (<- & CV). apply leaf_list in CV. destruct CV as (<- & CV).
    exists (S (pos s)). split; [split; [reflexivity|exact TA]|]. split; [exact T|]. split; [exact N|]. exact (the_token_leaf TK_NAME (S (S (pos s)))).
Qed.

(** ** End statements *)
Lemma end_run exts n r kw g s t s' : exts_ok exts -> exts_end exts -> proper_stmt s -> In (r, kw, g) ends -> parse_rule grammar exts n r s = Done (Some t, s') ->
  let p := pos s in kind (frags s) p KW_END /\
   (s_end s = p + 1 /\ t_kids t = [leaf_at KW_END p] \/
    s_end s = p + 2 /\ t_kids t = [leaf_at KW_END p; leaf_at kw (p + 1)] /\ kind (frags s) (p + 1) kw \/
    s_end s = p + 3 /\ t_kids t = [leaf_at KW_END p; leaf_at kw (p + 1); leaf_at TK_NAME (p + 2)] /\ kind (frags s) (p + 1) kw /\ name_at (frags s) (p + 2) (fun _ => True)).
Proof.
  intros He Hee Hs I H p. pose proof (exts_same_of _ He) as HX. destruct (C24_grammar _ _ _ _ _ _ He Hs H) as (S0 & L0 & CV & _).
  assert (W : pos s' = s_end s). { eapply whole_rule; eauto. unfold ends in I. cbn [In] in I. destruct I as [I|[I|[I|[I|[]]]]]; injection I as <- <- <-; reflexivity. }
  assert (exists gg rr kids, t = ST gg rr kids /\ end_shape (frags s) kw kids) as (gg & rr & kids & -> & ES).
  { unfold ends in I. cbn [In] in I. destruct I as [I|[I|[I|[I|[]]]]]; injection I as <- <- <-; (eapply rooted_gives in H; [|exact HX|reflexivity|vm_compute; discriminate]);
      (eapply shape_end in H; [|reflexivity|vm_compute; discriminate]); destruct H as (rr & kids & -> & H); eauto. }
  rewrite W in CV. destruct ES as (a & rest & -> & TA & ES). apply node_list in CV; [|discriminate]. apply leaf_list in CV. destruct CV as (<- & CV). split; [exact TA|]. cbn [t_kids].
  destruct ES as [->|(b & rest' & -> & TB & ES)]; [left; inversion CV; subst; fold p; split; [lia|reflexivity]|right].
  apply leaf_list in CV. destruct CV as (<- & CV). destruct ES as [->|(c & -> & NC)].
  - left. inversion CV; subst. fold p in TB |- *. replace (p + 1) with (S p) by lia. split; [lia|]. split; [reflexivity|exact TB].
  - right. apply leaf_list in CV. destruct CV as (<- & CV). inversion CV; subst. fold p in TB, NC |- *. replace (p + 1) with (S p) by lia. replace (p + 2) with (S (S p)) by lia. split; [lia|]. split; [reflexivity|]. split; [exact TB|exact NC].
Qed.
Lemma end_walk exts n r kw g s t s' : exts_ok exts -> exts_end exts -> proper_stmt s -> In (r, kw, g) ends -> parse_rule grammar exts n r s = Done (Some t, s') ->
  to_end_name t = Ok (end_name s).
Proof.
  intros He Hee Hs I H. destruct (end_run _ _ _ _ _ _ _ _ He Hee Hs I H) as (T & C). cbn zeta in *. unfold to_end_name, end_name, w_down, w_root. cbn [fst].
  destruct C as [(-> & ->)|[(-> & -> & _)|(-> & -> & _)]]; cbn [bind w_try_next snd].
  - replace (pos s + 1 - pos s =? 3) with false; [reflexivity|]. symmetry. apply Nat.eqb_neq. lia.
  - replace (pos s + 2 - pos s =? 3) with false; [reflexivity|]. symmetry. apply Nat.eqb_neq. lia.
  - replace (pos s + 3 - pos s =? 3) with true; [reflexivity|]. symmetry. apply Nat.eqb_eq. lia.
Qed.

(** ** Renaming *)
Lemma put_nth ls i x m : i < length ls -> nth_error (put_line ls i x) m = if m =? i then Some x else nth_error ls m.
Proof.
  intros L. unfold put_line. assert (E : length (firstn i ls) = i) by (rewrite firstn_length; lia). destruct (Nat.eqb_spec m i) as [->|N].
  - rewrite nth_error_app2 by lia. rewrite E, Nat.sub_diag. reflexivity.
  - destruct (Nat.lt_ge_cases m i) as [Q|Q].
    + rewrite nth_error_app1 by lia. rewrite <- (firstn_skipn i ls) at 2. rewrite nth_error_app1 by lia. reflexivity.
    + rewrite nth_error_app2 by lia. rewrite E. rewrite <- (firstn_skipn (S i) ls) at 2. assert (E2 : length (firstn (S i) ls) = S i) by (rewrite firstn_length; lia). rewrite nth_error_app2 by lia. rewrite E2.
      replace (m - i) with (S (m - S i)) by lia. reflexivity.
Qed.
Lemma put_length ls i x : i < length ls -> length (put_line ls i x) = length ls.
Proof. intros L. unfold put_line. rewrite app_length, firstn_length. cbn [length]. rewrite skipn_length. lia. Qed.
Lemma laid_nth lay : forall l a sp p x, laid lay a l sp -> nth_error l p = Some x -> exists b e, nth_error sp p = Some (b, e) /\ stands lay x b e.
Proof.
  induction l as [|y l IH]; intros a sp p x H N; [destruct p; discriminate|]. destruct sp as [|(b, e) sp]; [contradiction|]. destruct H as (_ & S1 & H). destruct p as [|p].
  - injection N as <-. exists b, e. split; [reflexivity|exact S1].
  - apply (IH _ _ _ _ H N).
Qed.
Lemma kept_nth l1 l2 : forall f f' s s', kept_all l1 l2 f f' s s' -> length f' = length f /\ forall p x, nth_error f p = Some x -> exists x', nth_error f' p = Some x' /\ word x' = word x /\ mt_bl x' = mt_bl x /\ mt_el x' = mt_el x.
Proof.
  induction 1 as [|x x' u u' l l' sp sp' K _ (IH1 & IH2)]; [split; [reflexivity|intros [|p] x H; discriminate]|]. split; [cbn [length]; lia|]. intros [|p] y N; [|apply IH2; exact N].
  injection N as <-. exists x'. split; [reflexivity|]. destruct K as ((A1 & A2 & A3 & A4 & A5 & A6 & _) & _). unfold word. rewrite A1, A4. auto.
Qed.
Lemma put_ok ls i ll p new : nth_error ls i = Some ll -> in_place ll -> unsplit ll p ->
  exists ll', put_name ls i p new = Ok (put_line ls i ll') /\ in_place ll' /\ length (l_frags ll') = length (l_frags ll) /\
    forall m x, nth_error (l_frags ll) m = Some x -> exists x', nth_error (l_frags ll') m = Some x' /\ mt_bl x' = mt_bl x /\ mt_el x' = mt_el x /\ word x' = if m =? p then (TK_NAME, new) else word x.
Proof.
  intros N (sp & LA) (x & X & U). destruct (laid_nth _ _ _ _ _ _ LA X) as (a & b & SP & ST0). pose proof ST0 as (B1 & _ & B3 & _).
  assert (AB : fst a = fst b) by (rewrite B1, B3 in U; injection U as U; lia).
  destruct (C37_replace_partial ll p TK_NAME new sp x a b LA X SP AB) as (ll' & f1 & f2 & f2' & x' & s1 & s2 & s2' & R & _ & F & F' & L1 & S1 & LS & LA' & K1 & K2 & T1 & T2 & _).
  assert (XX : mt_bl x' = mt_bl x /\ mt_el x' = mt_el x).
  { unfold replace_fragment in R. rewrite X in R. destruct (is_split_token x) as [b0| |]; cbn [bind] in R; try discriminate. destruct (assert_ (negb b0)) as [u| |]; cbn [bind] in R; try discriminate.
    destruct (rd (mt_bl x)) as [bl| |]; cbn [bind] in R; try discriminate. destruct (rd (mt_bc x)) as [bc| |]; cbn [bind] in R; try discriminate.
    destruct (upd_main _ _ _) as [lay| |]; cbn [bind] in R; try discriminate. destruct (shift_line _ _ _) as [rr| |]; cbn [bind] in R; try discriminate. injection R as <-. unfold set_frags in F'. cbn [l_frags] in F'.
    rewrite F in F' at 1. rewrite firstn_app in F'. replace (p - length f1) with 0 in F' by lia. rewrite firstn_O, app_nil_r, firstn_all2 in F' by lia. apply app_inv_head in F'. injection F' as <- _. split; reflexivity. }
  exists ll'. unfold put_name, line_at. rewrite N. cbn [bind]. rewrite R. cbn [bind]. split; [reflexivity|]. split; [eexists; exact LA'|]. destruct (kept_nth _ _ _ _ _ _ K2) as (E2 & Q2).
  split; [rewrite F, F', !app_length; cbn [length]; lia|]. intros m y Y. rewrite F in Y. rewrite F'. destruct (Nat.lt_trichotomy m p) as [Q|[->|Q]].
  - rewrite nth_error_app1 in Y |- * by lia. exists y. replace (m =? p) with false by (symmetry; apply Nat.eqb_neq; lia). auto.
  - rewrite nth_error_app2 in Y |- * by lia. replace (p - length f1) with 0 in Y |- * by lia. injection Y as <-. exists x'. rewrite Nat.eqb_refl. destruct XX as (X1 & X2). unfold word. rewrite T1, T2. auto.
  - rewrite nth_error_app2 in Y |- * by lia. replace (m - length f1) with (S (m - S (length f1))) in Y |- * by lia. cbn [nth_error] in Y |- *. destruct (Q2 _ _ Y) as (y' & Y1 & Y2 & Y3 & Y4).
    exists y'. replace (m =? p) with false by (symmetry; apply Nat.eqb_neq; lia). auto.
Qed.
Lemma put_renamed ls i ll ll' p new : nth_error ls i = Some ll -> in_place ll' -> length (l_frags ll') = length (l_frags ll) ->
  (forall m x, nth_error (l_frags ll) m = Some x -> exists x', nth_error (l_frags ll') m = Some x' /\ mt_bl x' = mt_bl x /\ mt_el x' = mt_el x /\ word x' = if m =? p then (TK_NAME, new) else word x) ->
  renamed [(i, p)] new ls (put_line ls i ll').
Proof.
  intros N IP LF W. assert (L : i < length ls) by (apply nth_error_Some; rewrite N; discriminate). split; [apply put_length; exact L|]. intros m l M. rewrite put_nth by exact L. destruct (Nat.eqb_spec m i) as [->|NE].
  - rewrite N in M. injection M as <-. exists ll'. split; [reflexivity|]. split; [exact LF|]. split.
    + intros q x X. destruct (W _ _ X) as (x' & X1 & _ & _ & X2). exists x'. split; [exact X1|]. split.
      * intros [I|[]]. injection I as ->. rewrite Nat.eqb_refl in X2. exact X2.
      * intros NI. destruct (Nat.eqb_spec q p) as [->|_]; [exfalso; apply NI; left; reflexivity|exact X2].
    + split; [intros NI; exfalso; apply (NI p); left; reflexivity|intros _; exact IP].
  - exists l. split; [exact M|]. split; [reflexivity|]. split; [|auto]. intros q x X. exists x. split; [exact X|]. split; [intros [I|[]]; injection I as -> ->; congruence|reflexivity].
Qed.
Lemma renamed_trans a l new ls1 ls2 ls3 : renamed [a] new ls1 ls2 -> renamed l new ls2 ls3 -> renamed (a :: l) new ls1 ls3.
Proof.
  intros (L1 & R1) (L2 & R2). split; [lia|]. intros m ll M. destruct (R1 _ _ M) as (ll' & M' & F1 & W1 & E1 & P1). destruct (R2 _ _ M') as (ll'' & M'' & F2 & W2 & E2 & P2).
  exists ll''. split; [exact M''|]. split; [lia|]. split; [|split; [|auto]].
  - intros p x X. destruct (W1 _ _ X) as (x' & X' & A1 & B1). destruct (W2 _ _ X') as (x'' & X'' & A2 & B2). exists x''. split; [exact X''|]. split.
    + intros I. destruct (in_dec (fun u v : nat * nat => ltac:(repeat decide equality) : {u = v} + {u <> v}) (m, p) l) as [J|J]; [apply A2; exact J|]. rewrite (B2 J). apply A1. destruct I as [I|I]; [left; exact I|contradiction].
    + intros NI. rewrite B2; [|intros J; apply NI; right; exact J]. apply B1. intros [J|[]]. apply NI. left. exact J.
  - intros NI. rewrite E2; [apply E1|]; intros p I; apply (NI p); [destruct I as [I|[]]; left; exact I|right; exact I].
Qed.
