(** Lemmas for C79. *)
From Coq Require Import Sorting.Sorted Lia.
From Verif Require Import Base Tags SyntaxTags FileLine Token TTStream StmtRules Peg Peg_spec Peg_proofs StmtGrammar StmtParser Stmt_spec StmtTables_proofs StmtDispatch_proofs
  Prgm Prgm_proofs PrgmSource LogicalFile LogicalLine StmtSrc Lexer ReadFile Indent FormatMain ShowCst ShowCst_spec Props_Stmt Props_Peg.
Local Open Scope nat_scope.

Lemma sg_in t : In t sg_tags <-> (SG_000_LB < t < SG_ZZZ_UB)%Z.
Proof.
  unfold sg_tags. rewrite in_map_iff. split.
  - intros (k & <- & H). apply in_seq in H. lia.
  - intros H. exists (Z.to_nat (t - SG_000_LB - 1)). split; [lia|]. apply in_seq. lia.
Qed.
Lemma show_in t : In t show_tags <-> statement_kind t.
Proof.
  unfold show_tags. rewrite filter_In, sg_in. unfold statement_kind, type5. split; intros (H & X); split; auto.
  - destruct (tag_type [] t) as [k| |]; try discriminate. apply Z.eqb_eq in X. now subst.
  - now rewrite X.
Qed.
Lemma seq_sorted n a : StronglySorted Z.lt (map (fun k => (SG_000_LB + 1 + Z.of_nat k)%Z) (seq a n)).
Proof.
  revert a. induction n; intros a; cbn [seq map]; constructor; auto. apply Forall_forall. intros x H. apply in_map_iff in H. destruct H as (k & <- & H). apply in_seq in H. lia.
Qed.
Lemma sorted_filter f l : StronglySorted Z.lt l -> StronglySorted Z.lt (filter f l).
Proof.
  induction 1 as [|x l H IH F]; [constructor|]. cbn [filter]. destruct (f x); auto. constructor; auto.
  rewrite Forall_forall in *. intros y Hy. apply filter_In in Hy. apply F, Hy.
Qed.
Lemma show_sorted : StronglySorted Z.lt show_tags.
Proof. apply sorted_filter, seq_sorted. Qed.

(** No entry of the table is the parser that moves the stream without a result. *)
Lemma dispatch_not_des tag r : dispatch_rule tag = Some r -> r <> r_procedure_designator.
Proof.
  intros H ->. apply dispatch_in in H.
  assert (G : forallb (fun p : Z * rule => match snd p with r_procedure_designator => false | _ => true end) dispatch_table = true) by (vm_compute; reflexivity).
  rewrite forallb_forall in G. apply G in H. discriminate.
Qed.
Lemma dispatch_restores exts n tag s o s' : exts_same exts -> parse_stmt_dispatch exts n tag s = Done (o, s') -> same s s' /\ (o = None -> s' = s).
Proof.
  intros E H. unfold parse_stmt_dispatch in H. destruct (dispatch_rule tag) as [r|] eqn:D.
  - eapply C23_grammar; eauto using dispatch_not_des.
  - injection H as <- <-. repeat split.
Qed.

Lemma rewind_fresh s s' : same s s' -> pos s = s_beg s -> rewind0 s' = s.
Proof. destruct s, s'. unfold same, rewind0, set_pos. cbn. intros (-> & -> & ->) ->. reflexivity. Qed.

(** The loop over the parsers with one stream is as good as with a stream for each. *)
Lemma loop_shows exts n (E : exts_same exts) s (P : pos s = s_beg s) : forall tags k l, StronglySorted Z.lt tags -> show_loop exts n tags k s = Done l ->
  map fst l = seq (S k) (length l) /\
  exists kinds, StronglySorted Z.lt kinds /\ Forall2 (fun q r => In q tags /\ accepts exts n s q (snd r)) kinds l /\
    forall q t, In q tags -> accepts exts n s q t -> In q kinds.
Proof.
  induction tags as [|t tags IH]; intros k l SS H; cbn [show_loop] in H.
  - injection H as <-. split; [reflexivity|]. exists []. repeat split; try constructor. intros q t [].
  - inversion SS as [|? ? SS' FS]; subst.
    assert (UP : forall kinds l, Forall2 (fun q (r : nat * stree) => In q tags /\ accepts exts n s q (snd r)) kinds l -> Forall (Z.lt t) kinds /\
      Forall2 (fun q r => In q (t :: tags) /\ accepts exts n s q (snd r)) kinds l).
    { intros ks l' F. induction F as [|q r ks l' (Y & Z1) F (IH1 & IH2)]; split; constructor; auto. { rewrite Forall_forall in FS. auto. } split; [now right|auto]. }
    destruct (parse_stmt_dispatch exts n t s) as [(o & s1)| |] eqn:D; cbn [obind] in H; try discriminate.
    pose proof (dispatch_restores _ _ _ _ _ _ E D) as (SM & RS). destruct o as [x|].
    + rewrite (rewind_fresh _ _ SM P) in H. destruct (show_loop exts n tags (k + 1) s) as [rest| |] eqn:R; cbn [obind] in H; try discriminate. injection H as <-.
      apply IH in R; [|exact SS']. destruct R as (R1 & kinds & RF & R2 & R3). split.
      * cbn [map fst length seq]. rewrite R1. replace (k + 1) with (S k) by lia. reflexivity.
      * apply UP in R2. destruct R2 as (R4 & R2). exists (t :: kinds). split; [now constructor|]. split.
        -- constructor; [|exact R2]. split; [now left|]. now exists s1.
        -- intros q u [<-|I] A; [now left|right; eauto].
    + rewrite (RS eq_refl) in H. apply IH in H; [|exact SS']. destruct H as (R1 & kinds & RF & R2 & R3). split; auto. exists kinds. apply UP in R2. destruct R2 as (R4 & R2).
      split; [auto|]. split; [auto|]. intros q u [<-|I] (s2 & A); [rewrite D in A; discriminate|]. apply (R3 q u I). now exists s2.
Qed.
Lemma loop_done exts n (E : exts_same exts) s (P : pos s = s_beg s) : forall tags k,
  (exists l, show_loop exts n tags k s = Done l) <-> (forall t, In t tags -> exists x, parse_stmt_dispatch exts n t s = Done x).
Proof.
  induction tags as [|t tags IH]; intros k; cbn [show_loop].
  - split; [intros _ t []|exists []; reflexivity].
  - destruct (parse_stmt_dispatch exts n t s) as [(o & s1)| |] eqn:D; cbn [obind].
    + pose proof (dispatch_restores _ _ _ _ _ _ E D) as (SM & RS).
      assert (X : forall k, (exists l, show_loop exts n tags k s = Done l) <-> (forall q, In q (t :: tags) -> exists x, parse_stmt_dispatch exts n q s = Done x)).
      { intros k'. rewrite IH. split; intros H q I; [|apply H; now right]. destruct I as [<-|I]; eauto. }
      destruct o as [x|].
      * rewrite (rewind_fresh _ _ SM P), <- (X (k + 1)). destruct (show_loop exts n tags (k + 1) s); cbn [obind]; split; intros (l & H); try discriminate; eauto.
      * rewrite (RS eq_refl). apply X.
    + split; [intros (l & H); discriminate|]. intros H. destruct (H t (or_introl eq_refl)) as (x & Hx). congruence.
    + split; [intros (l & H); discriminate|]. intros H. destruct (H t (or_introl eq_refl)) as (x & Hx). congruence.
Qed.

(** Printed trees. *)
Fixpoint print_kids (l : list stree) : res str := match l with [] => Ok [] | k :: r => bind (print_tree k) (fun x => bind (print_kids r) (fun y => Ok (x ++ L " " ++ y))) end.
Lemma print_eq a r k : print_tree (ST a r k) = bind (tag_label [] a) (fun h => match k with [] => Ok h | _ => bind (print_kids k) (fun b => Ok (h ++ L " <" ++ b ++ L ">")) end).
Proof. reflexivity. Qed.
Section Stree_ind.
  Variable P : stree -> Prop.
  Hypothesis H : forall a r k, Forall P k -> P (ST a r k).
  Fixpoint stree_ind2 (t : stree) : P t :=
    match t with ST a r k => H a r k ((fix go l : Forall P l := match l with [] => Forall_nil P | x :: q => @Forall_cons _ P x q (stree_ind2 x) (go q) end) k) end.
End Stree_ind.
(** What may stand after a printed tree. *)
Definition after (r : str) : Prop := r = [] \/ exists c q, r = " "%char :: c :: q /\ c <> "<"%char.
Lemma word_end : forall a b r r', ~ In " "%char a -> ~ In " "%char b -> (r = [] \/ exists q, r = " "%char :: q) -> (r' = [] \/ exists q, r' = " "%char :: q) ->
  a ++ r = b ++ r' -> a = b /\ r = r'.
Proof.
  induction a as [|c a IH]; intros [|d b] r r' A B R R' Q; cbn [app] in Q; auto.
  - exfalso. destruct R as [->|(q & ->)]; [discriminate|]. injection Q as <- _. apply B. now left.
  - exfalso. destruct R' as [->|(q & ->)]; [discriminate|]. injection Q as -> _. apply A. now left.
  - injection Q as <- Q. apply IH in Q; auto; [|now intros X; apply A; right|now intros X; apply B; right]. destruct Q as (-> & ->). auto.
Qed.

Lemma print_first t s : plain_tree t -> print_tree t = Ok s -> exists c q, s = c :: q /\ c <> "<"%char /\ c <> ">"%char.
Proof.
  intros P H. destruct P as [a r k (c & q & A & N1 & N2 & _) F]. rewrite print_eq, A in H. cbn [bind] in H. destruct k as [|x k].
  - injection H as <-. eauto.
  - destruct (print_kids (x :: k)) as [b| |]; cbn [bind] in H; try discriminate. injection H as <-. cbn [app]. eauto.
Qed.
Lemma kids_first k b : Forall plain_tree k -> print_kids k = Ok b -> b = [] \/ exists c q, b = c :: q /\ c <> "<"%char /\ c <> ">"%char.
Proof.
  intros F H. destruct F as [|x k X F]; cbn [print_kids] in H; [injection H as <-; now left|]. right.
  destruct (print_tree x) as [s| |] eqn:E; cbn [bind] in H; try discriminate. apply print_first in E; auto. destruct E as (c & q & -> & N).
  destruct (print_kids k) as [b'| |]; cbn [bind] in H; try discriminate. injection H as <-. cbn [app]. eauto.
Qed.
Definition readable (t : stree) : Prop := forall u a b r r', plain_tree t -> plain_tree u -> print_tree t = Ok a -> print_tree u = Ok b -> after r -> after r' ->
  a ++ r = b ++ r' -> same_labels t u /\ r = r'.
Lemma kids_readable k : Forall readable k -> forall k' a b r r', Forall plain_tree k -> Forall plain_tree k' -> print_kids k = Ok a -> print_kids k' = Ok b ->
  a ++ ">"%char :: r = b ++ ">"%char :: r' -> Forall2 same_labels k k' /\ r = r'.
Proof.
  intros R. induction R as [|x k X R IH]; intros k' a b r r' P P' A B Q.
  - cbn [print_kids] in A. injection A as <-. destruct P' as [|y k' Y P'].
    + cbn [print_kids] in B. injection B as <-. cbn [app] in Q. injection Q as ->. split; auto.
    + pose proof (kids_first (y :: k') b (Forall_cons _ Y P') B) as [->|(c & q & -> & N1 & N2)].
      * exfalso. cbn [print_kids] in B. destruct (print_tree y) as [s| |] eqn:E; cbn [bind] in B; try discriminate. apply print_first in E; auto. destruct E as (c & q & -> & _).
        destruct (print_kids k'); cbn [bind] in B; discriminate.
      * exfalso. cbn [app] in Q. injection Q as E _. congruence.
  - inversion P as [|? ? Px Pk]; subst. cbn [print_kids] in A. destruct (print_tree x) as [sx| |] eqn:Ex; cbn [bind] in A; try discriminate.
    destruct (print_kids k) as [bx| |] eqn:Ek; cbn [bind] in A; try discriminate. injection A as <-.
    assert (AF : forall b (r : str), (b = [] \/ exists c q, b = c :: q /\ c <> "<"%char /\ c <> ">"%char) -> after (" "%char :: b ++ ">"%char :: r)).
    { intros b0 r0 [->|(c & q & -> & N & _)]; right; cbn [app]; eexists; eexists; split; try reflexivity; auto. discriminate. }
    destruct P' as [|y k' Y P'].
    + cbn [print_kids] in B. injection B as <-. exfalso. apply print_first in Ex; auto. destruct Ex as (c & q & -> & N1 & N2). cbn [app] in Q. injection Q as E _. congruence.
    + cbn [print_kids] in B. destruct (print_tree y) as [sy| |] eqn:Ey; cbn [bind] in B; try discriminate.
      destruct (print_kids k') as [by_| |] eqn:Ek'; cbn [bind] in B; try discriminate. injection B as <-.
      rewrite <- !app_assoc in Q. cbn [app L list_ascii_of_string] in Q.
      apply (X y sx sy _ _ Px Y Ex Ey (AF bx r (kids_first _ _ Pk Ek)) (AF by_ r' (kids_first _ _ P' Ek'))) in Q.
      destruct Q as (S1 & Q). injection Q as Q. apply (IH k' bx by_ r r') in Q; auto. destruct Q as (S2 & ->). split; auto.
Qed.
Lemma all_readable t : readable t.
Proof.
  induction t as [a ra k IH] using stree_ind2. intros [a' ra' k'] s s' r r' P P' A B R R' Q. inversion P as [? ? ? LA FA]; subst. inversion P' as [? ? ? LB FB]; subst.
  destruct LA as (c & q & LA & _ & _ & NA). destruct LB as (c' & q' & LB & _ & _ & NB). rewrite print_eq, LA in A. rewrite print_eq, LB in B.
  remember (c :: q) as h eqn:Dh. remember (c' :: q') as h' eqn:Dh'. clear Dh Dh'. cbn [bind] in A, B.
  assert (W : forall r, after r -> r = [] \/ exists q, r = " "%char :: q) by (intros r0 [->|(d & e & -> & _)]; eauto).
  destruct k as [|x k], k' as [|y k'].
  - injection A as <-. injection B as <-. apply word_end in Q; auto. destruct Q as (Q & ->). split; auto. constructor; auto. now rewrite LA, LB, Q.
  - destruct (print_kids (y :: k')) as [b| |]; cbn [bind] in B; try discriminate. injection B as <-. injection A as <-.
    rewrite <- !app_assoc in Q. apply word_end in Q; auto; [|right; eexists; reflexivity].
    destruct Q as (_ & ->). exfalso. destruct R as [E|(d & e & E & N)]; [discriminate|]. cbn in E. injection E as E _. congruence.
  - destruct (print_kids (x :: k)) as [b| |]; cbn [bind] in A; try discriminate. injection B as <-. injection A as <-.
    rewrite <- !app_assoc in Q. apply word_end in Q; auto; [|right; eexists; reflexivity].
    destruct Q as (_ & <-). exfalso. destruct R' as [E|(d & e & E & N)]; [discriminate|]. cbn in E. injection E as E _. congruence.
  - destruct (print_kids (x :: k)) as [b| |] eqn:Ek; cbn [bind] in A; try discriminate. injection A as <-.
    destruct (print_kids (y :: k')) as [b'| |] eqn:Ek'; cbn [bind] in B; try discriminate. injection B as <-.
    rewrite <- !app_assoc in Q. apply word_end in Q; auto; try (right; eexists; reflexivity). destruct Q as (QL & Q). cbn [app L list_ascii_of_string] in Q. injection Q as Q.
    rewrite <- !app_assoc in Q. cbn [app] in Q. eapply kids_readable in Q; eauto. destruct Q as (F & ->). split; auto. constructor; auto. now rewrite LA, LB, QL.
Qed.
