(** Proofs about the labels of DO statements. *)
From Coq Require Import Lia.
From Verif Require Import Base Base_lemmas Tags SyntaxTags Token TTStream TTStream_spec StmtRules Peg Peg_spec Peg_proofs PegCover_proofs Stmt_spec StmtGrammar StmtParser
  StmtTables_proofs StmtRoots_proofs StmtTree_spec StmtTree_proofs LabelStack Prgm StmtWalk_spec StmtWalk_proofs StmtRun_proofs StmtName_proofs DoLabel_spec.
From Verif Require Import Props_Stmt.
Local Open Scope nat_scope.

Section Shapes.
Variable fr : list Token.
Variable E : bool -> stree -> Prop.
Notation G := (gives grammar fr E).
Notation GS := (gives_seq grammar fr E).
Notation GR := (gives_rule grammar fr E).
Notation tkind b g := (tok_at fr b (fun k => tok k = g)).

(** "name :" in front of the word, or nothing *)
Definition opt_name (l : list stree) : Prop :=
  l = [] \/ exists b c, l = [leaf_at TK_NAME b; leaf_at TK_COLON c] /\ name_at fr b (fun _ => True) /\ tkind c TK_COLON.
Lemma shape_opt_name l : G (POpt (h_seq [PName; PTok TK_COLON])) l -> opt_name l.
Proof using.
  intros H. apply inv_opt in H. destruct H as [->|H]; [left; reflexivity|right]. apply inv_hseq in H.
  apply inv_cons in H. destruct H as (l1 & l2 & -> & H1 & H). apply inv_name in H1. destruct H1 as (b & -> & N).
  apply inv_cons in H. destruct H as (l1 & l3 & -> & H1 & H). apply inv_tok in H1. destruct H1 as (c & -> & T). apply inv_nil in H. subst. exists b, c. auto.
Qed.
(** how a loop control begins *)
Definition ctl_first (t : stree) : Prop := exists g b, t = leaf_at g b /\
  (g = TK_NAME /\ name_at fr b (fun _ => True) \/ tkind b g /\ (g = TK_COMMA \/ g = KW_WHILE \/ g = KW_CONCURRENT)).
Lemma shape_ctl l : GR r_loop_control l -> exists r t k, l = [ST SG_LOOP_CONTROL r (t :: k)] /\ ctl_first t.
Proof using.
  intros H. eapply inv_exp in H; [|reflexivity]. apply inv_seq in H. destruct H as (l0 & H & N). apply node_one in N; [|vm_compute; discriminate]. destruct N as (r & ->).
  apply inv_cons in H. destruct H as (l1 & l2 & -> & H1 & H). apply inv_opt in H1. destruct H1 as [->|H1].
  - cbn [app]. apply inv_cons in H. destruct H as (l1 & l3 & -> & H1 & _). apply inv_alts in H1. destruct H1 as (p & l0 & I & H1 & N). unfold is_node in N. rewrite Z.eqb_refl in N. subst l1.
    cbn [In] in I. destruct I as [<-|[<-|[<-|[]]]]; apply inv_hseq in H1; apply inv_cons in H1; destruct H1 as (m & m' & -> & H1 & _).
    + apply inv_name in H1. destruct H1 as (b & -> & N). eexists _, _, _. split; [cbn [app]; reflexivity|]. exists TK_NAME, b. auto.
    + apply inv_tok in H1. destruct H1 as (b & -> & N). eexists _, _, _. split; [cbn [app]; reflexivity|]. exists KW_WHILE, b. auto 6.
    + apply inv_tok in H1. destruct H1 as (b & -> & N). eexists _, _, _. split; [cbn [app]; reflexivity|]. exists KW_CONCURRENT, b. auto 6.
  - apply inv_tok in H1. destruct H1 as (b & -> & N). eexists _, _, _. split; [cbn [app]; reflexivity|]. exists TK_COMMA, b. auto 6.
Qed.
Lemma shape_do t : GR r_do_stmt [t] -> exists r g r' pre a more, t = ST SG_DO_STMT r [ST g r' (pre ++ leaf_at KW_DO a :: more)] /\ opt_name pre /\ tkind a KW_DO /\
  (g = SG_LABEL_DO_STMT /\ (exists rl c rest, more = ST SG_LABEL rl [leaf_at SG_INT_LITERAL_CONSTANT c] :: rest /\ tkind c SG_INT_LITERAL_CONSTANT) \/
   g = SG_NONLABEL_DO_STMT /\ (more = [] \/ exists rc f k, more = [ST SG_LOOP_CONTROL rc (f :: k)] /\ ctl_first f)).
Proof using.
  intros H. eapply inv_exp in H; [|reflexivity]. apply inv_seq in H. destruct H as (l0 & H & N). apply node_one in N; [|vm_compute; discriminate]. destruct N as (r & N). injection N as ->.
  apply inv_cons in H. destruct H as (l1 & l2 & -> & H1 & H). apply inv_cons in H. destruct H as (l3 & l4 & -> & H2 & H). apply inv_nil in H. subst l4. apply inv_peek in H2. subst l3.
  rewrite !app_nil_r. apply inv_alts in H1. destruct H1 as (p & l0 & I & H1 & N). unfold is_node in N. rewrite Z.eqb_refl in N. subst l1. cbn [In] in I. destruct I as [<-|[<-|[]]];
    apply inv_rule in H1; (eapply inv_exp in H1; [|reflexivity]); apply inv_seq in H1; destruct H1 as (l1 & H1 & N); (apply node_one in N; [|vm_compute; discriminate]); destruct N as (r' & ->);
    apply inv_cons in H1; destruct H1 as (pre & l2 & -> & HP & H1); apply shape_opt_name in HP;
    apply inv_cons in H1; destruct H1 as (m1 & l3 & -> & HD & H1); apply inv_tok in HD; destruct HD as (a & -> & TD).
  - apply inv_cons in H1. destruct H1 as (m2 & l4 & -> & HL & H1). apply inv_rule in HL. eapply inv_exp in HL; [|reflexivity]. apply inv_tag in HL. destruct HL as (m3 & HL & N).
    apply inv_tok in HL. destruct HL as (c & -> & TC). apply node_one in N; [|vm_compute; discriminate]. destruct N as (rl & ->).
    eexists _, _, _, _, _, _. split; [cbn [app]; reflexivity|]. split; [exact HP|]. split; [exact TD|]. left. split; [reflexivity|]. eexists _, _, _. split; [reflexivity|exact TC].
  - apply inv_cons in H1. destruct H1 as (m2 & l4 & -> & HL & H1). apply inv_cons in H1. destruct H1 as (m3 & l5 & -> & HE & H1). apply inv_nil in H1. subst l5. apply inv_peek in HE. subst m3. rewrite !app_nil_r.
    eexists _, _, _, _, _, _. split; [cbn [app]; reflexivity|]. split; [exact HP|]. split; [exact TD|]. right. split; [reflexivity|]. apply inv_opt in HL. destruct HL as [->|HL]; [left; reflexivity|right].
    apply inv_rule in HL. apply shape_ctl in HL. destruct HL as (rc & f & k & -> & F). eauto 6.
Qed.
End Shapes.

Lemma kind_true s b g : b < s_end s -> tok_at (frags s) b (fun k => tok k = g) -> is_kind s b g = true.
Proof. intros L (x & X & T). unfold is_kind. rewrite X, T, Z.eqb_refl. apply andb_true_iff. split; [apply Nat.ltb_lt; lia|reflexivity]. Qed.
Lemma kind_other s b g h : tok_at (frags s) b (fun k => tok k = g) -> g <> h -> is_kind s b h = false.
Proof. intros (x & X & T) N. unfold is_kind. rewrite X, T. apply Z.eqb_neq in N. rewrite N. apply andb_false_r. Qed.
Lemma kind_name s b h : name_at (frags s) b (fun _ => True) -> is_name_tag h <> Ok true -> is_kind s b h = false.
Proof. intros (x & X & T & _) N. unfold is_kind. rewrite X. destruct (Z.eqb_spec (tok x) h) as [Q|]; [congruence|apply andb_false_r]. Qed.
Lemma kind_end s b h : s_end s <= b -> is_kind s b h = false.
Proof. intros L. unfold is_kind. replace (b <? s_end s) with false; [reflexivity|]. symmetry. apply Nat.ltb_ge. lia. Qed.
Lemma ctl_not s f : ctl_first (frags s) f -> forall b g, f = leaf_at g b -> is_kind s b SG_INT_LITERAL_CONSTANT = false /\ is_kind s b TK_COLON = false.
Proof.
  intros (g0 & b0 & -> & C) b g Q. unfold leaf_at in Q. injection Q as -> -> _. destruct C as [(_ & N)|(T & C)].
  - split; (eapply kind_name; [exact N|vm_compute; discriminate]).
  - split; (eapply kind_other; [exact T|]); destruct C as [->|[->| ->]]; vm_compute; discriminate.
Qed.

Lemma do_run exts n s t s' : exts_ok exts -> exts_end exts -> proper_stmt s -> parse_rule grammar exts n r_do_stmt s = Done (Some t, s') ->
  do_place s < s_end s /\ kind (frags s) (do_place s) KW_DO /\ (do_place s = pos s \/ do_place s = pos s + 2 /\ name_at (frags s) (pos s) (fun _ => True)) /\
  do_label (frags s) t = written_label s.
Proof.
  intros He Hee Hs H. pose proof (exts_same_of _ He) as HX. destruct (C24_grammar _ _ _ _ _ _ He Hs H) as (S0 & L0 & CV & _).
  assert (W : pos s' = s_end s) by (eapply whole_rule; eauto; reflexivity).
  eapply rooted_gives in H; [|exact HX|reflexivity|vm_compute; discriminate]. apply shape_do in H. destruct H as (r & g & r' & pre & a & more & -> & P & TD & C).
  rewrite W in CV. apply node_list in CV; [|discriminate]. inversion CV as [|? ? ? c ? CV1 CV2]; subst. inversion CV2; subst.
  apply node_list in CV1; [|destruct pre; discriminate].
  assert (exists q, covers_list s (leaf_at KW_DO a :: more) q (s_end s) /\ (pre = [] /\ q = pos s \/ q = pos s + 2 /\ name_at (frags s) (pos s) (fun _ => True) /\
     (exists c, pre = [leaf_at TK_NAME (pos s); c] /\ is_kind s (S (pos s)) TK_COLON = true))) as (q & CQ & PQ).
  { destruct P as [->|(b & c & -> & N & T)].
    - exists (pos s). split; [exact CV1|left; auto].
    - cbn [app] in CV1. apply leaf_list in CV1. destruct CV1 as (<- & CV1). apply leaf_list in CV1. destruct CV1 as (<- & CV1). exists (S (S (pos s))). split; [exact CV1|right]. split; [lia|]. split; [exact N|].
      eexists. split; [reflexivity|]. apply kind_true; [|exact T]. apply leaf_list in CV1. destruct CV1 as (EA & CV1). apply covers_list_le in CV1. lia. }
  apply leaf_list in CQ. destruct CQ as (-> & CM). pose proof (covers_list_le _ _ _ _ CM) as LM.
  assert (NX : is_kind s (S a) TK_COLON = false /\
    (g = SG_LABEL_DO_STMT /\ (exists rl rest, more = ST SG_LABEL rl [leaf_at SG_INT_LITERAL_CONSTANT (S a)] :: rest) /\ is_kind s (S a) SG_INT_LITERAL_CONSTANT = true \/
     g = SG_NONLABEL_DO_STMT /\ is_kind s (S a) SG_INT_LITERAL_CONSTANT = false)).
  { destruct C as [(-> & rl & c & rest & -> & T)|(-> & C)].
    - inversion CM as [|? ? ? c1 ? CM1 CM2]; subst. apply node_list in CM1; [|discriminate]. apply leaf_list in CM1. destruct CM1 as (<- & CM1). inversion CM1; subst. apply covers_list_le in CM2. split.
      + eapply kind_other; [exact T|vm_compute; discriminate].
      + left. split; [reflexivity|]. split; [eauto|]. apply kind_true; [lia|exact T].
    - destruct C as [->|(rc & f & k & -> & F)].
      + inversion CM; subst. split; [apply kind_end; lia|right; split; [reflexivity|apply kind_end; lia]].
      + inversion CM as [|? ? ? c1 ? CM1 CM2]; subst. apply node_list in CM1; [|discriminate]. pose proof (ctl_not _ _ F) as NT. destruct F as (g0 & b0 & -> & _). apply leaf_list in CM1. destruct CM1 as (<- & CM1).
        destruct (NT _ _ eq_refl) as (N1 & N2). auto. }
  destruct NX as (NC & NX).
  assert (DP : do_place s = a /\ (do_place s = pos s \/ do_place s = pos s + 2 /\ name_at (frags s) (pos s) (fun _ => True))).
  { unfold do_place. destruct PQ as [(_ & <-)|(-> & N & c & _ & ->)]; [rewrite NC; auto|]. auto. }
  destruct DP as (DP & DW). rewrite DP in *. split; [lia|]. split; [exact TD|]. split; [exact DW|].
  unfold do_label, written_label. cbv zeta. rewrite DP. cbn [t_tag]. change (SG_DO_STMT =? SG_DO_STMT)%Z with true. unfold first_kid at 1. cbn [t_kids bind t_tag].
  destruct NX as [(-> & (rl & rest & ->) & K)|(-> & K)].
  - change (SG_LABEL_DO_STMT =? SG_LABEL_DO_STMT)%Z with true. cbn [negb]. rewrite K.
    assert (LAB : (exists k0, first_kid (ST SG_LABEL_DO_STMT r' (pre ++ leaf_at KW_DO a :: ST SG_LABEL rl [leaf_at SG_INT_LITERAL_CONSTANT (S a)] :: rest)) = Ok k0 /\
       (if (t_tag k0 =? TK_NAME)%Z then skipn 2 (pre ++ leaf_at KW_DO a :: ST SG_LABEL rl [leaf_at SG_INT_LITERAL_CONSTANT (S a)] :: rest)
        else pre ++ leaf_at KW_DO a :: ST SG_LABEL rl [leaf_at SG_INT_LITERAL_CONSTANT (S a)] :: rest) = leaf_at KW_DO a :: ST SG_LABEL rl [leaf_at SG_INT_LITERAL_CONSTANT (S a)] :: rest)).
    { destruct PQ as [(-> & _)|(_ & _ & c & -> & _)]; (eexists; split; [reflexivity|]); reflexivity. }
    destruct LAB as (k0 & -> & Q). cbn [bind t_kids]. rewrite Q. unfold first_kid. cbn [t_kids bind leaf_at t_tag t_rng]. change (SG_INT_LITERAL_CONSTANT =? SG_INT_LITERAL_CONSTANT)%Z with true. cbn [assert_ bind].
    rewrite Nat.eqb_refl. cbn [assert_ bind]. reflexivity.
  - change (SG_NONLABEL_DO_STMT =? SG_LABEL_DO_STMT)%Z with false. cbn [negb]. rewrite K. reflexivity.
Qed.
