(** Proofs about what the applications look for in statements. *)
From Coq Require Import Lia.
From Verif Require Import Base Base_lemmas Tags SyntaxTags Token TTStream TTStream_spec StmtRules Peg Peg_spec Peg_proofs PegCover_proofs Stmt_spec StmtGrammar StmtParser
  StmtTables_proofs StmtRoots_proofs StmtTree_spec StmtTree_proofs FileLine LogicalLine LexPos_spec LineEdit LineEdit_spec StmtWalk StmtWalk_spec StmtWalk_proofs StmtRun_proofs StmtName_proofs.
From Verif Require Import Props_Stmt.
Local Open Scope nat_scope.

Lemma action_kid exts n s t s' g : parse_rule grammar exts n r_action_stmt s = Done (Some t, s') -> extract_tag (Some t) = Ok g -> exists k ks, t_kids t = k :: ks /\ t_tag k = g /\ t_tag t = SG_ACTION_STMT.
Proof.
  intros H X. pose proof (any_root_ok grammar exts n r_action_stmt SG_ACTION_STMT _ _ _ eq_refl H) as TG. unfold extract_tag in X. rewrite TG, Z.eqb_refl in X. unfold w_down, w_root in X. cbn [fst] in X.
  destruct (t_kids t) as [|k ks]; [discriminate|]. cbn [bind] in X. unfold w_tag in X. cbn [fst] in X. injection X as X. eauto.
Qed.
Lemma last_part parts : part_list parts -> forall q, match parts ++ [leaf_at TK_NAME q] with
  | [] => False
  | k :: ks => (if (SG_PART_REF =? t_tag k)%Z then w_last k ks else k) = leaf_at TK_NAME q
  end.
Proof.
  intros H q. destruct H as [|r k b l H]; [reflexivity|]. cbn [app t_tag]. rewrite Z.eqb_refl.
  enough (forall x, w_last x (l ++ [leaf_at TK_NAME q]) = leaf_at TK_NAME q) as E by (cbn [w_last]; apply E).
  induction H as [|r0 k0 b0 l H IH]; intros x; [reflexivity|]. cbn [app w_last]. apply IH.
Qed.
Lemma shape_nature fr E l : gives_rule grammar fr E r_module_nature l -> exists r g b, l = [ST SG_MODULE_NATURE r [leaf_at g b]] /\ tok_at fr b (fun k => tok k = g) /\ (g = KW_INTRINSIC \/ g = KW_NON_INTRINSIC).
Proof.
  intros H. eapply inv_exp in H; [|reflexivity]. apply inv_alts in H. destruct H as (p & l0 & I & H & N). apply node_one in N; [|vm_compute; discriminate]. destruct N as (r & ->).
  cbn [In] in I. destruct I as [<-|[<-|[]]]; apply inv_tok in H; destruct H as (b & -> & T); eexists _, _, _; (split; [reflexivity|]); auto.
Qed.
Lemma shape_use_full fr E t : gives_rule grammar fr E r_use_stmt [t] -> exists r a mid c rest, t = ST SG_USE_STMT r (leaf_at KW_USE a :: mid ++ leaf_at TK_NAME c :: rest) /\
  kind fr a KW_USE /\ name_at fr c (fun _ => True) /\
  (mid = [] \/ (exists b, mid = [leaf_at TK_DBL_COLON b] /\ kind fr b TK_DBL_COLON) \/
   exists b r0 g d b', mid = [leaf_at TK_COMMA b; ST SG_MODULE_NATURE r0 [leaf_at g d]; leaf_at TK_DBL_COLON b'] /\ kind fr b TK_COMMA /\ kind fr d g /\ (g = KW_INTRINSIC \/ g = KW_NON_INTRINSIC) /\ kind fr b' TK_DBL_COLON).
Proof.
  intros H. eapply inv_exp in H; [|reflexivity]. apply inv_alts in H. destruct H as (p & l0 & I & H & N). apply node_one in N; [|vm_compute; discriminate]. destruct N as (r & N). injection N as ->.
  assert (exists tl, p = h_seq (PTok KW_USE :: POpt (h_seq [POpt (h_seq [PTok TK_COMMA; PRule r_module_nature]); PTok TK_DBL_COLON]) :: PName :: tl)) as (tl & ->) by (cbn [In] in I; destruct I as [<-|[<-|[]]]; eexists; reflexivity).
  clear I. apply inv_hseq in H. apply inv_cons in H. destruct H as (l1 & l2 & -> & H1 & H). apply inv_tok in H1. destruct H1 as (a & -> & TA).
  apply inv_cons in H. destruct H as (mid & l3 & -> & HM & H). apply inv_cons in H. destruct H as (l4 & rest & -> & H4 & _). apply inv_name in H4. destruct H4 as (c & -> & NC).
  exists r, a, mid, c, rest. split; [reflexivity|]. split; [exact TA|]. split; [exact NC|].
  apply inv_opt in HM. destruct HM as [->|HM]; [left; reflexivity|right]. apply inv_hseq in HM. apply inv_cons in HM. destruct HM as (m1 & m2 & -> & H1 & HM). apply inv_cons in HM. destruct HM as (m3 & m4 & -> & H3 & HM).
  apply inv_nil in HM. subst m4. apply inv_tok in H3. destruct H3 as (b' & -> & TB'). apply inv_opt in H1. destruct H1 as [->|H1]; [left; exists b'; auto|right].
  apply inv_hseq in H1. apply inv_cons in H1. destruct H1 as (m4 & m5 & -> & H1 & HM). apply inv_tok in H1. destruct H1 as (b & -> & TB). apply inv_cons in HM. destruct HM as (m6 & m7 & -> & H1 & HM). apply inv_nil in HM. subst m7.
  apply inv_rule in H1. apply shape_nature in H1. destruct H1 as (r0 & g & d & -> & TD & G). exists b, r0, g, d, b'. split; [reflexivity|]. auto.
Qed.
Lemma spec_kids fr l : Forall (is_spec fr) l -> exists b, any_spec l = Ok b /\
  (b = true <-> exists r g p, In (ST SG_PREFIX_SPEC r [leaf_at g p]) l /\ kind fr p g /\ In g [KW_PURE; KW_ELEMENTAL]).
Proof.
  induction 1 as [|x l (r & k & -> & K) _ (b & IH & IB)]; cbn [any_spec].
  - exists false. split; [reflexivity|]. split; [discriminate|]. intros (r & g & p & [] & _).
  - cbn [t_tag]. rewrite Z.eqb_refl. cbn [assert_ bind]. unfold w_down, w_root, w_tag. cbn [fst t_kids bind]. destruct ((t_tag k =? KW_PURE)%Z || (t_tag k =? KW_ELEMENTAL)%Z) eqn:EK.
    + exists true. split; [reflexivity|]. split; [intros _|reflexivity]. destruct K as [K|(g & p & -> & I & T)]; [rewrite K in EK; vm_compute in EK; discriminate|]. cbn [leaf_at t_tag] in EK.
      exists r, g, p. split; [left; reflexivity|]. split; [exact T|]. apply orb_true_iff in EK. cbn [In]. destruct EK as [EK|EK]; apply Z.eqb_eq in EK; auto.
    + exists b. split; [exact IH|]. rewrite IB. split; intros (r0 & g & p & I & T & G); exists r0, g, p.
      * split; [right; exact I|]. auto.
      * destruct I as [I|I]; [|auto]. exfalso. injection I as -> ->. cbn [leaf_at t_tag] in EK. cbn [In] in G. destruct G as [<-|[<-|[]]]; vm_compute in EK; discriminate.
Qed.
