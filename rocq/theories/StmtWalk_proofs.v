(** The shapes of the trees that the walks go through. *)
From Coq Require Import Lia.
From Verif Require Import Base Base_lemmas Tags SyntaxTags Token TTStream StmtRules Peg Peg_spec Peg_proofs StmtGrammar StmtParser StmtTables_proofs
  StmtApart_spec StmtApart_proofs StmtRoots_proofs StmtTree_spec StmtTree_proofs LogicalLine LineEdit StmtWalk.
Local Open Scope nat_scope.

Definition action_alts : list pexp := match grammar r_action_stmt with RExt _ _ (PAlts _ ps) => ps | _ => [] end.

Section Shapes.
Variable fr : list Token.
Variable E : bool -> stree -> Prop.
Notation G := (gives grammar fr E).
Notation GS := (gives_seq grammar fr E).
Notation GR := (gives_rule grammar fr E).

Lemma inv_rule r l : G (PRule r) l -> GR r l.
Proof using. intros H. inversion H; subst. assumption. Qed.
Lemma inv_exp r p l : grammar r = RExp p -> GR r l -> G p l.
Proof using. intros B H. inversion H; subst; congruence. Qed.
Lemma inv_desig r p l : grammar r = RDesignator p -> GR r l -> G p l.
Proof using. intros B H. inversion H; subst; congruence. Qed.
Lemma inv_ext r a g p l : grammar r = RExt a g p -> GR r l -> G p l \/ exists t, E a t /\ is_node g (hoist [] (Some t)) l.
Proof using.
  intros B H. inversion H; subst; try congruence.
  - left. congruence.
  - right. assert (a0 = a /\ g0 = g) as (-> & ->) by (split; congruence). eauto.
Qed.
Lemma inv_break r g no l : grammar r = RBreak g no -> GR r l -> exists l0, l0 <> [] /\ is_node g l0 l.
Proof using. intros B H. inversion H; subst; try congruence. replace g with g0 by congruence. eauto. Qed.
Lemma inv_seq g ps l : G (PSeq g ps) l -> exists l0, GS ps l0 /\ is_node g l0 l.
Proof using. intros H. inversion H; subst. eauto. Qed.
Lemma inv_hseq ps l : G (PSeq HOIST ps) l -> GS ps l.
Proof using. intros H. apply inv_seq in H. destruct H as (l0 & H & N). unfold is_node in N. rewrite Z.eqb_refl in N. subst. exact H. Qed.
Lemma inv_alts g ps l : G (PAlts g ps) l -> exists p l0, In p ps /\ G p l0 /\ is_node g l0 l.
Proof using. intros H. inversion H; subst. eauto 6. Qed.
Lemma inv_cons p ps l : GS (p :: ps) l -> exists l1 l2, l = l1 ++ l2 /\ G p l1 /\ GS ps l2.
Proof using. intros H. inversion H; subst. eauto. Qed.
Lemma inv_nil l : GS [] l -> l = [].
Proof using. intros H. inversion H; subst. reflexivity. Qed.
Lemma inv_tok x l : G (PTok x) l -> exists b, l = [leaf_at x b] /\ tok_at fr b (fun k => tok k = x).
Proof using. intros H. inversion H; subst. eauto. Qed.
Lemma inv_name l : G PName l -> exists b, l = [leaf_at TK_NAME b] /\ name_at fr b (fun _ => True).
Proof using. intros H. inversion H; subst. eauto. Qed.
Lemma inv_peek x l : G (PPeek x) l -> l = [].
Proof using. intros H. inversion H; subst. reflexivity. Qed.
Lemma inv_opt p l : G (POpt p) l -> l = [] \/ G p l.
Proof using. intros H. inversion H; subst; auto. Qed.
Lemma inv_star p l : G (PStar p) l -> gives_star grammar fr E p l.
Proof using. intros H. inversion H; subst; auto. Qed.
Lemma inv_tag g p l : G (PTag g p) l -> exists l0, G p l0 /\ is_node g l0 l.
Proof using. intros H. inversion H; subst; eauto. Qed.
Lemma node_one g l out : g <> HOIST -> is_node g l out -> exists r, out = [ST g r l].
Proof using. intros N H. unfold is_node in H. apply Z.eqb_neq in N. rewrite N in H. exact H. Qed.

(** take a sequence apart *)
Ltac seqs :=
  repeat match goal with
  | H : GS (_ :: _) _ |- _ => let l1 := fresh "l" in let l2 := fresh "l" in let H1 := fresh "H" in let H2 := fresh "H" in
      apply inv_cons in H; destruct H as (l1 & l2 & -> & H1 & H2)
  | H : GS [] _ |- _ => apply inv_nil in H; subst
  | H : G (PTok _) _ |- _ => let b := fresh "b" in let H1 := fresh "T" in apply inv_tok in H; destruct H as (b & -> & H1)
  | H : G PName _ |- _ => let b := fresh "b" in let H1 := fresh "N" in apply inv_name in H; destruct H as (b & -> & H1)
  | H : G (PPeek _) _ |- _ => apply inv_peek in H; subst
  | H : G p_eol _ |- _ => apply inv_peek in H; subst
  | H : G (PSeq HOIST _) _ |- _ => apply inv_hseq in H
  | H : G (h_seq _) _ |- _ => apply inv_hseq in H
  | H : G (h_parens _) _ |- _ => apply inv_hseq in H; cbn [app] in H
  end.
Ltac node H := apply node_one in H; [|vm_compute; discriminate]; let r := fresh "r" in destruct H as (r & H).


(** ** Prefixes *)
Definition spec_words : list Z := [KW_ELEMENTAL; KW_IMPURE; KW_MODULE; KW_NON_RECURSIVE; KW_PURE; KW_RECURSIVE].
Definition is_spec (x : stree) : Prop := exists r k, x = ST SG_PREFIX_SPEC r [k] /\
  (t_tag k = SG_DECLARATION_TYPE_SPEC \/ exists g b, k = leaf_at g b /\ In g spec_words /\ tok_at fr b (fun y => tok y = g)).
Lemma shape_spec l : GR r_prefix_spec l -> exists x, l = [x] /\ is_spec x.
Proof using.
  intros H. eapply inv_exp in H; [|reflexivity]. apply inv_alts in H. destruct H as (p & l0 & I & H & N). node N. subst l.
  assert (exists k, l0 = [k] /\ (t_tag k = SG_DECLARATION_TYPE_SPEC \/ exists g b, k = leaf_at g b /\ In g spec_words /\ tok_at fr b (fun y => tok y = g))) as (k & -> & K).
  { cbn [In] in I. repeat (destruct I as [<-|I]; [first [apply inv_tok in H; destruct H as (b & -> & T); eexists; split; [reflexivity|]; right; eexists _, _; split; [reflexivity|]; split; [unfold spec_words; cbn [In]; tauto|exact T]|
      apply inv_rule in H; eapply inv_exp in H; [|reflexivity]; apply inv_alts in H; destruct H as (p & l1 & _ & _ & N1); node N1; subst; eexists; split; [reflexivity|left; reflexivity]]|]). contradiction. }
  eexists. split; [reflexivity|]. eexists _, _. split; [reflexivity|exact K].
Qed.
Lemma shape_specs l : gives_star grammar fr E (PRule r_prefix_spec) l -> Forall is_spec l.
Proof using.
  intros H. remember (PRule r_prefix_spec) as p. induction H as [|p l l' H _ IH]; [constructor|]. subst p. apply Forall_app. split; [|apply IH; reflexivity].
  apply inv_rule, shape_spec in H. destruct H as (x & -> & S). constructor; [exact S|constructor].
Qed.
Definition maybe_prefix (l : list stree) : Prop := l = [] \/ exists r specs, l = [ST SG_PREFIX r specs] /\ Forall is_spec specs.
Lemma shape_prefix l : G (POpt (PRule r_prefix)) l -> maybe_prefix l.
Proof using.
  intros H. apply inv_opt in H. destruct H as [->|H]; [left; reflexivity|]. apply inv_rule in H. eapply inv_exp in H; [|reflexivity].
  apply inv_tag in H. destruct H as (l0 & H & N). node N. subst. right. eexists _, _. split; [reflexivity|]. apply shape_specs. apply inv_star. exact H.
Qed.

(** ** First statements of procedures *)
(** [kw] b, name c, with what is in front and behind *)
Lemma shape_subroutine t : GR r_subroutine_stmt [t] -> exists r pre b c rest, t = ST SG_SUBROUTINE_STMT r (pre ++ leaf_at KW_SUBROUTINE b :: leaf_at TK_NAME c :: rest) /\
  maybe_prefix pre /\ tok_at fr b (fun k => tok k = KW_SUBROUTINE) /\ name_at fr c (fun _ => True).
Proof using.
  intros H. eapply inv_exp in H; [|reflexivity]. apply inv_seq in H. destruct H as (l0 & H & N). node N. injection N as ->.
  apply inv_cons in H. destruct H as (pre & l2 & -> & P & H). apply shape_prefix in P. seqs. eexists _, pre, _, _, _. split; [cbn [app]; reflexivity|]. auto.
Qed.
Lemma shape_function t : GR r_function_stmt [t] -> exists r pre b c rest, t = ST SG_FUNCTION_STMT r (pre ++ leaf_at KW_FUNCTION b :: leaf_at TK_NAME c :: rest) /\
  maybe_prefix pre /\ tok_at fr b (fun k => tok k = KW_FUNCTION) /\ name_at fr c (fun _ => True).
Proof using.
  intros H. eapply inv_exp in H; [|reflexivity]. apply inv_seq in H. destruct H as (l0 & H & N). node N. injection N as ->.
  apply inv_cons in H. destruct H as (pre & l2 & -> & P & H). apply shape_prefix in P. seqs. eexists _, pre, _, _, _. split; [cbn [app]; reflexivity|]. auto.
Qed.
Lemma shape_program t : GR r_program_stmt [t] -> exists r b c, t = ST SG_PROGRAM_STMT r [leaf_at KW_PROGRAM b; leaf_at TK_NAME c] /\
  tok_at fr b (fun k => tok k = KW_PROGRAM) /\ name_at fr c (fun _ => True).
Proof using.
  intros H. eapply inv_exp in H; [|reflexivity]. apply inv_seq in H. destruct H as (l0 & H & N). node N. injection N as ->. seqs. eexists _, _, _. split; [cbn [app]; reflexivity|]. auto.
Qed.
Lemma shape_mp t : GR r_mp_subprogram_stmt [t] -> exists r a b c, t = ST SG_MP_SUBPROGRAM_STMT r [leaf_at KW_MODULE a; leaf_at KW_PROCEDURE b; leaf_at TK_NAME c] /\
  tok_at fr a (fun k => tok k = KW_MODULE) /\ tok_at fr b (fun k => tok k = KW_PROCEDURE) /\ name_at fr c (fun _ => True).
Proof using.
  intros H. eapply inv_exp in H; [|reflexivity]. apply inv_seq in H. destruct H as (l0 & H & N). node N. injection N as ->. seqs. eexists _, _, _, _. split; [cbn [app]; reflexivity|]. auto.
Qed.
(** ** End statements of procedures *)
Definition end_shape (kw : Z) (kids : list stree) : Prop :=
  exists a rest, kids = leaf_at KW_END a :: rest /\ tok_at fr a (fun k => tok k = KW_END) /\
    (rest = [] \/ exists b rest', rest = leaf_at kw b :: rest' /\ tok_at fr b (fun k => tok k = kw) /\
      (rest' = [] \/ exists c, rest' = [leaf_at TK_NAME c] /\ name_at fr c (fun _ => True))).
Lemma shape_end r g kw t : grammar r = RExp (PSeq g [PTok KW_END; POpt (h_seq [PTok kw; POpt PName]); p_eol]) -> g <> HOIST ->
  GR r [t] -> exists r kids, t = ST g r kids /\ end_shape kw kids.
Proof using.
  intros B NG H. eapply inv_exp in H; [|exact B]. apply inv_seq in H. destruct H as (l0 & H & N). apply node_one in N; [|exact NG]. destruct N as (r0 & N). injection N as ->.
  seqs. eexists _, _. split; [reflexivity|]. rewrite app_nil_r. eexists _, _. split; [cbn [app]; reflexivity|]. split; [assumption|].
  match goal with X : G (POpt _) _ |- _ => apply inv_opt in X; destruct X as [->|X]; [left; reflexivity|] end. right. seqs. eexists _, _. split; [cbn [app]; reflexivity|]. split; [assumption|].
  match goal with X : G (POpt _) _ |- _ => apply inv_opt in X; destruct X as [->|X]; [left; reflexivity|] end. right. seqs. eexists. split; [cbn [app]; reflexivity|assumption].
Qed.
(** ** CALL, IF, USE *)
Lemma shape_if t : GR r_if_stmt [t] -> exists r a b c e r0 x, t = ST SG_IF_STMT r [leaf_at KW_IF a; leaf_at TK_PARENL b; e; leaf_at TK_PARENR c; ST SG_ACTION_STMT r0 x] /\
  tok_at fr a (fun k => tok k = KW_IF) /\ tok_at fr b (fun k => tok k = TK_PARENL) /\ tok_at fr c (fun k => tok k = TK_PARENR) /\ GR r_action_stmt [ST SG_ACTION_STMT r0 x].
Proof using.
  intros H. eapply inv_exp in H; [|reflexivity]. apply inv_seq in H. destruct H as (l0 & H & N). node N. injection N as ->. seqs.
  match goal with X : G (PRule r_logical_expr) _ |- _ => apply inv_rule in X; eapply inv_exp in X; [|reflexivity]; apply inv_tag in X; destruct X as (le & _ & N); node N; subst end.
  match goal with X : G (PRule r_action_stmt) _ |- _ => apply inv_rule in X; rename X into A end.
  match type of A with GR _ ?l => assert (exists rr x, l = [ST SG_ACTION_STMT rr x]) as (rr & x & ->) end.
  { pose proof A as A'. eapply inv_ext in A'; [|reflexivity]. destruct A' as [A'|(t & _ & A')].
    - apply inv_alts in A'. destruct A' as (p & lx & _ & _ & N). node N. eauto.
    - node A'. eauto. }
  eexists _, _, _, _, _, _, _. split; [cbn [app]; reflexivity|]. auto 6.
Qed.
(** an action statement: one branch, with the tag of its kind; or an extension's *)
Lemma shape_alt r0 l : In (PRule r0) action_alts -> GR r0 l -> exists x, l = [x] /\ is_action_stmt (t_tag x) = true.
Proof using.
  intros I H. unfold action_alts in I. cbn [In] in I.
  repeat (destruct I as [I|I]; [injection I as <-; eapply inv_exp in H; [|reflexivity];
    first [apply inv_seq in H; destruct H as (l0 & _ & N)|apply inv_alts in H; destruct H as (p & l0 & _ & _ & N)|apply inv_tag in H; destruct H as (l0 & _ & N)]; node N; subst; eexists; split; [reflexivity|vm_compute; reflexivity]|]).
  contradiction.
Qed.
Lemma shape_action t : GR r_action_stmt [t] -> exists r x, t = ST SG_ACTION_STMT r x /\
  ((exists r0 y, In (PRule r0) action_alts /\ GR r0 [y] /\ x = [y]) \/ exists y, E true y /\ x = hoist [] (Some y)).
Proof using.
  intros H. eapply inv_ext in H; [|reflexivity]. destruct H as [H|(y & HE & N)].
  - apply inv_alts in H. destruct H as (p & l & I & H & N). node N. injection N as ->. assert (exists r0, p = PRule r0) as (r0 & ->).
    { cbn [In] in I. repeat (destruct I as [<-|I]; [eexists; reflexivity|]). contradiction. }
    apply inv_rule in H. pose proof H as H'. apply shape_alt in H'; [|exact I]. destruct H' as (y & -> & _). eexists _, _. split; [reflexivity|]. left. exists r0, y. split; [exact I|]. split; [exact H|reflexivity].
  - node N. injection N as ->. eexists _, _. split; [reflexivity|]. right. eauto.
Qed.
(** names in front of the last one of a designator *)
Inductive part_list : list stree -> Prop :=
| pl_nil : part_list []
| pl_cons r k b l : part_list l -> part_list (ST SG_PART_REF r k :: leaf_at TK_PERCENT b :: l).
Lemma shape_designator l : GR r_procedure_designator l -> exists r parts c, l = [ST SG_PROCEDURE_DESIGNATOR r (parts ++ [leaf_at TK_NAME c])] /\ part_list parts /\ name_at fr c (fun _ => True).
Proof using.
  intros H. eapply inv_desig in H; [|reflexivity]. apply inv_seq in H. destruct H as (l0 & H & N). node N. subst l. seqs.
  eexists _, _, _. split; [cbn [app]; reflexivity|]. split; [|assumption].
  match goal with X : G (POpt _) _ |- _ => apply inv_opt in X; destruct X as [->|X]; [constructor|] end. seqs. rewrite app_nil_r.
  match goal with X : G (PStar ?q) _ |- _ => apply inv_star in X; remember q as p eqn:EP; induction X as [|p l l' X _ IH]; [constructor|] end. subst p. specialize (IH eq_refl). seqs.
  match goal with X : G (PRule r_part_ref) _ |- _ => apply inv_rule in X; eapply inv_exp in X; [|reflexivity]; apply inv_seq in X; destruct X as (le & _ & N1); node N1; subst end.
  cbn [app]. constructor. exact IH.
Qed.
Lemma shape_call t : GR r_call_stmt [t] -> exists r a d rest, t = ST SG_CALL_STMT r (leaf_at KW_CALL a :: d :: rest) /\ tok_at fr a (fun k => tok k = KW_CALL) /\ GR r_procedure_designator [d] /\
  (rest = [] \/ exists b c m, rest = leaf_at TK_PARENL b :: m ++ [leaf_at TK_PARENR c] /\ tok_at fr b (fun k => tok k = TK_PARENL) /\ tok_at fr c (fun k => tok k = TK_PARENR)).
Proof using.
  intros H. eapply inv_exp in H; [|reflexivity]. apply inv_seq in H. destruct H as (l0 & H & N). node N. injection N as ->. seqs.
  match goal with X : G (PRule r_procedure_designator) _ |- _ => apply inv_rule in X; pose proof X as X'; apply shape_designator in X'; destruct X' as (rd & parts & c & -> & _ & _) end.
  eexists _, _, _, _. split; [cbn [app]; reflexivity|]. split; [assumption|]. split; [assumption|]. rewrite app_nil_r.
  match goal with X : G (POpt (h_parens _)) _ |- _ => apply inv_opt in X; destruct X as [->|X]; [left; reflexivity|] end. right. seqs. eexists _, _, _. split; [cbn [app]; reflexivity|]. auto.
Qed.
Lemma shape_use t : GR r_use_stmt [t] -> exists r a mid c rest, t = ST SG_USE_STMT r (leaf_at KW_USE a :: mid ++ leaf_at TK_NAME c :: rest) /\
  tok_at fr a (fun k => tok k = KW_USE) /\ name_at fr c (fun _ => True) /\
  (mid = [] \/ (exists b, mid = [leaf_at TK_DBL_COLON b]) \/ exists b b' x, mid = [leaf_at TK_COMMA b; x; leaf_at TK_DBL_COLON b']).
Proof using.
  intros H. eapply inv_exp in H; [|reflexivity]. apply inv_alts in H. destruct H as (p & l0 & I & H & N). node N. injection N as ->.
  cbn [In] in I. destruct I as [<-|[<-|[]]].
  all: apply inv_hseq in H; seqs; eexists _, _, _, _, _; (split; [cbn [app]; reflexivity|]); (split; [assumption|]); (split; [assumption|]).
  all: match goal with X : G (POpt (h_seq (POpt _ :: _))) ?l |- _ => apply inv_opt in X; destruct X as [->|X]; [left; reflexivity|] end; right; seqs;
    match goal with X : G (POpt (h_seq [PTok TK_COMMA; PRule _])) _ |- _ => apply inv_opt in X; destruct X as [->|X]; [left; eexists; reflexivity|right] end; seqs;
    match goal with X : G (PRule r_module_nature) _ |- _ => apply inv_rule in X; eapply inv_exp in X; [|reflexivity]; first [apply inv_alts in X; destruct X as (pm & lm & _ & _ & NM)|apply inv_seq in X; destruct X as (lm & _ & NM)|apply inv_tag in X; destruct X as (lm & _ & NM)]; node NM; subst end; eexists _, _, _; reflexivity.
Qed.
End Shapes.
