(** C69: what the applications look for in statements. *)
From Coq Require Import Lia.
From Verif Require Import Base Base_lemmas Tags SyntaxTags Token TTStream TTStream_spec StmtRules Peg Peg_spec Peg_proofs PegCover_proofs Stmt_spec StmtGrammar StmtParser
  StmtTables_proofs StmtRoots_proofs StmtTree_spec StmtTree_proofs FileLine LogicalLine LexPos_spec LineEdit LineEdit_spec StmtWalk StmtWalk_spec StmtWalk_proofs StmtRun_proofs StmtName_proofs StmtFind_proofs.
From Verif Require Import Props_Stmt Props_StmtWalk.
Local Open Scope nat_scope.

(** C69.  has_call_named on a CALL statement: whether the lower-cased name that is
    called is one of the names. *)
Theorem C69_call : forall exts n s t s', exts_ok exts -> foreign exts SG_CALL_STMT -> proper_stmt s ->
  parse_stmt_dispatch exts n SG_ACTION_STMT s = Done (Some t, s') -> extract_tag (Some t) = Ok SG_CALL_STMT ->
  exists q x, called (frags s) (pos s) (s_end s) q /\ nth_error (frags s) q = Some x /\
    forall names, exists b, has_call_named (frags s) SG_CALL_STMT t names = Ok b /\ (b = true <-> In (map lower_b (tk_text x)) names).
Proof.
  intros exts n s t s' He Hf Hs H X. pose proof (exts_same_of _ He) as HX. change (parse_rule grammar exts n r_action_stmt s = Done (Some t, s')) in H.
  destruct (action_kid _ _ _ _ _ _ H X) as (k & ks & K & TK & TG).
  destruct (action_kind _ _ _ _ _ _ _ r_call_stmt HX H K) as (_ & -> & n1 & P); [rewrite TK; exact Hf|rewrite TK; vm_compute; reflexivity|].
  destruct (call_run _ _ _ _ _ He Hs P) as (r & rd & parts & q & rest' & -> & PL & TC & QL & NM & M). pose proof NM as (x & NX & _). exists q, x. split; [|split; [exact NX|]].
  - split; [exact TC|]. split; [exact QL|]. split; [exact NM|exact M].
  - intros names. unfold has_call_named. rewrite Z.eqb_refl. cbn [negb andb]. change (SG_IF_STMT =? SG_CALL_STMT)%Z with false. cbn [bind].
    unfold w_is, w_tag, w_down, w_root. cbn [fst]. rewrite TG, Z.eqb_refl. cbn [assert_ bind]. rewrite K. cbn [bind fst t_tag t_kids]. rewrite Z.eqb_refl. cbn [negb bind fst leaf_at t_tag]. rewrite Z.eqb_refl.
    cbn [assert_ bind w_next snd fst t_tag t_kids]. rewrite Z.eqb_refl. cbn [assert_ bind]. pose proof (last_part parts PL q) as LP. unfold leaf_at in LP |- *.
    destruct (parts ++ [ST TK_NAME (Some (q, S q)) []]) as [|k0 ks0]; [contradiction|]. cbn [bind fst snd]. rewrite LP. cbn [t_tag t_rng]. rewrite Z.eqb_refl. cbn [assert_ bind].
    unfold lower_at, text_at. rewrite NX. cbn [bind]. destruct (in_dec (list_eq_dec ascii_dec) (map lower_b (tk_text x)) names) as [I|I]; eexists; (split; [reflexivity|]); split; auto; discriminate.
Qed.

(** C69.  On an IF statement: the same for the statement behind the condition, false if
    that is no CALL.  On any other statement: false. *)
Theorem C69_if : forall exts n s t s', exts_ok exts -> foreign exts SG_IF_STMT -> foreign exts SG_CALL_STMT -> proper_stmt s ->
  parse_stmt_dispatch exts n SG_ACTION_STMT s = Done (Some t, s') -> extract_tag (Some t) = Ok SG_IF_STMT ->
  exists k n' y g, kind (frags s) (pos s) KW_IF /\ matched TK_PARENL TK_PARENR (rest (set_pos s (S (pos s)))) k /\
    parse_stmt_dispatch exts n' SG_ACTION_STMT (set_pos s (pos s + 1 + k)) = Done (Some y, s') /\ extract_tag (Some y) = Ok g /\
    (g <> SG_CALL_STMT -> forall names, has_call_named (frags s) SG_IF_STMT t names = Ok false) /\
    (g = SG_CALL_STMT -> exists q x, called (frags s) (pos s + 1 + k) (s_end s) q /\ nth_error (frags s) q = Some x /\
       forall names, exists b, has_call_named (frags s) SG_IF_STMT t names = Ok b /\ (b = true <-> In (map lower_b (tk_text x)) names)).
Proof.
  intros exts n s t s' He Hf Hc Hs H X. pose proof (exts_same_of _ He) as HX. destruct (C67_if _ _ _ _ _ He Hf Hs H X) as (k & n' & y & g & KI & M & PY & EP & XY & _).
  change (parse_rule grammar exts n r_action_stmt s = Done (Some t, s')) in H.
  destruct (action_kid _ _ _ _ _ _ H X) as (z & zs & K & TK & TG).
  destruct (action_kind _ _ _ _ _ _ _ r_if_stmt HX H K) as (_ & -> & n1 & P); [rewrite TK; exact Hf|rewrite TK; vm_compute; reflexivity|].
  clear KI M PY EP XY k n' y g.
  destruct (if_run _ _ _ _ _ He Hs P) as (k & n2 & y & e & TI & KZ & KI & M & PA & EP). pose proof (any_root_ok grammar exts n2 r_action_stmt SG_ACTION_STMT _ _ _ eq_refl PA) as TY.
  assert (I : into_if t = Ok (y, [])).
  { unfold into_if, w_is, w_tag, w_down, w_root. cbn [fst]. rewrite TG, Z.eqb_refl. cbn [assert_ bind]. rewrite K. cbn [bind fst]. rewrite TI, Z.eqb_refl. cbn [assert_ bind]. rewrite KZ. cbn [bind fst].
    change (t_tag (leaf_at KW_IF (pos s))) with KW_IF. rewrite Z.eqb_refl. cbn [assert_ bind w_next snd]. cbn [fst]. rewrite TY, Z.eqb_refl. reflexivity. }
  assert (HC : forall names, has_call_named (frags s) SG_IF_STMT t names = has_call_named (frags s) SG_CALL_STMT y names).
  { intros names. unfold has_call_named. rewrite (Z.eqb_refl SG_IF_STMT), (Z.eqb_refl SG_CALL_STMT), andb_false_r. cbn [negb andb]. change (SG_IF_STMT =? SG_CALL_STMT)%Z with false. cbn iota. rewrite I. reflexivity. }
  assert (exists w ws, t_kids y = w :: ws) as (w & ws & KY).
  { destruct (t_kids y) as [|w ws] eqn:KY; [exfalso|eauto]. eapply rooted_gives in PA; [|exact HX|reflexivity|vm_compute; discriminate].
    apply shape_action in PA. destruct PA as (r & l & -> & [(r0 & w & _ & _ & ->)|(w & (ex & sa & sb & J & E) & ->)]); cbn [t_kids] in KY; [discriminate|].
    destruct (Hf _ _ _ _ J E) as (_ & NH). rewrite root_kids in KY by exact NH. discriminate. }
  assert (XY : extract_tag (Some y) = Ok (t_tag w)) by (unfold extract_tag; rewrite TY, Z.eqb_refl; unfold w_down, w_root; cbn [fst]; rewrite KY; reflexivity).
  exists k, n2, y, (t_tag w). split; [exact KI|]. split; [exact M|]. split; [exact PA|]. split; [exact XY|]. split.
  - intros NG names. rewrite HC. unfold has_call_named. rewrite (Z.eqb_refl SG_CALL_STMT). cbn [negb andb]. change (SG_IF_STMT =? SG_CALL_STMT)%Z with false. cbn [bind]. unfold w_is, w_tag, w_down, w_root. cbn [fst].
    rewrite TY, Z.eqb_refl. cbn [assert_ bind]. rewrite KY. cbn [bind fst]. replace (SG_CALL_STMT =? t_tag w)%Z with false; [reflexivity|]. symmetry. apply Z.eqb_neq. congruence.
  - intros EG. rewrite EG in XY. assert (Hs' : proper_stmt (set_pos s (pos s + 1 + k))).
    { destruct (rule_le _ _ _ _ _ _ He Hs P) as (_ & LE & _). destruct M as (M0 & M1 & _). apply (proper_move s); [exact Hs|repeat split|cbn [pos set_pos]; lia|].
      cbn [pos set_pos]. unfold rest in M1. cbn [set_pos pos frags s_end] in M1. destruct M0 as (M00 & M0). unfold rest in M0. rewrite firstn_length in M0. cbn [set_pos pos s_end frags] in M0. lia. }
    destruct (C69_call exts n2 _ y s' He Hc Hs' PA XY) as (q & x & Q1 & Q2 & Q3). exists q, x. split; [exact Q1|]. split; [exact Q2|]. intros names. rewrite HC. apply Q3.
Qed.
Theorem C69_other : forall fr g t names, g <> SG_CALL_STMT -> g <> SG_IF_STMT -> has_call_named fr g t names = Ok false.
Proof. intros fr g t names N1 N2. unfold has_call_named. replace (SG_CALL_STMT =? g)%Z with false by (symmetry; apply Z.eqb_neq; congruence). replace (SG_IF_STMT =? g)%Z with false by (symmetry; apply Z.eqb_neq; congruence). reflexivity. Qed.

(** C69.  find_use_module_name gives the token that is the name of the module. *)
Theorem C69_use : forall exts n s t s', exts_ok exts -> proper_stmt s -> parse_rule grammar exts n r_use_stmt s = Done (Some t, s') ->
  exists q, used (frags s) (pos s) q /\ find_use_module_name t = Ok (leaf_at TK_NAME q).
Proof.
  intros exts n s t s' He Hs H. pose proof (exts_same_of _ He) as HX. destruct (C24_grammar _ _ _ _ _ _ He Hs H) as (S0 & L0 & CV & _).
  eapply rooted_gives in H; [|exact HX|reflexivity|vm_compute; discriminate]. apply shape_use_full in H. destruct H as (r & a & mid & c & rst & -> & TA & NC & M).
  apply node_list in CV; [|discriminate]. apply leaf_list in CV. destruct CV as (<- & CV). exists c. unfold used, find_use_module_name, w_is, w_down, w_root, w_tag. cbn [fst t_tag t_kids]. rewrite Z.eqb_refl. cbn [assert_ bind fst leaf_at t_tag].
  rewrite Z.eqb_refl. cbn [assert_ bind w_next snd].
  destruct M as [->|[(b & -> & TB)|(b & r0 & g & d & b' & -> & TB & TD & G & TB')]]; cbn [app] in CV |- *.
  - apply leaf_list in CV. destruct CV as (<- & _). split; [split; [exact TA|]; split; [exact NC|]; left; lia|]. reflexivity.
  - apply leaf_list in CV. destruct CV as (<- & CV). apply leaf_list in CV. destruct CV as (<- & _). split; [|reflexivity]. split; [exact TA|]. split; [exact NC|]. right. left. replace (pos s + 1) with (S (pos s)) by lia. split; [lia|exact TB].
  - apply leaf_list in CV. destruct CV as (<- & CV). inversion CV as [|x l b1 c1 e1 C1 C2]; subst. apply node_list in C1; [|discriminate]. apply leaf_list in C1. destruct C1 as (<- & C1). inversion C1; subst.
    apply leaf_list in C2. destruct C2 as (<- & C2). apply leaf_list in C2. destruct C2 as (<- & _). split; [|reflexivity]. split; [exact TA|]. split; [exact NC|]. right. right.
    replace (pos s + 1) with (S (pos s)) by lia. replace (pos s + 2) with (S (S (pos s))) by lia. replace (pos s + 3) with (S (S (S (pos s)))) by lia. split; [lia|]. split; [exact TB|]. split; [destruct G as [->| ->]; auto|exact TB'].
Qed.

(** C69.  exclude_procedure: whether one of the prefix-specs is PURE or ELEMENTAL; never for
    a PROGRAM or MODULE PROCEDURE statement. *)
Theorem C69_exclude : forall exts n r kw s t s', exts_ok exts -> proper_stmt s -> In (r, kw) [(r_function_stmt, KW_FUNCTION); (r_subroutine_stmt, KW_SUBROUTINE)] ->
  parse_rule grammar exts n r s = Done (Some t, s') ->
  exists k specs b, covers_list s specs (pos s) k /\ Forall prefix_spec specs /\ kind (frags s) k kw /\ exclude_procedure t = Ok b /\
    (b = true <-> exists r g p, In (ST SG_PREFIX_SPEC r [leaf_at g p]) specs /\ kind (frags s) p g /\ In g [KW_PURE; KW_ELEMENTAL]).
Proof.
  intros exts n r kw s t s' He Hs I H.
  assert (exists k pre specs more, t_kids t = maybe pre ++ leaf_at kw k :: leaf_at TK_NAME (S k) :: more /\ (pre = None /\ specs = [] \/ exists rp, pre = Some (ST SG_PREFIX rp specs)) /\
    covers_list s specs (pos s) k /\ Forall (is_spec (frags s)) specs /\ kind (frags s) k kw /\ kw <> SG_PREFIX) as (k & pre & specs & more & K & P & C & F & T & NK).
  { cbn [In] in I. destruct I as [I|[I|[]]]; injection I as <- <-.
    - apply (headed_run _ _ r_function_stmt SG_FUNCTION_STMT KW_FUNCTION _ _ _ _ He Hs ltac:(vm_compute; discriminate) ltac:(vm_compute; discriminate) ltac:(vm_compute; discriminate) eq_refl eq_refl) in H.
      destruct H as (k & pre & specs & more & K & P & C & F & T & _). exists k, pre, specs, more. split; [exact K|]. split; [exact P|]. split; [exact C|]. split; [exact F|]. split; [exact T|vm_compute; discriminate].
    - apply (headed_run _ _ r_subroutine_stmt SG_SUBROUTINE_STMT KW_SUBROUTINE _ _ _ _ He Hs ltac:(vm_compute; discriminate) ltac:(vm_compute; discriminate) ltac:(vm_compute; discriminate) eq_refl eq_refl) in H.
      destruct H as (k & pre & specs & more & K & P & C & F & T & _). exists k, pre, specs, more. split; [exact K|]. split; [exact P|]. split; [exact C|]. split; [exact F|]. split; [exact T|vm_compute; discriminate]. }
  destruct (spec_kids _ _ F) as (b & A & B). exists k, specs, b. split; [exact C|]. split; [eapply Forall_impl; [apply spec_prefix|exact F]|]. split; [exact T|]. split; [|exact B].
  unfold exclude_procedure, w_down, w_root. cbn [fst]. rewrite K. destruct P as [(-> & ->)|(rp & ->)]; cbn [maybe app bind]; unfold w_tag, w_has_down; cbn [fst leaf_at t_tag t_kids].
  - apply Z.eqb_neq in NK. rewrite NK. cbn [andb]. exact A.
  - rewrite Z.eqb_refl. cbn [andb]. destruct specs as [|x specs]; [cbn [length Nat.eqb negb]; exact A|]. cbn [length Nat.eqb negb]. exact A.
Qed.
Theorem C69_exclude_not : forall exts n r kw s t s', exts_ok exts -> In (r, kw) [(r_program_stmt, KW_PROGRAM); (r_mp_subprogram_stmt, KW_PROCEDURE)] ->
  parse_rule grammar exts n r s = Done (Some t, s') -> exclude_procedure t = Ok false.
Proof.
  intros exts n r kw s t s' He I H. pose proof (exts_same_of _ He) as HX. cbn [In] in I. destruct I as [I|[I|[]]]; injection I as <- <-; (eapply rooted_gives in H; [|exact HX|reflexivity|vm_compute; discriminate]).
  - apply shape_program in H. destruct H as (r & b & c & -> & _). reflexivity.
  - apply shape_mp in H. destruct H as (r & a & b & c & -> & _). reflexivity.
Qed.

(** On IF (a(i) > 0) CALL B(c, (d)) (C67): *)
Example C69_case_call : exists t s', parse_stmt_dispatch no_exts 60 SG_ACTION_STMT (S_of ifcall) = Done (Some t, s') /\ proper_stmt (S_of ifcall) /\ extract_tag (Some t) = Ok SG_IF_STMT /\
  has_call_named ifcall SG_IF_STMT t [L "a"; L "b"] = Ok true /\ has_call_named ifcall SG_IF_STMT t [L "a"; L "B"] = Ok false.
Proof. do 2 eexists. split; [vm_compute; reflexivity|]. split; [exact ifcall_proper|]. split; [vm_compute; reflexivity|]. split; vm_compute; reflexivity. Qed.
Example C69_case_designator : exists t s', let l := [T KW_CALL "call"; T TK_NAME "a"; T TK_PERCENT "%"; T TK_NAME "b"; T TK_PARENL "("; T TK_NAME "i"; T TK_PARENR ")"; T TK_PERCENT "%"; T TK_NAME "x"; T TK_PARENL "("; T TK_PARENR ")"] in
  parse_stmt_dispatch no_exts 60 SG_ACTION_STMT (S_of l) = Done (Some t, s') /\ called l 0 11 8 /\ has_call_named l SG_CALL_STMT t [L "x"] = Ok true /\ has_call_named l SG_CALL_STMT t [L "a"; L "b"; L "i"] = Ok false.
Proof.
  do 2 eexists. split; [vm_compute; reflexivity|]. split; [|split; vm_compute; reflexivity]. split; [eexists; split; reflexivity|]. split; [lia|]. split; [eexists; split; [reflexivity|split; [reflexivity|exact I]]|].
  right. split; [cbn; lia|]. split; [reflexivity|]. intros j J. assert (j = 1) as -> by (cbn in J; lia). reflexivity.
Qed.
Example C69_case_use : exists t s', let l := [T KW_USE "use"; T TK_COMMA ","; T KW_INTRINSIC "intrinsic"; T TK_DBL_COLON "::"; T TK_NAME "m"; T TK_COMMA ","; T KW_ONLY "only"; T TK_COLON ":"; T TK_NAME "x"] in
  parse_rule grammar no_exts 60 r_use_stmt (S_of l) = Done (Some t, s') /\ find_use_module_name t = Ok (leaf_at TK_NAME 4).
Proof. do 2 eexists. split; vm_compute; reflexivity. Qed.
Example C69_case_exclude : exists t s' t2 s2,
  parse_rule grammar no_exts 60 r_function_stmt (S_of [T KW_RECURSIVE "recursive"; T KW_INTEGER "integer"; T KW_PURE "pure"; T KW_FUNCTION "function"; T TK_NAME "f"; T TK_PARENL "("; T TK_PARENR ")"]) = Done (Some t, s') /\ exclude_procedure t = Ok true /\
  parse_rule grammar no_exts 60 r_function_stmt (S_of [T KW_RECURSIVE "recursive"; T KW_INTEGER "integer"; T KW_FUNCTION "function"; T TK_NAME "pure"; T TK_PARENL "("; T TK_PARENR ")"]) = Done (Some t2, s2) /\ exclude_procedure t2 = Ok false.
Proof. do 4 eexists. split; [vm_compute; reflexivity|]. split; [vm_compute; reflexivity|]. split; vm_compute; reflexivity. Qed.

Definition C69_all := (C69_call, C69_if, C69_other, C69_use, C69_exclude, C69_exclude_not).
Print Assumptions C69_all.
