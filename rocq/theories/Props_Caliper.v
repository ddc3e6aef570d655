(** C72: procedures with calipers.  C73: adding a USE statement where a subroutine is called. *)
From Verif Require Import Base Tags SyntaxTags Token TTStream StmtRules Peg StmtGrammar StmtParser StmtWalk Props_Stmt Props_StmtWalk Caliper Caliper_spec Caliper_proofs.
From Coq Require Import Lia.
Local Open Scope Z_scope.

(** C72.  The execution part begins with the call of caliper_begin and ends with that of
    caliper_end, which takes the place of a RETURN statement at the end.  In between are the
    statements that were there, but every RETURN, plain or in an IF statement, is a jump to the
    label of the last statement.  That label is the one the RETURN statement at the end had;
    otherwise it is from 1 to 9999 and was not a label of the procedure. *)
Theorem C72_caliper_partial : forall name others l l', caliper_procedure name others l = Ok l' ->
  exists l0 body lab,
    l' = the_call "caliper_begin" name 0 :: body ++ [the_call "caliper_end" name lab] /\
    Forall2 (redirected lab) l0 body /\
    ((exists r, l = l0 ++ [r] /\ is_return r /\ (0 < a_label r -> lab = a_label r)) \/
     (l = l0 /\ forall l1 r, l = l1 ++ [r] -> ~ is_return r)) /\
    (Exists returns l0 -> 0 < lab) /\
    ((exists l1 r, l = l1 ++ [r] /\ is_return r /\ 0 < a_label r) \/ ~ Exists returns l0 \/
     (1 <= lab <= 9999 /\ forall s, In s (others ++ l) -> a_label s <> lab)).
Proof.
  intros name others l l' H. destruct (caliper_cases _ _ _ _ H) as (l0 & lab0 & lab & body & S0 & E & F & A & B & C).
  exists l0, body, lab. split; [exact E|]. split; [exact F|]. split; [|split].
  - destruct S0 as [(r & -> & R & ->)|(-> & _ & N)]; [left; exists r|right]; auto.
  - intros N. destruct (Z.ltb_spec 0 lab0); [rewrite A; assumption|]. apply B; assumption.
  - destruct (Z.ltb_spec 0 lab0) as [P|P].
    + left. destruct S0 as [(r & -> & R & ->)|(-> & -> & N)]; [|lia]. exists l0, r. auto.
    + right. destruct (needs_dec l0) as [N|N]; [right|left; apply not_needs; exact N]. destruct (B P N) as [B1 B2]. split; [lia|].
      intros s I K. apply B2. split; [lia|]. exists s. auto.
Qed.
Theorem C72_no_return : forall name others l l' s, caliper_procedure name others l = Ok l' -> In s l' -> ~ returns s.
Proof.
  intros name others l l' s H I. destruct (caliper_cases _ _ _ _ H) as (l0 & lab0 & lab & body & S0 & E & F & _). subst l'.
  assert (K : forall p n, ~ returns (the_call p name n)).
  { intros p n. unfold returns, is_return, is_if_return. cbn [a_kind the_call]. unfold SG_CALL_STMT, SG_RETURN_STMT. lia. }
  destruct I as [<-|I]; [apply K|]. apply in_app_or in I. destruct I as [I|[<-|[]]]; [|apply K].
  destruct (F2_In _ _ _ _ F I) as (x & _ & R). exact (redirected_no_return _ _ _ R).
Qed.
(** C72.  No label is given twice, and no label is lost. *)
Theorem C72_labels : forall name others l l', caliper_procedure name others l = Ok l' ->
  (forall n, labels l n -> labels l' n) /\ (label_once (others ++ l) -> label_once (others ++ l')).
Proof.
  intros name others l l' H. destruct (caliper_cases _ _ _ _ H) as (l0 & lab0 & lab & body & S0 & E & F & A & B & C). subst l'.
  pose proof (F2_labels _ _ _ F) as M.
  assert (ML : map a_label (the_call "caliper_begin" name 0 :: body ++ [the_call "caliper_end" name lab]) = 0 :: map a_label l0 ++ [lab]).
  { cbn [map a_label the_call]. rewrite map_app, M. reflexivity. }
  split.
  - intros n. rewrite !labels_map, ML. intros (P & I). split; [exact P|]. right. apply in_or_app.
    destruct S0 as [(r & -> & R & ->)|(-> & _)]; [|left; exact I].
    rewrite map_app in I. apply in_app_or in I. destruct I as [I|[<-|[]]]; [left; exact I|right]. left. apply A, P.
  - unfold label_once. rewrite (map_app a_label others l), (map_app a_label others (_ :: _)), ML, !filter_app. cbn [filter]. rewrite filter_app. intros N.
    destruct (Z.ltb_spec 0 lab0) as [P|P].
    + destruct S0 as [(r & -> & R & ->)|(-> & -> & _)]; [|lia]. rewrite (A P). rewrite map_app, filter_app in N. exact N.
    + assert (N1 : NoDup (filter (fun n => 0 <? n) (map a_label others) ++ filter (fun n => 0 <? n) (map a_label l0))).
      { destruct S0 as [(r & -> & R & ->)|(-> & _)]; [|exact N]. rewrite map_app, filter_app in N. cbn [map filter] in N.
        destruct (Z.ltb_spec 0 (a_label r)); [lia|]. rewrite app_nil_r in N. exact N. }
      cbn [filter]. destruct (Z.ltb_spec 0 lab) as [Q|Q]; [|rewrite app_nil_r; exact N1].
      change (0 <? 0) with false. cbv iota. rewrite app_assoc. apply NoDup_Add with (a := lab) (l := filter (fun n => 0 <? n) (map a_label others) ++ filter (fun n => 0 <? n) (map a_label l0)).
      { rewrite <- (app_nil_r (filter (fun n => 0 <? n) (map a_label others) ++ _)) at 1. apply Add_app. }
      split; [exact N1|]. rewrite <- filter_app, <- map_app. intros I. apply filter_In in I. destruct I as [I _].
      destruct (needs_dec l0) as [K|K]; [|rewrite (C (not_needs _ K)) in Q; lia]. destruct (B P K) as [_ B2]. apply B2. apply labels_map. split; [exact Q|].
      destruct S0 as [(r & -> & R & ->)|(-> & _)]; [|exact I]. rewrite app_assoc, map_app. apply in_or_app. left. exact I.
Qed.
(** C72.  If the statements of the execution part jump to labels of that part only, control leaves the
    new part through its last statement, the call of caliper_end, only. *)
Theorem C72_leave_partial : forall jumps name others l l' i, jumps_ok jumps ->
  (forall s n, In s l -> jumps s n -> labels l n) ->
  caliper_procedure name others l = Ok l' -> may_leave jumps l' i -> Datatypes.S i = length l'.
Proof.
  intros jumps name others l l' i (J1 & J2) JL H (s & E & D). destruct D as [D|[D|(n & J & NL)]]; [exact D| |].
  - exfalso. exact (C72_no_return _ _ _ _ _ H (nth_error_In _ _ E) D).
  - exfalso. apply NL. destruct (C72_labels _ _ _ _ H) as [KL _]. apply nth_error_In in E.
    destruct (C72_caliper_partial _ _ _ _ H) as (l0 & body & lab & El & F & S0 & P & _). rewrite El in E.
    destruct E as [<-|I]; [contradiction (J1 _ _ _ _ J)|]. apply in_app_or in I. destruct I as [I|[<-|[]]]; [|contradiction (J1 _ _ _ _ J)].
    destruct (F2_In _ _ _ _ F I) as (x & Ix & R1 & R2 & R3).
    assert (Il : In x l). { destruct S0 as [(r & -> & _)|(-> & _)]; [apply in_or_app; left|]; exact Ix. }
    assert (LL : returns x -> labels l' lab).
    { intros R. split; [apply P; apply Exists_exists; exists x; auto|]. exists (the_call "caliper_end" name lab). split; [|reflexivity]. rewrite El. right. apply in_or_app. right. left. reflexivity. }
    destruct (returns_dec x) as [[R|R]|R].
    + rewrite (R1 R) in J. replace n with lab; [apply LL; left; exact R|]. symmetry. eapply J2; [|exact J|left; reflexivity]. apply (LL (or_introl R)).
    + rewrite (R2 R) in J. replace n with lab; [apply LL; right; exact R|]. symmetry. eapply J2; [|exact J|right; reflexivity]. apply (LL (or_intror R)).
    + rewrite (R3 R) in J. apply KL. exact (JL _ _ Il J).
Qed.
(** C72.  It is defined if one of 1..9999 is not in use, and otherwise if no label is needed. *)
Theorem C72_defined : forall name others l,
  (exists n, 1 <= n <= 9999 /\ ~ labels (others ++ l) n) \/ Forall (fun s => ~ returns s) l ->
  exists l', caliper_procedure name others l = Ok l'.
Proof.
  intros name others l D. destruct (caliper_eq name others l) as (l0 & lab0 & S0 & HN & HK).
  destruct (needs_dec l0) as [N|N]; [|exists (the_call "caliper_begin" name 0 :: l0 ++ [the_call "caliper_end" name lab0]); exact (HK (not_needs _ N))].
  rewrite (HN N). destruct (Z.ltb_spec 0 lab0) as [P|P]; [eexists; reflexivity|].
  destruct D as [(n & B & U)|D].
  2:{ exfalso. apply (not_needs l0); [|exact N]. destruct S0 as [(r & -> & _)|(-> & _)]; [apply Forall_app in D; apply D|exact D]. }
  cbv zeta. remember (Z.to_nat 9999) as k eqn:Ek. set (ls := scan_labels _).
  pose proof (unused_label_spec ls k 9999 ltac:(lia) ltac:(congruence)) as (U1 & U2 & U3). destruct (Z.ltb_spec 0 (unused_label k 9999 ls)) as [Q|Q]; [eexists; reflexivity|].
  exfalso. apply U. assert (I : In n ls) by (apply U3; lia). unfold ls in I. apply scan_labels_In in I. destruct I as (PI & s & I & E).
  split; [exact PI|]. exists s. split; [|exact E]. apply in_app_or in I. apply in_or_app. destruct I as [I|I]; [left; exact I|].
  destruct I as [<-|I]; [cbn in E; lia|]. apply in_app_or in I. destruct I as [I|[<-|[]]]; [|cbn in E; lia]. right.
  destruct S0 as [(r & -> & _)|(-> & _)]; [apply in_or_app; left|]; exact I.
Qed.
(** C72.  With all of them in use and a RETURN that must become a jump, an assertion fails. *)
Theorem C72_exhausted : forall name others l l0 r, l = l0 ++ [r] -> a_label r <= 0 \/ ~ is_return r -> Exists returns l0 ->
  (forall n, 1 <= n <= 9999 -> labels (others ++ l0) n) -> caliper_procedure name others l = UB.
Proof.
  intros name others l m r -> LR NM AL. destruct (caliper_eq name others (m ++ [r])) as (l0 & lab0 & S0 & HN & _).
  assert (K : lab0 <= 0 /\ needs l0 /\ forall s, In s m -> In s l0).
  { destruct S0 as [(r' & E & R & ->)|(<- & -> & NR)].
    - apply app_inj_tail in E. destruct E as [<- <-]. split; [destruct LR; [assumption|contradiction]|]. auto.
    - split; [lia|]. split; [apply Exists_app; left; exact NM|]. intros s I. apply in_or_app. left. exact I. }
  destruct K as (P & N & IN). rewrite (HN N). destruct (Z.ltb_spec 0 lab0); [lia|].
  cbv zeta. remember (Z.to_nat 9999) as k eqn:Ek. set (ls := scan_labels _).
  pose proof (unused_label_spec ls k 9999 ltac:(lia) ltac:(congruence)) as (U1 & U2 & U3). destruct (Z.ltb_spec 0 (unused_label k 9999 ls)) as [Q|Q]; [|reflexivity].
  exfalso. apply (U2 Q). unfold ls. apply scan_labels_In. destruct (AL (unused_label k 9999 ls) ltac:(lia)) as (_ & s & I & E).
  split; [exact Q|]. exists s. split; [|exact E]. apply in_app_or in I. apply in_or_app. destruct I as [I|I]; [left; exact I|right; right; apply in_or_app; left; apply IN; exact I].
Qed.

(** C72, what is not so.  A jump to a label of the END statement goes past the call of caliper_end. *)
Definition if_ (cond action : string) (k : Z) : astmt := mkA 0 (- k) (L "if (" ++ L cond ++ L ") ") (L action).
Definition plain (lab : Z) (k : Z) (s : string) : astmt := mkA lab k [] (L s).
Theorem C72_end_label_refuted : exists others l l', label_once (others ++ l) /\ (forall s n, In s l -> goto_jumps s n -> labels (others ++ l) n) /\
  caliper_procedure (L "p") others l = Ok l' /\ exists i, may_leave goto_jumps l' i /\ Datatypes.S i <> length l'.
Proof.
  exists [plain 99 SG_END_SUBROUTINE_STMT "end"], [if_ "x" "go to 99" SG_GOTO_STMT; plain 0 SG_ASSIGNMENT_STMT "y = 1"]. eexists.
  split; [vm_compute; constructor; [intros []|constructor]|]. split; [|split; [vm_compute; reflexivity|]].
  - intros s n [<-|[<-|[]]] (K & P & E).
    + cbn [a_action if_] in E. change (L "go to 99") with (L "go to " ++ to_dec_z 99) in E. apply app_inv_head in E. apply to_dec_z_inj in E; [|lia|exact P]. subst n.
      split; [lia|]. eexists. split; [left; reflexivity|reflexivity].
    + exfalso. destruct K as [K|K]; vm_compute in K; discriminate.
  - exists 1%nat. split; [|vm_compute; discriminate]. eexists. split; [reflexivity|]. right; right. exists 99. split.
    + split; [right; reflexivity|]. split; [lia|reflexivity].
    + rewrite labels_map. intros (_ & I). vm_compute in I. intuition discriminate.
Qed.
(** C72, what is not so.  Which alternate return is taken (RETURN 1, RETURN 2) is lost. *)
Theorem C72_alternate_refuted : exists l1 l2, l1 <> l2 /\ caliper_procedure (L "p") [] l1 = caliper_procedure (L "p") [] l2 /\ exists l', caliper_procedure (L "p") [] l1 = Ok l'.
Proof.
  exists [plain 0 SG_RETURN_STMT "return 1"], [plain 0 SG_RETURN_STMT "return 2"]. split; [vm_compute; discriminate|]. split; [vm_compute; reflexivity|]. eexists. vm_compute. reflexivity.
Qed.

Definition part1 : list astmt :=
  [if_ "n < 0" "return" SG_RETURN_STMT; plain 10 SG_ASSIGNMENT_STMT "n = n - 1"; plain 9999 SG_RETURN_STMT "return"; plain 0 SG_RETURN_STMT "return"].
Example C72_case : caliper_procedure (L "p") [plain 0 SG_SUBROUTINE_STMT "subroutine p"; plain 0 SG_END_SUBROUTINE_STMT "end"] part1 =
  Ok [plain 0 SG_CALL_STMT "call caliper_begin('p')"; if_ "n < 0" "go to 9998" SG_GOTO_STMT; plain 10 SG_ASSIGNMENT_STMT "n = n - 1";
      plain 9999 SG_GOTO_STMT "go to 9998"; plain 9998 SG_CALL_STMT "call caliper_end('p')"].
Proof. vm_compute. reflexivity. Qed.
Example C72_case_leave : jumps_ok goto_jumps /\ (forall s n, In s part1 -> goto_jumps s n -> labels part1 n) /\ label_once part1.
Proof.
  split; [exact goto_jumps_ok|]. split.
  - intros s n I (K & _). exfalso. repeat destruct I as [<-|I]; try contradiction; destruct K as [K|K]; vm_compute in K; discriminate.
  - change (NoDup [10; 9999]). apply NoDup_cons; [intros [K|[]]; discriminate|]. apply NoDup_cons; [intros []|apply NoDup_nil].
Qed.

(** C73.  A USE statement for the module is put in exactly if a statement of the execution part calls one of
    the subroutines and no USE statement that is there names the module, in whatever case. *)
Theorem C73_module : forall module_name names exec uses,
  (forall fr g t, In (fr, g, t) exec -> exists b, has_call_named fr g t names = Ok b) ->
  (forall x, In x uses -> exists w, use_name x = Ok w) ->
  exists put changed, module_action module_name names exec uses = Ok (put, changed) /\
    (changed = true <-> exists fr g t, In (fr, g, t) exec /\ has_call_named fr g t names = Ok true) /\
    (put = true <-> changed = true /\ forall x, In x uses -> use_name x <> Ok (map lower_b module_name)).
Proof.
  intros module_name names exec uses HE HU. unfold module_action.
  assert (A : exists b, any_call names exec = Ok b /\ (b = true <-> exists fr g t, In (fr, g, t) exec /\ has_call_named fr g t names = Ok true)).
  { clear HU. induction exec as [|[[fr g] t] r IH]; [exists false; split; [reflexivity|split; [discriminate|intros (? & ? & ? & [] & _)]]|].
    cbn [any_call]. destruct (HE fr g t (or_introl eq_refl)) as (b & B). rewrite B. cbn [bind]. destruct b.
    - exists true. split; [reflexivity|]. split; [|reflexivity]. intros _. exists fr, g, t. split; [left; reflexivity|exact B].
    - destruct IH as (b & B1 & B2); [intros; apply HE; right; assumption|]. exists b. split; [exact B1|]. rewrite B2. split; intros (fr' & g' & t' & I & E); exists fr', g', t'; (split; [|exact E]).
      + right. exact I.
      + destruct I as [I|I]; [|exact I]. injection I as <- <- <-. congruence. }
  assert (B : forall f, exists b, any_use (map lower_b module_name) f uses = Ok b /\ (b = false <-> f = false /\ forall x, In x uses -> use_name x <> Ok (map lower_b module_name))).
  { clear HE A. induction uses as [|x r IH]; intros f; [exists f; split; [reflexivity|]; split; [intros ->; split; [reflexivity|intros ? []]|intros [-> _]; reflexivity]|].
    cbn [any_use]. destruct (HU x (or_introl eq_refl)) as (w & W). rewrite W. cbn [bind]. destruct (IH (fun y I => HU y (or_intror I)) (if list_eq_dec ascii_dec w (map lower_b module_name) then true else f)) as (b & B1 & B2).
    exists b. split; [exact B1|]. rewrite B2. destruct (list_eq_dec ascii_dec w (map lower_b module_name)) as [Q|Q].
    - split; [intros [K _]; discriminate|]. intros [_ K]. exfalso. apply (K x (or_introl eq_refl)). rewrite W, Q. reflexivity.
    - split; intros [K1 K2]; (split; [exact K1|]); intros y I.
      + destruct I as [<-|I]; [rewrite W; congruence|apply K2; exact I].
      + apply K2. right. exact I. }
  destruct A as (b & A1 & A2). rewrite A1. cbn [bind]. destruct b; cbn [negb].
  - destruct (B false) as (u & B1 & B2). rewrite B1. cbn [bind]. exists (negb u), true. split; [reflexivity|]. split; [exact A2|].
    destruct u; cbn [negb]; split.
    + discriminate.
    + intros [_ K]. assert (Q : true = false) by (apply B2; split; [reflexivity|exact K]). discriminate.
    + intros _. split; [reflexivity|]. apply B2. reflexivity.
    + reflexivity.
  - exists false, false. split; [reflexivity|]. split; [exact A2|]. split; [discriminate|intros [K _]; discriminate].
Qed.
(** C73, what is not so.  The action says that the file has changed, and it is rewritten, when nothing is put in. *)
Theorem C73_changed_refuted : exists module_name names exec uses, module_action module_name names exec uses = Ok (false, true).
Proof.
  set (l := [T KW_CALL "call"; T TK_NAME "a"; T TK_PARENL "("; T TK_PARENR ")"]). set (u := [T KW_USE "use"; T TK_NAME "M"]).
  assert (A : exists t s', parse_stmt_dispatch no_exts 60 SG_ACTION_STMT (S_of l) = Done (Some t, s')) by (do 2 eexists; vm_compute; reflexivity).
  assert (B : exists t s', parse_rule grammar no_exts 60 r_use_stmt (S_of u) = Done (Some t, s')) by (do 2 eexists; vm_compute; reflexivity).
  destruct A as (ta & sa & A), B as (tb & sb & B). exists (L "m"), [L "a"], [(l, SG_CALL_STMT, ta)], [(u, SG_USE_STMT, tb)].
  vm_compute in A, B. injection A as <- <-. injection B as <- <-. vm_compute. reflexivity.
Qed.
(** C73_module on: call A() in the execution part and USE, INTRINSIC :: Mod *)
Example C73_case : exists ta sa tb sb,
  let l := [T KW_CALL "call"; T TK_NAME "A"; T TK_PARENL "("; T TK_PARENR ")"] in let u := [T KW_USE "use"; T TK_COMMA ","; T KW_INTRINSIC "intrinsic"; T TK_DBL_COLON "::"; T TK_NAME "Mod"] in
  parse_stmt_dispatch no_exts 60 SG_ACTION_STMT (S_of l) = Done (Some ta, sa) /\ parse_rule grammar no_exts 60 r_use_stmt (S_of u) = Done (Some tb, sb) /\
  has_call_named l SG_CALL_STMT ta [L "a"] = Ok true /\ has_call_named l SG_CALL_STMT ta [L "b"] = Ok false /\ use_name (u, SG_USE_STMT, tb) = Ok (L "mod") /\
  module_action (L "MOD2") [L "a"] [(l, SG_CALL_STMT, ta)] [(u, SG_USE_STMT, tb)] = Ok (true, true) /\
  module_action (L "MOD") [L "a"] [(l, SG_CALL_STMT, ta)] [(u, SG_USE_STMT, tb)] = Ok (false, true) /\
  module_action (L "MOD2") [L "b"] [(l, SG_CALL_STMT, ta)] [(u, SG_USE_STMT, tb)] = Ok (false, false).
Proof. do 4 eexists. split; [vm_compute; reflexivity|]. split; [vm_compute; reflexivity|]. split; [vm_compute; reflexivity|]. split; [vm_compute; reflexivity|]. split; [vm_compute; reflexivity|]. split; [vm_compute; reflexivity|]. split; vm_compute; reflexivity. Qed.
Definition C72_all := (C72_caliper_partial, C72_no_return, C72_labels, C72_leave_partial, C72_defined, C72_exhausted, C72_end_label_refuted, C72_alternate_refuted, C73_module, C73_changed_refuted).
Print Assumptions C72_all.
