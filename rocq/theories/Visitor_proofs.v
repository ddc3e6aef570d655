(** Lemmas on the visits of the procedures. *)
From Coq Require Import Lia.
From Verif Require Import Base Base_lemmas Tags Token TTStream StmtRules Peg LabelStack Prgm Prgm_proofs PrgmTree_spec PrgmTree_proofs
  Visitor Visitor_spec.
Local Open Scope nat_scope.

(** ** Parts of a sequence *)
Lemma sp_T g l : spells (T g) l -> l = [g].
Proof. inversion 1; auto. Qed.
Lemma map_app_inv {A B} (f : A -> B) l u v : map f l = u ++ v -> exists l1 l2, l = l1 ++ l2 /\ map f l1 = u /\ map f l2 = v.
Proof.
  revert l. induction u as [|b u IH]; intros l H; [exists [], l; auto|].
  destruct l as [|a l]; [discriminate|]. cbn in H. injection H as H1 H2. apply IH in H2 as (l1 & l2 & -> & A1 & A2).
  exists (a :: l1), l2. cbn. rewrite H1, A1. auto.
Qed.
Section Parts.
Notation tg := (map g_tag).
Lemma sp_seq_inv a b ks : spells (Cat a b) (tg ks) -> exists k1 k2, ks = k1 ++ k2 /\ spells a (tg k1) /\ spells b (tg k2).
Proof.
  intros H. remember (tg ks) as w eqn:E. inversion H as [| |a' b' u v H1 H2 E1 E2| | | |]; subst a' b'.
  rewrite <- E2 in E. symmetry in E. apply map_app_inv in E as (k1 & k2 & -> & <- & <-). eauto.
Qed.
Lemma sp_tag_inv g ks : spells (T g) (tg ks) -> exists k, ks = [k] /\ g_tag k = g.
Proof. intros H. apply sp_T in H. destruct ks as [|k [|]]; try discriminate. injection H as H. eauto. Qed.
Lemma sp_opt_inv a ks : spells (opt a) (tg ks) -> ks = [] \/ spells a (tg ks).
Proof.
  intros H. inversion H as [| | |? ? ? A|? ? ? A| |]; subst; auto. left. inversion A as [E| | | | | |]. destruct ks; [auto|discriminate].
Qed.
Lemma sp_many_inv g ks : spells (Many (T g)) (tg ks) -> Forall (fun k => g_tag k = g) ks.
Proof.
  intros H. remember (tg ks) as w eqn:E. remember (Many (T g)) as e eqn:Ee. revert ks E. induction H; intros ks E; try discriminate Ee.
  - destruct ks; [constructor|discriminate].
  - injection Ee as ->. symmetry in E. apply map_app_inv in E as (k1 & k2 & -> & E1 & E2). apply Forall_app. split; [|auto].
    rewrite <- E1 in H. apply sp_tag_inv in H as (k & -> & H). auto.
Qed.
Lemma sp_eps_inv ks : spells Eps (tg ks) -> ks = [].
Proof. intros H. inversion H as [E| | | | | |]. destruct ks; [auto|discriminate]. Qed.
Lemma sp_or_inv a b ks : spells (Or a b) (tg ks) -> spells a (tg ks) \/ spells b (tg ks).
Proof. inversion 1; auto. Qed.
End Parts.

Lemma derives_kids x g e t : derives x t -> g_tag t = g -> produced g e = true ->
  exists r kids, t = PT g r None kids /\ spells e (map g_tag kids) /\ Forall (derives x) kids.
Proof.
  intros D T P. apply produced_in in P. destruct D as [g0 i A B C|g0 e0 r kids I S K]; cbn in T; subst g0; [now apply C in P|].
  exists r, kids. split; [auto|]. assert (e0 = e) as ->; [|auto].
  assert (H : forallb (fun p => forallb (fun q => negb (fst p =? fst q)%Z || rx_eqb (snd p) (snd q)) productions) productions = true) by (vm_compute; reflexivity).
  rewrite forallb_forall in H. apply H in I. rewrite forallb_forall in I. apply I in P. cbn [fst snd] in P. rewrite Z.eqb_refl in P. now apply rx_eqb_eq in P.
Qed.

(** ** Where procedures can be *)
Definition outer : list Z :=
  [PG_PROGRAM; PG_PROGRAM_UNIT; PG_EXTERNAL_SUBPROGRAM; PG_MAIN_PROGRAM; PG_FUNCTION_SUBPROGRAM; PG_SUBROUTINE_SUBPROGRAM;
   PG_SEPARATE_MODULE_SUBPROGRAM; PG_MODULE; PG_MODULE_SUBPROGRAM_PART; PG_MODULE_SUBPROGRAM; PG_INTERNAL_SUBPROGRAM_PART; PG_INTERNAL_SUBPROGRAM].
Definition is_outer (g : Z) : bool := existsb (Z.eqb g) outer.
Fixpoint no_outer (e : rx) : bool :=
  match e with Eps => true | T g => negb (is_outer g) | Cat a b | Or a b => no_outer a && no_outer b | Many a => no_outer a end.
Lemma no_outer_spells e l : spells e l -> no_outer e = true -> Forall (fun g => is_outer g = false) l.
Proof.
  induction 1; cbn [no_outer]; intros H1; try apply andb_true_iff in H1 as [? ?]; auto.
  - constructor; [|auto]. now apply negb_true_iff.
  - apply Forall_app; auto.
  - apply Forall_app; auto.
Qed.
Lemma proc_outer g : is_procedure g = true -> is_outer g = true.
Proof.
  unfold is_procedure, is_outer. intros H. apply existsb_exists in H as (h & I & E). apply existsb_exists. exists h. split; [|exact E].
  cbn in I. cbn. tauto.
Qed.
Fixpoint branches_of (way : list nat) (around : list Z) (i : nat) (ks : list ptree) : list proc :=
  match ks with [] => [] | k :: ks => procedures (i :: way) around k ++ branches_of way around (S i) ks end.
Lemma procedures_eq way around g r o kids : procedures way around (PT g r o kids) =
  (if is_procedure g then [mkProc (rev way) around] else []) ++ branches_of way (g :: around) 0 kids.
Proof.
  cbn [procedures]. f_equal. generalize 0. induction kids as [|k ks IH]; intros i; cbn [branches_of]; [reflexivity|]. now rewrite <- IH.
Qed.
Lemma branches_app way around i k1 k2 : branches_of way around i (k1 ++ k2) = branches_of way around i k1 ++ branches_of way around (i + length k1) k2.
Proof.
  revert i. induction k1 as [|k k1 IH]; intros i; cbn [app branches_of length]; [now rewrite Nat.add_0_r|].
  rewrite IH, <- app_assoc. now replace (S i + length k1) with (i + S (length k1)) by lia.
Qed.
Fixpoint psize (t : ptree) : nat := match t with PT _ _ _ kids => S (list_sum (map psize kids)) end.
Lemma psize_in k kids : In k kids -> psize k <= list_sum (map psize kids).
Proof.
  induction kids as [|a kids IH]; intros H; [destruct H|]. cbn [map list_sum fold_right]. change (fold_right Init.Nat.add 0 (map psize kids)) with (list_sum (map psize kids)).
  destruct H as [->|H]; [|apply IH in H]; lia.
Qed.
Lemma no_procedures x t : derives x t -> is_outer (g_tag t) = false -> forall way around, procedures way around t = [].
Proof.
  remember (psize t) as n eqn:En. revert t En. induction n as [n IH] using (well_founded_induction lt_wf). intros t -> D O way around.
  destruct D as [g i A B C|g e r kids I S K].
  - change (is_outer g = false) in O. unfold stmt_leaf. rewrite procedures_eq. destruct (is_procedure g) eqn:P; [apply proc_outer in P; congruence|reflexivity].
  - rewrite procedures_eq. cbn [g_tag] in O. destruct (is_procedure g) eqn:P; [apply proc_outer in P; congruence|]. cbn [app].
    assert (CK : forallb (fun p => is_outer (fst p) || no_outer (snd p)) productions = true) by (vm_compute; reflexivity).
    rewrite forallb_forall in CK. apply CK in I. cbn [fst snd] in I. rewrite O in I. cbn [orb] in I.
    pose proof (no_outer_spells _ _ S I) as N. rewrite Forall_forall in N, K.
    assert (Q : forall k, In k kids -> forall w a, procedures w a k = []).
    { intros k Hk w a. eapply IH; [|reflexivity|now apply K|apply N, in_map, Hk]. apply psize_in in Hk. cbn [psize]. lia. }
    clear -Q. generalize 0. induction kids as [|k ks IHk]; intros i; cbn [branches_of]; [reflexivity|].
    rewrite Q by (left; reflexivity). apply IHk. intros; apply Q; now right.
Qed.

(** ** The calls that are expected *)
Definition call_of (q : proc) : call := mkCall (q_way q) (inside_procedure q) (inside_module q).
Definition expect (qs : list proc) : list call := map call_of (filter (fun q => depth q <=? 1) qs).
Lemma expect_app a b : expect (a ++ b) = expect a ++ expect b.
Proof. unfold expect. now rewrite filter_app, map_app. Qed.
Lemma procedures_around q : forall t way around, In q (procedures way around t) -> exists pre, q_around q = pre ++ around.
Proof.
  intros t. remember (psize t) as n eqn:En. revert t En. induction n as [n IH] using (well_founded_induction lt_wf). intros [g r o kids] -> way around H.
  rewrite procedures_eq in H. apply in_app_iff in H as [H|H].
  - destruct (is_procedure g); [|destruct H]. destruct H as [<-|[]]. exists []. reflexivity.
  - assert (E : exists k i, In k kids /\ In q (procedures (i :: way) (g :: around) k)).
    { clear IH. revert H. generalize 0. induction kids as [|k ks IHk]; intros i H; [destruct H|]. cbn [branches_of] in H. apply in_app_iff in H as [H|H].
      - exists k, i. split; [now left|exact H].
      - apply IHk in H as (k' & j & A & B). exists k', j. split; [now right|exact B]. }
    destruct E as (k & i & Hk & Hq). apply psize_in in Hk. eapply IH in Hq as [pre E]; [|cbn [psize]|reflexivity]; [|lia].
    exists (pre ++ [g]). rewrite <- app_assoc. exact E.
Qed.
Lemma expect_deep qs : Forall (fun q => 1 < depth q) qs -> expect qs = [].
Proof.
  unfold expect. induction 1 as [|q qs H F IH]; [reflexivity|]. cbn [filter]. destruct (Nat.leb_spec (depth q) 1); [lia|]. exact IH.
Qed.
Lemma branches_deep around way i ks : 1 < length (filter is_procedure around) -> expect (branches_of way around i ks) = [].
Proof.
  intros H. apply expect_deep, Forall_forall. intros q I. revert i I. induction ks as [|k ks IH]; intros i I; [destruct I|].
  cbn [branches_of] in I. apply in_app_iff in I as [I|I]; [|eauto]. apply procedures_around in I as [pre E]. unfold depth. rewrite E, filter_app, app_length. lia.
Qed.

Section Visits.
Variable action : call -> bool.
Variable x : stmts.
Notation ok := (derives x).
Notation hits cs := (existsb action cs).
Lemma hits_app a b : hits (a ++ b) = hits a || hits b.
Proof. apply existsb_app. Qed.

Lemma loop_eq k body c ret log : next_loop (S k) body c ret log =
  match c_try_next c with None => Ok (ret, log) | Some c => '(c, ret, log) <- body c ret log ;; next_loop k body c ret log end.
Proof using. reflexivity. Qed.
Lemma loop_ok (P : ptree -> Prop) body path around u :
  (forall k ks i ret log, P k -> let c := Cur k ks (i :: path) u in let cs := expect (procedures (i :: path) around k) in
     body c ret log = Ok (c, ret || hits cs, log ++ cs)) ->
  forall ks k i ret log, Forall P ks ->
  next_loop (S (length ks)) body (Cur k ks (i :: path) u) ret log =
    let cs := expect (branches_of path around (S i) ks) in Ok (ret || hits cs, log ++ cs).
Proof using.
  intros HB. induction ks as [|k' ks IH]; intros k i ret log F.
  - cbn. now rewrite app_nil_r, orb_false_r.
  - cbn [length]. rewrite (loop_eq (S (length ks))). cbn [c_try_next]. inversion F as [|? ? F1 F2]; subst. cbn zeta in HB. rewrite HB by exact F1. cbn [bind].
    rewrite IH by exact F2. cbn zeta. cbn [branches_of]. rewrite expect_app, hits_app, orb_assoc, app_assoc. reflexivity.
Qed.

(** internal procedures *)
Lemma internal_ok k right path u around ret log :
  ok k -> g_tag k = PG_INTERNAL_SUBPROGRAM -> length (filter is_procedure around) = 1 -> forall module, module = existsb (Z.eqb PG_MODULE) around ->
  let c := Cur k right path u in let cs := expect (procedures path around k) in
  (d <- c_down c ;; '(r, log) <- visit_procedure action 1 d true module log ;; Ok (c, ret || r, log)) = Ok (c, ret || hits cs, log ++ cs).
Proof using.
  intros D TG DP module MD.
  destruct (derives_kids x _ (one_of [T PG_FUNCTION_SUBPROGRAM; T PG_SUBROUTINE_SUBPROGRAM]) _ D TG ltac:(vm_compute; reflexivity)) as (r & kids & EK & S & K).
  subst k. clear D TG. intros c cs.
  assert (E : exists p, kids = [p] /\ is_procedure (g_tag p) = true).
  { cbn [one_of] in S. apply sp_or_inv in S as [S|S]; apply sp_tag_inv in S as (p & -> & E); exists p; rewrite E; split; auto. }
  destruct E as (p & -> & E). unfold c_down, c_try_down, c. cbn [c_node g_kids sure bind c_path visit_procedure]. unfold act. cbn [bind c_path].
  assert (EC : cs = [mkCall (rev (0 :: path)) true module]).
  { unfold cs. rewrite procedures_eq. change (is_procedure PG_INTERNAL_SUBPROGRAM) with false. cbn [app branches_of]. rewrite app_nil_r.
    destruct p as [g r0 o ks]. cbn [g_tag] in E. rewrite procedures_eq, E. rewrite expect_app, branches_deep.
    2:{ cbn [filter]. rewrite E. change (is_procedure PG_INTERNAL_SUBPROGRAM) with false. cbn [length]. lia. }
    rewrite app_nil_r. unfold expect. cbn [filter]. unfold depth. cbn [q_around filter]. change (is_procedure PG_INTERNAL_SUBPROGRAM) with false. cbn [filter].
    rewrite DP. cbn [Nat.leb map]. unfold call_of, inside_procedure, inside_module. cbn [q_way q_around existsb].
    change (is_procedure PG_INTERNAL_SUBPROGRAM) with false. change (PG_MODULE =? PG_INTERNAL_SUBPROGRAM)%Z with false. cbn [orb]. rewrite <- MD.
    assert (X : existsb is_procedure around = true) by (destruct (filter is_procedure around) as [|z l] eqn:F; [discriminate|]; apply existsb_exists; exists z; apply (filter_In is_procedure z around); rewrite F; now left).
    now rewrite X. }
  rewrite EC. cbn [existsb]. now rewrite orb_false_r.
Qed.

Definition one_or_none (g : Z) (ks : list ptree) : Prop := ks = [] \/ exists k, ks = [k] /\ ok k /\ g_tag k = g.
Lemma none_here k : ok k -> is_outer (g_tag k) = false -> forall way around, procedures way around k = [].
Proof using. apply no_procedures. Qed.
Definition end_tags : list Z := [SG_END_FUNCTION_STMT; SG_END_SUBROUTINE_STMT; SG_END_PROGRAM_STMT; SG_END_MP_SUBPROGRAM_STMT].
Lemma rest_ok spec ex inn last i path u around module ret log :
  ok spec -> g_tag spec = PG_SPECIFICATION_PART -> one_or_none PG_EXECUTION_PART ex -> one_or_none PG_INTERNAL_SUBPROGRAM_PART inn ->
  ok last -> In (g_tag last) end_tags -> length (filter is_procedure around) = 1 -> module = existsb (Z.eqb PG_MODULE) around ->
  visit_rest (fun d log => visit_procedure action 1 d true module log) (Cur spec (ex ++ inn ++ [last]) (i :: path) u) ret log =
    let cs := expect (branches_of path around i (spec :: ex ++ inn ++ [last])) in Ok (ret || hits cs, log ++ cs).
Proof using.
  intros O1 T1 EX IN O2 T2 DP MD. cbn zeta.
  assert (LT : is_outer (g_tag last) = false /\ (g_tag last =? PG_EXECUTION_PART)%Z = false /\ (g_tag last =? PG_INTERNAL_SUBPROGRAM_PART)%Z = false)
    by (cbn [In end_tags] in T2; repeat (destruct T2 as [<-|T2]; [vm_compute; auto|]); destruct T2).
  destruct LT as (L1 & L2 & L3).
  assert (S0 : forall w a, procedures w a spec = []) by (apply none_here; [exact O1|rewrite T1; reflexivity]).
  assert (L0 : forall w a, procedures w a last = []) by (apply none_here; [exact O2|exact L1]).
  (* where the cursor is when the execution part has been passed *)
  assert (C : exists j, (match skip_if PG_SPECIFICATION_PART (Cur spec (ex ++ inn ++ [last]) (i :: path) u) with None => None | Some c => skip_if PG_EXECUTION_PART c end) =
       match inn ++ [last] with k :: ks => Some (Cur k ks (j :: path) u) | [] => None end /\
       branches_of path around i (spec :: ex ++ inn ++ [last]) = branches_of path around j inn).
  { unfold skip_if at 1. unfold c_tag at 1. cbn [c_node]. rewrite T1, Z.eqb_refl. destruct EX as [->|(e & -> & O3 & T3)].
    - exists (S i). cbn [app]. split.
      + cbn [c_try_next]. destruct IN as [->|(p & -> & O4 & T4)]; cbn [app]; unfold skip_if, c_tag; cbn [c_node]; [now rewrite L2|now rewrite T4].
      + cbn [branches_of]. rewrite S0. cbn [app]. rewrite branches_app. cbn [branches_of]. rewrite L0. now rewrite app_nil_r.
    - assert (E0 : forall w a, procedures w a e = []) by (apply none_here; [exact O3|rewrite T3; reflexivity]).
      exists (S (S i)). cbn [app]. split.
      + cbn [c_try_next]. unfold skip_if, c_tag. cbn [c_node]. rewrite T3, Z.eqb_refl. cbn [c_try_next].
        destruct IN as [->|(p & -> & O4 & T4)]; reflexivity.
      + cbn [branches_of]. rewrite S0, E0. cbn [app]. rewrite branches_app. cbn [branches_of]. rewrite L0. now rewrite app_nil_r. }
  destruct C as (j & C1 & C2). rewrite C2. clear C2. unfold visit_rest.
  destruct (skip_if PG_SPECIFICATION_PART _) as [c0|]; [|destruct inn; discriminate C1]. cbn beta iota in C1. rewrite C1. clear C1 c0.
  destruct IN as [->|(p & -> & O4 & T4)]; cbn [app].
  - unfold c_tag. cbn [c_node]. rewrite L3. cbn [branches_of expect map filter existsb]. now rewrite app_nil_r, orb_false_r.
  - unfold c_tag at 1. cbn [c_node]. rewrite T4, Z.eqb_refl.
    destruct (derives_kids x _ (sq [T SG_CONTAINS_STMT; Many (T PG_INTERNAL_SUBPROGRAM)]) _ O4 T4 ltac:(vm_compute; reflexivity)) as (r & kids & -> & S & K). clear O4.
    cbn [sq fold_right] in S. apply sp_seq_inv in S as (k1 & k2 & -> & S1 & S2). apply sp_tag_inv in S1 as (ct & -> & ET).
    apply sp_seq_inv in S2 as (k3 & k4 & -> & S2 & S3). apply sp_eps_inv in S3. subst k4. rewrite app_nil_r in *. apply sp_many_inv in S2. cbn [app] in *.
    unfold c_try_down. cbn [c_node g_kids c_path]. unfold c_tag. cbn [c_node]. rewrite ET, Z.eqb_refl. cbn [assert_ bind right_of].
    inversion K as [|? ? K1 K2]; subst.
    rewrite (loop_ok (fun k => ok k /\ g_tag k = PG_INTERNAL_SUBPROGRAM)) with (around := PG_INTERNAL_SUBPROGRAM_PART :: around).
    + cbn [branches_of]. rewrite app_nil_r. rewrite procedures_eq. change (is_procedure PG_INTERNAL_SUBPROGRAM_PART) with false. cbn [app branches_of].
      rewrite none_here by (auto; rewrite ET; reflexivity). reflexivity.
    + intros k ks i0 ret0 log0 [A B]. cbn zeta. apply internal_ok; auto.
    + clear -K2 S2. induction K2; inversion S2; subst; constructor; auto.
Qed.

Lemma opt_one g ks : Forall ok ks -> spells (opt (T g)) (map g_tag ks) -> one_or_none g ks.
Proof using.
  intros K H. apply sp_opt_inv in H as [->|H]; [now left|]. right. apply sp_tag_inv in H as (k & -> & E). exists k. apply Forall_inv in K. auto.
Qed.
Lemma body_inv last ks : Forall ok ks -> spells (sq (subprogram_body last)) (map g_tag ks) -> exists spec ex inn l, ks = spec :: ex ++ inn ++ [l] /\
  ok spec /\ g_tag spec = PG_SPECIFICATION_PART /\ one_or_none PG_EXECUTION_PART ex /\ one_or_none PG_INTERNAL_SUBPROGRAM_PART inn /\ ok l /\ g_tag l = last.
Proof using.
  intros K H. cbn [sq subprogram_body fold_right] in H.
  apply sp_seq_inv in H as (k1 & r1 & -> & H1 & H). apply sp_seq_inv in H as (k2 & r2 & -> & H2 & H).
  apply sp_seq_inv in H as (k3 & r3 & -> & H3 & H). apply sp_seq_inv in H as (k4 & r4 & -> & H4 & H). apply sp_eps_inv in H as ->.
  apply sp_tag_inv in H1 as (spec & -> & E1). apply sp_tag_inv in H4 as (l & -> & E4). rewrite app_nil_r in *.
  rewrite !Forall_app in K. destruct K as (K1 & K2 & K3 & K4). apply Forall_inv in K1, K4.
  exists spec, k2, k3, l. conjs; auto; apply opt_one; auto.
Qed.
Lemma head_call path around k module : length (filter is_procedure around) = 0 -> module = existsb (Z.eqb PG_MODULE) around ->
  is_procedure (g_tag k) = true -> forall r kids, k = PT (g_tag k) r None kids ->
  expect (procedures path around k) = mkCall (rev path) false module :: expect (branches_of path (g_tag k :: around) 0 kids).
Proof using.
  intros DP MD P r kids E. rewrite E at 1. rewrite procedures_eq, P. rewrite expect_app. unfold expect at 1. cbn [filter]. unfold depth. cbn [q_around]. rewrite DP.
  cbn [Nat.leb map app]. unfold call_of, inside_procedure, inside_module. cbn [q_way q_around]. rewrite <- MD.
  replace (existsb is_procedure around) with false; [reflexivity|]. symmetry. destruct (existsb is_procedure around) eqn:X; [|auto].
  apply existsb_exists in X as (z & A & B). assert (In z (filter is_procedure around)) as C by now apply filter_In. destruct (filter _ _); [destruct C|discriminate].
Qed.

Lemma proc_ok k right path u around module log : ok k -> is_procedure (g_tag k) = true -> length (filter is_procedure around) = 0 ->
  module = existsb (Z.eqb PG_MODULE) around ->
  visit_procedure action 2 (Cur k right path u) false module log = let cs := expect (procedures path around k) in Ok (hits cs, log ++ cs).
Proof using.
  intros D P DP MD.
  assert (DP1 : length (filter is_procedure (g_tag k :: around)) = 1) by (cbn [filter]; rewrite P; cbn [length]; lia).
  assert (MD1 : module = existsb (Z.eqb PG_MODULE) (g_tag k :: around)).
  { rewrite MD. cbn [existsb]. replace (PG_MODULE =? g_tag k)%Z with false; [reflexivity|]. symmetry. apply Z.eqb_neq. intros X. rewrite <- X in P. discriminate P. }
  assert (G : exists first rest r, k = PT (g_tag k) r None (first ++ rest) /\ Forall ok (first ++ rest) /\
    (exists last, In last end_tags /\ spells (sq (subprogram_body last)) (map g_tag rest)) /\
    ((g_tag k =? PG_MAIN_PROGRAM = true /\ (first = [] \/ exists f, first = [f] /\ g_tag f = SG_PROGRAM_STMT))%Z \/
     ((g_tag k =? PG_MAIN_PROGRAM)%Z = false /\ exists f, first = [f] /\ is_outer (g_tag f) = false))).
  { assert (T4 : forall g first last, g_tag k = g -> produced g (sq (T first :: subprogram_body last)) = true -> In last end_tags ->
      (g =? PG_MAIN_PROGRAM)%Z = false -> is_outer first = false -> exists f rest r, k = PT (g_tag k) r None ([f] ++ rest) /\ Forall ok ([f] ++ rest) /\
      (exists last, In last end_tags /\ spells (sq (subprogram_body last)) (map g_tag rest)) /\ is_outer (g_tag f) = false).
    { intros g first last TG PR LE GM FO. destruct (derives_kids x _ _ _ D TG PR) as (r & kids & E & S & K).
      change (sq (T first :: subprogram_body last)) with (Cat (T first) (sq (subprogram_body last))) in S.
      apply sp_seq_inv in S as (k1 & k2 & -> & S1 & S2). apply sp_tag_inv in S1 as (f & -> & EF).
      exists f, k2, r. rewrite TG. conjs; auto. - exists last. auto. - now rewrite EF. }
    unfold is_procedure in P. cbn [existsb] in P.
    destruct (Z.eqb_spec (g_tag k) PG_FUNCTION_SUBPROGRAM) as [E|_];
      [destruct (T4 _ SG_FUNCTION_STMT SG_END_FUNCTION_STMT E ltac:(vm_compute; reflexivity) ltac:(cbn; auto) eq_refl ltac:(vm_compute; reflexivity)) as (f & rest & r & A & B & C & F);
       exists [f], rest, r; conjs; auto; right; split; [rewrite E; reflexivity|eauto]|].
    destruct (Z.eqb_spec (g_tag k) PG_SUBROUTINE_SUBPROGRAM) as [E|_];
      [destruct (T4 _ SG_SUBROUTINE_STMT SG_END_SUBROUTINE_STMT E ltac:(vm_compute; reflexivity) ltac:(cbn; auto) eq_refl ltac:(vm_compute; reflexivity)) as (f & rest & r & A & B & C & F);
       exists [f], rest, r; conjs; auto; right; split; [rewrite E; reflexivity|eauto]|].
    destruct (Z.eqb_spec (g_tag k) PG_MAIN_PROGRAM) as [E|_].
    - destruct (derives_kids x _ (sq (opt (T SG_PROGRAM_STMT) :: subprogram_body SG_END_PROGRAM_STMT)) _ D E ltac:(vm_compute; reflexivity)) as (r & kids & EK & S & K).
      change (sq (opt (T SG_PROGRAM_STMT) :: subprogram_body SG_END_PROGRAM_STMT)) with (Cat (opt (T SG_PROGRAM_STMT)) (sq (subprogram_body SG_END_PROGRAM_STMT))) in S.
      apply sp_seq_inv in S as (k1 & k2 & -> & S1 & S2). exists k1, k2, r. rewrite E. conjs; auto.
      + exists SG_END_PROGRAM_STMT. split; [cbn; auto|exact S2].
      + left. split; [reflexivity|]. apply sp_opt_inv in S1 as [->|S1]; [now left|right]. apply sp_tag_inv in S1 as (f & -> & EF). eauto.
    - destruct (Z.eqb_spec (g_tag k) PG_SEPARATE_MODULE_SUBPROGRAM) as [E|_]; [|discriminate P].
      destruct (T4 _ SG_MP_SUBPROGRAM_STMT SG_END_MP_SUBPROGRAM_STMT E ltac:(vm_compute; reflexivity) ltac:(cbn; auto) eq_refl ltac:(vm_compute; reflexivity)) as (f & rest & r & A & B & C & F).
      exists [f], rest, r; conjs; auto; right; split; [reflexivity|eauto]. }
  destruct G as (first & rest & r & EK & K & (last & LE & SB) & CASES).
  apply Forall_app in K as [K1 K2]. apply body_inv in SB as (spec & ex & inn & l & -> & O1 & T1 & O3 & O4 & O5 & T5); auto.
  assert (LE' : In (g_tag l) end_tags) by now rewrite T5.
  rewrite (head_call _ _ _ _ DP MD P _ _ EK). cbn zeta.
  assert (FIN : forall j ret lg, visit_rest (fun d log => visit_procedure action 1 d true module log)
      (Cur spec (ex ++ inn ++ [l]) (j :: path) (Some (Cur k right path u))) ret lg =
      let cs := expect (branches_of path (g_tag k :: around) j (spec :: ex ++ inn ++ [l])) in Ok (ret || hits cs, lg ++ cs)).
  { intros. apply rest_ok; auto. }
  change (visit_procedure action 2 (Cur k right path u) false module log) with
    (c <- c_down (Cur k right path u) ;;
     c <- (if (c_tag (Cur k right path u) =? PG_MAIN_PROGRAM)%Z then (if (c_tag c =? SG_PROGRAM_STMT)%Z then c_next c else Ok c) else c_next c) ;;
     visit_rest (fun d log => visit_procedure action 1 d true module log) c (action (mkCall (rev path) false module)) (log ++ [mkCall (rev path) false module])).
  unfold c_down at 1, c_try_down. cbn [c_node c_path]. unfold c_tag at 1. cbn [c_node].
  assert (FO : forall f, is_outer (g_tag f) = false -> ok f -> expect (branches_of path (g_tag k :: around) 0 ([f] ++ spec :: ex ++ inn ++ [l])) =
     expect (branches_of path (g_tag k :: around) 1 (spec :: ex ++ inn ++ [l]))).
  { intros f F1 F2. cbn [app]. cbn [branches_of]. now rewrite (none_here f). }
  assert (FINAL : forall cs, Ok (action (mkCall (rev path) false module) || hits cs, (log ++ [mkCall (rev path) false module]) ++ cs) =
     Ok (hits (mkCall (rev path) false module :: cs), log ++ mkCall (rev path) false module :: cs)) by (intros; rewrite <- app_assoc; reflexivity).
  destruct CASES as [[M [->|(f & -> & EF)]]|[M (f & -> & EF)]]; rewrite M.
  - rewrite EK at 1. cbn [g_kids app sure bind]. unfold c_tag at 1. cbn [c_node]. rewrite T1. change (PG_SPECIFICATION_PART =? SG_PROGRAM_STMT)%Z with false. cbn [bind].
    rewrite FIN. cbn zeta. apply FINAL.
  - rewrite FO by (try rewrite EF; try reflexivity; now apply Forall_inv in K1).
    rewrite EK at 1. cbn [g_kids app sure bind]. unfold c_tag at 1. cbn [c_node]. rewrite EF, Z.eqb_refl. unfold c_next. cbn [c_try_next sure bind].
    rewrite FIN. cbn zeta. apply FINAL.
  - rewrite FO by (auto; now apply Forall_inv in K1).
    rewrite EK at 1. cbn [g_kids app sure bind]. unfold c_next. cbn [c_try_next sure bind]. rewrite FIN. cbn zeta. apply FINAL.
Qed.

Lemma module_ok k right path u around log : ok k -> g_tag k = PG_MODULE -> length (filter is_procedure around) = 0 ->
  visit_module action (Cur k right path u) log = let cs := expect (procedures path around k) in Ok (hits cs, log ++ cs).
Proof using.
  intros D TG DP.
  destruct (derives_kids x _ (sq [T SG_MODULE_STMT; T PG_SPECIFICATION_PART; opt (T PG_MODULE_SUBPROGRAM_PART); T SG_END_MODULE_STMT]) _ D TG ltac:(vm_compute; reflexivity)) as (r & kids & EK & S & K).
  subst k. clear D TG. cbn [sq fold_right] in S.
  apply sp_seq_inv in S as (k1 & r1 & -> & H1 & S). apply sp_seq_inv in S as (k2 & r2 & -> & H2 & S).
  apply sp_seq_inv in S as (k3 & r3 & -> & H3 & S). apply sp_seq_inv in S as (k4 & r4 & -> & H4 & S). apply sp_eps_inv in S as ->.
  apply sp_tag_inv in H1 as (m & -> & E1). apply sp_tag_inv in H2 as (spec & -> & E2). apply sp_tag_inv in H4 as (l & -> & E4). rewrite app_nil_r in *.
  rewrite !Forall_app in K. destruct K as (K1 & K2 & K3 & K4). apply Forall_inv in K1, K2, K4. apply opt_one in H3; [|exact K3].
  unfold visit_module, c_down at 1, c_try_down. cbn [c_node g_kids app c_path sure bind]. unfold c_tag at 1. cbn [c_node]. rewrite E1, Z.eqb_refl. cbn [assert_ bind].
  unfold c_next. cbn [c_try_next sure bind]. unfold skip_if, c_tag at 1. cbn [c_node]. rewrite E2, Z.eqb_refl.
  rewrite procedures_eq. change (is_procedure PG_MODULE) with false. cbn [app branches_of].
  rewrite (none_here m), (none_here spec) by (auto; try rewrite E1; try rewrite E2; reflexivity). cbn [app]. rewrite branches_app. cbn [branches_of].
  rewrite (none_here l) by (auto; rewrite E4; reflexivity). cbn [app]. rewrite app_nil_r.
  destruct H3 as [->|(p & -> & O3 & T3)]; cbn [app c_try_next].
  - unfold c_tag. cbn [c_node]. rewrite E4. change (SG_END_MODULE_STMT =? PG_MODULE_SUBPROGRAM_PART)%Z with false. cbn. now rewrite app_nil_r.
  - unfold c_tag at 1. cbn [c_node]. rewrite T3, Z.eqb_refl.
    destruct (derives_kids x _ (sq [T SG_CONTAINS_STMT; Many (T PG_MODULE_SUBPROGRAM)]) _ O3 T3 ltac:(vm_compute; reflexivity)) as (r0 & kids & -> & S & K). clear O3 T3.
    cbn [sq fold_right] in S. apply sp_seq_inv in S as (k1 & k2 & -> & S1 & S2). apply sp_tag_inv in S1 as (ct & -> & ET).
    apply sp_seq_inv in S2 as (k3 & k4 & -> & S2 & S3). apply sp_eps_inv in S3. subst k4. rewrite app_nil_r in *. apply sp_many_inv in S2. cbn [app] in *.
    unfold c_down at 1, c_try_down. cbn [c_node g_kids c_path sure bind]. unfold c_tag at 1. cbn [c_node]. rewrite ET, Z.eqb_refl. cbn [assert_ bind right_of].
    inversion K as [|? ? K5 K6]; subst.
    rewrite (loop_ok (fun k => ok k /\ g_tag k = PG_MODULE_SUBPROGRAM)) with (around := PG_MODULE_SUBPROGRAM_PART :: PG_MODULE :: around).
    + cbn [branches_of]. rewrite app_nil_r. rewrite procedures_eq. change (is_procedure PG_MODULE_SUBPROGRAM_PART) with false. cbn [app branches_of].
      rewrite none_here by (auto; rewrite ET; reflexivity). reflexivity.
    + intros k ks i0 ret0 log0 [A B]. cbn zeta.
      destruct (derives_kids x _ (one_of [T PG_FUNCTION_SUBPROGRAM; T PG_SUBROUTINE_SUBPROGRAM; T PG_SEPARATE_MODULE_SUBPROGRAM]) _ A B ltac:(vm_compute; reflexivity)) as (r1 & kids & -> & S & K7).
      assert (E : exists p, kids = [p] /\ is_procedure (g_tag p) = true /\
        ((g_tag p =? PG_FUNCTION_SUBPROGRAM)%Z || (g_tag p =? PG_SUBROUTINE_SUBPROGRAM)%Z || (g_tag p =? PG_SEPARATE_MODULE_SUBPROGRAM)%Z = true)).
      { cbn [one_of] in S. apply sp_or_inv in S as [S|S]; [|apply sp_or_inv in S as [S|S]]; apply sp_tag_inv in S as (p & -> & E); exists p; rewrite E; split; auto. }
      destruct E as (p & -> & P1 & P2). apply Forall_inv in K7.
      unfold c_down, c_try_down. cbn [c_node g_kids c_path sure bind]. unfold c_tag. cbn [c_node]. rewrite P2.
      rewrite (proc_ok _ _ _ _ (PG_MODULE_SUBPROGRAM :: PG_MODULE_SUBPROGRAM_PART :: PG_MODULE :: around)); auto. cbn [bind c_up sure].
      rewrite procedures_eq. change (is_procedure PG_MODULE_SUBPROGRAM) with false. cbn [app branches_of]. rewrite app_nil_r. reflexivity.
    + clear -K6 S2. induction K6; inversion S2; subst; constructor; auto.
Qed.

Lemma unit_ok k right path u around ret log : ok k -> g_tag k = PG_PROGRAM_UNIT -> filter is_procedure around = [] -> existsb (Z.eqb PG_MODULE) around = false ->
  let c := Cur k right path u in let cs := expect (procedures path around k) in
  visit_unit action c ret log = Ok (c, ret || hits cs, log ++ cs).
Proof using.
  intros D TG DP NM.
  destruct (derives_kids x _ (one_of [T PG_EXTERNAL_SUBPROGRAM; T PG_MODULE; T PG_MAIN_PROGRAM]) _ D TG ltac:(vm_compute; reflexivity)) as (r & kids & EK & S & K).
  subst k. clear D TG. cbn zeta. assert (DL : length (filter is_procedure around) = 0) by now rewrite DP.
  unfold visit_unit. unfold c_tag at 1. cbn [c_node g_tag]. rewrite Z.eqb_refl. cbn [assert_ bind].
  cbn [one_of] in S. apply sp_or_inv in S as [S|S]; [|apply sp_or_inv in S as [S|S]]; apply sp_tag_inv in S as (p & -> & E); apply Forall_inv in K;
    unfold c_down at 1, c_try_down; cbn [c_node g_kids c_path sure bind]; unfold c_tag; cbn [c_node]; rewrite E;
    rewrite procedures_eq; change (is_procedure PG_PROGRAM_UNIT) with false; cbn [app branches_of]; rewrite app_nil_r.
  - rewrite Z.eqb_refl.
    destruct (derives_kids x _ (one_of [T PG_FUNCTION_SUBPROGRAM; T PG_SUBROUTINE_SUBPROGRAM]) _ K E ltac:(vm_compute; reflexivity)) as (r1 & kids & -> & S & K7).
    assert (E' : exists p, kids = [p] /\ is_procedure (g_tag p) = true).
    { cbn [one_of] in S. apply sp_or_inv in S as [S|S]; apply sp_tag_inv in S as (p & -> & E'); exists p; rewrite E'; split; auto. }
    destruct E' as (p & -> & P1). apply Forall_inv in K7. unfold c_down, c_try_down. cbn [c_node g_kids c_path sure bind].
    rewrite (proc_ok _ _ _ _ (PG_EXTERNAL_SUBPROGRAM :: PG_PROGRAM_UNIT :: around)); auto. cbn [bind c_up sure].
    rewrite procedures_eq. change (is_procedure PG_EXTERNAL_SUBPROGRAM) with false. cbn [app branches_of]. now rewrite app_nil_r.
  - change (PG_MODULE =? PG_EXTERNAL_SUBPROGRAM)%Z with false. rewrite Z.eqb_refl.
    rewrite (module_ok _ _ _ _ (PG_PROGRAM_UNIT :: around)); auto.
  - change (PG_MAIN_PROGRAM =? PG_EXTERNAL_SUBPROGRAM)%Z with false. change (PG_MAIN_PROGRAM =? PG_MODULE)%Z with false. rewrite Z.eqb_refl.
    rewrite (proc_ok _ _ _ _ (PG_PROGRAM_UNIT :: around)); auto; rewrite E; reflexivity.
Qed.

Theorem visit_ok t : ok t -> g_tag t = PG_PROGRAM -> visit action (Some t) = let cs := expect (all_procedures t) in Ok (hits cs, cs).
Proof using.
  intros D TG. destruct (derives_kids x _ (sq [some_of (T PG_PROGRAM_UNIT); Eps]) _ D TG ltac:(vm_compute; reflexivity)) as (r & kids & EK & S & K).
  subst t. cbn [sq fold_right some_of] in S. apply sp_seq_inv in S as (k1 & r1 & -> & S & S1). unfold some_of in S. apply sp_seq_inv in S as (k2 & k3 & -> & S2 & S3).
  apply sp_seq_inv in S1 as (k4 & k5 & -> & S4 & S5). apply sp_eps_inv in S4 as ->. apply sp_eps_inv in S5 as ->. rewrite !app_nil_r in *.
  apply sp_tag_inv in S2 as (k & -> & E). apply sp_many_inv in S3. cbn [app] in *. inversion K as [|? ? K1 K2]; subst.
  unfold visit, c_root, all_procedures. unfold c_tag at 1. cbn [c_node g_tag]. rewrite Z.eqb_refl. cbn [assert_ bind].
  unfold c_down, c_try_down. cbn [c_node g_kids c_path sure bind].
  pose proof (unit_ok k k3 [0] (Some (Cur (PT PG_PROGRAM r None (k :: k3)) [] [] None)) [PG_PROGRAM] false [] K1 E eq_refl eq_refl) as U. cbn zeta in U. rewrite U. cbn [bind app].
  cbn [right_of]. rewrite (loop_ok (fun k => ok k /\ g_tag k = PG_PROGRAM_UNIT)) with (around := [PG_PROGRAM]).
  - rewrite procedures_eq. change (is_procedure PG_PROGRAM) with false. cbn [app branches_of]. cbn zeta. now rewrite expect_app, hits_app.
  - intros k0 ks i ret log [A B]. apply unit_ok; auto.
  - clear -K2 S3. induction K2; inversion S3; subst; constructor; auto.
Qed.
End Visits.

(** ** The list of procedures *)
Lemma branch_in q way around ks : forall i, In q (branches_of way around i ks) <-> exists j k, nth_error ks j = Some k /\ In q (procedures (i + j :: way) around k).
Proof.
  induction ks as [|k ks IH]; intros i; cbn [branches_of].
  - split; [intros []|]. intros (j & k & H & _). destruct j; discriminate.
  - rewrite in_app_iff, IH. split.
    + intros [H|(j & k' & H1 & H2)]; [exists 0, k; rewrite Nat.add_0_r; auto|]. exists (S j), k'. rewrite <- Nat.add_succ_comm. auto.
    + intros ([|j] & k' & H1 & H2); [injection H1 as ->; rewrite Nat.add_0_r in H2; auto|]. right. exists j, k'. rewrite Nat.add_succ_comm. auto.
Qed.
Lemma procedures_way q : forall t way around, In q (procedures way around t) ->
  exists w n, q_way q = rev way ++ w /\ node_at t w = Some n /\ is_procedure (g_tag n) = true.
Proof.
  intros t. remember (psize t) as n eqn:En. revert t En. induction n as [n IH] using (well_founded_induction lt_wf). intros [g r o kids] -> way around H.
  rewrite procedures_eq in H. apply in_app_iff in H as [H|H].
  - destruct (is_procedure g) eqn:P; [|destruct H]. destruct H as [<-|[]]. exists [], (PT g r o kids). cbn [q_way node_at g_tag]. rewrite app_nil_r. auto.
  - apply branch_in in H as (j & k & H1 & H2). cbn [Nat.add] in H2. eapply IH in H2 as (w & n & A & B & C); [|cbn [psize]|reflexivity].
    + exists (j :: w), n. cbn [rev] in A. rewrite <- app_assoc in A. split; [exact A|]. cbn [node_at g_kids]. rewrite H1. auto.
    + apply nth_error_In in H1. apply psize_in in H1. lia.
Qed.
Lemma way_procedures w : forall t n way around, node_at t w = Some n -> is_procedure (g_tag n) = true -> exists q, In q (procedures way around t) /\ q_way q = rev way ++ w.
Proof.
  induction w as [|i w IH]; intros [g r o kids] n way around H P; cbn [node_at g_kids] in H.
  - injection H as <-. cbn [g_tag] in P. rewrite procedures_eq, P. exists (mkProc (rev way) around). rewrite app_nil_r. split; [now left|reflexivity].
  - destruct (nth_error kids i) as [k|] eqn:E; [|discriminate]. destruct (IH k n (i :: way) (g :: around) H P) as (q & A & B).
    exists q. rewrite procedures_eq. split; [|rewrite B; cbn [rev]; now rewrite <- app_assoc]. apply in_app_iff. right. apply branch_in. exists i, k. auto.
Qed.
Lemma NoDup_app2 {A} (a b : list A) : NoDup a -> NoDup b -> (forall z, In z a -> In z b -> False) -> NoDup (a ++ b).
Proof.
  induction 1 as [|z a H F IH]; intros N D; [exact N|]. cbn [app]. constructor; [|apply IH; [exact N|intros; eapply D; [right|]; eauto]].
  rewrite in_app_iff. intros [I|I]; [auto|eapply D; [left; reflexivity|exact I]].
Qed.
Lemma ways_distinct : forall t way around, NoDup (map q_way (procedures way around t)).
Proof.
  intros t. remember (psize t) as n eqn:En. revert t En. induction n as [n IH] using (well_founded_induction lt_wf). intros [g r o kids] -> way around.
  rewrite procedures_eq.
  assert (B : forall ks i, (forall k, In k ks -> In k kids) -> NoDup (map q_way (branches_of way (g :: around) i ks)) /\
    forall q, In q (branches_of way (g :: around) i ks) -> exists j w, i <= j /\ q_way q = rev way ++ j :: w).
  { induction ks as [|k ks IHk]; intros i HI; [split; [constructor|intros q []]|]. cbn [branches_of].
    destruct (IHk (S i)) as [N1 N2]; [intros; apply HI; now right|]. split.
    - rewrite map_app. apply NoDup_app2.
      + eapply IH; [|reflexivity]. specialize (HI k (or_introl eq_refl)). apply psize_in in HI. cbn [psize]. lia.
      + exact N1.
      + intros w I1 I2. apply in_map_iff in I1 as (q1 & <- & I1). apply in_map_iff in I2 as (q2 & E2 & I2).
        apply procedures_way in I1 as (w1 & n1 & E1 & _). apply N2 in I2 as (j & w2 & L & E3). rewrite E1, E3 in E2. cbn [rev] in E2. rewrite <- app_assoc in E2.
        apply app_inv_head in E2. injection E2 as E2 _. lia.
    - intros q I. apply in_app_iff in I as [I|I].
      + apply procedures_way in I as (w1 & n1 & E1 & _). exists i, w1. cbn [rev] in E1. rewrite <- app_assoc in E1. auto.
      + apply N2 in I as (j & w & L & E). exists j, w. split; [lia|auto]. }
  destruct (B kids 0 (fun k H => H)) as [N1 N2]. destruct (is_procedure g); [|exact N1]. cbn [app map]. constructor; [|exact N1].
  intros I. apply in_map_iff in I as (q & E & I). apply N2 in I as (j & w & _ & E2). cbn [q_way] in E. rewrite E in E2. rewrite <- (app_nil_r (rev way)) in E2 at 1.
  apply app_inv_head in E2. discriminate.
Qed.
