(** Indentation of a whole file. *)
From Coq Require Import Lia.
From Verif Require Import Base Base_lemmas Tags SyntaxTags FileLine FileLine_spec FileEdit_spec Token Stmts LogicalLine StmtSrc StmtSrc_spec StmtSrc_proofs
  LineEdit StmtRules Peg StmtGrammar LabelStack Prgm Prgm_spec Prgm_proofs PrgmSource PrgmSource_proofs PrgmTop_proofs PrgmExact_proofs
  Indent Indent_spec Indent_proofs IndentTree_proofs.
Local Open Scope nat_scope.

(** ** Which statement a line belongs to *)
Lemma nth_flat_map {A B} (g : A -> list B) l : forall i q, nth_error (flat_map g l) i = Some q ->
  exists l1 a l2 k, l = l1 ++ a :: l2 /\ i = length (flat_map g l1) + k /\ nth_error (g a) k = Some q.
Proof.
  induction l as [|a l IH]; intros i q H; cbn [flat_map] in H; [destruct i; discriminate|].
  destruct (Nat.lt_ge_cases i (length (g a))) as [L|L].
  - rewrite nth_error_app1 in H by auto. exists [], a, l, i. auto.
  - rewrite nth_error_app2 in H by auto. apply IH in H as (l1 & b & l2 & k & -> & E & H).
    exists (a :: l1), b, l2, k. cbn [flat_map app]. rewrite app_length. conjs; auto. lia.
Qed.
Lemma seq_split n : forall s l1 a l2, seq s n = l1 ++ a :: l2 -> l1 = seq s (a - s) /\ s <= a < s + n.
Proof.
  induction n as [|n IH]; intros s l1 a l2 E; cbn [seq] in E; [destruct l1; discriminate|].
  destruct l1 as [|b l1]; cbn [app] in E.
  - injection E as -> _. rewrite Nat.sub_diag. split; auto. lia.
  - injection E as <- E. apply IH in E as [-> L]. split; [|lia]. replace (a - s) with (S (a - S s)) by lia. reflexivity.
Qed.
Lemma stmt_at ls i q : nth_error (stmts_of_file ls) i = Some q ->
  exists a l k r, nth_error ls a = Some l /\ k < length (l_stmts l) /\ q = nth_stmt ls a l k r /\
    i = length (flat_map (stmts_of_line ls) (seq 0 a)) + k.
Proof.
  intros H. apply nth_flat_map in H as (l1 & a & l2 & k & E & -> & H). apply seq_split in E as [-> L]. rewrite Nat.sub_0_r in *.
  unfold stmts_of_line in H at 1. destruct (nth_error ls a) as [l|] eqn:EL; [|destruct k; discriminate].
  assert (K : k < length (l_stmts l)).
  { rewrite <- (seq_length (length (l_stmts l)) 0). rewrite <- (map_length (fun k => nth_stmt ls a l k (nth k (l_stmts l) (0, 0)))).
    apply nth_error_Some. congruence. }
  exists a, l, k, (nth k (l_stmts l) (0, 0)). conjs; auto.
  erewrite map_nth_error in H; [injection H as <-; reflexivity|].
  rewrite nth_error_nth' with (d := 0) by (now rewrite seq_length). now rewrite seq_nth.
Qed.
Lemma stmt_lines ls i q j : nth_error (stmts_of_file ls) i = Some q -> line_of_stmt q j ->
  exists a, i = length (flat_map (stmts_of_line ls) (seq 0 a)) /\ line_at ls a has_stmts = true /\ j <= a < length ls /\
    forall b, j <= b < a -> line_at ls b has_stmts = false.
Proof.
  intros H (C & O). apply stmt_at in H as (a & l & k & r & E & K & -> & ->). exists a.
  assert (A : a < length ls) by (apply nth_error_Some; congruence).
  assert (k = 0) as ->.
  { unfold nth_stmt in C. cbn [s_compound] in C. destruct (Nat.eqb_spec (length (l_stmts l)) 1); lia. }
  rewrite Nat.add_0_r. conjs; auto.
  - unfold line_at. rewrite E. unfold has_stmts. destruct (l_stmts l); auto. cbn in K. lia.
  - unfold nth_stmt in O. cbn [s_line s_prefix Nat.eqb] in O. destruct O as [O|O]; [injection O as ->; lia|].
    unfold prefix_of in O. apply filter_In in O as [O _]. apply in_seq in O. lia.
  - unfold nth_stmt in O. cbn [s_line s_prefix Nat.eqb] in O. intros b B. destruct O as [O|O]; [injection O as ->; lia|].
    unfold prefix_of in O. apply filter_In in O as [_ O]. apply andb_true_iff in O as [_ O]. rewrite forallb_forall in O.
    specialize (O b). unfold line_at in *. destruct (nth_error ls b) as [lb|]; [|reflexivity].
    apply negb_true_iff. apply O. apply in_seq. lia.
Qed.
Lemma own_unique ls i i' j : owns (stmts_of_file ls) i j -> owns (stmts_of_file ls) i' j -> i = i'.
Proof.
  intros (q & E & O) (q' & E' & O').
  destruct (stmt_lines _ _ _ _ E O) as (a & -> & A1 & A2 & A3). destruct (stmt_lines _ _ _ _ E' O') as (a' & -> & B1 & B2 & B3).
  destruct (Nat.lt_trichotomy a a') as [L|[->|L]]; auto.
  - rewrite B3 in A1 by lia. discriminate.
  - rewrite A3 in B1 by lia. discriminate.
Qed.
Lemma own_line ls i j : owns (stmts_of_file ls) i j -> j < length ls.
Proof. intros (q & E & O). destruct (stmt_lines _ _ _ _ E O) as (a & _ & _ & A & _). lia. Qed.
Lemma stmt_has_line ls i q : nth_error (stmts_of_file ls) i = Some q -> exists a, s_line q = Some a /\ a < length ls.
Proof.
  intros H. apply stmt_at in H as (a & l & k & r & E & K & -> & ->). exists a. split; auto. apply nth_error_Some. congruence.
Qed.

(** ** What indentation does *)
Theorem indent_effect it ls t ls' ch : file_ok ls -> (0 <= it_cont it)%Z ->
  indent_recurse it (stmts_of_file ls) t 0 ls = Ok (ls', ch) ->
  length ls' = length ls /\
  (forall i q n j, nth_error (stmts_of_file ls) i = Some q -> level (it_off it) i t n -> line_of_stmt q j ->
     exists l l', nth_error ls j = Some l /\ nth_error ls' j = Some l' /\ line_moved l l' n (it_cont it)) /\
  (forall j, (forall i q, nth_error (stmts_of_file ls) i = Some q -> occurs i t -> ~ line_of_stmt q j) -> nth_error ls' j = nth_error ls j) /\
  (ch = false -> ls' = ls).
Proof.
  intros FO OF H. apply indent_calls in H. pose proof (run_effect it (stmts_of_file ls) _ _ _ _ FO OF H) as (R1 & R2 & R3 & R4 & R5).
  conjs; auto.
  - intros i q n j E L O. destruct (level_calls it i t n L 0%Z) as (l1 & l2 & EC & NI). rewrite EC in H.
    rewrite Z.add_0_l in H. eapply run_level; eauto.
    + exists q. auto.
    + intros i' I O'. apply NI. assert (i = i') as ->; auto. eapply own_unique; eauto. exists q. auto.
  - intros j N. apply R4. intros i I (q & E & O). apply calls_occur in I. eapply N; eauto.
Qed.

(** ** When it is defined *)
Lemma lines_ok sp off : (0 <= sp)%Z -> (0 <= off)%Z -> forall js ls, file_ok ls -> file_plain ls -> Forall (fun j => j < length ls) js ->
  exists ls' c, lines_indent ls js sp off = Ok (ls', c).
Proof.
  intros SP OF. induction js as [|j js IH]; intros ls FO FP J; cbn [lines_indent]; eauto.
  apply Forall_cons_iff in J as [J1 J2]. assert (exists ls1 c, line_indent ls j sp off = Ok (ls1, c)) as (ls1 & c & E).
  { unfold line_indent. destruct (nth_error ls j) as [l|] eqn:E; [|apply nth_error_None in E; lia].
    assert (L1 : line_ok l) by (eapply Forall_forall in FO; eauto using nth_error_In).
    assert (L2 : line_plain l) by (eapply Forall_forall in FP; eauto using nth_error_In).
    destruct (ll_ok l sp off L1 L2 SP OF) as ([l' c] & ->). cbn [bind]. eauto. }
  rewrite E. cbn [bind]. apply line_effect in E as (E1 & E2 & E3 & _); auto.
  destruct (IH ls1) as (ls2 & d & ->); auto; [rewrite E1; auto|]. cbn [bind]. eauto.
Qed.
Lemma stmt_ok ls q sp off : (0 <= sp)%Z -> (0 <= off)%Z -> file_ok ls -> file_plain ls ->
  (forall j, line_of_stmt q j -> j < length ls) -> s_line q <> None -> exists x, stmt_indent ls q sp off = Ok x.
Proof.
  intros SP OF FO FP J SL. unfold stmt_indent. pose proof SP as SP'. apply Z.leb_le in SP' as ->. cbn [assert_ bind].
  destruct (Z.ltb_spec (s_compound q) 2) as [C|C]; [|eauto].
  assert (JP : Forall (fun j => j < length ls) (s_prefix q)) by (apply Forall_forall; intros j I; apply J; split; auto).
  destruct (lines_ok sp off SP OF _ _ FO FP JP) as (ls1 & c & E). rewrite E. cbn [bind].
  destruct (s_line q) as [j|] eqn:EL; [|congruence]. apply lines_effect in E as (E1 & E2 & E3 & _); auto.
  destruct (lines_ok sp off SP OF [j] ls1 E2 (E3 FP)) as (ls2 & d & E).
  { constructor; auto. rewrite E1. apply J. split; auto. }
  cbn [lines_indent] in E. apply bind_Ok in E as ([ls3 e] & E & _). rewrite E. cbn [bind]. eauto.
Qed.
Lemma run_ok it sts N l : (0 <= it_cont it)%Z -> (forall i j, owns sts i j -> j < N) ->
  (forall i q, nth_error sts i = Some q -> s_line q <> None) -> forall ls, length ls = N -> file_ok ls -> file_plain ls ->
  Forall (fun p => fst p < length sts /\ (0 <= snd p)%Z) l -> exists x, run it sts l ls = Ok x.
Proof.
  intros OF ON SL. induction l as [|[i sp] l IH]; intros ls LN FO FP K; cbn [run]; eauto.
  apply Forall_cons_iff in K as [[K1 K2] K]. cbn [fst snd] in *.
  assert (exists ls1 c, call it sts ls (i, sp) = Ok (ls1, c)) as (ls1 & c & E).
  { unfold call. cbn [fst snd]. destruct (nth_error sts i) as [q|] eqn:E; [|apply nth_error_None in E; lia].
    destruct (s_compound q <? 2)%Z; [|eauto]. edestruct (stmt_ok ls q sp (it_cont it)) as ([y c] & ->); eauto.
    intros j O. rewrite LN. apply (ON i). exists q. auto. }
  rewrite E. cbn [bind]. apply call_effect in E as (E1 & E2 & E3 & _); auto.
  destruct (IH ls1) as ([ls2 d] & ->); auto; [congruence|]. cbn [bind]. eauto.
Qed.

(** ** The trees *)
Lemma shaped_fine N t : shaped N t -> tree_fine t.
Proof.
  induction t as [tag r st kids IH] using ptree_rect'. intros H. inversion H as [tag' i L T|tag' r' k P B F]; subst; [constructor|].
  constructor; auto.
  - intros E. destruct B as (a & i & b & j & mid & ->).
    + apply begin_end_iff in E. destruct E as [->|[->| ->]]; reflexivity.
    + cbn [length]. rewrite app_length. cbn [length]. lia.
  - clear - IH F. induction F as [|k l K F IHF]; constructor; inversion IH; subst; auto.
Qed.
Lemma shaped_occurs N i t : occurs i t -> shaped N t -> i < N.
Proof.
  induction 1 as [g r|g r s kids k I O IH]; intros H; inversion H; subst; auto.
  - destruct I.
  - apply IH. rewrite Forall_forall in *. auto.
Qed.
Lemma calls_nonneg it t : (forall g, (0 <= it_off it g)%Z) -> forall sp, (0 <= sp)%Z -> Forall (fun p => (0 <= snd p)%Z) (calls it t sp).
Proof.
  intros O. induction t as [tag r st kids IH] using ptree_rect'. intros sp SP. destruct kids as [|k0 kids].
  - cbn [calls]. destruct st; auto.
  - change (calls it (PT tag r st (k0 :: kids)) sp) with (calls_kids it (calls it) tag (length (k0 :: kids)) sp 0 (k0 :: kids)).
    set (n := length (k0 :: kids)). clearbody n. revert IH. generalize (k0 :: kids) as l. generalize 0 as j.
    intros j l IH. revert j. induction IH as [|k l Hk _ IHl]; intros j; cbn [calls_kids]; auto.
    apply Forall_app. split; auto. apply Hk. specialize (O tag). destruct (outer_b tag j n); lia.
Qed.
Lemma program_tag x n m t s' : parse_prgm x n g_program = Done (m, Some t, s') -> m = true /\ g_tag t = PG_PROGRAM.
Proof.
  unfold parse_prgm. destruct n as [|n]; [discriminate|]. cbn [grun g_call prgm_grammar].
  destruct n as [|n]; [discriminate|]. cbn [grun]. intro H. ob H. destruct a as [[b kids] s1].
  destruct b; [|unfold complain in H; ob H; discriminate]. ob H. injection H as <- <- <-. split; auto.
  cbn [g_cover] in E0. ob E0. injection E0 as <-. reflexivity.
Qed.
Lemma program_shaped x n m t s' : roots_real x -> parse_prgm x n g_program = Done (m, Some t, s') -> shaped (x_num x) t.
Proof.
  intros R H. pose proof (program_tag _ _ _ _ _ H) as [_ T]. destruct (prgm_shaped _ _ _ _ _ _ R H) as [A|(r & k & -> & _)]; auto.
  cbn [g_tag] in T. vm_compute in T. discriminate.
Qed.
Lemma occurs_leaves i t : forall N, shaped N t -> forall sh, occurs i t <-> In i (map fst (g_leaves sh t)).
Proof.
  induction t as [tag r st kids IH] using ptree_rect'. intros N H sh. inversion H as [tag' j L T|tag' r' k P B F]; subst.
  - cbn. split; [inversion 1; subst; auto; match goal with X : In _ [] |- _ => destruct X end|intros [->|[]]; constructor].
  - cbn [g_leaves]. split.
    + inversion 1 as [|? ? ? ? k I O]; subst. apply in_map_iff. rewrite Forall_forall in *.
      apply (proj1 (IH k I N (F k I) (tag =? PG_DO_TERM_SHARED_STMT)%Z)) in O. apply in_map_iff in O as (p & <- & O).
      exists p. split; auto. apply in_flat_map. eauto.
    + intros I. apply in_map_iff in I as (p & <- & I). apply in_flat_map in I as (k & I & O). rewrite Forall_forall in *.
      apply occurs_in with k; auto. eapply (IH k I N (F k I) (tag =? PG_DO_TERM_SHARED_STMT)%Z). apply in_map_iff. eauto.
Qed.

(** ** The whole file *)
Lemma stmts_num ls : length (stmts_of_file ls) = length (flat_map l_stmts ls).
Proof.
  unfold stmts_of_file. rewrite flat_map_concat_map.
  assert (forall l1 l2, ls = l1 ++ l2 -> length (concat (map (stmts_of_line ls) (seq (length l1) (length l2)))) = length (flat_map l_stmts l2)) as H.
  { intros l1 l2. revert l1. induction l2 as [|a l2 IH]; intros l1 E; auto. cbn [length seq map concat flat_map]. rewrite !app_length. f_equal.
    - unfold stmts_of_line. subst ls. rewrite nth_error_app2, Nat.sub_diag by auto. cbn [nth_error]. now rewrite map_length, seq_length.
    - specialize (IH (l1 ++ [a])). rewrite app_length in IH. cbn [length] in IH. rewrite Nat.add_1_r in IH. apply IH. now rewrite <- app_assoc. }
  apply (H [] ls). reflexivity.
Qed.
Lemma make_stmts_ok ls f : lines_sane ls -> 3 + length (stmts_of_file ls) <= f -> make_stmts f ls = Some (Ok (stmts_of_file ls)).
Proof.
  intros H HF. unfold make_stmts. apply make_stmts_spec with (all := ls); auto.
  - apply Forall_forall. intros l I S0. destruct (H l I) as [A B].
    + unfold has_stmts in S0. destruct (l_stmts l); [discriminate|discriminate].
    + split; auto. destruct (l_cat l); auto; congruence.
  - unfold inv. cbn. conjs; auto; try lia. now left.
  - unfold pending. cbn. unfold stmts_of_file. now rewrite Nat.sub_0_r.
Qed.
Definition file_stmts (exts : bool -> list ext) (m : nat) (ls : lines) : stmts := of_source exts m (map (src_of ls) (stmts_of_file ls)).
Lemma file_indent_eq exts m n it ls : lines_sane ls -> file_indent exts m n it ls =
  if is_empty (stmts_of_file ls) then Done (ls, false) else
  '(_, t, _) <~ parse_prgm (file_stmts exts m ls) n g_program ;;
  match t with None => Bad | Some t => lift (indent_recurse it (stmts_of_file ls) t 0 ls) end.
Proof.
  intros H. unfold file_indent. rewrite make_stmts_ok; auto. rewrite stmts_num. lia.
Qed.
Lemma tree_indented exts m n it ls b t s' : lines_sane ls -> file_ok ls -> file_plain ls -> (0 <= it_cont it)%Z ->
  (forall g, (0 <= it_off it g)%Z) -> parse_prgm (file_stmts exts m ls) n g_program = Done (b, Some t, s') ->
  exists x, indent_recurse it (stmts_of_file ls) t 0 ls = Ok x.
Proof.
  intros LS FO FP OF OFF H. apply program_shaped in H; [|apply source_roots].
  assert (N : x_num (file_stmts exts m ls) = length (stmts_of_file ls)) by (cbn; apply map_length). rewrite N in H.
  destruct (run_ok it (stmts_of_file ls) (length ls) (calls it t 0)) with (ls := ls) as (x & E); auto.
  - intros i j. apply own_line.
  - intros i q E. apply stmt_has_line in E as (a & -> & _). discriminate.
  - pose proof (calls_nonneg it t OFF 0%Z ltac:(lia)) as C. rewrite Forall_forall in *. intros p I. split; [|auto].
    eapply shaped_occurs; eauto. eapply calls_occur. apply in_map. exact I.
  - exists x. apply calls_indent; auto. eapply shaped_fine; eauto.
Qed.

(** ** Levels *)
Lemma level_fun off i t n m : level off i t n -> level off i t m -> n = m.
Proof.
  intros A B. pose (it := mkIndent off 0%Z). 
  destruct (level_calls it i t n A 0%Z) as (l1 & l2 & E & N). destruct (level_calls it i t m B 0%Z) as (l1' & l2' & E' & N').
  rewrite E in E'. clear E A B. revert l1' E'. induction l1 as [|p l1 IH]; intros [|p' l1'] E'; cbn [app] in E'.
  - injection E' as X _. lia.
  - exfalso. injection E' as <- ->. apply N. rewrite map_app. cbn [map fst]. apply in_elt.
  - exfalso. injection E' as -> <-. apply N'. rewrite map_app. cbn [map fst]. apply in_elt.
  - injection E' as _ E'. eauto.
Qed.
Lemma level_occurs off i t n : level off i t n -> occurs i t.
Proof. induction 1; [constructor| |]; eapply occurs_in; eauto using nth_error_In. Qed.

Lemma steps_tail p l : steps (p :: l) -> steps l.
Proof. inversion 1; subst; auto; constructor. Qed.
Lemma steps_after l1 : forall i l2, steps (l1 ++ (i, false) :: l2) -> ~ In i (map fst l2).
Proof.
  assert (LE : forall l j g, steps ((j, g) :: l) -> Forall (fun p => j <= fst p) l).
  { intros l. induction l as [|[k h] l IH]; intros j g H; [constructor|]. inversion H as [| |? ? ? ? ? E R]; subst.
    apply IH in R. constructor; [cbn; lia|]. eapply Forall_impl; [|exact R]. cbn. intros. lia. }
  induction l1 as [|p l1 IH]; intros i l2 H; cbn [app] in H.
  - destruct l2 as [|[k h] l2]; auto. inversion H as [| |? ? ? ? ? E R]; subst. destruct E as [->|[X _]]; [|discriminate].
    apply LE in R. cbn [map fst]. intros [X|X]; [lia|]. apply in_map_iff in X as (q & <- & X). rewrite Forall_forall in R. apply R in X. lia.
  - apply IH. eapply steps_tail; eauto.
Qed.

(** a leaf that is no shared terminator, somewhere in a tiled tree *)
Lemma tiled_inv g r kids : tiled (PT g r None kids) -> Forall tiled kids /\ steps (flat_map (g_leaves (g =? PG_DO_TERM_SHARED_STMT)%Z) kids).
Proof. inversion 1 as [|? ? F S0]; subst. split; auto. Qed.
Lemma base_node N off c t n : shaped N t -> base off c t n -> g_stmt c = None ->
  exists g r kids, t = PT g r None kids /\ forall p, In p (leaves_of c) -> In p (leaves_of t).
Proof.
  intros H B C. revert H. induction B as [|g r s kids j k n O E B IH|g r s kids j k n O E B IH]; intros H.
  - destruct c as [g r s kids]. cbn [g_stmt] in C. subst s. eauto 10.
  - inversion H as [? i L T|? ? ? P0 B0 F]; subst; [destruct j; discriminate|]. exists g, r, kids. split; auto.
    pose proof (nth_error_In _ _ E) as I. rewrite Forall_forall in F. destruct (IH (F _ I)) as (g' & r' & kids' & -> & Q).
    intros p IP. apply Q in IP. unfold leaves_of. cbn [g_leaves]. apply in_flat_map. eexists. split; [exact I|exact IP].
  - inversion H as [? i L T|? ? ? P0 B0 F]; subst; [destruct j; discriminate|]. exists g, r, kids. split; auto.
    pose proof (nth_error_In _ _ E) as I. rewrite Forall_forall in F. destruct (IH (F _ I)) as (g' & r' & kids' & -> & Q).
    intros p IP. apply Q in IP. unfold leaves_of. cbn [g_leaves]. apply in_flat_map. eexists. split; [exact I|exact IP].
Qed.
Lemma kid_once N g r kids j k i : shaped N (PT g r None kids) -> tiled (PT g r None kids) -> nth_error kids j = Some k ->
  In (i, false) (g_leaves (g =? PG_DO_TERM_SHARED_STMT)%Z k) -> forall k', In k' (skipn (S j) kids) -> ~ occurs i k'.
Proof.
  intros H T E I k' I' O. apply tiled_inv in T as [_ T]. inversion H as [|? ? ? P0 B0 F]; subst.
  assert (EK : kids = firstn j kids ++ k :: skipn (S j) kids).
  { rewrite <- (firstn_skipn j kids) at 1. f_equal. clear - E. revert j E. induction kids as [|x ls IH]; intros [|j] E; cbn in *; try discriminate; [congruence|auto]. }
  rewrite EK, flat_map_app in T. cbn [flat_map] in T. apply in_split in I as (l3 & l4 & I). rewrite I in T. rewrite <- !app_assoc, app_assoc in T.
  cbn [app] in T. apply steps_after in T. apply T. rewrite map_app, in_app_iff. right.
  assert (K : shaped N k'). { rewrite Forall_forall in F. apply F. rewrite EK. apply in_app_iff. right. now right. }
  apply (occurs_leaves i k' N K (g =? PG_DO_TERM_SHARED_STMT)%Z) in O. apply in_map_iff in O as (p & <- & O). apply in_map_iff. exists p. split; auto.
  apply in_flat_map. eauto.
Qed.
Lemma tiled_kid g r kids j k : tiled (PT g r None kids) -> nth_error kids j = Some k -> tiled k.
Proof. intros T E. apply tiled_inv in T as [T _]. rewrite Forall_forall in T. apply T. eauto using nth_error_In. Qed.
Lemma level_up N off c i t n m : shaped N t -> tiled t -> base off c t n -> g_stmt c = None -> In (i, false) (leaves_of c) ->
  level off i c m -> level off i t (n + m).
Proof.
  intros H T B C I L. revert H T. induction B as [|g r s kids j k n O E B IH|g r s kids j k n O E B IH]; intros H T; auto.
  - assert (s = None) as -> by (inversion H; subst; auto; destruct j; discriminate).
    assert (K : shaped N k). { inversion H; subst. rewrite Forall_forall in *. eauto using nth_error_In. }
    apply level_outer with (j := j) (k := k); auto. { apply IH; auto. eapply tiled_kid; eauto. }
    eapply kid_once; eauto. destruct (base_node _ _ _ _ _ K B C) as (g' & r' & kids' & -> & Q). apply Q in I. exact I.
  - assert (s = None) as -> by (inversion H; subst; auto; destruct j; discriminate).
    assert (K : shaped N k). { inversion H; subst. rewrite Forall_forall in *. eauto using nth_error_In. }
    rewrite <- Z.add_assoc. apply level_inner with (j := j) (k := k); auto. { apply IH; auto. eapply tiled_kid; eauto. }
    eapply kid_once; eauto. destruct (base_node _ _ _ _ _ K B C) as (g' & r' & kids' & -> & Q). apply Q in I. exact I.
Qed.
Lemma base_sub N off c t n : base off c t n -> shaped N t -> tiled t -> shaped N c /\ tiled c.
Proof.
  induction 1 as [|g r s kids j k n O E B IH|g r s kids j k n O E B IH]; intros H T; auto.
  - assert (s = None) as -> by (inversion H; subst; auto; destruct j; discriminate). apply IH; [|eapply tiled_kid; eauto].
    inversion H; subst. rewrite Forall_forall in *. eauto using nth_error_In.
  - assert (s = None) as -> by (inversion H; subst; auto; destruct j; discriminate). apply IH; [|eapply tiled_kid; eauto].
    inversion H; subst. rewrite Forall_forall in *. eauto using nth_error_In.
Qed.
Lemma leaf_level off tag i : level off i (stmt_leaf tag i) 0.
Proof. constructor. Qed.
Theorem brackets N off c t n : shaped N t -> tiled t -> (forall g, bracketed g = true -> begins_and_ends g \/ off g = 0%Z) ->
  base off c t n -> bracketed (g_tag c) = true ->
  (exists a i, c = stmt_leaf a i) \/
  exists a i b j mid, g_kids c = stmt_leaf a i :: mid ++ [stmt_leaf b j] /\ level off i t n /\ level off j t n.
Proof.
  intros H T TB B BR. destruct (base_sub _ _ _ _ _ B H T) as [H1 T1]. inversion H1 as [a i L0 T0|g r kids P0 B0 F]; subst; [left; eauto|right].
  cbn [g_tag] in BR. destruct (B0 BR) as (a & i & b & j & mid & ->). exists a, i, b, j, mid. split; [reflexivity|].
  assert (SH : (g =? PG_DO_TERM_SHARED_STMT)%Z = false).
  { apply Z.eqb_neq. intros ->. vm_compute in BR. discriminate. }
  assert (LV : forall p k, outer_part g p (length (stmt_leaf a i :: mid ++ [stmt_leaf b j])) \/ ~ outer_part g p (length (stmt_leaf a i :: mid ++ [stmt_leaf b j])) ->
     (p = 0 \/ S p = length (stmt_leaf a i :: mid ++ [stmt_leaf b j])) -> nth_error (stmt_leaf a i :: mid ++ [stmt_leaf b j]) p = Some k ->
     forall tg x, k = stmt_leaf tg x -> level off x (PT g r None (stmt_leaf a i :: mid ++ [stmt_leaf b j])) 0).
  { intros p k D PO E tg x ->.
    assert (NL : forall k', In k' (skipn (S p) (stmt_leaf a i :: mid ++ [stmt_leaf b j])) -> ~ occurs x k').
    { eapply kid_once; eauto. rewrite SH. left. reflexivity. }
    destruct (TB g BR) as [BE|Z0].
    - apply level_outer with p (stmt_leaf tg x); auto; [split; auto|constructor].
    - destruct D as [D|D]; [apply level_outer with p (stmt_leaf tg x); auto; constructor|].
      replace 0%Z with (off g + 0)%Z by (rewrite Z0; reflexivity). apply level_inner with p (stmt_leaf tg x); auto. constructor. }
  assert (DEC : forall p m, outer_part g p m \/ ~ outer_part g p m).
  { intros p m. destruct (outer_b g p m) eqn:E; [left; now apply outer_iff|right; intros X; apply outer_iff in X; congruence]. }
  assert (UP : forall x, In (x, false) (leaves_of (PT g r None (stmt_leaf a i :: mid ++ [stmt_leaf b j]))) ->
     level off x (PT g r None (stmt_leaf a i :: mid ++ [stmt_leaf b j])) 0 -> level off x t n).
  { intros x I L. rewrite <- (Z.add_0_r n). eapply level_up; eauto. }
  split.
  - apply UP; [unfold leaves_of; cbn [g_leaves]; rewrite SH; left; reflexivity|]. eapply (LV 0); auto; reflexivity.
  - apply UP.
    + unfold leaves_of. cbn [g_leaves]. rewrite SH. apply in_flat_map. exists (stmt_leaf b j). split; [right; apply in_app_iff; right; left; reflexivity|left; reflexivity].
    + eapply (LV (S (length mid)) (stmt_leaf b j)); auto.
      * right. cbn [length]. rewrite app_length. cbn [length]. lia.
      * cbn [nth_error]. rewrite nth_error_app2, Nat.sub_diag by auto. reflexivity.
Qed.
