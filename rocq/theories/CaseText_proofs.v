(** Lowering the case of a text commutes with reading it. *)
From Verif Require Import Base Tags Base_lemmas FileLine Token LogicalFile LogicalLine LineAccum SmashTab Smash Stmts Peg Regex Lexer LineEdit ReadFile ReadFixed CaseText_spec ParseSame_proofs.
Local Open Scope nat_scope.

Notation lo := (map lower_b).
Definition rmap {A B} (f : A -> B) (r : res A) : res B := match r with Ok a => Ok (f a) | Throw => Throw | UB => UB end.
Definition omap {A B} (f : A -> B) (r : out A) : out B := match r with Done a => Done (f a) | Bad => Bad | Fuel => Fuel end.
Lemma rmap_bind {A B C D} (f : A -> B) (h : C -> D) (r : res A) (k : A -> res C) (k' : B -> res D) :
  (forall a, r = Ok a -> k' (f a) = rmap h (k a)) -> bind (rmap f r) k' = rmap h (bind r k).
Proof. destruct r; cbn; auto. Qed.
Lemma same_bind {A C D} (h : C -> D) (r : res A) (k : A -> res C) (k' : A -> res D) :
  (forall a, r = Ok a -> k' a = rmap h (k a)) -> bind r k' = rmap h (bind r k).
Proof. destruct r; cbn; auto. Qed.
Lemma same_bind' {A C} (r : res A) (k k' : A -> res C) : (forall a, r = Ok a -> k' a = k a) -> bind r k' = bind r k.
Proof. destruct r; cbn; auto. Qed.
Lemma omap_bind {A B C D} (f : A -> B) (h : C -> D) (r : out A) (k : A -> out C) (k' : B -> out D) :
  (forall a, r = Done a -> k' (f a) = omap h (k a)) -> obind (omap f r) k' = omap h (obind r k).
Proof. destruct r; cbn; auto. Qed.
Lemma osame_bind {A C D} (h : C -> D) (r : out A) (k : A -> out C) (k' : A -> out D) :
  (forall a, r = Done a -> k' a = omap h (k a)) -> obind r k' = omap h (obind r k).
Proof. destruct r; cbn; auto. Qed.

(** ** characters *)
Ltac chr c := destruct c as [[] [] [] [] [] [] [] []]; vm_compute; auto.
(** characters that no letter becomes *)
Definition caseless (k : ascii) : bool := ceq (lower_b k) k && ceq (upper_b k) k.
Lemma ceq_iff a b : ceq a b = true <-> a = b.
Proof. unfold ceq. destruct (Ascii.eqb_spec a b); split; intros; auto; try discriminate; contradiction. Qed.
Lemma ceq_caseless c k : caseless k = true -> ceq (lower_b c) k = ceq c k.
Proof.
  unfold caseless. intros H. apply andb_prop in H. destruct H as [A B]. apply ceq_iff in A, B.
  destruct (ceq c k) eqn:E.
  - apply ceq_iff in E. subst. now apply ceq_iff.
  - destruct (ceq (lower_b c) k) eqn:F; auto. apply ceq_iff in F. assert (G : upper_b (lower_b c) = k) by (now rewrite F).
    assert (U : upper_b (lower_b c) = upper_b c) by (chr c). rewrite U in G. assert (G2 : lower_b (upper_b c) = lower_b c) by (chr c).
    (* c is a letter or k itself *)
    assert (D : lower_b c = c \/ upper_b c = c) by (clear; chr c). destruct D as [D|D].
    + exfalso. assert (X : c = k) by congruence. apply ceq_iff in X. congruence.
    + exfalso. assert (X : c = k) by congruence. apply ceq_iff in X. congruence.
Qed.
Lemma ceq_caseless' c k : caseless k = true -> ceq k (lower_b c) = ceq k c.
Proof. intros H. unfold ceq. rewrite (Ascii.eqb_sym k), (Ascii.eqb_sym k c). now apply ceq_caseless. Qed.
Lemma mem_caseless c set : forallb caseless set = true -> mem (lower_b c) set = mem c set.
Proof.
  unfold mem. induction set as [|k s IH]; cbn [forallb existsb]; auto. intros H. apply andb_prop in H. destruct H as [A B]. rewrite ceq_caseless, IH; auto.
Qed.
Lemma ctype_lower c : ctype_ok (lower_b c) = ctype_ok c. Proof. chr c. Qed.
Lemma isspace_lower c : c_isspace (lower_b c) = c_isspace c. Proof. unfold c_isspace. rewrite ctype_lower. replace (is_space_b (lower_b c)) with (is_space_b c) by (chr c). auto. Qed.
Lemma isdigit_lower c : c_isdigit (lower_b c) = c_isdigit c. Proof. unfold c_isdigit. rewrite ctype_lower. replace (is_digit_b (lower_b c)) with (is_digit_b c) by (chr c). auto. Qed.
Lemma toupper_lower c : c_toupper (lower_b c) = c_toupper c. Proof. unfold c_toupper. rewrite ctype_lower. replace (upper_b (lower_b c)) with (upper_b c) by (chr c). auto. Qed.
Lemma tolower_lower c : c_tolower (lower_b c) = c_tolower c. Proof. unfold c_tolower. rewrite ctype_lower. replace (lower_b (lower_b c)) with (lower_b c) by (chr c). auto. Qed.
Lemma quote_caseless c : is_quote c = true -> lower_b c = c. Proof. chr c; discriminate. Qed.
Lemma isquote_lower c : is_quote (lower_b c) = is_quote c. Proof. chr c. Qed.
Lemma delim_caseless d : delim_ok d = true -> caseless d = true. Proof. chr d. Qed.
Lemma quote_delim c : is_quote c = true -> delim_ok c = true. Proof. chr c. Qed.

(** ** strings *)
Lemma at_lower s i : at_ (lo s) i = rmap lower_b (at_ s i).
Proof. unfold at_. rewrite nth_error_map, map_length. destruct (nth_error s i); cbn; auto. destruct (i =? length s); auto. Qed.
Lemma find_from_lower p q s : (forall c, p (lower_b c) = q c) -> forall i, find_from p (lo s) i = find_from q s i.
Proof. intros H. induction s as [|c s IH]; intros i; cbn [map find_from]; auto. rewrite H. destruct (q c); auto. Qed.
Lemma find_first_not_lower set s : forallb caseless set = true -> find_first_not_of set (lo s) = find_first_not_of set s.
Proof. intros H. apply find_from_lower. intros c. now rewrite mem_caseless. Qed.
Lemma find_first_of_lower set s : forallb caseless set = true -> find_first_of set (lo s) = find_first_of set s.
Proof. intros H. apply find_from_lower. intros c. now rewrite mem_caseless. Qed.
Lemma find_last_lower set s : forallb caseless set = true -> find_last_not_of set (lo s) = find_last_not_of set s.
Proof. intros H. induction s as [|c s IH]; cbn [map find_last_not_of]; auto. rewrite IH, mem_caseless by auto. auto. Qed.
Lemma substr_lower s p : substr (lo s) p = rmap lo (substr s p).
Proof. unfold substr. rewrite map_length, skipn_map. destruct (p <=? length s); auto. Qed.
Lemma substr_n_lower s p n : substr_n (lo s) p n = rmap lo (substr_n s p n).
Proof. unfold substr_n. rewrite map_length, skipn_map, firstn_map. destruct (p <=? length s); auto. Qed.
Lemma is_empty_lower s : is_empty (lo s) = is_empty s. Proof. now destruct s. Qed.
Lemma zlen_lower s : zlen (lo s) = zlen s. Proof. unfold zlen. now rewrite map_length. Qed.
Lemma skip_while_lower p s : (forall c, p (lower_b c) = p c) -> skip_while p (lo s) = lo (skip_while p s).
Proof. intros H. induction s as [|c s IH]; cbn [map skip_while]; auto. rewrite H. destruct (p c); auto. Qed.
Lemma count_digits_lower s : forall n, count_digits (lo s) n = count_digits s n.
Proof. induction s as [|c s IH]; intros [|n]; cbn [map count_digits]; auto. rewrite isdigit_lower. apply same_bind'. intros [] _; auto. now rewrite IH. Qed.
Lemma count_spaces_lower s : count_spaces (lo s) = count_spaces s.
Proof. induction s as [|c s IH]; cbn [map count_spaces]; auto. rewrite isspace_lower. apply same_bind'. intros [] _; auto. now rewrite IH. Qed.
Lemma all_space_lower s : all_space (lo s) = all_space s.
Proof. induction s as [|c s IH]; cbn [map all_space]; auto. rewrite isspace_lower. apply same_bind'. intros [] _; auto. Qed.
Lemma blanks_lower s : blanks (lo s) = blanks s.
Proof. induction s as [|c s IH]; cbn [map blanks]; auto. rewrite isspace_lower. apply same_bind'. intros [] _; auto. now rewrite IH. Qed.
Lemma flpr_tolower_lower s : flpr_tolower (lo s) = flpr_tolower s.
Proof. induction s as [|c s IH]; cbn [map flpr_tolower]; auto. rewrite tolower_lower, IH. auto. Qed.

(** ** lines *)
Lemma include_lower s r : is_include_line (lo s) r = is_include_line s r.
Proof.
  unfold is_include_line. rewrite map_length. destruct (length s <=? r); auto. rewrite at_lower, substr_n_lower. destruct (at_ s r) as [c| |]; cbn [rmap bind]; auto.
  destruct (negb (ceq (lower_b c) "i") && negb (ceq (lower_b c) "I")) eqn:E.
  - replace (negb (ceq c "i") && negb (ceq c "I")) with true; auto. revert E. clear. chr c.
  - replace (negb (ceq c "i") && negb (ceq c "I")) with false; [|revert E; clear; chr c]. destruct (substr_n s r 7); cbn [rmap bind]; auto. rewrite flpr_tolower_lower.
    destruct (flpr_tolower a); cbn [bind]; auto. destruct (str_eqb a0 (L "include")); auto. rewrite skipn_map, skip_while_lower; [|intros; now apply ceq_caseless'].
    destruct (skip_while _ _); cbn [map]; auto. now rewrite !ceq_caseless.
Qed.
Lemma ftr_lower s : forall i ctx, delim_ok ctx = true -> ftr_loop (lo s) i ctx = ftr_loop s i ctx.
Proof.
  induction s as [|c s IH]; intros i ctx D; cbn [map ftr_loop]; auto. rewrite isquote_lower, !ceq_caseless, all_space_lower by (auto using delim_caseless).
  destruct (ceq ctx c_nul).
  - destruct (is_quote c) eqn:Q. { rewrite quote_caseless by auto. now rewrite IH by now apply quote_delim. } destruct (ceq c c_bang || ceq c c_amp); auto.
  - destruct (ceq c ctx); auto. destruct (ceq c c_amp); auto. apply same_bind'. intros [] _; auto.
Qed.
Lemma ftx_lower s : forall i ctx, delim_ok ctx = true -> ftx_loop (lo s) i ctx = ftx_loop s i ctx.
Proof.
  induction s as [|c s IH]; intros i ctx D; cbn [map ftx_loop]; auto. rewrite isquote_lower, !ceq_caseless by (auto using delim_caseless).
  destruct (ceq ctx c_nul).
  - destruct (is_quote c) eqn:Q. { rewrite quote_caseless by auto. now rewrite IH by now apply quote_delim. } destruct (ceq c c_bang); auto.
  - destruct (ceq c ctx); auto.
Qed.
Lemma find_free_lower s r pod : find_trailing_free (lo s) r pod = find_trailing_free s r pod.
Proof. unfold find_trailing_free. destruct (delim_ok pod) eqn:D; cbn [assert_ bind]; auto. now rewrite skipn_map, ftr_lower. Qed.
Lemma find_fixed_lower s r lc pod : find_trailing_fixed (lo s) r lc pod = find_trailing_fixed s r lc pod.
Proof. unfold find_trailing_fixed. destruct (delim_ok pod) eqn:D; cbn [assert_ bind]; auto. now rewrite !map_length, skipn_map, firstn_map, ftx_lower. Qed.
Lemma split_trailing_lower od s : split_trailing od (lo s) = let (a, b) := split_trailing od s in (lo a, lo b).
Proof. unfold split_trailing. destruct (ceq od c_nul); auto. now rewrite find_last_lower, firstn_map, skipn_map. Qed.

Definition lo_fl (f : File_Line) : File_Line :=
  mkFL (linenum f) (lo (left_txt f)) (lo (left_space f)) (lo (main_txt f)) (lo (right_space f)) (lo (right_txt f)) (open_delim f) (bits f).

Lemma free_left_lower s plc r c c' : c_isdigit c' = c_isdigit c -> ceq c' c_amp = ceq c c_amp ->
  free_left (lo s) plc r c' = rmap (fun '(a, b, i, x) => (lo a, lo b, i, x)) (free_left s plc r c).
Proof.
  intros E1 E2. unfold free_left. rewrite E1, E2. apply same_bind. intros isd _. destruct isd.
  - rewrite !skipn_map, count_digits_lower. apply same_bind. intros k _. rewrite !substr_n_lower. apply rmap_bind. intros lt _. rewrite is_empty_lower, skipn_map, count_spaces_lower.
    apply same_bind. intros sk _. destruct (0 <? sk); cbn [bind]; auto. rewrite substr_n_lower. apply rmap_bind. auto.
  - destruct (ceq c c_amp).
    + rewrite substr_n_lower. apply rmap_bind. auto.
    + destruct (0 <? r); cbn [bind]; auto. rewrite substr_n_lower. apply rmap_bind. auto.
Qed.
Lemma fl_make_lower ln b a1 a2 a3 a4 a5 od : fl_make ln b (lo a1) (lo a2) (lo a3) (lo a4) (lo a5) od = rmap lo_fl (fl_make ln b a1 a2 a3 a4 a5 od).
Proof. unfold fl_make. destruct (assert_ (delim_ok od)); auto. Qed.
Lemma free_right_lower ln s pod lf ls r b : free_right ln (lo s) pod (lo lf) (lo ls) r b = rmap lo_fl (free_right ln s pod lf ls r b).
Proof.
  unfold free_right. rewrite find_free_lower. apply same_bind. intros [tb od] _.
  destruct tb as [t|].
  - rewrite substr_n_lower, substr_lower. destruct (substr_n s r (t - r)) as [m| |]; cbn [rmap bind]; auto. destruct (substr s t) as [g| |]; cbn [rmap bind]; auto.
    rewrite at_lower. destruct (at_ g 0) as [x| |]; cbn [rmap bind]; auto. rewrite split_trailing_lower. destruct (split_trailing od m) as [m' rs].
    rewrite ceq_caseless by reflexivity. apply fl_make_lower.
  - rewrite substr_lower. destruct (substr s r) as [m| |]; cbn [rmap bind]; auto. rewrite split_trailing_lower. destruct (split_trailing od m) as [m' rs].
    change (@nil ascii) with (lo []) at 1. apply fl_make_lower.
Qed.
Lemma free_fortran_lower ln s pod plc r c c' : c_isdigit c' = c_isdigit c -> ceq c' c_amp = ceq c c_amp ->
  free_fortran ln (lo s) pod plc r c' = rmap lo_fl (free_fortran ln s pod plc r c).
Proof.
  intros E1 E2. unfold free_fortran. rewrite (free_left_lower _ _ _ _ _ E1 E2). apply rmap_bind. intros [[[lf ls] i] b] _. apply free_right_lower.
Qed.

(** ** directives *)
Lemma match_at_holds s : forall w p, match_at s p w = Ok true -> p + length w <= length s -> firstn (length w) (skipn p s) = w.
Proof.
  induction w as [|k w IH]; intros p H B; cbn [match_at length] in *. { reflexivity. }
  unfold at_ in H. destruct (nth_error s p) as [c|] eqn:N. 2:{ apply nth_error_None in N. lia. }
  cbn [bind] in H. destruct (ceq c k) eqn:E; [|discriminate]. apply ceq_iff in E. subst. specialize (IH (S p) H ltac:(lia)).
  destruct (nth_error_split _ _ N) as (l1 & l2 & -> & <-). rewrite skipn_app, skipn_all, Nat.sub_diag. cbn [app skipn firstn]. f_equal.
  rewrite skipn_app, skipn_all2, Nat.sub_succ_l, Nat.sub_diag in IH by lia. exact IH.
Qed.
Lemma match_at_bound s w p : p + length w <= length s -> match_at s p w = Ok true \/ match_at s p w = Ok false.
Proof.
  revert p. induction w as [|k w IH]; intros p B; cbn [match_at length] in *; auto.
  unfold at_. destruct (nth_error s p) as [c|] eqn:N. 2:{ apply nth_error_None in N. lia. } cbn [bind]. destruct (ceq c k); auto. apply IH. lia.
Qed.
Definition no_flpr (s : str) : Prop := ~ holds (L "#flpr") (lo s).
Lemma directive_false s p : ~ holds (L "#flpr") s -> is_flpr_directive s p = Ok false.
Proof.
  intros H. unfold is_flpr_directive. destruct (p + 5 <? length s) eqn:B; auto. apply Nat.ltb_lt in B.
  destruct (match_at_bound s (L "#flpr") (p + 1)) as [M|M]; auto. { cbn. lia. }
  exfalso. apply H. apply match_at_holds in M; [|cbn; lia]. exists (firstn (p + 1) s), (skipn 5 (skipn (p + 1) s)).
  change (length (L "#flpr")) with 5 in M. rewrite <- M at 1. now rewrite !firstn_skipn.
Qed.
Lemma lower_idem' c : lower_b (lower_b c) = lower_b c. Proof. chr c. Qed.
Lemma lo_lo s : lo (lo s) = lo s. Proof. rewrite map_map. apply map_ext. apply lower_idem'. Qed.
Lemma no_flpr_raw s : no_flpr s -> ~ holds (L "#flpr") s.
Proof. intros H (u & v & ->). apply H. exists (lo u), (lo v). now rewrite !map_app. Qed.
Lemma dir_lower s p : no_flpr s -> is_flpr_directive (lo s) p = Ok false /\ is_flpr_directive s p = Ok false.
Proof. intros H. split; apply directive_false; auto. now apply no_flpr_raw. Qed.
Lemma lit_lower s p : no_flpr s -> is_flpr_literal (lo s) p = Ok false /\ is_flpr_literal s p = Ok false.
Proof. intros H. destruct (dir_lower s p H) as [A B]. unfold is_flpr_literal. now rewrite A, B. Qed.

Definition lo_fst {B} (x : File_Line * B) : File_Line * B := (lo_fl (fst x), snd x).
Lemma analyze_free_lower ln s pod plc lit : no_flpr s -> analyze_free ln (lo s) pod plc lit = rmap lo_fst (analyze_free ln s pod plc lit).
Proof.
  intros NF. unfold analyze_free. rewrite find_first_not_lower by reflexivity. destruct lit.
  - destruct (find_first_not_of set_str s) as [r|]; cbn [bind]; auto. rewrite at_lower. destruct (at_ s r) as [c| |]; cbn [rmap bind]; auto.
    rewrite ceq_caseless by reflexivity. destruct (lit_lower s r NF) as [-> ->]. destruct (ceq c c_bang); auto.
  - destruct (find_first_not_of set_str s) as [r|]; cbn [bind]; auto. rewrite at_lower. destruct (at_ s r) as [c0| |]; cbn [rmap bind]; auto. rewrite toupper_lower.
    apply same_bind. intros c _. destruct ((r =? 0) && ceq c c_hash); auto. rewrite include_lower. apply same_bind. intros [] _; auto. destruct (ceq c c_bang).
    + destruct (lit_lower s r NF) as [-> ->]. cbn [bind]. destruct (dir_lower s r NF) as [-> ->]. reflexivity.
    + rewrite (free_fortran_lower _ _ _ _ _ c c) by reflexivity. apply rmap_bind. auto.
Qed.

(** fixed format *)
Lemma count_tabs_lower s : count_tabs (lo s) = count_tabs s.
Proof. induction s as [|c s IH]; cbn [map count_tabs]; auto. rewrite ceq_caseless by reflexivity. destruct (ceq c c_tab); auto. Qed.
Lemma spaces_lower n : lo (spaces n) = spaces n.
Proof. unfold spaces. induction n as [|n IH]; cbn [repeat map]; auto. now rewrite IH. Qed.
Lemma expand_lower s : expand_tabs (lo s) = lo (expand_tabs s).
Proof.
  unfold expand_tabs. rewrite find_first_of_lower by reflexivity. destruct (find_first_of [c_tab] s) as [tb|]; auto. destruct (tb <? 6); auto.
  rewrite !skipn_map, count_tabs_lower, firstn_map, !map_app, spaces_lower. reflexivity.
Qed.
Lemma substr_diff_lower s p a b : substr_diff (lo s) p a b = rmap lo (substr_diff s p a b).
Proof. unfold substr_diff. destruct (b <=? a); auto using substr_lower, substr_n_lower. Qed.
Lemma fixed_split_lower s ri lc tb : fixed_split (lo s) ri lc tb = rmap (fun '(a, b) => (lo a, lo b)) (fixed_split s ri lc tb).
Proof.
  unfold fixed_split. destruct tb as [t|].
  - rewrite substr_diff_lower, !substr_lower.
    apply rmap_bind. intros m _. apply rmap_bind. intros g _. destruct ((0 <? lc)%Z && (t =? Z.to_nat lc)); auto. rewrite find_first_not_lower by reflexivity.
    destruct (find_first_not_of set_str g) as [k|]; auto. rewrite at_lower. apply rmap_bind. intros x _. rewrite !ceq_caseless by reflexivity. destruct (negb (ceq x c_amp) && negb (ceq x c_bang)); cbn [rmap]; auto.
  - rewrite substr_lower. apply rmap_bind. auto.
Qed.
Lemma fixed_body_lower ln s pod lc b lf ri : fixed_body ln (lo s) pod lc b (lo lf) ri = rmap lo_fl (fixed_body ln s pod lc b lf ri).
Proof.
  unfold fixed_body. replace (if 6 <? ri then substr_n (lo s) 6 (ri - 6) else Ok []) with (rmap lo (if 6 <? ri then substr_n s 6 (ri - 6) else Ok [])).
  2:{ rewrite substr_n_lower. destruct (6 <? ri); auto. }
  apply rmap_bind. intros ls _. rewrite find_fixed_lower. apply same_bind. intros [tb od] _. rewrite fixed_split_lower. apply rmap_bind. intros [m g] _. rewrite is_empty_lower.
  destruct (is_empty m); auto. rewrite split_trailing_lower. destruct (split_trailing od m) as [m' rs]. apply fl_make_lower.
Qed.
Lemma fixed_fortran_lower ln s pod lc ri c : fixed_fortran ln (lo s) pod lc ri c = rmap lo_fl (fixed_fortran ln s pod lc ri c).
Proof.
  unfold fixed_fortran. cbv zeta.
  match goal with |- bind ?x _ = rmap _ (bind ?y _) => assert (E : x = rmap (fun '(i, l, b) => (i, lo l, b)) y) end.
  - destruct (ri =? 5).
    + rewrite substr_n_lower, at_lower. apply rmap_bind. intros lt _. apply rmap_bind. intros x _. now rewrite ceq_caseless by reflexivity.
    + destruct (ri <? 6); auto. apply same_bind. intros [] _; auto. rewrite skipn_map, count_digits_lower. apply same_bind. intros k _. rewrite substr_n_lower. apply rmap_bind. auto.
  - rewrite E. apply rmap_bind. intros [[i lf] b] _. rewrite is_empty_lower. destruct (negb (is_empty lf) && ceq pod c_nul); [|apply fixed_body_lower].
    rewrite skipn_map, count_spaces_lower, map_length. apply same_bind. intros sk _. destruct (i + sk =? length s); auto. apply fixed_body_lower.
Qed.
Lemma holds_cut w x a b : ~ In x w -> holds w (a ++ x :: b) -> holds w a \/ holds w b.
Proof.
  intros N (u & v & E). symmetry in E. apply app_eq_app in E. destruct E as (l & [(-> & E)|(-> & E)]).
  - right. destruct l as [|y l]; cbn [app] in E.
    + destruct w as [|y w]. { exists [], b. reflexivity. } cbn [app] in E. injection E as E1 E2. subst. destruct N. now left.
    + injection E as E1 E2. subst. exists l, v. reflexivity.
  - apply app_eq_app in E. destruct E as (l' & [(E1 & E2)|(E1 & E2)]).
    + subst w. destruct l' as [|y l']. { left. exists u, []. now rewrite !app_nil_r. } cbn [app] in E2. injection E2 as E2 _. subst. destruct N. apply in_or_app. right. now left.
    + subst l. left. exists u, l'. reflexivity.
Qed.
Lemma holds_app_l w a b : holds w a -> holds w (a ++ b). Proof. intros (u & v & ->). exists u, (v ++ b). now rewrite <- !app_assoc. Qed.
Lemma holds_app_r w a b : holds w b -> holds w (a ++ b). Proof. intros (u & v & ->). exists (a ++ u), v. now rewrite <- !app_assoc. Qed.
Lemma holds_spaces w n b : ~ In c_sp w -> w <> [] -> holds w (spaces n ++ b) -> holds w b.
Proof.
  intros N W. induction n as [|n IH]; auto. intros H. apply IH. change (spaces (S n) ++ b) with ([] ++ c_sp :: (spaces n ++ b)) in H. apply holds_cut in H; auto.
  destruct H as [(u & v & E)|H]; auto. destruct u, w; try discriminate. contradiction.
Qed.
Lemma find_from_nth p s : forall i k, find_from p s i = Some k -> exists c, nth_error s (k - i) = Some c /\ p c = true /\ i <= k.
Proof.
  induction s as [|c s IH]; intros i k H; cbn [find_from] in H. { discriminate. } destruct (p c) eqn:E.
  - injection H as <-. exists c. rewrite Nat.sub_diag. auto.
  - destruct (IH _ _ H) as (d & A & B & C). exists d. repeat split; auto; try lia. replace (k - i) with (S (k - S i)) by lia. exact A.
Qed.
Lemma expand_holds s : no_flpr s -> no_flpr (expand_tabs s).
Proof.
  unfold no_flpr. intros H H2. apply H. clear H. unfold expand_tabs in H2. destruct (find_first_of [c_tab] s) as [tb|] eqn:E; auto. destruct (tb <? 6); auto.
  set (n := count_tabs (skipn tb s)) in *. rewrite !map_app, spaces_lower in H2.
  assert (N : ~ In c_sp (L "#flpr")) by (cbn; intros [X|[X|[X|[X|[X|X]]]]]; discriminate || auto).
  assert (P : 0 < n). { apply find_from_nth in E. destruct E as (c & A & B & _). rewrite Nat.sub_0_r in A. destruct (nth_error_split _ _ A) as (l1 & l2 & E & <-). unfold n. rewrite E, skipn_app, skipn_all, Nat.sub_diag.
    cbn [app skipn count_tabs]. unfold mem in B. cbn [existsb] in B. rewrite orb_false_r in B. rewrite B. lia. }
  replace (n + 5 * n) with (S (n - 1 + 5 * n)) in H2 by lia. change (spaces (S (n - 1 + 5 * n)) ++ ?x) with (c_sp :: (spaces (n - 1 + 5 * n) ++ x)) in H2. apply holds_cut in H2; auto.
  destruct H2 as [H2|H2].
  - rewrite <- (firstn_skipn tb s), map_app. now apply holds_app_l.
  - apply holds_spaces in H2; [|exact N|discriminate]. rewrite <- (firstn_skipn (tb + n) s), map_app. now apply holds_app_r.
Qed.
Lemma analyze_fixed_lower ln s pod lc : no_flpr s -> analyze_fixed ln (lo s) pod lc = rmap lo_fl (analyze_fixed ln s pod lc).
Proof.
  intros NF0. unfold analyze_fixed. rewrite is_empty_lower. destruct (is_empty s); auto. rewrite expand_lower. apply expand_holds in NF0. revert NF0. generalize (expand_tabs s). clear s. intros s NF.
  rewrite find_first_not_lower by reflexivity. destruct (find_first_not_of set_str s) as [ri|]; auto. rewrite at_lower. destruct (at_ s ri) as [c0| |]; cbn [rmap bind]; auto. rewrite toupper_lower.
  apply same_bind. intros c _. destruct (ri =? 5); [apply fixed_fortran_lower|]. destruct ((ri =? 0) && ceq c c_hash); auto. rewrite include_lower. apply same_bind. intros [] _; auto.
  destruct (ceq c c_bang || ((ri =? 0) && (ceq c c_star || ceq c "C"))); [|apply fixed_fortran_lower]. destruct (lit_lower s ri NF) as [-> ->]. cbn [bind].
  destruct (dir_lower s ri NF) as [-> ->]. reflexivity.
Qed.

(** ** grouping into logical lines *)
Definition lo_LL (l : LLine) : LLine := mkLL (map lo_fl (ll_layout l)) (ll_label l) (ll_cat l) (ll_needs_reformat l).
Definition lo_grp (x : LLine * list File_Line) : LLine * list File_Line := (lo_LL (fst x), map lo_fl (snd x)).
Lemma init_label_lower l : init_label (map lo_fl l) = init_label l.
Proof. destruct l as [|f l]; auto. cbn [map init_label]. change (has_label (lo_fl f)) with (has_label f). change (left_txt (lo_fl f)) with (lo (left_txt f)). now rewrite is_empty_lower, stoi_lower. Qed.
Lemma make_ll_lower l c nr : make_ll (map lo_fl l) c nr = rmap lo_LL (make_ll l c nr).
Proof. unfold make_ll. rewrite init_label_lower. apply same_bind. auto. Qed.
Lemma span_lower p l : (forall f, p (lo_fl f) = p f) -> span p (map lo_fl l) = let (a, b) := span p l in (map lo_fl a, map lo_fl b).
Proof. intros H. induction l as [|f l IH]; cbn [map span]; auto. rewrite H. destruct (p f); auto. rewrite IH. destruct (span p l); auto. Qed.
Lemma last_bslash_lower s : ceq (last_non_blank_char (lo s)) c_bslash = ceq (last_non_blank_char s) c_bslash.
Proof.
  unfold last_non_blank_char. rewrite find_last_lower by reflexivity. destruct (find_last_not_of set_st s) as [i|]; auto.
  change c_nul with (lower_b c_nul) at 1. rewrite map_nth. now apply ceq_caseless.
Qed.
Lemma make_pp_lower f : make_preprocessor (lo_fl f) = lo_fl (make_preprocessor f).
Proof. unfold make_preprocessor, lo_fl. cbn. now rewrite ?map_app. Qed.
Lemma absorb_lower l : forall prev, absorb (lo prev) (map lo_fl l) = let (a, b) := absorb prev l in (map lo_fl a, map lo_fl b).
Proof.
  induction l as [|f l IH]; intros prev; cbn [map absorb]; auto. rewrite last_bslash_lower. destruct (ceq _ c_bslash); auto. cbv zeta. rewrite make_pp_lower.
  change (left_txt (lo_fl (make_preprocessor f))) with (lo (left_txt (make_preprocessor f))). rewrite IH. destruct (absorb _ l); auto.
Qed.
Lemma free_end_lower l : forall k, free_end (map lo_fl l) k = free_end l k.
Proof. induction l as [|f l IH]; intros k; cbn [map free_end]; auto. change (is_trivial (lo_fl f)) with (is_trivial f). change (is_continued (lo_fl f)) with (is_continued f). now rewrite IH. Qed.
Lemma fixed_end_lower l : forall k m, fixed_end (map lo_fl l) k m = fixed_end l k m.
Proof. induction l as [|f l IH]; intros k m; cbn [map fixed_end]; auto. change (is_trivial (lo_fl f)) with (is_trivial f). change (is_continuation (lo_fl f)) with (is_continuation f). now rewrite !IH. Qed.
Lemma is_empty_map {A B} (f : A -> B) l : is_empty (map f l) = is_empty l. Proof. now destruct l. Qed.
Lemma other_lower f r : ('(a, rest) <- Ok (absorb (left_txt (lo_fl f)) (map lo_fl r)) ;; ll <- make_ll (lo_fl f :: a) (other_cat (lo_fl f)) false ;; Ok (ll, rest)) =
  rmap lo_grp ('(a, rest) <- Ok (absorb (left_txt f) r) ;; ll <- make_ll (f :: a) (other_cat f) false ;; Ok (ll, rest)).
Proof.
  change (left_txt (lo_fl f)) with (lo (left_txt f)). rewrite absorb_lower. destruct (absorb (left_txt f) r) as [a rest]. cbn [bind].
  change (lo_fl f :: map lo_fl a) with (map lo_fl (f :: a)). rewrite make_ll_lower. change (other_cat (lo_fl f)) with (other_cat f). apply rmap_bind. auto.
Qed.
Lemma other_lower' f r : (let '(a, rest) := absorb (left_txt (lo_fl f)) (map lo_fl r) in ll <- make_ll (lo_fl f :: a) (other_cat (lo_fl f)) false ;; Ok (ll, rest)) =
  rmap lo_grp (let '(a, rest) := absorb (left_txt f) r in ll <- make_ll (f :: a) (other_cat f) false ;; Ok (ll, rest)).
Proof. exact (other_lower f r). Qed.
Lemma step_free_lower l : step_free (map lo_fl l) = rmap lo_grp (step_free l).
Proof.
  unfold step_free. rewrite !span_lower by reflexivity. destruct (span is_trivial l) as [tr rest]. rewrite is_empty_map. destruct (negb (is_empty tr)).
  { rewrite make_ll_lower. apply rmap_bind. auto. }
  destruct (span is_flpr_lit l) as [li rest']. rewrite is_empty_map. destruct (negb (is_empty li)). { rewrite make_ll_lower. apply rmap_bind. auto. }
  destruct l as [|f r]; auto. cbn [map]. change (is_fortran (lo_fl f)) with (is_fortran f). destruct (negb (is_fortran f)).
  - apply same_bind. intros _ _. apply other_lower'.
  - change (lo_fl f :: map lo_fl r) with (map lo_fl (f :: r)). rewrite free_end_lower, firstn_map, skipn_map, make_ll_lower. apply rmap_bind. auto.
Qed.
Lemma step_fixed_lower l : step_fixed (map lo_fl l) = rmap lo_grp (step_fixed l).
Proof.
  unfold step_fixed. rewrite !span_lower by reflexivity. destruct (span is_trivial l) as [tr rest]. rewrite is_empty_map. destruct (negb (is_empty tr)).
  { rewrite make_ll_lower. apply rmap_bind. auto. }
  destruct l as [|f r]; auto. cbn [map]. change (is_fortran (lo_fl f)) with (is_fortran f). destruct (negb (is_fortran f)).
  - apply same_bind. intros _ _. apply other_lower'.
  - rewrite fixed_end_lower. change (lo_fl f :: map lo_fl r) with (map lo_fl (f :: r)). rewrite firstn_map, skipn_map, make_ll_lower. apply rmap_bind. auto.
Qed.
Lemma group_lower step : (forall l, step (map lo_fl l) = rmap lo_grp (step l)) -> forall fuel l, group step fuel (map lo_fl l) = option_map (rmap (map lo_LL)) (group step fuel l).
Proof.
  intros H. induction fuel as [|n IH]; intros [|f l]; cbn [map group]; auto. change (lo_fl f :: map lo_fl l) with (map lo_fl (f :: l)). rewrite H. destruct (step (f :: l)) as [[ll rest]| |]; cbn; auto.
  rewrite IH. destruct (group step n rest) as [[x| |]|]; cbn; auto.
Qed.

(** ** tokens *)
Definition lo_la (la : Line_Accum) : Line_Accum := mkLA (lo (la_accum la)) (la_offset la) (la_line la) (la_col la).
Lemma main_first_lower f : main_first_col (lo_fl f) = main_first_col f.
Proof. unfold main_first_col, lo_fl, is_fixed_format. cbn [main_txt left_txt left_space bits]. now rewrite is_empty_lower, !zlen_lower. Qed.
Lemma add_line_lower la n a c m b : add_line (lo_la la) n a c (lo m) b = lo_la (add_line la n a c m b).
Proof.
  unfold add_line, lo_la. cbn [la_accum la_offset la_line la_col].
  destruct (negb (is_empty (la_offset la)) && (0 <? a)%Z); destruct (0 <? b)%Z; cbv zeta; unfold zlen; rewrite !map_app, ?app_length, ?map_length; reflexivity.
Qed.
Lemma accum_lower l : accum_layout (map lo_fl l) = lo_la (accum_layout l).
Proof.
  unfold accum_layout. change la_empty with (lo_la la_empty) at 1. generalize la_empty. induction l as [|f l IH]; intros la; cbn [map fold_left]; auto.
  change (is_trivial (lo_fl f)) with (is_trivial f). rewrite main_first_lower. change (linenum (lo_fl f)) with (linenum f). unfold lo_fl at 2 3 4. cbn [main_txt left_space right_space].
  rewrite !zlen_lower, add_line_lower. destruct (is_trivial f); apply IH.
Qed.
Definition lo_opt (o : option (Z * str)) : option (Z * str) := match o with Some (t, s) => Some (t, lo s) | None => None end.
Lemma yylex_lower fuel : forall st s pos, yylex fuel st (lo s) pos = omap (fun '(o, st', r, p) => (lo_opt o, st', lo r, p)) (yylex fuel st s pos).
Proof.
  induction fuel as [|f IH]; intros st s pos; cbn [yylex]; auto. destruct s as [|c r]; auto. cbn [map].
  rewrite lo_lo, lower_idem'. change (lower_b c :: map lower_b r) with (lo (c :: r)).
  destruct (pick (rules (ls_start st)) (lo (c :: r))) as [[n a]|]; auto. rewrite !firstn_map, !skipn_map. cbv zeta. destruct a; auto. destruct (ls_stack st); auto.
Qed.
Definition lo_lex (x : lexeme) : lexeme := match x with (t, s, p) => (t, lo s, p) end.
Lemma scan_lower fuel : forall st s pos, scan fuel st (lo s) pos = omap (fun '(l, st') => (map lo_lex l, st')) (scan fuel st s pos).
Proof.
  induction fuel as [|f IH]; intros st s pos; cbn [scan]; auto. rewrite yylex_lower. apply omap_bind. intros [[[o st'] r] p] _. destruct o as [[t x]|]; cbn [lo_opt]; auto.
  destruct (t =? _)%Z; auto. rewrite IH. apply omap_bind. intros [l st2] _. reflexivity.
Qed.
Lemma c_str_lower s : c_str (lo s) = lo (c_str s).
Proof. induction s as [|c s IH]; cbn [map c_str]; auto. rewrite ceq_caseless by reflexivity. destruct (ceq c c_nul); auto. cbn [map]. now rewrite IH. Qed.
Lemma scan_string_lower st s : scan_string st (lo s) = omap (fun '(l, st') => (map lo_lex l, st')) (scan_string st s).
Proof. unfold scan_string, scan_fuel. cbv zeta. rewrite c_str_lower, map_length. apply scan_lower. Qed.

Definition lo_tok (x : Token) : Token := set_text x (lo (tk_text x)).
Lemma unsmash_lower fr : unsmash (map lo_tok fr) = rmap (map lo_tok) (unsmash fr).
Proof.
  unfold unsmash. rewrite <- map_rev. destruct (rev fr) as [|x b] eqn:E; cbn [map]; auto. change (tok (lo_tok x)) with (tok x). destruct (negb (tok x =? _)%Z); auto.
  change (tk_text (lo_tok x)) with (lo (tk_text x)). rewrite lo_lo. apply same_bind. intros [w|] _; auto. unfold erase_from, erase_n. rewrite map_length.
  destruct (splitpos w <=? length (tk_text x)); cbn [bind rmap]; auto. cbn [Nat.leb bind rmap]. rewrite !map_app, map_rev, skipn_map, !firstn_map. reflexivity.
Qed.
Lemma set_back_lower fr f : (forall x, f (lo_tok x) = lo_tok (f x)) -> set_back (map lo_tok fr) f = rmap (map lo_tok) (set_back fr f).
Proof. intros H. unfold set_back. rewrite <- map_rev. destruct (rev fr) as [|x b]; cbn [map]; auto. rewrite H. cbn [rmap]. rewrite map_rev. auto. Qed.
Lemma tok_loop_lower la l : forall ts pre fr, tok_loop (lo_la la) (map lo_lex l) ts pre (map lo_tok fr) = rmap (map lo_tok) (tok_loop la l ts pre fr).
Proof.
  induction l as [|[[t x] p] l IH]; intros ts pre fr; cbn [map tok_loop lo_lex]; auto.
  change (linecolno (lo_la la)) with (linecolno la). apply same_bind. intros [[[[li ci] tli] tci]|] _; auto. cbv zeta.
  replace (map lo_tok fr ++ [new_token (lo x) t li ci]) with (map lo_tok (fr ++ [new_token x t li ci])) by (now rewrite map_app).
  replace (if (t =? TK_NAME)%Z then unsmash (map lo_tok (fr ++ [new_token x t li ci])) else Ok (map lo_tok (fr ++ [new_token x t li ci])))
    with (rmap (map lo_tok) (if (t =? TK_NAME)%Z then unsmash (fr ++ [new_token x t li ci]) else Ok (fr ++ [new_token x t li ci]))).
  2:{ rewrite unsmash_lower. now destruct (t =? TK_NAME)%Z. }
  apply rmap_bind. intros fr2 _. apply same_bind. intros [[[[u v] eli] eci]|] _; auto. change (la_accum (lo_la la)) with (lo (la_accum la)). rewrite skipn_map, blanks_lower.
  apply same_bind. intros sp _. rewrite set_back_lower by reflexivity. apply rmap_bind. intros fr3 _. apply IH.
Qed.
Lemma lift_map {A B} (f : A -> B) r : lift (rmap f r) = omap f (lift r). Proof. destruct r; auto. Qed.
Lemma tokenize_lower st la : tokenize st (lo_la la) = omap (fun '(fr, st') => (map lo_tok fr, st')) (tokenize st la).
Proof.
  unfold tokenize. change (la_accum (lo_la la)) with (lo (la_accum la)). rewrite scan_string_lower. apply omap_bind. intros [l st'] _.
  pose proof (tok_loop_lower la l 0 0 []) as T. cbn [map] in T. rewrite T, lift_map. apply omap_bind. auto.
Qed.
Lemma init_stmts_lower l : forall i sb, init_stmts_loop (map lo_tok l) i sb = init_stmts_loop l i sb.
Proof. induction l as [|x l IH]; intros i sb; cbn [map init_stmts_loop]; auto. change (is_semi (lo_tok x)) with (is_semi x). now rewrite !IH. Qed.
Definition lo_ln (l : LLn) : LLn :=
  mkLLn (l_label l) (l_cat l) (l_suppress l) (l_reformat l) (l_nsemi l) (map lo_fl (l_layout l)) (map lo_tok (l_frags l)) (l_stmts l).
Lemma init_from_lower st ll layout ll' : l_cat ll' = l_cat ll -> l_suppress ll' = l_suppress ll -> l_reformat ll' = l_reformat ll ->
  init_from_layout st ll' (map lo_fl layout) = omap (fun '(l, st') => (lo_ln l, st')) (init_from_layout st ll layout).
Proof.
  intros A B C. unfold init_from_layout. rewrite init_label_lower. apply osame_bind. intros lab _. unfold tokenize_layout. rewrite accum_lower, tokenize_lower.
  apply omap_bind. intros [fr st'] _. rewrite A, B, C. cbn [omap]. f_equal. f_equal. unfold redo_stmts, init_stmts. cbn [l_frags]. rewrite init_stmts_lower. destruct (init_stmts_loop fr 0 None). reflexivity.
Qed.
Lemma read_lines_lower l : forall st, read_lines st (map lo_LL l) = omap (map lo_ln) (read_lines st l).
Proof.
  induction l as [|x l IH]; intros st; cbn [map read_lines]; auto. change (ll_layout (lo_LL x)) with (map lo_fl (ll_layout x)).
  erewrite init_from_lower; [|reflexivity..]. apply omap_bind. intros [ll st'] _. rewrite IH. apply omap_bind. auto.
Qed.

(** ** files *)
Lemma holds_dec w s : {holds w s} + {~ holds w s}.
Proof.
  induction s as [|c s IH].
  - destruct w as [|x w]; [left; exists [], []; auto|right]. intros (u & v & E). destruct u; discriminate.
  - destruct (list_eq_dec ascii_dec (firstn (length w) (c :: s)) w) as [E|N].
    + left. exists [], (skipn (length w) (c :: s)). cbn [app]. rewrite <- E at 1. now rewrite firstn_skipn.
    + destruct IH as [H|H].
      * left. destruct H as (u & v & ->). exists (c :: u), v. reflexivity.
      * right. intros (u & v & E). destruct u as [|d u]; cbn [app] in E.
        -- apply N. rewrite E, firstn_app, firstn_all, Nat.sub_diag. cbn. now rewrite app_nil_r.
        -- injection E as -> ->. apply H. now exists u, v.
Defined.
Lemma line_same {A} (f : str -> res A) (m : A -> A) a b : (forall s, no_flpr s -> f (lo s) = rmap m (f s)) -> recased_line a b -> rmap m (f b) = rmap m (f a).
Proof.
  intros H (R & E). unfold recased in R. destruct (holds_dec (L "#flpr") (lo a)) as [Y|N]. { now rewrite (E Y). }
  rewrite <- !H; auto. { now rewrite R. } unfold no_flpr. now rewrite R.
Qed.
Lemma rmap_same {A} (m : A -> A) x y : rmap m x = rmap m y -> both_res (fun a b => m a = m b) x y.
Proof. destruct x, y; cbn; intros H; try discriminate; auto. now injection H. Qed.
Lemma lo_fl_shape f g : lo_fl f = lo_fl g -> open_delim f = open_delim g /\ is_continued f = is_continued g.
Proof. intros H. injection H as _ _ _ _ _ _ D B. unfold is_continued. now rewrite D, B. Qed.
Lemma all_free_same raws raws' : Forall2 recased_line raws raws' -> forall i pod plc lit,
  both_res (fun a b => map lo_fl b = map lo_fl a) (analyze_all_free i raws pod plc lit) (analyze_all_free i raws' pod plc lit).
Proof.
  induction 1 as [|a b r r' H F IH]; intros i pod plc lit; cbn [analyze_all_free]. { reflexivity. }
  pose proof (line_same (fun s => analyze_free i s pod plc lit) lo_fst a b (fun s N => analyze_free_lower i s pod plc lit N) H) as E. apply rmap_same in E.
  destruct (analyze_free i a pod plc lit) as [[f l1]| |], (analyze_free i b pod plc lit) as [[g l2]| |]; cbn [both_res bind] in E |- *; try contradiction; auto.
  unfold lo_fst in E. cbn [fst snd] in E. injection E as E1 E2 E3 E4 E5 E6 E7 E8 E9. unfold is_continued. rewrite E7, E8, E9. specialize (IH (i + 1)%Z (open_delim f) (b_continued (bits f)) l1).
  destruct (analyze_all_free _ r _ _ _), (analyze_all_free _ r' _ _ _); cbn [both_res bind] in IH |- *; auto. cbn [map]. rewrite IH. f_equal. unfold lo_fl. congruence.
Qed.
Lemma all_fixed_same raws raws' lc : Forall2 recased_line raws raws' -> forall i pod,
  both_res (fun a b => map lo_fl b = map lo_fl a) (analyze_all_fixed i raws pod lc) (analyze_all_fixed i raws' pod lc).
Proof.
  induction 1 as [|a b r r' H F IH]; intros i pod; cbn [analyze_all_fixed]. { reflexivity. }
  pose proof (line_same (fun s => analyze_fixed i s pod lc) lo_fl a b (fun s N => analyze_fixed_lower i s pod lc N) H) as E. apply rmap_same in E.
  destruct (analyze_fixed i a pod lc) as [f| |], (analyze_fixed i b pod lc) as [g| |]; cbn [both_res bind] in E |- *; try contradiction; auto.
  destruct (lo_fl_shape _ _ E) as [E1 _]. rewrite E1. specialize (IH (i + 1)%Z (open_delim f)).
  destruct (analyze_all_fixed _ r _ _), (analyze_all_fixed _ r' _ _); cbn [both_res bind] in IH |- *; auto. cbn [map]. now rewrite IH, E.
Qed.

(** ** the relations of the specification *)
Lemma fl_rel f g : lo_fl g = lo_fl f <-> recased_fl f g.
Proof.
  unfold recased_fl, recased. split.
  - intros H. injection H as A B C D E F G I. repeat split; auto.
  - intros (A & B & C & D & E & F & G & I). unfold lo_fl. congruence.
Qed.
Lemma tok_rel x y : lo_tok y = lo_tok x <-> recased_tok x y.
Proof.
  unfold recased_tok, recased. split.
  - intros H. destruct x, y; cbn in *. injection H as. subst. split; auto.
  - intros (A & E). unfold lo_tok. rewrite A. rewrite E. reflexivity.
Qed.
Lemma map_rel {A} (f : A -> A) (R : A -> A -> Prop) : (forall x y, f y = f x <-> R x y) -> forall l l', map f l' = map f l <-> Forall2 R l l'.
Proof.
  intros H. induction l as [|x l IH]; intros [|y l']; cbn [map]; split; intros E; try discriminate; auto; try (now inversion E).
  - injection E as E1 E2. constructor; [now apply H|now apply IH].
  - inversion E; subst. f_equal; [now apply H|now apply IH].
Qed.
Lemma ln_rel l l' : lo_ln l' = lo_ln l <-> recased_ll l l'.
Proof.
  unfold recased_ll. rewrite <- (map_rel lo_fl recased_fl) by (intros; apply fl_rel). rewrite <- (map_rel lo_tok recased_tok) by (intros; apply tok_rel). split.
  - intros H. injection H as A B C D E F G I. repeat split; auto.
  - intros (A & B & C & D & E & F & G & I). unfold lo_ln. congruence.
Qed.
Lemma both_map {A} (f : A -> A) (R : A -> A -> Prop) o o' : (forall x y, f y = f x <-> R x y) -> omap f o' = omap f o -> both R o o'.
Proof. intros H. destruct o, o'; cbn; intros E; try discriminate; auto. injection E as E. now apply H. Qed.
Lemma rel_both {A} (f : A -> A) (R : A -> A -> Prop) o o' : (forall x y, f y = f x <-> R x y) -> both R o o' -> omap f o' = omap f o.
Proof. intros H. destruct o, o'; cbn; intros E; try contradiction; auto. f_equal. now apply H. Qed.
Lemma lns_rel l l' : map lo_ln l' = map lo_ln l <-> Forall2 recased_ll l l'.
Proof. apply map_rel. apply ln_rel. Qed.

Lemma F2_len {A B} (R : A -> B -> Prop) a b : Forall2 R a b -> length a = length b.
Proof. induction 1; cbn; auto. Qed.
Lemma read_same {step} (a b : res (list File_Line)) n : (forall l, step (map lo_fl l) = rmap lo_grp (step l)) -> both_res (fun x y => map lo_fl y = map lo_fl x) a b ->
  let go r := match (match r with Ok fls => group step n fls | Throw => Some Throw | UB => Some UB end) with None => Fuel | Some r => lls <~ lift r ;; read_lines ls_init lls end in
  omap (map lo_ln) (go b) = omap (map lo_ln) (go a).
Proof.
  intros H E. cbv zeta. destruct a as [x| |], b as [y| |]; cbn [both_res] in E; try contradiction; auto.
  assert (G : forall l, omap (map lo_ln) (match group step n l with None => Fuel | Some r => lls <~ lift r ;; read_lines ls_init lls end) =
    match group step n (map lo_fl l) with None => Fuel | Some r => lls <~ lift r ;; read_lines ls_init lls end).
  { intros l. rewrite group_lower by auto. destruct (group step n l) as [r|]; cbn [option_map]; auto. rewrite lift_map. symmetry. apply omap_bind. intros lls _. apply read_lines_lower. }
  now rewrite !G, E.
Qed.
Lemma read_free_same raws raws' : Forall2 recased_line raws raws' -> omap (map lo_ln) (read_free raws') = omap (map lo_ln) (read_free raws).
Proof.
  intros F. unfold read_free, scan_free. rewrite <- (F2_len _ _ _ F). apply (read_same (analyze_all_free 1 raws c_nul false false) (analyze_all_free 1 raws' c_nul false false) (length raws) step_free_lower).
  now apply all_free_same.
Qed.
Lemma read_fixed_same lc raws raws' : Forall2 recased_line raws raws' -> omap (map lo_ln) (read_fixed lc raws') = omap (map lo_ln) (read_fixed lc raws).
Proof.
  intros F. unfold read_fixed, scan_fixed. rewrite <- (F2_len _ _ _ F). apply (read_same (analyze_all_fixed 1 raws c_nul lc) (analyze_all_fixed 1 raws' c_nul lc) (length raws) step_fixed_lower).
  now apply all_fixed_same.
Qed.
