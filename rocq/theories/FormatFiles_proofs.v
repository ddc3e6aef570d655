(** Lemmas for C81. *)
From Verif Require Import Base Base_lemmas Tags SyntaxTags FileLine LineAccum Token LogicalFile LogicalLine Stmts StmtSrc StmtRules Peg Prgm PrgmSource Prgm_proofs Utils Lexer LineEdit
  Lexer_spec Lexer_proofs LexLongest_proofs LexPos_proofs ReadFile ReadFixed Convert Convert_spec Indent Indent_proofs FormatApp FormatApp_proofs FormatMain Props_Lexer FormatFiles FormatFiles_spec EndFile_proofs.
From Coq Require Import Lia.
Local Open Scope Z_scope.

(** ** The table *)
Definition same_table (a b : Indent_Table) : Prop := (forall g, it_off a g = it_off b g) /\ it_cont a = it_cont b.
Lemma indent_table a b sts t : same_table a b -> forall sp ls, indent_recurse a sts t sp ls = indent_recurse b sts t sp ls.
Proof.
  intros (SO & SC). induction t as [tag r st kids IH] using ptree_rect'. intros sp ls. destruct kids as [|k0 kids].
  - cbn [indent_recurse]. rewrite SC. reflexivity.
  - rewrite !indent_node. unfold it_get. rewrite SO. destruct (assert_ _); cbn [bind]; auto. destruct (assert_ (pg_index tag)); cbn [bind]; auto.
    set (n := length (k0 :: kids)). clearbody n. revert ls. revert IH. generalize (k0 :: kids) as l. generalize 0%nat as j.
    intros j l IH. revert j. induction IH as [|k l Hk _ IHl]; intros j ls; cbn [rgo]; auto.
    rewrite Hk. match goal with |- bind ?e _ = _ => destruct e as [[l1 c]| |] end; cbn [bind]; auto. rewrite IHl. reflexivity.
Qed.
Lemma format_table exts m n o a b ls : same_table a b -> format_file exts m n a o ls = format_file exts m n b o ls.
Proof.
  intros S1. unfold format_file, format_lines.
  destruct (optionally _ _ ls) as [[l1 c1]| |]; cbn [obind]; auto.
  destruct (optionally _ _ l1) as [[l2 c2]| |]; cbn [obind]; auto.
  destruct (optionally _ _ l2) as [[l3 c3]| |]; cbn [obind]; auto.
  destruct (prefetch exts m n l3) as [p| |]; cbn [obind]; auto.
  replace (optionally (o_reindent o) (indent_file a p) l3) with (optionally (o_reindent o) (indent_file b p) l3); auto.
  unfold optionally. destruct (o_reindent o); auto. unfold indent_file. destruct (snd p) as [t|]; auto. rewrite (indent_table a b); auto.
Qed.
(** the entries that the three functions set *)
Definition touched : list Z :=
  [PG_BLOCK; PG_EXECUTION_PART; PG_INTERFACE_SPECIFICATION; PG_INTERNAL_SUBPROGRAM; PG_MODULE_SUBPROGRAM; PG_SPECIFICATION_PART;
   PG_WHERE_BODY_CONSTRUCT; PG_DERIVED_TYPE_DEF; PG_ENUM_DEF; PG_CASE_CONSTRUCT].
Definition rest_same (a b : Indent_Table) : Prop := forall g, ~ In g touched -> it_off a g = it_off b g.
Lemma begin_ends it k : set_begin_ends it k = fold_left (fun it g => set_indent it g k) (filter begin_end_construct (map (fun i => PG_000_LB + 1 + Z.of_nat i) (seq 0 (Z.to_nat (PG_ZZZ_UB - (PG_000_LB + 1)))))) it.
Proof.
  unfold set_begin_ends. generalize (seq 0 (Z.to_nat (PG_ZZZ_UB - (PG_000_LB + 1)))) as l. intros l. revert it.
  induction l as [|i l IH]; intros it; cbn [fold_left map filter]; auto. rewrite IH. destruct (begin_end_construct (PG_000_LB + 1 + Z.of_nat i)); reflexivity.
Qed.
Lemma be_tags : filter begin_end_construct (map (fun i => PG_000_LB + 1 + Z.of_nat i) (seq 0 (Z.to_nat (PG_ZZZ_UB - (PG_000_LB + 1))))) =
  [PG_CASE_CONSTRUCT; PG_DERIVED_TYPE_DEF; PG_ENUM_DEF].
Proof. vm_compute. reflexivity. Qed.
Ltac entries := unfold apply_emacs_indent, apply_constant_fixed_indent; rewrite ?begin_ends, ?be_tags; unfold set_continued, set_indents, set_indent; cbn [fold_left fst snd it_off it_cont].
Ltac entry_cases := repeat match goal with |- context [Z.eqb ?g ?c] => destruct (Z.eqb_spec g c) as [->|]; [reflexivity|] end.
Ltac not_touched NI := let T := fresh in intro T; apply NI; unfold touched; repeat (destruct T as [T|T]; [subst; cbn [In]; tauto|]); destruct T.
Lemma emacs_same a b : rest_same a b -> same_table (apply_emacs_indent a) (apply_emacs_indent b).
Proof.
  intros R. split; [|reflexivity]. intros g. entries. entry_cases. apply R. unfold touched. cbn [In]. intuition congruence.
Qed.
Lemma fixed_same a b : rest_same a b -> same_table (set_continued (apply_constant_fixed_indent a 4) 5) (set_continued (apply_constant_fixed_indent b 4) 5).
Proof.
  intros R. split; [|reflexivity]. intros g. entries. entry_cases. apply R. unfold touched. cbn [In]. intuition congruence.
Qed.
Lemma emacs_rest a : rest_same (apply_emacs_indent a) a.
Proof.
  intros g NI. entries. repeat match goal with |- context [Z.eqb ?g ?c] => destruct (Z.eqb_spec g c) as [->|]; [exfalso; apply NI; unfold touched; cbn [In]; tauto|] end. reflexivity.
Qed.
Lemma fixed_rest a : rest_same (set_continued (apply_constant_fixed_indent a 4) 5) a.
Proof.
  intros g NI. entries. repeat match goal with |- context [Z.eqb ?g ?c] => destruct (Z.eqb_spec g c) as [->|]; [exfalso; apply NI; unfold touched; cbn [In]; tauto|] end. reflexivity.
Qed.

Section Run.
Variable exts : bool -> list ext.
Variables m n : nat.
Variable o : Options.
Definition lc_of : Z := if o_col72 o then 72 else 0.
Lemma one_file_table a b st f : rest_same a b ->
  match one_file exts m n o a st f, one_file exts m n o b st f with
  | Done (x, a', s1), Done (y, b', s2) => x = y /\ s1 = s2 /\ rest_same a' b' /\ rest_same a' a
  | Bad, Bad | Fuel, Fuel => True
  | _, _ => False
  end.
Proof using.
  intros R. unfold one_file. destruct (read_and_scan st _ f) as [[[r ft] st']| |]; cbn [obind]; auto.
  set (ta := if fixed_kept o ft then _ else _). set (tb := if fixed_kept o ft then set_continued (apply_constant_fixed_indent b 4) 5 else _).
  assert (TS : same_table ta tb) by (unfold ta, tb; destruct (fixed_kept o ft); [now apply fixed_same|now apply emacs_same]).
  assert (TR : rest_same ta a) by (unfold ta; destruct (fixed_kept o ft); [apply fixed_rest|apply emacs_rest]).
  assert (TT : rest_same ta tb) by (intros g _; apply TS).
  destruct r as [ls|]; [|auto]. rewrite (format_table exts m n o ta tb ls TS). destruct (format_file exts m n tb o ls) as [w| |]; cbn [obind]; auto.
Qed.
Lemma each_table fs : forall a b st, rest_same a b -> each_file exts m n o a st fs = each_file exts m n o b st fs.
Proof using.
  induction fs as [|f fs IH]; intros a b st R; cbn [each_file]; auto.
  pose proof (one_file_table a b st f R) as E.
  destruct (one_file exts m n o a st f) as [[[x a'] s1]| |]; destruct (one_file exts m n o b st f) as [[[y b'] s2]| |]; cbn [obind]; try contradiction; auto.
  destruct E as (<- & <- & R' & _). rewrite (IH a' b' s1 R'). reflexivity.
Qed.

(** ** Files that are passed over *)
Lemma no_use_read st f : no_use f -> exists ft, read_and_scan st lc_of f = Done (None, ft, st).
Proof using.
  intros [H|H]; unfold read_and_scan; [rewrite H; eauto|]. destruct (n_text f); [|eauto]. unfold file_info. rewrite H. cbn [lift obind]. eauto.
Qed.
Lemma skip_file f : no_use f -> forall b a it st, each_file exts m n o it st (a ++ f :: b) = each_file exts m n o it st (a ++ b).
Proof using.
  intros N b. induction a as [|x a IH]; intros it st.
  - cbn [app each_file]. destruct (no_use_read st f N) as (ft & E). unfold one_file. fold lc_of. rewrite E. cbn [obind].
    rewrite (each_table b _ it). + destruct (each_file exts m n o it st b); reflexivity.
    + destruct (fixed_kept o ft); [apply fixed_rest|apply emacs_rest].
  - cbn [app each_file]. destruct (one_file exts m n o it st x) as [[[y it'] st']| |]; cbn [obind]; auto. now rewrite IH.
Qed.
End Run.

(** ** What a file leaves behind in the scanner *)
Lemma tok_loop_last la l t w pos : real_part t -> forall ts pre fr fr', tok_loop la (l ++ [(t, w, pos)]) ts pre fr = Ok fr' -> exists p x, fr' = p ++ [x] /\ tok x = t.
Proof.
  intros RT. induction l as [|[[t0 w0] pos0] l IH]; intros ts pre fr fr' H; cbn [app tok_loop] in H.
  - apply bind_Ok in H as (q & _ & H). destruct q as [[[[li ci] tli] tci]|]; [|discriminate].
    apply bind_Ok in H as (fr2 & H2 & H). apply bind_Ok in H as (e & _ & H). destruct e as [[[[a b] eli] eci]|]; [|discriminate].
    apply bind_Ok in H as (sp & _ & H). apply bind_Ok in H as (fr3 & H3 & H). injection H as <-.
    assert (NN : (t =? TK_NAME) = false) by (apply Z.eqb_neq; intros ->; repeat (destruct RT as [RT|RT]; [discriminate|]); destruct RT).
    rewrite NN in H2. injection H2 as <-. unfold set_back in H3. rewrite rev_app_distr in H3. cbn [rev app] in H3. rewrite rev_involutive in H3. injection H3 as <-.
    do 2 eexists. split; [reflexivity|]. reflexivity.
  - apply bind_Ok in H as (q & _ & H). destruct q as [[[[li ci] tli] tci]|]; [|discriminate].
    apply bind_Ok in H as (fr2 & H2 & H). apply bind_Ok in H as (e & _ & H). destruct e as [[[[a b] eli] eci]|]; [|discriminate].
    apply bind_Ok in H as (sp & _ & H). apply bind_Ok in H as (fr3 & H3 & H). eapply IH; eauto.
Qed.
Lemma tokenize_left st la fr st' : idle st -> tokenize st la = Done (fr, st') ->
  idle st' /\ (st' = ls_init \/ (exists p x, fr = p ++ [x] /\ real_part (tok x)) \/ (fr = [] /\ st' = st)).
Proof.
  intros B H. unfold tokenize in H. destruct (scan_string_ok st (la_accum la) B) as (l & st2 & E & LX & B2). rewrite E in H. cbn [obind] in H.
  destruct (tok_loop la l 0 0 []) as [f| |] eqn:Q; cbn [lift obind] in H; try discriminate. injection H as <- <-. split; [exact B2|].
  destruct B2 as [->| ->]; [auto|].
  destruct (C56_left_partial st _ l _ B E) as [(A & S2)|(l0 & t & w & -> & RT)]; [discriminate| |].
  - right. right. split; [|exact S2]. rewrite A in LX. inversion LX as [q g G X1 X2 X3|q g t0 w r l' G W LF LT LR X1 X2 X3]; subst l; [cbn in Q; congruence|].
    exfalso. destruct g; [destruct w; [now apply W|discriminate X2]|discriminate X2].
  - right. left. destruct (tok_loop_last _ _ _ _ _ RT _ _ _ _ Q) as (p & x & -> & <-). eauto.
Qed.
Lemma read_left lls : forall st ls st', idle st -> read_lines_st st lls = Done (ls, st') ->
  idle st' /\ (st' = ls_init \/ ends_in_real ls \/ (flat_map l_frags ls = [] /\ st' = st)).
Proof.
  induction lls as [|x r IH]; intros st ls st' B H; cbn [read_lines_st] in H; [injection H as <- <-; auto|].
  destruct (init_from_layout st _ _) as [[ll st1]| |] eqn:E; cbn [obind] in H; try discriminate.
  destruct (read_lines_st st1 r) as [[r' st2]| |] eqn:R; cbn [obind] in H; try discriminate. injection H as <- <-.
  unfold init_from_layout in E. ob E. destruct (tokenize_layout st (ll_layout x)) as [[fr st3]| |] eqn:T; cbn [obind] in E; try discriminate.
  injection E as <- <-. destruct (tokenize_left _ _ _ _ B T) as (B1 & C1). destruct (IH _ _ _ B1 R) as (B2 & C2). split; [exact B2|].
  unfold ends_in_real in *. cbn [flat_map]. rewrite (proj1 (proj2 (redo_keeps _))). cbn [l_frags].
  destruct C2 as [C2|[(p & y & C2 & RP)|(C2 & ->)]]; [auto| |].
  - right. left. exists (fr ++ p), y. rewrite C2. split; [now rewrite app_assoc|exact RP].
  - rewrite C2, app_nil_r. exact C1.
Qed.
Lemma scanned_left st r ls st' : idle st -> scanned st r = Done (Some ls, st') ->
  st' = ls_init \/ ends_in_real ls \/ (flat_map l_frags ls = [] /\ st' = st).
Proof.
  intros B H. unfold scanned in H. destruct r as [[lls| |]|]; try discriminate. destruct (read_lines_st st lls) as [[a b]| |] eqn:E; cbn [obind] in H; try discriminate.
  injection H as <- <-. exact (proj2 (read_left _ _ _ _ B E)).
Qed.
Lemma file_left lc f r ft st' : (forall ls, r = Some ls -> ~ ends_in_real ls) -> read_and_scan ls_init lc f = Done (r, ft, st') -> st' = ls_init.
Proof.
  intros NE H. unfold read_and_scan in H. destruct (n_text f) as [s|]; [|congruence]. ob H.
  assert (K : forall q, scanned ls_init q = Done (r, st') -> st' = ls_init).
  { intros q Q. destruct r as [ls|].
    - destruct (scanned_left ls_init q ls st' (or_introl eq_refl) Q) as [X|[X|(_ & X)]]; auto. exfalso. now apply (NE ls).
    - unfold scanned in Q. destruct q as [[lls| |]|]; try congruence. destruct (read_lines_st ls_init lls) as [[? ?]| |]; discriminate. }
  match type of H with match ?x with _ => _ end = _ => destruct x end; [congruence| |];
    match type of H with obind ?e _ = _ => destruct e as [[r1 s1]| |] eqn:SC; cbn [obind] in H; try discriminate end; injection H as <- <- <-; eapply K; eauto.
Qed.
Section Alone.
Variable exts : bool -> list ext.
Variables m n : nat.
Variable o : Options.
Lemma one_left it f t it' st' : one_file exts m n o it ls_init f = Done (t, it', st') -> st' = ls_init.
Proof using.
  intros OF. unfold one_file in OF. fold (lc_of o) in OF. destruct (read_and_scan ls_init (lc_of o) f) as [[[r ft] s1]| |] eqn:RS; cbn [obind] in OF; try discriminate.
  destruct r as [ls|]; [|injection OF as _ _ <-; eapply file_left; [|exact RS]; discriminate].
  ob OF. injection OF as _ _ <-. destruct (read_and_scan_good _ _ _ _ _ _ (or_introl eq_refl) RS) as (G & B). eapply file_left; [|exact RS]. intros ls0 L0. injection L0 as <-. eapply format_last; eauto.
Qed.
Lemma each_alone fs : forall it, rest_same it it_init -> each_file exts m n o it ls_init fs = in_turn (map (fun f => files_run exts m n o [f]) fs).
Proof using.
  induction fs as [|f fs IH]; intros it R; cbn [each_file map in_turn]; auto.
  unfold files_run at 1. cbn [each_file]. pose proof (one_file_table exts m n o it it_init ls_init f R) as E.
  destruct (one_file exts m n o it ls_init f) as [[[x a'] s1]| |] eqn:OF; destruct (one_file exts m n o it_init ls_init f) as [[[y b'] s2]| |] eqn:OI; cbn [obind]; try contradiction; auto.
  destruct E as (<- & <- & _ & RA). rewrite app_nil_r. apply one_left in OF. subst s1.
  rewrite IH; [destruct (in_turn _); reflexivity|]. intros g NI. rewrite RA by exact NI. now apply R.
Qed.
End Alone.

(** ** The same reading as in ReadFile.v *)
Lemma read_lines_eq l : forall st, read_lines st l = obind (read_lines_st st l) (fun x => Done (fst x)).
Proof.
  induction l as [|x l IH]; intros st; cbn [read_lines read_lines_st]; auto.
  destruct (init_from_layout st _ _) as [[ll st1]| |]; cbn [obind]; auto. rewrite IH. destruct (read_lines_st st1 l) as [[a b]| |]; cbn [obind fst]; auto.
Qed.
Lemma scan_eq q ls : match q with None => Fuel | Some r => obind (lift r) (read_lines ls_init) end = Done ls -> exists st', scanned ls_init q = Done (Some ls, st').
Proof.
  destruct q as [[lls| |]|]; cbn [lift obind scanned]; try discriminate. rewrite read_lines_eq. destruct (read_lines_st ls_init lls) as [[a b]| |]; cbn [obind fst]; try discriminate.
  intros H. injection H as ->. eauto.
Qed.
Lemma read_fixed_file lc name s ls : file_type_from_extension name = Ok FT_FIXED -> read_fixed lc (getlines [] s) = Done ls ->
  exists st', read_and_scan ls_init lc (mkNamed name (Some s)) = Done (Some ls, FT_FIXED, st').
Proof.
  intros T H. unfold read_and_scan. cbn [n_text n_name]. unfold file_info. rewrite T. cbn [lift obind]. apply scan_eq in H as (st' & ->). cbn [obind]. eauto.
Qed.
Lemma read_free_file lc name s ls : file_type_from_extension name = Ok FT_FREE -> read_free (getlines [] s) = Done ls ->
  exists st', read_and_scan ls_init lc (mkNamed name (Some s)) = Done (Some ls, FT_FREE, st').
Proof.
  intros T H. unfold read_and_scan. cbn [n_text n_name]. unfold file_info. rewrite T. cbn [lift obind]. apply scan_eq in H as (st' & ->). cbn [obind]. eauto.
Qed.

(** ** Lines of one statement are left alone *)
Lemma single_empty l : single l -> ll_has_empty l = Ok false.
Proof. intros (_ & H). unfold ll_has_empty. rewrite H. reflexivity. Qed.
Lemma remove_single ls : Forall single ls -> remove_empty_stmts ls = Ok (ls, false).
Proof.
  induction 1 as [|l ls S1 _ IH]; cbn [remove_empty_stmts]; auto. rewrite (single_empty l S1). destruct (has_fortran l); cbn [bind]; rewrite IH; reflexivity.
Qed.
Lemma split_single ls : Forall single ls -> split_compound_stmts ls = Ok (ls, false).
Proof.
  unfold split_compound_stmts. induction 1 as [|l ls S1 _ IH]; cbn [split_lines]; auto.
  assert (E : split_line (length (l_stmts l)) false l = Ok ([l], false, false)).
  { destruct S1 as (LE & N0). pose proof (single_empty l (conj LE N0)) as SE. destruct (l_stmts l) as [|[b e] [|? ?]] eqn:ST; [| |cbn in LE; lia]; cbn [length split_line]; rewrite ST, SE;
      destruct (has_fortran l); reflexivity. }
  rewrite E. cbn [bind]. rewrite IH. reflexivity.
Qed.
