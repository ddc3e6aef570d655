(** Proofs about parse_files and module (C83, C84). *)
From Verif Require Import Base Base_lemmas Tags SyntaxTags FileLine Token LogicalFile LogicalLine Lexer Lexer_spec LineEdit StmtRules Peg LabelStack Prgm PrgmSource Prgm_proofs PrgmTerm_proofs
  StmtSrc ReadFile Utils Indent FormatMain FormatMain_spec FormatMain_proofs FormatFiles FormatFiles_spec EndFile_proofs FormatFiles_proofs PrgmTree_spec PrgmTree_proofs Drivers Drivers_spec.
From Coq Require Import Lia.
Local Open Scope nat_scope.

(** ** The command line *)
Lemma getopt_command args o p : getopt_f args = Some (o, p) <-> command args o p.
Proof.
  assert (OM : forall (x : option (list str * list str)) (g : list str * list str -> list str * list str) q, option_map g x = Some q -> exists a b, x = Some (a, b) /\ q = g (a, b)).
  { intros [[a b]|] g q H; [|discriminate]. injection H as <-. eauto. }
  split.
  - revert args o p. fix IH 1. intros args o p H. destruct args as [|a r].
    + injection H as <- <-. constructor.
    + cbn [getopt_f] in H. destruct a as [|x [|y w]].
      * apply OM in H as (o1 & p1 & E & H). injection H as -> ->. constructor; [now left|]. now apply IH.
      * apply OM in H as (o1 & p1 & E & H). injection H as -> ->. constructor; [|now apply IH].
        unfold operand. destruct (ascii_dec x "-"%char) as [->|N]; [right; now left|]. right. right. eauto.
      * unfold ceq in H. destruct (Ascii.eqb_spec x "-"%char) as [->|NX]; cbn [negb] in H.
        2:{ apply OM in H as (o1 & p1 & E & H). injection H as -> ->. constructor; [right; right; eauto|]. now apply IH. }
        destruct (Ascii.eqb_spec y "-"%char) as [->|NY]; cbn [andb] in H.
        { destruct w; cbn [is_empty] in H; [|discriminate]. injection H as <- <-. apply cl_dashes. }
        destruct (Ascii.eqb_spec y "f"%char) as [->|NF]; cbn [negb] in H; [|discriminate].
        destruct w as [|c w]; cbn [is_empty negb] in H.
        -- destruct r as [|v r]; [discriminate|]. apply OM in H as (o1 & p1 & E & H). injection H as -> ->. apply (cl_apart v). now apply IH.
        -- apply OM in H as (o1 & p1 & E & H). injection H as -> ->. apply (cl_joined (c :: w)); [discriminate|]. now apply IH.
  - induction 1 as [|r|v r o p V C IH|v r o p C IH|a r o p A C IH]; [reflexivity|reflexivity| | |].
    + destruct v as [|c v]; [contradiction|]. cbn [L app String.list_ascii_of_string]. cbn [getopt_f]. unfold ceq. cbn [Ascii.eqb Bool.eqb negb andb is_empty]. rewrite IH. reflexivity.
    + cbn [L String.list_ascii_of_string getopt_f]. unfold ceq. cbn [Ascii.eqb Bool.eqb negb andb is_empty]. rewrite IH. reflexivity.
    + cbn [getopt_f]. rewrite IH. destruct A as [->|[->|(c & w & -> & N)]]; [reflexivity|reflexivity|]. destruct w as [|y w]; [reflexivity|].
      unfold ceq. destruct (Ascii.eqb_spec c "-"%char); [contradiction|]. reflexivity.
Qed.

Lemma getopt_flags args : forall o p, flags args o p <-> (o, p) = getopt_letters args.
Proof.
  intros o p. split.
  - induction 1 as [|r|v r o p V N C IH|a r o p A C IH]; [reflexivity|reflexivity| |].
    + destruct v as [|y w]; [contradiction|]. cbn [L app String.list_ascii_of_string]. cbn [getopt_letters]. rewrite <- IH. cbn [fst snd]. unfold ceq. cbn [Ascii.eqb Bool.eqb negb].
      destruct (Ascii.eqb_spec y "-"%char) as [->|]; [|reflexivity]. destruct w; [exfalso; apply N; reflexivity|reflexivity].
    + cbn [getopt_letters]. rewrite <- IH. cbn [fst snd]. destruct A as [->|[->|(c & w & -> & N)]]; [reflexivity|reflexivity|]. destruct w as [|y w]; [reflexivity|].
      unfold ceq. destruct (Ascii.eqb_spec c "-"%char); [contradiction|]. reflexivity.
  - revert o p. induction args as [|a r IH]; intros o p H; cbn [getopt_letters] in H; [injection H as -> ->; constructor|].
    destruct (getopt_letters r) as [o1 p1]. specialize (IH o1 p1 eq_refl). cbn [fst snd] in H. destruct a as [|x [|y w]].
    + injection H as -> ->. apply fl_operand; [now left|exact IH].
    + injection H as -> ->. apply fl_operand; [|exact IH]. unfold operand. destruct (ascii_dec x "-"%char) as [->|N]; [right; now left|]. right. right. eauto.
    + unfold ceq in H. destruct (Ascii.eqb_spec x "-"%char) as [->|NX]; cbn [negb] in H.
      2:{ injection H as -> ->. apply fl_operand; [right; right; eauto|exact IH]. }
      destruct (Ascii.eqb_spec y "-"%char) as [->|NY]; cbn [andb] in H.
      * destruct w as [|c w]; cbn [is_empty] in H; injection H as -> ->; [apply fl_dashes|]. apply (fl_letters ("-"%char :: c :: w)); [discriminate|discriminate|exact IH].
      * injection H as -> ->. apply (fl_letters (y :: w)); [discriminate| |exact IH]. intros E. injection E as -> _. contradiction.
Qed.

(** ** parse_files *)
Lemma getlines_none s : getlines [] s = [] <-> s = [].
Proof.
  split; [|intros ->; reflexivity]. intros H. destruct (getlines_spec s [] (fun x => x)) as (_ & W). rewrite H in W. destruct s as [|c s]; [reflexivity|exfalso].
  destruct W as [(_ & W)|(_ & W)]; discriminate W.
Qed.
Lemma from_lists_spec d opts : forall names l, from_lists d opts names = Some l <->
  Forall (fun o => exists s, d o = Some s /\ s <> []) opts /\ l = names ++ flat_map (fun o => match d o with Some s => getlines [] s | None => [] end) opts.
Proof.
  induction opts as [|o r IH]; intros names l; cbn [from_lists flat_map].
  - split; [intros H; injection H as <-; split; [constructor|now rewrite app_nil_r]|intros (_ & ->); now rewrite app_nil_r].
  - destruct (d o) as [s|] eqn:D.
    + destruct (getlines [] s) as [|x y] eqn:G; cbn [is_empty].
      * apply getlines_none in G as ->. split; [discriminate|]. intros (F & _). inversion F as [|? ? (s & A & B) _]; subst. rewrite D in A. injection A as <-. contradiction.
      * rewrite IH, <- app_assoc. split; intros (F & E); (split; [|exact E]); [constructor; [|exact F]|now inversion F].
        exists s. split; [exact D|]. intros ->. discriminate G.
    + split; [discriminate|]. intros (F & _). inversion F as [|? ? (s & A & B) _]; subst. congruence.
Qed.
Lemma no_stmts exts m n : forall r, parse_prgm (of_source exts m []) n g_program <> Done r.
Proof.
  intros r H. assert (B : parse_prgm (of_source exts m []) 100 g_program = Bad) by (vm_compute; reflexivity).
  destruct (Nat.le_gt_cases n 100) as [L1|L1].
  - rewrite (parse_prgm_mono _ n 100) in B; [congruence|exact L1|congruence].
  - rewrite (parse_prgm_mono _ 100 n) in H; [congruence|lia|congruence].
Qed.
Section Reads.
Variable exts : bool -> list ext.
Variables m n : nat.
(** what Parsed_File makes of the same lines *)
Lemma one_prefetch st f ls ft st1 : read_and_scan st 0 f = Done (Some ls, ft, st1) ->
  match read_one exts m n st f with
  | Done (t, true, st2) => st2 = st1 /\ exists sts tr, prefetch exts m n ls = Done (sts, Some tr) /\ sts <> []
  | Done (t, false, st2) => st2 = st1 /\ prefetch exts m n ls = Bad
  | _ => forall sts tr, prefetch exts m n ls <> Done (sts, Some tr)
  end.
Proof using.
  intros R. unfold read_one. rewrite R. cbn [obind]. assert (exists s, n_text f = Some s) as (s & TX).
  { unfold read_and_scan in R. destruct (n_text f) as [s|]; [eauto|discriminate]. }
  rewrite TX. unfold prefetch. destruct (make_stmts _ ls) as [q|]; [|discriminate]. destruct q as [sts| |]; cbn [lift obind]; try discriminate.
  destruct sts as [|x sts]; cbn [is_empty].
  - cbn [map]. pose proof (no_stmts exts m n) as NS. destruct (parse_prgm (of_source exts m []) n g_program) as [r| |]; [now destruct (NS r)| |]; cbn [obind]; discriminate.
  - destruct (parse_prgm (of_source exts m (map (src_of ls) (x :: sts))) n g_program) as [[[ok t] s']| |] eqn:P; cbn [obind]; try discriminate.
    destruct t as [t|].
    + destruct (prgm_derives _ _ _ _ _ _ _ _ P) as (-> & _ & IP). destruct IP as [<-|[]].
      assert (TL : tag_label [] PG_PROGRAM = Ok (L "program")) by (vm_compute; reflexivity). rewrite TL. cbn [lift obind].
      split; [reflexivity|]. do 2 eexists. split; [reflexivity|discriminate].
    + destruct ok; [discriminate|]. split; reflexivity.
Qed.
Lemma clean_left f t ok st : clean_end exts m n f -> read_one exts m n ls_init f = Done (t, ok, st) -> st = ls_init.
Proof using.
  intros C H. destruct (read_and_scan ls_init 0 f) as [[[r ft] st1]| |] eqn:R; [|unfold read_one in H; rewrite R in H; discriminate..].
  destruct r as [ls|].
  - pose proof (one_prefetch _ _ _ _ _ R) as Q. rewrite H in Q.
    assert (NE : ~ ends_in_real ls).
    { destruct C as [(t' & st' & C)|C]; [|eapply C; eauto]. rewrite H in C. injection C as -> -> ->. destruct Q as (_ & sts & tr & Q & _).
      destruct (read_and_scan_good _ _ _ _ _ _ (or_introl eq_refl) R) as (G & B).
      eapply (format_last exts m n it_init (mkOpt false false false false false false (Some true))); [exact G|exact B|].
      unfold format_file, format_lines. cbn [o_fixed_to_free o_remove_empty o_split o_reindent o_output andb negb optionally obind]. rewrite Q. cbn [obind]. reflexivity. }
    assert (st1 = ls_init) as E. { eapply file_left; [|exact R]. intros ls0 L0. injection L0 as <-. exact NE. }
    destruct ok; destruct Q as (-> & _); exact E.
  - unfold read_one in H. rewrite R in H. cbn [obind] in H. injection H as _ _ <-. eapply file_left; [|exact R]. discriminate.
Qed.
Lemma each_clean a : Forall (clean_end exts m n) a -> forall f,
  read_each exts m n ls_init (a ++ [f]) = in_turn (map (fun g => read_each exts m n ls_init [g]) (a ++ [f])).
Proof using.
  assert (ONE : forall g, read_each exts m n ls_init [g] = obind (read_one exts m n ls_init g) (fun x => Done (fst (fst x)))).
  { intros g. cbn [read_each]. destruct (read_one exts m n ls_init g) as [[[t ok] st]| |]; cbn [obind fst]; auto. now rewrite app_nil_r. }
  induction 1 as [|g a G _ IH]; intros f; cbn [app map in_turn].
  - destruct (read_each exts m n ls_init [f]); auto. now rewrite app_nil_r.
  - rewrite ONE. cbn [read_each]. destruct (read_one exts m n ls_init g) as [[[t ok] st]| |] eqn:E; cbn [obind fst]; auto.
    rewrite (clean_left _ _ _ _ G E), IH. destruct (in_turn _); reflexivity.
Qed.
End Reads.

(** ** module *)
Lemma white_b c : is_space_b c = true <-> white c.
Proof.
  unfold is_space_b, white. rewrite orb_true_iff, andb_true_iff, !Nat.leb_le, Nat.eqb_eq. split.
  - intros [H|H]; [now right|]. left. rewrite <- (ascii_nat_embedding c). unfold code in H. rewrite H. reflexivity.
  - intros [->|H]; [now right|now left].
Qed.
Lemma text_white c r l : white c -> text_words r l -> text_words (c :: r) l.
Proof.
  intros W H. inversion H as [g G|g w r0 l0 G N F E T]; subst.
  - apply tw_end. now constructor.
  - apply (tw_word (c :: g)); auto.
Qed.
Lemma words_text s : forall w, Forall (fun c => ~ white c) w -> text_words (w ++ s) (words_of w s).
Proof.
  induction s as [|c s IH]; intros w W; cbn [words_of].
  - destruct w as [|a w]; cbn [is_empty]; [apply tw_end; constructor|]. apply (tw_word [] (a :: w) [] []); auto; [discriminate|]. apply tw_end. constructor.
  - destruct (is_space_b c) eqn:E.
    + apply white_b in E. specialize (IH [] (Forall_nil _)). cbn [app] in IH. destruct w as [|a w]; cbn [is_empty app].
      * now apply text_white.
      * change (a :: w ++ c :: s) with ([] ++ (a :: w) ++ c :: s). apply tw_word; auto; [discriminate|right; eauto|now apply text_white].
    + assert (N : ~ white c) by (intros X; apply white_b in X; congruence). specialize (IH (w ++ [c])). rewrite <- app_assoc in IH. apply IH. apply Forall_app. auto.
Qed.
Lemma words_more w : Forall (fun c => ~ white c) w -> forall v s, words_of v (w ++ s) = words_of (v ++ w) s.
Proof.
  induction 1 as [|c w C _ IH]; intros v s; cbn [app words_of]; [now rewrite app_nil_r|].
  destruct (is_space_b c) eqn:E; [apply white_b in E; contradiction|]. rewrite IH, <- app_assoc. reflexivity.
Qed.
Lemma words_gap g : Forall white g -> forall s, words_of [] (g ++ s) = words_of [] s.
Proof. induction 1 as [|c g C _ IH]; intros s; cbn [app words_of]; auto. apply white_b in C. rewrite C. cbn [is_empty]. apply IH. Qed.
Lemma words_only s l : text_words s l -> words_of [] s = l.
Proof.
  induction 1 as [g G|g w r l G N F E T IH].
  - rewrite <- (app_nil_r g), (words_gap g G). reflexivity.
  - rewrite (words_gap g G), (words_more w F). cbn [app]. rewrite <- IH. destruct w as [|a w]; [contradiction|].
    destruct E as [->|(c & r' & -> & W)]; [reflexivity|]. cbn [words_of]. apply white_b in W. rewrite W. reflexivity.
Qed.
Lemma put_same d f s : put d f s f = Some s.
Proof. unfold put. destruct (list_eq_dec ascii_dec f f); congruence. Qed.
Lemma put_other d f s g : g <> f -> put d f s g = d g.
Proof. intros N. unfold put. destruct (list_eq_dec ascii_dec g f); congruence. Qed.
Lemma bak_inj f g : bak f = bak g -> f = g.
Proof. apply app_inv_tail. Qed.
Lemma bak_not f : f <> bak f.
Proof. intros E. apply (f_equal (@length ascii)) in E. unfold bak in E. rewrite app_length in E. cbn in E. lia. Qed.
Section Files.
Variable work : str -> list str -> str -> str -> out verdict.
Variable movable : str -> bool.
Variables (mo : str) (names : list str).
Lemma files_backed fs : forall d d' code, apart fs -> do_files work movable mo names d fs = Done (d', code) ->
  exists done rest, fs = done ++ rest /\ backed_up (work mo names) d d' done /\
    ((code = 0%Z /\ rest = []) \/
     (code = 1%Z /\ exists f r, rest = f :: r /\ (d f = None \/ exists s, d f = Some s /\ work mo names f s = Done unread)) \/
     (code = 2%Z /\ exists f r s t, rest = f :: r /\ d f = Some s /\ work mo names f s = Done (rewritten t) /\ movable f = false)).
Proof using.
  assert (NIL : forall d, backed_up (work mo names) d d []) by (intros d; split; [intros f []|auto]).
  induction fs as [|f fs IH]; intros d d' code A H; cbn [do_files] in H.
  - injection H as <- <-. exists [], []. split; [reflexivity|]. split; [apply NIL|]. auto.
  - unfold do_file in H. destruct A as (ND & NB). inversion ND as [|? ? NI ND']; subst.
    assert (A' : apart fs) by (split; [exact ND'|]; intros x y X Y; apply NB; now right).
    destruct (d f) as [s|] eqn:D; cbn [obind] in H.
    2:{ injection H as <- <-. exists [], (f :: fs). split; [reflexivity|]. split; [apply NIL|]. right. left. split; [reflexivity|]. eauto. }
    destruct (work mo names f s) as [v| |] eqn:W; cbn [obind] in H; try discriminate. destruct v as [| |t]; cbn [obind] in H.
    + injection H as <- <-. exists [], (f :: fs). split; [reflexivity|]. split; [apply NIL|]. right. left. split; [reflexivity|]. exists f, fs. split; [reflexivity|]. eauto.
    + apply IH in H as (done & rest & -> & (B1 & B2) & C); [|exact A']. exists (f :: done), rest. split; [reflexivity|]. split; [|exact C]. split.
      * intros g [<-|G]; [|now apply B1]. exists s. split; [exact D|]. left. split; [exact W|]. split.
        -- rewrite B2; [exact D|intros X; apply NI; apply in_or_app; now left|]. intros g G. apply NB; [now left|right; apply in_or_app; now left].
        -- apply B2.
           ++ intros X. apply (NB (bak f) f); [right; apply in_or_app; now left|now left|reflexivity].
           ++ intros g G E. apply bak_inj in E as ->. apply NI, in_or_app. now left.
      * intros g NG BG. apply B2; [intros X; apply NG; now right|]. intros x X. apply BG. now right.
    + destruct (movable f) eqn:M; cbn [obind] in H.
      2:{ injection H as <- <-. exists [], (f :: fs). split; [reflexivity|]. split; [apply NIL|]. right. right. split; [reflexivity|]. exists f, fs, s, t. auto. }
      apply IH in H as (done & rest & -> & (B1 & B2) & C); [|exact A'].
      assert (P1 : forall g, g <> f -> g <> bak f -> put (put d (bak f) s) f t g = d g) by (intros g G1 G2; rewrite !put_other; auto).
      assert (R1 : forall g, In g (done ++ rest) -> put (put d (bak f) s) f t g = d g).
      { intros g G. apply P1; [intros ->; contradiction|]. apply NB; [now right|now left]. }
      exists (f :: done), rest. split; [reflexivity|]. split.
      * split.
        -- intros g [<-|G].
           ++ exists s. split; [exact D|]. right. exists t. split; [exact W|]. split.
              ** rewrite B2; [apply put_same|intros X; apply NI; apply in_or_app; now left|]. intros g G. apply NB; [now left|right; apply in_or_app; now left].
              ** rewrite B2; [rewrite put_other, put_same; [reflexivity|]; intros E; symmetry in E; now apply bak_not in E| |].
                 --- intros X. apply (NB (bak f) f); [right; apply in_or_app; now left|now left|reflexivity].
                 --- intros g G E. apply bak_inj in E as ->. apply NI, in_or_app. now left.
           ++ destruct (B1 g G) as (s' & D1 & R). assert (G' : In g (done ++ rest)) by (apply in_or_app; now left). rewrite R1 in D1 by exact G'.
              exists s'. split; [exact D1|]. rewrite P1 in R; [exact R| |].
              ** intros E. apply (NB f g); [now left|now right|now symmetry].
              ** intros E. apply bak_inj in E as ->. contradiction.
        -- intros g NG BG. rewrite B2; [apply P1|intros X; apply NG; now right|intros x X; apply BG; now right].
           ++ intros ->. apply NG. now left.
           ++ apply BG. now left.
      * destruct C as [C|[(C & x & r & -> & C')|(C & x & r & s1 & t1 & -> & C')]]; auto.
        -- right. left. split; [exact C|]. exists x, r. split; [reflexivity|]. rewrite R1 in C' by (apply in_or_app; right; now left). exact C'.
        -- right. right. split; [exact C|]. exists x, r, s1, t1. split; [reflexivity|]. rewrite R1 in C' by (apply in_or_app; right; now left). exact C'.
Qed.
End Files.
