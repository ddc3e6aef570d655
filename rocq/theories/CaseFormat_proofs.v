(** Lowering the case of a file commutes with what flpr-format does to it. *)
From Verif Require Import Base Base_lemmas Tags FileLine Token LogicalFile LogicalLine Stmts StmtSrc StmtRules Peg StmtGrammar Prgm PrgmSource Lexer LineEdit Convert ReadFile ReadFixed FormatApp Indent FormatMain
  Prgm_proofs Indent_proofs ParseSame_spec ParseSame_proofs ParseSameFile_proofs CaseText_spec CaseText_proofs.
Local Open Scope nat_scope.

(** ** lines *)
Lemma find_char_lower c s : caseless c = true -> find_char c (lo s) = find_char c s.
Proof. intros H. apply find_from_lower. intros d. now apply ceq_caseless'. Qed.
Lemma set_first_lower s c : lower_b c = c -> set_first (lo s) c = lo (set_first s c).
Proof. intros H. destruct s; cbn; auto. now rewrite H. Qed.
Lemma lo_if {A} (b : bool) (x y : A) (f : A -> A) : (if b then f x else f y) = f (if b then x else y). Proof. now destruct b. Qed.
Ltac fl := unfold lo_fl; cbn [linenum left_txt left_space main_txt right_space right_txt open_delim bits].
Lemma uncontinued_lower f : make_uncontinued (lo_fl f) = lo_fl (make_uncontinued f).
Proof.
  unfold make_uncontinued. fl. destruct (right_txt f) as [|c r]; auto. cbn [map]. rewrite ceq_caseless by reflexivity. cbv zeta.
  replace (if ceq c c_amp then c_sp :: lo r else lower_b c :: lo r) with (lo (if ceq c c_amp then c_sp :: r else c :: r)) by (destruct (ceq c c_amp); auto).
  rewrite find_first_not_lower by reflexivity. destruct (find_first_not_of [c_sp] _) as [p|]; cbn; auto. now rewrite map_app, spaces_lower, skipn_map.
Qed.
Lemma continued_lower f : make_continued (lo_fl f) = lo_fl (make_continued f).
Proof.
  unfold make_continued. fl. rewrite is_empty_lower. cbv zeta. destruct (is_empty (right_space f)).
  - destruct (right_txt f) as [|c r]; auto. cbn [map]. rewrite ceq_caseless by reflexivity. destruct (ceq c c_amp); auto.
  - destruct (right_txt f) as [|c r]; auto. cbn [map]. rewrite ceq_caseless by reflexivity. destruct (ceq c c_amp); auto. rewrite map_length, skipn_map. destruct (2 <? length (right_space f)); auto.
Qed.
Lemma with_text_lower f a b c d e : with_text (lo_fl f) (lo a) (lo b) (lo c) (lo d) (lo e) = lo_fl (with_text f a b c d e). Proof. reflexivity. Qed.
Lemma with_bits_lower f b : with_bits (lo_fl f) b = lo_fl (with_bits f b). Proof. reflexivity. Qed.
Lemma with_main_lower f m : with_main (lo_fl f) (lo m) = lo_fl (with_main f m). Proof. reflexivity. Qed.
Lemma blanks_z_lower n b : blanks_z n = Ok b -> lo b = b. Proof. unfold blanks_z. destruct (n <? 0)%Z; intros H; inversion H. apply spaces_lower. Qed.
Ltac bz := match goal with |- context [blanks_z ?n] => let b := fresh "b" in let B := fresh "B" in destruct (blanks_z n) as [b| |] eqn:B; cbn [bind rmap]; auto; apply blanks_z_lower in B end.
Lemma erase_n_lower s p n : erase_n (lo s) p n = rmap lo (erase_n s p n).
Proof. unfold erase_n. rewrite map_length. destruct (p <=? length s); auto. cbn. now rewrite map_app, firstn_map, skipn_map. Qed.
Lemma erase_from_lower s p : erase_from (lo s) p = rmap lo (erase_from s p).
Proof. unfold erase_from. rewrite map_length. destruct (p <=? length s); auto. cbn. now rewrite firstn_map. Qed.
Lemma erase_z_lower s p n : erase_z (lo s) p n = rmap lo (erase_z s p n).
Proof. unfold erase_z. destruct (n <? 0)%Z; auto using erase_n_lower, erase_from_lower. Qed.
Definition lo_chg (x : File_Line * bool) : File_Line * bool := (lo_fl (fst x), snd x).
Lemma find_not_from_lower set s p : forallb caseless set = true -> find_first_not_of_from set (lo s) p = find_first_not_of_from set s p.
Proof. intros H. unfold find_first_not_of_from. rewrite skipn_map. apply find_from_lower. intros c. now rewrite mem_caseless. Qed.
Lemma sls_comment_lower f sp : sls_comment (lo_fl f) sp = rmap lo_chg (sls_comment f sp).
Proof.
  unfold sls_comment. fl. rewrite !find_char_lower by reflexivity. destruct (find_char c_bang (left_txt f)) as [p|].
  - destruct (Z.of_nat p =? sp)%Z; auto.
    match goal with |- bind ?x _ = rmap _ (bind ?y _) => assert (E : x = rmap lo y) end.
    { destruct (p =? 0). 2: apply erase_n_lower. rewrite find_not_from_lower by reflexivity. destruct (find_first_not_of_from _ _ _) as [tp|]; auto.
      destruct (5 <? Z.of_nat tp)%Z; auto. destruct (sp + 5 <=? Z.of_nat tp)%Z; [apply erase_z_lower|apply erase_n_lower]. }
    rewrite E. apply rmap_bind. intros lt _. bz. unfold lo_chg. cbn [fst snd]. f_equal. f_equal. rewrite <- with_text_lower. rewrite map_app, B. reflexivity.
  - destruct (find_char c_bang (main_txt f)) as [p|]; auto. rewrite !zlen_lower, skipn_map. cbv zeta.
    replace (lo (left_space f) ++ spaces p) with (lo (left_space f ++ spaces p)) by (now rewrite map_app, spaces_lower).
    destruct (_ =? sp)%Z; auto. destruct (_ <? sp)%Z; auto. bz. unfold lo_chg. cbn [fst snd]. rewrite <- with_text_lower, B. reflexivity.
Qed.
Definition lo_left (o : option (str * str * option Z)) := match o with Some (a, b, z) => Some (lo a, lo b, z) | None => None end.
Lemma sls_left_lower f sp : sls_left (lo_fl f) sp = rmap lo_left (sls_left f sp).
Proof.
  unfold sls_left. change (has_label (lo_fl f)) with (has_label f). change (is_continuation (lo_fl f)) with (is_continuation f). change (is_fixed_format (lo_fl f)) with (is_fixed_format f).
  fl. cbv zeta. rewrite is_empty_lower, !zlen_lower. destruct (is_empty (left_txt f)).
  - destruct (_ =? sp)%Z; auto. bz. cbn [lo_left]. now rewrite B.
  - destruct (has_label f).
    + destruct (_ <? sp)%Z; [|destruct (_ =? 1)%Z; auto]. destruct (_ =? _)%Z; auto. bz. cbn [lo_left]. now rewrite B.
    + destruct (is_continuation f && _); auto. destruct (_ =? sp)%Z; auto. destruct (_ <? sp)%Z.
      * cbn. now rewrite map_app, spaces_lower.
      * rewrite find_first_not_lower by reflexivity. destruct (find_first_not_of _ _); auto. cbn. now rewrite skipn_map.
Qed.
Lemma insert_at_lower s p t : insert_at (lo s) p (lo t) = rmap lo (insert_at s p t).
Proof. unfold insert_at. rewrite map_length. destruct (p <=? length s); auto. cbn. now rewrite !map_app, firstn_map, skipn_map. Qed.
Lemma sls_right_lower rs rt off : sls_right (lo rs) (lo rt) off = rmap lo (sls_right rs rt off).
Proof.
  unfold sls_right. rewrite is_empty_lower, find_char_lower by reflexivity. destruct (is_empty rt); auto. destruct off as [o|]; auto. destruct (o =? 0)%Z; auto.
  destruct (find_char c_bang rt) as [p|]; auto. destruct (o <? 0)%Z. { rewrite <- (spaces_lower (Z.to_nat (- o))) at 1. apply insert_at_lower. }
  rewrite is_empty_lower, zlen_lower. cbv zeta. destruct (_ =? _)%Z; auto. cbn. now rewrite spaces_lower.
Qed.
Lemma sls_lower f sp : set_leading_spaces (lo_fl f) sp = rmap lo_chg (set_leading_spaces f sp).
Proof.
  unfold set_leading_spaces. change (is_comment (lo_fl f)) with (is_comment f). change (is_fortran (lo_fl f)) with (is_fortran f). destruct (is_comment f); [apply sls_comment_lower|].
  destruct (is_fortran f); auto. rewrite sls_left_lower. apply rmap_bind. intros [[[a b] z]|] _; auto. cbn [lo_left]. unfold lo_fl at 1 2. cbn [right_space right_txt]. rewrite sls_right_lower.
  apply rmap_bind. auto.
Qed.
Lemma has_fortran_lower l : has_fortran (lo_ln l) = has_fortran l.
Proof. unfold has_fortran. cbn [l_suppress l_layout lo_ln]. f_equal. induction (l_layout l) as [|f r IH]; cbn [map existsb]; auto. change (is_fortran (lo_fl f)) with (is_fortran f). now rewrite IH. Qed.
Lemma indent_all_lower l sp : indent_all (map lo_fl l) sp = rmap (fun '(a, c) => (map lo_fl a, c)) (indent_all l sp).
Proof.
  induction l as [|f l IH]; cbn [map indent_all]; auto. rewrite sls_lower. apply rmap_bind. intros [f' c] _. unfold lo_chg. cbn [fst snd]. rewrite IH. apply rmap_bind. intros [r d] _. reflexivity.
Qed.
Definition lo_lnc (x : LLn * bool) : LLn * bool := (lo_ln (fst x), snd x).
Lemma ll_sls_lower l sp off : ll_set_leading_spaces (lo_ln l) sp off = rmap lo_lnc (ll_set_leading_spaces l sp off).
Proof.
  unfold ll_set_leading_spaces. rewrite has_fortran_lower. change (l_layout (lo_ln l)) with (map lo_fl (l_layout l)). destruct (l_layout l) as [|f r]; auto. cbn [map]. rewrite sls_lower.
  apply rmap_bind. intros [f' c] _. unfold lo_chg. cbn [fst snd]. rewrite indent_all_lower. apply rmap_bind. intros [r' d] _. reflexivity.
Qed.

(** ** indentation *)
Definition lo_lsc (x : list LLn * bool) : list LLn * bool := (map lo_ln (fst x), snd x).
Lemma line_indent_lower ls j sp off : line_indent (map lo_ln ls) j sp off = rmap lo_lsc (line_indent ls j sp off).
Proof.
  unfold line_indent. rewrite nth_error_map. destruct (nth_error ls j) as [l|]; cbn [option_map]; auto. rewrite ll_sls_lower. apply rmap_bind. intros [l' c] _.
  unfold put_line, lo_lsc, lo_lnc. cbn [fst snd rmap]. rewrite map_app. cbn [map]. now rewrite firstn_map, skipn_map.
Qed.
Lemma lines_indent_lower js sp off : forall ls, lines_indent (map lo_ln ls) js sp off = rmap lo_lsc (lines_indent ls js sp off).
Proof.
  induction js as [|j js IH]; intros ls; cbn [lines_indent]; auto. rewrite line_indent_lower. apply rmap_bind. intros [ls1 c] _. unfold lo_lsc at 1. cbn [fst snd]. rewrite IH. apply rmap_bind. intros [ls2 d] _. reflexivity.
Qed.
Lemma stmt_indent_lower ls q sp off : stmt_indent (map lo_ln ls) q sp off = rmap lo_lsc (stmt_indent ls q sp off).
Proof.
  unfold stmt_indent. apply same_bind. intros _ _. destruct (s_compound q <? 2)%Z; auto. rewrite lines_indent_lower. apply rmap_bind. intros [ls1 c] _. unfold lo_lsc at 1. cbn [fst snd]. destruct (s_line q); auto.
  rewrite line_indent_lower. apply rmap_bind. intros [ls2 d] _. reflexivity.
Qed.
Lemma recurse_lower it sts : forall t sp ls, indent_recurse it sts t sp (map lo_ln ls) = rmap lo_lsc (indent_recurse it sts t sp ls).
Proof.
  intros t. induction t as [tag rr st kids IH] using ptree_rect'. intros sp ls. destruct kids as [|k0 kids0].
  - cbn [indent_recurse]. destruct st as [i|]; auto. destruct (nth_error sts i) as [q|]; auto. destruct (s_compound q <? 2)%Z; auto. apply stmt_indent_lower.
  - rewrite !indent_node. apply same_bind. intros _ _. apply same_bind. intros d _. generalize (length (k0 :: kids0)) as n. intros n. generalize 0 as j. revert ls.
    induction IH as [|k l' Hk _ IHk]; intros ls j; [reflexivity|]. cbn [rgo]. cbv zeta.
    rewrite Hk. apply rmap_bind. intros [ls1 c] _. unfold lo_lsc at 1. cbn [fst snd]. rewrite IHk. apply rmap_bind. intros [ls2 c'] _. reflexivity.
Qed.

(** ** text_from_frags *)
Definition lo_cur (u : Cur) : Cur := mkCur (map lo_fl (u_before u)) (lo_fl (u_cur u)) (map lo_fl (u_after u)).
Lemma max_len_lower f : max_main_txt_len (lo_fl f) = max_main_txt_len f.
Proof. unfold max_main_txt_len. change (is_comment (lo_fl f)) with (is_comment f). fl. now rewrite !map_length. Qed.
Lemma skip_comments_lower l : skip_comments (map lo_fl l) = let (a, b) := skip_comments l in (map lo_fl a, map lo_fl b).
Proof. induction l as [|f l IH]; cbn [map skip_comments]; auto. change (is_comment (lo_fl f)) with (is_comment f). destruct (is_comment f); auto. rewrite IH. destruct (skip_comments l); auto. Qed.
Lemma continue_lower u : continue_fl (lo_cur u) = lo_cur (continue_fl u).
Proof.
  unfold continue_fl. change (u_cur (lo_cur u)) with (lo_fl (u_cur u)). change (u_before (lo_cur u)) with (map lo_fl (u_before u)). change (u_after (lo_cur u)) with (map lo_fl (u_after u)).
  rewrite continued_lower, skip_comments_lower, is_empty_map. cbv zeta.
  destruct (skip_comments (u_after u)) as [cs rest]. set (c := make_continued (u_cur u)). change (left_txt (lo_fl c)) with (lo (left_txt c)). change (left_space (lo_fl c)) with (lo (left_space c)). rewrite !map_length.
  set (n := length (left_txt c) + length (left_space c) + _). destruct rest as [|f r]; cbn [map].
  - unfold lo_cur. cbn [u_before u_cur u_after]. rewrite map_app.
    assert (E : lo_fl (with_text fl_default [] (spaces n) [] [] []) = with_text fl_default [] (spaces n) [] [] []) by (unfold with_text; fl; now rewrite spaces_lower). rewrite E. reflexivity.
  - replace (with_text (lo_fl f) [] (left_space (lo_fl f)) (main_txt (lo_fl f)) (right_space (lo_fl f)) (right_txt (lo_fl f))) with (lo_fl (with_text f [] (left_space f) (main_txt f) (right_space f) (right_txt f))) by reflexivity.
    rewrite uncontinued_lower. set (g := make_uncontinued _). unfold lo_cur. cbn [u_before u_cur u_after]. rewrite map_app.
    assert (E : lo_fl (with_text g [] (spaces n) [] (right_space g) (right_txt g)) = with_text (lo_fl g) [] (spaces n) [] (right_space (lo_fl g)) (right_txt (lo_fl g))) by (unfold with_text; fl; now rewrite spaces_lower).
    rewrite E. reflexivity.
Qed.
Lemma add_main_lower u s : add_main (lo_cur u) (lo s) = lo_cur (add_main u s).
Proof. unfold add_main, lo_cur. cbn [u_before u_cur u_after]. f_equal. change (main_txt (lo_fl (u_cur u))) with (lo (main_txt (u_cur u))). rewrite <- map_app. apply with_main_lower. Qed.
Lemma append_lower m k x b : append_tt_if (lo m) k (lo_tok x) b = rmap (option_map lo) (append_tt_if m k x b).
Proof.
  unfold append_tt_if. change (tk_pre (lo_tok x)) with (tk_pre x). change (tok (lo_tok x)) with (tok x). change (tk_text (lo_tok x)) with (lo (tk_text x)). rewrite !map_length. apply same_bind. intros pre _. cbv zeta. cbn [rmap]. f_equal.
  destruct (if (tok x =? _)%Z then _ else _); cbn [option_map]; auto. now rewrite map_app, spaces_lower.
Qed.
Lemma split_token_lower k : forall i p c t u, split_token k i p c (lo t) (lo_cur u) = rmap lo_cur (split_token k i p c t u).
Proof.
  induction k as [|k IH]; intros i p c t u; cbn [split_token]; auto. rewrite substr_n_lower. apply rmap_bind. intros x _. cbv zeta.
  replace ((if 0 <? i then [c_amp] else []) ++ lo x) with (lo ((if 0 <? i then [c_amp] else []) ++ x)) by (rewrite map_app; now destruct (0 <? i)). rewrite add_main_lower.
  set (u1 := add_main u _). destruct (k =? 0); [apply IH|]. change (u_cur (lo_cur u1)) with (lo_fl (u_cur u1)). rewrite continued_lower. set (cc := make_continued (u_cur u1)).
  replace (mkCur (u_before (lo_cur u1)) (with_text (lo_fl cc) (left_txt (lo_fl cc)) (left_space (lo_fl cc)) (main_txt (lo_fl cc)) [] (right_txt (lo_fl cc))) (u_after (lo_cur u1)))
    with (lo_cur (mkCur (u_before u1) (with_text cc (left_txt cc) (left_space cc) (main_txt cc) [] (right_txt cc)) (u_after u1))) by reflexivity.
  rewrite continue_lower. apply IH.
Qed.
Definition lo_place (x : Cur * nat * bool) := match x with (u, m, b) => (lo_cur u, m, b) end.
Lemma place_lower redo x : forall u max b, place_token redo (lo_tok x) (lo_cur u) max b = rmap lo_place (place_token redo x u max b).
Proof.
  induction redo as [|redo IH]; intros u max b; cbn [place_token]; change (main_txt (u_cur (lo_cur u))) with (lo (main_txt (u_cur u))); rewrite append_lower; apply rmap_bind; intros [s|] _; cbn [option_map].
  1,3: now rewrite add_main_lower.
  - destruct b.
    + apply same_bind. intros _ _. change (tk_text (lo_tok x)) with (lo (tk_text x)). rewrite map_length. cbv zeta. rewrite split_token_lower. apply rmap_bind. auto.
    + cbv zeta. rewrite continue_lower. change (u_cur (lo_cur ?v)) with (lo_fl (u_cur v)). rewrite max_len_lower. apply same_bind. auto.
  - destruct b.
    + apply same_bind. intros _ _. change (tk_text (lo_tok x)) with (lo (tk_text x)). rewrite map_length. cbv zeta. rewrite split_token_lower. apply rmap_bind. auto.
    + cbv zeta. rewrite continue_lower. change (u_cur (lo_cur ?v)) with (lo_fl (u_cur v)). rewrite max_len_lower. apply same_bind. intros m _. apply IH.
Qed.
Lemma place_all_lower l : forall u max b, place_all (map lo_tok l) (lo_cur u) max b = rmap lo_cur (place_all l u max b).
Proof. induction l as [|x l IH]; intros u max b; cbn [map place_all]; auto. rewrite place_lower. apply rmap_bind. intros [[u' m'] b'] _. apply IH. Qed.
Lemma leftover_lower f : leftover (lo_fl f) = lo_fl (leftover f).
Proof.
  unfold leftover. change (is_comment (lo_fl f)) with (is_comment f). destruct (is_comment f); auto. cbv zeta. rewrite uncontinued_lower. set (g := make_uncontinued f).
  change (right_txt (lo_fl g)) with (lo (right_txt g)). rewrite is_empty_lower. destruct (is_empty (right_txt g)); reflexivity.
Qed.
Lemma blanks_one_lower f : blanks_one (lo_fl f) = blanks_one f.
Proof. unfold blanks_one. change (is_comment (lo_fl f)) with (is_comment f). rewrite uncontinued_lower. change (right_txt (lo_fl (make_uncontinued f))) with (lo (right_txt (make_uncontinued f))). now rewrite is_empty_lower. Qed.
Lemma redo_lower l : redo_stmts (lo_ln l) = lo_ln (redo_stmts l).
Proof. unfold redo_stmts, init_stmts. change (l_frags (lo_ln l)) with (map lo_tok (l_frags l)). rewrite init_stmts_lower. destruct (init_stmts_loop (l_frags l) 0 None). reflexivity. Qed.
Lemma existsb_map_l {A B} (f : A -> B) p q l : (forall x, p (f x) = q x) -> existsb p (map f l) = existsb q l.
Proof. intros H. induction l as [|x l IH]; cbn; auto. now rewrite H, IH. Qed.
Lemma filter_map_l {A B} (f : A -> B) p q l : (forall x, p (f x) = q x) -> filter p (map f l) = map f (filter q l).
Proof. intros H. induction l as [|x l IH]; cbn; auto. rewrite H, IH. destruct (q x); auto. Qed.
Lemma text_from_lower l : text_from_frags (lo_ln l) = rmap lo_ln (text_from_frags l).
Proof.
  unfold text_from_frags. change (l_layout (lo_ln l)) with (map lo_fl (l_layout l)). change (l_frags (lo_ln l)) with (map lo_tok (l_frags l)). destruct (l_layout l) as [|f r]; auto. cbn [map].
  change (is_fortran (lo_fl f)) with (is_fortran f). destruct (negb (is_fortran f)); auto. cbv zeta. change (with_main (lo_fl f) []) with (lo_fl (with_main f [])). rewrite uncontinued_lower, max_len_lower.
  apply same_bind. intros max _. set (f1 := make_uncontinued (with_main f [])). change (mkCur [] (lo_fl f1) (map lo_fl r)) with (lo_cur (mkCur [] f1 r)). rewrite place_all_lower. apply rmap_bind. intros u _.
  rewrite is_empty_map. unfold lo_cur. cbn [u_before u_cur u_after].
  set (dr := if is_empty (l_frags l) then (u_before u, u_cur u :: u_after u) else (u_before u ++ [u_cur u], u_after u)).
  replace (if is_empty (l_frags l) then (map lo_fl (u_before u), lo_fl (u_cur u) :: map lo_fl (u_after u)) else (map lo_fl (u_before u) ++ [lo_fl (u_cur u)], map lo_fl (u_after u)))
    with (map lo_fl (fst dr), map lo_fl (snd dr)). 2:{ unfold dr. destruct (is_empty (l_frags l)); cbn; auto. now rewrite map_app. }
  destruct dr as [dn rest]. cbn [fst snd]. cbn [rmap]. f_equal.
  rewrite (existsb_map_l lo_fl blanks_one blanks_one) by apply blanks_one_lower.
  replace (map lo_fl dn ++ map leftover (map lo_fl rest)) with (map lo_fl (dn ++ map leftover rest)).
  2:{ rewrite map_app, !map_map. f_equal. apply map_ext. intros x. now rewrite leftover_lower. }
  rewrite (filter_map_l lo_fl (fun f => negb (is_blank f)) (fun f => negb (is_blank f))) by reflexivity.
  set (l1 := dn ++ map leftover rest). set (l2 := filter _ l1).
  replace (if existsb blanks_one rest then map lo_fl l2 else map lo_fl l1) with (map lo_fl (if existsb blanks_one rest then l2 else l1)) by (now destruct (existsb blanks_one rest)).
  rewrite is_empty_map. rewrite <- redo_lower. reflexivity.
Qed.

(** ** the filters of flpr-format *)
Lemma drop_semis_lower l : drop_semis (map lo_tok l) = map lo_tok (drop_semis l).
Proof. induction l as [|x l IH]; cbn [map drop_semis]; auto. change (is_semi (lo_tok x)) with (is_semi x). destruct (is_semi x); auto. Qed.
Lemma drop_back_lower l : drop_semis_back (map lo_tok l) = map lo_tok (drop_semis_back l).
Proof. unfold drop_semis_back. now rewrite <- map_rev, drop_semis_lower, map_rev. Qed.
Lemma clear_lower l : forall b, clear_second b (map lo_tok l) = let (a, c) := clear_second b l in (map lo_tok a, c).
Proof.
  induction l as [|x l IH]; intros b; cbn [map clear_second]; auto. change (is_semi (lo_tok x)) with (is_semi x). rewrite IH. destruct (clear_second (is_semi x) l) as [r' c]. destruct (b && is_semi x); auto.
Qed.
Lemma remove_frags_lower fr n : remove_empty_frags (map lo_tok fr) n = rmap (fun '(a, c) => (map lo_tok a, c)) (remove_empty_frags fr n).
Proof.
  unfold remove_empty_frags. cbv zeta. rewrite drop_semis_lower, drop_back_lower, !map_length, clear_lower. set (f2 := drop_semis_back (drop_semis fr)).
  destruct (clear_second false f2) as [g ie]. rewrite (filter_map_l lo_tok (fun x => negb (is_semi x && is_empty (tk_text x))) (fun x => negb (is_semi x && is_empty (tk_text x)))).
  2:{ intros x. change (is_semi (lo_tok x)) with (is_semi x). change (tk_text (lo_tok x)) with (lo (tk_text x)). now rewrite is_empty_lower. }
  destruct (1 <? n); [destruct ie|]; apply same_bind; auto.
Qed.
Lemma has_empty_lower l : ll_has_empty (lo_ln l) = ll_has_empty l. Proof. reflexivity. Qed.
Lemma remove_lower l : ll_remove_empty (lo_ln l) = rmap lo_lnc (ll_remove_empty l).
Proof.
  unfold ll_remove_empty. change (l_frags (lo_ln l)) with (map lo_tok (l_frags l)). change (l_stmts (lo_ln l)) with (l_stmts l). rewrite remove_frags_lower. apply rmap_bind. intros [fr c] _. cbv zeta.
  change (set_frags (lo_ln l) (l_layout (lo_ln l)) (map lo_tok fr)) with (lo_ln (set_frags l (l_layout l) fr)). destruct c; auto. rewrite text_from_lower. apply rmap_bind. auto.
Qed.
Lemma remove_stmts_lower ls : remove_empty_stmts (map lo_ln ls) = rmap lo_lsc (remove_empty_stmts ls).
Proof.
  induction ls as [|l ls IH]; cbn [map remove_empty_stmts]; auto. rewrite has_fortran_lower, has_empty_lower, remove_lower.
  replace (if has_fortran l then Ok (lo_ln l, false) else e <- ll_has_empty l ;; (if (e : bool) then rmap lo_lnc (ll_remove_empty l) else Ok (lo_ln l, false)))
    with (rmap lo_lnc (if has_fortran l then Ok (l, false) else e <- ll_has_empty l ;; (if (e : bool) then ll_remove_empty l else Ok (l, false)))).
  2:{ destruct (has_fortran l); auto. destruct (ll_has_empty l) as [[]| |]; auto. }
  apply rmap_bind. intros [l' c] _. unfold lo_lnc. cbn [fst snd]. rewrite IH. apply rmap_bind. intros [r' c'] _. reflexivity.
Qed.
Definition lo_split (x : list LLn * bool * bool) := match x with (l, a, b) => (map lo_ln l, a, b) end.
Lemma split_line_lower n : forall b l, split_line n b (lo_ln l) = rmap lo_split (split_line n b l).
Proof.
  induction n as [|n IH]; intros b l; cbn [split_line]; rewrite has_fortran_lower; destruct (negb (has_fortran l)); auto; change (l_stmts (lo_ln l)) with (l_stmts l);
    change (l_layout (lo_ln l)) with (map lo_fl (l_layout l)); change (l_frags (lo_ln l)) with (map lo_tok (l_frags l)).
  - destruct (l_stmts l) as [|[b0 e0] [|[b2 e2] st]]; auto; destruct b; auto.
    + rewrite has_empty_lower. apply same_bind. intros [] _; auto. rewrite remove_lower. apply rmap_bind. intros [l' c] _. reflexivity.
    + rewrite firstn_map. change (set_frags (lo_ln l) (map lo_fl (l_layout l)) (map lo_tok ?x)) with (lo_ln (set_frags l (l_layout l) x)). rewrite text_from_lower. apply rmap_bind. auto.
    + rewrite has_empty_lower. apply same_bind. intros [] _; auto. rewrite remove_lower. apply rmap_bind. intros [l' c] _. reflexivity.
  - destruct (l_stmts l) as [|[b0 e0] [|[b2 e2] st]].
    + destruct b; auto. rewrite has_empty_lower. apply same_bind. intros [] _; auto. rewrite remove_lower. apply rmap_bind. intros [l' c] _. reflexivity.
    + destruct b.
      * rewrite firstn_map. change (set_frags (lo_ln l) (map lo_fl (l_layout l)) (map lo_tok ?x)) with (lo_ln (set_frags l (l_layout l) x)). rewrite text_from_lower. apply rmap_bind. auto.
      * rewrite has_empty_lower. apply same_bind. intros [] _; auto. rewrite remove_lower. apply rmap_bind. intros [l' c] _. reflexivity.
    + rewrite firstn_map, !skipn_map. change (set_frags (lo_ln l) (map lo_fl (l_layout l)) (map lo_tok ?x)) with (lo_ln (set_frags l (l_layout l) x)).
      rewrite text_from_lower. apply rmap_bind. intros new _. cbv zeta. rewrite redo_lower, IH. apply rmap_bind. intros [[r x] cl] _. rewrite redo_lower. reflexivity.
Qed.
Lemma split_lines_lower ls : forall b, split_lines b (map lo_ln ls) = rmap lo_lsc (split_lines b ls).
Proof.
  induction ls as [|l ls IH]; intros b; cbn [map split_lines]; auto. change (l_stmts (lo_ln l)) with (l_stmts l). rewrite split_line_lower. apply rmap_bind. intros [[x c] cl] _. cbn [lo_split].
  rewrite IH. apply rmap_bind. intros [r' c'] _. unfold lo_lsc. cbn [fst snd rmap]. now rewrite map_app.
Qed.

(** ** conversion *)
Lemma unset_fixed_lower l : map unset_fixed (map lo_fl l) = map lo_fl (map unset_fixed l). Proof. rewrite !map_map. reflexivity. Qed.
Lemma front_lower l : front_lines (map lo_tok l) = front_lines l.
Proof. induction l as [|x l IH]; cbn [map front_lines]; auto. change (is_split_token (lo_tok x)) with (is_split_token x). change (mt_bl (lo_tok x)) with (mt_bl x). change (mt_el (lo_tok x)) with (mt_el x). now rewrite IH. Qed.
Lemma mark_end_lower f : mark_end (lo_fl f) = lo_fl (mark_end f).
Proof.
  unfold mark_end. cbv zeta. change (right_txt (lo_fl f)) with (lo (right_txt f)). rewrite is_empty_lower. destruct (is_empty (right_txt f)); [reflexivity|].
  change (right_space (lo_fl f)) with (lo (right_space f)). rewrite map_length, skipn_map. change (open_delim (lo_fl f)) with (open_delim f).
  destruct (ceq (open_delim f) c_nul && (2 <? length (right_space f))); reflexivity.
Qed.
Lemma shift_first_lower f : shift_first (lo_fl f) = lo_fl (shift_first f).
Proof. unfold shift_first. change (left_txt (lo_fl f)) with (lo (left_txt f)). rewrite is_empty_lower. destruct (is_empty (left_txt f)); reflexivity. Qed.
Lemma forallb_sp_lower s : forallb (ceq c_sp) (lo s) = forallb (ceq c_sp) s.
Proof. induction s as [|c s IH]; cbn [map forallb]; auto. now rewrite ceq_caseless', IH by reflexivity. Qed.
Lemma mark_front_lower f i needs : mark_front (lo_fl f) i needs = rmap (fun '(g, n) => (lo_fl g, n)) (mark_front f i needs).
Proof.
  unfold mark_front. change (left_txt (lo_fl f)) with (lo (left_txt f)). rewrite map_length, !firstn_map, forallb_sp_lower. apply same_bind. intros _ _. destruct needs as [|n rest].
  - apply same_bind. intros _ _. reflexivity.
  - destruct (n =? i)%Z.
    + cbn [rmap]. f_equal. f_equal. rewrite <- with_text_lower, map_app. reflexivity.
    + apply same_bind. intros _ _. reflexivity.
Qed.
Lemma free_comment_lower f : free_comment (lo_fl f) = rmap lo_fl (free_comment f).
Proof. unfold free_comment. change (left_txt (lo_fl f)) with (lo (left_txt f)). destruct (left_txt f) as [|c r]; auto. cbn [map]. rewrite ceq_caseless by reflexivity. destruct (ceq c c_sp); reflexivity. Qed.
Lemma comment_if_lower f : (if is_comment (lo_fl f) then free_comment (lo_fl f) else Ok (lo_fl f)) = rmap lo_fl (if is_comment f then free_comment f else Ok f).
Proof. change (is_comment (lo_fl f)) with (is_comment f). destruct (is_comment f); auto using free_comment_lower. Qed.
Lemma free_stmt_lower l : forall i k t needs, free_stmt (map lo_fl l) i k t needs = rmap (map lo_fl) (free_stmt l i k t needs).
Proof.
  induction l as [|f l IH]; intros i k t needs; cbn [map free_stmt]; auto. change (is_fortran (lo_fl f)) with (is_fortran f). destruct (is_fortran f).
  - cbv zeta. replace (if k + 1 <? t then mark_end (lo_fl f) else lo_fl f) with (lo_fl (if k + 1 <? t then mark_end f else f)) by (rewrite mark_end_lower; now destruct (k + 1 <? t)).
    set (f1 := if k + 1 <? t then mark_end f else f).
    replace (if k =? 0 then Ok (shift_first (lo_fl f1), needs) else mark_front (lo_fl f1) i needs) with (rmap (fun '(g, n) => (lo_fl g, n)) (if k =? 0 then Ok (shift_first f1, needs) else mark_front f1 i needs)).
    2:{ rewrite shift_first_lower, mark_front_lower. now destruct (k =? 0). }
    apply rmap_bind. intros [g n] _. rewrite IH. apply rmap_bind. auto.
  - rewrite comment_if_lower. apply rmap_bind. intros g _. rewrite IH. apply rmap_bind. auto.
Qed.
Lemma free_other_lower l : free_other (map lo_fl l) = rmap (map lo_fl) (free_other l).
Proof. induction l as [|f l IH]; cbn [map free_other]; auto. rewrite comment_if_lower. apply rmap_bind. intros g _. rewrite IH. apply rmap_bind. auto. Qed.
Lemma convert_ll_lower l : convert_ll (lo_ln l) = rmap lo_lnc (convert_ll l).
Proof.
  unfold convert_ll. change (l_layout (lo_ln l)) with (map lo_fl (l_layout l)). change (l_frags (lo_ln l)) with (map lo_tok (l_frags l)). destruct (l_layout l) as [|f r]; auto.
  cbn [map]. change (is_fixed_format (lo_fl f)) with (is_fixed_format f). change (is_fortran (lo_fl f)) with (is_fortran f). destruct (is_fixed_format f); auto. cbv zeta.
  change (unset_fixed (lo_fl f) :: map unset_fixed (map lo_fl r)) with (map unset_fixed (map lo_fl (f :: r))). rewrite unset_fixed_lower, front_lower. change (unset_fixed f :: map unset_fixed r) with (map unset_fixed (f :: r)).
  set (ly := map unset_fixed (f :: r)). unfold Convert.count_fortran. rewrite (filter_map_l lo_fl is_fortran is_fortran), map_length by reflexivity. rewrite free_other_lower.
  match goal with |- bind ?x _ = rmap _ (bind ?y _) => assert (E : x = rmap (map lo_fl) y) end.
  { destruct (is_fortran f); auto. apply same_bind. intros needs _. apply free_stmt_lower. }
  rewrite E. apply rmap_bind. auto.
Qed.
Lemma convert_lower ls : convert_file (map lo_ln ls) = rmap lo_lsc (convert_file ls).
Proof. induction ls as [|l ls IH]; cbn [map convert_file]; auto. rewrite convert_ll_lower. apply rmap_bind. intros [l' b] _. unfold lo_lnc. cbn [fst snd]. rewrite IH. apply rmap_bind. intros [r b'] _. reflexivity. Qed.

(** ** the program *)
Lemma lower_alike ls : Forall2 alike_line ls (map lo_ln ls).
Proof.
  induction ls as [|l ls IH]; cbn [map]; constructor; auto. unfold alike_line. cbn [lo_ln l_label l_cat l_suppress l_stmts l_frags]. repeat (split; [reflexivity|]).
  induction (l_frags l) as [|x r IHr]; cbn [map]; constructor; auto. split; auto. apply lo_lo.
Qed.
Lemma prefetch_lower exts m n ls : (forall a, Forall fair_ext (exts a)) -> prefetch exts m n (map lo_ln ls) = prefetch exts m n ls.
Proof. intros FE. apply prefetch_same; auto. apply lower_alike. Qed.
Lemma indent_file_lower it p ls : indent_file it p (map lo_ln ls) = omap lo_lsc (indent_file it p ls).
Proof. unfold indent_file. destruct (snd p) as [t|]; auto. rewrite recurse_lower. apply lift_map. Qed.
Lemma optionally_lower b (f : list LLn -> out (list LLn * bool)) ls : (forall l, f (map lo_ln l) = omap lo_lsc (f l)) -> optionally b f (map lo_ln ls) = omap lo_lsc (optionally b f ls).
Proof. intros H. destruct b; cbn [optionally]; auto. Qed.
Lemma format_lines_lower exts m n it o ls : (forall a, Forall fair_ext (exts a)) -> format_lines exts m n it o (map lo_ln ls) = omap lo_lsc (format_lines exts m n it o ls).
Proof.
  intros FE. unfold format_lines. rewrite optionally_lower by (intros; now rewrite convert_lower, lift_map). apply omap_bind. intros [ls1 c1] _. unfold lo_lsc at 1. cbn [fst snd].
  rewrite optionally_lower by (intros; now rewrite remove_stmts_lower, lift_map). apply omap_bind. intros [ls2 c2] _. unfold lo_lsc at 1. cbn [fst snd].
  rewrite optionally_lower by (intros; unfold split_compound_stmts; now rewrite split_lines_lower, lift_map). apply omap_bind. intros [ls3 c3] _. unfold lo_lsc at 1. cbn [fst snd].
  rewrite prefetch_lower by auto. apply osame_bind. intros p _. rewrite optionally_lower by (intros; apply indent_file_lower). apply omap_bind. intros [ls4 c4] _. reflexivity.
Qed.
Lemma print_line_lower f : print_line (lo_fl f) = lo (print_line f).
Proof.
  unfold print_line. change (is_fortran (lo_fl f)) with (is_fortran f). change (is_fixed_format (lo_fl f)) with (is_fixed_format f). fl. rewrite !map_app, !map_length.
  destruct (is_fortran f && is_fixed_format f); auto. now rewrite map_app, spaces_lower.
Qed.
Lemma write_lower ls : write_file (map lo_ln ls) = lo (write_file ls).
Proof.
  unfold write_file. induction ls as [|l ls IH]; cbn [map flat_map]; auto. rewrite map_app, IH. f_equal. unfold print_lln. cbn [lo_ln l_suppress l_layout]. destruct (l_suppress l); auto. clear.
  induction (l_layout l) as [|f r IH]; cbn [map flat_map]; auto. rewrite map_app, IH, map_app, print_line_lower. reflexivity.
Qed.
Lemma format_file_lower exts m n it o ls : (forall a, Forall fair_ext (exts a)) -> format_file exts m n it o (map lo_ln ls) = omap (option_map lo) (format_file exts m n it o ls).
Proof.
  intros FE. unfold format_file. rewrite format_lines_lower by auto. apply omap_bind. intros [ls' w] _. unfold lo_lsc. cbn [fst snd]. destruct (o_output o) as [x|]; auto. cbn [omap]. rewrite write_lower.
  now destruct (x || (w && negb (o_quiet o))).
Qed.
Lemma file_indent_lower exts m n it ls : (forall a, Forall fair_ext (exts a)) -> file_indent exts m n it (map lo_ln ls) = omap lo_lsc (file_indent exts m n it ls).
Proof.
  intros FE. assert (G : forall ls, file_indent exts m n it ls = (p <~ prefetch exts m n ls ;; indent_file it p ls)).
  { intros l. unfold file_indent, prefetch. destruct (make_stmts _ l) as [r|]; auto. destruct (lift r) as [sts| |]; cbn [obind]; auto. destruct (is_empty sts); auto.
    destruct (parse_prgm _ _ _) as [[[a [t|]] b]| |]; cbn [obind]; auto. }
  rewrite !G, prefetch_lower by auto. apply osame_bind. intros p _. apply indent_file_lower.
Qed.
