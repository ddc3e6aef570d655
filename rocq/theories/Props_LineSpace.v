(** C90: File_Line::unspace_main and File_Line::size. *)
From Coq Require Import Lia.
From Verif Require Import Base Base_lemmas FileLine LineSpace_spec LineSpace_proofs.
Local Open Scope nat_scope.

Lemma kind_bits f g : bits g = bits f -> is_fortran g = is_fortran f /\ is_fixed_format g = is_fixed_format f.
Proof. intros H. unfold is_fortran, is_trivial, is_comment, is_blank, is_preprocessor, is_flpr_pp, is_flpr_lit, is_include, is_fixed_format. rewrite H. auto. Qed.
(** The main text of any line is blank, or a text between blanks. *)
Theorem C90_cases s : (exists a, s = spaces a) \/ (exists a m b, s = spaces a ++ m ++ spaces b /\ tight m).
Proof.
  destruct (lead s) as (a & r & -> & [->|(c & q & -> & N)]); [left; exists a; apply app_nil_r|right].
  destruct (trail (c :: q)) as (m & b & E & [->|(d & p & -> & N')]).
  - destruct b; [discriminate|]. unfold spaces in E. cbn in E. congruence.
  - exists a, (p ++ [d]), b. rewrite E. split; [reflexivity|]. split; [|eauto]. destruct p as [|x p]; cbn in *; injection E as -> _; eauto.
Qed.
(** unspace_main() leaves the text without its blanks; those behind go to the end of right_space.  Those in front are
    gone.  Nothing else changes. *)
Theorem C90_unspace : forall f a m b, main_txt f = spaces a ++ m ++ spaces b -> tight m ->
  exists g, unspace_main f = Ok g /\ main_txt g = m /\ right_space g = right_space f ++ spaces b /\
    linenum g = linenum f /\ left_txt g = left_txt f /\ left_space g = left_space f /\ right_txt g = right_txt f /\ open_delim g = open_delim f /\ bits g = bits f.
Proof.
  intros f a m b E ((c & r & M & N) & (d & p & M' & N')). unfold unspace_main.
  assert (F : find_first_not_of [c_sp] (main_txt f) = Some a) by (rewrite E, M; cbn [app]; apply first_after; exact N). rewrite F.
  replace (skipn a (main_txt f)) with (m ++ spaces b).
  2:{ rewrite E, skipn_app, spaces_len, Nat.sub_diag, skipn_all2 by (rewrite spaces_len; lia). reflexivity. }
  cbn zeta. assert (G : find_last_not_of [c_sp] (m ++ spaces b) = Some (length p)) by (rewrite M', <- app_assoc; apply last_before; exact N'). rewrite G.
  assert (LM : length m = S (length p)) by (rewrite M', app_length; cbn; lia).
  rewrite app_length, spaces_len. destruct b as [|b].
  - replace (S (length p) <? length m + 0) with false by (symmetry; apply Nat.ltb_ge; lia). eexists. split; [reflexivity|]. cbn. rewrite !app_nil_r. repeat split.
  - replace (S (length p) <? length m + S b) with true by (symmetry; apply Nat.ltb_lt; lia). eexists. split; [reflexivity|].
    replace (length m + S b - S (length p)) with (S b) by lia. rewrite <- LM, firstn_app, firstn_all, Nat.sub_diag. cbn [firstn]. rewrite app_nil_r. repeat split.
Qed.
(** A blank main text stays, and the line is marked as blank. *)
Theorem C90_blank : forall f a, main_txt f = spaces a -> exists g, unspace_main f = Ok g /\ b_blank (bits g) = true /\
    main_txt g = main_txt f /\ right_space g = right_space f /\ linenum g = linenum f /\ left_txt g = left_txt f /\ left_space g = left_space f /\ right_txt g = right_txt f /\ open_delim g = open_delim f.
Proof. intros f a E. unfold unspace_main. rewrite E, first_none. eexists. split; [reflexivity|]. repeat split; rewrite <- ?E; reflexivity. Qed.
(** So the line is printed as before if there are no blanks in front and right_space is only blanks ... *)
Theorem C90_kept_partial : forall f m b k, main_txt f = m ++ spaces b -> tight m -> right_space f = spaces k -> exists g, unspace_main f = Ok g /\ print_line g = print_line f /\ fl_size g = fl_size f.
Proof.
  intros f m b k E T R. destruct (C90_unspace f 0 m b E T) as (g & U & A & B & _ & C & D & F & _ & H). exists g. split; [exact U|].
  assert (S : main_txt g ++ right_space g = main_txt f ++ right_space f).
  { rewrite A, B, E, R, <- app_assoc. f_equal. unfold spaces. rewrite <- !repeat_app. f_equal. lia. }
  split.
  - assert (S' : main_txt g ++ right_space g ++ right_txt g = main_txt f ++ right_space f ++ right_txt f) by (rewrite F, !app_assoc, S; reflexivity).
    destruct (kind_bits f g H) as (K1 & K2). unfold print_line. rewrite S', K1, K2, C, D. reflexivity.
  - unfold fl_size. rewrite C, D, F. apply (f_equal (@length ascii)) in S. rewrite !app_length in S. lia.
Qed.
(** ... but blanks in front, which are said to go to left_space, are lost: everything behind moves to the left. *)
Theorem C90_lost_refuted : forall f a m b, main_txt f = spaces (S a) ++ m ++ spaces b -> tight m ->
  exists g, unspace_main f = Ok g /\ fl_size g + S a = fl_size f /\ left_space g = left_space f /\ print_line g <> print_line f.
Proof.
  intros f a m b E T. destruct (C90_unspace f (S a) m b E T) as (g & U & A & B & _ & C & D & F & _ & H). exists g. split; [exact U|].
  assert (Z : fl_size g + S a = fl_size f). { unfold fl_size. rewrite A, B, C, D, F, E, !app_length, !spaces_len. lia. }
  split; [exact Z|]. split; [exact D|]. intros P. apply (f_equal (@length ascii)) in P. destruct (kind_bits f g H) as (K1 & K2). unfold print_line in P. rewrite K1, K2, C, D, F in P.
  unfold fl_size in Z. rewrite C, D, F in Z. rewrite !app_length in P. lia.
Qed.
(** size() is the length of the line as it is printed, except for a fixed-format statement line with a short label field. *)
Theorem C90_size : forall f, length (print_line f) = fl_size f + (if is_fortran f && is_fixed_format f then 6 - length (left_txt f) else 0).
Proof. intros f. unfold print_line, fl_size. destruct (is_fortran f && is_fixed_format f); rewrite !app_length, ?spaces_len; lia. Qed.

(** make_preprocessor() makes a line that is nothing else, with all the text in left_txt; outside of fixed format it is printed as before. *)
Theorem C90_preprocessor : forall f, let g := make_preprocessor f in
  is_preprocessor g = true /\ is_fixed_format g = is_fixed_format f /\ linenum g = linenum f /\
  is_blank g = false /\ is_comment g = false /\ is_continued g = false /\ is_continuation g = false /\ has_label g = false /\
  is_include g = false /\ is_flpr_pp g = false /\ is_flpr_lit g = false /\ is_fortran g = false /\
  left_space g = [] /\ main_txt g = [] /\ right_space g = [] /\ right_txt g = [] /\ left_txt g = left_txt f ++ left_space f ++ main_txt f ++ right_space f ++ right_txt f /\
  fl_size g = fl_size f /\ (is_fixed_format f = false -> print_line g = print_line f).
Proof.
  intros f. cbn zeta. repeat (split; [try reflexivity; unfold fl_size; cbn; rewrite ?app_length; cbn; lia|]). intros X. unfold print_line. rewrite X, andb_false_r.
  cbn. now rewrite !app_nil_r.
Qed.

(** "  x = 1  " in the middle of a line with a comment *)
Definition wide : File_Line := mkFL 3 (L "10 ") (L "  ") (L "  x = 1  ") (L " ") (L "! c") c_nul bits0.
Example C90_ex : main_txt wide = spaces 2 ++ L "x = 1" ++ spaces 2 /\ tight (L "x = 1") /\
  exists g, unspace_main wide = Ok g /\ print_line wide = L "10     x = 1   ! c" /\ print_line g = L "10   x = 1   ! c".
Proof.
  split; [reflexivity|]. split.
  - split; [exists "x"%char, (L " = 1")|exists "1"%char, (L "x = ")]; split; try reflexivity; discriminate.
  - eexists. split; [vm_compute; reflexivity|]. split; vm_compute; reflexivity.
Qed.
Definition C90_all := (C90_cases, C90_unspace, C90_blank, C90_kept_partial, C90_lost_refuted, C90_size, C90_preprocessor).
Print Assumptions C90_all.
