(** C21: smashed keywords; C38: file types; C40: string utilities. *)
From Verif Require Import Base Base_lemmas Tags SyntaxTags Token SmashTab Smash Smash_spec Smash_proofs.
From Verif Require Import Utils Utils_spec Utils_proofs.
Local Open Scope nat_scope.

(** C21.  For every byte string, in_word_set answers without undefined
    behaviour; it finds an entry exactly when the string is one of the 25
    adjacent keyword pairs, and the entry has that pair's tokens and the place
    where the first keyword ends. *)
Theorem C21_recognition : forall s, exists r, in_word_set s = Ok r /\
  (forall w, r = Some w -> is_smashed s (firstn (splitpos w) s) (tok1 w) (skipn (splitpos w) s) (tok2 w)) /\
  (forall w1 t1 w2 t2, is_smashed s w1 t1 w2 t2 ->
     exists w, r = Some w /\ tok1 w = t1 /\ tok2 w = t2 /\ splitpos w = length w1).
Proof.
  intros s. destruct (in_word_set_ok s) as (r & E). exists r. split; [exact E|]. split.
  - intros w ->. now apply recognised.
  - intros w1 t1 w2 t2 H. destruct (found _ _ _ _ _ H) as (w & E' & T). exists w. rewrite E in E'. injection E' as ->. auto.
Qed.
Print Assumptions C21_recognition.

(** C21.  unsmash changes the last token exactly when it is a name whose text,
    ignoring case, is an adjacent keyword pair; it becomes two tokens with the
    pair's tags whose texts, joined, are the original text (case kept), at the
    file positions of the two parts, with no space between them. *)
Theorem C21_unsmash : forall before x, exists r, unsmash (before ++ [x]) = Ok r /\
  ((tok x <> TK_NAME /\ r = before ++ [x]) \/
   (tok x = TK_NAME /\ (forall w1 t1 w2 t2, ~ is_smashed (map lower_b (tk_text x)) w1 t1 w2 t2) /\ r = before ++ [x]) \/
   (tok x = TK_NAME /\ exists w1 t1 w2 t2 x1 x2, is_smashed (map lower_b (tk_text x)) w1 t1 w2 t2 /\
      r = before ++ [x1; x2] /\ tk_text x1 ++ tk_text x2 = tk_text x /\ map lower_b (tk_text x1) = w1 /\ map lower_b (tk_text x2) = w2 /\
      tok x1 = t1 /\ tok x2 = t2 /\ tk_line x1 = tk_line x /\ tk_line x2 = tk_line x /\
      tk_pos x1 = tk_pos x /\ tk_pos x2 = (tk_pos x + zlen w1)%Z /\ tk_post x1 = Some 0%Z /\ tk_pre x2 = Some 0%Z)).
Proof. exact unsmash_ok. Qed.
Print Assumptions C21_unsmash.

(** C38 (partial).  What the file type is, for every file name; an explicit type
    always wins.  Missing from the full property: .F90 counts as fixed format. *)
Theorem C38_file_type_partial : forall name,
  (exists t, file_type_from_extension name = Ok t /\
     (t = FT_FREE <-> ends_in name (L ".f90")) /\
     (t = FT_FIXED <-> ends_in name (L ".f") \/ ends_in name (L ".F") \/ ends_in name (L ".F90"))) /\
  file_info name FT_UNKNOWN = file_type_from_extension name /\
  (forall ft, ft <> FT_UNKNOWN -> file_info name ft = Ok ft).
Proof.
  intros name. split; [apply file_type_ok|]. split; [reflexivity|]. intros [| |] H; [congruence|reflexivity|reflexivity].
Qed.
Print Assumptions C38_file_type_partial.
Theorem C38_preprocessed_free_refuted :
  file_type_from_extension (L "main.f90") = Ok FT_FREE /\ file_type_from_extension (L "main.F90") = Ok FT_FIXED.
Proof. split; reflexivity. Qed.

(** C40.  tolower, toupper: on strings of 7-bit characters only the letters
    change.  A byte above 127 is a negative argument of std::tolower where char
    is signed, which is undefined. *)
Theorem C40_case : forall s, Forall ascii7 s ->
  exists l u, tolower_s s = Ok l /\ toupper_s s = Ok u /\ length l = length s /\ length u = length s /\
    forall i c, nth_error s i = Some c ->
      nth_error l i = Some (if (65 <=? code c) && (code c <=? 90) then chr (code c + 32) else c) /\
      nth_error u i = Some (if (97 <=? code c) && (code c <=? 122) then chr (code c - 32) else c).
Proof.
  intros s H. destruct (lower_ok s H) as (A & B). exists (map lower_b s), (map upper_b s).
  split; [exact A|]. split; [exact B|]. split; [apply map_length|]. split; [apply map_length|].
  intros i c E. rewrite !nth_error_map, E. split; reflexivity.
Qed.
Theorem C40_case_high_bytes_refuted : forall a c b, ~ ascii7 c -> tolower_s (a ++ c :: b) = UB.
Proof.
  intros a c b H. assert (N : ctype_ok c = false) by (unfold ctype_ok, ascii7, code in *; apply Nat.ltb_ge; lia).
  induction a as [|x a IH]; cbn; unfold c_tolower at 1.
  - now rewrite N.
  - destruct (ctype_ok x); [|reflexivity]. cbn [bind]. change (map_res c_tolower (a ++ c :: b)) with (tolower_s (a ++ c :: b)). now rewrite IH.
Qed.
(** C40.  trim, trim_back, trim_back_copy, last_non_blank_char *)
Theorem C40_trim : forall s, Forall ascii7 s -> exists t, trim s = Ok t /\ stripped white s t.
Proof. exact trim_ok. Qed.
Theorem C40_trim_back : forall s, exists t, trim_back s = Ok t /\ trim_back_copy s = t /\ stripped_back blank s t /\
  last_non_blank_char s = Ok (last t c_nul).
Proof. exact trim_back_ok. Qed.
(** C40.  simple_tokenize appends exactly the words between the delimiters; the
    decomposition into words is unique; nothing outside the string is read. *)
Theorem C40_simple_tokenize : forall s t d, exists ts,
  simple_tokenize s t d = Ok (t ++ ts) /\ words d s ts /\ forall ts', words d s ts' -> ts' = ts.
Proof.
  intros s t d. destruct (tok_loop_ok (S (length s)) s d [] s t eq_refl ltac:(lia)) as (ts & R & W).
  exists ts. split; [exact R|]. split; [exact W|]. intros ts' W'. symmetry. eapply words_unique; eassumption.
Qed.
Print Assumptions C40_simple_tokenize.

(** ** concrete cases *)
Example C21_ex :
  in_word_set (L "endsubroutine") = Ok (Some (mkSm (L "endsubroutine") KW_END KW_SUBROUTINE 3)) /\
  in_word_set (L "endsubroutinf") = Ok None /\ in_word_set (L "endif" ++ [c_nul]) = Ok None /\
  in_word_set [] = Ok None.
Proof. vm_compute. auto. Qed.
Example C21_ex_unsmash :
  match unsmash [new_token (L "GoTo") TK_NAME 3 7] with
  | Ok [a; b] => tk_text a = L "Go" /\ tk_text b = L "To" /\ tok a = KW_GO /\ tok b = KW_TO /\ tk_pos b = 9%Z
  | _ => False end.
Proof. vm_compute. auto. Qed.
Example C38_ex : file_type_from_extension (L "dir.f90/x") = Ok FT_UNKNOWN /\ file_type_from_extension (L "a.b.f") = Ok FT_FIXED.
Proof. split; reflexivity. Qed.
Example C40_ex : trim (L "  a b ") = Ok (L "a b") /\ trim (L "   ") = Ok [] /\ trim_back (L " a ") = Ok (L " a") /\
  simple_tokenize (L " ab  c ") [] " "%char = Ok [L "ab"; L "c"] /\ simple_tokenize [] [] " "%char = Ok [].
Proof. repeat split; reflexivity. Qed.
