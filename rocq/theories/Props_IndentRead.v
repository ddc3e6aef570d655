(** C75: a file that was indented, written and read again. *)
From Verif Require Import Base FileLine FileLine_spec Token LogicalFile LogicalLine Lexer LineEdit StmtSrc Peg Prgm_proofs Prgm PrgmSource Convert_proofs ReadFile Indent Indent_spec FormatMain FormatMain_spec FormatMain_proofs
  IndentRead_spec IndentRead_proofs IndentReadFile_proofs Props_Stmt.
Local Open Scope nat_scope.

(** C75.  A tidy file is indented with a table that sets continuation lines off.  What is written is read as the lines the
    indentation left, with the tokens and statements the file had before. *)
Theorem C75_reread : forall exts m n it s ls ls1 c, read_free (getlines [] s) = Done ls -> Forall ascii7 (getlines [] s) -> tidy ls -> (0 < it_cont it)%Z ->
  file_indent exts m n it ls = Done (ls1, c) ->
  exists ls2, read_free (getlines [] (write_file ls1)) = Done ls2 /\ Forall2 same_reading ls1 ls2 /\ Forall2 same_content ls ls2.
Proof. intros exts m n it s ls ls1 c R A T OF H. rewrite indent_file_eq in H. ob H. eapply reread_text; eauto. Qed.
(** C75.  All tables of the library do. *)
Theorem C75_tables : forall it n, it_cont (apply_emacs_indent it) = 5%Z /\ it_cont (apply_constant_indent it n) = 5%Z /\ it_cont (apply_constant_fixed_indent it n) = 5%Z /\ it_cont it_init = 2%Z.
Proof. intros it n. split; [reflexivity|]. split; [reflexivity|]. split; reflexivity. Qed.

(** What is not so for files that are not tidy.  A comment can become a directive, for blanks behind its '!' are taken away. *)
Theorem C75_comment_refuted : exists s ls ls1 c ls2, read_free (getlines [] s) = Done ls /\ file_indent no_exts 60 60 (apply_emacs_indent it_init) ls = Done (ls1, c) /\
  read_free (getlines [] (write_file ls1)) = Done ls2 /\
  write_file ls1 = text_of [L "program p"; L "  !#flpr x"; L "  x = 1"; L "end"] /\
  map l_cat ls = [CAT_UNKNOWN; CAT_UNKNOWN; CAT_UNKNOWN; CAT_UNKNOWN] /\ map l_cat ls2 = [CAT_UNKNOWN; CAT_FLPR_PP; CAT_UNKNOWN; CAT_UNKNOWN].
Proof.
  exists (text_of [L "program p"; L "!      #flpr x"; L "x = 1"; L "end"]). do 4 eexists. split; [vm_compute; reflexivity|]. split; [vm_compute; reflexivity|].
  split; [vm_compute; reflexivity|]. split; [reflexivity|]. split; reflexivity.
Qed.
(** A name that goes on in the first column of the next line becomes two. *)
Theorem C75_name_refuted : exists s ls ls1 c ls2, read_free (getlines [] s) = Done ls /\ file_indent no_exts 60 60 (apply_emacs_indent it_init) ls = Done (ls1, c) /\
  read_free (getlines [] (write_file ls1)) = Done ls2 /\
  map (fun l => map tk_text (l_frags l)) ls = [[L "x"; L "="; L "abcd"]; [L "end"]] /\
  map (fun l => map tk_text (l_frags l)) ls2 = [[L "x"; L "="; L "ab"; L "cd"]; [L "end"]].
Proof.
  exists (text_of [L "x = ab&"; L "cd"; L "end"]). do 4 eexists. split; [vm_compute; reflexivity|]. split; [vm_compute; reflexivity|].
  split; [vm_compute; reflexivity|]. split; reflexivity.
Qed.
(** A character constant gets a blank. *)
Theorem C75_string_refuted : exists s ls ls1 c ls2, read_free (getlines [] s) = Done ls /\ file_indent no_exts 60 60 (apply_emacs_indent it_init) ls = Done (ls1, c) /\
  read_free (getlines [] (write_file ls1)) = Done ls2 /\
  map (fun l => map tk_text (l_frags l)) ls = [[L "x"; L "="; L "'abcd'"]; [L "end"]] /\
  map (fun l => map tk_text (l_frags l)) ls2 = [[L "x"; L "="; L "'ab cd'"]; [L "end"]].
Proof.
  exists (text_of [L "x = 'ab&"; L "cd'"; L "end"]). do 4 eexists. split; [vm_compute; reflexivity|]. split; [vm_compute; reflexivity|].
  split; [vm_compute; reflexivity|]. split; reflexivity.
Qed.

Definition tidy1 : str := text_of [L "program p"; L "x = a + & ! c"; L "! d";  L "  b ! e"; L "if (x > 0) then"; L "#if A"; L "y = 'a&"; L "     & b'; z = 2"; L "end if"; L "20 continue"; L "include 'x'"; L "end"].
Lemma not_dir f : Forall (fun c => c <> c_hash) (left_txt f) -> forall b p r, left_txt f = b ++ c_bang :: p ++ L "#flpr" ++ r -> False.
Proof.
  intros H b p r E. rewrite Forall_forall in H. apply (H c_hash); [|reflexivity]. rewrite E, in_app_iff. right. right. rewrite !in_app_iff. right. left. left. reflexivity.
Qed.
Example C75_case : exists ls ls1, read_free (getlines [] tidy1) = Done ls /\ Forall ascii7 (getlines [] tidy1) /\ tidy ls /\
  file_indent no_exts 60 60 (apply_emacs_indent it_init) ls = Done (ls1, true) /\
  write_file ls1 = text_of [L "program p"; L "  x = a + & ! c"; L "       ! d"; L "       b ! e"; L "  if (x > 0) then"; L "#if A"; L "     y = 'a&"; L "         & b'; z = 2"; L "  end if";
    L "20 continue"; L "include 'x'"; L "end"].
Proof.
  do 2 eexists. split; [vm_compute; reflexivity|]. split; [|split; [|split; [vm_compute; reflexivity|reflexivity]]].
  - repeat (constructor; [unfold ascii7; repeat (constructor; [reflexivity|]); constructor|]); constructor.
  - unfold tidy. repeat (apply Forall_cons; [split|]); try (apply Forall_nil); cbn [tl l_layout]; repeat (apply Forall_cons || apply Forall_nil).
    all: try (intros F; vm_compute in F; first [discriminate|left; reflexivity|right; discriminate]).
    all: first [intros F; split; [intros r E; first [discriminate E|discriminate]|intros E r; first [discriminate E|discriminate]]|
                intros C b q r E _ _; revert E; apply not_dir; cbn; repeat (constructor; [discriminate|]); constructor].
Qed.
Definition C75_all := (C75_reread, C75_tables, C75_comment_refuted, C75_name_refuted, C75_string_refuted).
Print Assumptions C75_all.
