(** The statements of a file and its lines belong together. *)
From Verif Require Import Base Tags SyntaxTags FileLine LogicalLine Token Peg Lexer Stmts Stmts_spec StmtSrc StmtSrc_spec StmtEdit.
Local Open Scope nat_scope.

(** A line has the statements that init_stmts finds, and if it has any it is neither
    suppressed nor a macro line. *)
Definition right (l : LLn) : Prop :=
  l_stmts l = fst (init_stmts (l_frags l)) /\ (l_stmts l <> [] -> l_suppress l = false /\ l_cat l <> CAT_MACRO).
(** [m] is the last statement of its line, with nothing after it. *)
Definition ends_line (ls : list LLn) (m : LL_Stmt) : Prop :=
  exists i l, s_line m = Some i /\ nth_error ls i = Some l /\ snd (s_range m) = length (l_frags l).
(** A stored statement is the one that make_stmts would make.  Two things may
    differ: a statement that is alone on its line can have the number 1 instead of
    0, and the stored end of a statement can be gone if the statement reaches the end of its line. *)
Definition agrees (ls : list LLn) (s : FStmt) (m : LL_Stmt) : Prop :=
  fs_line s = s_line m /\ fs_beg s = Some (fst (s_range m)) /\ fs_size s = snd (s_range m) - fst (s_range m) /\ fs_label s = s_label m /\
  fs_prefix s = s_prefix m /\
  (fs_compound s = s_compound m \/ fs_compound s = 1%Z /\ s_compound m = 0%Z) /\
  (fs_end s = Some (snd (s_range m)) \/ fs_end s = None /\ ends_line ls m).
Definition in_sync (F : LFile) : Prop :=
  Forall right (lf_lines F) /\ Forall2 (agrees (lf_lines F)) (lf_stmts F) (stmts_of_file (lf_lines F)).

(** what a reader sees of a token, of a statement and of a line *)
Definition face (x : Token) : Z * str := (tok x, tk_text x).
Definition words (F : LFile) (s : FStmt) : list (Z * str) :=
  match fs_line s, fs_beg s with
  | Some i, Some b => match nth_error (lf_lines F) i with Some l => map face (firstn (fs_size s) (skipn b (l_frags l))) | None => [] end
  | _, _ => []
  end.
(** A statement before and after an edit elsewhere: the same words, label and kind. *)
Definition kept (F F' : LFile) (s s' : FStmt) : Prop :=
  words F' s' = words F s /\ fs_label s' = fs_label s /\ fs_tag s' = fs_tag s.
(** the line of a statement *)
Definition line_of (F : LFile) (s : FStmt) : option LLn := match fs_line s with Some i => nth_error (lf_lines F) i | None => None end.

(** the ways to edit the text of a statement *)
Inductive Edit :=
| Text (ts : list str) (tag : Z)          (* replace_stmt_text *)
| Substr (b e : nat) (t : str)            (* replace_stmt_substr *)
| After (n : nat) (t : str)               (* insert_text_after *)
| Append (t : str).                       (* append_stmt_text *)
Definition apply_edit (st : LS) (F : LFile) (p : nat) (e : Edit) : out (LFile * LS) :=
  match e with
  | Text ts tag => replace_stmt_text st F p ts tag
  | Substr b e t => replace_substr st F p b e t
  | After n t => insert_after st F p n t
  | Append t => append_stmt_text st F p t
  end.
