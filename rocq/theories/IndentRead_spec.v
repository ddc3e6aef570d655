(** What it means that an indented file reads back as the same program. *)
From Verif Require Import Base FileLine FileLine_spec LogicalFile Token LogicalLine Indent_spec.
Local Open Scope nat_scope.

(** ** Files whose text does not hang on where it stands *)
(** No comment would be a directive without the blanks behind its '!', a comment behind a statement has a blank
    before it, and no statement begins with '#'. *)
Definition tidy_line (f : File_Line) : Prop :=
  (is_comment f = true -> forall b p r, left_txt f = b ++ c_bang :: p ++ L "#flpr" ++ r -> all_blank b ->
     Forall (fun c => mem c set_st = true) p -> False) /\
  (is_fortran f = true ->
     (forall r, right_txt f = c_bang :: r -> right_space f <> []) /\
     (left_txt f = [] -> forall r, main_txt f <> c_hash :: r)).
(** A line that continues a statement begins with '&' or has a blank in front. *)
Definition tidy_more (f : File_Line) : Prop :=
  is_fortran f = true -> is_continuation f = true \/ left_space f <> [].
Definition tidy (ls : list LLn) : Prop :=
  Forall (fun l => Forall tidy_line (l_layout l) /\ Forall tidy_more (tl (l_layout l))) ls.

(** ** The same tokens *)
(** The same token, perhaps in another column of the file: kind, text, place in the text of the statement, blanks around it. *)
Definition same_token (x y : Token) : Prop :=
  tok y = tok x /\ tk_text y = tk_text x /\ tk_line y = tk_line x /\
  mt_bl y = mt_bl x /\ mt_bc y = mt_bc x /\ mt_el y = mt_el x /\ mt_ec y = mt_ec x /\
  tk_pre y = tk_pre x /\ tk_post y = tk_post x.
(** The same logical line: label, kind, layout, statements, tokens. *)
Definition same_reading (l l' : LLn) : Prop :=
  l_label l' = l_label l /\ l_cat l' = l_cat l /\ l_suppress l' = l_suppress l /\ l_reformat l' = l_reformat l /\
  l_nsemi l' = l_nsemi l /\ l_layout l' = l_layout l /\ l_stmts l' = l_stmts l /\ Forall2 same_token (l_frags l) (l_frags l').
(** The same but for the blanks of the layout. *)
Definition same_content (l l' : LLn) : Prop :=
  l_label l' = l_label l /\ l_cat l' = l_cat l /\ l_suppress l' = l_suppress l /\ l_reformat l' = l_reformat l /\
  l_nsemi l' = l_nsemi l /\ l_stmts l' = l_stmts l /\ Forall2 same_token (l_frags l) (l_frags l').
