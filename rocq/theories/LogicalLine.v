(** The Logical_Line record (src/flpr/Logical_Line.hh:52-259). *)
From Verif Require Import Base Tags SyntaxTags FileLine Token Stmts.
From Verif Require Export LogicalFile.
Local Open Scope Z_scope.

(** Members of Logical_Line; iterators into fragments_ are indices.
    file_info is not modelled. *)
Record LLn := mkLLn {
  l_label : Z;
  l_cat : LineCat;
  l_suppress : bool;
  l_reformat : bool;
  l_nsemi : Z;                     (* num_semicolons_, -1: not initialised *)
  l_layout : list File_Line;
  l_frags : list Token;
  l_stmts : list (nat * nat)
}.
