(** The adjacent keywords of Fortran 2018 section 6.3.2.2, table 6.2, that
    FLPR's docs/Smash_Hash.gperf lists. *)
From Verif Require Import Base Tags.

Definition adjacent_keywords : list (string * Z * string * Z) := [
  ("block", KW_BLOCK, "data", KW_DATA);
  ("else", KW_ELSE, "if", KW_IF);
  ("else", KW_ELSE, "where", KW_WHERE);
  ("end", KW_END, "associate", KW_ASSOCIATE);
  ("end", KW_END, "block", KW_BLOCK);
  ("end", KW_END, "critical", KW_CRITICAL);
  ("end", KW_END, "do", KW_DO);
  ("end", KW_END, "enum", KW_ENUM);
  ("end", KW_END, "file", KW_FILE);
  ("end", KW_END, "forall", KW_FORALL);
  ("end", KW_END, "function", KW_FUNCTION);
  ("end", KW_END, "if", KW_IF);
  ("end", KW_END, "interface", KW_INTERFACE);
  ("end", KW_END, "module", KW_MODULE);
  ("end", KW_END, "procedure", KW_PROCEDURE);
  ("end", KW_END, "program", KW_PROGRAM);
  ("end", KW_END, "select", KW_SELECT);
  ("end", KW_END, "submodule", KW_SUBMODULE);
  ("end", KW_END, "subroutine", KW_SUBROUTINE);
  ("end", KW_END, "team", KW_TEAM);
  ("end", KW_END, "type", KW_TYPE);
  ("end", KW_END, "where", KW_WHERE);
  ("go", KW_GO, "to", KW_TO);
  ("select", KW_SELECT, "case", KW_CASE);
  ("select", KW_SELECT, "type", KW_TYPE)]%string.

(** s is the first keyword directly followed by the second *)
Definition is_smashed (s : str) (w1 : str) (t1 : Z) (w2 : str) (t2 : Z) : Prop :=
  exists a b, In (a, t1, b, t2) adjacent_keywords /\ w1 = L a /\ w2 = L b /\ s = w1 ++ w2.
