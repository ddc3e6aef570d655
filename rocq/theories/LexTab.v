(** The fixed texts of src/flpr/scan_fort.l in the order of their rules,
    transcribed by scripts/gen_lex.py. *)
From Verif Require Import Base Tags.
Local Open Scope string_scope.

(** :32-179 *)
Definition keyword_rules : list (string * Z) := [
  ("abstract", KW_ABSTRACT);
  ("acquired_lock", KW_ACQUIRED_LOCK);
  ("all", KW_ALL);
  ("allocatable", KW_ALLOCATABLE);
  ("allocate", KW_ALLOCATE);
  ("assignment", KW_ASSIGNMENT);
  ("associate", KW_ASSOCIATE);
  ("asynchronous", KW_ASYNCHRONOUS);
  ("backspace", KW_BACKSPACE);
  ("bind", KW_BIND);
  ("block", KW_BLOCK);
  ("call", KW_CALL);
  ("case", KW_CASE);
  ("character", KW_CHARACTER);
  ("class", KW_CLASS);
  ("close", KW_CLOSE);
  ("codimension", KW_CODIMENSION);
  ("common", KW_COMMON);
  ("complex", KW_COMPLEX);
  ("concurrent", KW_CONCURRENT);
  ("contains", KW_CONTAINS);
  ("contiguous", KW_CONTIGUOUS);
  ("continue", KW_CONTINUE);
  ("critical", KW_CRITICAL);
  ("cycle", KW_CYCLE);
  ("data", KW_DATA);
  ("deallocate", KW_DEALLOCATE);
  ("default", KW_DEFAULT);
  ("deferred", KW_DEFERRED);
  ("dimension", KW_DIMENSION);
  ("do", KW_DO);
  ("dowhile", KW_DOWHILE);
  ("double", KW_DOUBLE);
  ("doubleprecision", KW_DOUBLEPRECISION);
  ("elemental", KW_ELEMENTAL);
  ("else", KW_ELSE);
  ("end", KW_END);
  ("entry", KW_ENTRY);
  ("enum", KW_ENUM);
  ("enumerator", KW_ENUMERATOR);
  ("eor", KW_EOR);
  ("equivalence", KW_EQUIVALENCE);
  ("err", KW_ERR);
  ("errmsg", KW_ERRMSG);
  ("error", KW_ERROR);
  ("event", KW_EVENT);
  ("exit", KW_EXIT);
  ("extends", KW_EXTENDS);
  ("external", KW_EXTERNAL);
  ("fail", KW_FAIL);
  ("file", KW_FILE);
  ("final", KW_FINAL);
  ("flush", KW_FLUSH);
  ("forall", KW_FORALL);
  ("form", KW_FORM);
  ("format", KW_FORMAT);
  ("formatted", KW_FORMATTED);
  ("function", KW_FUNCTION);
  ("generic", KW_GENERIC);
  ("go", KW_GO);
  ("id", KW_ID);
  ("if", KW_IF);
  ("image", KW_IMAGE);
  ("images", KW_IMAGES);
  ("implicit", KW_IMPLICIT);
  ("import", KW_IMPORT);
  ("impure", KW_IMPURE);
  ("in", KW_IN);
  ("include", KW_INCLUDE);
  ("inout", KW_INOUT);
  ("inquire", KW_INQUIRE);
  ("integer", KW_INTEGER);
  ("intent", KW_INTENT);
  ("interface", KW_INTERFACE);
  ("intrinsic", KW_INTRINSIC);
  ("iomsg", KW_IOMSG);
  ("iostat", KW_IOSTAT);
  ("is", KW_IS);
  ("kind", KW_KIND);
  ("len", KW_LEN);
  ("local", KW_LOCAL);
  ("local_init", KW_LOCAL_INIT);
  ("lock", KW_LOCK);
  ("logical", KW_LOGICAL);
  ("memory", KW_MEMORY);
  ("module", KW_MODULE);
  ("mold", KW_MOLD);
  ("name", KW_NAME);
  ("namelist", KW_NAMELIST);
  ("new_index", KW_NEW_INDEX);
  ("nopass", KW_NOPASS);
  ("non_intrinsic", KW_NON_INTRINSIC);
  ("non_overridable", KW_NON_OVERRIDABLE);
  ("non_recursive", KW_NON_RECURSIVE);
  ("none", KW_NONE);
  ("nullify", KW_NULLIFY);
  ("only", KW_ONLY);
  ("open", KW_OPEN);
  ("operator", KW_OPERATOR);
  ("optional", KW_OPTIONAL);
  ("out", KW_OUT);
  ("parameter", KW_PARAMETER);
  ("pass", KW_PASS);
  ("pointer", KW_POINTER);
  ("post", KW_POST);
  ("precision", KW_PRECISION);
  ("print", KW_PRINT);
  ("private", KW_PRIVATE);
  ("procedure", KW_PROCEDURE);
  ("program", KW_PROGRAM);
  ("protected", KW_PROTECTED);
  ("public", KW_PUBLIC);
  ("pure", KW_PURE);
  ("quiet", KW_QUIET);
  ("rank", KW_RANK);
  ("read", KW_READ);
  ("real", KW_REAL);
  ("recursive", KW_RECURSIVE);
  ("result", KW_RESULT);
  ("return", KW_RETURN);
  ("rewind", KW_REWIND);
  ("save", KW_SAVE);
  ("select", KW_SELECT);
  ("sequence", KW_SEQUENCE);
  ("shared", KW_SHARED);
  ("source", KW_SOURCE);
  ("stat", KW_STAT);
  ("stop", KW_STOP);
  ("submodule", KW_SUBMODULE);
  ("subroutine", KW_SUBROUTINE);
  ("sync", KW_SYNC);
  ("target", KW_TARGET);
  ("team", KW_TEAM);
  ("team_number", KW_TEAM_NUMBER);
  ("then", KW_THEN);
  ("to", KW_TO);
  ("type", KW_TYPE);
  ("unformatted", KW_UNFORMATTED);
  ("unit", KW_UNIT);
  ("unlock", KW_UNLOCK);
  ("until_count", KW_UNTIL_COUNT);
  ("use", KW_USE);
  ("value", KW_VALUE);
  ("volatile", KW_VOLATILE);
  ("wait", KW_WAIT);
  ("where", KW_WHERE);
  ("while", KW_WHILE);
  ("write", KW_WRITE)].

(** :182-221 *)
Definition symbol_rules : list (string * Z) := [
  ("(", TK_PARENL);
  (")", TK_PARENR);
  ("[", TK_BRACKETL);
  ("]", TK_BRACKETR);
  ("+", TK_PLUS);
  ("-", TK_MINUS);
  ("=", TK_EQUAL);
  ("..", TK_DBL_DOT);
  ("::", TK_DBL_COLON);
  (":", TK_COLON);
  (";", TK_SEMICOLON);
  ("/", TK_SLASHF);
  ("%", TK_PERCENT);
  (",", TK_COMMA);
  ("**", TK_POWER_OP);
  ("*", TK_ASTERISK);
  ("|", TK_VBAR);
  ("//", TK_CONCAT);
  ("=>", TK_ARROW);
  (".eq.", TK_REL_EQ);
  (".ne.", TK_REL_NE);
  (".lt.", TK_REL_LT);
  (".le.", TK_REL_LE);
  (".gt.", TK_REL_GT);
  (".ge.", TK_REL_GE);
  ("==", TK_REL_EQ);
  ("/=", TK_REL_NE);
  ("<", TK_REL_LT);
  ("<=", TK_REL_LE);
  (">", TK_REL_GT);
  (">=", TK_REL_GE);
  (".not.", TK_NOT_OP);
  (".and.", TK_AND_OP);
  (".or.", TK_OR_OP);
  (".eqv.", TK_EQV_OP);
  (".neqv.", TK_NEQV_OP)].
