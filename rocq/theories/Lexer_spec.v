(** Fortran lexemes (Fortran 2018, clause 6), independently of the scanner. *)
From Verif Require Import Base Tags.
Local Open Scope nat_scope.

Definition letter (c : ascii) : Prop :=
  65 <= code c <= 90 \/ 97 <= code c <= 122.
Definition digit (c : ascii) : Prop := 48 <= code c <= 57.
Definition name_char (c : ascii) : Prop := letter c \/ digit c \/ c = "_"%char.

Definition is_name (s : str) : Prop := exists c r, s = c :: r /\ letter c /\ Forall name_char r.
Definition is_digits (s : str) : Prop := s <> [] /\ Forall digit s.
Definition is_kind (s : str) : Prop := is_digits s \/ is_name s.
(** "_kind" and "kind_" *)
Definition kind_suffix (s : str) : Prop := s = [] \/ exists k, s = "_"%char :: k /\ is_kind k.
Definition kind_prefix (s : str) : Prop := s = [] \/ exists k, s = k ++ ["_"%char] /\ is_kind k.

(** The inside of a character literal delimited by [q]. *)
Inductive quoted_body (q : ascii) : str -> Prop :=
| qb_nil : quoted_body q []
| qb_other : forall c s, c <> q -> quoted_body q s -> quoted_body q (c :: s)
| qb_twice : forall s, quoted_body q s -> quoted_body q (q :: q :: s).
Definition is_char_literal (s : str) : Prop :=
  exists k q b, s = k ++ [q] ++ b ++ [q] /\ kind_prefix k /\
    (q = "'"%char \/ q = "034"%char) /\ quoted_body q b.

Definition is_significand (s : str) : Prop :=
  is_digits s \/
  (exists a b, s = a ++ "."%char :: b /\ is_digits a /\ Forall digit b) \/
  (exists b, s = "."%char :: b /\ is_digits b).
Definition is_exponent_letter (s : str) : Prop := In s [L "e"; L "E"; L "d"; L "D"].
Definition is_exponent (s : str) : Prop :=
  exists g d, s = g ++ d /\ (g = [] \/ g = L "+" \/ g = L "-") /\ is_digits d.

(** A keyword is spelled, in upper case, like the label of its tag. *)
Definition keyword (t : Z) (s : str) : Prop :=
  (0 <= t)%Z /\ nth_error tag_table (Z.to_nat t) = Some (map upper_b s, 4%Z).
(** Symbols are spelled like the label of their tag; the relational operators
    have a second spelling. *)
Definition symbol_tags : list Z :=
  [TK_AND_OP; TK_ARROW; TK_ASTERISK; TK_BRACKETL; TK_BRACKETR; TK_COLON; TK_COMMA; TK_CONCAT;
   TK_DBL_COLON; TK_DBL_DOT; TK_EQUAL; TK_EQV_OP; TK_MINUS; TK_NEQV_OP; TK_NOT_OP; TK_OR_OP;
   TK_PARENL; TK_PARENR; TK_PERCENT; TK_PLUS; TK_POWER_OP; TK_REL_EQ; TK_REL_GE; TK_REL_GT;
   TK_REL_LE; TK_REL_LT; TK_REL_NE; TK_SEMICOLON; TK_SLASHF; TK_VBAR].
Definition dotted : list (str * Z) :=
  [(L ".EQ.", TK_REL_EQ); (L ".NE.", TK_REL_NE); (L ".LT.", TK_REL_LT);
   (L ".LE.", TK_REL_LE); (L ".GT.", TK_REL_GT); (L ".GE.", TK_REL_GE)].
Definition symbol (t : Z) (s : str) : Prop :=
  (In t symbol_tags /\ nth_error tag_table (Z.to_nat t) = Some (map upper_b s, 3%Z)) \/
  In (map upper_b s, t) dotted.
Definition logical_literal (v : str) (s : str) : Prop :=
  exists w k, s = w ++ k /\ map upper_b w = v /\ kind_suffix k.

(** The form a token of each kind has. *)
Inductive lexeme_form : Z -> str -> Prop :=
| lf_keyword : forall t s, keyword t s -> lexeme_form t s
| lf_symbol : forall t s, symbol t s -> lexeme_form t s
| lf_name : forall s, is_name s -> (forall t, ~ keyword t s) -> lexeme_form TK_NAME s
| lf_def_op : forall w s, s = "."%char :: w ++ ["."%char] -> w <> [] -> Forall letter w ->
    (forall t, ~ symbol t s) -> map upper_b s <> L ".TRUE." -> map upper_b s <> L ".FALSE." ->
    lexeme_form TK_DEF_OP s
| lf_true : forall s, logical_literal (L ".TRUE.") s -> lexeme_form TK_TRUE_CONSTANT s
| lf_false : forall s, logical_literal (L ".FALSE.") s -> lexeme_form TK_FALSE_CONSTANT s
| lf_char : forall s, is_char_literal s -> lexeme_form SG_CHAR_LITERAL_CONSTANT s
| lf_int : forall d k, is_digits d -> kind_suffix k -> lexeme_form SG_INT_LITERAL_CONSTANT (d ++ k)
| lf_significand : forall s, is_significand s -> lexeme_form SG_SIGNIFICAND s
| lf_letter : forall s, is_exponent_letter s -> lexeme_form SG_EXPONENT_LETTER s
| lf_exponent : forall s, is_exponent s -> lexeme_form SG_EXPONENT s
| lf_under : lexeme_form TK_UNDERSCORE (L "_")
| lf_kind : forall s, is_kind s -> lexeme_form SG_KIND_PARAM s
| lf_unknown : forall c, ~ letter c -> ~ digit c -> (forall t, ~ symbol t [c]) ->
    ~ In c [" "; "009"; "013"; "010"]%char -> lexeme_form UNKNOWN [c].

(** A real literal, and every text a token (a real literal counting as one) can
    have. *)
Definition exponent_part (s : str) : Prop :=
  exists l x, s = l ++ x /\ is_exponent_letter l /\ is_exponent x.
Definition is_real (s : str) : Prop :=
  exists a b k, s = a ++ b ++ k /\ is_significand a /\ kind_suffix k /\
    (exponent_part b \/ b = [] /\ ~ is_digits a).
Inductive token_text : str -> Prop :=
| tt_keyword : forall t s, keyword t s -> token_text s
| tt_symbol : forall t s, symbol t s -> token_text s
| tt_name : forall s, is_name s -> token_text s
| tt_def_op : forall w, w <> [] -> Forall letter w -> token_text ("."%char :: w ++ ["."%char])
| tt_true : forall s, logical_literal (L ".TRUE.") s -> token_text s
| tt_false : forall s, logical_literal (L ".FALSE.") s -> token_text s
| tt_char : forall s, is_char_literal s -> token_text s
| tt_int : forall d k, is_digits d -> kind_suffix k -> token_text (d ++ k)
| tt_real : forall s, is_real s -> token_text s
| tt_other : forall c, c <> "010"%char -> token_text [c].

(** [w] is the longest token at the beginning of [w ++ r]. *)
Definition longest_token (w r : str) : Prop :=
  forall u v, w ++ r = u ++ v -> token_text u -> length u <= length w.

(** The parts of a real literal. *)
Definition real_part (t : Z) : Prop :=
  In t [SG_SIGNIFICAND; SG_EXPONENT_LETTER; SG_EXPONENT; TK_UNDERSCORE; SG_KIND_PARAM].

(** Characters between tokens: blank, tab, carriage return, newline. *)
Definition gap_char (c : ascii) : Prop := In c [" "; "009"; "013"; "010"]%char.

(** [lexed p s l]: the text [s], which starts at offset [p], is the tokens [l]
    in order, gaps between them.  Each token (tag, text, end offset) is not
    empty, ends at its end offset, has the form of its kind and, unless it is
    part of a real literal, is as long as possible. *)
Inductive lexed : Z -> str -> list (Z * str * Z) -> Prop :=
| lexed_end : forall p g, Forall gap_char g -> lexed p g []
| lexed_tok : forall p g t w r l, Forall gap_char g -> w <> [] ->
    lexeme_form t w -> real_part t \/ longest_token w r ->
    lexed (p + zlen g + zlen w)%Z r l ->
    lexed p (g ++ w ++ r) ((t, w, (p + zlen g + zlen w)%Z) :: l).

(** Vocabulary of the theorems about single tokens. *)
Definition quote_char (c : ascii) : Prop := c = "'"%char \/ c = "034"%char.
Definition not_first (P : ascii -> Prop) (s : str) : Prop := match s with [] => True | c :: _ => ~ P c end.
Definition ends_under (w : str) : Prop := exists k, w = k ++ ["_"%char].
(** [s] could continue a real literal *)
Definition continues_real (s : str) : Prop :=
  exists u v, s = u ++ v /\
    (is_significand u \/ exponent_part u \/ exists k, u = "_"%char :: k /\ is_kind k).
