(** What the walks through statement trees are for, said of the tokens. *)
From Verif Require Import Base Tags SyntaxTags Token TTStream TTStream_spec StmtRules Peg Peg_spec StmtGrammar StmtTree_spec LogicalLine LexPos_spec LineEdit_spec.
Local Open Scope nat_scope.

(** The kind of token number p of the line. *)
Definition kind (fr : list Token) (p : nat) (g : Z) : Prop := tok_at fr p (fun x => tok x = g).

(** ** The name of a procedure *)
(** first statements of procedures: the parser, the word in front of the name *)
Definition heads : list (rule * Z) :=
  [(r_program_stmt, KW_PROGRAM); (r_function_stmt, KW_FUNCTION); (r_subroutine_stmt, KW_SUBROUTINE); (r_mp_subprogram_stmt, KW_PROCEDURE)].
(** a prefix-spec: a word or a type *)
Definition prefix_marks : list Z := [KW_ELEMENTAL; KW_IMPURE; KW_MODULE; KW_NON_RECURSIVE; KW_PURE; KW_RECURSIVE].
Definition prefix_spec (x : stree) : Prop := exists r k, x = ST SG_PREFIX_SPEC r [k] /\
  (t_tag k = SG_DECLARATION_TYPE_SPEC \/ exists g b, k = leaf_at g b /\ In g prefix_marks).
(** What stands between the begin of the statement and the word at k. *)
Definition before_word (r : rule) (s : stream) (k : nat) : Prop :=
  match r with
  | r_program_stmt => k = pos s
  | r_mp_subprogram_stmt => k = S (pos s) /\ kind (frags s) (pos s) KW_MODULE
  | _ => exists specs, covers_list s specs (pos s) k /\ Forall prefix_spec specs
  end.
(** end statements: the parser, its word, the node of the program tree *)
Definition ends : list (rule * Z * Z) :=
  [(r_end_program_stmt, KW_PROGRAM, PG_MAIN_PROGRAM); (r_end_function_stmt, KW_FUNCTION, PG_FUNCTION_SUBPROGRAM);
   (r_end_subroutine_stmt, KW_SUBROUTINE, PG_SUBROUTINE_SUBPROGRAM); (r_end_mp_subprogram_stmt, KW_PROCEDURE, PG_SEPARATE_MODULE_SUBPROGRAM)].
(** The name in it, if any, is its third token. *)
Definition end_name (s : stream) : option nat := if s_end s - pos s =? 3 then Some (pos s + 2) else None.

(** ** Lines before and after a change of names.  The tokens of a line stand where
    they say (C37); token p does not go over a line end. *)
Definition in_place (ll : LLn) : Prop := exists sp, laid (l_layout ll) (0, 0) (l_frags ll) sp.
Definition unsplit (ll : LLn) (p : nat) : Prop := exists x, nth_error (l_frags ll) p = Some x /\ mt_bl x = mt_el x.
(** what a token says *)
Definition word (x : Token) : Z * str := (tok x, tk_text x).
(** [ls'] is [ls] with the tokens listed in [at_], as (line, token), made the name [new] *)
Definition renamed (at_ : list (nat * nat)) (new : str) (ls ls' : list LLn) : Prop :=
  length ls' = length ls /\
  forall m ll, nth_error ls m = Some ll -> exists ll', nth_error ls' m = Some ll' /\ length (l_frags ll') = length (l_frags ll) /\
    (forall p x, nth_error (l_frags ll) p = Some x -> exists x', nth_error (l_frags ll') p = Some x' /\
       (In (m, p) at_ -> word x' = (TK_NAME, new)) /\ (~ In (m, p) at_ -> word x' = word x)) /\
    ((forall p, ~ In (m, p) at_) -> ll' = ll) /\ (in_place ll -> in_place ll').

(** ** What an end statement is completed with *)
Definition end_word (g : Z) (w : str) : Prop :=
  In (g, w) [(PG_FUNCTION_SUBPROGRAM, L "function"); (PG_SUBROUTINE_SUBPROGRAM, L "subroutine");
             (PG_SEPARATE_MODULE_SUBPROGRAM, L "procedure"); (PG_MAIN_PROGRAM, L "program")].

(** ** The module of a USE statement that begins at b is token q: USE m,
    USE :: m, USE, nature :: m *)
Definition used (fr : list Token) (b q : nat) : Prop :=
  kind fr b KW_USE /\ name_at fr q (fun _ => True) /\
  (q = b + 1 \/ q = b + 2 /\ kind fr (b + 1) TK_DBL_COLON \/
   q = b + 4 /\ kind fr (b + 1) TK_COMMA /\ (kind fr (b + 2) KW_INTRINSIC \/ kind fr (b + 2) KW_NON_INTRINSIC) /\ kind fr (b + 3) TK_DBL_COLON).

(** ** The name that is called: CALL x, CALL x(...), CALL a%b(i)%x(...) at [b, e): x is token q *)
Definition called (fr : list Token) (b e q : nat) : Prop :=
  kind fr b KW_CALL /\ b < q < e /\ name_at fr q (fun _ => True) /\
  (S q = e \/ matched TK_PARENR TK_PARENL (rev (firstn (e - b) (skipn b fr))) (e - S q)).

(** ** No registered action statement makes a tree of kind g (or one without a root
    of its own). *)
Definition foreign (exts : bool -> list ext) (g : Z) : Prop :=
  forall e s t s', In e (exts true) -> e s = Done (Some t, s') -> t_tag t <> g /\ t_tag t <> HOIST.
