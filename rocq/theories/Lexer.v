(** Model of the flex scanner src/flpr/scan_fort.l and of
    Logical_Line::tokenize (src/flpr/Logical_Line.cc:749-806) and
    init_from_layout (:123-149).

    Simplifications: flex itself is taken at its documentation (longest match,
    first rule on a tie, default rule echoes one character, the start condition
    survives the end of a buffer); an 8-bit scanner; int is Z. *)
From Verif Require Import Base Tags SyntaxTags FileLine LineAccum Token Smash Stmts Peg Regex LexTab.
Local Open Scope nat_scope.

(** scan_fort.l:26-30.  %option case-insensitive (:21) is modelled by matching
    the lower-case expressions with the lower-case input. *)
Definition is_alpha_l (c : ascii) : bool := (97 <=? code c) && (code c <=? 122).
Definition is_name_l (c : ascii) : bool := is_alpha_l c || is_digit_b c || ceq c "_"%char.
Definition r_DIGIT : re := Cls is_digit_b.
Definition r_NAME : re := Cat (Cls is_alpha_l) (Star (Cls is_name_l)).
Definition r_KIND : re := Or (Plus r_DIGIT) r_NAME.
Definition r_dot : re := Cls (ceq "."%char).
Definition r_SIGNIFICAND : re :=
  Or (Cat (Plus r_DIGIT) (Cat r_dot (Star r_DIGIT))) (Cat r_dot (Plus r_DIGIT)).
Definition is_ed (c : ascii) : bool := ceq "e"%char c || ceq "d"%char c.
Definition is_sign (c : ascii) : bool := ceq "-"%char c || ceq "+"%char c.
Definition r_EXPONENT : re := Cat (Cls is_ed) (Cat (Opt (Cls is_sign)) (Plus r_DIGIT)).
Definition r_under : re := Cls (ceq "_"%char).
Definition r_opt_kind : re := Opt (Cat r_under r_KIND).          (* (_{KIND})? *)
Definition r_kind_opt : re := Opt (Cat r_KIND r_under).          (* ({KIND}_)? *)
(** :234-239; [q] is the delimiter *)
Definition r_quoted (q : ascii) : re :=
  Cat (Cls (ceq q)) (Cat (Star (Or (Cat (Cls (ceq q)) (Cls (ceq q))) (Cls (fun c => negb (ceq q c)))))
                         (Cls (ceq q))).
Definition c_nl : ascii := "010"%char.
Definition r_any : re := Cls (fun c => negb (ceq c_nl c)).       (* . *)

(** Start conditions; real_parse, exp_parse and kind_parse are exclusive (:24). *)
Inductive start := INITIAL | real_parse | exp_parse | kind_parse.

(** What the actions do.  [a_less] stands for
    "curr_line_pos -= yyleng; yyless(0);". *)
Inductive action :=
| a_return (t : Z)                  (* return t *)
| a_pop_return (t : Z)              (* yy_pop_state(); return t *)
| a_less_push (s : start)           (* a_less; yy_push_state(s) *)
| a_less_begin (s : start)          (* a_less; BEGIN(s) *)
| a_eat.                            (* no action *)

Definition fixed (e : string * Z) : re * action := (Lit (L (fst e)), a_return (snd e)).

(** :34-229, :234-239, :264-285 *)
Definition initial_rules : list (re * action) :=
  map fixed keyword_rules ++ map fixed symbol_rules ++
  [ (Cat (Lit (L ".false.")) r_opt_kind, a_return TK_FALSE_CONSTANT);
    (Cat (Lit (L ".true.")) r_opt_kind, a_return TK_TRUE_CONSTANT);
    (Cat r_kind_opt (r_quoted c_dquote), a_return SG_CHAR_LITERAL_CONSTANT);
    (Cat r_kind_opt (r_quoted c_squote), a_return SG_CHAR_LITERAL_CONSTANT);
    (Cat r_SIGNIFICAND (Cat (Opt r_EXPONENT) r_opt_kind), a_less_begin real_parse);
    (Cat (Plus r_DIGIT) (Cat r_EXPONENT r_opt_kind), a_less_begin real_parse);
    (Cat (Plus r_DIGIT) r_opt_kind, a_return SG_INT_LITERAL_CONSTANT);
    (Cat r_dot (Cat (Plus (Cls is_alpha_l)) r_dot), a_return TK_DEF_OP);
    (r_NAME, a_return TK_NAME);
    (Cls (fun c => mem c set_str), a_eat);
    (r_any, a_return UNKNOWN) ].
(** :242-245 *)
Definition exp_rules : list (re * action) :=
  [ (Cls is_ed, a_return SG_EXPONENT_LETTER);
    (Cat (Opt (Cls is_sign)) (Plus r_DIGIT), a_pop_return SG_EXPONENT) ].
(** :247-250 *)
Definition kind_rules : list (re * action) :=
  [ (r_under, a_return TK_UNDERSCORE);
    (r_KIND, a_pop_return SG_KIND_PARAM) ].
(** :257-268 *)
Definition real_rules : list (re * action) :=
  [ (r_SIGNIFICAND, a_return SG_SIGNIFICAND);
    (Plus r_DIGIT, a_return SG_SIGNIFICAND);
    (r_EXPONENT, a_less_push exp_parse);
    (Cat r_under r_KIND, a_less_push kind_parse);
    (Or r_any (Cls (ceq c_nl)), a_less_begin INITIAL) ].
Definition rules (s : start) : list (re * action) :=
  match s with
  | INITIAL => initial_rules | real_parse => real_rules
  | exp_parse => exp_rules | kind_parse => kind_rules
  end.

(** Longest match, the first rule on a tie. *)
Fixpoint pick (rs : list (re * action)) (s : str) : option (nat * action) :=
  match rs with
  | [] => None
  | (r, a) :: rest =>
      match longest r s, pick rest s with
      | Some n, Some (m, b) => if m <=? n then Some (n, a) else Some (m, b)
      | Some n, None => Some (n, a)
      | None, p => p
      end
  end.

(** YY_START and the stack of yy_push_state: static variables of the scanner. *)
Record LS := mkLS { ls_start : start; ls_stack : list start }.
Definition ls_init : LS := mkLS INITIAL [].

(** One call of yylex() with [s] unread and [pos] in curr_line_pos: the token
    and yytext ([None]: end of the buffer, returns 0), the scanner state, the
    unread text and curr_line_pos.  YY_USER_ACTION (:16) adds yyleng for every
    rule, the default rule too. *)
Fixpoint yylex (fuel : nat) (st : LS) (s : str) (pos : Z)
  : out (option (Z * str) * LS * str * Z) :=
  match fuel with
  | 0 => Fuel
  | S f =>
      match s with
      | [] => Done (None, st, [], pos)
      | _ :: r =>
          match pick (rules (ls_start st)) (map lower_b s) with
          | None => yylex f st r (pos + 1)%Z
          | Some (n, a) =>
              let pos' := (pos + Z.of_nat n)%Z in
              match a with
              | a_return t => Done (Some (t, firstn n s), st, skipn n s, pos')
              | a_pop_return t =>
                  match ls_stack st with
                  | [] => Bad
                  | x :: k => Done (Some (t, firstn n s), mkLS x k, skipn n s, pos')
                  end
              | a_less_push x =>
                  yylex f (mkLS x (ls_start st :: ls_stack st)) s (pos' - Z.of_nat n)%Z
              | a_less_begin x =>
                  yylex f (mkLS x (ls_stack st)) s (pos' - Z.of_nat n)%Z
              | a_eat => yylex f st (skipn n s) pos'
              end
          end
      end
  end.

(** The calls of yylex() up to the one that returns 0: tokens with yytext and
    the value of curr_line_pos after the call. *)
Definition lexeme : Type := Z * str * Z.
Fixpoint scan (fuel : nat) (st : LS) (s : str) (pos : Z) : out (list lexeme * LS) :=
  match fuel with
  | 0 => Fuel
  | S f =>
      ' (o, st', s', pos') <~ yylex fuel st s pos ;;
      match o with
      | None => Done ([], st')
      | Some (t, txt) =>
          if (t =? EOL)%Z then Done ([], st')
          else ' (l, st2) <~ scan f st' s' pos' ;; Done ((t, txt, pos') :: l, st2)
      end
  end.

(** Logical_Line.cc:786-789: the blanks of accum[pos, N). *)
Fixpoint blanks (s : str) : res nat :=
  match s with
  | [] => Ok 0
  | c :: r => b <- c_isspace c ;; if b then (n <- blanks r ;; Ok (S n)) else Ok 0
  end.

(** :791-798, on fragments_.back() *)
Definition set_back (fr : list Token) (f : Token -> Token) : res (list Token) :=
  match rev fr with
  | [] => UB
  | x :: b => Ok (rev (f x :: b))
  end.
Definition with_mt (bl bc el ec pre post : Z) (x : Token) : Token :=
  mkTok (tok x) (tk_line x) (tk_pos x) (tk_text x) (Some bl) (Some bc) (Some el) (Some ec)
        (Some pre) (Some post).

(** :766-801, the loop over the lexemes; [ts] is tok_start_col, [pre] is
    next_pre_sp. linecolno returning false leaves its results uninitialised. *)
Fixpoint tok_loop (la : Line_Accum) (l : list lexeme) (ts pre : Z) (fr : list Token)
  : res (list Token) :=
  match l with
  | [] => Ok fr
  | (t, txt, pos) :: r =>
      o <- linecolno la ts ;;
      match o with
      | None => UB
      | Some (li, ci, tli, tci) =>
          let fr1 := fr ++ [new_token txt t li ci] in
          fr2 <- (if (t =? TK_NAME)%Z then unsmash fr1 else Ok fr1) ;;
          e <- linecolno la (pos - 1) ;;
          match e with
          | None => UB
          | Some (_, _, eli, eci) =>
              sp <- blanks (skipn (Z.to_nat pos) (la_accum la)) ;;
              let space_between := Z.of_nat sp in
              fr3 <- set_back fr2 (with_mt tli tci eli (eci + 1)%Z pre space_between) ;;
              tok_loop la r (pos + space_between)%Z space_between fr3
          end
      end
  end.

(** :749-806 tokenize.  yy_scan_string reads accum().c_str() up to its first
    NUL.  The bound is never reached: C35_total. *)
Definition scan_fuel (s : str) : nat := length s + 2.
Definition scan_string (st : LS) (s : str) : out (list lexeme * LS) :=
  let t := c_str s in scan (scan_fuel t) st t 0.
Definition tokenize (st : LS) (la : Line_Accum) : out (list Token * LS) :=
  ' (l, st') <~ scan_string st (la_accum la) ;;
  fr <~ lift (tok_loop la l 0 0 []) ;;
  Done (fr, st').

(** :123-136 the accumulated text of a layout *)
Definition accum_layout (layout : list File_Line) : Line_Accum :=
  fold_left (fun la fl =>
    if is_trivial fl then la
    else add_line la (linenum fl) (zlen (left_space fl)) (main_first_col fl) (main_txt fl)
                  (zlen (right_space fl))) layout la_empty.
Definition tokenize_layout (st : LS) (layout : list File_Line) : out (list Token * LS) :=
  tokenize st (accum_layout layout).
