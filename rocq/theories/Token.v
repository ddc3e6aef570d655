(** Model of Token_Text (src/flpr/Token_Text.hh, .cc). *)
From Verif Require Import Base Tags SyntaxTags.
Local Open Scope Z_scope.

(** Token_Text.hh:39-91.  An [option] field set to [None] is an int member that
    no constructor initialises.  The lower-case cache is not part of this
    record; it is modelled separately below. *)
Record Token := mkTok {
  tok : Z;                 (* token *)
  tk_line : Z;             (* start_line *)
  tk_pos : Z;              (* start_pos *)
  tk_text : str;           (* text_ *)
  mt_bl : option Z;        (* mt_begin_line_ *)
  mt_bc : option Z;        (* mt_begin_col_ *)
  mt_el : option Z;        (* mt_end_line_ *)
  mt_ec : option Z;        (* mt_end_col_ *)
  tk_pre : option Z;       (* pre_spaces_ *)
  tk_post : option Z       (* post_spaces_ *)
}.

(** Token_Text.hh:43-44 *)
Definition new_token (text : str) (t line pos : Z) : Token :=
  mkTok t line pos text None None None None None None.
(** Token_Text.cc:23-24 *)
Definition default_token : Token := new_token [] BAD (-1) (-1).

Definition set_text (x : Token) (s : str) : Token :=
  mkTok (tok x) (tk_line x) (tk_pos x) s (mt_bl x) (mt_bc x) (mt_el x) (mt_ec x) (tk_pre x) (tk_post x).
Definition set_tok (x : Token) (t : Z) : Token :=
  mkTok t (tk_line x) (tk_pos x) (tk_text x) (mt_bl x) (mt_bc x) (mt_el x) (mt_ec x) (tk_pre x) (tk_post x).

Definition is_semi (x : Token) : bool := tok x =? TK_SEMICOLON.

(** Reading an uninitialised int is undefined. *)
Definition rd (o : option Z) : res Z := match o with Some z => Ok z | None => UB end.

(** Token_Text.cc:42-55 render.  setw(n) << ' ' writes n blanks. *)
Fixpoint render (l : list Token) : res str :=
  match l with
  | [] => Ok []
  | x :: r =>
      match r with
      | [] => Ok (tk_text x)
      | y :: _ =>
          a <- rd (tk_post x) ;;
          b <- rd (tk_pre y) ;;
          s <- render r ;;
          Ok (tk_text x ++ spaces (Z.to_nat (Z.max a b)) ++ s)
      end
  end.

(** Token_Text.cc:57-63 unkeyword; first_N is decremented until it is 0. *)
Fixpoint unkeyword (reg : registry) (l : list Token) (first_N : Z) : res (list Token) :=
  match l with
  | [] => Ok []
  | x :: r =>
      if first_N =? 0 then Ok l
      else
        k <- is_keyword reg (tok x) ;;
        r' <- unkeyword reg r (first_N - 1) ;;
        Ok ((if k then set_tok x TK_NAME else x) :: r')
  end.

(** The cache: text_ and lower_ (Token_Text.hh:51-57, .cc:26-34).  The byte is
    passed as unsigned char, so std::tolower is defined for all of them (C
    locale: only A-Z change). *)
Record Cached := mkCached { c_text : str; c_lower : str }.
Definition cached_new (s : str) : Cached := mkCached s [].
Definition lower_read (c : Cached) : Cached * str :=
  if is_empty (c_lower c) then
    let l := map lower_b (c_text c) in (mkCached (c_text c) l, l)
  else (c, c_lower c).
(** mod_text() clears the cache and hands out a reference to text_. *)
Definition mod_text (c : Cached) : Cached := mkCached (c_text c) [].
(** A write through that reference. *)
Definition write_ref (c : Cached) (s : str) : Cached := mkCached s (c_lower c).
