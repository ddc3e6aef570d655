(** Model of TT_Stream (src/flpr/TT_Stream.hh, .cc).

    The stream walks over the tokens of one statement, a range of the fragments
    list of its logical line.  Positions are indices into that whole list; the
    index [length frags] is the sentry of the Safe_List, which can be
    dereferenced (a default Token_Text), the one behind it is list_.end(). *)
From Verif Require Import Base Tags SyntaxTags Token.
Local Open Scope Z_scope.

Record stream := mkS {
  frags : list Token;   (* the fragments of the logical line *)
  s_beg : nat;          (* ll_tt_range_.begin() *)
  s_end : nat;          (* ll_tt_range_.end() *)
  pos : nat             (* next_tok_ *)
}.
Definition set_pos (s : stream) (p : nat) : stream := mkS (frags s) (s_beg s) (s_end s) p.

(** TT_Stream.hh:56-59 *)
Definition stream_of (fr : list Token) (b e : nat) : stream := mkS fr b e b.

(** *it *)
Definition deref (s : stream) (p : nat) : res Token :=
  match nth_error (frags s) p with
  | Some t => Ok t
  | None => if (p =? length (frags s))%nat then Ok default_token else UB
  end.
(** std::next(it, n), std::advance(it, n) *)
Definition next_n (s : stream) (p : nat) (n : Z) : res nat :=
  let q := Z.of_nat p + n in
  if (0 <=? q) && (q <=? Z.of_nat (S (length (frags s)))) then Ok (Z.to_nat q) else UB.

(** :168-174 curr_tt, :177 curr *)
Definition curr_tt (s : stream) : res Token :=
  if negb (pos s =? s_beg s)%nat then p <- next_n s (pos s) (-1) ;; deref s p else Ok default_token.
Definition curr (s : stream) : res Z := t <- curr_tt s ;; Ok (tok t).
(** :180-188 peek_tt, :191-194 peek(), :197-199 peek(offset), :202-206 peek_back *)
Definition peek_tt (s : stream) (offset : Z) : res Token :=
  p <- next_n s (pos s) (offset - 1) ;;
  if negb (p =? s_end s)%nat then deref s p else Ok default_token.
Definition peek (s : stream) : res Z :=
  if (pos s =? s_end s)%nat then Ok BAD else t <- deref s (pos s) ;; Ok (tok t).
Definition peek_off (s : stream) (offset : Z) : res Z := t <- peek_tt s offset ;; Ok (tok t).
Definition peek_back (s : stream) : res Z :=
  if (s_beg s =? s_end s)%nat then Ok BAD
  else p <- next_n s (s_beg s) (Z.of_nat (s_end s - s_beg s) - 1) ;; t <- deref s p ;; Ok (tok t).
(** :208-211 num_consumed: std::distance(begin, next_tok_); undefined if next_tok_
    is not reachable from begin *)
Definition num_consumed (s : stream) : res Z :=
  if (s_beg s <=? pos s)%nat then Ok (Z.of_nat (pos s - s_beg s)) else UB.
(** :214-223 is_eol; consumes a semicolon *)
Definition is_eol (s : stream) : res (stream * bool) :=
  if negb (pos s =? s_end s)%nat then
    t <- deref s (pos s) ;;
    if TK_SEMICOLON =? tok t then p <- next_n s (pos s) 1 ;; Ok (set_pos s p, true)
    else Ok (s, false)
  else Ok (s, true).
(** :225-227 consume, :229 consume_until_eol, :231-235 digest (returns the range
    [beg, next_tok_)), :238-241 put_back, :243-247 rewind, mark *)
Definition consume (s : stream) (n : Z) : res stream := p <- next_n s (pos s) n ;; Ok (set_pos s p).
Definition consume_until_eol (s : stream) : stream := set_pos s (s_end s).
Definition digest (s : stream) (n : Z) : res (stream * (nat * nat)) :=
  p <- next_n s (pos s) n ;; Ok (set_pos s p, (pos s, p)).
Definition put_back (s : stream) : res stream :=
  if negb (pos s =? s_beg s)%nat then p <- next_n s (pos s) (-1) ;; Ok (set_pos s p) else Ok s.
Definition rewind0 (s : stream) : stream := set_pos s (s_beg s).
Definition rewind (s : stream) (m : nat) : stream := set_pos s m.
Definition mark (s : stream) : nat := pos s.
(** the tokens of a range *)
Definition range_toks (s : stream) (r : nat * nat) : list Token :=
  firstn (snd r - fst r) (skipn (fst r) (frags s)).
(** :151-155 capture_text *)
Definition capture_text (s : stream) (b e : nat) (output : str) : str :=
  output ++ concat (map tk_text (range_toks s (b, e))).

(** :249-255 expect_tok; on a mismatch the program exits ([Throw]) after the
    token was consumed *)
Definition expect_tok (s : stream) (t : Z) : res stream :=
  n <- peek s ;; s' <- consume s 1 ;; if n =? t then Ok s' else Throw.

Section Loops.
(** TT_Stream.cc:113-123 (close = PARENR, opn = PARENL), :166-175 (brackets).
    [stay]: do not consume the token that closes (:139-140).  Every iteration
    but the last one consumes, so [fuel] bounds it. *)
Variables opn close : Z.
Variable stay : bool.
Fixpoint fwd (fuel : nat) (s : stream) (depth : Z) : res (stream * Z) :=
  if depth <=? 0 then Ok (s, depth) else
  match fuel with
  | O => UB
  | S f =>
      t <- peek s ;;
      if close =? t then
        let d := depth - 1 in
        if stay && (d <=? 0) then fwd f s d else s' <- consume s 1 ;; fwd f s' d
      else if opn =? t then s' <- consume s 1 ;; fwd f s' (depth + 1)
      else if BAD =? t then Ok (s, depth)
      else s' <- consume s 1 ;; fwd f s' depth
  end.
End Loops.
Definition fuel_of (s : stream) : nat := S (S (S (length (frags s)))).

(** TT_Stream.cc:110-124 move_to_close_paren *)
Definition move_to_close_paren (s : stream) : res (stream * bool) :=
  s <- expect_tok s TK_PARENL ;;
  s <- consume s 1 ;;
  '(s, d) <- fwd TK_PARENL TK_PARENR false (fuel_of s) s 1 ;;
  Ok (s, d =? 0).
(** TT_Stream.cc:129-144 move_before_close_paren *)
Definition move_before_close_paren (s : stream) : res (stream * bool) :=
  s <- expect_tok s TK_PARENL ;;
  s <- consume s 1 ;;
  '(s, d) <- fwd TK_PARENL TK_PARENR true (fuel_of s) s 1 ;;
  Ok (s, d =? 0).
(** TT_Stream.cc:164-178 ignore_bracket_expr *)
Definition ignore_bracket_expr (s : stream) : res (stream * bool) :=
  s <- expect_tok s TK_BRACKETL ;;
  '(s, d) <- fwd TK_BRACKETL TK_BRACKETR false (fuel_of s) s 1 ;;
  Ok (s, d =? -1).

(** TT_Stream.cc:146-161 move_to_open_paren *)
Fixpoint bwd (fuel : nat) (s : stream) (depth : Z) : res (stream * Z) :=
  if depth <=? 0 then Ok (s, depth) else
  match fuel with
  | O => UB
  | S f =>
      s <- put_back s ;;
      t <- curr s ;;
      if TK_PARENL =? t then bwd f s (depth - 1)
      else if TK_PARENR =? t then bwd f s (depth + 1)
      else if BAD =? t then Ok (s, depth)
      else bwd f s depth
  end.
Definition move_to_open_paren (s : stream) : res (stream * bool) :=
  t <- curr s ;;
  if negb (t =? TK_PARENR) then Ok (s, false) else
  '(s, d) <- bwd (fuel_of s) s 1 ;;
  Ok (s, d =? 0).

Inductive sop := SConsume (n : nat) | SDigest (n : nat) | SPutBack | SRewind0 | SRewind (m : nat)
  | SUntilEol | SIsEol.
Definition sstep (s : stream) (o : sop) : res stream :=
  match o with
  | SConsume n => consume s (Z.of_nat n)
  | SDigest n => '(s', _) <- digest s (Z.of_nat n) ;; Ok s'
  | SPutBack => put_back s
  | SRewind0 => Ok (rewind0 s)
  | SRewind m => Ok (rewind s m)
  | SUntilEol => Ok (consume_until_eol s)
  | SIsEol => '(s', _) <- is_eol s ;; Ok s'
  end.
Fixpoint srun (s : stream) (h : list sop) : res stream :=
  match h with [] => Ok s | o :: r => s' <- sstep s o ;; srun s' r end.
