(** What statement parsers promise, independently of how they are run. *)
From Verif Require Import Base Tags SyntaxTags Token TTStream TTStream_spec StmtRules Peg.
Local Open Scope nat_scope.

(** Two states of the same stream: they differ in the position only. *)
Definition same (s s' : stream) : Prop :=
  frags s' = frags s /\ s_beg s' = s_beg s /\ s_end s' = s_end s.

(** ** Parser expressions with a sensible use of neg

    neg(p) does not put back what p consumed, so it may only stand directly in
    a seq, which does. *)
Fixpoint clean (p : pexp) : bool :=
  match p with
  | PAlts _ ps => forallb clean ps
  | PSeq _ ps => forallb (fun q => match q with PNeg q' => clean q' | _ => clean q end) ps
  | PNeg _ => false
  | POpt q | PStar q | PTag _ q => clean q
  | PLetter | PLiteral _ | PName | PPeek _ | PRule _ | PTok _ => true
  end.
Definition body_exp (b : rbody) : option pexp :=
  match b with RExp p | RExt _ _ p | RDesignator p => Some p | RBreak _ _ | RParens | RListName => None end.
Definition clean_body (b : rbody) : bool := match body_exp b with Some p => clean p | None => true end.

(** Extension parsers may move the stream, but work on the stream they got. *)
Definition ext_same (e : ext) : Prop := forall s o s', e s = Done (o, s') -> same s s'.

(** ** Parse trees

    [covers s t b e]: the tree t is made of the tokens [b, e) of the stream s.
    A leaf is one token and bears its tag (or TK_NAME, for a keyword used as a
    name); the branches of an inner node cover consecutive pieces; the range
    stored in an inner node is exactly [b, e), or unset if there is no token. *)
Definition leaf_tag (s : stream) (g : Z) (b : nat) : Prop :=
  exists x, peek (set_pos s b) = Ok x /\ (g = x \/ (g = TK_NAME /\ is_name_tag x = Ok true)).
Inductive covers (s : stream) : stree -> nat -> nat -> Prop :=
| cov_leaf g b : leaf_tag s g b -> covers s (ST g (Some (b, S b)) []) b (S b)
| cov_node g r kids b e :
    covers_list s kids b e -> r = (if b <? e then Some (b, e) else None) ->
    covers s (ST g r kids) b e
with covers_list (s : stream) : list stree -> nat -> nat -> Prop :=
| cov_nil b : covers_list s [] b b
| cov_cons t l b c e : covers s t b c -> covers_list s l c e -> covers_list s (t :: l) b e.

(** The tokens at the leaves, left to right. *)
Fixpoint leaf_positions (t : stree) : list nat :=
  match t with
  | ST _ r [] => match r with Some (b, e) => seq b (e - b) | None => [] end
  | ST _ _ kids => flat_map leaf_positions kids
  end.

(** A tree as a parser returns it: if its root is marked to be replaced by its
    branches, these cover everything. *)
Definition tree_ok (s : stream) (t : stree) (b e : nat) : Prop :=
  covers s t b e /\ (t_tag t = HOIST -> covers_list s (t_kids t) b e).

(** An extension returns trees that cover what it consumed. *)
Definition ext_covers (e : ext) : Prop :=
  forall s t s', e s = Done (Some t, s') -> tree_ok s t (pos s) (pos s').

(** An extension parser that behaves: it returns, and it stays on its stream. *)
Definition ext_ok (e : ext) : Prop := ext_same e /\ ext_covers e /\ forall s, e s <> Fuel.

(** tok(HOIST) would make a leaf that is thrown away. *)
Fixpoint plain (p : pexp) : bool :=
  match p with
  | PAlts _ ps | PSeq _ ps => forallb plain ps
  | PNeg q | POpt q | PStar q | PTag _ q => plain q
  | PTok t => negb (t =? HOIST)%Z
  | PLetter | PLiteral _ | PName | PPeek _ | PRule _ => true
  end.
(** All rules that p calls satisfy A. *)
Fixpoint calls (A : rule -> bool) (p : pexp) : bool :=
  match p with
  | PAlts _ ps | PSeq _ ps => forallb (calls A) ps
  | PNeg q | POpt q | PStar q | PTag _ q => calls A q
  | PRule r => A r
  | PTok _ | PLetter | PLiteral _ | PName | PPeek _ => true
  end.

(** ** Parsing expression grammars

    [peg prim body p s o]: the standard meaning of p at s; [o] is where the
    match ends or [None] for no match.  A rule whose body is an expression
    means its body; the others are given by [prim]. *)
Section Peg.
Variable body : rule -> rbody.
Variable prim : rule -> stream -> option stream -> Prop.
Definition next_is (s : stream) (P : Z -> Prop) : Prop := exists t, peek s = Ok t /\ P t.
Definition moved (s s' : stream) : Prop := consume s 1 = Ok s'.
(** a name whose text satisfies P *)
Definition name_with (s : stream) (P : str -> Prop) : Prop :=
  next_is s (fun t => is_name_tag t = Ok true) /\ exists x, peek_tt s 1 = Ok x /\ P (tk_text x).
Inductive peg : pexp -> stream -> option stream -> Prop :=
(* ordered choice *)
| peg_alt_take g p ps s s' : peg p s (Some s') -> peg (PAlts g (p :: ps)) s (Some s')
| peg_alt_skip g p ps s o : peg p s None -> peg (PAlts g ps) s o -> peg (PAlts g (p :: ps)) s o
| peg_alt_none g s : peg (PAlts g []) s None
(* sequence *)
| peg_seq_nil g s : peg (PSeq g []) s (Some s)
| peg_seq_go g p ps s s' o : peg p s (Some s') -> peg (PSeq g ps) s' o -> peg (PSeq g (p :: ps)) s o
| peg_seq_stop g p ps s : peg p s None -> peg (PSeq g (p :: ps)) s None
(* greedy repetition *)
| peg_star_go p s s' o : peg p s (Some s') -> peg (PStar p) s' o -> peg (PStar p) s o
| peg_star_stop p s : peg p s None -> peg (PStar p) s (Some s)
(* option, negative look-ahead, look-ahead *)
| peg_opt_take p s s' : peg p s (Some s') -> peg (POpt p) s (Some s')
| peg_opt_skip p s : peg p s None -> peg (POpt p) s (Some s)
| peg_neg_no p s s' : peg p s (Some s') -> peg (PNeg p) s None
| peg_neg_yes p s : peg p s None -> peg (PNeg p) s (Some s)
| peg_peek_yes x s : next_is s (fun t => t = x) -> peg (PPeek x) s (Some s)
| peg_peek_no x s : next_is s (fun t => t <> x) -> peg (PPeek x) s None
(* tokens *)
| peg_tok_yes x s s' : next_is s (fun t => t = x) -> moved s s' -> peg (PTok x) s (Some s')
| peg_tok_no x s : next_is s (fun t => t <> x) -> peg (PTok x) s None
| peg_name_yes s s' : next_is s (fun t => is_name_tag t = Ok true) -> moved s s' -> peg PName s (Some s')
| peg_name_no s : next_is s (fun t => is_name_tag t = Ok false) -> peg PName s None
| peg_letter_yes s s' : name_with s (fun w => length w = 1) -> moved s s' -> peg PLetter s (Some s')
| peg_letter_no1 s : next_is s (fun t => is_name_tag t = Ok false) -> peg PLetter s None
| peg_letter_no2 s : name_with s (fun w => length w <> 1) -> peg PLetter s None
| peg_literal_yes x s s' : name_with s (fun w => map lower_b w = map lower_b x) -> moved s s' ->
    peg (PLiteral x) s (Some s')
| peg_literal_no1 x s : next_is s (fun t => is_name_tag t = Ok false) -> peg (PLiteral x) s None
| peg_literal_no2 x s : name_with s (fun w => map lower_b w <> map lower_b x) -> peg (PLiteral x) s None
(* tags and rules *)
| peg_tag g p s o : peg p s o -> peg (PTag g p) s o
| peg_rule r p s o : body r = RExp p -> peg p s o -> peg (PRule r) s o
| peg_prim r s o : (forall p, body r <> RExp p) -> prim r s o -> peg (PRule r) s o.
End Peg.

(** An expression that always returns a tree when it matches; Rule_Parser takes
    a match without a tree for a failure. *)
Fixpoint solid (p : pexp) : bool :=
  match p with
  | PAlts _ _ | PSeq _ _ | PStar _ | PLetter | PLiteral _ | PName | PRule _ | PTok _ => true
  | PTag _ q => solid q
  | PNeg _ | POpt _ | PPeek _ => false
  end.
Definition solid_body (b : rbody) : bool := match body_exp b with Some p => solid p | None => true end.
Definition not_designator (b : rbody) : bool := match b with RDesignator _ => false | _ => true end.

(** ** No left recursion, no repetition of nothing

    [eats N p]: p cannot match without consuming a token, if the rules in N
    cannot.  [left N rank k p]: the rules that p may call before a token was
    consumed have a rank below k.  [stars N p]: every repeated expression
    eats. *)
Section Rank.
Variable N : rule -> bool.
Variable rank : rule -> nat.
Fixpoint eats (p : pexp) : bool :=
  match p with
  | PAlts _ ps => forallb eats ps
  | PSeq _ ps => existsb eats ps
  | PTag _ q => eats q
  | PRule r => N r
  | PTok _ | PLetter | PLiteral _ | PName => true
  | PNeg _ | POpt _ | PStar _ | PPeek _ => false
  end.
Definition eats_body (b : rbody) : bool :=
  match b with
  | RExp p => eats p
  | RBreak _ _ => N r_real_literal_constant
  | RParens | RListName => true
  | RExt _ _ _ | RDesignator _ => false
  end.
Fixpoint left (k : nat) (p : pexp) : bool :=
  match p with
  | PAlts _ ps => forallb (left k) ps
  | PSeq _ ps =>
      (fix go ps := match ps with
                    | [] => true
                    | q :: r => left k q && (if eats q then true else go r)
                    end) ps
  | PNeg q | POpt q | PStar q | PTag _ q => left k q
  | PRule r => rank r <? k
  | PTok _ | PLetter | PLiteral _ | PName | PPeek _ => true
  end.
Fixpoint stars (p : pexp) : bool :=
  match p with
  | PAlts _ ps | PSeq _ ps => forallb stars ps
  | PNeg q | POpt q | PTag _ q => stars q
  | PStar q => stars q && eats q
  | PRule _ | PTok _ | PLetter | PLiteral _ | PName | PPeek _ => true
  end.
Fixpoint height (p : pexp) : nat :=
  match p with
  | PAlts _ ps | PSeq _ ps => S (fold_right (fun q a => Nat.max (height q) a) 0 ps)
  | PNeg q | POpt q | PTag _ q | PStar q => S (height q)
  | PRule _ | PTok _ | PLetter | PLiteral _ | PName | PPeek _ => 1
  end.
End Rank.

(** ** Streams on which no parser runs away

    The tokens of the statement that remain; the nesting level of parentheses
    and brackets together.  [closed l]: from no place in l on are there more
    openings than closings, i.e. what opens in l is closed in l. *)
Definition rest (s : stream) : list Token := firstn (s_end s - pos s) (skipn (pos s) (frags s)).
Definition level2 (l : list Token) : Z :=
  (level TK_PARENL TK_PARENR l + level TK_BRACKETL TK_BRACKETR l)%Z.
Definition closed (l : list Token) : Prop :=
  forall u v, l = u ++ v -> (level TK_PARENL TK_PARENR v <= 0 /\ level2 v <= 0)%Z.
(** every token has a tag of the scanner's table, and not the end mark *)
Definition tagged (l : list Token) : Prop :=
  Forall (fun t => tok t <> BAD /\ exists b, is_name_tag (tok t) = Ok b) l.
Definition on_stmt (s : stream) : Prop := pos s <= s_end s /\ s_end s <= length (frags s).
Definition sound (s : stream) : Prop := on_stmt s /\ closed (rest s) /\ tagged (rest s).
(** the last token of the whole statement is a ")" *)
Definition ends_in_paren (s : stream) : Prop :=
  s_beg s < s_end s /\ exists t, nth_error (frags s) (s_end s - 1) = Some t /\ tok t = TK_PARENR.
(** Parentheses and brackets are properly nested. *)
Inductive nested : list Token -> Prop :=
| nest_nil : nested []
| nest_tok t l : is_open (tok t) = false -> is_close (tok t) = false -> nested l -> nested (t :: l)
| nest_paren a l b r : tok a = TK_PARENL -> tok b = TK_PARENR -> nested l -> nested r ->
    nested (a :: l ++ b :: r)
| nest_bracket a l b r : tok a = TK_BRACKETL -> tok b = TK_BRACKETR -> nested l -> nested r ->
    nested (a :: l ++ b :: r).
(** A stream somewhere in a statement with properly nested parentheses. *)
Definition stmt_toks (s : stream) : list Token := firstn (s_end s - s_beg s) (skipn (s_beg s) (frags s)).
Definition proper_stmt (s : stream) : Prop :=
  s_beg s <= pos s /\ on_stmt s /\ tagged (stmt_toks s) /\ nested (stmt_toks s).

(** An extension that does not run away either. *)
Definition ext_safe (e : ext) : Prop :=
  forall s, sound s -> match e s with
                       | Done (_, s') => pos s' <= s_end s
                       | Bad => False
                       | Fuel => True
                       end.
(** tok(BAD) would consume at the end. *)
Fixpoint firm (p : pexp) : bool :=
  match p with
  | PAlts _ ps | PSeq _ ps => forallb firm ps
  | PNeg q | POpt q | PStar q | PTag _ q => firm q
  | PTok t => negb (t =? BAD)%Z
  | PLetter | PLiteral _ | PName | PPeek _ | PRule _ => true
  end.

(** ** Parsers of whole statements

    [ends E p]: p matches only at the end of the statement, if the rules in E
    do. *)
Fixpoint ends (E : rule -> bool) (p : pexp) : bool :=
  match p with
  | PAlts _ ps => forallb (ends E) ps
  | PSeq _ ps =>
      (fix go ps := match ps with [] => false | [q] => ends E q | _ :: r => go r end) ps
  | PTag _ q => ends E q
  | PRule r => E r
  | PPeek t => (t =? BAD)%Z
  | PNeg _ | POpt _ | PStar _ | PTok _ | PLetter | PLiteral _ | PName => false
  end.
Definition ends_body (E : rule -> bool) (b : rbody) : bool :=
  match b with
  | RExp p | RExt _ _ p => ends E p
  | RBreak _ _ | RParens | RListName | RDesignator _ => false
  end.
Definition at_end (s : stream) : Prop := peek s = Ok BAD.
Definition ext_ends (e : ext) : Prop := forall s t s', e s = Done (Some t, s') -> at_end s'.

(** ** Where an expression ends

    A token that can end an expression when no parenthesis is open.
    [expr_length l k]: the expression at the beginning of l has k tokens, i.e.
    the k-th token is the first one of these outside parentheses, or there is
    none and k is all of l. *)
Definition expr_stop (t : Z) : bool := is_close t || existsb (Z.eqb t) [TK_COMMA; TK_COLON; TK_EQUAL].
Definition stops_at (l : list Token) (j : nat) : Prop :=
  level2 (firstn j l) = 0%Z /\ exists t, nth_error l j = Some t /\ expr_stop (tok t) = true.
Definition expr_length (l : list Token) (k : nat) : Prop :=
  k <= length l /\ (forall j, j < k -> ~ stops_at l j) /\ (k = length l \/ stops_at l k).
