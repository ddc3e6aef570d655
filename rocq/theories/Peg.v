(** Model of the statement parser combinators (src/flpr/Stmt_Parsers.hh), of
    the parse trees they build (src/flpr/Stmt_Tree.hh, .cc) and of the
    hand-written parsers of src/flpr/parse_stmt.cc.

    Combinator objects are syntax ([pexp]) and [run] is their operator().  A
    parser function Stmt_Tree f(TT_Stream &) is named by a [rule]; its body is
    an [rbody]. *)
From Verif Require Import Base Tags SyntaxTags Token TTStream StmtRules.

(** Outcome of a parser call.  [Bad]: undefined behaviour or a failed assert;
    [Fuel]: the bound on the recursion depth of the model is used up (no such
    bound exists in the code; C25 shows that it is never the answer when
    chosen large enough). *)
Inductive out (A : Type) : Type := Done (a : A) | Bad | Fuel.
Arguments Done {A} _.
Arguments Bad {A}.
Arguments Fuel {A}.
Definition obind {A B} (x : out A) (f : A -> out B) : out B :=
  match x with Done a => f a | Bad => Bad | Fuel => Fuel end.
Definition lift {A} (x : res A) : out A := match x with Ok a => Done a | Throw => Bad | UB => Bad end.
Notation "x <~ e ;; k" := (obind e (fun x => k))
  (at level 100, e at next level, right associativity) : res_scope.
Notation "' p <~ e ;; k" := (obind e (fun p => k))
  (at level 100, p pattern, e at next level, right associativity) : res_scope.

(** Stmt_Tree.hh:25-41: a node is its syntag, its token range and its branches.
    [None] is a default constructed or cleared range (SL_Range::bad_), [Some
    (b, e)] the range [b, e) of fragment positions.  A Stmt_Tree object is an
    [option stree]: [None] has no root. *)
Inductive stree : Type := ST (tag : Z) (rng : option (nat * nat)) (kids : list stree).
Definition t_tag (t : stree) : Z := match t with ST g _ _ => g end.
Definition t_rng (t : stree) : option (nat * nat) := match t with ST _ r _ => r end.
Definition t_kids (t : stree) : list stree := match t with ST _ _ k => k end.

(** Safe_List.hh: SL_Range::empty *)
Definition rng_empty (r : option (nat * nat)) : bool :=
  match r with None => true | Some (b, e) => (b =? e)%nat end.
(** Safe_List.hh: SL_Range::push_back *)
Definition rng_push (r adj : option (nat * nat)) : res (option (nat * nat)) :=
  if rng_empty adj then Ok r
  else if rng_empty r then Ok adj
  else match r, adj with
       | Some (b, e), Some (b', e') =>
           if (e' =? e)%nat then Ok r
           else _ <- assert_ (e =? b')%nat ;; Ok (Some (b, e'))
       | _, _ => UB
       end.
Fixpoint rng_push_all (r : option (nat * nat)) (l : list stree) : res (option (nat * nat)) :=
  match l with
  | [] => Ok r
  | t :: l' => r' <- rng_push r (t_rng t) ;; rng_push_all r' l'
  end.
(** Stmt_Tree.cc:26-39 cover_branches *)
Fixpoint first_nonempty (l : list stree) : list stree :=
  match l with
  | [] => []
  | t :: l' => if rng_empty (t_rng t) then first_nonempty l' else l
  end.
Definition cover (t : stree) : res stree :=
  match t with
  | ST g r kids =>
      match first_nonempty kids with
      | [] => Ok t
      | b1 :: l => r' <- rng_push_all (t_rng b1) l ;; Ok (ST g r' kids)
      end
  end.
(** Stmt_Tree.cc:41-52 hoist_back; the branches of the receiving tree *)
Definition hoist (kids : list stree) (donor : option stree) : list stree :=
  match donor with
  | None => kids
  | Some (ST g r k) => if (g =? HOIST)%Z then kids ++ k else kids ++ [ST g r k]
  end.

(** Stmt_Parsers.hh: the combinators *)
Inductive pexp : Type :=
| PAlts (tag : Z) (ps : list pexp)   (* :37-67  Alternatives_Parser *)
| PLetter                            (* :84-93  Letter_Parser *)
| PLiteral (s : str)                 (* :99-113 Literal_Parser *)
| PName                              (* :119-133 Name_Parser *)
| PNeg (p : pexp)                    (* :138-150 Negated_Parser *)
| POpt (p : pexp)                    (* :158-170 Optional_Parser *)
| PPeek (t : Z)                      (* :178-189 Peek_Parser *)
| PRule (r : rule)                   (* :204-219 Rule_Parser *)
| PSeq (tag : Z) (ps : list pexp)    (* :229-261 Sequence_Parser *)
| PStar (p : pexp)                   (* :279-302 Star_Parser *)
| PTag (tag : Z) (p : pexp)          (* :315-334 Tag_Parser *)
| PTok (t : Z).                      (* :343-360 Token_Parser *)

(** :199-201 eol, :77-81 h_alts, :273-276 h_seq, :371-397 list, h_list,
    :399-421 parens, h_parens, brackets, h_brackets *)
Definition p_eol : pexp := PPeek BAD.
Definition h_alts (ps : list pexp) : pexp := PAlts HOIST ps.
Definition h_seq (ps : list pexp) : pexp := PSeq HOIST ps.
Definition p_list (tag : Z) (p : pexp) : pexp :=
  PSeq tag [p; PStar (PSeq HOIST [PTok TK_COMMA; p])].
Definition h_list (p : pexp) : pexp := p_list HOIST p.
Definition p_parens (tag : Z) (ps : list pexp) : pexp := PSeq tag (PTok TK_PARENL :: ps ++ [PTok TK_PARENR]).
Definition h_parens (ps : list pexp) : pexp := p_parens HOIST ps.
Definition p_brackets (tag : Z) (ps : list pexp) : pexp :=
  PSeq tag (PTok TK_BRACKETL :: ps ++ [PTok TK_BRACKETR]).
Definition h_brackets (ps : list pexp) : pexp := p_brackets HOIST ps.

(** The bodies of the parser functions of parse_stmt.cc:
    [RExp p]: return p(ts);
    [RExt action tag p]: p, and if it does not match the registered extensions
    (action_stmt and other_specification_stmt);
    [RBreak tag no]: expr, i.e. nothing if the next token is one of [no], else
    consume_until_break(ts, tag);
    [RParens]: consume_parens; [RListName]: list_name;
    [RDesignator p]: procedure_designator. *)
Inductive rbody : Type :=
| RExp (p : pexp)
| RExt (action : bool) (tag : Z) (p : pexp)
| RBreak (tag : Z) (no : list Z)
| RParens
| RListName
| RDesignator (p : pexp).

(** What a parser returns: SP_Result (tree, match) and the moved stream; what a
    parser function returns: a Stmt_Tree and the moved stream. *)
Definition presult : Type := (bool * option stree * stream)%type.
Definition fresult : Type := (option stree * stream)%type.
Definition ext := stream -> out fresult.

(** ts.digest(1) made a leaf *)
Definition leaf (tag : Z) (s : stream) : out (stree * stream) :=
  '(s', r) <~ lift (digest s 1) ;; Done (ST tag (Some r) [], s').
Definition peek_o (s : stream) : out Z := lift (peek s).
Definition covered (t : stree) : out stree := lift (cover t).

(** ** parse_stmt.cc: hand-written parsers *)

(** parse_stmt.cc:56-102 consume_until_break.  [lit] is the call of
    real_literal_constant; grafting an empty tree dereferences a null root.
    [kids] are the branches of root so far, [depth] is nesting_depth.  Every
    iteration consumes, so [k] bounds their number. *)
Section Break.
Variable lit : stream -> out fresult.
Definition is_open (t : Z) : bool := ((t =? TK_PARENL) || (t =? TK_BRACKETL))%Z.
Definition is_close (t : Z) : bool := ((t =? TK_PARENR) || (t =? TK_BRACKETR))%Z.
(** what the chain of conditions decides: leave the loop, FAIL, or consume *)
Inductive decision := DBreak | DFail | DEat (depth : Z).
Definition decide (depth t : Z) : decision :=
  if (t =? TK_PARENL)%Z then DEat (depth + 1)
  else if (t =? TK_BRACKETL)%Z then DEat (depth + 1)
  else if (t =? TK_PARENR)%Z then if (depth - 1 =? 0)%Z then DBreak else DEat (depth - 1)
  else if (t =? TK_BRACKETR)%Z then if (depth - 1 =? 0)%Z then DBreak else DEat (depth - 1)
  else if (depth =? 1)%Z then
    if (t =? BAD)%Z then DBreak
    else if (t =? TK_COMMA)%Z then DBreak
    else if (t =? TK_COLON)%Z then DBreak
    else if (t =? TK_EQUAL)%Z then DFail
    else DEat depth
  else DEat depth.
Fixpoint break_loop (k : nat) (kids : list stree) (depth : Z) (s : stream)
    : out (option (list stree) * stream) :=
  match k with
  | O => Fuel
  | S k' =>
      if (depth <=? 0)%Z then Done (Some kids, s) else
      t <~ peek_o s ;;
      match decide depth t with
      | DBreak => Done (Some kids, s)
      | DFail => Done (None, s)
      | DEat d =>
          if (t =? SG_SIGNIFICAND)%Z then
            '(o, s') <~ lit s ;;
            match o with
            | Some x => break_loop k' (kids ++ [x]) d s'
            | None => Bad
            end
          else
            '(x, s') <~ leaf t s ;;
            break_loop k' (kids ++ [x]) d s'
      end
  end.
Definition until_break (k : nat) (tag : Z) (s : stream) : out fresult :=
  '(o, s') <~ break_loop k [] 1 s ;;
  match o with
  | None => Done (None, rewind s' (mark s))
  | Some [] => Done (None, s')
  | Some kids => t <~ covered (ST tag None kids) ;; Done (Some t, s')
  end.
End Break.

(** parse_stmt.cc:105-126 consume_parens *)
Fixpoint parens_loop (k : nat) (kids : list stree) (depth : Z) (s : stream) : out (list stree * stream) :=
  match k with
  | O => Fuel
  | S k' =>
      if (depth <=? 0)%Z then Done (kids, s) else
      t <~ peek_o s ;;
      d <~ (if (t =? TK_PARENL)%Z then Done (depth + 1)%Z
            else if (t =? TK_PARENR)%Z then Done (depth - 1)%Z
            else if (t =? BAD)%Z then Bad else Done depth) ;;
      '(x, s') <~ leaf t s ;;
      parens_loop k' (kids ++ [x]) d s'
  end.
Definition consume_parens (k : nat) (s : stream) : out fresult :=
  t <~ peek_o s ;;
  if negb (t =? TK_PARENL)%Z then Done (None, s) else
  '(x, s1) <~ leaf t s ;;
  '(kids, s2) <~ parens_loop k [x] 1 s1 ;;
  r <~ covered (ST HOIST None kids) ;;
  Done (Some r, s2).

(** parse_stmt.cc:133-142 list_name *)
Definition name_ends : list Z := [BAD; TK_ARROW; TK_COLON; TK_COMMA; TK_PARENR].
Definition list_name (s : stream) : out fresult :=
  t <~ lift (peek_off s 1) ;;
  b <~ lift (is_name_tag t) ;;
  if b then
    n <~ lift (peek_off s 2) ;;
    if existsb (Z.eqb n) name_ends then
      '(x, s') <~ leaf TK_NAME s ;; Done (Some x, s')
    else Done (None, s)
  else Done (None, s).

(** Stmt_Parser_Exts.cc:32-64 parse_action_stmt, parse_other_specification_stmt *)
Fixpoint ext_loop (tag : Z) (m : nat) (es : list ext) (s : stream) : out presult :=
  match es with
  | [] => Done (false, None, s)
  | e :: es' =>
      '(o, s') <~ e s ;;
      match o with
      | Some t =>
          r <~ covered (ST tag (t_rng t) (hoist [] (Some t))) ;;
          Done (true, Some r, s')
      | None => ext_loop tag m es' (rewind s' m)
      end
  end.

(** ** The combinators *)
Section Run.
Variable body : rule -> rbody.
Variable exts : bool -> list ext.  (* action_exts_, other_specification_exts_ *)

Section Loops.
Variable R : pexp -> stream -> out presult.
(** and_fold over attach_if (:237-247) *)
Fixpoint seq_loop (ps : list pexp) (kids : list stree) (s : stream) : out (bool * list stree * stream) :=
  match ps with
  | [] => Done (true, kids, s)
  | p :: ps' =>
      '(m, t, s') <~ R p s ;;
      let kids' := hoist kids t in
      if m then seq_loop ps' kids' s' else Done (false, kids', s')
  end.
(** or_fold over assign_if (:44-54) *)
Fixpoint alts_loop (ps : list pexp) (s : stream) : out presult :=
  match ps with
  | [] => Done (false, None, s)
  | p :: ps' =>
      '(m, t, s') <~ R p s ;;
      if m then Done (true, t, s') else alts_loop ps' s'
  end.
(** while (attach_if(parser_)) (:287-296) *)
Fixpoint star_loop (k : nat) (p : pexp) (kids : list stree) (s : stream) : out (list stree * stream) :=
  match k with
  | O => Fuel
  | S k' =>
      '(m, t, s') <~ R p s ;;
      let kids' := hoist kids t in
      if m then star_loop k' p kids' s' else Done (kids', s')
  end.
(** parse_stmt.cc:2938-2977 procedure_designator.  capture_to_range makes an
    SL_Range, which measures std::distance(beg, end): undefined if the end is
    before the begin. *)
Definition designator (p : pexp) (s : stream) : out fresult :=
  let b := pos s in
  let s := consume_until_eol s in
  '(s, ok) <~ lift (move_to_open_paren s) ;;
  s <~ (if ok then lift (put_back s) else Done s) ;;
  let e := pos s in
  if (e <? b)%nat then Bad else
  '(m, t, _) <~ R p (stream_of (frags s) b e) ;;
  Done (t, s).

Definition call_rule (k : nat) (r : rule) (s : stream) : out fresult :=
  match body r with
  | RExp p => '(m, t, s') <~ R p s ;; Done (t, s')
  | RExt action tag p =>
      '(m, t, s1) <~ R p s ;;
      if m : bool then Done (t, s1) else
      '(m, t, s2) <~ ext_loop tag (mark s1) (exts action) s1 ;; Done (t, s2)
  | RBreak tag no =>
      t <~ peek_o s ;;
      if existsb (Z.eqb t) no then Done (None, s)
      else until_break (fun s => '(m, t, s') <~ R (PRule r_real_literal_constant) s ;; Done (t, s')) k tag s
  | RParens => consume_parens k s
  | RListName => list_name s
  | RDesignator p => designator p s
  end.
End Loops.

Fixpoint run (n : nat) (p : pexp) (s : stream) {struct n} : out presult :=
  match n with
  | O => Fuel
  | S n' =>
      match p with
      | PAlts tag ps =>
          '(m, t, s') <~ alts_loop (run n') ps s ;;
          if m : bool then r <~ covered (ST tag None (hoist [] t)) ;; Done (true, Some r, s')
          else Done (false, None, s')
      | PLetter =>
          t <~ peek_o s ;;
          b <~ lift (is_name_tag t) ;;
          if negb b then Done (false, None, s) else
          tt <~ lift (peek_tt s 1) ;;
          if negb (length (tk_text tt) =? 1)%nat then Done (false, None, s) else
          '(x, s') <~ leaf TK_NAME s ;; Done (true, Some x, s')
      | PLiteral txt =>
          t <~ peek_o s ;;
          b <~ lift (is_name_tag t) ;;
          if negb b then Done (false, None, s) else
          tt <~ lift (peek_tt s 1) ;;
          if negb (if list_eq_dec ascii_dec (map lower_b (tk_text tt)) (map lower_b txt) then true else false)
          then Done (false, None, s) else
          '(x, s') <~ leaf TK_NAME s ;; Done (true, Some x, s')
      | PName =>
          t <~ peek_o s ;;
          b <~ lift (is_name_tag t) ;;
          if negb b then Done (false, None, s) else
          '(x, s') <~ leaf TK_NAME s ;; Done (true, Some x, s')
      | PNeg q => '(m, t, s') <~ run n' q s ;; Done (negb m, t, s')
      | POpt q => '(m, t, s') <~ run n' q s ;; Done (true, t, s')
      | PPeek x => t <~ peek_o s ;; Done ((x =? t)%Z, None, s)
      | PRule r =>
          '(t, s') <~ call_rule (run n') n' r s ;;
          match t with
          | Some _ => Done (true, t, s')
          | None => Done (false, None, rewind s' (mark s))
          end
      | PSeq tag ps =>
          '(m, kids, s') <~ seq_loop (run n') ps [] s ;;
          if m : bool then r <~ covered (ST tag None kids) ;; Done (true, Some r, s')
          else Done (false, None, rewind s' (mark s))
      | PStar q =>
          '(kids, s') <~ star_loop (run n') n' q [] s ;;
          r <~ covered (ST HOIST None kids) ;; Done (true, Some r, s')
      | PTag tag q =>
          '(m, t, s') <~ run n' q s ;;
          match t with
          | Some t0 => r <~ covered (ST tag (t_rng t0) (hoist [] t)) ;; Done (m, Some r, s')
          | None => Done (m, None, s')
          end
      | PTok x =>
          t <~ peek_o s ;;
          if negb (x =? t)%Z then Done (false, None, s) else
          '(y, s') <~ leaf x s ;; Done (true, Some y, s')
      end
  end.

(** A parser function called by its name: Stmt_Tree f(ts). *)
Definition parse_rule (n : nat) (r : rule) (s : stream) : out fresult := call_rule (run n) n r s.
End Run.
