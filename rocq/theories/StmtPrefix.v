(** An analysis of the statement parsers: which outcomes they can have when only
    the kinds of the first few tokens are known.  Used in the proof of C62. *)
From Verif Require Import Base Tags SyntaxTags Token TTStream StmtRules Peg StmtGrammar.
Local Open Scope nat_scope.

(** the token kinds that the parsers ask for *)
Fixpoint asked (p : pexp) : list Z :=
  match p with
  | PAlts _ ps | PSeq _ ps => flat_map asked ps
  | PNeg q | POpt q | PStar q | PTag _ q => asked q
  | PPeek t | PTok t => [t]
  | _ => []
  end.
Definition asked_body (b : rbody) : list Z :=
  match b with
  | RExp p | RExt _ _ p | RDesignator p => asked p
  | RBreak _ no => [TK_PARENL; TK_BRACKETL; TK_PARENR; TK_BRACKETR; BAD; TK_COMMA; TK_COLON; TK_EQUAL; SG_SIGNIFICAND] ++ no
  | RParens => [TK_PARENL]
  | RListName => name_ends
  end.
Definition kinds : list Z := Eval vm_compute in nodup Z.eq_dec (TK_NAME :: flat_map (fun r => asked_body (grammar r)) all_rules).

(** what is known of a token: its kind; or that it is none of [kinds], and whether
    it is a name; or that the statement ends there *)
Inductive atok := Tag (t : Z) | Other (name : bool) | End.
Definition kind_of (a : atok) : option Z := match a with Tag t => Some t | Other _ => None | End => Some BAD end.
Definition is_kind (a : atok) (x : Z) : option bool :=
  match a with
  | End => Some (x =? BAD)%Z
  | Tag t => Some (x =? t)%Z
  | Other _ => if existsb (Z.eqb x) kinds then Some false else None
  end.
Definition is_name (a : atok) : option bool :=
  match a with
  | Tag t => match is_name_tag t with Ok b => Some b | _ => None end
  | Other b => Some b
  | End => match is_name_tag BAD with Ok b => Some b | _ => None end
  end.

(** an outcome: matched; with a tree; where the stream is then, if known *)
Definition aout : Type := (bool * bool * option nat)%type.
Definition opt_eqb (a b : option nat) : bool :=
  match a, b with Some i, Some j => i =? j | None, None => true | _, _ => false end.
Definition aout_eqb (x y : aout) : bool :=
  let '(m, t, q) := x in let '(m', t', q') := y in Bool.eqb m m' && Bool.eqb t t' && opt_eqb q q'.
Fixpoint nub {A} (eqb : A -> A -> bool) (l : list A) : list A :=
  match l with
  | [] => []
  | x :: l' => let r := nub eqb l' in if existsb (eqb x) r then r else x :: r
  end.
Definition nubo : list aout -> list aout := nub aout_eqb.
Definition with_tree (o : aout) : bool := let '(_, t, _) := o in t.
Definition any : list aout := [(true, true, None); (true, false, None); (false, true, None); (false, false, None)].

(** where the statement ends *)
Fixpoint the_end (pre : list atok) : option nat :=
  match pre with
  | [] => None
  | End :: _ => Some 0
  | _ :: pre' => option_map S (the_end pre')
  end.
(** The tokens up to where the stream can be left by procedure_designator: nothing,
    or up to an open parenthesis, or all. *)
Definition stops (a : atok) : bool := match a with End => true | _ => match is_kind a TK_PARENL with Some false => false | _ => true end end.
Fixpoint cuts_from (l : list atok) (j : nat) (seen : list atok) : list (list atok * option nat) :=
  match l with
  | [] => [(seen, None)]
  | a :: l' =>
      (if stops a then [(seen ++ [End], Some j)] else []) ++ match a with End => [] | _ => cuts_from l' (S j) (seen ++ [a]) end
  end.
Definition cuts (pre : list atok) (j : nat) : list (list atok * option nat) :=
  ([End], Some j) :: cuts_from (skipn j pre) j [].

Section Abs.
Variable exts : bool.         (* may extension parsers be registered? *)

Section Loops.
Variable A : list atok -> pexp -> nat -> atok -> list aout.
Variable pre : list atok.     (* the first tokens *)
Definition at_ (p : pexp) (q : option nat) : list aout :=
  match q with
  | Some j => match nth_error pre j with Some a => A pre p j a | None => any end
  | None => any
  end.
Fixpoint aseq (ps : list pexp) (q : option nat) : list aout :=
  match ps with
  | [] => [(true, true, q)]
  | p :: ps' => nubo (flat_map (fun o => let '(m, _, q') := o in if m : bool then aseq ps' q' else [(false, false, q')]) (at_ p q))
  end.
Fixpoint aalts (ps : list pexp) (q : option nat) : list aout :=
  match ps with
  | [] => [(false, false, q)]
  | p :: ps' => nubo (flat_map (fun o => let '(m, t, q') := o in if m : bool then [(true, t, q')] else aalts ps' q') (at_ p q))
  end.
Fixpoint astar (k : nat) (p : pexp) (q : option nat) : list (option nat) :=
  match k, q with
  | S k', Some _ =>
      nub opt_eqb (flat_map (fun o => let '(m, _, q') := o in if m : bool then astar k' p q' else [q']) (at_ p q))
  | _, _ => [None]
  end.
Definition acall (r : rule) (j : nat) (a : atok) : list aout :=
  match grammar r with
  | RExp p => A pre p j a
  | RExt _ _ p => nubo (flat_map (fun o => let '(m, t, q) := o in if m : bool then [o] else if exts then any else [(false, false, q)]) (A pre p j a))
  | RBreak _ no =>
      let none := (false, false, Some j) in
      match kind_of a with
      | Some t => if existsb (Z.eqb t) no then [none] else match decide 1 t with DEat _ => [none; (true, true, None)] | _ => [none] end
      | None => [none; (true, true, None)]
      end
  | RParens => match is_kind a TK_PARENL with Some false => [(false, false, Some j)] | _ => [(false, false, Some j); (true, true, None)] end
  | RListName =>
      let none := (false, false, Some j) in
      match is_name a with
      | Some false => [none]
      | _ => match option_map kind_of (nth_error pre (S j)) with
             | Some (Some t) => if existsb (Z.eqb t) name_ends then [none; (true, true, Some (S j))] else [none]
             | _ => [none; (true, true, Some (S j))]
             end
      end
  | RDesignator p =>
      flat_map (fun c => let '(sub, q) := c in
                  (false, false, q) :: match sub with b :: _ => if existsb with_tree (A sub p 0 b) then [(true, true, q)] else [] | [] => [(true, true, q)] end)
        (cuts pre j)
  end.
End Loops.

Fixpoint arun (n : nat) (pre : list atok) (p : pexp) (j : nat) (a : atok) {struct n} : list aout :=
  match n with
  | O => any
  | S n' =>
      let none := (false, false, Some j) in
      let one := (true, true, Some (S j)) in
      match p with
      | PAlts _ ps => nubo (map (fun o => let '(m, _, q) := o in (m, m, q)) (aalts (arun n') pre ps (Some j)))
      | PLetter | PLiteral _ => match is_name a with Some false => [none] | _ => [none; one] end
      | PName => match is_name a with Some false => [none] | Some true => [one] | None => [none; one] end
      | PNeg q => map (fun o => let '(m, t, q) := o in (negb m, t, q)) (arun n' pre q j a)
      | POpt q => nubo (map (fun o => let '(m, t, q) := o in (true, t, q)) (arun n' pre q j a))
      | PPeek x => match is_kind a x with Some b => [(b, false, Some j)] | None => [(true, false, Some j); none] end
      | PRule r => nubo (map (fun o => let '(m, t, q) := o in if t : bool then (true, true, q) else none) (acall (arun n') pre r j a))
      | PSeq _ ps => nubo (map (fun o => let '(m, _, q) := o in if m : bool then (true, true, q) else none) (aseq (arun n') pre ps (Some j)))
      | PStar q => map (fun q => (true, true, q)) (astar (arun n') pre n' q (Some j))
      | PTag _ q => arun n' pre q j a
      | PTok x => match is_kind a x with Some true => [one] | Some false => [none] | None => [none; one] end
      end
  end.

(** Can the parser return a tree? *)
Definition can (pre : list atok) (n : nat) (r : rule) : bool :=
  match pre with
  | [] => true
  | a :: _ => existsb with_tree (acall (arun n) pre r 0 a)
  end.
End Abs.

(** The beginnings of statements that, as far as the analysis sees, both parsers
    may take, starting with [pre] and looking at [k] more tokens. *)
Definition next_toks : list atok := Eval vm_compute in End :: Other true :: Other false :: map Tag (filter (fun t => negb (t =? BAD)%Z) kinds).
Fixpoint clash (exts : bool) (n k : nat) (pre : list atok) (r1 r2 : rule) : list (list atok) :=
  if can exts pre n r1 then
    if can exts pre n r2 then
      match the_end pre, k with
      | None, S k' => flat_map (fun a => clash exts n k' (pre ++ [a]) r1 r2) next_toks
      | _, _ => [pre]
      end
    else []
  else [].
(** All beginnings of [k] more tokens (or fewer, if the statement ends) that the
    parser may take pass the test. *)
Fixpoint all_pre (exts : bool) (n k : nat) (r : rule) (test : list atok -> bool) (pre : list atok) : bool :=
  if can exts pre n r then
    match the_end pre, k with
    | None, S k' => forallb (fun a => all_pre exts n k' r test (pre ++ [a])) next_toks
    | _, _ => test pre
    end
  else true.
