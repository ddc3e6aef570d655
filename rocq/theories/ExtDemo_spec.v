(** What extensions of the grammar may do, and the statements of the demo. *)
From Verif Require Import Base Tags SyntaxTags Token TTStream StmtRules Peg Stmt_spec StmtGrammar.
Local Open Scope nat_scope.

(** "(" counts 1, ")" counts -1 *)
Definition plevel (l : list Token) : Z :=
  fold_right (fun t a => ((if tok t =? TK_PARENL then 1 else if tok t =? TK_PARENR then -1 else 0) + a)%Z) 0%Z l.
(** a "(" with everything up to its ")" *)
Definition paren_group (g : list Token) : Prop :=
  (exists a r, g = a :: r /\ tok a = TK_PARENL) /\ plevel g = 0%Z /\
  forall u v, g = u ++ v -> u <> [] -> v <> [] -> (0 < plevel u)%Z.
(** WRITE ( ... ) , *)
Definition comma_write (l : list Token) : Prop :=
  exists w g c r, l = w :: g ++ c :: r /\ tok w = KW_WRITE /\ paren_group g /\ tok c = TK_COMMA.
Definition no_comma_write (f : list Token) : Prop := forall u l, f = u ++ l -> ~ comma_write l.

(** Wherever in these tokens the built-in parsers for a kind of statement
    decline, all extensions of that kind decline, too.  ([k] bounds the steps of the
    built-in parsers.) *)
Definition adds_nothing (exts : bool -> list ext) (k : nat) (f : list Token) : Prop :=
  forall n r a g p s t s1, n <= k -> frags s = f -> grammar r = RExt a g p ->
    run grammar (fun _ => []) n p s = Done (false, t, s1) -> Forall (declines s1) (exts a).

(** From s on there is, up to the end of the statement, what the parsers take for
    a list of output items, or nothing. *)
Definition items_to_end (s : stream) : Prop :=
  exists n x s2, run grammar (fun _ => []) n (POpt (p_list SG_OUTPUT_ITEM_LIST (PRule r_output_item))) s = Done (x, s2) /\ peek s2 = Ok BAD.
