(** Which trees a grammar of statement parsers stands for, independently of how
    the parsers run: the derivation trees of the grammar read as a context-free
    one (alternatives in any order, repetitions of any length, look-ahead
    ignored). *)
From Verif Require Import Base Tags SyntaxTags Token TTStream StmtRules Peg.
Local Open Scope nat_scope.

(** A node with tag g and branches l, inside its parent: a node tagged HOIST is
    replaced by its branches. *)
Definition is_node (g : Z) (l out : list stree) : Prop :=
  if (g =? HOIST)%Z then out = l else exists r, out = [ST g r l].
(** The leaf that is token b. *)
Definition leaf_at (g : Z) (b : nat) : stree := ST g (Some (b, S b)) [].
Definition is_leaf (t : stree) : Prop := exists g b, t = leaf_at g b.

Section Gives.
Variable body : rule -> rbody.
Variable fr : list Token.                (* the tokens of the line *)
Variable E : bool -> stree -> Prop.      (* the trees of the registered extensions *)

Definition tok_at (b : nat) (P : Token -> Prop) : Prop := exists x, nth_error fr b = Some x /\ P x.
Definition name_at (b : nat) (P : str -> Prop) : Prop :=
  tok_at b (fun x => is_name_tag (tok x) = Ok true /\ P (tk_text x)).

(** [gives p l]: l are the branches that a match of p adds to its parent. *)
Inductive gives : pexp -> list stree -> Prop :=
| g_alts g ps p l l' : In p ps -> gives p l -> is_node g l l' -> gives (PAlts g ps) l'
| g_letter b : name_at b (fun w => length w = 1) -> gives PLetter [leaf_at TK_NAME b]
| g_literal w b : name_at b (fun v => map lower_b v = map lower_b w) -> gives (PLiteral w) [leaf_at TK_NAME b]
| g_name b : name_at b (fun _ => True) -> gives PName [leaf_at TK_NAME b]
| g_neg p : gives (PNeg p) []
| g_opt_no p : gives (POpt p) []
| g_opt p l : gives p l -> gives (POpt p) l
| g_peek x : gives (PPeek x) []
| g_seq g ps l l' : gives_seq ps l -> is_node g l l' -> gives (PSeq g ps) l'
| g_star p l : gives_star p l -> gives (PStar p) l
| g_tag g p l l' : gives p l -> is_node g l l' -> gives (PTag g p) l'
| g_tok x b : tok_at b (fun k => tok k = x) -> gives (PTok x) [leaf_at x b]
| g_rule r l : gives_rule r l -> gives (PRule r) l
with gives_seq : list pexp -> list stree -> Prop :=
| gs_nil : gives_seq [] []
| gs_cons p ps l l' : gives p l -> gives_seq ps l' -> gives_seq (p :: ps) (l ++ l')
with gives_star : pexp -> list stree -> Prop :=
| gr_nil p : gives_star p []
| gr_cons p l l' : gives p l -> gives_star p l' -> gives_star p (l ++ l')
with gives_rule : rule -> list stree -> Prop :=
(* a rule stands for its expression *)
| gu_exp r p l : body r = RExp p -> gives p l -> gives_rule r l
(* action_stmt and other_specification_stmt: or for a tree of an extension *)
| gu_own r a g p l : body r = RExt a g p -> gives p l -> gives_rule r l
| gu_ext r a g p t l : body r = RExt a g p -> E a t -> is_node g (hoist [] (Some t)) l -> gives_rule r l
(* expr: a list of tokens and real literals *)
| gu_break r g no l l' : body r = RBreak g no -> l <> [] -> gives_items l -> is_node g l l' -> gives_rule r l'
(* consume_parens: tokens, the first an opening parenthesis *)
| gu_parens r b l : body r = RParens -> tok_at b (fun k => tok k = TK_PARENL) -> Forall is_leaf l ->
    gives_rule r (leaf_at TK_PARENL b :: l)
(* list_name *)
| gu_list_name r b : body r = RListName -> name_at b (fun _ => True) -> gives_rule r [leaf_at TK_NAME b]
(* procedure_designator *)
| gu_designator r p l : body r = RDesignator p -> gives p l -> gives_rule r l
with gives_items : list stree -> Prop :=
| gi_nil : gives_items []
| gi_leaf t l : is_leaf t -> gives_items l -> gives_items (t :: l)
| gi_real t l : gives_rule r_real_literal_constant [t] -> gives_items l -> gives_items (t :: l).
End Gives.

(** The trees that the registered extensions make. *)
Definition made (exts : bool -> list ext) (a : bool) (t : stree) : Prop :=
  exists e s s', In e (exts a) /\ e s = Done (Some t, s').
