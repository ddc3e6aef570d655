(** Independent specification of the statements of a line as blocks of its
    tokens. *)
From Verif Require Import Base Token Stmts_spec SafeList SafeList_spec LineCopy.
Local Open Scope nat_scope.

(** [pieces l e]: the runs of tokens between semicolons, each with the token (or
    the end [e]) behind it; a token is a pair of its identity and its contents *)
Fixpoint pieces (l : list (nat * Token)) (e : nat) : list (list (nat * Token) * nat) :=
  match l with
  | [] => [([], e)]
  | (i, x) :: r =>
      if is_semi x then ([], i) :: pieces r e
      else match pieces r e with
           | (b, j) :: q => ((i, x) :: b, j) :: q
           | [] => [([(i, x)], e)]
           end
  end.
(** the statements: the runs that are not empty *)
Definition statements (p : @Plain Token) : list (list (nat * Token) * nat) :=
  filter (fun x => nonempty (fst x)) (pieces (elems p) (p_end p)).
(** [spans s rs bs]: the ranges denote these blocks of the list, in order *)
Definition spans (s : @SL Token) (rs : list Range) (bs : list (list (nat * Token) * nat)) : Prop :=
  Forall2 (fun r b => good s r (fst b) /\ r_end r = snd b) rs bs.
(** the tokens of the blocks *)
Definition contents (bs : list (list (nat * Token) * nat)) : list (list Token) := map (fun b => map snd (fst b)) bs.
