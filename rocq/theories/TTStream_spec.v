(** A token stream is a list of tokens cut in two: consumed and remaining. *)
From Verif Require Import Base Tags Token TTStream.
Local Open Scope nat_scope.

(** The stream s is on the statement [before ++ after] of its line, with
    [before] consumed and [after] remaining. *)
Definition at_cut (s : stream) (before after : list Token) : Prop :=
  exists pre post, frags s = pre ++ before ++ after ++ post /\
    s_beg s = length pre /\ pos s = length pre + length before /\
    s_end s = length pre + length before + length after.

(** effect of the operations on a cut; a mark is the number of consumed tokens *)
Definition spec_step (b a : list Token) (mark_base : nat) (o : sop) : option (list Token * list Token) :=
  let all := b ++ a in
  match o with
  | SConsume n | SDigest n => if n <=? length a then Some (b ++ firstn n a, skipn n a) else None
  | SPutBack => Some (firstn (length b - 1) b, skipn (length b - 1) all)
  | SRewind0 => Some ([], all)
  | SRewind m => if (mark_base <=? m) && (m - mark_base <=? length all)
                 then Some (firstn (m - mark_base) all, skipn (m - mark_base) all) else None
  | SUntilEol => Some (all, [])
  | SIsEol => match a with
              | t :: a' => if (tok t =? TK_SEMICOLON)%Z then Some (b ++ [t], a') else Some (b, a)
              | [] => Some (b, a)
              end
  end.
Fixpoint spec_run (b a : list Token) (mb : nat) (h : list sop) : option (list Token * list Token) :=
  match h with
  | [] => Some (b, a)
  | o :: r => match spec_step b a mb o with Some (b', a') => spec_run b' a' mb r | None => None end
  end.

(** Nesting level after a list of tokens: openings minus closings. *)
Fixpoint level (opn close : Z) (l : list Token) : Z :=
  match l with
  | [] => 0
  | t :: r => ((if tok t =? opn then 1 else if tok t =? close then -1 else 0) + level opn close r)%Z
  end.
(** The first k tokens end with the partner of the first token. *)
Definition matched (opn close : Z) (l : list Token) (k : nat) : Prop :=
  0 < k <= length l /\ level opn close (firstn k l) = 0%Z /\
  forall j, 0 < j < k -> (0 < level opn close (firstn j l))%Z.
Definition unmatched (opn close : Z) (l : list Token) : Prop := forall k, ~ matched opn close l k.
(** no token of the list is the BAD tag that peek() returns at the end *)
Definition no_bad (l : list Token) : Prop := Forall (fun t => tok t <> BAD) l.
