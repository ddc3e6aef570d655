(** Independent specification of statements: split the fragments at the
    semicolons. *)
From Verif Require Import Base Tags SyntaxTags Token.

(** [segments l]: the (possibly empty) runs between semicolons; always one more
    than the number of semicolons. *)
Fixpoint segments (l : list Token) : list (list Token) :=
  match l with
  | [] => [[]]
  | x :: r =>
      if is_semi x then [] :: segments r
      else match segments r with
           | s :: ss => (x :: s) :: ss
           | [] => [[x]]
           end
  end.

Definition nonempty {A} (l : list A) : bool := negb (is_empty l).
Definition semicolons (l : list Token) : nat := length (filter is_semi l).

(** the fragments of an index range *)
Definition slice {A} (l : list A) (r : nat * nat) : list A := firstn (snd r - fst r) (skipn (fst r) l).

(** [sublist a b]: a is obtained from b by dropping elements *)
Inductive sublist {A} : list A -> list A -> Prop :=
| sub_nil : sublist [] []
| sub_keep x a b : sublist a b -> sublist (x :: a) (x :: b)
| sub_drop x a b : sublist a b -> sublist a (x :: b).

(** [interleave texts gaps]: the texts separated by that many blanks *)
Fixpoint interleave (texts : list str) (gaps : list nat) : str :=
  match texts, gaps with
  | t :: ts, g :: gs => t ++ spaces g ++ interleave ts gs
  | t :: _, [] => t
  | [], _ => []
  end.

(** histories of the lower-case cache *)
Inductive cache_op := CLower | CAssign (s : str).
Definition cache_step (c : Cached) (o : cache_op) : Cached :=
  match o with
  | CLower => fst (lower_read c)
  | CAssign s => write_ref (mod_text c) s
  end.
Definition cache_run (c : Cached) (h : list cache_op) : Cached := fold_left cache_step h c.
Definition last_text (s : str) (h : list cache_op) : str :=
  fold_left (fun t o => match o with CLower => t | CAssign s' => s' end) h s.
