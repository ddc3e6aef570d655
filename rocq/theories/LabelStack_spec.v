(** Independent specification of Label_Stack: a plain stack of labels; each
    entry remembers one bit, "a level query has seen this entry as part of a
    run of two or more equal labels".  Head = top. *)
From Verif Require Import Base LabelStack.
Local Open Scope Z_scope.

Definition PStack := list (Z * bool).
(** the number of entries at the top with label l *)
Fixpoint run (s : PStack) (l : Z) : nat :=
  match s with
  | (m, _) :: r => if m =? l then S (run r l) else 0%nat
  | [] => 0%nat
  end.
(** the answer of level(l) *)
Definition answer (s : PStack) (l : Z) : Z :=
  match s with
  | [] => -1
  | (m, seen) :: _ =>
      if m =? l then
        match run s l with
        | 1%nat => if seen then 1 else 0     (* 1 of 1; or what is left of a run *)
        | n => Z.of_nat n                    (* n of n *)
        end
      else -1
  end.
(** a query of a run of two or more marks its entries *)
Fixpoint mark (s : PStack) (n : nat) : PStack :=
  match n, s with
  | S k, (m, _) :: r => (m, true) :: mark r k
  | _, _ => s
  end.
Definition p_step (s : PStack) (o : ls_op) : option PStack :=
  match o with
  | OpPush l => Some ((l, false) :: s)
  | OpPop => match s with [] => None | _ :: r => Some r end
  | OpLevel l => if (2 <=? run s l)%nat then Some (mark s (run s l)) else Some s
  end.
Fixpoint p_run (s : PStack) (h : list ls_op) : option PStack :=
  match h with
  | [] => Some s
  | o :: r => match p_step s o with Some s' => p_run s' r | None => None end
  end.

(** labels only, for is_top, empty and size *)
Definition labels (s : PStack) : list Z := map fst s.
