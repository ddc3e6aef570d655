(** Model of Label_Stack (src/flpr/Label_Stack.hh:22-96).  The head of the list
    is the top of the stack (label_stack_.back()). *)
From Verif Require Import Base.
Local Open Scope Z_scope.

(** Label_Stack.hh:52-59: label and cached level *)
Definition LStack := list (Z * Z).

(** :25, :28 *)
Definition ls_push (s : LStack) (l : Z) : LStack := (l, -1) :: s.
Definition ls_pop (s : LStack) : res LStack := match s with [] => UB | _ :: r => Ok r end.
(** :31-33 *)
Definition ls_is_top (s : LStack) (l : Z) : bool :=
  match s with [] => false | (m, _) :: _ => m =? l end.
Definition ls_empty (s : LStack) : bool := is_empty s.
Definition ls_size (s : LStack) : nat := length s.

(** :73-74 the number of entries at the top with this label *)
Fixpoint run_len (s : LStack) (l : Z) : nat :=
  match s with
  | (m, _) :: r => if m =? l then S (run_len r l) else 0%nat
  | [] => 0%nat
  end.
(** :86-89 the entry at depth d (0 = top) of [count] gets level count - d *)
Fixpoint assign (s : LStack) (count : nat) : LStack :=
  match count, s with
  | S k, (m, _) :: r => (m, Z.of_nat count) :: assign r k
  | _, _ => s
  end.
(** :64-94 level *)
Definition ls_level (s : LStack) (l : Z) : LStack * Z :=
  match s with
  | [] => (s, -1)
  | (m, lv) :: r =>
      if negb (m =? l) then (s, -1)
      else
        let s' :=
          if lv =? -1 then
            let count := run_len s l in
            if (count =? 1)%nat then (m, 0) :: r else assign s count
          else s in
        (s', match s' with (_, v) :: _ => v | [] => -1 end)
  end.

(** Operations of a client. *)
Inductive ls_op := OpPush (l : Z) | OpPop | OpLevel (l : Z).
Definition ls_step (s : LStack) (o : ls_op) : res LStack :=
  match o with
  | OpPush l => Ok (ls_push s l)
  | OpPop => ls_pop s
  | OpLevel l => Ok (fst (ls_level s l))
  end.
Fixpoint ls_run (s : LStack) (h : list ls_op) : res LStack :=
  match h with
  | [] => Ok s
  | o :: r => s' <- ls_step s o ;; ls_run s' r
  end.
