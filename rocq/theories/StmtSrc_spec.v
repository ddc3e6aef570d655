(** Independent specification of the statement sequence of a file. *)
From Verif Require Import Base Tags SyntaxTags FileLine Token Stmts LogicalLine StmtSrc.
Local Open Scope Z_scope.

Definition has_stmts (l : LLn) : bool := negb (is_empty (l_stmts l)).
Definition line_at (ls : list LLn) (i : nat) (p : LLn -> bool) : bool :=
  match nth_error ls i with Some l => p l | None => false end.

(** the unsuppressed lines before line i with no statement in between *)
Definition prefix_of (ls : list LLn) (i : nat) : list nat :=
  filter (fun j => line_at ls j (fun l => negb (l_suppress l)) &&
                   forallb (fun k => line_at ls k (fun l => negb (has_stmts l))) (seq j (i - j)))
         (seq 0 i).

(** the k-th statement of line i *)
Definition nth_stmt (ls : list LLn) (i : nat) (l : LLn) (k : nat) (r : nat * nat) : LL_Stmt :=
  mkStmt (Some i) r
    (if (k =? 0)%nat then l_label l else 0)
    (if (length (l_stmts l) =? 1)%nat then 0 else Z.of_nat (S k))
    (if (k =? 0)%nat then prefix_of ls i else []).

Definition stmts_of_line (ls : list LLn) (i : nat) : list LL_Stmt :=
  match nth_error ls i with
  | None => []
  | Some l => map (fun k => nth_stmt ls i l k (nth k (l_stmts l) (0%nat, 0%nat)))
                  (seq 0 (length (l_stmts l)))
  end.
Definition stmts_of_file (ls : list LLn) : list LL_Stmt :=
  flat_map (stmts_of_line ls) (seq 0 (length ls)).
