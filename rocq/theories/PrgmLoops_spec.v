(** What a sequence of executable constructs is and which tree it has: action
    statements, IF constructs and DO loops in all their forms.  This is written
    from the rules of the standard (R1119 do-construct of Fortran 2018, R826
    nonblock-do-construct of Fortran 2008, R1134 if-construct), not from the code. *)
From Verif Require Import Base Tags Token StmtRules Peg LabelStack Prgm.
Local Open Scope nat_scope.

Section Nests.
Variable x : stmts.

(** statement i exists and is an r, its tree has the tag g *)
Definition is_a (i : nat) (r : rule) (g : Z) : Prop :=
  i < x_num x /\ exists t, x_parse x i r = Done (Some t) /\ t_tag t = g.
(** ... is none of these *)
Definition is_none (i : nat) (rs : list rule) : Prop :=
  i < x_num x /\ Forall (fun r => x_parse x i r = Done None) rs.
(** ... is a DO statement for the label l (0: none) *)
Definition is_do (i : nat) (g l : Z) : Prop :=
  i < x_num x /\ exists t, x_parse x i r_do_stmt = Done (Some t) /\ t_tag t = g /\ do_label (x_toks x i) t = Ok l.

Definition before_do : list rule := [r_action_stmt; r_associate_stmt; r_block_stmt; r_select_case_stmt].
(** the statements that begin an executable construct *)
Definition openers : list rule :=
  before_do ++ [r_do_stmt; r_if_then_stmt; r_select_rank_stmt; r_select_type_stmt; r_where_construct_stmt; r_forall_construct_stmt].
(** the other statements of an execution part *)
Definition others : list rule := [r_format_stmt; r_data_stmt; r_entry_stmt].

(** [tp]: the label that the innermost labelled DO around waits for; statement i
    does not have it *)
Definition free (tp : option Z) (i : nat) : Prop := tp <> Some (x_label x i).
(** statement i belongs to no construct of an execution part *)
Definition closes (tp : option Z) (i : nat) : Prop := free tp i /\ is_none i (openers ++ others).
(** statement i ends the loops for label l *)
Definition ends (l : Z) (i : nat) : Prop := x_label x i = l /\ is_none i others.

(** a node for the statements from i up to j *)
Definition node (tag : Z) (i j : nat) (kids : list ptree) : ptree :=
  PT tag (if i <? j then Some (i, j) else None) None kids.
Definition exec (t : ptree) (i j : nat) : ptree :=
  node PG_EXECUTION_PART_CONSTRUCT i j [node PG_EXECUTABLE_CONSTRUCT i j [t]].
Definition nonblock (tag : Z) (i j : nat) (kids : list ptree) : ptree :=
  node PG_NONBLOCK_DO_CONSTRUCT i j [node tag i j kids].

(** [items tp i ts j]: the statements from i up to j are constructs with the
    trees ts.  [loop tp i t j]: they are a loop with the tree t.  [share l i t j]:
    the statements from i to j are a loop whose last statement j also ends the
    loop around it.  [tail tp i ts j]: they are what follows the first block of
    an IF construct. *)
Inductive items : option Z -> nat -> list ptree -> nat -> Prop :=
| items_nil tp i : items tp i [] i
| items_action tp i g ts j :
    free tp i -> is_a i r_action_stmt g -> items tp (S i) ts j ->
    items tp i (exec (stmt_leaf g i) i (S i) :: ts) j
| items_other tp i g ts j :
    free tp i -> is_none i openers -> is_a i r_format_stmt g -> items tp (S i) ts j ->
    items tp i (node PG_EXECUTION_PART_CONSTRUCT i (S i) [stmt_leaf g i] :: ts) j
| items_loop tp i t m ts j :
    loop tp i t m -> items tp m ts j -> items tp i (exec t i m :: ts) j
| items_if tp i g bs m us n ts j :
    free tp i -> is_none i (before_do ++ [r_do_stmt]) -> is_a i r_if_then_stmt g ->
    items tp (S i) bs m -> tail tp m us n -> items tp n ts j ->
    items tp i (exec (node PG_IF_CONSTRUCT i n (stmt_leaf g i :: node PG_BLOCK (S i) m bs :: us)) i n :: ts) j
with tail : option Z -> nat -> list ptree -> nat -> Prop :=
| tail_end tp j h :
    closes tp j -> is_none j [r_else_if_stmt; r_else_stmt] -> is_a j r_end_if_stmt h ->
    tail tp j [stmt_leaf h j] (S j)
| tail_elseif tp j h bs k us e :
    closes tp j -> is_a j r_else_if_stmt h -> items tp (S j) bs k -> tail tp k us e ->
    tail tp j (stmt_leaf h j :: node PG_BLOCK (S j) k bs :: us) e
| tail_else tp j h bs k h' :
    closes tp j -> is_none j [r_else_if_stmt] -> is_a j r_else_stmt h -> items tp (S j) bs k ->
    closes tp k -> is_a k r_end_if_stmt h' ->
    tail tp j [stmt_leaf h j; node PG_BLOCK (S j) k bs; stmt_leaf h' k] (S k)
with loop : option Z -> nat -> ptree -> nat -> Prop :=
(* DO ... END DO *)
| loop_block tp i g ts j h :
    free tp i -> is_none i before_do -> is_do i g 0 -> items tp (S i) ts j ->
    closes tp j -> x_label x j = 0%Z -> is_a j r_end_do_stmt h ->
    loop tp i (node PG_DO_CONSTRUCT i (S j) [stmt_leaf g i; node PG_BLOCK (S i) j ts; stmt_leaf h j]) (S j)
(* DO l ... l CONTINUE or l END DO *)
| loop_label tp i g l ts j h :
    free tp i -> is_none i before_do -> (0 < l)%Z -> tp <> Some l -> is_do i g l -> items (Some l) (S i) ts j ->
    ends l j -> is_a j r_end_do h ->
    loop tp i (node PG_DO_CONSTRUCT i (S j) [stmt_leaf g i; node PG_BLOCK (S i) j ts; stmt_leaf h j]) (S j)
(* DO l ... l action *)
| loop_action tp i g l ts j h :
    free tp i -> is_none i before_do -> (0 < l)%Z -> tp <> Some l -> is_do i g l -> items (Some l) (S i) ts j ->
    ends l j -> is_none j [r_end_do] -> is_a j r_action_stmt h ->
    loop tp i (nonblock PG_ACTION_TERM_DO_CONSTRUCT i (S j)
      [stmt_leaf g i; node PG_DO_BODY (S i) j ts; node PG_DO_TERM_ACTION_STMT j (S j) [stmt_leaf h j]]) (S j)
(* DO l ... DO l ... l action *)
| loop_shared tp i g l ts m t j h :
    free tp i -> is_none i before_do -> (0 < l)%Z -> tp <> Some l -> is_do i g l -> items (Some l) (S i) ts m ->
    share l m t j -> is_a j r_action_stmt h ->
    loop tp i (nonblock PG_OUTER_SHARED_DO_CONSTRUCT i (S j)
      [stmt_leaf g i; node PG_DO_BODY (S i) (S j) (ts ++ [exec t m (S j)]);
       node PG_DO_TERM_SHARED_STMT j (S j) [stmt_leaf h j]]) (S j)
with share : Z -> nat -> ptree -> nat -> Prop :=
| share_last l i g ts j h :
    x_label x i <> l -> is_none i before_do -> is_do i g l -> items (Some l) (S i) ts j ->
    ends l j -> is_a j r_action_stmt h ->
    share l i (nonblock PG_INNER_SHARED_DO_CONSTRUCT i (S j)
      [stmt_leaf g i; node PG_DO_BODY (S i) j ts; node PG_DO_TERM_SHARED_STMT j (S j) [stmt_leaf h j]]) j
| share_more l i g ts m t j h :
    x_label x i <> l -> is_none i before_do -> is_do i g l -> items (Some l) (S i) ts m ->
    share l m t j -> is_a j r_action_stmt h ->
    share l i (nonblock PG_INNER_SHARED_DO_CONSTRUCT i (S j)
      [stmt_leaf g i; node PG_DO_BODY (S i) (S j) (ts ++ [exec t m (S j)]);
       node PG_DO_TERM_SHARED_STMT j (S j) [stmt_leaf h j]]) j.
End Nests.
