(** What "a procedure with calipers" means, said without the functions of Caliper.v. *)
From Verif Require Import Base Tags SyntaxTags Caliper.
Local Open Scope Z_scope.

(** a RETURN statement, and an IF statement whose action is a RETURN *)
Definition is_return (s : astmt) : Prop := a_kind s = SG_RETURN_STMT.
Definition is_if_return (s : astmt) : Prop := a_kind s = - SG_RETURN_STMT.
Definition returns (s : astmt) : Prop := is_return s \/ is_if_return s.

(** [s'] is [s], but jumps to [lab] where [s] returns *)
Definition redirected (lab : Z) (s s' : astmt) : Prop :=
  (is_return s -> s' = mkA (a_label s) SG_GOTO_STMT [] (L "go to " ++ to_dec_z lab)) /\
  (is_if_return s -> s' = mkA (a_label s) (- SG_GOTO_STMT) (a_front s) (L "go to " ++ to_dec_z lab)) /\
  (~ returns s -> s' = s).

Definition the_call (p : string) (name : str) (lab : Z) : astmt :=
  mkA lab SG_CALL_STMT [] (L "call " ++ L p ++ L "('" ++ name ++ L "')").

(** [n] is the label of a statement of [l] *)
Definition labels (l : list astmt) (n : Z) : Prop := 0 < n /\ exists s, In s l /\ a_label s = n.
Definition label_once (l : list astmt) : Prop := NoDup (filter (fun n => 0 <? n) (map a_label l)).

(** the statement may be the last one of the part [l] that is executed: control falls off
    the end of the part, or the statement returns, or it jumps to a label that is not
    in the part.  [jumps s n]: the statement [s] may jump to the label [n]. *)
Definition may_leave (jumps : astmt -> Z -> Prop) (l : list astmt) (i : nat) : Prop :=
  exists s, nth_error l i = Some s /\ (S i = length l \/ returns s \/ exists n, jumps s n /\ ~ labels l n).
(** jumps of the statements that are written by the program: a CALL without alternate returns does not
    jump, a GO TO jumps to its label, in an IF statement, too *)
Definition jumps_ok (jumps : astmt -> Z -> Prop) : Prop :=
  (forall p name lab n, ~ jumps (the_call p name lab) n) /\
  (forall lab k front n m, 0 < lab -> jumps (mkA n k front (L "go to " ++ to_dec_z lab)) m -> (k = SG_GOTO_STMT \/ k = - SG_GOTO_STMT) -> m = lab).
(** the jumps of GO TO statements *)
Definition goto_jumps (s : astmt) (n : Z) : Prop :=
  (a_kind s = SG_GOTO_STMT \/ a_kind s = - SG_GOTO_STMT) /\ 0 < n /\ a_action s = L "go to " ++ to_dec_z n.
