(** C13: Label_Stack. *)
From Verif Require Import Base LabelStack LabelStack_spec LabelStack_proofs.
Local Open Scope Z_scope.

(** After every history of push, pop and level queries the stack answers like
    the plain stack of the specification; pop of an empty stack is undefined. *)
Theorem C13_label_stack : forall h,
  match p_run [] h with
  | None => ls_run [] h = UB
  | Some p => exists s, ls_run [] h = Ok s /\
      (forall l, snd (ls_level s l) = answer p l) /\
      (forall l, ls_is_top s l = true <-> hd_error (labels p) = Some l) /\
      ls_size s = length (labels p) /\
      (ls_empty s = true <-> labels p = [])
  end.
Proof. exact label_stack_main. Qed.
Print Assumptions C13_label_stack.

(** As long as nothing is popped, queries do not matter: the level is -1, 0 or
    the length of the run of equal labels at the top. *)
Theorem C13_without_pop : forall h, no_pop h = true ->
  exists s, ls_run [] h = Ok s /\
    forall l, snd (ls_level s l) =
      match lead (pushed h []) l with
      | 0%nat => -1
      | 1%nat => 0
      | n => Z.of_nat n
      end.
Proof. exact no_pop_main. Qed.
Print Assumptions C13_without_pop.

(** In general they do: the same pushes and pops, with and without a query. *)
Theorem C13_queries_are_pure_refuted :
  exists s1 s2,
    ls_run [] [OpPush 10; OpPush 10; OpPop] = Ok s1 /\
    ls_run [] [OpPush 10; OpPush 10; OpLevel 10; OpPop] = Ok s2 /\
    snd (ls_level s1 10) = 0 /\ snd (ls_level s2 10) = 1.
Proof. repeat eexists. Qed.
Print Assumptions C13_queries_are_pure_refuted.

Example C13_case : p_run [] [OpPush 5; OpPush 10; OpPush 10; OpLevel 10; OpPush 10; OpLevel 10; OpPop]
  = Some [(10, true); (10, true); (5, false)].
Proof. reflexivity. Qed.
Example C13_case2 : answer [(10, true); (10, true); (5, false)] 10 = 2 /\ answer [(5, false)] 5 = 0.
Proof. split; reflexivity. Qed.
