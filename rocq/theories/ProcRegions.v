(** Model of the rest of src/flpr/Procedure.hh: asking for the regions, clearing
    the object, and giving a name to a main program that has no first statement.
    A statement iterator is the number of the statement, as in Procedure.v. *)
From Verif Require Import Base Tags Prgm RangePartition Visitor Procedure.
Local Open Scope nat_scope.

Definition with_parts (P : procedure) (st : partition) : procedure := mkProcedure st (pr_track P) (pr_tag P).

(** Procedure.hh:76-79 procedure_initialized; :90-92 has_region *)
Definition has_region (P : procedure) (r : nat) : res bool := e <- region_empty (pr_parts P) r ;; Ok (negb e).
Definition procedure_initialized (P : procedure) : res bool := has_region P PROC_END.
(** :140-148 is_main_program, headless_main_program *)
Definition is_main_program (P : procedure) : bool := (PG_MAIN_PROGRAM =? pr_tag P)%Z.
Definition headless (P : procedure) : res bool :=
  if is_main_program P then region_empty (pr_parts P) PROC_BEGIN else Ok false.

(** :103-105 begin(idx), :126-128 end(idx): not const, they put the region in use *)
Definition pr_begin (P : procedure) (r : nat) : res (option nat * procedure) :=
  ' (b, st) <- rbegin (pr_parts P) r ;; Ok (b, with_parts P st).
Definition pr_end (P : procedure) (r : nat) : res (option nat * procedure) :=
  ' (e, st) <- rend (pr_parts P) r ;; Ok (e, with_parts P st).
(** :95-97 range(idx); the order in which C++ evaluates the arguments is open,
    here it is the order in which they are written *)
Definition pr_range (P : procedure) (r : nat) : res (option nat * option nat * procedure) :=
  ' (b, P) <- pr_begin P r ;; ' (e, P) <- pr_end P r ;; Ok (b, e, P).
(** :114-117 last(idx); std::prev of the first statement of the file, or of a
    default constructed iterator, is undefined *)
Definition it_prev (i : option nat) : res (option nat) :=
  match i with Some (S k) => Ok (Some k) | _ => UB end.
Definition pr_last (P : procedure) (r : nat) : res (option nat * procedure) :=
  e <- region_empty (pr_parts P) r ;;
  _ <- assert_ (negb e) ;;
  ' (e, P) <- pr_end P r ;; i <- it_prev e ;; Ok (i, P).

(** calls of these four, one after the other *)
Inductive ask := AskBegin (r : nat) | AskEnd (r : nat) | AskRange (r : nat) | AskLast (r : nat).
Definition ask_one (P : procedure) (a : ask) : res (list (option nat) * procedure) :=
  match a with
  | AskBegin r => ' (b, P) <- pr_begin P r ;; Ok ([b], P)
  | AskEnd r => ' (e, P) <- pr_end P r ;; Ok ([e], P)
  | AskRange r => ' (b, e, P) <- pr_range P r ;; Ok ([b; e], P)
  | AskLast r => ' (i, P) <- pr_last P r ;; Ok ([i], P)
  end.
Fixpoint ask_all (P : procedure) (l : list ask) : res (list (list (option nat)) * procedure) :=
  match l with
  | [] => Ok ([], P)
  | a :: l => ' (x, P) <- ask_one P a ;; ' (xs, P) <- ask_all P l ;; Ok (x :: xs, P)
  end.

(** :254-258 clear; Range_Partition.hh:39-44 clear_partitions forgets the
    trackers, too *)
Definition pr_clear (P : procedure) : procedure := mkProcedure (clear_partitions (pr_parts P)) [] UNKNOWN.

(** :356-367 rename of a main program without a first statement, :175-187
    emplace_stmt with before_prefix = false.  [l] are the statements of the file
    with the end of the list, [iter] is the new statement; its text is C48. *)
Fixpoint put_before (l : list nat) (pos iter : nat) : list nat :=
  match l with
  | [] => []
  | x :: l' => if x =? pos then iter :: l else x :: put_before l' pos iter
  end.
Definition rename_headless (l : list nat) (P : procedure) (iter : nat) : res (list nat * procedure) :=
  ' (pos, P) <- pr_end P PROC_BEGIN ;;
  match pos with
  | None => UB
  | Some p =>
      let l := put_before l p iter in
      st <- emplace_insert l (pr_parts P) PROC_BEGIN pos (Some iter) ;;
      Ok (l, with_parts P st)
  end.
(** The same where the list is a ring, so that std::distance comes around to the
    new statement (libstdc++): Range_Partition.hh:137-157 without the distance. *)
Definition insert_ring (st : partition) (idx : nat) (new_begin insert_pos : option nat) : res partition :=
  a <- active_idx st idx ;;
  _ <- assert_ a ;;
  old_begin <- all_begin st ;;
  if it_eqb insert_pos old_begin then set_begin st idx new_begin else Ok st.
Definition rename_ring (l : list nat) (P : procedure) (iter : nat) : res (list nat * procedure) :=
  ' (pos, P) <- pr_end P PROC_BEGIN ;;
  match pos with
  | None => UB
  | Some p =>
      let l := put_before l p iter in
      st <- insert_ring (pr_parts P) PROC_BEGIN pos (Some iter) ;;
      Ok (l, with_parts P st)
  end.
