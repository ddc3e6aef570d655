(** Where the regions of a procedure begin and end, from its node in the tree. *)
From Verif Require Import Base Tags Token StmtRules Peg LabelStack Prgm PrgmTree_spec Visitor Procedure Procedure_spec ProcRegions.
Local Open Scope nat_scope.

(** the first statement of region [r] of procedure [u], which begins with
    statement [b]; where it would be if the region is empty *)
Definition start (u : ptree) (b r : nat) : nat := b + length (flat_map (region_stmts u) (seq 0 r)).
(** what is to be answered *)
Definition answer (u : ptree) (b : nat) (a : ask) : list (option nat) :=
  match a with
  | AskBegin r => [Some (start u b r)]
  | AskEnd r => [Some (start u b (S r))]
  | AskRange r => [Some (start u b r); Some (start u b (S r))]
  | AskLast r => [Some (start u b (S r) - 1)]
  end.
(** which regions may be asked for *)
Definition may_ask (u : ptree) (a : ask) : Prop :=
  match a with
  | AskBegin r | AskEnd r | AskRange r => r < NUM_REGION_TAG
  | AskLast r => r < NUM_REGION_TAG /\ region_stmts u r <> []
  end.
