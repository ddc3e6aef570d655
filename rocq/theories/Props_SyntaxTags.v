(** C43: the registry of client syntax tags. *)
From Verif Require Import Base Tags SyntaxTags SyntaxTags_proofs.
Local Open Scope Z_scope.

(** After any history of registrations (no type -1, the marker of a free
    slot): registered tags show their label and type, other extension tags are
    generic, built-in tags show their table entry. *)
Theorem C43_registry : forall h reg,
  Forall (fun e => snd e <> -1) h -> register_all [] h = Ok reg ->
  (forall t l ty, In (t, l, ty) h -> tag_label reg t = Ok l /\ tag_type reg t = Ok ty) /\
  (forall t, CLIENT_EXTENSION <= t -> ~ In t (map (fun e => fst (fst e)) h) ->
     tag_label reg t = Ok (L "<client-extension+" ++ to_dec_z (t - CLIENT_EXTENSION) ++ L ">") /\
     tag_type reg t = Ok 4) /\
  (forall t, 0 <= t < CLIENT_EXTENSION -> exists s ty, nth_error tag_table (Z.to_nat t) = Some (s, ty) /\
     tag_label reg t = Ok s /\ tag_type reg t = Ok ty).
Proof. exact registry_main. Qed.
Print Assumptions C43_registry.

(** Registering distinct extension tags, in any order, never fails. *)
Theorem C43_registry_defined : forall h,
  Forall (fun e => CLIENT_EXTENSION <= fst (fst e)) h ->
  NoDup (map (fun e => fst (fst e)) h) -> exists reg, register_all [] h = Ok reg.
Proof. exact registry_total. Qed.
Print Assumptions C43_registry_defined.

(** is_keyword of an unregistered extension tag is true, so unkeyword turns it
    into a name; is_name of any tag beyond CLIENT_EXTENSION reads outside of
    the table. *)
Theorem C43_is_name_refuted : forall t, CLIENT_EXTENSION < t -> is_name_tag t = UB.
Proof.
  intros t H. unfold is_name_tag. destruct (Z.eqb_spec t TK_NAME) as [->|_]; [discriminate|].
  unfold table_at. destruct (Z.ltb_spec t 0); [reflexivity|].
  assert (nth_error tag_table (Z.to_nat t) = None) as ->; [|reflexivity].
  apply nth_error_None. assert (Z.of_nat (length tag_table) = CLIENT_EXTENSION + 1) by (vm_compute; reflexivity). lia.
Qed.
Print Assumptions C43_is_name_refuted.

Definition ex_hist : list (Z * str * Z) :=
  [(CLIENT_EXTENSION + 3, L "my-stmt", 5); (CLIENT_EXTENSION + 1, L "OTHER", 4)].
Example C43_case : exists reg, register_all [] ex_hist = Ok reg /\
  tag_label reg (CLIENT_EXTENSION + 3) = Ok (L "my-stmt") /\ tag_type reg (CLIENT_EXTENSION + 3) = Ok 5 /\
  tag_label reg (CLIENT_EXTENSION + 2) = Ok (L "<client-extension+2>") /\
  tag_label reg KW_ABSTRACT = Ok (L "ABSTRACT") /\ is_keyword reg KW_ABSTRACT = Ok true.
Proof. eexists. split; [vm_compute; reflexivity|]. vm_compute. auto 10. Qed.
(* registering a tag twice is an assertion failure *)
Example C43_twice : register_all [] [(CLIENT_EXTENSION, L "a", 5); (CLIENT_EXTENSION, L "b", 5)] = UB.
Proof. reflexivity. Qed.
