From Verif Require Import Base Base_lemmas Tags SyntaxTags.
Local Open Scope Z_scope.

(** A registration history, starting from the empty registry. *)
Fixpoint register_all (reg : registry) (h : list (Z * str * Z)) : res registry :=
  match h with
  | [] => Ok reg
  | (t, l, ty) :: r => reg' <- register_ext reg t l ty ;; register_all reg' r
  end.

(** slot contents *)
Definition slot (reg : registry) (i : nat) : Ext_Record := nth i reg ext_default.

Lemma nth_repeat_d n i : nth i (repeat ext_default n) ext_default = ext_default.
Proof. revert i; induction n; destruct i; simpl; auto. Qed.

Lemma slot_resize reg n i : slot (resize_to reg n) i = slot reg i.
Proof.
  unfold slot, resize_to. destruct (Nat.lt_ge_cases i (length reg)) as [H|H].
  - now rewrite app_nth1.
  - rewrite app_nth2 by lia. rewrite nth_repeat_d. now rewrite nth_overflow.
Qed.

Lemma slot_set reg i x j : (i < length reg)%nat ->
  slot (set_nth reg i x) j = if Nat.eq_dec i j then x else slot reg j.
Proof.
  intros H. unfold slot, set_nth.
  assert (length (firstn i reg) = i) as LF by (rewrite firstn_length; lia).
  destruct (Nat.eq_dec i j) as [<-|NE].
  - rewrite app_nth2 by lia. rewrite LF, Nat.sub_diag. reflexivity.
  - destruct (Nat.lt_ge_cases j i) as [LT|GE].
    + rewrite app_nth1 by lia. rewrite <- (firstn_skipn i reg) at 2.
      now rewrite app_nth1 by lia.
    + rewrite app_nth2 by lia. rewrite LF. destruct (j - i)%nat as [|k] eqn:E; [lia|].
      cbn [nth]. rewrite <- (firstn_skipn (S i) reg) at 2.
      rewrite app_nth2; rewrite firstn_length; [|lia]. f_equal. lia.
Qed.

Lemma nth_error_slot reg i : nth_error reg i =
  if (i <? length reg)%nat then Some (slot reg i) else None.
Proof.
  destruct (Nat.ltb_spec i (length reg)) as [H|H].
  - unfold slot. now apply nth_error_nth'.
  - now apply nth_error_None.
Qed.

Definition idx (t : Z) : nat := Z.to_nat (t - CLIENT_EXTENSION).

Lemma register_spec reg t l ty reg' : register_ext reg t l ty = Ok reg' ->
  CLIENT_EXTENSION <= t /\ ext_empty (slot reg (idx t)) = true /\
  (idx t < length reg')%nat /\ (length reg <= length reg')%nat /\
  forall j, slot reg' j = if Nat.eq_dec (idx t) j then mkExt l ty else slot reg j.
Proof.
  unfold register_ext. fold (idx t). intros H. apply bind_Ok in H as (u & A & H).
  destruct (Z.leb_spec CLIENT_EXTENSION t) as [LE|]; [clear A u|discriminate].
  set (r2 := if (length reg <=? idx t)%nat then _ else _) in *.
  assert (S2 : forall j, slot r2 j = slot reg j).
  { intros j. unfold r2. destruct (length reg <=? idx t)%nat; auto using slot_resize. }
  assert (L2 : (idx t < length r2)%nat /\ (length reg <= length r2)%nat).
  { unfold r2. destruct (Nat.leb_spec (length reg) (idx t)); [|lia].
    unfold resize_to. rewrite app_length, repeat_length. lia. }
  clearbody r2. rewrite nth_error_slot in H.
  rewrite (proj2 (Nat.ltb_lt _ _) (proj1 L2)), S2 in H.
  apply bind_Ok in H as (u & A & H). destruct (ext_empty (slot reg (idx t))); [clear A u|discriminate].
  injection H as <-. 
  assert (length (set_nth r2 (idx t) (mkExt l ty)) = length r2) as LS.
  { unfold set_nth. rewrite app_length, firstn_length. cbn [length]. rewrite skipn_length. lia. }
  rewrite LS. conjs; auto; try lia. intros j. rewrite slot_set by lia.
  destruct (Nat.eq_dec (idx t) j); auto.
Qed.

(** the registration succeeds when the slot is free *)
Lemma register_ok reg t l ty : CLIENT_EXTENSION <= t -> ext_empty (slot reg (idx t)) = true ->
  exists reg', register_ext reg t l ty = Ok reg'.
Proof.
  intros LE E. unfold register_ext. fold (idx t).
  rewrite (proj2 (Z.leb_le _ _) LE). cbn [assert_ bind].
  set (r2 := if (length reg <=? idx t)%nat then _ else _) in *.
  assert (S2 : forall j, slot r2 j = slot reg j).
  { intros j. unfold r2. destruct (length reg <=? idx t)%nat; auto using slot_resize. }
  assert (L2 : (idx t < length r2)%nat).
  { unfold r2. destruct (Nat.leb_spec (length reg) (idx t)); [|lia].
    unfold resize_to. rewrite app_length, repeat_length. lia. }
  clearbody r2. rewrite nth_error_slot, (proj2 (Nat.ltb_lt _ _) L2), S2, E. cbn [assert_ bind]. eauto.
Qed.

Lemma get_ext_idx_spec reg t : get_ext_idx reg t =
  if t <? CLIENT_EXTENSION then -2
  else if ext_empty (slot reg (idx t)) then -1 else t - CLIENT_EXTENSION.
Proof.
  unfold get_ext_idx. destruct (Z.ltb_spec t CLIENT_EXTENSION); auto. fold (idx t).
  rewrite nth_error_slot. rewrite Z.geb_leb. unfold zlen.
  destruct (Z.leb_spec (Z.of_nat (length reg)) (t - CLIENT_EXTENSION)).
  - unfold slot. rewrite nth_overflow by (unfold idx; lia). reflexivity.
  - rewrite (proj2 (Nat.ltb_lt _ _)) by (unfold idx; lia).
    now destruct (ext_empty (slot reg (idx t))).
Qed.

Lemma tag_lookup reg t : CLIENT_EXTENSION <= t ->
  tag_label reg t = (if ext_empty (slot reg (idx t))
     then Ok (L "<client-extension+" ++ to_dec_z (t - CLIENT_EXTENSION) ++ L ">")
     else Ok (ext_label (slot reg (idx t)))) /\
  tag_type reg t = Ok (if ext_empty (slot reg (idx t)) then 4 else ext_type (slot reg (idx t))).
Proof.
  intros LE. unfold tag_label, tag_type. rewrite get_ext_idx_spec.
  destruct (Z.ltb_spec t CLIENT_EXTENSION); [lia|].
  destruct (ext_empty (slot reg (idx t))) eqn:E; [split; reflexivity|].
  destruct (Z.eqb_spec (t - CLIENT_EXTENSION) (-2)); [lia|].
  destruct (Z.eqb_spec (t - CLIENT_EXTENSION) (-1)); [lia|].
  fold (idx t). rewrite nth_error_slot.
  destruct (Nat.ltb_spec (idx t) (length reg)); auto.
  unfold slot in E. rewrite nth_overflow in E by lia. discriminate.
Qed.

Lemma builtin_lookup reg t : t < CLIENT_EXTENSION ->
  tag_label reg t = (p <- table_at t ;; Ok (fst p)) /\ tag_type reg t = (p <- table_at t ;; Ok (snd p)).
Proof.
  intros LT. unfold tag_label, tag_type. rewrite get_ext_idx_spec.
  rewrite (proj2 (Z.ltb_lt _ _) LT). split; reflexivity.
Qed.

Lemma builtin_defined t : 0 <= t < CLIENT_EXTENSION -> exists s ty, table_at t = Ok (s, ty).
Proof.
  intros [A B]. unfold table_at. destruct (Z.ltb_spec t 0); [lia|].
  destruct (nth_error tag_table (Z.to_nat t)) as [[s ty]|] eqn:E; eauto.
  exfalso. apply nth_error_None in E.
  assert (Z.of_nat (length tag_table) = CLIENT_EXTENSION + 1) as LT by (vm_compute; reflexivity).
  lia.
Qed.

Lemma idx_inj t u : CLIENT_EXTENSION <= t -> CLIENT_EXTENSION <= u -> idx t = idx u -> t = u.
Proof. unfold idx. lia. Qed.

(** After a history: the record of a tag. *)
Fixpoint find_reg (h : list (Z * str * Z)) (t : Z) : option (str * Z) :=
  match h with
  | [] => None
  | (u, l, ty) :: r => if t =? u then Some (l, ty) else find_reg r t
  end.

Lemma find_reg_not h t : ~ In t (map (fun e => fst (fst e)) h) -> find_reg h t = None.
Proof.
  induction h as [|[[u l] ty] r IH]; auto. cbn. intros N.
  destruct (Z.eqb_spec t u); [subst; exfalso; apply N; auto|]. apply IH. tauto.
Qed.

Lemma register_all_slots h : forall reg reg', register_all reg h = Ok reg' ->
  Forall (fun e => snd e <> -1) h ->
  Forall (fun e => CLIENT_EXTENSION <= fst (fst e)) h /\
  NoDup (map (fun e => fst (fst e)) h) /\
  Forall (fun e => ext_empty (slot reg (idx (fst (fst e)))) = true) h /\
  forall t, CLIENT_EXTENSION <= t ->
    slot reg' (idx t) = match find_reg h t with Some (l, ty) => mkExt l ty | None => slot reg (idx t) end.
Proof.
  induction h as [|[[u l] ty] r IH]; intros reg reg'; cbn [register_all].
  - intros [= <-] _. conjs; auto. constructor.
  - intros H F. inversion F as [|? ? F1 F2]; subst. cbn [snd] in F1.
    apply bind_Ok in H as (r1 & H1 & H). apply register_spec in H1 as (LE & E & _ & _ & S).
    apply IH in H as (A & B & C & D); auto.
    assert (NI : ~ In u (map (fun e => fst (fst e)) r)).
    { intros I. apply in_map_iff in I as (e & EU & I). rewrite Forall_forall in C. apply C in I.
      rewrite EU, S in I. destruct (Nat.eq_dec (idx u) (idx u)); [|congruence].
      unfold ext_empty in I. cbn [ext_type] in I. apply Z.eqb_eq in I. congruence. }
    cbn [map fst]. conjs.
    + constructor; auto.
    + constructor; auto.
    + constructor; auto. rewrite Forall_forall in *. intros e I. specialize (C e I). rewrite S in C.
      destruct (Nat.eq_dec (idx u) (idx (fst (fst e)))) as [EQ|]; auto.
      exfalso. apply NI. apply idx_inj in EQ; auto. rewrite EQ. now apply (in_map (fun e => fst (fst e))).
    + intros t T. rewrite (D t T). cbn [find_reg]. destruct (Z.eqb_spec t u) as [->|NE].
      * rewrite find_reg_not, S by auto. destruct (Nat.eq_dec (idx u) (idx u)); congruence.
      * destruct (find_reg r t) as [[l' ty']|]; auto. rewrite S.
        destruct (Nat.eq_dec (idx u) (idx t)) as [EQ|]; auto. apply idx_inj in EQ; auto. congruence.
Qed.

Lemma register_all_ok h : forall reg,
  Forall (fun e => CLIENT_EXTENSION <= fst (fst e)) h ->
  NoDup (map (fun e => fst (fst e)) h) ->
  Forall (fun e => ext_empty (slot reg (idx (fst (fst e)))) = true) h ->
  exists reg', register_all reg h = Ok reg'.
Proof.
  induction h as [|[[u l] ty] r IH]; intros reg A B C; cbn [register_all]; eauto.
  inversion A; inversion B; inversion C; subst. cbn [fst] in *.
  destruct (register_ok reg u l ty) as (r1 & E); auto. rewrite E. cbn [bind].
  apply IH; auto. apply register_spec in E as (_ & _ & _ & _ & S).
  rewrite Forall_forall in *. intros e I. rewrite S.
  destruct (Nat.eq_dec (idx u) (idx (fst (fst e)))) as [EQ|]; auto.
  exfalso. apply idx_inj in EQ; auto. match goal with N : ~ In u _ |- _ => apply N end.
  rewrite EQ. now apply (in_map (fun e => fst (fst e))).
Qed.

(** Final form *)
Lemma registry_main h reg :
  Forall (fun e => snd e <> -1) h -> register_all [] h = Ok reg ->
  (forall t l ty, In (t, l, ty) h -> tag_label reg t = Ok l /\ tag_type reg t = Ok ty) /\
  (forall t, CLIENT_EXTENSION <= t -> ~ In t (map (fun e => fst (fst e)) h) ->
     tag_label reg t = Ok (L "<client-extension+" ++ to_dec_z (t - CLIENT_EXTENSION) ++ L ">") /\
     tag_type reg t = Ok 4) /\
  (forall t, 0 <= t < CLIENT_EXTENSION -> exists s ty, nth_error tag_table (Z.to_nat t) = Some (s, ty) /\
     tag_label reg t = Ok s /\ tag_type reg t = Ok ty).
Proof.
  intros F H. apply register_all_slots in H as (A & B & _ & D); auto. conjs.
  - intros t l ty I. rewrite Forall_forall in A, F. pose proof (A _ I) as LE. pose proof (F _ I) as NT.
    cbn [fst snd] in LE, NT. specialize (D t LE).
    assert (find_reg h t = Some (l, ty)) as FR.
    { clear D A F LE NT. induction h as [|[[u l'] ty'] r IH]; [contradiction|]. cbn [find_reg].
      cbn [map fst] in B. inversion B; subst. destruct I as [I|I].
      - injection I as -> -> ->. now rewrite Z.eqb_refl.
      - destruct (Z.eqb_spec t u) as [->|]; auto. exfalso. apply H1.
        now apply (in_map (fun e => fst (fst e))) in I. }
    rewrite FR in D. destruct (tag_lookup reg t LE) as [T1 T2]. rewrite T1, T2, D.
    unfold ext_empty. cbn [ext_type ext_label]. destruct (Z.eqb_spec ty (-1)); [congruence|]. auto.
  - intros t LE NI. specialize (D t LE). rewrite find_reg_not in D by auto.
    destruct (tag_lookup reg t LE) as [T1 T2]. rewrite T1, T2, D. unfold slot. destruct (idx t); auto.
  - intros t R. destruct (builtin_lookup reg t (proj2 R)) as [T1 T2].
    destruct (builtin_defined t R) as (s & ty & E). rewrite T1, T2, E. exists s, ty. cbn. conjs; auto.
    unfold table_at in E. destruct (t <? 0); [discriminate|].
    destruct (nth_error tag_table (Z.to_nat t)); [congruence|discriminate].
Qed.
Lemma registry_total h :
  Forall (fun e => CLIENT_EXTENSION <= fst (fst e)) h ->
  NoDup (map (fun e => fst (fst e)) h) -> exists reg, register_all [] h = Ok reg.
Proof.
  intros A B. apply register_all_ok; auto. apply Forall_forall. intros e _. unfold slot.
  now destruct (idx (fst (fst e))).
Qed.
