From Verif Require Import Base Tags SyntaxTags FileEdit2_proofs Caliper Caliper_spec.
From Coq Require Import Lia.
Local Open Scope Z_scope.

Lemma kind_neq : SG_RETURN_STMT = 504 /\ SG_GOTO_STMT = 395 /\ SG_CALL_STMT = SG_CALL_STMT. Proof. repeat split. Qed.

Lemma returns_dec s : {is_return s} + {is_if_return s} + {~ returns s}.
Proof.
  unfold returns, is_return, is_if_return.
  destruct (Z.eq_dec (a_kind s) SG_RETURN_STMT); [left; left; assumption|].
  destruct (Z.eq_dec (a_kind s) (- SG_RETURN_STMT)); [left; right; assumption|].
  right. tauto.
Qed.

Lemma convert_stmt_redirected lab s : redirected lab s (convert_stmt lab s).
Proof.
  unfold redirected, returns, is_return, is_if_return, convert_stmt, goto_text.
  destruct (Z.ltb_spec (a_kind s) 0) as [N|N].
  - destruct (Z.eqb_spec SG_RETURN_STMT (-1 * a_kind s)) as [E|E]; split; [|split| |split]; intros K; try (exfalso; unfold SG_RETURN_STMT in *; lia); try reflexivity.
  - destruct (Z.eqb_spec SG_RETURN_STMT (a_kind s)) as [E|E]; split; [|split| |split]; intros K; try (exfalso; unfold SG_RETURN_STMT in *; lia); try reflexivity.
Qed.
Lemma convert_stmt_call lab p name n : convert_stmt lab (the_call p name n) = the_call p name n.
Proof. reflexivity. Qed.
Lemma redirected_no_return lab s s' : redirected lab s s' -> ~ returns s'.
Proof.
  intros (A & B & C). destruct (returns_dec s) as [[D|D]|D].
  - rewrite (A D). unfold returns, is_return, is_if_return. cbn. unfold SG_GOTO_STMT, SG_RETURN_STMT. lia.
  - rewrite (B D). unfold returns, is_return, is_if_return. cbn. unfold SG_GOTO_STMT, SG_RETURN_STMT. lia.
  - rewrite (C D). exact D.
Qed.
Lemma redirected_label lab s s' : redirected lab s s' -> a_label s' = a_label s.
Proof.
  intros (A & B & C). destruct (returns_dec s) as [[D|D]|D]; [rewrite (A D)|rewrite (B D)|rewrite (C D)]; reflexivity.
Qed.
Lemma redirected_same lab s : ~ returns s -> redirected lab s s.
Proof. intros N. unfold returns in N. split; [|split]; intros K; try (exfalso; tauto); reflexivity. Qed.

(** ** counting *)
Lemma count_spec l : let '(i, n, f) := count_return_stmts l in
  ((i = 0 /\ n = 0)%nat <-> (forall l0 r, l = l0 ++ [r] -> Forall (fun s => ~ returns s) l0 /\ ~ is_if_return r)) /\
  (f = 0 \/ f = 1)%nat /\ (f = 1%nat <-> exists l0 r, l = l0 ++ [r] /\ is_return r).
Proof.
  induction l as [|s r IH].
  - cbn. split; [|split].
    + split; [|intros _; split; reflexivity]. intros _ l0 x E. destruct l0; discriminate.
    + left; reflexivity.
    + split; [discriminate|]. intros (l0 & x & E & _). destruct l0; discriminate.
  - cbn [count_return_stmts]. destruct (count_return_stmts r) as [[i n] f] eqn:EC. destruct IH as (I1 & I2 & I3).
    assert (Q : forall a b c, (if a_kind s <? 0 then (if SG_RETURN_STMT =? -1 * a_kind s then (S i, n, f) else (i, n, f))
       else if SG_RETURN_STMT =? a_kind s then match r with [] => (i, n, S f) | _ => (i, S n, f) end else (i, n, f)) = (a, b, c) ->
       (is_if_return s /\ a = S i /\ b = n /\ c = f) \/ (is_return s /\ r = [] /\ a = i /\ b = n /\ c = S f) \/
       (is_return s /\ r <> [] /\ a = i /\ b = S n /\ c = f) \/ (~ returns s /\ a = i /\ b = n /\ c = f)).
    { intros a b c. unfold is_if_return, is_return, returns, is_if_return, is_return.
      destruct (Z.ltb_spec (a_kind s) 0) as [N|N].
      - destruct (Z.eqb_spec SG_RETURN_STMT (-1 * a_kind s)) as [E|E]; intros K; injection K as <- <- <-.
        + left. repeat split. lia.
        + right; right; right. repeat split. unfold SG_RETURN_STMT in *. lia.
      - destruct (Z.eqb_spec SG_RETURN_STMT (a_kind s)) as [E|E].
        + destruct r; intros K; injection K as <- <- <-.
          * right; left. repeat split. lia.
          * right; right; left. repeat split; [lia|discriminate].
        + intros K; injection K as <- <- <-. right; right; right. repeat split. unfold SG_RETURN_STMT in *. lia. }
    destruct (if a_kind s <? 0 then _ else _) as [[a b] c]. specialize (Q a b c eq_refl).
    destruct r as [|s2 r].
    + cbn in EC. injection EC as <- <- <-.
      assert (One : forall l0 x, [s] = l0 ++ [x] -> l0 = [] /\ x = s).
      { intros l0 x E. change [s] with ([] ++ [s]) in E. apply app_inj_tail in E. destruct E as [<- <-]. split; reflexivity. }
      destruct Q as [(A & -> & -> & ->)|[(A & _ & -> & -> & ->)|[(A & B & _)|(A & -> & -> & ->)]]].
      * split; [|split; [left; reflexivity|]].
        -- split; [intros [K _]; discriminate|]. intros K. destruct (K [] s eq_refl) as [_ K2]. contradiction.
        -- split; [discriminate|]. intros (l0 & x & E & R). destruct (One _ _ E) as [_ ->]. unfold is_return, is_if_return, SG_RETURN_STMT in *. lia.
      * split; [|split; [right; reflexivity|]].
        -- split; [|split; reflexivity]. intros _ l0 x E. destruct (One _ _ E) as [-> ->]. split; [constructor|]. unfold is_return, is_if_return, SG_RETURN_STMT in *. lia.
        -- split; [|reflexivity]. intros _. exists [], s. split; [reflexivity|exact A].
      * contradiction.
      * split; [|split; [left; reflexivity|]].
        -- split; [|split; reflexivity]. intros _ l0 x E. destruct (One _ _ E) as [-> ->]. split; [constructor|]. unfold returns in A. tauto.
        -- split; [discriminate|]. intros (l0 & x & E & R). destruct (One _ _ E) as [_ ->]. unfold returns in A. tauto.
    + assert (Dn : forall l0 x, s :: s2 :: r = l0 ++ [x] -> exists l1, l0 = s :: l1 /\ s2 :: r = l1 ++ [x]).
      { intros l0 x E. destruct l0 as [|y l0]; [discriminate|]. cbn in E. injection E as <- E. exists l0. split; [reflexivity|exact E]. }
      assert (Fin : (exists l0 x, s :: s2 :: r = l0 ++ [x] /\ is_return x) <-> exists l0 x, s2 :: r = l0 ++ [x] /\ is_return x).
      { split.
        - intros (l0 & x & E & R). destruct (Dn _ _ E) as (l1 & -> & E1). exists l1, x. split; assumption.
        - intros (l0 & x & E & R). exists (s :: l0), x. split; [cbn; rewrite E; reflexivity|exact R]. }
      assert (Ex : exists l1 x, s2 :: r = l1 ++ [x]). { destruct (exists_last (l := s2 :: r) ltac:(discriminate)) as (l1 & x & E). exists l1, x. exact E. }
      destruct Q as [(A & -> & -> & ->)|[(A & B & _)|[(A & B & -> & -> & ->)|(A & -> & -> & ->)]]].
      * split; [|split; [exact I2|rewrite Fin; exact I3]].
        split; [intros [K _]; discriminate|]. intros K. destruct Ex as (l1 & x & E). destruct (K (s :: l1) x) as [K1 _]; [cbn; rewrite E; reflexivity|].
        inversion K1 as [|? ? K2]; subst. exfalso. apply K2. right. exact A.
      * discriminate.
      * split; [|split; [exact I2|rewrite Fin; exact I3]].
        split; [intros [_ K]; discriminate|]. intros K. destruct Ex as (l1 & x & E). destruct (K (s :: l1) x) as [K1 _]; [cbn; rewrite E; reflexivity|].
        inversion K1 as [|? ? K2]; subst. exfalso. apply K2. left. exact A.
      * split; [|split; [exact I2|rewrite Fin; exact I3]].
        rewrite I1. split; intros K l0 x E.
        -- destruct (Dn _ _ E) as (l1 & -> & E1). destruct (K l1 x E1) as [K1 K2]. split; [constructor; assumption|exact K2].
        -- destruct (K (s :: l0) x) as [K1 K2]; [cbn; rewrite E; reflexivity|]. inversion K1; subst. split; assumption.
Qed.

(** ** the label *)
Lemma existsb_In n l : existsb (Z.eqb n) l = true <-> In n l.
Proof.
  rewrite existsb_exists. split.
  - intros (x & I & E). apply Z.eqb_eq in E. subst x. exact I.
  - intros I. exists n. split; [exact I|apply Z.eqb_refl].
Qed.
Lemma unused_label_spec ls : forall k lab, 0 <= lab -> Z.to_nat lab = k ->
  let r := unused_label k lab ls in
  0 <= r <= lab /\ (0 < r -> ~ In r ls) /\ (forall m, r < m <= lab -> In m ls).
Proof.
  induction k as [|k IH]; intros lab P E; cbn [unused_label].
  - split; [lia|]. split; [lia|intros m; lia].
  - destruct (Z.ltb_spec 0 lab) as [Q|Q]; [|lia]. cbn [andb]. destruct (existsb (Z.eqb lab) ls) eqn:X.
    + destruct (IH (lab - 1) ltac:(lia) ltac:(lia)) as (A & B & C). split; [lia|]. split; [exact B|].
      intros m M. destruct (Z.eq_dec m lab) as [->|N]; [apply existsb_In, X|]. apply C. lia.
    + split; [lia|]. split; [|intros m; lia]. intros _ I. apply existsb_In in I. congruence.
Qed.
Lemma scan_labels_In l n : In n (scan_labels l) <-> labels l n.
Proof.
  unfold scan_labels, labels. rewrite in_map_iff. split.
  - intros (s & E & I). apply filter_In in I. destruct I as [I P]. apply Z.ltb_lt in P. subst n. split; [exact P|]. exists s. split; [exact I|reflexivity].
  - intros (P & s & I & E). exists s. split; [exact E|]. apply filter_In. split; [exact I|]. apply Z.ltb_lt. lia.
Qed.

(** ** converting *)
Lemma convert_spec lab : forall l l', convert_return_stmts lab l = Ok l' -> Forall2 (redirected lab) l l'.
Proof.
  induction l as [|s r IH]; intros l' H; cbn [convert_return_stmts] in H; [injection H as <-; constructor|].
  destruct (negb (is_empty r && (SG_RETURN_STMT =? a_kind s))); cbn [assert_ bind] in H; [|discriminate].
  destruct (convert_return_stmts lab r) as [r'| |] eqn:E; cbn [bind] in H; try discriminate. injection H as <-.
  constructor; [apply convert_stmt_redirected|apply IH; reflexivity].
Qed.
Lemma convert_defined lab : forall l x, ~ is_return x -> convert_return_stmts lab (l ++ [x]) = Ok (map (convert_stmt lab) (l ++ [x])).
Proof.
  induction l as [|s r IH]; intros x N; cbn [app convert_return_stmts map].
  - replace (SG_RETURN_STMT =? a_kind x) with false; [reflexivity|]. symmetry. apply Z.eqb_neq. unfold is_return in N. congruence.
  - replace (is_empty (r ++ [x])) with false by (destruct r; reflexivity). cbn [andb negb assert_ bind]. rewrite IH by exact N. reflexivity.
Qed.
Lemma F2_convert lab l : Forall2 (redirected lab) l (map (convert_stmt lab) l).
Proof. induction l; constructor; [apply convert_stmt_redirected|assumption]. Qed.
Lemma F2_same lab l : Forall (fun s => ~ returns s) l -> Forall2 (redirected lab) l l.
Proof. induction 1; constructor; [apply redirected_same|]; assumption. Qed.

(** ** the whole *)
Definition split_of (l : list astmt) (l0 : list astmt) (lab0 : Z) : Prop :=
  (exists r, l = l0 ++ [r] /\ is_return r /\ lab0 = a_label r) \/
  (l = l0 /\ lab0 = 0 /\ forall l1 r, l = l1 ++ [r] -> ~ is_return r).
Definition needs (l0 : list astmt) : Prop := Exists returns l0.
Lemma needs_dec l0 : {needs l0} + {Forall (fun s => ~ returns s) l0}.
Proof.
  induction l0 as [|s l IH]; [right; constructor|].
  destruct (returns_dec s) as [[D|D]|D]; [left; left; left; exact D|left; left; right; exact D|].
  destruct IH as [I|I]; [left; right; exact I|right; constructor; assumption].
Qed.
Lemma not_needs l0 : Forall (fun s => ~ returns s) l0 -> ~ needs l0.
Proof. intros F N. induction N; inversion F; subst; contradiction. Qed.

Lemma caliper_eq name others l : exists l0 lab0, split_of l l0 lab0 /\
  let body := the_call "caliper_begin" name 0 :: l0 in
  (needs l0 -> caliper_procedure name others l =
     if 0 <? lab0 then Ok (map (convert_stmt lab0) body ++ [the_call "caliper_end" name lab0])
     else let label := unused_label (Z.to_nat 9999) 9999 (scan_labels (others ++ body ++ [the_call "caliper_end" name lab0])) in
       if 0 <? label then Ok (map (convert_stmt label) body ++ [the_call "caliper_end" name label]) else UB) /\
  (~ needs l0 -> caliper_procedure name others l = Ok (body ++ [the_call "caliper_end" name lab0])).
Proof.
  unfold caliper_procedure. pose proof (count_spec l) as C. destruct (count_return_stmts l) as [[i n] f]. destruct C as (C1 & C2 & C3).
  replace ((f =? 0)%nat || (f =? 1)%nat) with true by (destruct C2 as [-> | ->]; reflexivity). cbn [assert_ bind].
  assert (B : exists l0 lab0, split_of l l0 lab0 /\
    (if (f =? 0)%nat then (call_of "caliper_begin" name :: l, call_of "caliper_end" name)
     else (removelast (call_of "caliper_begin" name :: l), mkA (a_label (last (call_of "caliper_begin" name :: l) (call_of "caliper_end" name))) (a_kind (call_of "caliper_end" name)) (a_front (call_of "caliper_end" name)) (a_action (call_of "caliper_end" name)))) =
    (the_call "caliper_begin" name 0 :: l0, the_call "caliper_end" name lab0) /\
    ((i = 0 /\ n = 0)%nat <-> ~ needs l0)).
  { destruct C2 as [-> | ->].
    - exists l, 0. split; [right|split].
      + split; [reflexivity|]. split; [reflexivity|]. intros l1 r E R. assert (K : 0%nat = 1%nat) by (apply C3; exists l1, r; split; assumption). discriminate.
      + reflexivity.
      + rewrite C1. split.
        * intros K N. destruct l as [|s r]; [inversion N|]. destruct (exists_last (l := s :: r) ltac:(discriminate)) as (l1 & x & E). destruct (K _ _ E) as [K1 K2].
          rewrite E in N. apply Exists_app in N. destruct N as [N|N]; [exact (not_needs _ K1 N)|].
          inversion N as [? ? R|? ? R]; subst; [|inversion R]. destruct R as [R|R]; [|contradiction].
          assert (Q : 0%nat = 1%nat) by (apply C3; exists l1, x; split; assumption). discriminate.
        * intros N l1 x E. destruct (needs_dec l) as [Q|Q]; [contradiction|]. rewrite E in Q. apply Forall_app in Q. destruct Q as [Q1 Q2]. inversion Q2; subst.
          split; [exact Q1|]. intros R. match goal with H : ~ returns x |- _ => apply H; right; exact R end.
    - destruct (proj1 C3 eq_refl) as (l0 & r & E & R). exists l0, (a_label r). split; [left; exists r; auto|split].
      + subst l. cbn [Nat.eqb]. rewrite app_comm_cons, removelast_last, last_last. reflexivity.
      + rewrite C1. split.
        * intros K N. destruct (K _ _ E) as [K1 _]. exact (not_needs _ K1 N).
        * intros N l1 x E1. rewrite E in E1. apply app_inj_tail in E1. destruct E1 as [<- <-]. destruct (needs_dec l0) as [Q|Q]; [contradiction|].
          split; [exact Q|]. unfold is_return, is_if_return, SG_RETURN_STMT in *. lia. }
  destruct B as (l0 & lab0 & S0 & E0 & N0). exists l0, lab0. split; [exact S0|]. rewrite E0. cbv zeta. split.
  - intros N. replace ((i =? 0)%nat && (n =? 0)%nat) with false.
    2:{ symmetry. apply Bool.not_true_is_false. intros K. apply andb_prop in K. destruct K as [K1 K2]. apply Nat.eqb_eq in K1, K2. apply N0; [|exact N]. split; assumption. }
    cbn [a_label the_call]. destruct (0 <? lab0) eqn:P.
    + rewrite convert_defined; [|vm_compute; discriminate]. rewrite map_app. reflexivity.
    + destruct (0 <? unused_label (Z.to_nat 9999) 9999 _) eqn:Q; cbn [assert_ bind]; [|reflexivity].
      unfold relabel. rewrite convert_defined; [|vm_compute; discriminate]. rewrite map_app. reflexivity.
  - intros N. apply N0 in N. destruct N as [-> ->]. reflexivity.
Qed.

Lemma to_dec_z_inj a b : 0 < a -> 0 < b -> to_dec_z a = to_dec_z b -> a = b.
Proof.
  intros A B E. unfold to_dec_z in E. destruct (Z.ltb_spec a 0); [lia|]. destruct (Z.ltb_spec b 0); [lia|].
  pose proof (to_dec_spec (Z.to_N a)) as (_ & _ & DA & _). pose proof (to_dec_spec (Z.to_N b)) as (_ & _ & DB & _).
  rewrite E in DA. rewrite DA in DB. lia.
Qed.
Lemma goto_jumps_ok : jumps_ok goto_jumps.
Proof.
  split.
  - intros p name lab n ([K|K] & _); vm_compute in K; discriminate.
  - intros lab k front n m P (_ & M & E) _. cbn [a_action] in E. apply app_inv_head in E. symmetry. apply to_dec_z_inj; assumption.
Qed.

(** the result, in one piece *)
Lemma caliper_cases name others l l' : caliper_procedure name others l = Ok l' ->
  exists l0 lab0 lab body, split_of l l0 lab0 /\ l' = the_call "caliper_begin" name 0 :: body ++ [the_call "caliper_end" name lab] /\
  Forall2 (redirected lab) l0 body /\
  (0 < lab0 -> lab = lab0) /\ (lab0 <= 0 -> needs l0 -> 0 < lab <= 9999 /\ ~ labels (others ++ l) lab) /\ (~ needs l0 -> lab = lab0).
Proof.
  intros H. destruct (caliper_eq name others l) as (l0 & lab0 & S0 & HN & HK). exists l0, lab0.
  destruct (needs_dec l0) as [N|N].
  - rewrite (HN N) in H. destruct (Z.ltb_spec 0 lab0) as [P|P].
    + injection H as <-. exists lab0, (map (convert_stmt lab0) l0). split; [exact S0|]. split; [reflexivity|]. split; [apply F2_convert|].
      split; [reflexivity|]. split; [lia|reflexivity].
    + cbv zeta in H. remember (Z.to_nat 9999) as k eqn:Ek. set (ls := scan_labels _) in H.
      pose proof (unused_label_spec ls k 9999 ltac:(lia) ltac:(congruence)) as (U1 & U2 & U3). destruct (Z.ltb_spec 0 (unused_label k 9999 ls)) as [Q|Q]; [|discriminate].
      injection H as <-. exists (unused_label k 9999 ls), (map (convert_stmt (unused_label k 9999 ls)) l0). split; [exact S0|]. split; [reflexivity|]. split; [apply F2_convert|].
      split; [lia|]. split; [|contradiction]. intros _ _. split; [lia|]. intros I. apply (U2 Q). unfold ls. apply scan_labels_In.
      destruct I as (_ & s & I & E). split; [exact Q|]. apply in_app_or in I. destruct I as [I|I]; [exists s; split; [apply in_or_app; left; exact I|exact E]|].
      destruct S0 as [(r & -> & R & ->)|(-> & _)].
      * apply in_app_or in I. destruct I as [I|[<-|[]]]; [|lia]. exists s. split; [|exact E]. apply in_or_app. right. cbn [app]. right. apply in_or_app. left. exact I.
      * exists s. split; [|exact E]. apply in_or_app. right. cbn [app]. right. apply in_or_app. left. exact I.
  - rewrite (HK (not_needs _ N)) in H. injection H as <-. exists lab0, l0. split; [exact S0|]. split; [reflexivity|]. split; [apply F2_same; exact N|].
    split; [reflexivity|]. split; [|reflexivity]. intros _ K. contradiction (not_needs _ N K).
Qed.
Lemma F2_labels lab l m : Forall2 (redirected lab) l m -> map a_label m = map a_label l.
Proof. induction 1 as [|s s' l m R F IH]; [reflexivity|]. cbn. rewrite IH, (redirected_label _ _ _ R). reflexivity. Qed.
Lemma F2_In lab l m s' : Forall2 (redirected lab) l m -> In s' m -> exists s, In s l /\ redirected lab s s'.
Proof.
  induction 1 as [|s x l m R F IH]; intros I; [contradiction|]. destruct I as [->|I]; [exists s; split; [left; reflexivity|exact R]|].
  destruct (IH I) as (y & Y & Z0). exists y. split; [right; exact Y|exact Z0].
Qed.
Lemma labels_map l n : labels l n <-> 0 < n /\ In n (map a_label l).
Proof.
  unfold labels. rewrite in_map_iff. split; intros (P & s & A & B); split; try exact P; exists s; split; assumption.
Qed.
