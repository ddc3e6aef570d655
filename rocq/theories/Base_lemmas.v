(** Facts about the std::string operations of Base.v. *)
From Verif Require Import Base.

Lemma ceq_true a b : ceq a b = true <-> a = b.
Proof. apply Ascii.eqb_eq. Qed.
Lemma ceq_false a b : ceq a b = false <-> a <> b.
Proof. apply Ascii.eqb_neq. Qed.
Lemma ceq_refl a : ceq a a = true.
Proof. apply Ascii.eqb_refl. Qed.

Lemma mem_In c s : mem c s = true <-> In c s.
Proof.
  unfold mem. rewrite existsb_exists. split.
  - intros (x & H & E). apply ceq_true in E. now subst.
  - intros H. exists c. split; auto. apply ceq_refl.
Qed.

Lemma bind_Ok {A B} (x : res A) (f : A -> res B) b :
  bind x f = Ok b <-> exists a, x = Ok a /\ f a = Ok b.
Proof.
  destruct x; simpl; split.
  - intros H; eauto.
  - intros (a' & E & H). inversion E; subst; auto.
  - discriminate.
  - intros (a' & E & H). discriminate.
  - discriminate.
  - intros (a' & E & H). discriminate.
Qed.

Lemma assert_Ok b u : assert_ b = Ok u <-> b = true.
Proof. destruct b, u; simpl; split; congruence. Qed.

Lemma find_from_Some p s i j :
  find_from p s i = Some j <->
  exists pre c post, s = pre ++ c :: post /\ j = i + length pre /\ p c = true
    /\ forallb (fun x => negb (p x)) pre = true.
Proof.
  revert i; induction s as [|c s IH]; intros i; simpl.
  - split; [discriminate|]. intros (pre & c & post & E & _).
    destruct pre; discriminate.
  - destruct (p c) eqn:Pc.
    + split.
      * intros [= <-]. exists [], c, s. simpl. repeat split; auto; lia.
      * intros (pre & d & post & E & J & Pd & F). destruct pre as [|x pre].
        -- simpl in *. f_equal; lia.
        -- injection E as <- E2. simpl in F. rewrite Pc in F. discriminate.
    + rewrite IH. split.
      * intros (pre & d & post & -> & J & Pd & F).
        exists (c :: pre), d, post. simpl. rewrite Pc, F. repeat split; auto; lia.
      * intros (pre & d & post & E & J & Pd & F). destruct pre as [|x pre].
        -- injection E as -> ->. congruence.
        -- injection E as <- ->. simpl in F, J. apply andb_prop in F as [_ F].
           exists pre, d, post. repeat split; auto; lia.
Qed.

Lemma find_from_None p s i :
  find_from p s i = None <-> forallb (fun x => negb (p x)) s = true.
Proof.
  revert i; induction s as [|c s IH]; intros i; simpl; [tauto|].
  destruct (p c); simpl; [split; discriminate|apply IH].
Qed.

Lemma skipn_app_len {A} (a b : list A) : skipn (length a) (a ++ b) = b.
Proof. induction a; simpl; auto. Qed.
Lemma firstn_app_len {A} (a b : list A) : firstn (length a) (a ++ b) = a.
Proof. induction a; simpl; f_equal; auto. Qed.
Lemma skipn_app_ge {A} (a b : list A) n :
  length a <= n -> skipn n (a ++ b) = skipn (n - length a) b.
Proof.
  intros H. rewrite skipn_app. rewrite (skipn_all2 a); auto.
Qed.
Lemma firstn_add {A} (l : list A) n m :
  firstn (n + m) l = firstn n l ++ firstn m (skipn n l).
Proof.
  revert l; induction n; intros l; simpl; auto.
  destruct l; simpl; [now rewrite firstn_nil | f_equal; auto].
Qed.
Lemma skipn_add {A} (l : list A) n m : skipn n (skipn m l) = skipn (m + n) l.
Proof.
  revert l; induction m; intros l; simpl; auto.
  destruct l; simpl; [now rewrite skipn_nil | auto].
Qed.
Lemma skipn_cons_nth {A} (l : list A) n x :
  nth_error l n = Some x -> skipn n l = x :: skipn (S n) l.
Proof.
  revert n; induction l as [|y l IH]; intros [|n]; simpl; try discriminate.
  - intros [= ->]; auto.
  - intros H. now rewrite (IH _ H).
Qed.
Lemma firstn_S_nth {A} (l : list A) n x :
  nth_error l n = Some x -> firstn (S n) l = firstn n l ++ [x].
Proof.
  revert n; induction l as [|y l IH]; intros [|n] H; simpl in *; try discriminate.
  - injection H as ->; auto.
  - f_equal. now apply IH.
Qed.

Lemma substr_Ok s p r : substr s p = Ok r <-> p <= length s /\ r = skipn p s.
Proof.
  unfold substr. destruct (Nat.leb_spec p (length s)); split; intros H1.
  - injection H1 as <-; auto.
  - destruct H1 as [_ ->]; auto.
  - discriminate.
  - lia.
Qed.
Lemma substr_n_Ok s p n r :
  substr_n s p n = Ok r <-> p <= length s /\ r = firstn n (skipn p s).
Proof.
  unfold substr_n. destruct (Nat.leb_spec p (length s)); split; intros H1.
  - injection H1 as <-; auto.
  - destruct H1 as [_ ->]; auto.
  - discriminate.
  - lia.
Qed.
Lemma substr_n_le s p n : p <= length s -> substr_n s p n = Ok (firstn n (skipn p s)).
Proof. intros H. apply substr_n_Ok. auto. Qed.
Lemma substr_le s p : p <= length s -> substr s p = Ok (skipn p s).
Proof. intros H. apply substr_Ok. auto. Qed.
Lemma at_Ok s i c :
  at_ s i = Ok c <-> nth_error s i = Some c \/ (i = length s /\ c = c_nul).
Proof.
  unfold at_. destruct (nth_error s i) eqn:E.
  - split; [intros [= ->]; auto|]. intros [[= ->]|[-> _]]; auto.
    assert (nth_error s (length s) = None) by (apply nth_error_None; lia).
    congruence.
  - destruct (Nat.eqb_spec i (length s)); split.
    + intros [= <-]; auto.
    + intros [H|[_ ->]]; [discriminate|auto].
    + discriminate.
    + intros [H|[H _]]; [discriminate|contradiction].
Qed.
Lemma nth_error_app_mid {A} (a : list A) x b : nth_error (a ++ x :: b) (length a) = Some x.
Proof. rewrite nth_error_app2 by lia. now rewrite Nat.sub_diag. Qed.

Lemma find_last_not_of_Some set s i :
  find_last_not_of set s = Some i ->
  exists pre c post, s = pre ++ c :: post /\ i = length pre /\
    mem c set = false /\ forallb (fun x => mem x set) post = true.
Proof.
  revert i; induction s as [|c s IH]; intros i; simpl; [discriminate|].
  destruct (find_last_not_of set s) as [k|] eqn:E.
  - intros [= <-]. destruct (IH _ eq_refl) as (pre & d & post & -> & -> & H1 & H2).
    exists (c :: pre), d, post. simpl; auto.
  - destruct (mem c set) eqn:M; [discriminate|]. intros [= <-].
    exists [], c, s. repeat split; auto.
    clear -E. induction s as [|x s IH]; simpl in *; auto.
    destruct (find_last_not_of set s); [discriminate|].
    destruct (mem x set); [simpl; auto|discriminate].
Qed.
Lemma find_last_not_of_None set s :
  find_last_not_of set s = None <-> forallb (fun x => mem x set) s = true.
Proof.
  induction s as [|c s IH]; simpl; [tauto|].
  destruct (find_last_not_of set s).
  - split; [discriminate|]. intros H. apply andb_prop in H as [_ H].
    apply IH in H. discriminate.
  - destruct IH as [IH _]. rewrite (IH eq_refl).
    destruct (mem c set); simpl; split; congruence.
Qed.

Lemma is_empty_true {A} (l : list A) : is_empty l = true <-> l = [].
Proof. destruct l; simpl; split; congruence. Qed.
Lemma is_empty_false {A} (l : list A) : is_empty l = false <-> l <> [].
Proof. destruct l; simpl; split; congruence. Qed.

Lemma spaces_length n : length (spaces n) = n.
Proof. apply repeat_length. Qed.
Lemma spaces_add n m : spaces (n + m) = spaces n ++ spaces m.
Proof. apply repeat_app. Qed.

(** Split syntactic conjunctions only. *)
Ltac conjs := repeat match goal with |- _ /\ _ => split end.
