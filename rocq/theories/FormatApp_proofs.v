(** Proofs about the line filters of flpr-format. *)
From Coq Require Import Lia.
From Verif Require Import Base Base_lemmas Tags FileLine Token LogicalLine Stmts Stmts_spec Stmts_proofs LineEdit LineEdit_spec LineFlow_spec LineFlow_proofs
  FormatApp FormatApp_spec.
Local Open Scope nat_scope.

Definition shift (k : nat) (r : nat * nat) : nat * nat := (k + fst r, k + snd r).
Lemma loop_shift : forall l k i sb, fst (init_stmts_loop l (k + i) (option_map (Nat.add k) sb)) = map (shift k) (fst (init_stmts_loop l i sb)).
Proof.
  induction l as [|x l IH]; intros k i sb; cbn [init_stmts_loop].
  - destruct sb as [b|]; cbn [option_map]; [|reflexivity]. destruct (Nat.eqb_spec (k + b) (k + i)), (Nat.eqb_spec b i); try lia; reflexivity.
  - destruct (is_semi x).
    + pose proof (IH k (S i) None) as H. cbn [option_map] in H. rewrite Nat.add_succ_r in H. destruct (init_stmts_loop l (S (k + i)) None) as [st n], (init_stmts_loop l (S i) None) as [st' n']. cbn [fst] in *.
      destruct sb as [b|]; cbn [option_map].
      * destruct (Nat.eqb_spec (k + b) (k + i)), (Nat.eqb_spec b i); try lia; cbn [map]; rewrite H; reflexivity.
      * rewrite !Nat.eqb_refl. exact H.
    + destruct sb as [b|]; cbn [option_map]; rewrite <- Nat.add_succ_r; [apply (IH k (S i) (Some b))|apply (IH k (S i) (Some i))].
Qed.
Definition closed (t : list Token) : Prop := t = [] \/ exists x t', t = x :: t' /\ is_semi x = true.
Lemma loop_run : forall s i b t, Forall (fun x => is_semi x = false) s -> b < i + length s -> closed t ->
  fst (init_stmts_loop (s ++ t) i (Some b)) = (b, i + length s) :: fst (init_stmts_loop t (i + length s) None).
Proof.
  induction s as [|x s IH]; intros i b t F L C.
  - cbn [app length] in *. rewrite Nat.add_0_r in *. destruct C as [->|(x & t' & -> & S)]; cbn [init_stmts_loop].
    + destruct (Nat.eqb_spec b i); [lia|reflexivity].
    + rewrite S. destruct (init_stmts_loop t' (Datatypes.S i) None). destruct (Nat.eqb_spec b i); [lia|]. rewrite Nat.eqb_refl. reflexivity.
  - inversion F as [|? ? S F']; subst. cbn [app init_stmts_loop]. rewrite S. cbn [length] in *. rewrite IH; auto; [|lia]. replace (i + Datatypes.S (length s)) with (Datatypes.S i + length s) by lia. reflexivity.
Qed.
Lemma loop_front : forall p i t, Forall (fun x => is_semi x = true) p -> fst (init_stmts_loop (p ++ t) i None) = fst (init_stmts_loop t (i + length p) None).
Proof.
  induction p as [|x p IH]; intros i t F; cbn [app length]; [rewrite Nat.add_0_r; reflexivity|]. inversion F as [|? ? S F']; subst. cbn [init_stmts_loop]. rewrite S.
  specialize (IH (Datatypes.S i) t F'). destruct (init_stmts_loop (p ++ t) (Datatypes.S i) None). rewrite Nat.eqb_refl. cbn [fst] in *. rewrite IH. f_equal. f_equal. lia.
Qed.
Lemma run_split : forall l, exists s t, l = s ++ t /\ Forall (fun x => is_semi x = false) s /\ closed t.
Proof.
  induction l as [|x l (s & t & -> & F & C)]; [exists [], []; repeat split; [constructor|left; reflexivity]|]. destruct (is_semi x) eqn:S.
  - exists [], (x :: s ++ t). repeat split; [constructor|right; eauto].
  - exists (x :: s), t. repeat split; [constructor; auto|exact C].
Qed.
Lemma run_segs s t : s <> [] -> Forall (fun x => is_semi x = false) s -> closed t -> filter nonempty (segments (s ++ t)) = s :: filter nonempty (segments t).
Proof.
  intros NE F [->|(x & t' & -> & S)].
  - rewrite app_nil_r, no_semi_segments by exact F. destruct s; [congruence|reflexivity].
  - rewrite segments_app_semi by exact S. rewrite (no_semi_segments s F). cbn [segments app filter]. rewrite S. cbn [filter nonempty is_empty negb]. destruct s; [congruence|reflexivity].
Qed.
(** the first statement of a line, and the rest *)
Lemma init_first l : Forall (fun x => is_semi x = true) l /\ fst (init_stmts l) = [] /\ filter nonempty (segments l) = [] \/
  exists p s t, l = p ++ s ++ t /\ Forall (fun x => is_semi x = true) p /\ s <> [] /\ Forall (fun x => is_semi x = false) s /\ closed t /\
    fst (init_stmts l) = (length p, length p + length s) :: map (shift (length p + length s)) (fst (init_stmts t)) /\
    filter nonempty (segments l) = s :: filter nonempty (segments t).
Proof.
  destruct (drop_semis_split l) as (p & E & F & [D|(x & r & D & S)]).
  - left. rewrite D, app_nil_r in E. subst p. split; [exact F|]. split; [|apply segs_semis; exact F].
    unfold init_stmts. rewrite <- (app_nil_r l), loop_front by exact F. reflexivity.
  - right. rewrite D in E. destruct (run_split r) as (s & t & -> & FS & C). exists p, (x :: s), t. split; [exact E|]. split; [exact F|]. split; [discriminate|].
    assert (FX : Forall (fun x => is_semi x = false) (x :: s)) by (constructor; auto). split; [exact FX|]. split; [exact C|]. split.
    + unfold init_stmts. rewrite E, loop_front by exact F. cbn [app init_stmts_loop]. rewrite S. rewrite loop_run by (auto; lia).
      cbn [Nat.add length]. replace (Datatypes.S (length p + length s)) with (length p + Datatypes.S (length s)) by lia. f_equal.
      pose proof (loop_shift t (length p + Datatypes.S (length s)) 0 None) as H. cbn [option_map] in H. rewrite Nat.add_0_r in H. exact H.
    + rewrite E, segs_front by exact F. apply (run_segs (x :: s)); auto. discriminate.
Qed.

Lemma redo_idem ll : redo_stmts (redo_stmts ll) = redo_stmts ll.
Proof. unfold redo_stmts. destruct (init_stmts (l_frags ll)) eqn:E. cbn [l_frags l_label l_cat l_suppress l_reformat l_nsemi l_layout l_stmts]. rewrite E. reflexivity. Qed.
Lemma forall2_imp {A B} (P Q : A -> B -> Prop) l m : (forall a b, P a b -> Q a b) -> Forall2 P l m -> Forall2 Q l m.
Proof. intros H F. induction F; constructor; auto. Qed.
Lemma redo_stmts_of ll : redo_stmts ll = ll -> l_stmts ll = fst (init_stmts (l_frags ll)) /\ l_nsemi ll = Z.of_nat (snd (init_stmts (l_frags ll))).
Proof. intro H. rewrite <- H. unfold redo_stmts. destruct (init_stmts (l_frags ll)) eqn:E. cbn [l_stmts l_nsemi l_frags]. rewrite E. auto. Qed.
Lemma redo_keeps ll : l_layout (redo_stmts ll) = l_layout ll /\ l_frags (redo_stmts ll) = l_frags ll /\ l_label (redo_stmts ll) = l_label ll /\ l_cat (redo_stmts ll) = l_cat ll /\
  l_suppress (redo_stmts ll) = l_suppress ll.
Proof. unfold redo_stmts. destruct (init_stmts (l_frags ll)). repeat split. Qed.

(** ready for making the text from any of the tokens *)
Definition flowing (ll : LLn) (fr : list Token) : Prop := exists f r, l_layout ll = f :: r /\ is_fortran f = true /\ Forall usable r /\ lead f + 2 < 76 /\ spaced fr.
Lemma spaced_run p s t : spaced (p ++ s ++ t) -> Forall (fun x => is_semi x = false) s -> Forall (fun x => tk_pre x <> None) (tl s).
Proof.
  intros SP F. destruct s as [|h s]; [constructor|]. cbn [tl]. apply Forall_forall. intros x I N. apply in_split in I as (u & v & ->).
  destruct (SP (p ++ h :: u) x (v ++ t)) as [E|(a' & y & E & SY)]; [rewrite <- !app_assoc; cbn [app]; rewrite <- app_assoc; reflexivity|exact N|destruct p; discriminate|].
  assert (Y : In y (h :: u ++ x :: v)).
  { destruct (exists_last (l := h :: u)) as (w & z & W); [discriminate|]. rewrite W, app_assoc in E. apply app_inj_tail in E as [_ <-].
    change (h :: u ++ x :: v) with ((h :: u) ++ x :: v). rewrite W. rewrite !in_app_iff. left. right. left. reflexivity. }
  rewrite Forall_forall in F. rewrite (F y Y) in SY. discriminate.
Qed.
Lemma spaced_suffix p t : spaced (p ++ t) -> spaced t.
Proof.
  intros SP a x b -> N. destruct a as [|a0 a]; [left; reflexivity|]. right. destruct (SP (p ++ a0 :: a) x b) as [E|(a' & y & E & SY)]; [rewrite <- app_assoc; reflexivity|exact N|destruct p; discriminate|].
  destruct (exists_last (l := a0 :: a)) as (w & z & W); [discriminate|]. rewrite W, app_assoc in E. apply app_inj_tail in E as [_ ->]. eauto.
Qed.
Lemma flow_line ll l fr : flowing ll l -> Forall (fun x => tk_pre x <> None) (tl fr) -> exists ll', text_from_frags (set_frags ll (l_layout ll) fr) = Ok ll' /\ rewritten ll fr ll'.
Proof.
  intros (f & r & El & F & U & W & _) P.
  destruct (flow_ok (set_frags ll (l_layout ll) fr) f r El F U W P) as (ll' & E & Sp & R1 & R2 & R3 & R4 & R5 & R6 & R7 & R8 & R9).
  exists ll'. split; [exact E|]. cbn [set_frags l_frags l_label l_cat l_layout] in *.
  split; [exact R1|]. split; [exact Sp|]. split; [exact R6|]. split; [exact R7|]. split; [exact R2|]. split; [exact R3|]. split; [|split; [|split; [exact R9|]]].
  - intro NE. destruct (R8 NE) as (g & q & G1 & G2 & G3 & G4). exists g, q, f, r. auto.
  - intro NE. destruct (R8 NE) as (g & q & G1 & _). unfold text_from_frags in E. cbn [set_frags l_layout l_frags l_suppress] in E. rewrite El, F in E. cbn [negb] in E.
    destruct (max_main_txt_len _) as [mx| |]; try discriminate. cbn [bind] in E. destruct (place_all _ _ _ _) as [u| |]; try discriminate. cbn [bind] in E.
    destruct (if is_empty fr then _ else _) as [d rs]. injection E as <-. match type of G1 with l_layout (redo_stmts ?m) = _ => destruct (redo_keeps m) as (K1 & _ & _ & _ & K5) end.
    rewrite K5. rewrite K1 in G1. cbn [l_suppress l_layout] in *. rewrite G1. cbn [is_empty]. rewrite andb_false_r, orb_false_r. reflexivity.
  - unfold text_from_frags in E. cbn [set_frags l_layout l_frags] in E. rewrite El, F in E. cbn [negb] in E.
    destruct (max_main_txt_len _) as [mx| |]; try discriminate. cbn [bind] in E. destruct (place_all _ _ _ _) as [u| |]; try discriminate. cbn [bind] in E.
    destruct (if is_empty fr then _ else _) as [d rs]. injection E as <-. apply redo_idem.
Qed.
Lemma rewritten_same ll ll0 s ll' : l_layout ll = l_layout ll0 -> l_label ll = l_label ll0 -> l_cat ll = l_cat ll0 -> l_suppress ll = l_suppress ll0 -> rewritten ll s ll' -> rewritten ll0 s ll'.
Proof. intros E1 E2 E3 E4. unfold rewritten. rewrite E1, E2, E3, E4. auto. Qed.
Lemma fortran_same ll ll0 : l_layout ll = l_layout ll0 -> l_suppress ll = l_suppress ll0 -> has_fortran ll = has_fortran ll0.
Proof. intros E1 E2. unfold has_fortran. rewrite E1, E2. reflexivity. Qed.
Lemma flow_run ll p s t l : flowing ll l -> l = p ++ s ++ t -> Forall (fun x => is_semi x = false) s -> exists ll', text_from_frags (set_frags ll (l_layout ll) s) = Ok ll' /\ rewritten ll s ll'.
Proof. intros FL -> F. apply (flow_line _ _ _ FL). destruct FL as (_ & _ & _ & _ & _ & _ & S). exact (spaced_run _ _ _ S F). Qed.

(** a line that has been split, down to its last statement *)
Lemma split_rest : forall n ll, redo_stmts ll = ll -> has_fortran ll = true -> flowing ll (l_frags ll) -> length (statements_of ll) <= n ->
  (exists x r, l_frags ll = x :: r /\ is_semi x = false) ->
  exists out c, split_line n true ll = Ok (out, c, false) /\ Forall2 (rewritten ll) (statements_of ll) out.
Proof.
  induction n as [|n IH]; intros ll RD HF FL LN (x & r & EX & SX).
  - exfalso. unfold statements_of in LN. destruct (init_first (l_frags ll)) as [(F & _)|(p & s & t & _ & _ & _ & _ & _ & _ & E)]; [rewrite EX in F; inversion F; congruence|]. rewrite E in LN. cbn in LN. lia.
  - destruct (redo_stmts_of ll RD) as (ES & _). unfold statements_of in *.
    destruct (init_first (l_frags ll)) as [(F & _)|(p & s & t & EL & FP & NS & FS & C & EI & EG)]; [rewrite EX in F; inversion F; congruence|].
    assert (p = []) as ->. { destruct p as [|y p]; [reflexivity|]. rewrite EX in EL. injection EL as -> _. inversion FP; congruence. }
    cbn [app length Nat.add] in EL, EI. rewrite EG in *.
    destruct (init_first t) as [(FT & ET & GT)|(p' & s' & t' & EL' & FP' & NS' & FS' & C' & EI' & EG')].
    + rewrite ET in EI. rewrite GT. cbn [split_line]. rewrite HF. cbn [negb]. rewrite ES, EI. cbn [map]. rewrite EL, firstn_app, Nat.sub_diag, firstn_O, firstn_all, app_nil_r.
      destruct (flow_run ll [] s t _ FL EL FS) as (ll' & E & R).
      rewrite E. cbn [bind]. eauto.
    + cbn [split_line]. rewrite HF. cbn [negb]. rewrite ES, EI, EI'. cbn [map shift fst snd]. rewrite EL, firstn_app, Nat.sub_diag, firstn_O, firstn_all, app_nil_r. cbn [skipn].
      destruct (flow_run ll [] s t _ FL EL FS) as (ll' & E & R). rewrite E. cbn [bind].
      rewrite EL', app_assoc, <- app_length. rewrite skipn_app, skipn_all, Nat.sub_diag. cbn [skipn app].
      set (old := redo_stmts (set_frags ll (l_layout ll) (s' ++ t'))).
      destruct (redo_keeps (set_frags ll (l_layout ll) (s' ++ t'))) as (K1 & K2 & K3 & K4 & K5). fold old in K1, K2, K3, K4, K5. cbn [set_frags l_layout l_frags l_label l_cat l_suppress] in K1, K2, K3, K4, K5.
      assert (GO : filter nonempty (segments (s' ++ t')) = filter nonempty (segments t)) by (rewrite EL', (segs_front p' (s' ++ t') FP'); reflexivity).
      destruct (IH old) as (out & c & E2 & R2).
      * unfold old. apply redo_idem.
      * rewrite (fortran_same old ll K1 K5). exact HF.
      * destruct FL as (f & r0 & H1 & H2 & H3 & H4 & H5). exists f, r0. rewrite K1, K2. repeat (split; [assumption|]). rewrite EL, EL', app_assoc in H5. exact (spaced_suffix _ _ H5).
      * rewrite K2, GO. cbn [length] in LN. lia.
      * rewrite K2. destruct s' as [|y s']; [congruence|]. exists y, (s' ++ t'). split; [reflexivity|]. inversion FS'; auto.
      * rewrite E2. cbn [bind]. exists (redo_stmts ll' :: out), true. split; [reflexivity|]. constructor.
        -- destruct R as (R1 & R2' & R3 & R4 & R5 & R6 & R7 & R7' & R8 & R9). rewrite R9. unfold rewritten. auto 12.
        -- rewrite K2, GO in R2. rewrite <- EL'. eapply forall2_imp; [|exact R2]. intros a b. apply rewritten_same; auto.
Qed.
Lemma semis_count l : existsb is_semi l = (0 <? semicolons l).
Proof. unfold semicolons. induction l as [|x l IH]; [reflexivity|]. cbn [existsb filter]. destruct (is_semi x); [reflexivity|exact IH]. Qed.
Lemma nsemi_of ll : redo_stmts ll = ll -> l_nsemi ll = Z.of_nat (semicolons (l_frags ll)).
Proof. intro H. destruct (redo_stmts_of ll H) as (_ & E). rewrite E. pose proof (init_stmts_main (l_frags ll)) as M. destruct (init_stmts (l_frags ll)). cbn [snd]. destruct M as (-> & _). reflexivity. Qed.
(** one line of the file *)
Lemma split_one ll : line_ready ll -> exists out c, split_line (length (l_stmts ll)) false ll = Ok (out, c, false) /\ split_into ll out /\ c = has_fortran ll && has_semi ll.
Proof.
  intros (RD & RY). destruct (redo_stmts_of ll RD) as (ES & _). pose proof (nsemi_of ll RD) as EN. unfold split_into.
  destruct (has_fortran ll) eqn:HF; cbn [andb]; [|destruct (length (l_stmts ll)); cbn [split_line]; rewrite HF; cbn [negb]; eauto].
  unfold statements_of, has_semi in *. rewrite semis_count in *.
  assert (LF : length (l_stmts ll) = length (filter nonempty (segments (l_frags ll)))).
  { rewrite ES. pose proof (init_stmts_main (l_frags ll)) as M. destruct (init_stmts (l_frags ll)). cbn [fst]. destruct M as (_ & M & _). rewrite <- M, map_length. reflexivity. }
  destruct (Nat.ltb_spec 0 (semicolons (l_frags ll))) as [LT|GE].
  - destruct (RY eq_refl eq_refl) as (f & r & H1 & H2 & H3 & H4 & H5 & H6).
    assert (FL : flowing ll (l_frags ll)) by (exists f, r; auto).
    destruct (init_first (l_frags ll)) as [(F & EI & EG)|(p & s & t & EL & FP & NS & FS & C & EI & EG)].
    + (* nothing but semicolons *)
      rewrite EG. rewrite EI in ES. rewrite ES. cbn [length split_line]. rewrite HF, ES. cbn [negb]. unfold ll_has_empty. rewrite EN, ES.
      destruct (Z.ltb_spec (-1) (Z.of_nat (semicolons (l_frags ll)))); [|lia]. cbn [assert_ bind length]. destruct (Z.ltb_spec 0 (Z.of_nat (semicolons (l_frags ll)))); [|lia]. destruct (Z.leb_spec (Z.of_nat 0) (Z.of_nat (semicolons (l_frags ll)))); [|lia]. cbn [andb].
      destruct (remove_empty_main (l_frags ll) H6) as (rm & ch & E & _ & CH & SG & _). rewrite EG in SG. subst rm. rewrite EI in E. cbn [length] in E.
      unfold ll_remove_empty. rewrite ES. cbn [length]. rewrite E. cbn [bind].
      assert (ch = true) as ->. { apply CH. intro X. rewrite <- X in LT. cbn in LT. lia. }
      destruct (flow_line ll _ [] FL) as (ll' & E2 & R); [constructor|]. rewrite E2. cbn [bind]. exists [ll'], true. split; [reflexivity|]. split; [exists ll'; auto|reflexivity].
    + rewrite EG. destruct (init_first t) as [(FT & ET & GT)|(p' & s' & t' & EL' & FP' & NS' & FS' & C' & EI' & EG')].
      * rewrite GT. rewrite ET in EI. rewrite EI in ES. cbn [map] in ES. rewrite ES. cbn [length split_line]. rewrite HF, ES. cbn [negb]. unfold ll_has_empty. rewrite EN, ES.
        destruct (Z.ltb_spec (-1) (Z.of_nat (semicolons (l_frags ll)))); [|lia]. cbn [assert_ bind length]. destruct (Z.ltb_spec 0 (Z.of_nat (semicolons (l_frags ll)))); [|lia]. destruct (Z.leb_spec (Z.of_nat 1) (Z.of_nat (semicolons (l_frags ll)))); [|lia]. cbn [andb].
        destruct (remove_empty_main (l_frags ll) H6) as (rm & ch & E & SB & CH & SG & _). rewrite EG, GT in SG. rewrite EI in E. cbn [map length] in E.
        assert (rm = s) as ->. { pose proof (segments_length rm) as L. rewrite SG in L. cbn [length] in L. assert (FR : Forall (fun x => is_semi x = false) rm).
          { apply Forall_forall. intros y Y. destruct (is_semi y) eqn:SY; [|reflexivity]. assert (XS : existsb is_semi rm = true) by (apply existsb_exists; eauto). rewrite semis_count in XS. apply Nat.ltb_lt in XS. lia. }
          rewrite (no_semi_segments rm FR) in SG. congruence. }
        unfold ll_remove_empty. rewrite ES. cbn [length]. rewrite E. cbn [bind].
        assert (ch = true) as ->. { apply CH. intro X. rewrite <- X in LT. assert (Q : semicolons s = 0) by (unfold semicolons; clear -FS; induction FS as [|y s S F IH]; [reflexivity|]; cbn [filter]; rewrite S; exact IH). lia. }
        destruct (flow_run ll p s t _ FL EL FS) as (ll' & E2 & R). rewrite E2. cbn [bind]. exists [ll'], true. split; [reflexivity|]. split; [constructor; [exact R|constructor]|reflexivity].
      * rewrite LF, EG, EG'. cbn [length]. set (k := S (length (filter nonempty (segments t')))). rewrite EI, EI' in ES. cbn [map shift fst snd] in ES. cbn [split_line]. rewrite HF, ES. cbn [negb].
        replace (skipn (length p) (firstn (length p + length s) (l_frags ll))) with s.
        2:{ rewrite EL, app_assoc, <- app_length, firstn_app, Nat.sub_diag, firstn_O, firstn_all, app_nil_r, skipn_app, skipn_all, Nat.sub_diag. reflexivity. }
        destruct (flow_run ll p s t _ FL EL FS) as (ll' & E & R). rewrite E. cbn [bind].
        unfold shift at 1. cbn [fst snd].
        replace (skipn (length p + length s + length p') (l_frags ll)) with (s' ++ t').
        2:{ rewrite EL, EL', !app_assoc, <- !app_assoc, app_assoc, app_assoc, <- !app_length, skipn_app, skipn_all, Nat.sub_diag. reflexivity. }
        set (old := redo_stmts (set_frags ll (l_layout ll) (s' ++ t'))).
        destruct (redo_keeps (set_frags ll (l_layout ll) (s' ++ t'))) as (K1 & K2 & K3 & K4 & K5). fold old in K1, K2, K3, K4, K5. cbn [set_frags l_layout l_frags l_label l_cat l_suppress] in K1, K2, K3, K4, K5.
        assert (GO : filter nonempty (segments (s' ++ t')) = filter nonempty (segments t)) by (rewrite EL', (segs_front p' (s' ++ t') FP'); reflexivity).
        destruct (split_rest k old) as (out & c & E2 & R2).
        -- unfold old. apply redo_idem.
        -- rewrite (fortran_same old ll K1 K5). exact HF.
        -- exists f, r. rewrite K1, K2. repeat (split; [assumption|]). rewrite EL, EL', !app_assoc, <- (app_assoc _ s' t') in H5. exact (spaced_suffix _ _ H5).
        -- unfold statements_of. rewrite K2, GO, EG'. apply le_n.
        -- rewrite K2. destruct s' as [|y s']; [congruence|]. exists y, (s' ++ t'). split; [reflexivity|]. inversion FS'; auto.
        -- rewrite E2. cbn [bind]. exists (redo_stmts ll' :: out), true. split; [reflexivity|]. split; [|reflexivity]. constructor.
           ++ destruct R as (R1 & R2' & R3 & R4 & R5 & R6 & R7 & R7' & R8 & R9). rewrite R9. unfold rewritten. auto 12.
           ++ unfold statements_of in R2. rewrite K2, GO, EG' in R2. eapply forall2_imp; [|exact R2]. intros a b. apply rewritten_same; auto.
  - assert (Z0 : semicolons (l_frags ll) = 0) by lia.
    assert (L1 : length (l_stmts ll) <= 1). { rewrite LF. pose proof (segments_length (l_frags ll)) as L. rewrite Z0 in L. pose proof (filter_len_le (@nonempty Token) (segments (l_frags ll))). lia. }
    destruct (l_stmts ll) as [|a [|a2 q]] eqn:EA; [| |cbn in L1; lia]; cbn [length split_line]; rewrite HF, EA; cbn [negb]; try destruct a; unfold ll_has_empty; rewrite EN, Z0; cbn [assert_ bind]; exists [ll], false; auto.
Qed.
Lemma split_all : forall lines, Forall line_ready lines -> exists groups c, split_lines false lines = Ok (concat groups, c) /\
  Forall2 split_into lines groups /\ c = existsb (fun ll => has_fortran ll && has_semi ll) lines.
Proof.
  induction 1 as [|ll lines R F (groups & c & E & H & EC)]; [exists [], false; repeat split; constructor|].
  destruct (split_one ll R) as (out & c0 & E0 & H0 & E1). cbn [split_lines]. rewrite E0. cbn [bind]. rewrite E. cbn [bind]. exists (out :: groups), (c0 || c). split; [reflexivity|]. split; [constructor; auto|].
  cbn [existsb]. rewrite E1, EC. reflexivity.
Qed.

Lemma spelled_none s ls : spelled s ls -> s = [] -> ls = [].
Proof. intros H. destruct H; intro E; [reflexivity|destruct l; discriminate|destruct l; discriminate]. Qed.
Lemma rewritten_fortran ll s ll' : has_fortran ll = true -> rewritten ll s ll' -> has_fortran ll' = negb (is_empty s).
Proof.
  intros HF (R1 & R2 & _ & _ & _ & _ & R7 & R8 & _). unfold has_fortran in *. destruct s as [|x s].
  - apply spelled_none in R2; [|reflexivity]. unfold fortran_lines in R2. cbn [is_empty negb]. apply andb_false_iff. right. clear -R2. induction (l_layout ll') as [|f r IH]; [reflexivity|]. cbn [filter existsb] in *. destruct (is_fortran f); [discriminate|]. apply IH, R2.
  - destruct R7 as (g & q & f & r & E1 & _ & G & _); [discriminate|]. rewrite R8 by discriminate. apply andb_true_iff in HF. destruct HF as (-> & _). rewrite E1. cbn [existsb]. rewrite G. reflexivity.
Qed.
Lemma segs_no_semi l s : In s (filter nonempty (segments l)) -> s <> [] /\ Forall (fun x => is_semi x = false) s.
Proof.
  rewrite filter_In. intros (I & N). split; [destruct s; [discriminate N|discriminate]|]. clear N. revert s I. induction l as [|x l IH]; cbn [segments]; intros s I.
  - destruct I as [<-|[]]. constructor.
  - destruct (is_semi x) eqn:S; [destruct I as [<-|I]; [constructor|auto]|]. destruct (segments l) as [|s0 ss]; [destruct I as [<-|[]]; repeat constructor; exact S|].
    destruct I as [<-|I]; [constructor; [exact S|apply IH; left; reflexivity]|apply IH; right; exact I].
Qed.
Lemma no_semi_exists s : Forall (fun x => is_semi x = false) s -> existsb is_semi s = false.
Proof. induction 1 as [|x s H F IH]; [reflexivity|]. cbn [existsb]. rewrite H. exact IH. Qed.
Lemma split_program ll out : split_into ll out -> program_of out = program_of [ll] /\ Forall (fun l => has_fortran l = true -> has_semi l = false /\ length (statements_of l) <= 1) out.
Proof.
  unfold split_into. destruct (has_fortran ll) eqn:HF; cbn [andb].
  - destruct (has_semi ll) eqn:HS.
    + unfold program_of at 2. cbn [flat_map]. rewrite HF, app_nil_r. assert (N : forall s, In s (statements_of ll) -> s <> [] /\ Forall (fun x => is_semi x = false) s) by (intros s; apply segs_no_semi).
      destruct (statements_of ll) as [|s0 ss].
      * intros (ll' & -> & R). pose proof (rewritten_fortran _ _ _ HF R) as E. cbn [is_empty negb] in E. cbn [program_of flat_map]. rewrite E. split; [reflexivity|]. constructor; [congruence|constructor].
      * intro F. revert N. set (l := s0 :: ss) in *. clearbody l. induction F as [|s ll' l out R F IH]; intro N; [split; [reflexivity|constructor]|].
        destruct (IH (fun s S => N s (or_intror S))) as (P & Q). destruct (N s (or_introl eq_refl)) as (NE & FS). pose proof (rewritten_fortran _ _ _ HF R) as E. destruct R as (R1 & _).
        assert (ST : statements_of ll' = [s]) by (unfold statements_of; rewrite R1, no_semi_segments by exact FS; destruct s; [congruence|reflexivity]).
        unfold program_of in *. cbn [flat_map]. rewrite E, P, ST. destruct s; [congruence|]. cbn [is_empty negb app]. split; [reflexivity|]. constructor; [|exact Q]. intros _. rewrite ST. unfold has_semi. rewrite R1. split; [apply no_semi_exists; exact FS|apply le_n].
    + intros ->. split; [reflexivity|]. constructor; [|constructor]. intros _. split; [exact HS|]. unfold statements_of. unfold has_semi in HS. rewrite semis_count in HS. apply Nat.ltb_ge in HS.
      pose proof (segments_length (l_frags ll)). pose proof (filter_len_le (@nonempty Token) (segments (l_frags ll))). lia.
  - intros ->. split; [reflexivity|]. constructor; [congruence|constructor].
Qed.
Lemma split_programs lines groups : Forall2 split_into lines groups -> program_of (concat groups) = program_of lines /\ Forall (fun l => has_fortran l = true -> has_semi l = false /\ length (statements_of l) <= 1) (concat groups).
Proof.
  induction 1 as [|ll out lines groups S F (IH1 & IH2)]; [split; [reflexivity|constructor]|]. destruct (split_program _ _ S) as (P & Q). cbn [concat]. unfold program_of in *. cbn [flat_map] in P. rewrite app_nil_r in P.
  rewrite flat_map_app, P, IH1. split; [reflexivity|]. apply Forall_app. auto.
Qed.
Lemma split_ready ll out : redo_stmts ll = ll -> split_into ll out -> Forall (fun l => redo_stmts l = l) out.
Proof.
  intro RD. unfold split_into. destruct (has_fortran ll && has_semi ll); [|intros ->; auto].
  destruct (statements_of ll) as [|s ss]; [intros (ll' & -> & R); constructor; [apply R|constructor]|]. intro F. induction F as [|? ? ? ? R F IH]; constructor; [apply R|exact IH].
Qed.

Fixpoint spacedb (first : bool) (l : list Token) : bool :=
  match l with [] => true | x :: r => (first || match tk_pre x with None => false | Some _ => true end) && spacedb (is_semi x) r end.
Lemma spacedb_from l : forall first, spacedb first l = true ->
  forall a x b, l = a ++ x :: b -> tk_pre x = None -> (a = [] /\ first = true) \/ exists a' y, a = a' ++ [y] /\ is_semi y = true.
Proof.
  induction l as [|z l IH]; intros first H a x b E N; [destruct a; discriminate|]. cbn [spacedb] in H. apply andb_true_iff in H as [H1 H2].
  destruct a as [|w a]; cbn [app] in E; injection E as -> ->.
  - rewrite N, orb_false_r in H1. left. auto.
  - right. destruct (IH _ H2 a x b eq_refl N) as [(-> & S)|(a' & y & -> & S)]; [exists [], w; auto|exists (w :: a'), y; auto].
Qed.
Lemma spacedb_ok l : spacedb true l = true -> spaced l.
Proof. intros H a x b E N. destruct (spacedb_from l true H a x b E N) as [(-> & _)|X]; [left; reflexivity|right; exact X]. Qed.
Lemma spaced_spacedb l : forall first, (forall a x b, l = a ++ x :: b -> tk_pre x = None -> (a = [] /\ first = true) \/ exists a' y, a = a' ++ [y] /\ is_semi y = true) -> spacedb first l = true.
Proof.
  induction l as [|z l IH]; intros first H; cbn [spacedb]; [reflexivity|]. apply andb_true_iff. split.
  - destruct (tk_pre z) eqn:P; [apply orb_true_r|]. destruct (H [] z l eq_refl P) as [(_ & ->)|(a' & y & E & _)]; [reflexivity|destruct a'; discriminate].
  - apply IH. intros a x b -> N. destruct (H (z :: a) x b eq_refl N) as [(E & _)|(a' & y & E & S)]; [discriminate|].
    destruct a' as [|w a']; cbn [app] in E; injection E as -> E; [left; subst a; auto|right; eauto].
Qed.
