(** Lemmas for C58: a range of tokens over several lines. *)
From Verif Require Import Base Tags FileLine LogicalFile Token LogicalLine Stmts Stmts_spec Peg Lexer Lexer_spec Lexer_proofs LineAccum_spec
  LexPos_spec LexPos_proofs LineEdit LineEdit_spec LineEdit_proofs FileEdit2_proofs.
From Coq Require Import Lia.
Local Open Scope nat_scope.

Lemma bare_blank f : is_fortran f = true -> bare f -> make_comment_or_blank f = Ok (make_blank f).
Proof.
  intros F B. destruct (B F) as (N & A).
  apply mcb_no_comment; auto. unfold is_fortran, is_trivial in F. destruct (is_comment f); [discriminate|reflexivity].
Qed.
Lemma mid_out : forall mid l1 l2, Forall bare mid -> erase_mid (l1 ++ mid ++ l2) (length l1) (length mid) = Ok (l1 ++ map taken_out mid ++ l2).
Proof.
  induction mid as [|f mid IH]; intros l1 l2 B; [reflexivity|]. inversion B as [|? ? B1 B2]; subst. cbn [length erase_mid app map].
  rewrite (get_fl_ok _ _ f) by apply nth_error_mid. cbn [bind].
  assert (X : (if is_fortran f then bind (make_comment_or_blank f) (fun f' => Ok (set_fl (l1 ++ f :: mid ++ l2) (Z.of_nat (length l1)) f')) else Ok (l1 ++ f :: mid ++ l2)) =
    Ok (l1 ++ taken_out f :: mid ++ l2)).
  { unfold taken_out. destruct (is_fortran f) eqn:F; [|reflexivity]. rewrite bare_blank by auto. cbn [bind]. now rewrite (set_mid _ _ _ _ _ eq_refl). }
  rewrite X. cbn [bind].
  replace (l1 ++ taken_out f :: mid ++ l2) with ((l1 ++ [taken_out f]) ++ mid ++ l2) by (rewrite <- app_assoc; reflexivity).
  replace (S (length l1)) with (length (l1 ++ [taken_out f])) by (rewrite app_length; cbn; lia). rewrite IH by auto. rewrite <- app_assoc. reflexivity.
Qed.
Lemma blank_not_fortran f : is_fortran (make_blank f) = false. Proof. reflexivity. Qed.
Lemma taken_not : forall mid, filter is_fortran (map taken_out mid) = [].
Proof. induction mid as [|f mid IH]; [reflexivity|]. cbn [map filter]. unfold taken_out at 1. destruct (is_fortran f) eqn:F; [|rewrite F]; auto. Qed.

(** The layout after the range from column sc of f to column ec of g is replaced. *)
Definition range_result (f : File_Line) (mid : list File_Line) (g : File_Line) (sc ec : nat) (t : str) : list File_Line :=
  let rest := skipn ec (main_txt g) in
  let f' := with_main f (firstn sc (main_txt f) ++ t) in
  if find_first_not_of [c_sp] rest then f' :: map taken_out mid ++ [with_main g rest]
  else make_uncontinued f' :: map taken_out mid ++ [make_blank g].
Lemma range_replace p f mid g q i sc ec t : length p = i -> is_fortran f = true -> is_fortran g = true -> Forall bare mid -> sc <= length (main_txt f) -> ec <= length (main_txt g) ->
  (find_first_not_of [c_sp] (skipn ec (main_txt g)) = None -> bare g) ->
  exists l2, erase_stmt_text (p ++ f :: mid ++ g :: q) (Z.of_nat i) (Z.of_nat sc) (Z.of_nat (S (i + length mid))) (Z.of_nat ec) = Ok l2 /\
    upd_main l2 (Z.of_nat i) (str_insert (Z.of_nat sc) t) = Ok (p ++ range_result f mid g sc ec t ++ q).
Proof.
  intros Hp Hf Hg B H1 H2 BG.
  set (f0 := with_main f (firstn sc (main_txt f))).
  set (rest := skipn ec (main_txt g)) in *.
  set (g1 := if find_first_not_of [c_sp] rest then with_main g rest else make_blank g).
  set (f1 := if find_first_not_of [c_sp] rest then f0 else make_uncontinued f0).
  exists (p ++ f1 :: map taken_out mid ++ g1 :: q). split.
  - unfold erase_stmt_text.
    assert (NF : nth_error (p ++ f :: mid ++ g :: q) i = Some f) by (rewrite <- Hp; apply nth_error_mid).
    assert (NG : forall x (m : list File_Line), length m = length mid -> nth_error (p ++ x :: m ++ g :: q) (S (i + length mid)) = Some g).
    { intros x m Lm. replace (p ++ x :: m ++ g :: q) with ((p ++ x :: m) ++ g :: q) by (rewrite <- app_assoc; reflexivity).
      replace (S (i + length mid)) with (length (p ++ x :: m)) by (rewrite app_length; cbn; lia). apply nth_error_mid. }
    destruct (Z.leb_spec (Z.of_nat i) (Z.of_nat (S (i + length mid)))); [|lia]. destruct (Z.leb_spec 0 (Z.of_nat i)); [|lia].
    destruct (Z.leb_spec (Z.of_nat (S (i + length mid))) (zlen (p ++ f :: mid ++ g :: q))) as [_|X].
    2:{ unfold zlen in X. rewrite app_length in X. cbn [length] in X. rewrite app_length in X. cbn [length] in X. lia. }
    cbn [assert_ bind]. rewrite (get_fl_ok _ _ _ NF). cbn [bind]. rewrite Hf. cbn [assert_ bind].
    destruct (Z.ltb_spec (Z.of_nat i) (Z.of_nat (S (i + length mid)))); [|lia].
    rewrite (get_fl_ok _ _ _ (NG f mid eq_refl)). cbn [bind]. rewrite Hg. cbn [assert_ bind].
    unfold upd_main at 1. rewrite (get_fl_ok _ _ _ NF). cbn [bind]. destruct (Z.ltb_spec (Z.of_nat sc) 0); [lia|]. rewrite Nat2Z.id.
    unfold erase_from. destruct (Nat.leb_spec sc (length (main_txt f))); [|lia]. cbn [bind]. rewrite (set_mid _ _ _ _ _ Hp). fold f0.
    replace (Z.to_nat (Z.of_nat (S (i + length mid)) - Z.of_nat i - 1)) with (length mid) by lia. rewrite Nat2Z.id.
    replace (p ++ f0 :: mid ++ g :: q) with ((p ++ [f0]) ++ mid ++ g :: q) by (rewrite <- app_assoc; reflexivity).
    replace (S i) with (length (p ++ [f0])) by (rewrite app_length; cbn; lia). rewrite mid_out by auto. cbn [bind]. rewrite <- app_assoc. cbn [app].
    destruct (Z.leb_spec 0 (Z.of_nat ec)); [|lia]. cbn [Z.leb Z.compare assert_ bind].
    replace (length (p ++ [f0]) + length mid) with (S (i + length mid)) in * by (rewrite app_length; cbn; lia).
    rewrite (get_fl_ok _ _ _ (NG f0 (map taken_out mid) (map_length _ _))). cbn [bind]. destruct (Z.leb_spec (Z.of_nat ec) (zlen (main_txt g))); [|unfold zlen in *; lia]. cbn [assert_ bind].
    unfold str_erase, str_replace. cbn [Z.ltb Z.compare Z.to_nat]. cbn [Nat.leb bind firstn app]. rewrite Z.sub_0_r, Nat2Z.id. cbn [Nat.add]. fold rest.
    assert (E : (if is_none (find_first_not_of [c_sp] rest) then make_comment_or_blank (with_main g []) else Ok (with_main g rest)) = Ok g1).
    { unfold g1. destruct (find_first_not_of [c_sp] rest); [reflexivity|]. cbn [is_none]. rewrite (bare_blank (with_main g [])); [reflexivity|exact Hg|exact (BG eq_refl)]. }
    rewrite E. cbn [bind].
    assert (ST : set_fl (p ++ f0 :: map taken_out mid ++ g :: q) (Z.of_nat (S (i + length mid))) g1 = p ++ f0 :: map taken_out mid ++ g1 :: q).
    { replace (p ++ f0 :: map taken_out mid ++ g :: q) with ((p ++ f0 :: map taken_out mid) ++ g :: q) by (rewrite <- app_assoc; reflexivity).
      rewrite (set_mid (p ++ f0 :: map taken_out mid)); [rewrite <- app_assoc; reflexivity|]. rewrite app_length. cbn [length]. rewrite map_length. lia. }
    rewrite ST.
    assert (CF : count_fortran (p ++ f0 :: map taken_out mid ++ g1 :: q) (Z.of_nat i) (Z.of_nat (S (i + length mid))) = if find_first_not_of [c_sp] rest then 2 else 1).
    { unfold count_fortran. rewrite Nat2Z.id. replace (Z.to_nat (Z.of_nat (S (i + length mid)) - Z.of_nat i + 1)) with (S (length mid + 1)) by lia.
      rewrite skipn_app, (skipn_all2 p) by lia. replace (i - length p) with 0 by lia. cbn [app skipn firstn].
      rewrite firstn_app, map_length, (firstn_all2 (map taken_out mid)) by (rewrite map_length; lia). replace (length mid + 1 - length mid) with 1 by lia. cbn [firstn filter].
      change (is_fortran f0) with (is_fortran f). rewrite Hf. cbn [length]. rewrite filter_app, taken_not. cbn [app filter]. unfold g1.
      destruct (find_first_not_of [c_sp] rest). { change (is_fortran (with_main g rest)) with (is_fortran g). rewrite Hg. reflexivity. } reflexivity. }
    rewrite CF. unfold f1. destruct (find_first_not_of [c_sp] rest); cbn [Nat.eqb]; [reflexivity|].
    rewrite (get_fl_ok _ _ f0) by (rewrite <- Hp; apply nth_error_mid). cbn [bind]. now rewrite (set_mid _ _ _ _ _ Hp).
  - unfold upd_main. rewrite (get_fl_ok _ _ f1) by (rewrite <- Hp; apply nth_error_mid). cbn [bind].
    assert (M : main_txt f1 = firstn sc (main_txt f)). { unfold f1. destruct (find_first_not_of [c_sp] rest); [reflexivity|]. rewrite (proj1 (uncont_text _)). reflexivity. }
    rewrite M, str_insert_ok by (rewrite firstn_length; lia). cbn [bind]. rewrite (set_mid _ _ _ _ _ Hp).
    rewrite firstn_firstn, Nat.min_id, (skipn_all2 (firstn sc _)) by (rewrite firstn_length; lia). rewrite app_nil_r.
    unfold range_result. fold rest. unfold f1, g1. destruct (find_first_not_of [c_sp] rest); cbn [app]; rewrite <- app_assoc; cbn [app]; [reflexivity|].
    unfold f0. rewrite uncont_main. f_equal. rewrite uncont_main. reflexivity.
Qed.
