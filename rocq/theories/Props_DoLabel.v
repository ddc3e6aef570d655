(** C89: the labels of labelled DO statements. *)
From Coq Require Import Lia.
From Verif Require Import Base Base_lemmas Tags SyntaxTags Token TTStream TTStream_spec StmtRules Peg Peg_spec Stmt_spec StmtGrammar StmtParser
  StmtTree_spec LabelStack Prgm PrgmSource PrgmLoops_spec StmtWalk_spec DoLabel_spec DoLabel_proofs.
From Verif Require Import Props_Stmt Props_StmtWalk.
Local Open Scope nat_scope.

(** C89.  A statement that is parsed as a DO statement is DO ..., or name : DO ...; and
    get_label_do_label() on its tree is the number behind the word DO, 0 if there is
    none (std::stoi of the token; no assertion fails). *)
Theorem C89_label : forall exts n s t s', exts_ok exts -> exts_end exts -> proper_stmt s -> parse_rule grammar exts n r_do_stmt s = Done (Some t, s') ->
  do_place s < s_end s /\ kind (frags s) (do_place s) KW_DO /\
  (do_place s = pos s \/ do_place s = pos s + 2 /\ name_at (frags s) (pos s) (fun _ => True) /\ kind (frags s) (S (pos s)) TK_COLON) /\
  do_label (frags s) t = written_label s.
Proof.
  intros exts n s t s' He Hee Hs H. destruct (do_run _ _ _ _ _ He Hee Hs H) as (A & B & C & D). split; [exact A|]. split; [exact B|]. split; [|exact D].
  destruct C as [C|(C & N)]; [left; exact C|right]. split; [exact C|]. split; [exact N|]. unfold do_place in C. destruct (is_kind s (S (pos s)) TK_COLON) eqn:K; [|lia].
  unfold is_kind in K. apply andb_true_iff in K. destruct K as (_ & K). destruct (nth_error (frags s) (S (pos s))) as [x|] eqn:X; [|discriminate]. exists x. split; [exact X|]. apply Z.eqb_eq. exact K.
Qed.

(** C89.  So the loops of a program (C28_loops) end at the labels that are written in
    their DO statements. *)
Theorem C89_program : forall exts m l i g lab, exts_ok exts -> exts_end exts -> (forall q, In q l -> proper_stmt (stream_of (ss_frags q) (ss_beg q) (ss_end q))) ->
  is_do (of_source exts m l) i g lab ->
  exists q, nth_error l i = Some q /\ written_label (stream_of (ss_frags q) (ss_beg q) (ss_end q)) = Ok lab.
Proof.
  intros exts m l i g lab He Hee Hl (L & t & P & _ & D). cbn [of_source x_num x_parse x_toks] in *. destruct (nth_error l i) as [q|] eqn:Q; [|discriminate]. exists q. split; [reflexivity|].
  destruct (parse_rule grammar exts m r_do_stmt _) as [(o, s')| |] eqn:E in P; cbn [obind] in P; try discriminate. injection P as ->.
  destruct (C89_label _ _ _ _ _ He Hee (Hl _ (nth_error_In _ _ Q)) E) as (_ & _ & _ & W). cbn [stream_of frags] in W. congruence.
Qed.

(** outer: do 10 i = 1, 3 *)
Definition named_do : list Token :=
  [T TK_NAME "outer"; T TK_COLON ":"; T KW_DO "do"; T SG_INT_LITERAL_CONSTANT "10"; T TK_NAME "i"; T TK_EQUAL "="; T SG_INT_LITERAL_CONSTANT "1"; T TK_COMMA ","; T SG_INT_LITERAL_CONSTANT "3"].
Lemma named_proper : proper_stmt (S_of named_do).
Proof.
  split; [cbn; lia|]. split; [split; vm_compute; repeat constructor|]. split.
  - vm_compute stmt_toks. repeat constructor; try (intro H; vm_compute in H; discriminate H); eexists; vm_compute; reflexivity.
  - vm_compute stmt_toks. do 9 (apply nest_tok; [reflexivity..|]). constructor.
Qed.
Example C89_ex : exists t s', exts_ok no_exts /\ exts_end no_exts /\ proper_stmt (S_of named_do) /\ parse_rule grammar no_exts 60 r_do_stmt (S_of named_do) = Done (Some t, s') /\
  do_place (S_of named_do) = 2 /\ written_label (S_of named_do) = Ok 10%Z /\ do_label named_do t = Ok 10%Z.
Proof.
  eexists _, _. pose proof no_exts_fine as (F1 & F2 & _). split; [exact F1|]. split; [exact F2|]. split; [exact named_proper|]. split; [vm_compute; reflexivity|]. repeat split; vm_compute; reflexivity.
Qed.
(** do 20 / do i = 1, 3 / do *)
Example C89_ex_others : 
  let lab l := match parse_rule grammar no_exts 60 r_do_stmt (S_of l) with Done (Some t, _) => Some (do_label l t) | _ => None end in
  lab [T KW_DO "do"; T SG_INT_LITERAL_CONSTANT "20"] = Some (Ok 20%Z) /\
  lab [T KW_DO "do"; T TK_NAME "i"; T TK_EQUAL "="; T SG_INT_LITERAL_CONSTANT "1"; T TK_COMMA ","; T SG_INT_LITERAL_CONSTANT "3"] = Some (Ok 0%Z) /\
  lab [T KW_DO "do"] = Some (Ok 0%Z).
Proof. repeat split; vm_compute; reflexivity. Qed.
Example C89_program_ex : is_do (of_source no_exts 60 [mkSource 0 named_do 0 9]) 0 SG_DO_STMT 10.
Proof. split; [repeat constructor|]. eexists. split; [vm_compute; reflexivity|]. split; vm_compute; reflexivity. Qed.

(** The number may be too large for an int: the statement is accepted, and asking
    for its label throws std::out_of_range. *)
Definition big_do : list Token := [T KW_DO "do"; T SG_INT_LITERAL_CONSTANT "99999999999"].
Theorem C89_big_refuted : exists s t s', proper_stmt s /\ parse_rule grammar no_exts 60 r_do_stmt s = Done (Some t, s') /\ do_label (frags s) t = Throw.
Proof.
  exists (S_of big_do). eexists _, _. split; [|split; [vm_compute; reflexivity|vm_compute; reflexivity]].
  split; [cbn; lia|]. split; [split; vm_compute; repeat constructor|]. split.
  - vm_compute stmt_toks. repeat constructor; try (intro H; vm_compute in H; discriminate H); eexists; vm_compute; reflexivity.
  - vm_compute stmt_toks. do 2 (apply nest_tok; [reflexivity..|]). constructor.
Qed.

Definition C89_all := (C89_label, C89_program, C89_big_refuted).
Print Assumptions C89_all.
