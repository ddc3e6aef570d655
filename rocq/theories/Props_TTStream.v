(** C19, C20, C52: the token stream. *)
From Verif Require Import Base Tags SyntaxTags Token TTStream TTStream_spec TTStream_proofs.
Local Open Scope nat_scope.

(** C19.  Every history of stream operations that stays inside the statement
    moves the cut between consumed and remaining tokens as its name says; marks
    taken anywhere restore exactly the cut they were taken at.  The tokens and
    the bounds of the statement never change. *)
Theorem C19_histories : forall h s b a b' a',
  at_cut s b a -> spec_run b a (s_beg s) h = Some (b', a') ->
  exists s', srun s h = Ok s' /\ at_cut s' b' a' /\
    frags s' = frags s /\ s_beg s' = s_beg s /\ s_end s' = s_end s.
Proof.
  intros h s b a b' a' H E. destruct (srun_ok h _ _ _ _ _ H E) as (s' & R & H' & _). exists s'.
  destruct (run_frags h _ _ R) as (? & ? & ?). auto.
Qed.
Print Assumptions C19_histories.

(** C19.  The queries, at any cut. *)
Theorem C19_queries : forall s b a, at_cut s b a ->
  curr s = Ok (tok (last b default_token)) /\
  curr_tt s = Ok (last b default_token) /\
  peek s = Ok (tok (hd default_token a)) /\
  (forall k, 1 <= k <= length a + 1 -> peek_tt s (Z.of_nat k) = Ok (nth (k - 1) a default_token) /\
                                      peek_off s (Z.of_nat k) = Ok (tok (nth (k - 1) a default_token))) /\
  peek_back s = Ok (tok (last (b ++ a) default_token)) /\
  num_consumed s = Ok (Z.of_nat (length b)) /\
  mark s = s_beg s + length b /\
  (exists s', is_eol s = Ok (s', match a with [] => true | t :: _ => (tok t =? TK_SEMICOLON)%Z end)) /\
  (forall n, n <= length a -> exists s' r, digest s (Z.of_nat n) = Ok (s', r) /\ range_toks s' r = firstn n a) /\
  (forall t, match a with
             | u :: a' => if (tok u =? t)%Z then exists s', expect_tok s t = Ok s' /\ at_cut s' (b ++ [u]) a' else expect_tok s t = Throw
             | [] => expect_tok s t = Throw \/ t = BAD
             end).
Proof.
  intros s b a H. pose proof (len_frags _ _ _ H) as (L & LB & LE). pose proof (curr_tt_ok _ _ _ H) as C.
  repeat match goal with |- _ /\ _ => split end.
  - unfold curr. now rewrite C.
  - exact C.
  - rewrite (peek_ok _ _ _ H). now destruct a.
  - intros k K. unfold peek_off. rewrite (peek_tt_ok _ _ _ _ H K). auto.
  - exact (peek_back_ok _ _ _ H).
  - exact (num_consumed_ok _ _ _ H).
  - unfold mark. lia.
  - pose proof (is_eol_ok _ _ _ H) as E. destruct a as [|t a]; [eauto|].
    destruct (tok t =? TK_SEMICOLON)%Z; [destruct E as (s' & E & _)|]; eauto.
  - intros n N. destruct (digest_ok _ _ _ _ H N) as (s' & r & E & _ & R). eauto.
  - intros t. unfold expect_tok. rewrite (peek_ok _ _ _ H). cbn [bind]. destruct a as [|u a].
    + destruct (Z.eq_dec t BAD); [auto|left]. unfold consume.
      rewrite (next_n_ok s (pos s) 1 (S (pos s))) by (cbn in *; lia). cbn [bind].
      destruct (Z.eqb_spec BAD t); [congruence|reflexivity].
    + destruct (consume1 s b u a H) as (s' & -> & H'). cbn [bind]. destruct (tok u =? t)%Z; eauto.
Qed.
Print Assumptions C19_queries.

(** C19.  Consequences in the words of the property: rewinding to a mark after
    any moves restores the stream itself, put_back undoes consume() when there
    is a token, a digested range is exactly the consumed tokens. *)
Theorem C19_rewind_restores : forall h s s1, srun s h = Ok s1 -> rewind s1 (mark s) = s.
Proof.
  intros h s s1 R. destruct (run_frags h _ _ R) as (F & B & E). unfold rewind, set_pos, mark. rewrite F, B, E. now destruct s.
Qed.
Theorem C19_put_back_undoes : forall s b t a, at_cut s b (t :: a) ->
  exists s1, consume s 1 = Ok s1 /\ put_back s1 = Ok s.
Proof.
  intros s b t a H. pose proof (len_frags _ _ _ H) as (L & LB & LE). destruct (consume1 s b t a H) as (s1 & C & H1). exists s1. split; [exact C|].
  unfold consume in C. rewrite (next_n_ok s (pos s) 1 (S (pos s))) in C by (cbn in L; lia). injection C as <-.
  unfold put_back. cbn [pos set_pos s_beg]. destruct (Nat.eqb_spec (S (pos s)) (s_beg s)); [lia|]. cbn [negb].
  unfold next_n. cbn [frags set_pos]. replace (Z.of_nat (S (pos s)) + -1)%Z with (Z.of_nat (pos s)) by lia.
  destruct (Z.leb_spec 0 (Z.of_nat (pos s))); [|lia].
  destruct (Z.leb_spec (Z.of_nat (pos s)) (Z.of_nat (S (length (frags s))))); [|lia]. cbn. rewrite Nat2Z.id. now destruct s.
Qed.

(** the tokens of  "a ; b ( c )": the first statement is a ; *)
Definition tk (t : Z) : Token := new_token [] t 0 0.
Definition ex_line : list Token := map tk [TK_NAME; TK_SEMICOLON; TK_NAME; TK_PARENL; TK_NAME; TK_PARENR].

(** C19, a limit of peek(offset): an offset further than one past the end of the
    statement is not answered BAD, it reads the tokens of the next statement on
    the line, or past the end of the list. *)
Theorem C19_peek_beyond_refuted :
  exists s b a, at_cut s b a /\ length a = 1 /\ peek_off s 4 = Ok TK_PARENL /\ peek_off s 9 = UB.
Proof.
  exists (stream_of (map tk [TK_NAME; TK_SEMICOLON; TK_NAME; TK_PARENL; TK_NAME; TK_PARENR]) 0 1), [], [tk TK_NAME].
  split; [|vm_compute; auto]. exists [], (map tk [TK_SEMICOLON; TK_NAME; TK_PARENL; TK_NAME; TK_PARENR]). auto.
Qed.

(** capture_text appends the texts of the tokens between two marks, whatever the
    position of the stream. *)
Theorem C19_capture : forall s s1 s2 x y z out, at_cut s1 x (y ++ z) -> at_cut s2 (x ++ y) z ->
  frags s1 = frags s -> frags s2 = frags s -> s_beg s1 = s_beg s2 ->
  capture_text s (mark s1) (mark s2) out = out ++ concat (map tk_text y).
Proof.
  intros s s1 s2 x y z out (p & q & F & B & P & _) (p' & q' & F' & B' & P' & _) E1 E2 EB. unfold capture_text, range_toks, mark. cbn [fst snd].
  rewrite P, P', app_length. assert (LP : length p = length p') by congruence. rewrite <- LP. replace (length p + (length x + length y) - (length p + length x)) with (length y) by lia.
  rewrite <- E1, F, <- !app_assoc, app_assoc, skipn_app, (skipn_all2 (p ++ x)) by (rewrite app_length; lia). rewrite app_length, Nat.sub_diag. cbn [skipn app].
  rewrite firstn_app, firstn_all, Nat.sub_diag. cbn [firstn]. now rewrite app_nil_r.
Qed.
Example C19_capture_case : forall a b c d : Token, at_cut (set_pos (stream_of [a; b; c; d] 0 4) 1) [a] ([b; c] ++ [d]) /\ at_cut (set_pos (stream_of [a; b; c; d] 0 4) 3) ([a] ++ [b; c]) [d].
Proof. intros. split; exists [], []; auto. Qed.
Print Assumptions C19_capture.

(** C20 (partial: the token behind the opening parenthesis must not be a
    parenthesis itself, see below).  move_to_close_paren stops just past the
    parenthesis that matches the opening one and answers true, move_before_close_paren
    just before it; without a match both answer false at the end of the statement. *)
Theorem C20_close_partial : forall s b t x a,
  at_cut s b (t :: x :: a) -> tok t = TK_PARENL -> tok x <> TK_PARENL -> tok x <> TK_PARENR -> no_bad a ->
  let rest := t :: x :: a in
  (forall k, matched TK_PARENL TK_PARENR rest k ->
     (exists s', move_to_close_paren s = Ok (s', true) /\ at_cut s' (b ++ firstn k rest) (skipn k rest)) /\
     (exists s', move_before_close_paren s = Ok (s', true) /\ at_cut s' (b ++ firstn (k - 1) rest) (skipn (k - 1) rest))) /\
  (unmatched TK_PARENL TK_PARENR rest ->
     (exists s', move_to_close_paren s = Ok (s', false) /\ at_cut s' (b ++ rest) []) /\
     (exists s', move_before_close_paren s = Ok (s', false) /\ at_cut s' (b ++ rest) [])).
Proof. intros. now apply close_paren_ok. Qed.
Print Assumptions C20_close_partial.

(** what is missing: the function skips the token behind the opening parenthesis
    without looking at it.  "( )" has a match, but the answer is false at the end;
    in "( ( a ) ) b" it stops one parenthesis too early and answers true. *)
Theorem C20_empty_parens_refuted :
  let s := stream_of (map tk [TK_PARENL; TK_PARENR; TK_NAME]) 0 3 in
  matched TK_PARENL TK_PARENR (frags s) 2 /\ at_cut s [] (frags s) /\
  move_to_close_paren s = Ok (set_pos s 3, false).
Proof.
  cbn zeta. split; [|split; [|reflexivity]].
  - split; [cbn; lia|]. split; [reflexivity|]. intros j J. assert (j = 1) by lia. subst. cbn. lia.
  - exists [], []. auto.
Qed.
Theorem C20_nested_parens_refuted :
  let s := stream_of (map tk [TK_PARENL; TK_PARENL; TK_NAME; TK_PARENR; TK_PARENR; TK_NAME]) 0 6 in
  matched TK_PARENL TK_PARENR (frags s) 5 /\ at_cut s [] (frags s) /\
  move_to_close_paren s = Ok (set_pos s 4, true).
Proof.
  cbn zeta. split; [|split; [|reflexivity]].
  - split; [cbn; lia|]. split; [reflexivity|]. intros j J.
    destruct j as [|[|[|[|[|j]]]]]; try lia; vm_compute; auto; discriminate.
  - exists [], []. auto.
Qed.
(** an opening parenthesis as the last token: the second consume() leaves the
    statement, the scan then runs in the next statement of the line *)
Theorem C20_last_paren_refuted :
  let s := stream_of (map tk [TK_PARENL; TK_SEMICOLON; TK_NAME; TK_PARENR; TK_NAME]) 0 1 in
  at_cut s [] [tk TK_PARENL] /\ move_to_close_paren s = Ok (set_pos s 4, true).
Proof.
  cbn zeta. split; [|reflexivity]. exists [], (map tk [TK_SEMICOLON; TK_NAME; TK_PARENR; TK_NAME]). auto.
Qed.

(** C52.  Backwards there is no such restriction: behind a closing parenthesis,
    move_to_open_paren goes back until the current token is the matching opening
    parenthesis (matching read from right to left), or answers false at the
    beginning; if the current token is no closing parenthesis it does nothing. *)
Theorem C52_move_to_open_paren : forall s b a, at_cut s b a -> no_bad b ->
  (tok (last b default_token) <> TK_PARENR -> move_to_open_paren s = Ok (s, false)) /\
  (tok (last b default_token) = TK_PARENR ->
     (forall k, matched TK_PARENR TK_PARENL (rev b) k ->
        exists s', move_to_open_paren s = Ok (s', true) /\
          at_cut s' (firstn (length b - k + 1) b) (skipn (length b - k + 1) b ++ a)) /\
     (unmatched TK_PARENR TK_PARENL (rev b) ->
        exists s', move_to_open_paren s = Ok (s', false) /\ at_cut s' [] (b ++ a))).
Proof.
  intros s b a H NB. destruct (open_paren_ok s b a H NB) as (A & B & C). split; [exact A|]. intros E. split; [intros k M|intros U]; auto.
Qed.
Print Assumptions C52_move_to_open_paren.

(** C52.  ignore_bracket_expr moves just past the matching bracket, or to the end
    of the statement; the answer is false in both cases (the depth it is compared
    with is -1), so it does not tell the two apart. *)
Theorem C52_ignore_bracket_expr : forall s b t a, at_cut s b (t :: a) -> tok t = TK_BRACKETL -> no_bad a ->
  (forall k, matched TK_BRACKETL TK_BRACKETR (t :: a) k ->
     exists s', ignore_bracket_expr s = Ok (s', false) /\ at_cut s' (b ++ firstn k (t :: a)) (skipn k (t :: a))) /\
  (unmatched TK_BRACKETL TK_BRACKETR (t :: a) ->
     exists s', ignore_bracket_expr s = Ok (s', false) /\ at_cut s' (b ++ t :: a) []).
Proof. intros. now apply bracket_ok. Qed.
Print Assumptions C52_ignore_bracket_expr.

(** ** concrete cases *)
Example C19_ex_history :
  let s := stream_of ex_line 2 6 in
  at_cut s [] (map tk [TK_NAME; TK_PARENL; TK_NAME; TK_PARENR]) /\
  spec_run [] (map tk [TK_NAME; TK_PARENL; TK_NAME; TK_PARENR]) 2 [SConsume 1; SDigest 2; SPutBack; SIsEol; SRewind 3; SConsume 1]
    = Some (map tk [TK_NAME; TK_PARENL], map tk [TK_NAME; TK_PARENR]) /\
  srun s [SConsume 1; SDigest 2; SPutBack; SIsEol; SRewind 3; SConsume 1] = Ok (set_pos s 4).
Proof. cbn zeta. split; [|split; reflexivity]. exists (map tk [TK_NAME; TK_SEMICOLON]), []. auto. Qed.
Example C20_ex_close :
  let s := stream_of (map tk [TK_PARENL; TK_NAME; TK_PARENL; TK_NAME; TK_PARENR; TK_PARENR; TK_NAME]) 0 7 in
  move_to_close_paren s = Ok (set_pos s 6, true) /\ move_before_close_paren s = Ok (set_pos s 5, true) /\
  matched TK_PARENL TK_PARENR (frags s) 6.
Proof.
  cbn zeta. split; [reflexivity|]. split; [reflexivity|]. split; [cbn; lia|]. split; [reflexivity|]. intros j J.
  destruct j as [|[|[|[|[|[|j]]]]]]; try lia; vm_compute; auto; discriminate.
Qed.
Example C52_ex_open :
  let s := set_pos (stream_of (map tk [TK_NAME; TK_PARENL; TK_PARENL; TK_PARENR; TK_NAME; TK_PARENR; TK_NAME]) 0 7) 6 in
  move_to_open_paren s = Ok (set_pos s 2, true) /\
  at_cut s (firstn 6 (frags s)) (skipn 6 (frags s)) /\ matched TK_PARENR TK_PARENL (rev (firstn 6 (frags s))) 5.
Proof.
  cbn zeta. split; [reflexivity|]. split; [exists [], []; auto|]. split; [cbn; lia|]. split; [reflexivity|]. intros j J.
  destruct j as [|[|[|[|[|j]]]]]; try lia; vm_compute; auto; discriminate.
Qed.
Example C52_ex_bracket :
  let s := stream_of (map tk [TK_BRACKETL; TK_BRACKETL; TK_BRACKETR; TK_NAME; TK_BRACKETR; TK_NAME]) 0 6 in
  ignore_bracket_expr s = Ok (set_pos s 5, false).
Proof. reflexivity. Qed.
