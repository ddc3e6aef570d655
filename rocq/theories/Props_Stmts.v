(** C10, C11, C12, C41, C50, C51: statements of a logical line, tokens. *)
From Verif Require Import Base Tags SyntaxTags Token Stmts Stmts_spec Stmts_proofs.
Local Open Scope nat_scope.

(** ** C10 init_stmts: the recorded ranges are, in order, the non-empty segments
    between semicolons; each is a maximal semicolon-free run; semicolons are
    counted. *)
Theorem C10_init_stmts : forall l,
  let '(st, n) := init_stmts l in
  n = semicolons l /\ map (slice l) st = filter nonempty (segments l) /\
  Forall (fun r => fst r < snd r /\ snd r <= length l /\
    (forall j x, fst r <= j < snd r -> nth_error l j = Some x -> is_semi x = false) /\
    (fst r = 0 \/ exists x, nth_error l (fst r - 1) = Some x /\ is_semi x = true) /\
    (snd r = length l \/ exists x, nth_error l (snd r) = Some x /\ is_semi x = true)) st /\
  (forall k r r', nth_error st k = Some r -> nth_error st (S k) = Some r' -> snd r < fst r').
Proof. exact init_stmts_main. Qed.
Print Assumptions C10_init_stmts.

(** ** C11 has_empty_statements *)
Theorem C11_has_empty : forall l,
  let '(st, n) := init_stmts l in
  has_empty_statements st n = true <-> 0 < semicolons l /\ In [] (segments l).
Proof. exact has_empty_main. Qed.
Print Assumptions C11_has_empty.

(** ** C12 remove_empty_statements, on the fragments of a line whose statements
    are initialised (semicolon tokens have their text).  The result is a
    sub-sequence whose segments are exactly the non-empty segments of the input
    (so single semicolons between them, none at the ends). *)
Theorem C12_remove_empty : forall l,
  Forall (fun x => is_semi x = true -> tk_text x <> []) l ->
  exists r ch, remove_empty_frags l (length (fst (init_stmts l))) = Ok (r, ch) /\
    sublist r l /\ (ch = true <-> r <> l) /\
    match filter nonempty (segments l) with
    | [] => r = []
    | ss => segments r = ss
    end /\
    (let '(st, n) := init_stmts r in has_empty_statements st n = false).
Proof. exact remove_empty_main. Qed.
Print Assumptions C12_remove_empty.

Definition tk (t : Z) (s : string) : Token := new_token (L s) t 1 1.
Definition semi : Token := tk TK_SEMICOLON ";".
Definition nm (s : string) : Token := tk TK_NAME s.

Example C10_case : init_stmts [semi; nm "a"; nm "b"; semi; semi; nm "c"; semi] = ([(1, 3); (5, 6)], 4).
Proof. reflexivity. Qed.
Example C10_case2 : segments [semi; nm "a"; nm "b"; semi; semi; nm "c"; semi]
  = [[]; [nm "a"; nm "b"]; []; [nm "c"]; []].
Proof. reflexivity. Qed.
Example C11_case : has_empty_statements [(0, 1); (2, 3)] 1 = false /\
  init_stmts [nm "a"; semi; nm "b"] = ([(0, 1); (2, 3)], 1).
Proof. split; reflexivity. Qed.
Example C12_case : remove_empty_frags [semi; nm "a"; nm "b"; semi; semi; nm "c"; semi] 2
  = Ok ([nm "a"; nm "b"; semi; nm "c"], true).
Proof. reflexivity. Qed.

(** Without init_stmts (stmts_ empty) the claim fails: a trailing semicolon is
    undefined behaviour and an inner empty statement is kept. *)
Theorem C12_uninitialised_refuted :
  remove_empty_frags [nm "a"; semi] 0 = UB /\
  remove_empty_frags [nm "a"; semi; semi; nm "b"] 0 = Ok ([nm "a"; semi; semi; nm "b"], false).
Proof. split; reflexivity. Qed.
Print Assumptions C12_uninitialised_refuted.

(** ** C50 unkeyword turns exactly the keyword tokens among the first N (all, for
    a negative N) into names; nothing else of any token changes. *)
Theorem C50_unkeyword : forall reg l n l', unkeyword reg l n = Ok l' ->
  length l' = length l /\
  forall i x, nth_error l i = Some x ->
    exists x', nth_error l' i = Some x' /\
      if ((n <? 0)%Z || (Z.of_nat i <? n)%Z)
      then exists k, is_keyword reg (tok x) = Ok k /\ x' = (if k then set_tok x TK_NAME else x)
      else x' = x.
Proof. exact unkeyword_main. Qed.
Print Assumptions C50_unkeyword.
(** it is defined for every token with a tag of the table or an extension *)
Theorem C50_unkeyword_defined : forall reg l n,
  Forall (fun x => (0 <= tok x)%Z) l -> exists l', unkeyword reg l n = Ok l'.
Proof. exact unkeyword_total. Qed.
Print Assumptions C50_unkeyword_defined.
Example C50_case : unkeyword [] [tk KW_IF "if"; nm "x"; tk KW_END "end"] 2
  = Ok [tk TK_NAME "if"; nm "x"; tk KW_END "end"].
Proof. vm_compute. reflexivity. Qed.

(** ** C51 render: the texts in order, adjacent ones separated by as many blanks
    as the larger of the two recorded gaps. *)
Theorem C51_render : forall l s, render l = Ok s ->
  exists gaps, length gaps = length l - 1 /\ s = interleave (map tk_text l) gaps /\
    forall i x y, nth_error l i = Some x -> nth_error l (S i) = Some y ->
      exists a b, tk_post x = Some a /\ tk_pre y = Some b /\ 
        nth_error gaps i = Some (Z.to_nat (Z.max a b)).
Proof. exact render_main. Qed.
Print Assumptions C51_render.
(** it is defined when all recorded gaps are initialised *)
Theorem C51_render_defined : forall l,
  Forall (fun x => tk_pre x <> None /\ tk_post x <> None) l -> exists s, render l = Ok s.
Proof. exact render_total. Qed.
Print Assumptions C51_render_defined.
Definition sp (s : string) (a b : Z) : Token :=
  mkTok TK_NAME 1 1 (L s) (Some 0%Z) (Some 0%Z) (Some 0%Z) (Some 0%Z) (Some a) (Some b).
Example C51_case : render [sp "do" 0 1; sp "i" 1 0; sp "=" 2 1; sp "1" 1 0] = Ok (L "do i  = 1").
Proof. reflexivity. Qed.

(** ** C41 the lower-case cache: any history of lower() calls and assignments
    `mod_text() = s`. *)
Theorem C41_cache : forall h s,
  let c := cache_run (cached_new s) h in
  c_text c = last_text s h /\ snd (lower_read c) = map lower_b (last_text s h).
Proof. exact cache_main. Qed.
Print Assumptions C41_cache.
Example C41_case : snd (lower_read (cache_run (cached_new (L "AbC")) [CLower; CAssign (L "XY"); CLower]))
  = L "xy".
Proof. reflexivity. Qed.
(** A reference kept from mod_text() and written after a lower() call leaves a
    stale cache. *)
Theorem C41_kept_reference_refuted :
  let c := write_ref (fst (lower_read (mod_text (cached_new (L "AB"))))) (L "CD") in
  snd (lower_read c) = L "ab" /\ c_text c = L "CD".
Proof. split; reflexivity. Qed.
Print Assumptions C41_kept_reference_refuted.
