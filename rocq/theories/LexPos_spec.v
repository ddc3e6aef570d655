(** Where a token is, in terms of the lines that were joined. *)
From Verif Require Import Base Tags FileLine LineAccum_spec Token Smash_spec.
Local Open Scope nat_scope.

(** Offset [o] of the joined text is character [k] of the main text of line
    number [i], which is [l]. *)
Definition place (ls : list line) (o i : nat) (l : line) (k : nat) : Prop :=
  nth_error ls i = Some l /\ k < length (l_main l) /\ o = main_start ls i + k.

(** White space, and the characters a statement may contain here: ASCII without
    NUL, newline, vertical tab and form feed. *)
Definition white (c : ascii) : Prop := In c [" "; "009"; "013"]%char.
Definition plain (c : ascii) : Prop :=
  code c < 128 /\ ~ In c ["000"; "010"; "011"; "012"]%char.

(** The white space from offset [e] on has length [n]; the white space ending
    at offset [b] has length [n]. *)
Definition white_at (s : str) (o : nat) : Prop := exists c, nth_error s o = Some c /\ white c.
Definition black_at (s : str) (o : nat) : Prop := exists c, nth_error s o = Some c /\ ~ white c.
Definition run_from (s : str) (e n : nat) : Prop :=
  (forall o, e <= o < e + n -> white_at s o) /\ (e + n = length s \/ black_at s (e + n)).
Definition run_to (s : str) (b n : nat) : Prop :=
  n <= b /\ (forall o, b - n <= o < b -> white_at s o) /\ (b = n \/ black_at s (b - n - 1)).

(** The token's fields describe offsets [b, e) of the joined text. *)
Definition begins (ls : list line) (x : Token) (b : nat) : Prop :=
  exists i l k, place ls b i l k /\ tk_line x = l_no l /\ tk_pos x = (l_col l + Z.of_nat k)%Z.
Definition mt_begins (ls : list line) (x : Token) (b : nat) : Prop :=
  exists i l k, place ls b i l k /\ mt_bl x = Some (Z.of_nat i) /\ mt_bc x = Some (Z.of_nat k).
Definition mt_ends (ls : list line) (x : Token) (e : nat) : Prop :=
  exists i l k, place ls (e - 1) i l k /\ mt_el x = Some (Z.of_nat i) /\ mt_ec x = Some (Z.of_nat k + 1)%Z.
Definition pre_is (ls : list line) (x : Token) (b : nat) : Prop :=
  exists n, run_to (joined ls) b n /\ tk_pre x = Some (Z.of_nat n).
Definition post_is (ls : list line) (x : Token) (e : nat) : Prop :=
  exists n, run_from (joined ls) e n /\ tk_post x = Some (Z.of_nat n).
Definition located (ls : list line) (x : Token) (b e : nat) : Prop :=
  begins ls x b /\ mt_begins ls x b /\ mt_ends ls x e /\ pre_is ls x b /\ post_is ls x e.
(** Its text is what is there. *)
Definition text_at (s : str) (b e : nat) (w : str) : Prop :=
  b < e /\ e <= length s /\ w = firstn (e - b) (skipn b s).

(** The fragments made from the lexeme [(t, w, e)]. *)
Definition fragments_of (ls : list line) (lx : Z * str * Z) (fs : list Token) : Prop :=
  let '(t, w, ez) := lx in
  let e := Z.to_nat ez in
  let b := e - length w in
  text_at (joined ls) b e w /\
  ((exists x, fs = [x] /\ tok x = t /\ tk_text x = w /\ located ls x b e /\
      (t = TK_NAME -> forall w1 t1 w2 t2, ~ is_smashed (map lower_b w) w1 t1 w2 t2)) \/
   (t = TK_NAME /\ exists w1 t1 w2 t2 x1 x2, is_smashed (map lower_b w) w1 t1 w2 t2 /\
      fs = [x1; x2] /\ tok x1 = t1 /\ tok x2 = t2 /\ tk_text x1 ++ tk_text x2 = w /\
      map lower_b (tk_text x1) = w1 /\ map lower_b (tk_text x2) = w2 /\
      (* the first half has a file position and nothing else *)
      begins ls x1 b /\ mt_bl x1 = None /\ mt_bc x1 = None /\ mt_el x1 = None /\ mt_ec x1 = None /\
      tk_pre x1 = None /\ tk_post x1 = Some 0%Z /\
      (* the second half's main-text range and leading space are the pair's *)
      tk_line x2 = tk_line x1 /\ tk_pos x2 = (tk_pos x1 + zlen w1)%Z /\
      mt_begins ls x2 b /\ mt_ends ls x2 e /\ pre_is ls x2 b /\ post_is ls x2 e)).

(** The lines that count: those that are not comments or blank. *)
Definition line_of (f : File_Line) : line :=
  mkLine (linenum f) (zlen (left_space f)) (main_first_col f) (main_txt f) (zlen (right_space f)).
Definition lines_of (layout : list File_Line) : list line :=
  map line_of (filter (fun f => negb (is_trivial f)) layout).
