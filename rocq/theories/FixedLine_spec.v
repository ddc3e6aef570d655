(** Independent vocabulary for the fixed-format line properties. *)
From Verif Require Import Base FileLine_spec.

(** Columns 1-6 of a fixed-format Fortran line: [lt] is the label or the
    continuation field, [w] the white space skipped after it (none inside an
    open character literal), [body] the rest. *)
Definition skip_ok (pod : ascii) (w body : str) : Prop :=
  (pod = c_nul /\ all_white w /\ ~ starts_with is_space_b body) \/
  (pod <> c_nul /\ w = []).

Inductive fixed_left (pod : ascii) : str -> str -> str -> str -> Prop :=
| FX_plain b c r :
    all_blank b -> mem c set_str = false -> length b <> 5 ->
    (length b < 5 -> is_digit_b c = false) ->
    fixed_left pod (b ++ c :: r) [] b (c :: r)
| FX_cont b c w body :
    all_blank b -> length b = 5 -> mem c set_str = false -> skip_ok pod w body ->
    fixed_left pod (b ++ c :: w ++ body) (b ++ [c]) w body
| FX_label b d w body :
    all_blank b -> length b < 5 -> all_digits d -> d <> [] ->
    length (b ++ d) <= 6 ->
    (length (b ++ d) < 6 -> ~ starts_with is_digit_b (w ++ body)) ->
    skip_ok pod w body ->
    fixed_left pod (b ++ d ++ w ++ body) (b ++ d) w body.

(** The part of [body] (which starts after [n] columns) that lies within the
    first [lc] columns; [lc <= 0] means no limit. *)
Definition window (lc : Z) (n : nat) (body : str) : str :=
  if (0 <? lc)%Z then firstn (Z.to_nat lc - n) body else body.

(** A '!' outside every character literal, at index [i]. *)
Definition bang_at (d : ascii) (s : str) (i : nat) : Prop :=
  nth_error s i = Some c_bang /\ ctx_after d (firstn i s) = c_nul.
Definition first_bang (d : ascii) (s : str) (i : nat) : Prop :=
  bang_at d s i /\ forall j, j < i -> ~ bang_at d s j.
Definition no_bang (d : ascii) (s : str) : Prop := forall j, ~ bang_at d s j.

(** How text beyond the last column shows up in right_txt. *)
Definition beyond (tail rt : str) : Prop :=
  (all_blank tail /\ rt = []) \/
  (exists b c r, tail = b ++ c :: r /\ all_blank b /\ mem c set_str = false /\
     rt = if ceq c c_amp || ceq c c_bang then tail else L "! " ++ tail).

(** A well-formed control field, columns 1-6: blank, a continuation mark in
    column 6, or a label followed by blanks. *)
Definition control_field (ctl : str) : Prop :=
  ctl = spaces 6 \/
  (exists b c, ctl = b ++ [c] /\ length b = 5 /\ all_blank b /\ mem c set_str = false) \/
  (exists b d n, ctl = b ++ d ++ spaces n /\ all_blank b /\ all_digits d /\ d <> []
     /\ length ctl = 6).

(** ** Classification of a fixed-format line by its (tab-expanded) text *)
(** A non-blank in column 6 after five blanks: "continuation trumps everything". *)
Definition column6_line (raw : str) : Prop :=
  exists b c r, raw = b ++ c :: r /\ length b = 5 /\ all_blank b /\ mem c set_str = false.
Definition star_line (raw : str) : Prop := exists c r, raw = c :: r /\ In c (L "*cC").
Definition fixed_comment_line (raw : str) : Prop :=
  ~ column6_line raw /\ (bang_line raw \/ star_line raw).
Definition fixed_code_line (raw : str) : Prop :=
  ~ blank_line raw /\
  (column6_line raw \/
   (~ bang_line raw /\ ~ star_line raw /\ ~ hash_line raw /\ ~ include_line raw)).
