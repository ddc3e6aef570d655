(** Independent vocabulary for stating the File_Line properties.  Nothing here
    mentions the model functions. *)
From Verif Require Import Base.

(** Fortran character context: [ctx] is the quote that opened the literal we
    are in, or NUL outside literals.  Reading one character. *)
Definition ctx_step (ctx c : ascii) : ascii :=
  if ceq ctx c_nul then
    if ceq c c_squote || ceq c c_dquote then c else c_nul
  else if ceq c ctx then c_nul else ctx.

(** Context after reading a text, starting in context [d]. *)
Definition ctx_after (d : ascii) (s : str) : ascii := fold_left ctx_step s d.

(** [breaks d s i]: position [i] of text [s] (entered in context [d]) is where
    a free-format statement text stops: a '!' or '&' outside any literal, or,
    inside a literal, an '&' with nothing but white space after it. *)
Definition breaks (d : ascii) (s : str) (i : nat) : Prop :=
  exists c, nth_error s i = Some c /\
    ((ctx_after d (firstn i s) = c_nul /\ (c = c_bang \/ c = c_amp)) \/
     (ctx_after d (firstn i s) <> c_nul /\ c = c_amp /\
      Forall (fun x => is_space_b x = true) (skipn (S i) s))).

(** The first break of a text, if any. *)
Definition first_break (d : ascii) (s : str) (i : nat) : Prop :=
  breaks d s i /\ forall j, j < i -> ~ breaks d s j.
Definition no_break (d : ascii) (s : str) : Prop := forall j, ~ breaks d s j.

Definition all_blank (s : str) : Prop := Forall (fun c => mem c set_str = true) s.
Definition all_white (s : str) : Prop := Forall (fun c => is_space_b c = true) s.
Definition all_digits (s : str) : Prop := Forall (fun c => is_digit_b c = true) s.
Definition starts_with (p : ascii -> bool) (s : str) : Prop :=
  exists c r, s = c :: r /\ p c = true.

(** [left_part cont raw lt ls body]: how a free-format Fortran line is cut in
    front: [lt] is the label or the leading '&' together with the blanks
    before it, [ls] the white space that follows, [body] the rest.  [cont]
    says whether the previous line is continued (then digits are no label). *)
Inductive left_part (cont : bool) : str -> str -> str -> str -> Prop :=
| LP_plain b body :
    all_blank b -> body <> [] ->
    ~ starts_with (fun c => mem c set_str) body ->
    ~ starts_with (fun c => ceq c c_amp) body ->
    (cont = false -> ~ starts_with is_digit_b body) ->
    left_part cont (b ++ body) [] b body
| LP_amp b body :
    all_blank b ->
    left_part cont (b ++ c_amp :: body) (b ++ [c_amp]) [] body
| LP_label b d w body :
    cont = false ->
    all_blank b -> all_digits d -> 1 <= length d <= 6 -> all_white w ->
    (length d < 6 -> ~ starts_with is_digit_b (w ++ body)) ->
    ~ starts_with is_space_b body ->
    left_part cont (b ++ d ++ w ++ body) (b ++ d) w body.

(** ** Classification of a free-format line by its text alone *)
Definition blank_line (raw : str) : Prop := all_blank raw.
Definition bang_line (raw : str) : Prop :=
  exists b r, all_blank b /\ raw = b ++ c_bang :: r.
Definition hash_line (raw : str) : Prop := exists r, raw = c_hash :: r.
Definition include_line (raw : str) : Prop :=
  exists b kw sp q r, raw = b ++ kw ++ sp ++ q :: r /\ all_blank b /\
    map lower_b kw = L "include" /\ Forall (eq c_sp) sp /\
    (q = c_squote \/ q = c_dquote).
(** a FLPR directive, and the directive that toggles literal mode *)
Definition flpr_dir_line (raw : str) : Prop :=
  exists b r, all_blank b /\ raw = b ++ L "!#flpr" ++ r.
Definition flpr_lit_line (raw : str) : Prop :=
  exists b x r, all_blank b /\ length x = 3 /\
    raw = b ++ L "!#flpr" ++ x ++ L " literal" ++ r.
Definition code_line (raw : str) : Prop :=
  ~ blank_line raw /\ ~ bang_line raw /\ ~ hash_line raw /\ ~ include_line raw.

(** Every byte is a 7-bit character (the domain of <cctype> with signed char). *)
Definition ascii7 (s : str) : Prop := Forall (fun c => ctype_ok c = true) s.
