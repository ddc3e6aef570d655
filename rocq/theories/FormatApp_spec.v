(** What splitting compound lines is for. *)
From Verif Require Import Base Tags FileLine Token LogicalLine Stmts Stmts_spec LineEdit LineFlow_spec.
Local Open Scope nat_scope.

(** The statements of a line: what stands between the semicolons. *)
Definition statements_of (ll : LLn) : list (list Token) := filter nonempty (segments (l_frags ll)).
Definition has_semi (ll : LLn) : bool := existsb is_semi (l_frags ll).
(** The statements of the Fortran lines. *)
Definition program_of (lines : list LLn) : list (list Token) := flat_map (fun ll => if has_fortran ll then statements_of ll else []) lines.

(** The blanks before a token are known unless it is the first one of a statement
    (reading does not note them for the first half of a keyword like `endif`). *)
Definition spaced (l : list Token) : Prop :=
  forall a x b, l = a ++ x :: b -> tk_pre x = None -> a = [] \/ exists a' y, a = a' ++ [y] /\ is_semi y = true.
(** A line as it is after reading, with text that can be made again (see C46). *)
Definition line_ready (ll : LLn) : Prop :=
  redo_stmts ll = ll /\
  (has_fortran ll = true -> has_semi ll = true ->
   exists f r, l_layout ll = f :: r /\ is_fortran f = true /\ Forall (fun g => is_comment g = true \/ is_fortran g = true) r /\ lead f + 2 < 76 /\
     spaced (l_frags ll) /\ Forall (fun x => is_semi x = true -> tk_text x <> []) (l_frags ll)).
(** Line ll' has the tokens s and the text says so; label and indentation are those
    of ll and no comment line of it is lost. *)
Definition rewritten (ll : LLn) (s : list Token) (ll' : LLn) : Prop :=
  l_frags ll' = s /\ spelled s (map main_txt (fortran_lines (l_layout ll'))) /\
  Forall (fun g => width g <= 79) (fortran_lines (l_layout ll')) /\ continues (fortran_lines (l_layout ll')) /\
  l_label ll' = l_label ll /\ l_cat ll' = l_cat ll /\
  (s <> [] -> exists g q f r, l_layout ll' = g :: q /\ l_layout ll = f :: r /\ is_fortran g = true /\ left_txt g = left_txt f /\ left_space g = left_space f) /\
  (s <> [] -> l_suppress ll' = l_suppress ll) /\
  (forall c, In c (l_layout ll) -> is_comment c = true -> is_blank c = false -> In c (l_layout ll')) /\
  redo_stmts ll' = ll'.
(** What a line is split into. *)
Definition split_into (ll : LLn) (out : list LLn) : Prop :=
  if has_fortran ll && has_semi ll then
    match statements_of ll with
    | [] => exists ll', out = [ll'] /\ rewritten ll [] ll'
    | ss => Forall2 (rewritten ll) ss out
    end
  else out = [ll].
