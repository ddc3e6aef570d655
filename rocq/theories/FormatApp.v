(** Model of the line filters of flpr-format (apps/flpr_format_base.cc:125-189) and
    of Logical_Line::remove_empty_statements on a whole line. *)
From Verif Require Import Base Tags FileLine Token LogicalLine Stmts LineEdit.
Local Open Scope nat_scope.

(** Logical_Line.hh:190-194 *)
Definition ll_has_empty (ll : LLn) : res bool :=
  _ <- assert_ (-1 <? l_nsemi ll)%Z ;;
  Ok ((0 <? l_nsemi ll)%Z && (Z.of_nat (length (l_stmts ll)) <=? l_nsemi ll)%Z).
(** Logical_Line.cc:639-689 *)
Definition ll_remove_empty (ll : LLn) : res (LLn * bool) :=
  ' (fr, changed) <- remove_empty_frags (l_frags ll) (length (l_stmts ll)) ;;
  let ll1 := set_frags ll (l_layout ll) fr in
  if changed : bool then ll' <- text_from_frags ll1 ;; Ok (ll', true) else Ok (ll1, false).

(** flpr_format_base.cc:125-132 *)
Fixpoint remove_empty_stmts (lines : list LLn) : res (list LLn * bool) :=
  match lines with
  | [] => Ok ([], false)
  | ll :: r =>
      ' (ll', c) <- (if has_fortran ll then Ok (ll, false)
                     else e <- ll_has_empty ll ;; if e : bool then ll_remove_empty ll else Ok (ll, false)) ;;
      ' (r', c') <- remove_empty_stmts r ;;
      Ok (ll' :: r', c || c')
  end.

(** :141-187: what becomes of one line, which is visited again after every split;
    [n] bounds the visits; [cleanup] is cleanup_split.  The lines inserted above
    it and the line itself, changed, cleanup_split. *)
Fixpoint split_line (n : nat) (cleanup : bool) (ll : LLn) : res (list LLn * bool * bool) :=
  if negb (has_fortran ll) then Ok ([ll], false, cleanup) else
  match l_stmts ll with
  | (b, e) :: (b2, _) :: _ =>
      match n with
      | 0 => UB
      | S n =>
          new <- text_from_frags (set_frags ll (l_layout ll) (skipn b (firstn e (l_frags ll)))) ;;
          let old := redo_stmts (set_frags ll (l_layout ll) (skipn b2 (l_frags ll))) in
          ' (r, _, cl) <- split_line n true old ;;
          Ok (redo_stmts new :: r, true, cl)
      end
  | st =>
      if cleanup then
        match st with
        | [] => UB
        | (_, e) :: _ => ll' <- text_from_frags (set_frags ll (l_layout ll) (firstn e (l_frags ll))) ;; Ok ([ll'], false, false)
        end
      else
        em <- ll_has_empty ll ;;
        if em : bool then ' (ll', c) <- ll_remove_empty ll ;; Ok ([ll'], c, false) else Ok ([ll], false, false)
  end.
(** :137-189 *)
Fixpoint split_lines (cleanup : bool) (lines : list LLn) : res (list LLn * bool) :=
  match lines with
  | [] => Ok ([], false)
  | ll :: r =>
      ' (ls, c, cl) <- split_line (length (l_stmts ll)) cleanup ll ;;
      ' (r', c') <- split_lines cl r ;;
      Ok (ls ++ r', c || c')
  end.
Definition split_compound_stmts (lines : list LLn) : res (list LLn * bool) := split_lines false lines.
