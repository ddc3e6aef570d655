(** Model of Logical_File::convert_fixed_to_free (src/flpr/Logical_File.cc:475-587).

    Simplifications: size_t and int are nat and Z (line indices of tokens are not
    negative, so the cast at :507 changes nothing); the file type kept in
    file_info, set to FREEFMT exactly when true is returned (:581-584), is left
    to the returned flag. *)
From Verif Require Import Base Tags FileLine LogicalFile LogicalLine Token Stmts LineEdit.
Local Open Scope nat_scope.

Definition unset_continuation b :=
  mkBits (b_blank b) (b_comment b) (b_continued b) false (b_label b) (b_preprocessor b)
         (b_include b) (b_flpr_pp b) (b_flpr_lit b) (b_fixed b).

(** :488-490 *)
Definition unset_fixed (f : File_Line) : File_Line := with_bits f (put_fixed false (bits f)).

(** :494-500 *)
Definition count_fortran (l : list File_Line) : nat := length (filter is_fortran l).

(** :504-511 needs_front_continuation *)
Fixpoint lines_from (b : Z) (n : nat) : list Z :=
  match n with 0 => [] | S m => b :: lines_from (b + 1) m end.
Fixpoint front_lines (l : list Token) : res (list Z) :=
  match l with
  | [] => Ok []
  | x :: r =>
      sp <- is_split_token x ;;
      bl <- rd (mt_bl x) ;;
      el <- rd (mt_el x) ;;
      rest <- front_lines r ;;
      Ok (if sp : bool then lines_from (bl + 1) (Z.to_nat (el - bl)) ++ rest else rest)
  end.

(** :517-529 the trailing continuation mark *)
Definition mark_end (f : File_Line) : File_Line :=
  let g :=
    if is_empty (right_txt f)
    then with_text f (left_txt f) (left_space f) (main_txt f) (right_space f) [c_amp]
    else with_text f (left_txt f) (left_space f) (main_txt f)
           (if ceq (open_delim f) c_nul && (2 <? length (right_space f))
            then skipn 2 (right_space f) else right_space f)
           (L "& " ++ right_txt f) in
  with_bits g (put_continued true (bits g)).

(** :532-535 *)
Definition shift_first (f : File_Line) : File_Line :=
  if is_empty (left_txt f)
  then with_text f [] (spaces 6 ++ left_space f) (main_txt f) (right_space f) (right_txt f)
  else f.

(** :536-558; second component: whether the front of needs_front_continuation is
    removed. *)
Definition mark_front (f : File_Line) (idx : Z) (needs : list Z) : res (File_Line * list Z) :=
  _ <- assert_ (length (left_txt f) =? 6) ;;
  match needs with
  | n :: rest =>
      if (n =? idx)%Z then
        Ok (with_text f (firstn 5 (left_txt f) ++ [c_amp]) (left_space f) (main_txt f)
              (right_space f) (right_txt f), rest)
      else
        _ <- assert_ (forallb (ceq c_sp) (firstn 5 (left_txt f))) ;;
        Ok (with_text (with_bits f (unset_continuation (bits f)))
              [] (spaces 6 ++ left_space f) (main_txt f) (right_space f) (right_txt f), needs)
  | [] =>
      _ <- assert_ (forallb (ceq c_sp) (firstn 5 (left_txt f))) ;;
      Ok (with_text (with_bits f (unset_continuation (bits f)))
            [] (spaces 6 ++ left_space f) (main_txt f) (right_space f) (right_txt f), needs)
  end.

(** :561-569 and :574-579 *)
Definition free_comment (f : File_Line) : res File_Line :=
  match left_txt f with
  | [] => UB
  | c :: r =>
      Ok (if ceq c c_sp then f
          else with_text f (c_bang :: r) (left_space f) (main_txt f) (right_space f) (right_txt f))
  end.

(** :513-570: [idx] is curr_idx, [k] is curr_fortran_line. *)
Fixpoint free_stmt (l : list File_Line) (idx : Z) (k total : nat) (needs : list Z)
  : res (list File_Line) :=
  match l with
  | [] => Ok []
  | f :: r =>
      if is_fortran f then
        let f1 := if k + 1 <? total then mark_end f else f in
        ' (f2, needs') <- (if k =? 0 then Ok (shift_first f1, needs) else mark_front f1 idx needs) ;;
        r' <- free_stmt r (idx + 1) (k + 1) total needs' ;;
        Ok (f2 :: r')
      else
        f1 <- (if is_comment f then free_comment f else Ok f) ;;
        r' <- free_stmt r (idx + 1) k total needs ;;
        Ok (f1 :: r')
  end.
(** :571-579 *)
Fixpoint free_other (l : list File_Line) : res (list File_Line) :=
  match l with
  | [] => Ok []
  | f :: r =>
      f1 <- (if is_comment f then free_comment f else Ok f) ;;
      r' <- free_other r ;;
      Ok (f1 :: r')
  end.

Definition with_layout (ll : LLn) (layout : list File_Line) : LLn :=
  set_frags ll layout (l_frags ll).

(** :477-580, one logical line; the flag says whether it was converted. *)
Definition convert_ll (ll : LLn) : res (LLn * bool) :=
  match l_layout ll with
  | [] => Ok (ll, false)
  | f :: _ =>
      if is_fixed_format f then
        let layout := map unset_fixed (l_layout ll) in
        layout' <-
          (if is_fortran f then
             needs <- front_lines (l_frags ll) ;;
             free_stmt layout 0 0 (count_fortran layout) needs
           else free_other layout) ;;
        Ok (with_layout ll layout', true)
      else Ok (ll, false)
  end.

(** :475-587 *)
Fixpoint convert_file (l : list LLn) : res (list LLn * bool) :=
  match l with
  | [] => Ok ([], false)
  | ll :: r =>
      ' (ll', b) <- convert_ll ll ;;
      ' (r', b') <- convert_file r ;;
      Ok (ll' :: r', b || b')
  end.
