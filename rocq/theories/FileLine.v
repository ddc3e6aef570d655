(** Model of class FLPR::File_Line (src/flpr/File_Line.hh, File_Line.cc). *)
From Verif Require Import Base.

(** File_Line.hh:39-51: class_flags, one boolean per bit of [classification_]. *)
Record Bits := mkBits {
  b_blank : bool; b_comment : bool; b_continued : bool; b_continuation : bool;
  b_label : bool; b_preprocessor : bool; b_include : bool; b_flpr_pp : bool;
  b_flpr_lit : bool; b_fixed : bool }.

(** File_Line.cc:69, a default constructed bitset. *)
Definition bits0 : Bits :=
  mkBits false false false false false false false false false false.

(** SET_CLASS / UNSET_CLASS, File_Line.cc:26-28. *)
Definition set_blank b := mkBits true (b_comment b) (b_continued b) (b_continuation b) (b_label b) (b_preprocessor b) (b_include b) (b_flpr_pp b) (b_flpr_lit b) (b_fixed b).
Definition set_comment b := mkBits (b_blank b) true (b_continued b) (b_continuation b) (b_label b) (b_preprocessor b) (b_include b) (b_flpr_pp b) (b_flpr_lit b) (b_fixed b).
Definition put_continued v b := mkBits (b_blank b) (b_comment b) v (b_continuation b) (b_label b) (b_preprocessor b) (b_include b) (b_flpr_pp b) (b_flpr_lit b) (b_fixed b).
Definition set_continuation b := mkBits (b_blank b) (b_comment b) (b_continued b) true (b_label b) (b_preprocessor b) (b_include b) (b_flpr_pp b) (b_flpr_lit b) (b_fixed b).
Definition put_label v b := mkBits (b_blank b) (b_comment b) (b_continued b) (b_continuation b) v (b_preprocessor b) (b_include b) (b_flpr_pp b) (b_flpr_lit b) (b_fixed b).
Definition set_preprocessor b := mkBits (b_blank b) (b_comment b) (b_continued b) (b_continuation b) (b_label b) true (b_include b) (b_flpr_pp b) (b_flpr_lit b) (b_fixed b).
Definition set_include b := mkBits (b_blank b) (b_comment b) (b_continued b) (b_continuation b) (b_label b) (b_preprocessor b) true (b_flpr_pp b) (b_flpr_lit b) (b_fixed b).
Definition set_flpr_pp b := mkBits (b_blank b) (b_comment b) (b_continued b) (b_continuation b) (b_label b) (b_preprocessor b) (b_include b) true (b_flpr_lit b) (b_fixed b).
Definition set_flpr_lit b := mkBits (b_blank b) (b_comment b) (b_continued b) (b_continuation b) (b_label b) (b_preprocessor b) (b_include b) (b_flpr_pp b) true (b_fixed b).
Definition put_fixed v b := mkBits (b_blank b) (b_comment b) (b_continued b) (b_continuation b) (b_label b) (b_preprocessor b) (b_include b) (b_flpr_pp b) (b_flpr_lit b) v.

(** File_Line.hh:53-70, 198-199: the data members. *)
Record File_Line := mkFL {
  linenum : Z;
  left_txt : str; left_space : str; main_txt : str;
  right_space : str; right_txt : str;
  open_delim : ascii;
  bits : Bits }.

(** File_Line.hh:73: default constructor. *)
Definition fl_default : File_Line := mkFL (-1) [] [] [] [] [] c_nul bits0.

(** File_Line.hh:77-93: queries. *)
Definition has_label f := b_label (bits f).
Definition is_blank f := b_blank (bits f).
Definition is_comment f := b_comment (bits f).
Definition is_continuation f := b_continuation (bits f).
Definition is_continued f := b_continued (bits f).
Definition is_flpr_lit f := b_flpr_lit (bits f).
Definition is_flpr_pp f := b_flpr_pp (bits f).
Definition is_include f := b_include (bits f).
Definition is_preprocessor f := b_preprocessor (bits f).
Definition is_fixed_format f := b_fixed (bits f).
Definition is_trivial f := is_comment f || is_blank f.
Definition is_fortran f :=
  negb (is_trivial f) && negb (is_preprocessor f) && negb (is_flpr_pp f)
  && negb (is_flpr_lit f) && negb (is_include f).

(** The legal values of open_delim (asserted at File_Line.cc:58, 722, 763). *)
Definition delim_ok (d : ascii) : bool :=
  ceq d c_nul || ceq d c_dquote || ceq d c_squote.

(** File_Line.cc:52-59 *)
Definition fl_make (ln : Z) (b : Bits) (lt ls mt rs rt : str) (od : ascii)
  : res File_Line :=
  _ <- assert_ (delim_ok od) ;;
  Ok (mkFL ln lt ls mt rs rt od b).
(** File_Line.cc:61-62 *)
Definition fl_left (ln : Z) (b : Bits) (lt : str) : File_Line :=
  mkFL ln lt [] [] [] [] c_nul b.

(** utils.cc:21-24 FLPR::tolower *)
Fixpoint flpr_tolower (s : str) : res str :=
  match s with
  | [] => Ok []
  | c :: s' => d <- c_tolower c ;; r <- flpr_tolower s' ;; Ok (d :: r)
  end.

Fixpoint str_eqb (a b : str) : bool :=
  match a, b with
  | [], [] => true
  | x :: a', y :: b' => ceq x y && str_eqb a' b'
  | _, _ => false
  end.

(** File_Line.cc:681-697 is_include_line.  The blank-skipping loop is
    [skip_while] on the rest of the text. *)
Definition is_include_line (txt : str) (non_blank : nat) : res bool :=
  if length txt <=? non_blank then Ok false else
  c <- at_ txt non_blank ;;
  if negb (ceq c "i"%char) && negb (ceq c "I"%char) then Ok false else
  m <- substr_n txt non_blank 7 ;;
  m <- flpr_tolower m ;;
  if str_eqb m (L "include") then
    match skip_while (ceq c_sp) (skipn (non_blank + 7) txt) with
    | q :: _ => Ok (ceq q c_squote || ceq q c_dquote)
    | [] => Ok false
    end
  else Ok false.

(** Short-circuited comparison txt[pos..] == pat, character by character. *)
Fixpoint match_at (txt : str) (pos : nat) (pat : str) : res bool :=
  match pat with
  | [] => Ok true
  | p :: pat' => c <- at_ txt pos ;;
                 if ceq c p then match_at txt (S pos) pat' else Ok false
  end.

(** File_Line.cc:699-704 *)
Definition is_flpr_directive (txt : str) (cp : nat) : res bool :=
  if cp + 5 <? length txt then match_at txt (cp + 1) (L "#flpr") else Ok false.

(** File_Line.cc:706-714 (note the offset 9, not 6) *)
Definition is_flpr_literal (txt : str) (cp : nat) : res bool :=
  d <- is_flpr_directive txt cp ;;
  if d && (cp + 5 + 8 <? length txt) then match_at txt (cp + 9) (L " literal")
  else Ok false.

Definition is_quote (c : ascii) : bool := ceq c c_squote || ceq c c_dquote.

(** File_Line.cc:733-748: the loop of find_trailing_fixed; [rest] is the text
    from index [i] up to (not including) lc. *)
Fixpoint ftx_loop (rest : str) (i : nat) (ctx : ascii) : option nat * ascii :=
  match rest with
  | [] => (None, ctx)
  | c :: r =>
      if ceq ctx c_nul then
        if is_quote c then ftx_loop r (S i) c
        else if ceq c c_bang then (Some i, c_nul)
        else ftx_loop r (S i) ctx
      else if ceq c ctx then ftx_loop r (S i) c_nul
      else ftx_loop r (S i) ctx
  end.

(** File_Line.cc:718-751; result = (returned position, open_delim). *)
Definition find_trailing_fixed (txt : str) (start : nat) (last_column : Z)
  (pod : ascii) : res (option nat * ascii) :=
  _ <- assert_ (delim_ok pod) ;;
  let N := length txt in
  let lc := if (0 <? last_column)%Z then Nat.min (Z.to_nat last_column) N else N in
  match ftx_loop (firstn (lc - start) (skipn start txt)) start pod with
  | (Some i, _) => Ok (Some i, c_nul)
  | (None, ctx) => Ok (if lc <? N then Some lc else None, ctx)
  end.

(** File_Line.cc:789-791: only white space left? *)
Fixpoint all_space (s : str) : res bool :=
  match s with
  | [] => Ok true
  | c :: s' => b <- c_isspace c ;; if b then all_space s' else Ok false
  end.

(** File_Line.cc:769-807 *)
Fixpoint ftr_loop (rest : str) (i : nat) (ctx : ascii) : res (option nat * ascii) :=
  match rest with
  | [] => if ceq ctx c_nul then Ok (None, c_nul) else Throw
  | c :: r =>
      if ceq ctx c_nul then
        if is_quote c then ftr_loop r (S i) c
        else if ceq c c_bang || ceq c c_amp then Ok (Some i, c_nul)
        else ftr_loop r (S i) ctx
      else if ceq c ctx then ftr_loop r (S i) c_nul
      else if ceq c c_amp then
        ws <- all_space r ;;
        if ws then Ok (Some i, ctx) else ftr_loop r (S i) ctx
      else ftr_loop r (S i) ctx
  end.

(** File_Line.cc:758-808 *)
Definition find_trailing_free (txt : str) (start : nat) (pod : ascii)
  : res (option nat * ascii) :=
  _ <- assert_ (delim_ok pod) ;;
  ftr_loop (skipn start txt) start pod.

(** Digits read by the label loop, at most [n]: File_Line.cc:277-278, 147-148. *)
Fixpoint count_digits (s : str) (n : nat) : res nat :=
  match n, s with
  | S n', c :: s' => d <- c_isdigit c ;;
                     if d then (k <- count_digits s' n' ;; Ok (S k)) else Ok 0
  | _, _ => Ok 0
  end.

(** File_Line.cc:292-293, 156-157: number of leading isspace characters.  At
    the end of the text the free-format loop reads the terminating NUL, which
    is not a space, the fixed-format loop tests the bound; both stop. *)
Fixpoint count_spaces (s : str) : res nat :=
  match s with
  | [] => Ok 0
  | c :: s' => b <- c_isspace c ;;
               if b then (k <- count_spaces s' ;; Ok (S k)) else Ok 0
  end.

(** File_Line.cc:197-205, 315-323: move trailing blanks of main_text to
    right_sp unless a character context is open.  [find_last_not_of] returning
    npos makes last_char + 1 = 0. *)
Definition split_trailing (od : ascii) (main : str) : str * str :=
  if ceq od c_nul then
    let n := match find_last_not_of set_st main with Some i => S i | None => 0 end in
    (firstn n main, skipn n main)
  else (main, []).

(** File_Line.cc:268-299: label or continuation mark, and indent, of a standard
    free-format Fortran line; [ri] is the index of the first non-blank, [c] its
    upper case.  Result: left_text, left_sp, the index of the first character
    of Fortran text, and the flags. *)
Definition free_left (raw : str) (plc : bool) (ri : nat) (c : ascii)
  : res (str * str * nat * Bits) :=
  isd <- (if plc then Ok false else c_isdigit c) ;;
  if (isd : bool) then
    (* 273-281, 291-293, 298-299 *)
    k <- count_digits (skipn ri raw) 6 ;;
    lt <- substr_n raw 0 (ri + k) ;;
    sk <- (if is_empty lt then Ok 0 else count_spaces (skipn (ri + k) raw)) ;;
    ls <- (if 0 <? sk then substr_n raw (ri + k) sk else Ok []) ;;
    Ok (lt, ls, ri + k + sk, put_label true bits0)
  else if ceq c c_amp then
    (* 282-287: ri = indent_begin, so left_sp stays empty *)
    lt <- substr_n raw 0 (ri + 1) ;;
    Ok (lt, [], ri + 1, set_continuation bits0)
  else
    (* indent_begin = 0, 298-299 *)
    ls <- (if 0 <? ri then substr_n raw 0 ri else Ok []) ;;
    Ok ([], ls, ri, bits0).

(** File_Line.cc:301-326: main text, trailing part. *)
Definition free_right (ln : Z) (raw : str) (pod : ascii) (lft ls : str) (ri : nat)
  (b1 : Bits) : res File_Line :=
  '(tb, od) <- find_trailing_free raw ri pod ;;
  '(main, rgt, b2) <-
    (match tb with
     | None => m <- substr raw ri ;; Ok (m, [], b1)
     | Some t =>
         m <- substr_n raw ri (t - ri) ;;
         r <- substr raw t ;;
         r0 <- at_ r 0 ;;
         Ok (m, r, if ceq r0 c_amp then put_continued true b1 else b1)
     end) ;;
  let '(m', rs) := split_trailing od main in
  fl_make ln b2 lft ls m' rs rgt od.

(** File_Line.cc:268-326 *)
Definition free_fortran (ln : Z) (raw : str) (pod : ascii) (plc : bool)
  (ri : nat) (c : ascii) : res File_Line :=
  '(lft, ls, ri2, b1) <- free_left raw plc ri c ;;
  free_right ln raw pod lft ls ri2 b1.

(** File_Line.cc:211-327 analyze_free; second component: the new value of
    in_literal_block. *)
Definition analyze_free (ln : Z) (raw : str) (pod : ascii) (plc in_lit : bool)
  : res (File_Line * bool) :=
  let ri := find_first_not_of set_str raw in
  if in_lit then
    (* 222-229 *)
    lit' <- (match ri with
             | None => Ok true
             | Some r =>
                 c0 <- at_ raw r ;;
                 if ceq c0 c_bang then
                   (l <- is_flpr_literal raw r ;; Ok (negb l))
                 else Ok true
             end) ;;
    Ok (fl_left ln (set_flpr_lit bits0) raw, lit')
  else
  match ri with
  | None => Ok (fl_left ln (set_blank bits0) raw, false)       (* 232-235 *)
  | Some r =>
      c0 <- at_ raw r ;;
      c <- c_toupper c0 ;;
      if (r =? 0) && ceq c c_hash then                          (* 240-243 *)
        Ok (fl_left ln (set_preprocessor bits0) raw, false)
      else
      inc <- is_include_line raw r ;;
      if (inc : bool) then Ok (fl_left ln (set_include bits0) raw, false)
      else if ceq c c_bang then                                 (* 251-266 *)
        lit <- is_flpr_literal raw r ;;
        if (lit : bool) then Ok (fl_left ln (set_flpr_lit bits0) raw, true)
        else
          dir <- is_flpr_directive raw r ;;
          if (dir : bool) then Ok (fl_left ln (set_flpr_pp bits0) raw, false)
          else Ok (fl_left ln (set_comment (put_continued plc bits0)) raw, false)
      else
        f <- free_fortran ln raw pod plc r c ;;
        Ok (f, false)
  end.

(** File_Line.cc:81-93: expand the first run of tabs when it starts in the
    control columns. *)
Fixpoint count_tabs (s : str) : nat :=
  match s with
  | c :: s' => if ceq c c_tab then S (count_tabs s') else 0
  | [] => 0
  end.
Definition expand_tabs (raw : str) : str :=
  match find_first_of [c_tab] raw with
  | Some tb =>
      if tb <? 6 then
        let n := count_tabs (skipn tb raw) in
        firstn tb raw ++ spaces (n + 5 * n) ++ skipn (tb + n) raw
      else raw
  | None => raw
  end.

(** a - b on size_t used as a count for substr: wraps to a huge count when
    b > a, i.e. takes everything. *)
Definition substr_diff (s : str) (pos a b : nat) : res str :=
  if b <=? a then substr_n s pos (a - b) else substr s pos.

(** File_Line.cc:176-191: main and right text given the trailing position. *)
Definition fixed_split (raw : str) (ri : nat) (last_column : Z) (tb : option nat)
  : res (str * str) :=
  match tb with
  | None => m <- substr raw ri ;; Ok (m, [])
  | Some t =>
      m <- substr_diff raw ri t ri ;;
      r <- substr raw t ;;
      if (0 <? last_column)%Z && (t =? Z.to_nat last_column) then
        match find_first_not_of set_str r with
        | None => Ok (m, [])
        | Some k =>
            x <- at_ r k ;;
            if negb (ceq x c_amp) && negb (ceq x c_bang)
            then Ok (m, L "! " ++ r) else Ok (m, r)
        end
      else Ok (m, r)
  end.

(** File_Line.cc:165-208: the part of analyze_fixed after the left text. *)
Definition fixed_body (ln : Z) (raw : str) (pod : ascii) (last_column : Z)
  (b : Bits) (lft : str) (ri : nat) : res File_Line :=
  ls <- (if 6 <? ri then substr_n raw 6 (ri - 6) else Ok []) ;;
  '(tb, od) <- find_trailing_fixed raw ri last_column pod ;;
  '(main, rgt) <- fixed_split raw ri last_column tb ;;
  if is_empty main then Throw else
  let '(m', rs) := split_trailing od main in
  fl_make ln b lft ls m' rs rgt od.

(** File_Line.cc:133-208: the "standard Fortran line" part of analyze_fixed. *)
Definition fixed_fortran (ln : Z) (raw : str) (pod : ascii) (last_column : Z)
  (ri : nat) (c : ascii) : res File_Line :=
  let b0 := put_fixed true bits0 in
  '(ri1, lft, b1) <-
    (if ri =? 5 then
       lt <- substr_n raw 0 6 ;;
       x <- at_ raw 5 ;;
       Ok (6, lt, if ceq x "0"%char then b0 else set_continuation b0)
     else if ri <? 6 then
       d <- c_isdigit c ;;
       if (d : bool) then
         k <- count_digits (skipn ri raw) (6 - ri) ;;
         lt <- substr_n raw 0 (ri + k) ;;
         Ok (ri + k, lt, put_label true b0)
       else Ok (ri, [], b0)
     else Ok (ri, [], b0)) ;;
  if negb (is_empty lft) && ceq pod c_nul then
    sk <- count_spaces (skipn ri1 raw) ;;
    if ri1 + sk =? length raw then Ok (fl_left ln (set_blank b1) raw)
    else fixed_body ln raw pod last_column b1 lft (ri1 + sk)
  else fixed_body ln raw pod last_column b1 lft ri1.

(** File_Line.cc:64-209 analyze_fixed *)
Definition analyze_fixed (ln : Z) (raw_in : str) (pod : ascii) (last_column : Z)
  : res File_Line :=
  let b0 := put_fixed true bits0 in
  if is_empty raw_in then Ok (fl_left ln (set_blank b0) raw_in) else
  let raw := expand_tabs raw_in in
  match find_first_not_of set_str raw with
  | None => Ok (fl_left ln (set_blank b0) raw)
  | Some ri =>
      c0 <- at_ raw ri ;;
      c <- c_toupper c0 ;;
      if ri =? 5 then fixed_fortran ln raw pod last_column ri c
      else if (ri =? 0) && ceq c c_hash then
        Ok (fl_left ln (set_preprocessor b0) raw)
      else
      inc <- is_include_line raw ri ;;
      if (inc : bool) then Ok (fl_left ln (set_include b0) raw)
      else if ceq c c_bang || ((ri =? 0) && (ceq c c_star || ceq c "C"%char)) then
        lit <- is_flpr_literal raw ri ;;
        if (lit : bool) then Throw
        else
          dir <- is_flpr_directive raw ri ;;
          if (dir : bool) then Ok (fl_left ln (set_flpr_pp b0) raw)
          else Ok (fl_left ln (set_comment b0) raw)
      else fixed_fortran ln raw pod last_column ri c
  end.

(** File_Line.cc:665-675 operator<<.  std::setw(6) with left adjustment pads
    left_txt with blanks up to 6 characters. *)
Definition print_line (f : File_Line) : str :=
  (if is_fortran f && is_fixed_format f
   then left_txt f ++ spaces (6 - length (left_txt f))
   else left_txt f)
  ++ left_space f ++ main_txt f ++ right_space f ++ right_txt f.

(** File_Line.hh:148-158 *)
Definition main_first_col (f : File_Line) : Z :=
  if is_empty (main_txt f) then 0%Z
  else (1 + (if is_fixed_format f then 6 else zlen (left_txt f))
        + zlen (left_space f))%Z.

(** Field updates. *)
Definition with_bits (f : File_Line) (b : Bits) : File_Line :=
  mkFL (linenum f) (left_txt f) (left_space f) (main_txt f) (right_space f)
       (right_txt f) (open_delim f) b.
Definition with_text (f : File_Line) (lt ls mt rs rt : str) : File_Line :=
  mkFL (linenum f) lt ls mt rs rt (open_delim f) (bits f).

(** File_Line.cc:340-358 unspace_main *)
Definition unspace_main (f : File_Line) : res File_Line :=
  match find_first_not_of [c_sp] (main_txt f) with
  | None => Ok (with_bits f (set_blank (bits f)))
  | Some fnb =>
      let m := skipn fnb (main_txt f) in
      match find_last_not_of [c_sp] m with
      | None => UB
      | Some lnb =>
          let ftb := S lnb in
          if ftb <? length m then
            Ok (with_text f (left_txt f) (left_space f) (firstn ftb m)
                  (right_space f ++ spaces (length m - ftb)) (right_txt f))
          else Ok (with_text f (left_txt f) (left_space f) m (right_space f)
                     (right_txt f))
      end
  end.

(** Replace the first character. *)
Definition set_first (s : str) (c : ascii) : str :=
  match s with [] => [] | _ :: r => c :: r end.

(** File_Line.cc:360-376 make_uncontinued.  [right_txt.erase(0, npos)] clears
    the string; [right_space.append(npos, ' ')] is not reached then. *)
Definition make_uncontinued (f : File_Line) : File_Line :=
  let b := put_continued false (bits f) in
  match right_txt f with
  | [] => mkFL (linenum f) (left_txt f) (left_space f) (main_txt f) [] []
            (open_delim f) b
  | c :: r =>
      let rt := if ceq c c_amp then c_sp :: r else c :: r in
      match find_first_not_of [c_sp] rt with
      | None => mkFL (linenum f) (left_txt f) (left_space f) (main_txt f) [] []
                  (open_delim f) b
      | Some pos =>
          mkFL (linenum f) (left_txt f) (left_space f) (main_txt f)
            (right_space f ++ spaces pos) (skipn pos rt) (open_delim f) b
      end
  end.

(** File_Line.cc:378-392 make_continued *)
Definition make_continued (f : File_Line) : File_Line :=
  let b := put_continued true (bits f) in
  let rs := if is_empty (right_space f) then spaces 1 else right_space f in
  match right_txt f with
  | [] => mkFL (linenum f) (left_txt f) (left_space f) (main_txt f) rs [c_amp]
            (open_delim f) b
  | c :: _ =>
      if ceq c c_amp then
        mkFL (linenum f) (left_txt f) (left_space f) (main_txt f) rs
          (right_txt f) (open_delim f) b
      else
        mkFL (linenum f) (left_txt f) (left_space f) (main_txt f)
          (if 2 <? length rs then skipn 2 rs else rs)
          (c_amp :: c_sp :: right_txt f) (open_delim f) b
  end.

(** File_Line.cc:394-406 make_preprocessor *)
Definition make_preprocessor (f : File_Line) : File_Line :=
  mkFL (linenum f)
    (left_txt f ++ left_space f ++ main_txt f ++ right_space f ++ right_txt f)
    [] [] [] [] (open_delim f)
    (set_preprocessor (put_fixed (is_fixed_format f) bits0)).

(** File_Line.cc:408-420 make_blank *)
Definition make_blank (f : File_Line) : File_Line :=
  mkFL (linenum f) [] [] [] [] [] (open_delim f)
    (set_blank (put_fixed (is_fixed_format f) bits0)).

(** File_Line.cc:422-453 make_comment_or_blank *)
Definition make_comment_or_blank (f : File_Line) : res File_Line :=
  if is_comment f then Ok f
  else if is_blank f then Ok (make_blank f)
  else
    rt <- (if is_continued f then
             c <- at_ (right_txt f) 0 ;;
             _ <- assert_ (ceq c c_amp) ;;
             Ok (set_first (right_txt f) c_sp)
           else Ok (right_txt f)) ;;
    match find_char c_bang rt with
    | Some cs =>
        if 0 <? cs then
          let rs := right_space f ++ spaces cs in
          let rt' := skipn cs rt in
          Ok (mkFL (linenum f) (spaces (length (left_txt f))) (left_space f)
                (main_txt f) rs (spaces (length rt')) (open_delim f)
                (set_comment (put_fixed (is_fixed_format f) bits0)))
        else Ok (make_blank f)
    | None => Ok (make_blank f)
    end.

(** File_Line.cc:455-458 size *)
Definition fl_size (f : File_Line) : nat :=
  length (left_txt f) + length (left_space f) + length (main_txt f)
  + length (right_space f) + length (right_txt f).

(** s.erase(pos, n) with an int count: negative becomes huge. *)
Definition erase_z (s : str) (pos : nat) (n : Z) : res str :=
  if (n <? 0)%Z then erase_from s pos else erase_n s pos (Z.to_nat n).

(** File_Line.cc:461-508: set_leading_spaces on a comment line. *)
Definition sls_comment (f : File_Line) (sp : Z) : res (File_Line * bool) :=
  match find_char c_bang (left_txt f) with
  | Some pos =>
      let clr lt := with_text f lt [] [] [] [] in
      if (Z.of_nat pos =? sp)%Z then Ok (clr (left_txt f), false) else
      lt <- (if pos =? 0 then
               match find_first_not_of_from set_st (left_txt f) 1 with
               | None => Ok (left_txt f)
               | Some tp =>
                   if (5 <? Z.of_nat tp)%Z then
                     if (sp + 5 <=? Z.of_nat tp)%Z
                     then erase_z (left_txt f) 1 (sp + 4)
                     else erase_n (left_txt f) 1 4
                   else Ok (left_txt f)
               end
             else erase_n (left_txt f) 0 pos) ;;
      pre <- blanks_z sp ;;
      Ok (clr (pre ++ lt), true)
  | None =>
      match find_char c_bang (main_txt f) with
      | Some pos =>
          (* 493-497; for pos = 0 both updates are no-ops *)
          let mt := skipn pos (main_txt f) in
          let ls := left_space f ++ spaces pos in
          let lead := (zlen (left_txt f) + zlen (left_space f) + Z.of_nat pos)%Z in
          let f1 := with_text f (left_txt f) ls mt (right_space f) (right_txt f) in
          if (lead =? sp)%Z then Ok (f1, false)
          else if (zlen (left_txt f) <? sp)%Z then
            ls' <- blanks_z (sp - zlen (left_txt f)) ;;
            Ok (with_text f (left_txt f) ls' mt (right_space f) (right_txt f), true)
          else Ok (f1, false)
      | None => Ok (f, false)
      end
  end.

(** File_Line.cc:511-556: new left text, left space and [offset].  Result
    [None]: "no change needed" (return false).  The offset is [None] when the
    variable [offset] is left uninitialised. *)
Definition sls_left (f : File_Line) (sp : Z)
  : res (option (str * str * option Z)) :=
  let lt := left_txt f in
  let ls := left_space f in
  if is_empty lt then
    if (zlen ls =? sp)%Z then Ok None
    else
      ls' <- blanks_z sp ;;
      Ok (Some (lt, ls', Some (sp - zlen ls)%Z))
  else
    let orig := (zlen lt + zlen ls)%Z in
    if has_label f then
      if (zlen lt <? sp)%Z then
        let new_ls := (sp - zlen lt)%Z in
        if (zlen ls =? new_ls)%Z then Ok None
        else
          ls' <- blanks_z new_ls ;;
          Ok (Some (lt, ls', Some (new_ls - zlen ls)%Z))
      else if (zlen ls =? 1)%Z then Ok None
      else Ok (Some (lt, spaces 1, Some (1 - zlen ls)%Z))
    else if is_continuation f && negb (is_fixed_format f) then
      if (orig =? sp)%Z then Ok None
      else if (orig <? sp)%Z then
        Ok (Some (spaces (Z.to_nat (sp - orig)) ++ lt, ls, Some (sp - orig)%Z))
      else
        match find_first_not_of [c_sp] lt with
        | None => UB
        | Some pos =>
            let rc := Z.min (Z.of_nat pos) (orig - sp)%Z in
            Ok (Some (skipn (Z.to_nat rc) lt, ls, Some (- rc)%Z))
        end
    else Ok (Some (lt, ls, None)).

(** File_Line.cc:557-576: new right_space. *)
Definition sls_right (rs rt : str) (offset : option Z) : res str :=
  if is_empty rt then Ok rs else
  match offset with
  | None => UB
  | Some off =>
      if (off =? 0)%Z then Ok rs else
      match find_char c_bang rt with
      | None => Ok rs
      | Some pos =>
          if (off <? 0)%Z then insert_at rs pos (spaces (Z.to_nat (- off)))
          else
            let min_size := if is_empty rs then 0%Z else 1%Z in
            let new_size := Z.max min_size (zlen rs - off)%Z in
            if (zlen rs =? new_size)%Z then Ok rs
            else Ok (spaces (Z.to_nat new_size))
      end
  end.

(** File_Line.cc:460-580 set_leading_spaces; second component: the returned
    flag. *)
Definition set_leading_spaces (f : File_Line) (sp : Z) : res (File_Line * bool) :=
  if is_comment f then sls_comment f sp
  else if is_fortran f then
    o <- sls_left f sp ;;
    match o with
    | None => Ok (f, false)
    | Some (lt, ls, off) =>
        rs <- sls_right (right_space f) (right_txt f) off ;;
        Ok (with_text f lt ls (main_txt f) rs (right_txt f), true)
    end
  else Ok (f, false).

(** File_Line.cc:582-604 get_leading_spaces (line 596 adds right_txt.size()). *)
Definition get_leading_spaces (f : File_Line) : Z :=
  if is_comment f then
    match find_char c_bang (left_txt f) with
    | Some pos => Z.of_nat pos
    | None =>
        match find_char c_bang (main_txt f) with
        | Some pos => (zlen (left_txt f) + zlen (left_space f) + Z.of_nat pos)%Z
        | None =>
            match find_char c_bang (right_txt f) with
            | Some pos => (zlen (left_txt f) + zlen (left_space f)
                           + zlen (main_txt f) + zlen (right_txt f)
                           + Z.of_nat pos)%Z
            | None => 0%Z
            end
        end
    end
  else if is_fortran f then (main_first_col f - 1)%Z
  else 0%Z.

(** File_Line.cc:606-644 set_label *)
Definition set_label (f : File_Line) (n : Z) : res (File_Line * bool) :=
  _ <- assert_ (negb ((n <? 0)%Z || (99999 <? n)%Z)) ;;
  _ <- assert_ (is_fortran f) ;;
  _ <- assert_ (negb (is_continuation f)) ;;
  if (n =? 0)%Z && negb (has_label f) then Ok (f, false) else
  let d := to_dec (Z.to_N n) in
  '(lt, ls) <-
    (if is_fixed_format f then
       let lt := d ++ spaces (6 - length d) in
       if is_empty (left_txt f) then
         Ok (lt, if 6 <? length (left_space f) then skipn 6 (left_space f)
                 else left_space f)
       else
         _ <- assert_ (has_label f) ;;
         Ok (lt, left_space f)
     else
       let old := length (left_txt f) in
       let new := length d in
       if new <? old then Ok (d, left_space f ++ spaces (old - new))
       else if old <? new then
         let diff := new - old in
         if diff + 1 <? length (left_space f)
         then Ok (d, skipn diff (left_space f))
         else Ok (d, spaces 1)
       else Ok (d, left_space f)) ;;
  Ok (mkFL (linenum f) lt ls (main_txt f) (right_space f) (right_txt f)
        (open_delim f) (put_label true (bits f)), true).
