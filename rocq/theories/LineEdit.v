(** Model of the editing members of Logical_Line (src/flpr/Logical_Line.cc).

    Simplifications: an iterator into fragments_ is an index; int and size_t are
    Z and nat (no overflow); std::cerr output is dropped.  A member that ends in
    init_from_layout or init_stmts takes and returns the state of the scanner. *)
From Verif Require Import Base Tags FileLine LogicalFile LogicalLine LineAccum Token Stmts Peg Lexer.
Local Open Scope nat_scope.

(** layout_[i]; anything outside is undefined. *)
Definition get_fl (l : list File_Line) (i : Z) : res File_Line :=
  if (i <? 0)%Z then UB else
  match nth_error l (Z.to_nat i) with Some f => Ok f | None => UB end.
Definition set_fl (l : list File_Line) (i : Z) (f : File_Line) : list File_Line :=
  firstn (Z.to_nat i) l ++ f :: skipn (S (Z.to_nat i)) l.
Definition with_main (f : File_Line) (m : str) : File_Line :=
  with_text f (left_txt f) (left_space f) m (right_space f) (right_txt f).
(** layout_[i].main_txt = g(layout_[i].main_txt) *)
Definition upd_main (l : list File_Line) (i : Z) (g : str -> res str) : res (list File_Line) :=
  f <- get_fl l i ;; m <- g (main_txt f) ;; Ok (set_fl l i (with_main f m)).
(** std::string members with an int position: a negative one is out of range. *)
Definition str_replace (pos : Z) (n : nat) (t s : str) : res str :=
  if (pos <? 0)%Z then Throw else
  if Z.to_nat pos <=? length s
  then Ok (firstn (Z.to_nat pos) s ++ t ++ skipn (Z.to_nat pos + n) s) else Throw.
Definition str_insert (pos : Z) (t s : str) : res str := str_replace pos 0 t s.
Definition str_erase (pos : Z) (n : nat) (s : str) : res str := str_replace pos n [] s.

Definition set_frags (ll : LLn) (layout : list File_Line) (frags : list Token) : LLn :=
  mkLLn (l_label ll) (l_cat ll) (l_suppress ll) (l_reformat ll) (l_nsemi ll) layout frags (l_stmts ll).
(** init_stmts on the members *)
Definition redo_stmts (ll : LLn) : LLn :=
  let '(st, n) := init_stmts (l_frags ll) in
  mkLLn (l_label ll) (l_cat ll) (l_suppress ll) (l_reformat ll) (Z.of_nat n) (l_layout ll) (l_frags ll) st.

(** Logical_Line.cc:123-149 init_from_layout, with tokenize and init_stmts *)
Definition init_from_layout (st : LS) (ll : LLn) (layout : list File_Line) : out (LLn * LS) :=
  lab <~ lift (init_label layout) ;;
  ' (fr, st') <~ tokenize_layout st layout ;;
  Done (redo_stmts (mkLLn lab (l_cat ll) (l_suppress ll) (l_reformat ll) (l_nsemi ll) layout fr (l_stmts ll)), st').

(** Token_Text.hh:91-93 *)
Definition is_split_token (x : Token) : res bool :=
  bl <- rd (mt_bl x) ;; el <- rd (mt_el x) ;; Ok (negb (bl =? el)%Z).
Definition move_cols (x : Token) (bc ec : option Z) : Token :=
  mkTok (tok x) (tk_line x) (tk_pos x) (tk_text x) (mt_bl x) bc (mt_el x) ec (tk_pre x) (tk_post x).

(** Logical_Line.cc:324-331 and 347-354: the loop over the fragments that follow
    on the line. *)
Fixpoint shift_line (line d : Z) (l : list Token) : res (list Token) :=
  match l with
  | [] => Ok []
  | x :: r =>
      bl <- rd (mt_bl x) ;;
      if (bl =? line)%Z then
        bc <- rd (mt_bc x) ;;
        sp <- is_split_token x ;;
        ec <- (if sp : bool then Ok (mt_ec x) else (e <- rd (mt_ec x) ;; Ok (Some (e + d)%Z))) ;;
        r' <- shift_line line d r ;;
        Ok (move_cols x (Some (bc + d)%Z) ec :: r')
      else Ok l
  end.

(** Logical_Line.cc:309-332 replace_fragment *)
Definition replace_fragment (ll : LLn) (n : nat) (tag : Z) (text : str) : res LLn :=
  match nth_error (l_frags ll) n with
  | None => UB
  | Some x =>
      let change := (zlen text - zlen (tk_text x))%Z in
      sp <- is_split_token x ;;
      _ <- assert_ (negb sp) ;;
      bl <- rd (mt_bl x) ;;
      bc <- rd (mt_bc x) ;;
      layout <- upd_main (l_layout ll) bl (str_replace bc (length (tk_text x)) text) ;;
      r <- shift_line bl change (skipn (S n) (l_frags ll)) ;;
      Ok (set_frags ll layout (firstn n (l_frags ll) ++ set_text (set_tok x tag) text :: r))
  end.

(** Logical_Line.cc:335-357 remove_fragment *)
Definition remove_fragment (ll : LLn) (n : nat) : res LLn :=
  match nth_error (l_frags ll) n with
  | None => UB
  | Some x =>
      sp <- is_split_token x ;;
      _ <- assert_ (negb sp) ;;
      bl <- rd (mt_bl x) ;;
      bc <- rd (mt_bc x) ;;
      layout <- upd_main (l_layout ll) bl (str_erase bc (length (tk_text x))) ;;
      r <- shift_line bl (- zlen (tk_text x))%Z (skipn (S n) (l_frags ll)) ;;
      Ok (redo_stmts (set_frags ll layout (firstn n (l_frags ll) ++ r)))
  end.

(** Logical_Line.cc:467-482 insert_text_before; [n] = number of fragments is
    fragments_.end() *)
Definition insert_place (frags : list Token) (n : nat) : res (Z * Z) :=
  if n =? length frags then
    match rev frags with
    | [] => UB
    | x :: _ => l <- rd (mt_el x) ;; c <- rd (mt_ec x) ;; Ok (l, c)
    end
  else match nth_error frags n with
       | None => UB
       | Some x => l <- rd (mt_bl x) ;; c <- rd (mt_bc x) ;; Ok (l, c)
       end.
Definition insert_text_at (layout : list File_Line) (p : Z * Z) (text : str) : res (list File_Line) :=
  let '(l, c) := p in
  _ <- assert_ (l <? zlen layout)%Z ;;
  f <- get_fl layout l ;;
  _ <- assert_ (c <=? zlen (main_txt f))%Z ;;
  upd_main layout l (str_insert c text).
Definition insert_text_before (st : LS) (ll : LLn) (n : nat) (text : str) : out (LLn * LS) :=
  layout <~ lift (p <- insert_place (l_frags ll) n ;; insert_text_at (l_layout ll) p text) ;;
  init_from_layout st ll layout.
(** Logical_Line.cc:485-496 insert_text_after *)
Definition insert_text_after (st : LS) (ll : LLn) (n : nat) (text : str) : out (LLn * LS) :=
  layout <~ lift (match nth_error (l_frags ll) n with
                  | None => UB
                  | Some x => l <- rd (mt_el x) ;; c <- rd (mt_ec x) ;; insert_text_at (l_layout ll) (l, c) text
                  end) ;;
  init_from_layout st ll layout.

(** Logical_Line.cc:418-451 erase_stmt_text_.  [erase_mid]: the loop over the
    lines strictly between. *)
Fixpoint erase_mid (l : list File_Line) (i n : nat) : res (list File_Line) :=
  match n with
  | 0 => Ok l
  | S n' =>
      f <- get_fl l (Z.of_nat i) ;;
      l' <- (if is_fortran f then (f' <- make_comment_or_blank f ;; Ok (set_fl l (Z.of_nat i) f')) else Ok l) ;;
      erase_mid l' (S i) n'
  end.
Definition count_fortran (l : list File_Line) (a b : Z) : nat :=
  length (filter is_fortran (firstn (Z.to_nat (b - a + 1)) (skipn (Z.to_nat a) l))).
Definition erase_stmt_text (l : list File_Line) (stln stcol eln ecol : Z) : res (list File_Line) :=
  _ <- assert_ (stln <=? eln)%Z ;;
  _ <- assert_ (0 <=? stln)%Z ;;
  _ <- assert_ (eln <=? zlen l)%Z ;;
  f <- get_fl l stln ;;
  _ <- assert_ (is_fortran f) ;;
  let multiline := (stln <? eln)%Z in
  ' (l1, sc) <-
    (if multiline then
       e <- get_fl l eln ;;
       _ <- assert_ (is_fortran e) ;;
       l1 <- upd_main l stln (fun m => if (stcol <? 0)%Z then Throw else erase_from m (Z.to_nat stcol)) ;;
       l2 <- erase_mid l1 (S (Z.to_nat stln)) (Z.to_nat (eln - stln - 1)) ;;
       Ok (l2, 0%Z)
     else Ok (l, stcol)) ;;
  _ <- assert_ (sc <=? ecol)%Z ;;
  _ <- assert_ (0 <=? sc)%Z ;;
  g <- get_fl l1 eln ;;
  _ <- assert_ (ecol <=? zlen (main_txt g))%Z ;;
  m <- str_erase sc (Z.to_nat (ecol - sc)) (main_txt g) ;;
  g1 <- (if is_none (find_first_not_of [c_sp] m) then
           let h := with_main g [] in
           if multiline then make_comment_or_blank h else Ok h
         else Ok (with_main g m)) ;;
  let l3 := set_fl l1 eln g1 in
  if count_fortran l3 stln eln =? 1 then
    h <- get_fl l3 stln ;; Ok (set_fl l3 stln (make_uncontinued h))
  else Ok l3.

(** Logical_Line.cc:454-464 replace_stmt_substr on the fragments [b, e) *)
Definition replace_stmt_substr (st : LS) (ll : LLn) (b e : nat) (text : str) : out (LLn * LS) :=
  layout <~ lift
    (match nth_error (l_frags ll) b, nth_error (l_frags ll) (e - 1) with
     | Some x, Some y =>
         sl <- rd (mt_bl x) ;; sc <- rd (mt_bc x) ;;
         el <- rd (mt_el y) ;; ec <- rd (mt_ec y) ;;
         l <- erase_stmt_text (l_layout ll) sl sc el ec ;;
         upd_main l sl (str_insert sc text)
     | _, _ => UB
     end) ;;
  init_from_layout st ll layout.

(** Logical_Line.cc:360-415 replace_main_text.  [last_fortran]: :369-373 *)
Fixpoint last_fortran (l : list File_Line) (i : nat) : nat :=
  match i with
  | 0 => 0
  | S i' => match nth_error l i with
            | Some f => if is_fortran f then i else last_fortran l i'
            | None => last_fortran l i'
            end
  end.
Fixpoint set_mains (l : list File_Line) (ts : list str) : list File_Line :=
  match l, ts with
  | f :: l', t :: ts' => with_main f t :: set_mains l' ts'
  | _, _ => l
  end.
Fixpoint blank_rest (l : list File_Line) : res (list File_Line) :=
  match l with
  | [] => Ok []
  | f :: r => f' <- make_comment_or_blank f ;; r' <- blank_rest r ;; Ok (f' :: r')
  end.
Definition is_compound (ll : LLn) : bool := 1 <? length (l_stmts ll).
Definition new_main_layout (l : list File_Line) (ts : list str) : res (list File_Line) :=
  let ref := last_fortran l (length l - 1) in
  rf <- get_fl l (Z.of_nat ref) ;;
  _ <- assert_ (is_fortran rf) ;;
  _ <- assert_ (negb (is_continued rf)) ;;
  _ <- assert_ (length (filter is_fortran l) =? length l) ;;
  l1 <- (if length l <? length ts then
           let indent := (main_first_col rf - 1)%Z in
           let c := make_continued rf in
           let c1 := with_text c [] (left_space c) (main_txt c) (right_space c) [] in
           ' (c2, _) <- set_leading_spaces c1 indent ;;
           Ok (l ++ repeat c2 (length ts - length l))
         else Ok l) ;;
  let l2 := set_mains l1 ts in
  let k := length ts in
  _ <- assert_ (ref <? k) ;;
  let l3 := if ref <? k - 1
            then match nth_error l2 ref with
                 | Some f => set_fl l2 (Z.of_nat ref) (make_continued f) | None => l2 end
            else l2 in
  f <- get_fl l3 (Z.of_nat (k - 1)) ;;
  let l4 := set_fl l3 (Z.of_nat (k - 1)) (make_uncontinued f) in
  r <- blank_rest (skipn k l4) ;;
  Ok (firstn k l4 ++ r).
Definition replace_main_text (st : LS) (ll : LLn) (ts : list str) : out (LLn * LS) :=
  match ts with
  | [] => Done (ll, st)
  | _ =>
      layout <~ lift
        (_ <- assert_ (negb (is_empty (l_layout ll))) ;;
         _ <- assert_ (negb (is_compound ll)) ;;
         new_main_layout (l_layout ll) ts) ;;
      init_from_layout st ll layout
  end.

(** Logical_Line.cc:723-737 set_leading_spaces (the returned flag too) *)
Definition has_fortran (ll : LLn) : bool := negb (l_suppress ll) && existsb is_fortran (l_layout ll).
Fixpoint indent_all (l : list File_Line) (sp : Z) : res (list File_Line * bool) :=
  match l with
  | [] => Ok ([], false)
  | f :: r =>
      ' (f', c) <- set_leading_spaces f sp ;;
      ' (r', d) <- indent_all r sp ;;
      Ok (f' :: r', orb c d)
  end.
Definition ll_set_leading_spaces (ll : LLn) (sp off : Z) : res (LLn * bool) :=
  let off' := if has_fortran ll then off else 0%Z in
  match l_layout ll with
  | [] => UB
  | f :: r =>
      ' (f', c) <- set_leading_spaces f sp ;;
      ' (r', d) <- indent_all r (sp + off') ;;
      Ok (set_frags ll (f' :: r') (l_frags ll), orb c d)
  end.

(** Logical_Line.cc:740-746 set_label *)
Definition ll_set_label (ll : LLn) (n : Z) : res (LLn * bool) :=
  if (n =? l_label ll)%Z then Ok (ll, false) else
  match l_layout ll with
  | [] => UB
  | f :: r =>
      ' (f', _) <- set_label f n ;;
      Ok (mkLLn n (l_cat ll) (l_suppress ll) (l_reformat ll) (l_nsemi ll) (f' :: r) (l_frags ll) (l_stmts ll), true)
  end.

(** Logical_Line.cc:809-828 append_comment *)
Definition append_comment (ll : LLn) (text : str) : res LLn :=
  match text with
  | [] => Ok ll
  | _ =>
      match l_layout ll with
      | [] => UB
      | f :: r =>
          let f' :=
            if is_empty (right_txt f) then
              let lline_len := (main_first_col f + zlen (main_txt f))%Z in
              let c_len := (2 + zlen text)%Z in
              with_text f (left_txt f) (left_space f) (main_txt f)
                (if (lline_len <? 72 - c_len)%Z then spaces (Z.to_nat (72 - c_len - lline_len)) else spaces 4)
                (L "! " ++ text)
            else
              with_text f (left_txt f) (left_space f) (main_txt f) (right_space f)
                (right_txt f ++ (if is_none (find_char c_bang (right_txt f)) then L " ! " else L " : ") ++ text) in
          Ok (set_frags ll (f' :: r) (l_frags ll))
      end
  end.

(** Logical_Line.cc:499-636 split_after.  [rest_of_line]: :510-513, the number of
    fragments that begin on the split line. *)
Fixpoint rest_of_line (line : Z) (l : list Token) : res nat :=
  match l with
  | [] => Ok 0
  | x :: r => bl <- rd (mt_bl x) ;;
              if (bl =? line)%Z then (k <- rest_of_line line r ;; Ok (S k)) else Ok 0
  end.
(** :516-518 *)
Fixpoint lead_semis (k : nat) (l : list Token) : nat :=
  match k, l with
  | S k', x :: r => if is_semi x then S (lead_semis k' r) else 0
  | _, _ => 0
  end.
Definition shift_cols (d : Z) (x : Token) : res Token :=
  bc <- rd (mt_bc x) ;;
  sp <- is_split_token x ;;
  ec <- (if sp : bool then Ok (mt_ec x) else (e <- rd (mt_ec x) ;; Ok (Some (e - d)%Z))) ;;
  Ok (move_cols x (Some (bc - d)%Z) ec).
Definition move_lines (d : Z) (x : Token) : res Token :=
  bl <- rd (mt_bl x) ;; el <- rd (mt_el x) ;;
  Ok (mkTok (tok x) (tk_line x) (tk_pos x) (tk_text x) (Some (bl + d)%Z) (mt_bc x) (Some (el + d)%Z) (mt_ec x)
            (tk_pre x) (tk_post x)).
Fixpoint rmap {A B} (f : A -> res B) (l : list A) : res (list B) :=
  match l with [] => Ok [] | x :: r => y <- f x ;; s <- rmap f r ;; Ok (y :: s) end.

(** :526-575: the two File_Lines made from the split line *)
Definition split_line_pair (f : File_Line) (ec bc indent : Z) : res (File_Line * File_Line) :=
  let pos := Z.to_nat ec in
  rs <- (if is_empty (right_txt f) then Ok (right_space f)
         else blanks_z (zlen (right_space f) + zlen (main_txt f) - ec)%Z) ;;
  m <- (if (ec <? 0)%Z then Throw else erase_from (main_txt f) pos) ;;
  let src := make_uncontinued (with_text f (left_txt f) (left_space f) m rs (right_txt f)) in
  m2 <- (if (bc <? 0)%Z then Throw else erase_n (main_txt f) 0 (Z.to_nat bc)) ;;
  let g := if is_continued f
           then with_text f [] (left_space f) m2
                  (if (zlen (right_space f) =? 1 + bc - 1)%Z then right_space f else spaces (Z.to_nat (1 + bc - 1))) [c_amp]
           else with_text f [] (left_space f) m2 [] [] in
  ' (g', _) <- set_leading_spaces g indent ;;
  Ok (src, g').
(** :588-600: skip comments, indent the next line *)
Fixpoint indent_next (l : list File_Line) (indent : Z) : res (list File_Line) :=
  match l with
  | [] => Ok []
  | f :: r =>
      if is_trivial f then
        f' <- (if is_empty (left_txt f)
               then (ls <- blanks_z indent ;; Ok (with_text f (left_txt f) ls (main_txt f) (right_space f) (right_txt f)))
               else Ok f) ;;
        r' <- indent_next r indent ;; Ok (f' :: r')
      else
        ' (f', _) <- set_leading_spaces (with_text f [] (left_space f) (main_txt f) (right_space f) (right_txt f)) indent ;;
        Ok (f' :: r)
  end.
(** [None]: returned false, new_ll untouched. *)
Definition split_after (ll : LLn) (n : nat) : res (LLn * option LLn) :=
  let fr := l_frags ll in
  if n =? length fr then Ok (ll, None) else
  match nth_error fr n with
  | None => UB
  | Some x =>
      sl <- rd (mt_el x) ;;
      _ <- assert_ (sl <? zlen fr)%Z ;;
      f0 <- get_fl (l_layout ll) 0 ;;
      let indent := (main_first_col f0 - 1)%Z in
      let after := skipn (S n) fr in
      k <- rest_of_line sl after ;;
      let j := lead_semis k after in
      let rem := skipn j after in                   (* [lr_beg, end) *)
      f <- get_fl (l_layout ll) sl ;;
      let head := firstn (Z.to_nat sl) (l_layout ll) in
      let tail := skipn (S (Z.to_nat sl)) (l_layout ll) in
      ' (src, export, rem1) <-
        (if j <? k then
           match rem with
           | [] => UB
           | y :: _ =>
               ec <- rd (mt_ec x) ;;
               bc <- rd (mt_bc y) ;;
               ' (src, g) <- split_line_pair f ec bc indent ;;
               a <- rmap (shift_cols bc) (firstn (k - j) rem) ;;
               rem1 <- rmap (move_lines 1) (a ++ skipn (k - j) rem) ;;
               Ok (src, g :: tail, rem1)
           end
         else
           export <- indent_next tail indent ;;
           Ok (make_uncontinued f, export, rem)) ;;
      match export with
      | [] => Ok (set_frags ll (head ++ [src]) fr, None)
      | _ =>
          match rem1 with
          | [] => UB                                (* front() of an empty list *)
          | z :: _ =>
              up <- rd (mt_bl z) ;;
              rem2 <- rmap (move_lines (- up)) rem1 ;;
              Ok (mkLLn (l_label ll) (l_cat ll) (l_suppress ll) (l_reformat ll) (-1) (head ++ [src]) (firstn (S n) fr) [],
                  Some (mkLLn 0 CAT_UNKNOWN false false (-1) export rem2 []))
          end
      end
  end.

(** Logical_Line.cc:152-168 max_main_txt_len *)
Definition max_main_txt_len (f : File_Line) : res nat :=
  if is_comment f then Ok 0 else
  let mlen := length (left_txt f) + length (left_space f) in
  let rlen := length (right_space f) + length (right_txt f) in
  let mlen' := if mlen + rlen <? 38 then mlen + rlen else mlen in
  _ <- assert_ (mlen' <? 76) ;;
  Ok (76 - mlen').

(** The layout during text_from_frags: the lines before fline_it, *fline_it, the
    lines after it. *)
Record Cur := mkCur { u_before : list File_Line; u_cur : File_Line; u_after : list File_Line }.
(** Logical_Line.cc:171-192 continue_fl *)
Fixpoint skip_comments (l : list File_Line) : list File_Line * list File_Line :=
  match l with
  | f :: r => if is_comment f then let '(a, b) := skip_comments r in (f :: a, b) else ([], l)
  | [] => ([], [])
  end.
Definition continue_fl (u : Cur) : Cur :=
  let c := make_continued (u_cur u) in
  let n := length (left_txt c) + length (left_space c) + (if is_empty (u_before u) then 2 else 0) in
  let '(cs, rest) := skip_comments (u_after u) in
  match rest with
  | [] => mkCur (u_before u ++ c :: cs) (with_text fl_default [] (spaces n) [] [] []) []
  | f :: r =>
      let g := make_uncontinued (with_text f [] (left_space f) (main_txt f) (right_space f) (right_txt f)) in
      mkCur (u_before u ++ c :: cs) (with_text g [] (spaces n) [] (right_space g) (right_txt g)) r
  end.
Definition add_main (u : Cur) (s : str) : Cur :=
  mkCur (u_before u) (with_main (u_cur u) (main_txt (u_cur u) ++ s)) (u_after u).

(** Logical_Line.cc:197-211 append_tt_if_: the text to append, or false.
    [max_len -= 1] wraps round at 0. *)
Definition append_tt_if (main : str) (max_len : nat) (x : Token) (first : bool) : res (option str) :=
  pre <- (if first then Ok 0 else (p <- rd (tk_pre x) ;; Ok (Z.to_nat p))) ;;
  let len := length (tk_text x) + pre in
  let fits := if (tok x =? TK_COMMA)%Z then length main + len <=? max_len
              else match max_len with 0 => true | S m => length main + len <=? m end in
  Ok (if fits then Some (spaces pre ++ tk_text x) else None).

(** Logical_Line.cc:246-260: the loop that splits a token; [i] parts done, [k]
    to do *)
Fixpoint split_token (k i pos count : nat) (text : str) (u : Cur) : res Cur :=
  match k with
  | 0 => Ok u
  | S k' =>
      p <- substr_n text pos count ;;
      let u1 := add_main u ((if 0 <? i then [c_amp] else []) ++ p) in
      let u2 := if k' =? 0 then u1 else
                let c := make_continued (u_cur u1) in
                continue_fl (mkCur (u_before u1) (with_text c (left_txt c) (left_space c) (main_txt c) [] (right_txt c)) (u_after u1)) in
      split_token k' (S i) (pos + count) count text u2
  end.

(** Logical_Line.cc:226-272: one fragment.  [redo] counts down; exit(1) is
    [Throw]. Result: layout, max_llen, line_start. *)
Fixpoint place_token (redo : nat) (x : Token) (u : Cur) (max : nat) (line_start : bool)
  : res (Cur * nat * bool) :=
  o <- append_tt_if (main_txt (u_cur u)) max x line_start ;;
  match o with
  | Some s => Ok (add_main u s, max, false)
  | None =>
      if line_start then
        _ <- assert_ (negb (max =? 0)) ;;            (* division by zero *)
        let size := length (tk_text x) in
        let splits := size / max + 1 in
        u' <- split_token splits 0 0 (size / splits + 1) (tk_text x) u ;;
        Ok (u', max, false)
      else
        let u' := continue_fl u in
        max' <- max_main_txt_len (u_cur u') ;;
        match redo with
        | 0 => Throw
        | S r => place_token r x u' max' true
        end
  end.
Fixpoint place_all (l : list Token) (u : Cur) (max : nat) (line_start : bool) : res Cur :=
  match l with
  | [] => Ok u
  | x :: r =>
      ' (u', max', ls') <- place_token 3 x u max line_start ;;
      place_all r u' max' ls'
  end.

(** Logical_Line.cc:284-296: the lines left over *)
Definition leftover (f : File_Line) : File_Line :=
  if is_comment f then f else
  let g := make_uncontinued f in
  if is_empty (right_txt g) then with_bits g (set_blank (bits g))
  else with_bits (with_main g []) (set_comment (bits g)).
Definition blanks_one (f : File_Line) : bool := negb (is_comment f) && is_empty (right_txt (make_uncontinued f)).

(** Logical_Line.cc:214-306 text_from_frags *)
Definition text_from_frags (ll : LLn) : res LLn :=
  match l_layout ll with
  | [] => Ok ll
  | f :: r =>
      if negb (is_fortran f) then Ok ll else
      let f1 := make_uncontinued (with_main f []) in
      max <- max_main_txt_len f1 ;;
      u <- place_all (l_frags ll) (mkCur [] f1 r) max true ;;
      let '(done, rest) := if is_empty (l_frags ll) then (u_before u, u_cur u :: u_after u)
                           else (u_before u ++ [u_cur u], u_after u) in
      let l1 := done ++ map leftover rest in
      let blanked := existsb blanks_one rest in
      let l2 := if blanked then filter (fun f => negb (is_blank f)) l1 else l1 in
      Ok (redo_stmts (mkLLn (l_label ll) (l_cat ll) (l_suppress ll || (blanked && is_empty l2))
                            (l_reformat ll) (l_nsemi ll) l2 (l_frags ll) (l_stmts ll)))
  end.
