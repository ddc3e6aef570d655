(** Model of Logical_File::scan_free and scan_fixed
    (src/flpr/Logical_File.cc:86-285): from raw text lines to Logical_Lines.

    Simplification: of a Logical_Line only layout, label, cat and needs_reformat
    are kept here; its fragments (tokenize) are the subject of other files.
    [fl.begin() + start .. fl.begin() + curr] is represented by the consumed
    prefix of the list of lines still to be grouped. *)
From Verif Require Import Base FileLine.

(** Logical_Line.hh:32-38 *)
Inductive LineCat := CAT_INCLUDE | CAT_LITERAL | CAT_MACRO | CAT_FLPR_PP | CAT_UNKNOWN.

Record LLine := mkLL {
  ll_layout : list File_Line;
  ll_label : Z;
  ll_cat : LineCat;
  ll_needs_reformat : bool }.

(** utils.hh: last_non_blank_char *)
Definition last_non_blank_char (s : str) : ascii :=
  match find_last_not_of set_st s with
  | None => c_nul
  | Some i => nth i s c_nul
  end.

(** Logical_Line.cc:137-146: the label of a Logical_Line.  The constructor is
    noexcept, so an exception of stoi would terminate the program ([UB]). *)
Definition init_label (layout : list File_Line) : res Z :=
  match layout with
  | [] => UB                                     (* layout_.front() *)
  | f :: _ =>
      if has_label f then
        _ <- assert_ (negb (is_empty (left_txt f))) ;;
        match stoi (left_txt f) with Ok z => Ok z | _ => UB end
      else Ok 0%Z
  end.

(** Logical_Line.hh:71-78: construction from a range of File_Lines. *)
Definition make_ll (layout : list File_Line) (cat : LineCat) (nr : bool) : res LLine :=
  lab <- init_label layout ;; Ok (mkLL layout lab cat nr).

(** Logical_File.cc:184-203: analyse the raw lines one after the other.
    [Throw]: scan_free prints a message and returns false. *)
Fixpoint analyze_all_free (i : Z) (raws : list str) (pod : ascii) (plc lit : bool)
  : res (list File_Line) :=
  match raws with
  | [] => Ok []
  | r :: rs =>
      '(f, lit') <- analyze_free i r pod plc lit ;;
      fs <- analyze_all_free (i + 1) rs (open_delim f) (is_continued f) lit' ;;
      Ok (f :: fs)
  end.

(** Logical_File.cc:90-106 *)
Fixpoint analyze_all_fixed (i : Z) (raws : list str) (pod : ascii) (last_col : Z)
  : res (list File_Line) :=
  match raws with
  | [] => Ok []
  | r :: rs =>
      f <- analyze_fixed i r pod last_col ;;
      fs <- analyze_all_fixed (i + 1) rs (open_delim f) last_col ;;
      Ok (f :: fs)
  end.

(** while (curr < N && p(fl[curr])) curr += 1 *)
Fixpoint span (p : File_Line -> bool) (fls : list File_Line)
  : list File_Line * list File_Line :=
  match fls with
  | [] => ([], [])
  | f :: r => if p f then let '(a, b) := span p r in (f :: a, b) else ([], fls)
  end.

(** Logical_File.cc:142-147 and 249-254: absorb lines after one that ends in a
    backslash; [prev] is the left_txt of the previous line. *)
Fixpoint absorb (prev : str) (fls : list File_Line) : list File_Line * list File_Line :=
  match fls with
  | [] => ([], [])
  | f :: r =>
      if ceq (last_non_blank_char prev) c_bslash then
        let f' := make_preprocessor f in
        let '(a, b) := absorb (left_txt f') r in (f' :: a, b)
      else ([], fls)
  end.

(** Logical_File.cc:132-141 and 238-247 *)
Definition other_cat (f : File_Line) : LineCat :=
  if is_flpr_pp f then CAT_FLPR_PP
  else if is_include f then CAT_INCLUDE
  else CAT_MACRO.

(** Logical_File.cc:270-277: how many lines after the first line of the
    remaining lines are looked at before one that is neither trivial nor
    continued. *)
Fixpoint free_end (fls : list File_Line) (k : nat) : option nat :=
  match fls with
  | [] => None
  | f :: r => if negb (is_trivial f) && negb (is_continued f) then Some k
              else free_end r (S k)
  end.

(** Logical_File.cc:163-170: index of the last continuation line; [k] is the
    index of the next line, [last] the value of last_code_line. *)
Fixpoint fixed_end (fls : list File_Line) (k last : nat) : nat :=
  match fls with
  | [] => last
  | f :: r => if is_continuation f then fixed_end r (S k) k
              else if is_trivial f then fixed_end r (S k) last
              else last
  end.

(** One iteration of the loop Logical_File.cc:207-283; [fls] = fl[curr..N),
    not empty.  Result: the new Logical_Line and the lines left. *)
Definition step_free (fls : list File_Line) : res (LLine * list File_Line) :=
  let '(triv, rest) := span is_trivial fls in
  if negb (is_empty triv) then
    ll <- make_ll triv CAT_UNKNOWN false ;; Ok (ll, rest)
  else
  let '(lit, rest) := span is_flpr_lit fls in
  if negb (is_empty lit) then
    ll <- make_ll lit CAT_LITERAL false ;; Ok (ll, rest)
  else
  match fls with
  | [] => UB
  | f :: r =>
      if negb (is_fortran f) then
        _ <- assert_ (is_preprocessor f || is_flpr_pp f || is_include f) ;;
        let '(a, rest) := absorb (left_txt f) r in
        ll <- make_ll (f :: a) (other_cat f) false ;; Ok (ll, rest)
      else
        let n := match free_end fls 0 with Some k => S k | None => 1 end in
        ll <- make_ll (firstn n fls) CAT_UNKNOWN false ;; Ok (ll, skipn n fls)
  end.

(** One iteration of the loop Logical_File.cc:110-175. *)
Definition step_fixed (fls : list File_Line) : res (LLine * list File_Line) :=
  let '(triv, rest) := span is_trivial fls in
  if negb (is_empty triv) then
    ll <- make_ll triv CAT_UNKNOWN false ;; Ok (ll, rest)
  else
  match fls with
  | [] => UB
  | f :: r =>
      if negb (is_fortran f) then
        _ <- assert_ (is_preprocessor f || is_flpr_pp f || is_include f) ;;
        let '(a, rest) := absorb (left_txt f) r in
        ll <- make_ll (f :: a) (other_cat f) false ;; Ok (ll, rest)
      else
        let n := S (fixed_end r 1 0) in
        ll <- make_ll (firstn n fls) CAT_UNKNOWN true ;; Ok (ll, skipn n fls)
  end.

(** The loops while (curr < N).  [None]: still running after [fuel]
    iterations. *)
Fixpoint group (step : list File_Line -> res (LLine * list File_Line))
  (fuel : nat) (fls : list File_Line) : option (res (list LLine)) :=
  match fls with
  | [] => Some (Ok [])
  | _ :: _ =>
      match fuel with
      | O => None
      | S n =>
          match step fls with
          | Throw => Some Throw
          | UB => Some UB
          | Ok (ll, rest) =>
              match group step n rest with
              | Some (Ok lls) => Some (Ok (ll :: lls))
              | o => o
              end
          end
      end
  end.

(** scan_free, scan_fixed after [fuel] iterations of the grouping loop. *)
Definition scan_free (fuel : nat) (raws : list str) : option (res (list LLine)) :=
  match analyze_all_free 1 raws c_nul false false with
  | Ok fls => group step_free fuel fls
  | Throw => Some Throw
  | UB => Some UB
  end.
Definition scan_fixed (fuel : nat) (raws : list str) (last_col : Z)
  : option (res (list LLine)) :=
  match analyze_all_fixed 1 raws c_nul last_col with
  | Ok fls => group step_fixed fuel fls
  | Throw => Some Throw
  | UB => Some UB
  end.

(** Logical_Line.cc:884-891 print (suppress is false after a scan): the lines
    written, without their newlines. *)
Definition print_ll (ll : LLine) : list str := map print_line (ll_layout ll).

(** Logical_Line.hh:124-135 *)
Definition start_line (ll : LLine) : Z :=
  match ll_layout ll with [] => (-1)%Z | f :: _ => linenum f end.
Definition end_line (ll : LLine) : Z :=
  match ll_layout ll with [] => (-1)%Z | f :: r => (linenum (last r f) + 1)%Z end.
