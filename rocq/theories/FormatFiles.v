(** Model of main() of flpr-format on all the files of its command line: apps/flpr-format.cc:26-66,
    apps/flpr_format_base.cc:38-122, 218-267, src/flpr/Logical_File.cc:36-84 and src/flpr/Parsed_File.hh:161-169.
    The scanner's start condition (src/flpr/scan_fort.l) and the Indent_Table live longer than a file.

    Not modelled: messages to cerr; the option letters and the names are given (getopt is in Drivers.v). *)
From Verif Require Import Base FileLine Token LogicalFile LogicalLine Lexer LineEdit Peg ReadFile Utils StmtSrc PrgmSource Indent FormatMain.
Local Open Scope Z_scope.

(** a file of the command line: its name and, if it can be opened, what it contains *)
Record named := mkNamed { n_name : str; n_text : option str }.

(** as read_lines in ReadFile.v, with the state of the scanner after the last line *)
Fixpoint read_lines_st (st : LS) (l : list LLine) : out (list LLn * LS) :=
  match l with
  | [] => Done ([], st)
  | x :: r =>
      ' (ll, st1) <~ init_from_layout st (mkLLn (ll_label x) (ll_cat x) false (ll_needs_reformat x) (-1) (ll_layout x) [] [])
                       (ll_layout x) ;;
      ' (r', st2) <~ read_lines_st st1 r ;; Done (ll :: r', st2)
  end.
(** Logical_File.cc:86-285 scan_fixed, scan_free: an error in a line is caught before any line is tokenized, and
    false is returned ([None]) *)
Definition scanned (st : LS) (r : option (res (list LLine))) : out (option (list LLn) * LS) :=
  match r with
  | None => Fuel
  | Some UB => Bad
  | Some Throw => Done (None, st)
  | Some (Ok lls) => ' (ls, st') <~ read_lines_st st lls ;; Done (Some ls, st')
  end.
(** Logical_File.cc:36-84 read_and_scan: the lines, unless it returns false; file_type() afterwards
    (Logical_File.hh:64-68: UNKNOWN without a File_Info); the scanner *)
Definition read_and_scan (st : LS) (last_col : Z) (f : named) : out (option (list LLn) * File_Type * LS) :=
  match n_text f with
  | None => Done (None, FT_UNKNOWN, st)
  | Some s =>
      let raws := getlines [] s in
      ft <~ lift (file_info (n_name f) FT_UNKNOWN) ;;
      match ft with
      | FT_FIXED => ' (r, st') <~ scanned st (scan_fixed (length raws) raws last_col) ;; Done (r, ft, st')
      | FT_FREE => ' (r, st') <~ scanned st (scan_free (length raws) raws) ;; Done (r, ft, st')
      | FT_UNKNOWN => Done (None, ft, st)
      end
  end.
(** flpr-format.cc:48-65, one turn: what is written, and the table and the scanner afterwards *)
Definition fixed_kept (o : Options) (ft : File_Type) : bool :=
  match ft with FT_FIXED => negb (o_fixed_to_free o) | _ => false end.
Definition one_file (exts : bool -> list ext) (m n : nat) (o : Options) (it : Indent_Table) (st : LS) (f : named)
  : out (str * Indent_Table * LS) :=
  ' (r, ft, st') <~ read_and_scan st (if o_col72 o then 72 else 0) f ;;
  let it' := if fixed_kept o ft then set_continued (apply_constant_fixed_indent it 4) 5 else apply_emacs_indent it in
  match r with
  | None => Done ([], it', st')
  | Some ls =>
      w <~ format_file exts m n it' o ls ;;
      Done (match w with Some s => s | None => [] end, it', st')
  end.
Fixpoint each_file (exts : bool -> list ext) (m n : nat) (o : Options) (it : Indent_Table) (st : LS) (fs : list named) : out str :=
  match fs with
  | [] => Done []
  | f :: r =>
      ' (a, it', st') <~ one_file exts m n o it st f ;;
      b <~ each_file exts m n o it' st' r ;; Done (a ++ b)
  end.
Definition files_run (exts : bool -> list ext) (m n : nat) (o : Options) (fs : list named) : out str :=
  each_file exts m n o it_init ls_init fs.
(** flpr-format.cc:26-66 and flpr_format_base.cc:218-267: the exit status and what is written to cout *)
Definition flpr_main (exts : bool -> list ext) (m n : nat) (letters : str) (fs : list named) : out (Z * str) :=
  match cmd_options main_options letters with
  | None => Done (1, [])
  | Some o => if is_empty fs then Done (1, []) else t <~ files_run exts m n o fs ;; Done (0, t)
  end.
