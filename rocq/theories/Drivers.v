(** Model of the programs parse_files (apps/parse_files.cc) and module (apps/module.cc,
    apps/module_base.cc:28-52, apps/module_base.hh:38-52), and of the command line of flpr-format.

    The arguments are argv[1], argv[2], ...; getopt is the one of glibc, which puts the
    operands behind the options.  A file system gives the contents of the files that can be
    opened; two different names are two different files, and writing a file always works.
    What goes to std::cerr is left out. *)
From Verif Require Import Base Tags SyntaxTags FileLine Token LogicalFile LogicalLine Lexer LineEdit Peg LabelStack Prgm PrgmSource StmtSrc ReadFile Utils Indent FormatMain FormatFiles.
Local Open Scope nat_scope.

Definition fsys := str -> option str.
Definition put (d : fsys) (f s : str) : fsys := fun g => if list_eq_dec ascii_dec g f then Some s else d g.

(** getopt(argc, argv, "f:") until it returns -1: the values of optarg, and argv from optind on; [None] if it
    returns something else than 'f' *)
Fixpoint getopt_f (args : list str) : option (list str * list str) :=
  match args with
  | [] => Some ([], [])
  | a :: r =>
      match a with
      | x :: y :: w =>
          if negb (ceq x "-"%char) then option_map (fun p => (fst p, a :: snd p)) (getopt_f r)
          else if ceq y "-"%char && is_empty w then Some ([], r)
          else if negb (ceq y "f"%char) then None
          else if negb (is_empty w) then option_map (fun p => (w :: fst p, snd p)) (getopt_f r)
          else match r with
               | [] => None
               | v :: r' => option_map (fun p => (v :: fst p, snd p)) (getopt_f r')
               end
      | _ => option_map (fun p => (fst p, a :: snd p)) (getopt_f r)
      end
  end.

(** ** flpr-format *)

(** getopt(argc, argv, "cefioqtv") until it returns -1: the letters, unknown ones too (for which it returns '?'), and argv from
    optind on; apps/flpr_format_base.cc:216-261 *)
Fixpoint getopt_letters (args : list str) : str * list str :=
  match args with
  | [] => ([], [])
  | a :: r =>
      match a with
      | x :: y :: w =>
          if negb (ceq x "-"%char) then (fst (getopt_letters r), a :: snd (getopt_letters r))
          else if ceq y "-"%char && is_empty w then ([], r)
          else ((y :: w) ++ fst (getopt_letters r), snd (getopt_letters r))
      | _ => (fst (getopt_letters r), a :: snd (getopt_letters r))
      end
  end.
Definition flpr_format (exts : bool -> list ext) (m n : nat) (d : fsys) (args : list str) : out (Z * str) :=
  flpr_main exts m n (fst (getopt_letters args)) (map (fun f => mkNamed f (d f)) (snd (getopt_letters args))).

(** ** parse_files.cc *)

(** :52-79 read_file: what is written, the value, the scanner afterwards.  The parsers are called on a
    file without statements, too. *)
Definition say_name (f : named) : str := L "Processing: '" ++ n_name f ++ L "'" ++ [c_nl] ++ [c_tab] ++ L "scanning..." ++ [c_nl].
Definition say_lines (ls : list LLn) (raws : list str) : str :=
  [c_tab] ++ L "scan created " ++ to_dec (N.of_nat (length ls)) ++ L " logical lines from " ++ to_dec (N.of_nat (length raws)) ++ L " input text lines." ++ [c_nl] ++
  [c_tab] ++ L "parsing..." ++ [c_nl].
Definition read_one (exts : bool -> list ext) (m n : nat) (st : LS) (f : named) : out (str * bool * LS) :=
  ' (r, _, st') <~ read_and_scan st 0 f ;;
  match r, n_text f with
  | Some ls, Some s =>
      match make_stmts (3 + length ls + length (flat_map l_stmts ls)) ls with
      | None => Fuel
      | Some q =>
          sts <~ lift q ;;
          ' (ok, t, _) <~ parse_prgm (of_source exts m (map (src_of ls) sts)) n g_program ;;
          let head := say_name f ++ say_lines ls (getlines [] s) in
          if ok : bool then
            match t with
            | None => Bad
            | Some t =>
                root <~ lift (tag_label [] (g_tag t)) ;;
                Done (head ++ [c_tab] ++ L "root rule " ++ [c_dquote] ++ root ++ [c_dquote] ++ L " has " ++ to_dec (N.of_nat (length (g_kids t))) ++
                      L " branches. " ++ [c_nl], true, st')
            end
          else Done (head ++ [c_tab] ++ L "parsing FAILED" ++ [c_nl], false, st')
      end
  | _, _ => Done (say_name f ++ [c_tab] ++ L "read/scan FAILED" ++ [c_nl], false, st')
  end.
(** :44-46 *)
Fixpoint read_each (exts : bool -> list ext) (m n : nat) (st : LS) (fs : list named) : out str :=
  match fs with
  | [] => Done []
  | f :: r => ' (a, _, st') <~ read_one exts m n st f ;; b <~ read_each exts m n st' r ;; Done (a ++ b)
  end.
(** :81-97 file_list_from_file, :99-117 parse_cmd_line *)
Fixpoint from_lists (d : fsys) (opts : list str) (names : list str) : option (list str) :=
  match opts with
  | [] => Some names
  | o :: r =>
      match d o with
      | None => None
      | Some s => let l := getlines [] s in if is_empty l then None else from_lists d r (names ++ l)
      end
  end.
Definition file_names (d : fsys) (args : list str) : option (list str) :=
  match getopt_f args with
  | None => None
  | Some (opts, rest) => option_map (fun l => l ++ rest) (from_lists d opts [])
  end.
(** :36-50 main: the exit status and what is written to cout *)
Definition parse_files (exts : bool -> list ext) (m n : nat) (d : fsys) (args : list str) : out (Z * str) :=
  match file_names d args with
  | None => Done (1%Z, [])
  | Some names => t <~ read_each exts m n ls_init (map (fun f => mkNamed f (d f)) names) ;; Done (0%Z, t ++ L "done." ++ [c_nl])
  end.

(** ** module.cc *)

(** :89-126 parse_cmd_line: the call name or the file of call names, the module name and the file names; [Throw] stands for
    exit(1), [UB] for a std::string made of the null pointer at the end of argv *)
Record request := mkReq { q_call : str; q_is_file : bool; q_module : str; q_files : list str }.
Definition module_cmd (args : list str) : res request :=
  let argc := S (length args) in
  match getopt_f args with
  | None => Throw
  | Some (opts, rest) =>
      ' (call, is_file, rest) <-
        match rev opts with
        | [] => if argc <? 4 then Throw else match rest with [] => UB | c :: rest => Ok (c, false, rest) end
        | o :: _ => if argc <? 3 then Throw else Ok (o, true, rest)
        end ;;
      match rest with [] => UB | m :: fs => Ok (mkReq call is_file m fs) end
  end.
(** while (is >> name): the words of a text; [w] is what was read of a word *)
Fixpoint words_of (w s : str) : list str :=
  match s with
  | [] => if is_empty w then [] else [w]
  | c :: r => if is_space_b c then (if is_empty w then words_of [] r else w :: words_of [] r) else words_of (w ++ [c]) r
  end.
(** :62-76 and module_base.hh:49-52 add_subroutine_name: a file that cannot be opened has no words *)
Fixpoint lower_all (l : list str) : res (list str) :=
  match l with [] => Ok [] | w :: r => a <- flpr_tolower w ;; b <- lower_all r ;; Ok (a :: b) end.
Definition call_names (d : fsys) (q : request) : res (list str) :=
  lower_all (if q_is_file q then match d (q_call q) with Some s => words_of [] s | None => [] end else [q_call q]).
(** What the visit of a file comes to (Parsed_File and Module_Action, on the name and the contents): the file is not read,
    the action changes nothing, or the text that is to be written *)
Inductive verdict := unread | kept | rewritten (t : str).
Section Module.
Variable work : str -> list str -> str -> str -> out verdict.
(** whether rename() works *)
Variable movable : str -> bool.
Definition bak (f : str) : str := f ++ L ".bak".
(** module_base.cc:28-52 do_file: the files afterwards, and the status if exit() is called *)
Definition do_file (m : str) (names : list str) (d : fsys) (f : str) : out (fsys * option Z) :=
  match d f with
  | None => Done (d, Some 1%Z)
  | Some s =>
      v <~ work m names f s ;;
      match v with
      | unread => Done (d, Some 1%Z)
      | kept => Done (d, None)
      | rewritten t => if movable f then Done (put (put d (bak f) s) f t, None) else Done (d, Some 2%Z)
      end
  end.
Fixpoint do_files (m : str) (names : list str) (d : fsys) (fs : list str) : out (fsys * Z) :=
  match fs with
  | [] => Done (d, 0%Z)
  | f :: r => ' (d', e) <~ do_file m names d f ;; match e with Some code => Done (d', code) | None => do_files m names d' r end
  end.
(** module.cc:46-85 main, with the constructor of the action, module_base.hh:40-48 *)
Definition module_main (d : fsys) (args : list str) : out (fsys * Z) :=
  match module_cmd args with
  | Throw => Done (d, 1%Z)
  | UB => Bad
  | Ok q => _ <~ lift (flpr_tolower (q_module q)) ;; names <~ lift (call_names d q) ;; do_files (q_module q) names d (q_files q)
  end.
End Module.
