(** Reading a free-format file up to its logical lines with their tokens:
    Logical_File.cc:53-84 and 179-285 (LogicalFile.v), where each logical line is
    made by Logical_Line's constructor (Logical_Line.cc:28-45), which ends in
    init_from_layout (LineEdit.v). *)
From Verif Require Import Base FileLine LogicalFile LogicalLine Token Peg Lexer LineEdit.
Local Open Scope Z_scope.

(** the lines one after the other, with the state of the scanner *)
Fixpoint read_lines (st : LS) (l : list LLine) : out (list LLn) :=
  match l with
  | [] => Done []
  | x :: r =>
      ' (ll, st') <~ init_from_layout st (mkLLn (ll_label x) (ll_cat x) false (ll_needs_reformat x) (-1) (ll_layout x) [] [])
                       (ll_layout x) ;;
      r' <~ read_lines st' r ;; Done (ll :: r')
  end.
(** [Bad]: the file is not read (scan returns false), or behaviour is undefined. *)
Definition read_free (raws : list str) : out (list LLn) :=
  match scan_free (length raws) raws with
  | None => Fuel
  | Some r => lls <~ lift r ;; read_lines ls_init lls
  end.
