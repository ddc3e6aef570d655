(** Reading a fixed-format file up to its logical lines with their tokens:
    Logical_File.cc:86-177 (scan_fixed, LogicalFile.v) and the constructor of
    Logical_Line (ReadFile.v). *)
From Verif Require Import Base FileLine LogicalFile LogicalLine Token Peg Lexer LineEdit ReadFile.

(** [Bad]: the file is not read (scan returns false), or behaviour is undefined. *)
Definition read_fixed (last_col : Z) (raws : list str) : out (list LLn) :=
  match scan_fixed (length raws) raws last_col with
  | None => Fuel
  | Some r => lls <~ lift r ;; read_lines ls_init lls
  end.
