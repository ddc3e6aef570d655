(** What the programs parse_files and module promise (C83, C84). *)
From Verif Require Import Base Tags Token LogicalLine LineEdit Lexer Lexer_spec Peg LabelStack Prgm Utils FormatFiles FormatFiles_spec Drivers.
Local Open Scope nat_scope.

(** A command line with the option -f <value>, as POSIX has it (utility conventions, guideline 5 to 10), with options and
    operands in any order: the values and the operands *)
Definition operand (a : str) : Prop := a = [] \/ a = L "-" \/ exists c r, a = c :: r /\ c <> "-"%char.
Inductive command : list str -> list str -> list str -> Prop :=
| cl_end : command [] [] []
| cl_dashes r : command (L "--" :: r) [] r
| cl_joined v r o p : v <> [] -> command r o p -> command ((L "-f" ++ v) :: r) (v :: o) p
| cl_apart v r o p : command r o p -> command (L "-f" :: v :: r) (v :: o) p
| cl_operand a r o p : operand a -> command r o p -> command (a :: r) o (a :: p).

(** The same for options without values: their letters, in one word or in several, and the operands *)
Inductive flags : list str -> str -> list str -> Prop :=
| fl_end : flags [] [] []
| fl_dashes r : flags (L "--" :: r) [] r
| fl_letters v r o p : v <> [] -> v <> L "-" -> flags r o p -> flags ((L "-" ++ v) :: r) (v ++ o) p
| fl_operand a r o p : operand a -> flags r o p -> flags (a :: r) o (a :: p).

(** [l] are the words of the text [s] *)
Definition white (c : ascii) : Prop := c = " "%char \/ 9 <= code c <= 13.
Inductive text_words : str -> list str -> Prop :=
| tw_end g : Forall white g -> text_words g []
| tw_word g w r l : Forall white g -> w <> [] -> Forall (fun c => ~ white c) w -> (r = [] \/ exists c r', r = c :: r' /\ white c) ->
    text_words r l -> text_words (g ++ w ++ r) (w :: l).

(** The file, taken alone, is parsed, or it does not end in a real literal *)
Definition clean_end (exts : bool -> list ext) (m n : nat) (f : named) : Prop :=
  (exists t st, read_one exts m n ls_init f = Done (t, true, st)) \/
  forall ls ft st, read_and_scan ls_init 0 f = Done (Some ls, ft, st) -> ~ ends_in_real ls.

(** The files [d'] after module has gone through [fs]: each is as it was, or it is rewritten and the backup has the contents
    that it had; there is nothing else that changes. *)
Definition backed_up (work : str -> str -> out verdict) (d d' : fsys) (fs : list str) : Prop :=
  (forall f, In f fs -> exists s, d f = Some s /\
     ((work f s = Done kept /\ d' f = Some s /\ d' (bak f) = d (bak f)) \/
      (exists t, work f s = Done (rewritten t) /\ d' f = Some t /\ d' (bak f) = Some s))) /\
  (forall f, ~ In f fs -> (forall g, In g fs -> f <> bak g) -> d' f = d f).
(** no file is given twice, none is the backup of another *)
Definition apart (fs : list str) : Prop := NoDup fs /\ forall f g, In f fs -> In g fs -> f <> bak g.
