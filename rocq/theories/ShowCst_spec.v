(** What flpr_show_cst is to show: words of C79. *)
From Coq Require Import Sorting.Sorted.
From Verif Require Import Base FileLine Tags SyntaxTags Token TTStream Peg StmtParser LogicalLine PrgmSource StmtSrc Lexer Indent ShowCst.
Local Open Scope nat_scope.

(** The tags of the statements of the grammar (type 5 in Syntax_Tags_Defs.hh). *)
Definition statement_kind (tag : Z) : Prop := (SG_000_LB < tag < SG_ZZZ_UB)%Z /\ tag_type [] tag = Ok 5%Z.
(** The parser for the kind, run by itself on the statement, gives the tree. *)
Definition accepts (exts : bool -> list ext) (n : nat) (s : stream) (tag : Z) (t : stree) : Prop :=
  exists s', parse_stmt_dispatch exts n tag s = Done (Some t, s').
(** The numbered trees are those of all the kinds that accept the statement, each once, in the order of the tags. *)
Definition shows (exts : bool -> list ext) (n : nat) (s : stream) (l : list (nat * stree)) : Prop :=
  map fst l = seq 1 (length l) /\
  exists kinds, StronglySorted Z.lt kinds /\ Forall2 (fun k r => statement_kind k /\ accepts exts n s k (snd r)) kinds l /\
    forall k t, statement_kind k -> accepts exts n s k t -> In k kinds.

(** Two trees with the same labels. *)
Inductive same_labels : stree -> stree -> Prop :=
  same_lab : forall a b r r' k k', tag_label [] a = tag_label [] b -> Forall2 same_labels k k' -> same_labels (ST a r k) (ST b r' k').
(** A label that cannot be taken for a bracket of the printed tree. *)
Definition plain_label (tag : Z) : Prop :=
  exists c r, tag_label [] tag = Ok (c :: r) /\ c <> "<"%char /\ c <> ">"%char /\ ~ In " "%char (c :: r).
Inductive plain_tree : stree -> Prop :=
  plain_node : forall a r k, plain_label a -> Forall plain_tree k -> plain_tree (ST a r k).

(** What is typed in: the lines before the first empty one. *)
Definition until_blank (raws l : list str) : Prop :=
  Forall (fun x => x <> []) l /\ exists rest, raws = l ++ rest /\ (rest = [] \/ exists r, rest = [] :: r).
(** What is written for a statement: a line for each tree, or that it is not recognised. *)
Definition tree_line (r : nat * stree) (x : str) : Prop := exists y, print_tree (snd r) = Ok y /\ x = to_dec_z (Z.of_nat (fst r)) ++ L ": " ++ y ++ [c_nl].
Definition stmt_text (exts : bool -> list ext) (n : nat) (ls : list LLn) (st : LL_Stmt) (txt : str) : Prop :=
  let q := src_of ls st in
  exists l, shows exts n (stream_of (ss_frags q) (ss_beg q) (ss_end q)) l /\
    ((l = [] /\ exists x, print_stmt ls st = Ok x /\ txt = L "Unrecognized: " ++ x ++ [c_nl]) \/
     (l <> [] /\ exists texts, Forall2 tree_line l texts /\ txt = concat texts)).

(** A prefix line of a statement that is not recognised: the number of its first line, then its text line by line. *)
Definition prefix_text (ls : list LLn) (j : nat) (p : str) : Prop :=
  exists l, nth_error ls j = Some l /\
    p = L "Line:" ++ to_dec_z (hd (-1)%Z (map linenum (l_layout l))) ++ L ":" ++ [c_nl] ++
        (if l_suppress l then [] else concat (map (fun f => print_line f ++ [c_nl]) (l_layout l))).
(** The tokens one after the other, with as many blanks between two as the wider of their spacings. *)
Inductive spelled : list Token -> str -> Prop :=
| sp_one : forall t, spelled [t] (tk_text t)
| sp_more : forall t u r a b y, tk_post t = Some a -> tk_pre u = Some b -> spelled (u :: r) y ->
    spelled (t :: u :: r) (tk_text t ++ spaces (Z.to_nat (Z.max a b)) ++ y).
(** The text of a tree: its label, and its branches from left to right in brackets, a blank behind each. *)
Inductive printed : stree -> str -> Prop :=
| pr_leaf : forall a r h, tag_label [] a = Ok h -> printed (ST a r []) h
| pr_node : forall a r k h xs, tag_label [] a = Ok h -> k <> [] -> Forall2 printed k xs ->
    printed (ST a r k) (h ++ L " <" ++ concat (map (fun x => x ++ L " ") xs) ++ L ">").
