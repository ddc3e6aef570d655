(** Final theorems about free-format line analysis (C01, C02, C03). *)
From Verif Require Import Base FileLine FileLine_spec FileLine_proofs.

(** C01: the fields of an analysed line, written in order, are the raw line,
    and operator<< prints exactly the raw line. *)
Theorem C01_free_lossless : forall ln raw pod plc lit f lit',
  analyze_free ln raw pod plc lit = Ok (f, lit') ->
  left_txt f ++ left_space f ++ main_txt f ++ right_space f ++ right_txt f = raw
  /\ print_line f = raw.
Proof.
  intros * H. split.
  - exact (proj2 (proj2 (analyze_free_lossless_lem _ _ _ _ _ _ _ H))).
  - exact (print_free _ _ _ _ _ _ _ H).
Qed.
Print Assumptions C01_free_lossless.

Definition ex_line : str := L "  100   print *, 'it''s & ! ', x ! say it".
Example C01_ex : exists f,
  analyze_free 7 ex_line c_nul false false = Ok (f, false) /\
  left_txt f = L "  100" /\ main_txt f = L "print *, 'it''s & ! ', x" /\
  right_txt f = L "! say it" /\ print_line f = ex_line.
Proof. eexists; split; [vm_compute; reflexivity|]. vm_compute. auto. Qed.

(** C01 (totality): on 7-bit text and a legal incoming delimiter the analysis
    is never undefined. *)
Theorem C01_free_defined : forall ln raw pod plc lit,
  ascii7 raw -> (pod = c_nul \/ pod = c_squote \/ pod = c_dquote) ->
  (exists f lit', analyze_free ln raw pod plc lit = Ok (f, lit')) \/
  analyze_free ln raw pod plc lit = Throw.
Proof.
  intros * A D.
  assert (delim_ok pod = true) as D' by (destruct D as [-> | [-> | ->]]; reflexivity).
  destruct (analyze_free ln raw pod plc lit) as [[f l]| |] eqn:E; eauto.
  exfalso. exact (analyze_free_total _ _ _ _ _ A D' E).
Qed.
Print Assumptions C01_free_defined.
(* the hypothesis on the bytes is needed: <cctype> calls on a negative char *)
Example C01_free_defined_needs_ascii7 :
  analyze_free 1 [chr 233] c_nul false false = UB.
Proof. reflexivity. Qed.

(** C02: where a Fortran line is cut.  [code_line] says it is neither blank, a
    comment, a preprocessor nor an include line; [left_part] fixes uniquely
    the label/continuation part. *)
Theorem C02_free_cut : forall ln raw pod plc f lit',
  analyze_free ln raw pod plc false = Ok (f, lit') -> code_line raw ->
  exists body,
    left_part plc raw (left_txt f) (left_space f) body /\
    body = main_txt f ++ right_space f ++ right_txt f /\
    ((right_txt f = [] /\ no_break pod body /\ ctx_after pod body = c_nul /\
      open_delim f = c_nul) \/
     (right_txt f <> [] /\
      first_break pod body (length (main_txt f ++ right_space f)) /\
      open_delim f = ctx_after pod (main_txt f ++ right_space f))).
Proof.
  intros * H C. apply code_line_Ok in H as (_ & body & b1 & LP & _ & RP & _); auto.
  exists body. split; auto. split; apply RP.
Qed.
Print Assumptions C02_free_cut.

Theorem C02_free_left_unique : forall cont raw lt ls body lt' ls' body',
  left_part cont raw lt ls body -> left_part cont raw lt' ls' body' ->
  lt = lt' /\ ls = ls' /\ body = body'.
Proof. exact left_part_det. Qed.
Print Assumptions C02_free_left_unique.

Theorem C02_free_rejects_iff : forall ln raw pod plc lit,
  ascii7 raw -> (pod = c_nul \/ pod = c_squote \/ pod = c_dquote) ->
  (analyze_free ln raw pod plc lit = Throw <->
   lit = false /\ code_line raw /\
   exists lt ls body, left_part plc raw lt ls body /\
     no_break pod body /\ ctx_after pod body <> c_nul).
Proof.
  intros * A D. apply analyze_free_throw_iff; auto.
  destruct D as [-> | [-> | ->]]; reflexivity.
Qed.
Print Assumptions C02_free_rejects_iff.

Example C02_ex_open :
  match analyze_free 1 (L " & it! ' // 'a! & ") c_squote true false with
  | Ok (f, _) => main_txt f = L " it! ' // 'a! " /\ right_txt f = L "& "
                 /\ open_delim f = c_squote
  | _ => False
  end.
Proof. vm_compute. auto. Qed.
Example C02_ex_reject : analyze_free 1 (L "x = 'abc & d") c_nul false false = Throw.
Proof. reflexivity. Qed.

(** C03: shape of the fields and of the flags. *)
Theorem C03_free_shape : forall ln raw pod plc f lit',
  analyze_free ln raw pod plc false = Ok (f, lit') -> code_line raw ->
  is_fortran f = true /\
  all_white (left_space f) /\
  Forall (fun c => c = c_sp \/ c = c_tab) (right_space f) /\
  (open_delim f = c_nul -> forall p c, main_txt f = p ++ [c] -> c <> c_sp /\ c <> c_tab) /\
  (is_continuation f = false ->
     forall c r, main_txt f = c :: r -> c <> c_sp /\ c <> c_tab /\ c <> c_cr) /\
  (right_txt f = [] \/ exists r, right_txt f = c_amp :: r \/ right_txt f = c_bang :: r) /\
  (is_continued f = true <-> exists r, right_txt f = c_amp :: r) /\
  (has_label f = true <->
     exists p d, left_txt f = p ++ d /\ all_digits d /\ d <> []) /\
  (is_continuation f = true <-> exists p, left_txt f = p ++ [c_amp]).
Proof. exact free_shape. Qed.
Print Assumptions C03_free_shape.

(** C03: which lines are Fortran lines, and how the others are classified. *)
Theorem C03_free_classes : forall ln raw pod plc f lit',
  analyze_free ln raw pod plc false = Ok (f, lit') ->
  (is_fortran f = true <-> code_line raw) /\
  (is_blank f = true <-> blank_line raw) /\
  (is_preprocessor f = true <-> hash_line raw) /\
  (is_include f = true <-> include_line raw) /\
  (is_flpr_lit f = true <-> flpr_lit_line raw) /\
  (is_flpr_pp f = true <-> flpr_dir_line raw /\ ~ flpr_lit_line raw) /\
  (is_comment f = true <-> bang_line raw /\ ~ flpr_dir_line raw) /\
  (is_fortran f = false -> left_txt f = raw) /\
  (lit' = true <-> flpr_lit_line raw).
Proof. exact free_classes. Qed.
Print Assumptions C03_free_classes.

(** Inside a literal block every line is literal, until the toggle. *)
Theorem C03_free_literal : forall ln raw pod plc f lit',
  analyze_free ln raw pod plc true = Ok (f, lit') ->
  is_flpr_lit f = true /\ is_fortran f = false /\ left_txt f = raw /\
  (lit' = false <-> flpr_lit_line raw).
Proof. exact free_literal. Qed.
Print Assumptions C03_free_literal.

Example C03_ex : code_line ex_line.
Proof.
  apply code_lineb_ok. vm_compute. reflexivity.
Qed.
