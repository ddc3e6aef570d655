(** Model of the program parser: the combinators of
    src/flpr/Prgm_Parsers_utils.hh, the trees they build (src/flpr/Prgm_Tree.hh)
    and the rules of src/flpr/Prgm_Parsers_impl.hh.

    Combinator objects are syntax ([gexp]) and [grun] is their operator(); a
    function PP_Result f(State &) is named by a [grule].  As in Peg.v [Bad] is
    undefined behaviour or a failed assert and [Fuel] the bound on the
    recursion depth. *)
From Verif Require Import Base Tags Token StmtRules Peg LabelStack.
Local Open Scope nat_scope.

(** Prgm_Tree.hh:28-89: syntag, the range of statements, the statement of a leaf
    (stmt_data_), the branches.  A Prgm_Tree object is an [option ptree]. *)
Inductive ptree : Type := PT (tag : Z) (rng : option (nat * nat)) (stmt : option nat) (kids : list ptree).
Definition g_tag (t : ptree) : Z := match t with PT g _ _ _ => g end.
Definition g_rng (t : ptree) : option (nat * nat) := match t with PT _ r _ _ => r end.
Definition g_stmt (t : ptree) : option nat := match t with PT _ _ i _ => i end.
Definition g_kids (t : ptree) : list ptree := match t with PT _ _ _ k => k end.
(** Prgm_Tree.hh:41-45 *)
Definition stmt_leaf (tag : Z) (i : nat) : ptree := PT tag (Some (i, S i)) (Some i) [].

(** Prgm_Parsers_utils.hh:58-67 hoist_back: the branches of the receiving tree *)
Definition g_hoist (kids : list ptree) (donor : ptree) : list ptree :=
  if (g_tag donor =? HOIST)%Z then kids ++ g_kids donor else kids ++ [donor].
(** if (pt) hoist_back(root, pt) *)
Definition g_attach (kids : list ptree) (pt : option ptree) : list ptree :=
  match pt with Some t => g_hoist kids t | None => kids end.
(** :70-79 cover_branches *)
Fixpoint g_push_all (r : option (nat * nat)) (l : list ptree) : res (option (nat * nat)) :=
  match l with
  | [] => Ok r
  | t :: l' => r' <- rng_push r (g_rng t) ;; g_push_all r' l'
  end.
Definition g_cover (t : ptree) : out ptree :=
  match t with
  | PT g _ (Some i) kids => Done (PT g (Some (i, S i)) (Some i) kids)
  | PT g _ None kids => r <~ lift (g_push_all None kids) ;; Done (PT g r None kids)
  end.

(** The functions of Prgm_Parsers.hh:54-94 that are defined *)
Inductive grule : Set :=
| g_associate_construct | g_block | g_block_construct | g_block_specification_part | g_case_construct
| g_component_part | g_declaration_construct | g_derived_type_def | g_do_construct | g_enum_def
| g_executable_construct | g_execution_part | g_execution_part_construct | g_external_subprogram
| g_forall_body_construct | g_forall_construct | g_function_subprogram | g_if_construct
| g_implicit_part | g_implicit_part_stmt | g_interface_block | g_interface_body
| g_interface_specification | g_internal_subprogram | g_internal_subprogram_part | g_main_program
| g_module | g_module_subprogram | g_module_subprogram_part | g_program | g_program_unit
| g_separate_module_subprogram | g_select_rank_construct | g_select_type_construct
| g_specification_construct | g_specification_part | g_subroutine_subprogram
| g_type_bound_procedure_part | g_where_body_construct | g_where_construct.

Inductive gexp : Type :=
| GAlts (tag : Z) (ps : list gexp)             (* :85-120 Alternatives_Parser *)
| GEnd                                         (* :130-144 End_Of_Stream_Parser *)
| GOpt (p : gexp)                              (* :148-167 Optional_Parser *)
| GOptSeq (tag : Z) (ps : list gexp)           (* :172-199 Opt_Sequence_Parser *)
| GPlus (tag : Z) (p : gexp)                   (* :218-246 Plus_Parser *)
| GSeq (tag : Z) (ps : list gexp)              (* :257-292 Sequence_Parser *)
| GSeqIf (tag : Z) (p0 : gexp) (ps : list gexp)(* :306-350 Sequence_If_Parser *)
| GStar (p : gexp)                             (* :365-390 Star_Parser *)
| GStmt (r : rule)                             (* :399-422 Statement_Parser *)
| GTag (tag : Z) (p : gexp)                    (* :430-453 Tag_Parser *)
| GCall (r : grule).
(** a function: return p(state); executable_construct, which looks at the label
    first; do_construct *)
Inductive gbody : Type := GBody (p : gexp) | GExec (p : gexp) | GDo.

(** ** Prgm_Parsers_impl.hh *)
Local Notation call := GCall.
Local Notation STMT := GStmt.
Local Notation h_seq_if := (GSeqIf HOIST).
Definition prgm_grammar (r : grule) : gbody :=
  match r with
  | g_associate_construct (* :26-34 *) =>
      GBody (GSeqIf PG_ASSOCIATE_CONSTRUCT (STMT r_associate_stmt) [call g_block; STMT r_end_associate_stmt])
  | g_block (* :39-45 *) => GBody (GTag PG_BLOCK (GStar (call g_execution_part_construct)))
  | g_block_construct (* :48-57 *) =>
      GBody (GSeqIf PG_BLOCK_CONSTRUCT (STMT r_block_stmt)
        [GOpt (call g_block_specification_part); call g_block; STMT r_end_block_stmt])
  | g_block_specification_part (* :60-70 *) =>
      GBody (GSeq PG_BLOCK_SPECIFICATION_PART
        [GStar (STMT r_use_stmt); GStar (STMT r_import_stmt);
         GOptSeq HOIST [GStar (call g_declaration_construct); call g_specification_construct]])
  | g_case_construct (* :75-83 *) =>
      GBody (GSeqIf PG_CASE_CONSTRUCT (STMT r_select_case_stmt)
        [GStar (h_seq_if (STMT r_case_stmt) [call g_block]); STMT r_end_select_stmt])
  | g_component_part (* :86-92 *) => GBody (GTag PG_COMPONENT_PART (GStar (STMT r_component_def_stmt)))
  | g_declaration_construct (* :97-106 *) =>
      GBody (GAlts PG_DECLARATION_CONSTRUCT
        [call g_specification_construct; STMT r_data_stmt; STMT r_format_stmt; STMT r_entry_stmt])
  | g_derived_type_def (* :109-119 *) =>
      GBody (GSeqIf PG_DERIVED_TYPE_DEF (STMT r_derived_type_stmt)
        [GOpt (STMT r_private_or_sequence); call g_component_part;
         GOpt (call g_type_bound_procedure_part); STMT r_end_type_stmt])
  | g_do_construct (* :127-131 *) => GDo
  | g_enum_def (* :136-144 *) =>
      GBody (GSeqIf PG_ENUM_DEF (STMT r_enum_def_stmt)
        [GPlus HOIST (STMT r_enumerator_def_stmt); STMT r_end_enum_stmt])
  | g_executable_construct (* :147-169 *) =>
      GExec (GAlts PG_EXECUTABLE_CONSTRUCT
        [STMT r_action_stmt; call g_associate_construct; call g_block_construct; call g_case_construct;
         call g_do_construct; call g_if_construct; call g_select_rank_construct;
         call g_select_type_construct; call g_where_construct; call g_forall_construct])
  | g_execution_part (* :172-179 *) =>
      GBody (GSeqIf PG_EXECUTION_PART (call g_executable_construct) [GStar (call g_execution_part_construct)])
  | g_execution_part_construct (* :182-191 *) =>
      GBody (GAlts PG_EXECUTION_PART_CONSTRUCT
        [call g_executable_construct; STMT r_format_stmt; STMT r_data_stmt; STMT r_entry_stmt])
  | g_external_subprogram (* :194-200 *) =>
      GBody (GAlts PG_EXTERNAL_SUBPROGRAM [call g_function_subprogram; call g_subroutine_subprogram])
  | g_forall_body_construct (* :205-215 *) =>
      GBody (GAlts PG_FORALL_BODY_CONSTRUCT
        [STMT r_forall_assignment_stmt; STMT r_where_stmt; call g_where_construct;
         call g_forall_construct; STMT r_forall_stmt])
  | g_forall_construct (* :218-226 *) =>
      GBody (GSeqIf PG_FORALL_CONSTRUCT (STMT r_forall_construct_stmt)
        [GStar (call g_forall_body_construct); STMT r_end_forall_stmt])
  | g_function_subprogram (* :229-239 *) =>
      GBody (GSeqIf PG_FUNCTION_SUBPROGRAM (STMT r_function_stmt)
        [GOpt (call g_specification_part); GOpt (call g_execution_part);
         GOpt (call g_internal_subprogram_part); STMT r_end_function_stmt])
  | g_if_construct (* :246-257 *) =>
      GBody (GSeqIf PG_IF_CONSTRUCT (STMT r_if_then_stmt)
        [call g_block; GStar (h_seq_if (STMT r_else_if_stmt) [call g_block]);
         GOpt (h_seq_if (STMT r_else_stmt) [call g_block]); STMT r_end_if_stmt])
  | g_implicit_part (* :264-270 *) => GBody (GTag PG_IMPLICIT_PART (GStar (call g_implicit_part_stmt)))
  | g_implicit_part_stmt (* :273-283 *) =>
      GBody (GAlts PG_IMPLICIT_PART_STMT
        [STMT r_implicit_stmt; STMT r_parameter_stmt; STMT r_format_stmt; STMT r_entry_stmt])
  | g_interface_block (* :286-294 *) =>
      GBody (GSeqIf PG_INTERFACE_BLOCK (STMT r_interface_stmt)
        [GStar (call g_interface_specification); STMT r_end_interface_stmt])
  | g_interface_body (* :297-309 *) =>
      GBody (GAlts PG_INTERFACE_BODY
        [h_seq_if (STMT r_function_stmt) [GOpt (call g_specification_part); STMT r_end_function_stmt];
         h_seq_if (STMT r_subroutine_stmt) [GOpt (call g_specification_part); STMT r_end_subroutine_stmt]])
  | g_interface_specification (* :312-319 *) =>
      GBody (GAlts PG_INTERFACE_SPECIFICATION [call g_interface_body; STMT r_procedure_stmt])
  | g_internal_subprogram (* :322-328 *) =>
      GBody (GAlts PG_INTERNAL_SUBPROGRAM [call g_function_subprogram; call g_subroutine_subprogram])
  | g_internal_subprogram_part (* :331-338 *) =>
      GBody (GSeqIf PG_INTERNAL_SUBPROGRAM_PART (STMT r_contains_stmt) [GStar (call g_internal_subprogram)])
  | g_main_program (* :346-357 *) =>
      GBody (GSeqIf PG_MAIN_PROGRAM (GOpt (STMT r_program_stmt))
        [GOpt (call g_specification_part); GOpt (call g_execution_part);
         GOpt (call g_internal_subprogram_part); STMT r_end_program_stmt])
  | g_module (* :360-369 *) =>
      GBody (GSeqIf PG_MODULE (STMT r_module_stmt)
        [GOpt (call g_specification_part); GOpt (call g_module_subprogram_part); STMT r_end_module_stmt])
  | g_module_subprogram (* :372-380 *) =>
      GBody (GAlts PG_MODULE_SUBPROGRAM
        [call g_function_subprogram; call g_subroutine_subprogram; call g_separate_module_subprogram])
  | g_module_subprogram_part (* :383-390 *) =>
      GBody (GSeqIf PG_MODULE_SUBPROGRAM_PART (STMT r_contains_stmt) [GStar (call g_module_subprogram)])
  | g_program (* :400-407 *) =>
      GBody (GSeq PG_PROGRAM [GPlus HOIST (call g_program_unit); GEnd])
  | g_program_unit (* :410-420 *) =>
      GBody (GAlts PG_PROGRAM_UNIT [call g_external_subprogram; call g_module; call g_main_program])
  | g_separate_module_subprogram (* :427-437 *) =>
      GBody (GSeqIf PG_SEPARATE_MODULE_SUBPROGRAM (STMT r_mp_subprogram_stmt)
        [GOpt (call g_specification_part); GOpt (call g_execution_part);
         GOpt (call g_internal_subprogram_part); STMT r_end_mp_subprogram_stmt])
  | g_select_rank_construct (* :440-450 *) =>
      GBody (GSeqIf PG_SELECT_RANK_CONSTRUCT (STMT r_select_rank_stmt)
        [GStar (h_seq_if (STMT r_select_rank_case_stmt) [call g_block]); STMT r_end_select_rank_stmt])
  | g_select_type_construct (* :453-463 *) =>
      GBody (GSeqIf PG_SELECT_TYPE_CONSTRUCT (STMT r_select_type_stmt)
        [GStar (h_seq_if (STMT r_type_guard_stmt) [call g_block]); STMT r_end_select_type_stmt])
  | g_specification_construct (* :466-479 *) =>
      GBody (GAlts PG_SPECIFICATION_CONSTRUCT
        [call g_derived_type_def; call g_enum_def; STMT r_generic_stmt; call g_interface_block;
         STMT r_parameter_stmt; STMT r_procedure_declaration_stmt; STMT r_other_specification_stmt;
         STMT r_type_declaration_stmt])
  | g_specification_part (* :482-491 *) =>
      GBody (GSeq PG_SPECIFICATION_PART
        [GStar (STMT r_use_stmt); GStar (STMT r_import_stmt); GOpt (call g_implicit_part);
         GStar (call g_declaration_construct)])
  | g_subroutine_subprogram (* :494-503 *) =>
      GBody (GSeqIf PG_SUBROUTINE_SUBPROGRAM (STMT r_subroutine_stmt)
        [GOpt (call g_specification_part); GOpt (call g_execution_part);
         GOpt (call g_internal_subprogram_part); STMT r_end_subroutine_stmt])
  | g_type_bound_procedure_part (* :508-516 *) =>
      GBody (GSeqIf PG_TYPE_BOUND_PROCEDURE_PART (STMT r_contains_stmt)
        [GOpt (STMT r_binding_private_stmt); GStar (STMT r_type_bound_proc_binding)])
  | g_where_body_construct (* :524-532 *) =>
      GBody (GAlts PG_WHERE_BODY_CONSTRUCT [STMT r_assignment_stmt; STMT r_where_stmt; call g_where_construct])
  | g_where_construct (* :535-547 *) =>
      GBody (GSeqIf PG_WHERE_CONSTRUCT (STMT r_where_construct_stmt)
        [GStar (call g_where_body_construct);
         GStar (h_seq_if (STMT r_masked_elsewhere_stmt) [GStar (call g_where_body_construct)]);
         GOpt (h_seq_if (STMT r_elsewhere_stmt) [GStar (call g_where_body_construct)]);
         STMT r_end_where_stmt])
  end.

(** ** The statements *)
(** What the parsers see of the statements: their number, labels (0: none),
    what a statement parser returns for each, and the tokens. *)
Record stmts := mkStmts {
  x_num : nat;
  x_label : nat -> Z;
  x_parse : nat -> rule -> out (option stree);
  x_toks : nat -> list Token }.

(** Stmt_Tree.cc:53-69 get_label_do_label *)
Definition first_kid (t : stree) : res stree := match t_kids t with [] => UB | k :: _ => Ok k end.
Definition do_label (toks : list Token) (t : stree) : res Z :=
  c <- (if (t_tag t =? SG_DO_STMT)%Z then first_kid t else Ok t) ;;
  if negb (t_tag c =? SG_LABEL_DO_STMT)%Z then Ok 0%Z else
  c0 <- first_kid c ;;
  let l := if (t_tag c0 =? TK_NAME)%Z then skipn 2 (t_kids c) else t_kids c in
  match l with
  | _ :: lab :: _ =>
      k <- first_kid lab ;;
      _ <- assert_ (t_tag k =? SG_INT_LITERAL_CONSTANT)%Z ;;
      match t_rng k with
      | Some (b, e) =>
          _ <- assert_ (e =? S b) ;;
          match nth_error toks b with Some x => stoi (tk_text x) | None => UB end
      | None => UB
      end
  | _ => UB
  end.

(** Prgm_Parsers.hh:43-52 State, with the attached statement trees
    (LL_Stmt::set_stmt_tree, the latest first).  [p_left] counts the times that a
    parser gave up after it had consumed statements or at the end of program();
    the combinators then print a message, do_construct does not. *)
Record pstate := mkP {
  p_pos : nat;
  p_stack : LStack;
  p_trees : list (nat * stree);
  p_left : nat }.
Definition set_p (s : pstate) (i : nat) : pstate := mkP i (p_stack s) (p_trees s) (p_left s).
Definition set_stack (s : pstate) (l : LStack) : pstate := mkP (p_pos s) l (p_trees s) (p_left s).
Definition set_tree (s : pstate) (i : nat) (t : stree) : pstate := mkP (p_pos s) (p_stack s) ((i, t) :: p_trees s) (p_left s).
Definition give_up (s : pstate) : pstate := mkP (p_pos s) (p_stack s) (p_trees s) (S (p_left s)).

Definition gresult : Type := (bool * option ptree * pstate)%type.

Section Run.
Variable body : grule -> gbody.
Variable x : stmts.

(** state.ss, dereferenced: undefined at the end of the sequence *)
Definition cur (s : pstate) : out nat := if p_pos s <? x_num x then Done (p_pos s) else Bad.
Definition at_end (s : pstate) : bool := negb (p_pos s <? x_num x).
(** SL_Range_Iterator::advance *)
Definition advance (s : pstate) : pstate := if p_pos s <? x_num x then set_p s (S (p_pos s)) else s.
(** the message printed by the sequence parsers, with the current statement *)
Definition complain (s : pstate) : out gresult := _ <~ cur s ;; Done (false, None, give_up s).

Section Loops.
Variable R : gexp -> pstate -> out gresult.
Fixpoint g_seq (ps : list gexp) (kids : list ptree) (s : pstate) : out (bool * list ptree * pstate) :=
  match ps with
  | [] => Done (true, kids, s)
  | p :: ps' =>
      '(m, t, s') <~ R p s ;;
      let kids' := g_attach kids t in
      if m : bool then g_seq ps' kids' s' else Done (false, kids', s')
  end.
Fixpoint g_alts (ps : list gexp) (s : pstate) : out gresult :=
  match ps with
  | [] => Done (false, None, s)
  | p :: ps' =>
      '(m, t, s') <~ R p s ;;
      if m : bool then Done (true, t, s') else g_alts ps' s'
  end.
(** while (state.ss && attach_if(parser_)) *)
Fixpoint g_star (k : nat) (p : gexp) (kids : list ptree) (s : pstate) : out (list ptree * pstate) :=
  match k with
  | O => Fuel
  | S k' =>
      if at_end s then Done (kids, s) else
      '(m, t, s') <~ R p s ;;
      let kids' := g_attach kids t in
      if m : bool then g_star k' p kids' s' else Done (kids', s')
  end.
(** utils.hh:542-549 the body of a loop; the match is not looked at *)
Fixpoint g_do_body (k : nat) (kids : list ptree) (s : pstate) : out (list ptree * pstate) :=
  match k with
  | O => Fuel
  | S k' =>
      '(m, t, s') <~ R (GCall g_execution_part_construct) s ;;
      match t with
      | Some t => g_do_body k' (g_hoist kids t) s'
      | None => Done (kids, s')
      end
  end.

(** utils.hh:502-673 Legacy_Do_Construct_Parser.  [end_] is the terminating
    statement: tag of the construct, pg tag and tag of the statement; [None]:
    PP_Result{} is returned *)
Definition g_do_end (s : pstate) : out (option (Z * Z * Z) * pstate) :=
  i <~ cur s ;;
  if negb (0 <? x_label x i)%Z then
    t <~ x_parse x i r_end_do_stmt ;;
    match t with
    | None => Done (None, s)
    | Some t => Done (Some (PG_DO_CONSTRUCT, HOIST, t_tag t), advance (set_tree s i t))
    end
  else
    let '(st, level) := ls_level (p_stack s) (x_label x i) in
    let s := set_stack s st in
    _ <~ lift (assert_ (-1 <? level)%Z) ;;
    '(r, s) <~
      (if (0 <? level)%Z then
         t <~ x_parse x i r_action_stmt ;;
         match t with
         | None => Done (None, s)
         | Some t =>
             if (level =? 1)%Z
             then Done (Some (PG_OUTER_SHARED_DO_CONSTRUCT, PG_DO_TERM_SHARED_STMT, t_tag t), advance (set_tree s i t))
             else Done (Some (PG_INNER_SHARED_DO_CONSTRUCT, PG_DO_TERM_SHARED_STMT, t_tag t), s)
         end
       else
         t <~ x_parse x i r_end_do ;;
         match t with
         | Some t => Done (Some (PG_DO_CONSTRUCT, HOIST, t_tag t), advance (set_tree s i t))
         | None =>
             t <~ x_parse x i r_action_stmt ;;
             match t with
             | None => Done (None, s)
             | Some t => Done (Some (PG_ACTION_TERM_DO_CONSTRUCT, PG_DO_TERM_ACTION_STMT, t_tag t), advance (set_tree s i t))
             end
         end) ;;
    match r with
    | None => Done (None, s)
    | Some _ => st <~ lift (ls_pop (p_stack s)) ;; Done (r, set_stack s st)
    end.
(** :633-671 the result *)
Definition g_do_tree (tags : Z * Z * Z) (do_tag : Z) (i : nat) (kids : list ptree) (j : nat) : out ptree :=
  let '(ctag, pg_tag, sg_tag) := tags in
  let sub_tag := if (ctag =? PG_DO_CONSTRUCT)%Z then HOIST else ctag in
  let ctag := if (ctag =? PG_DO_CONSTRUCT)%Z then ctag else PG_NONBLOCK_DO_CONSTRUCT in
  block <~ g_cover (PT (if (ctag =? PG_NONBLOCK_DO_CONSTRUCT)%Z then PG_DO_BODY else PG_BLOCK) None None kids) ;;
  term <~ g_cover (PT pg_tag None None (g_hoist [] (stmt_leaf sg_tag j))) ;;
  sub <~ g_cover (PT sub_tag None None (g_hoist (g_hoist (g_hoist [] (stmt_leaf do_tag i)) block) term)) ;;
  g_cover (PT ctag None None (g_hoist [] sub)).
Definition g_do (k : nat) (s : pstate) : out gresult :=
  i <~ cur s ;;
  t <~ x_parse x i r_do_stmt ;;
  match t with
  | None => Done (false, None, s)
  | Some t =>
      l <~ lift (do_label (x_toks x i) t) ;;
      let s := if (0 <? l)%Z then set_stack s (ls_push (p_stack s) l) else s in
      let s := advance (set_tree s i t) in
      '(kids, s) <~ g_do_body k [] s ;;
      let j := p_pos s in
      '(r, s) <~ g_do_end s ;;
      match r with
      | None => Done (false, None, give_up s)
      | Some tags => t' <~ g_do_tree tags (t_tag t) i kids j ;; Done (true, Some t', s)
      end
  end.
Definition g_call (k : nat) (r : grule) (s : pstate) : out gresult :=
  match body r with
  | GBody p => R p s
  | GExec p =>
      i <~ cur s ;;
      if ls_is_top (p_stack s) (x_label x i) then Done (false, None, s) else R p s
  | GDo => g_do k s
  end.
End Loops.

Fixpoint grun (n : nat) (p : gexp) (s : pstate) {struct n} : out gresult :=
  match n with
  | O => Fuel
  | S n' =>
      match p with
      | GAlts tag ps =>
          '(m, t, s') <~ g_alts (grun n') ps s ;;
          if m : bool then
            match t with
            | Some t => r <~ g_cover (PT tag None None (g_hoist [] t)) ;; Done (true, Some r, s')
            | None => Bad
            end
          else Done (false, None, s')
      | GEnd => if at_end s then Done (true, None, s) else Done (false, None, give_up s)
      | GOpt q =>
          '(m, t, s') <~ grun n' q s ;;
          match t with
          | Some t => r <~ g_cover t ;; Done (true, Some r, s')
          | None => Done (true, None, s')
          end
      | GOptSeq tag ps =>
          '(m, kids, s') <~ g_seq (grun n') ps [] s ;;
          r <~ g_cover (PT tag None None kids) ;; Done (true, Some r, s')
      | GPlus tag q =>
          if at_end s then Done (false, None, s) else
          '(m, t, s') <~ grun n' q s ;;
          if m : bool then
            '(kids, s'') <~ g_star (grun n') n' q (g_attach [] t) s' ;;
            r <~ g_cover (PT tag None None kids) ;; Done (true, Some r, s'')
          else Done (false, None, s')
      | GSeq tag ps =>
          '(m, kids, s') <~ g_seq (grun n') ps [] s ;;
          if m : bool then r <~ g_cover (PT tag None None kids) ;; Done (true, Some r, s')
          else complain s'
      | GSeqIf tag p0 ps =>
          '(m, t, s') <~ grun n' p0 s ;;
          if m : bool then
            '(m, kids, s'') <~ g_seq (grun n') ps (g_attach [] t) s' ;;
            if m : bool then r <~ g_cover (PT tag None None kids) ;; Done (true, Some r, s'')
            else complain s''
          else Done (false, None, s')
      | GStar q =>
          '(kids, s') <~ g_star (grun n') n' q [] s ;;
          r <~ g_cover (PT HOIST None None kids) ;; Done (true, Some r, s')
      | GStmt r =>
          i <~ cur s ;;
          t <~ x_parse x i r ;;
          match t with
          | None => Done (false, None, s)
          | Some t => Done (true, Some (stmt_leaf (t_tag t) i), set_tree (advance s) i t)
          end
      | GTag tag q =>
          '(m, t, s') <~ grun n' q s ;;
          match t with
          | Some t => r <~ g_cover (PT tag None None (g_hoist [] t)) ;; Done (m, Some r, s')
          | None => Done (m, None, s')
          end
      | GCall r => g_call (grun n') n' r s
      end
  end.
End Run.

(** Prgm_Parsers.hh:46-49: a new state; a parser function called with it *)
Definition p_init : pstate := mkP 0 [] [] 0.
Definition parse_prgm (x : stmts) (n : nat) (r : grule) : out gresult := grun prgm_grammar x n (GCall r) p_init.
