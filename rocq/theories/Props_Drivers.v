(** C83, C84, C85: the programs parse_files and module. *)
From Verif Require Import Base Base_lemmas Tags SyntaxTags FileLine Token LogicalFile LogicalLine Lexer Lexer_spec LineEdit StmtRules Peg LabelStack Prgm PrgmSource Prgm_proofs PrgmTree_spec PrgmTree_proofs
  StmtSrc ReadFile Utils Indent FormatMain FormatMain_spec FormatFiles FormatFiles_spec Drivers Drivers_spec Drivers_proofs Props_Stmt.
From Coq Require Import Lia.
Local Open Scope nat_scope.

(** ** C81, the command line *)

(** C81.  Every command line is letters and operands, in one way; what flpr-format does depends on nothing else: not on where
    the options stand, nor whether they are put together in one word. *)
Theorem C81_command : forall exts m n d args,
  exists letters names, flags args letters names /\ (forall l p, flags args l p -> l = letters /\ p = names) /\
    flpr_format exts m n d args = flpr_main exts m n letters (map (fun f => mkNamed f (d f)) names).
Proof.
  intros exts m n d args. exists (fst (getopt_letters args)), (snd (getopt_letters args)).
  split; [apply getopt_flags; destruct (getopt_letters args); reflexivity|]. split; [|reflexivity]. intros l p H. apply getopt_flags in H. rewrite <- H. auto.
Qed.
Theorem C81_same_command : forall exts m n d args args' letters names, flags args letters names -> flags args' letters names ->
  flpr_format exts m n d args = flpr_format exts m n d args'.
Proof. intros exts m n d args args' letters names A B. apply getopt_flags in A, B. unfold flpr_format. now rewrite <- A, <- B. Qed.
Example C81_command_ex : flags [L "a.f90"; L "-fo"; L "b.f"] (L "fo") [L "a.f90"; L "b.f"] /\ flags [L "-f"; L "-o"; L "--"; L "a.f90"; L "b.f"] (L "fo") [L "a.f90"; L "b.f"] /\
  flpr_format no_exts 60 60 (fun f => if list_eq_dec ascii_dec f (L "a.f90") then Some (text_of [L "x = 1; y = 2"; L "end"]) else None) [L "a.f90"; L "-o"] =
    Done (0%Z, text_of [L "x = 1"; L "y = 2"; L "end"]).
Proof. split; [apply getopt_flags; reflexivity|]. split; [apply getopt_flags; reflexivity|vm_compute; reflexivity]. Qed.

(** ** C83 *)

(** C83.  The files that parse_files reads are the lines of the lists given with -f, which must not be missing or empty, and
    then the operands.  Without such a list of files the exit status is 1 and nothing is written. *)
Theorem C83_names : forall d args l, file_names d args = Some l <->
  exists opts rest, command args opts rest /\ Forall (fun o => exists s, d o = Some s /\ s <> []) opts /\
    l = flat_map (fun o => match d o with Some s => getlines [] s | None => [] end) opts ++ rest.
Proof.
  intros d args l. unfold file_names. split.
  - destruct (getopt_f args) as [[opts rest]|] eqn:G; [|discriminate]. apply getopt_command in G. intros H.
    destruct (from_lists d opts []) as [x|] eqn:F; [|discriminate]. injection H as <-. apply from_lists_spec in F as (F & ->). eauto.
  - intros (opts & rest & C & F & ->). apply getopt_command in C. rewrite C.
    rewrite (proj2 (from_lists_spec d opts [] (flat_map _ opts)) (conj F eq_refl)). reflexivity.
Qed.
Theorem C83_status : forall exts m n d args code t, parse_files exts m n d args = Done (code, t) ->
  (code = 1%Z /\ t = [] /\ file_names d args = None) \/ (code = 0%Z /\ file_names d args <> None).
Proof.
  intros exts m n d args code t H. unfold parse_files in H. destruct (file_names d args) as [l|]; [|injection H as <- <-; auto].
  ob H. injection H as <- <-. right. split; [reflexivity|discriminate].
Qed.
(** C83 (partial).  What is written about each file is what the program writes about that file alone, if the files before are
    parsed, or do not end in a real literal.  Missing: files that end in a real literal and are not parsed. *)
Theorem C83_alone_partial : forall exts m n d args a f, file_names d args = Some (a ++ [f]) ->
  Forall (fun g => clean_end exts m n (mkNamed g (d g))) a ->
  parse_files exts m n d args =
    obind (in_turn (map (fun g => read_each exts m n ls_init [mkNamed g (d g)]) (a ++ [f]))) (fun t => Done (0%Z, t ++ L "done." ++ [c_nl])).
Proof.
  intros exts m n d args a f E C. unfold parse_files. rewrite E. rewrite map_app. cbn [map].
  rewrite each_clean; [|apply Forall_map; exact C]. rewrite !map_app, map_map. reflexivity.
Qed.
(** C83.  If a file is parsed then the numbers are those of its logical lines, of its lines and of its program units, of which
    there is at least one, and the parser has gone through all the statements. *)
Theorem C83_numbers : forall exts m n f t st, read_one exts m n ls_init f = Done (t, true, st) ->
  exists s ls ft sts tr s', n_text f = Some s /\ read_and_scan ls_init 0 f = Done (Some ls, ft, st) /\
    make_stmts (3 + length ls + length (flat_map l_stmts ls)) ls = Some (Ok sts) /\
    parse_prgm (of_source exts m (map (src_of ls) sts)) n g_program = Done (true, Some tr, s') /\
    g_tag tr = PG_PROGRAM /\ g_kids tr <> [] /\ Forall (fun k => g_tag k = PG_PROGRAM_UNIT) (g_kids tr) /\
    derives (of_source exts m (map (src_of ls) sts)) tr /\
    t = L "Processing: '" ++ n_name f ++ L "'" ++ c_nl :: c_tab :: L "scanning..." ++ c_nl :: c_tab ::
        L "scan created " ++ to_dec (N.of_nat (length ls)) ++ L " logical lines from " ++ to_dec (N.of_nat (length (getlines [] s))) ++
        L " input text lines." ++ c_nl :: c_tab :: L "parsing..." ++ c_nl :: c_tab :: L "root rule " ++ [c_dquote] ++ L "program" ++
        [c_dquote] ++ L " has " ++ to_dec (N.of_nat (length (g_kids tr))) ++ L " branches. " ++ [c_nl].
Proof.
  intros exts m n f t st H. unfold read_one in H. destruct (read_and_scan ls_init 0 f) as [[[r ft] st1]| |] eqn:R; cbn [obind] in H; try discriminate.
  destruct r as [ls|]; [|discriminate]. destruct (n_text f) as [s|] eqn:TX; [|discriminate].
  destruct (make_stmts _ ls) as [[sts| |]|] eqn:MS; cbn [lift obind] in H; try discriminate.
  destruct (parse_prgm _ n g_program) as [[[ok tr] s']| |] eqn:P; cbn [obind] in H; try discriminate. destruct ok; [|discriminate].
  destruct tr as [tr|]; [|discriminate]. destruct (prgm_derives _ _ _ _ _ _ _ _ P) as (_ & DV & IP). destruct IP as [IP|[]].
  assert (TL : tag_label [] PG_PROGRAM = Ok (L "program")) by (vm_compute; reflexivity). rewrite <- IP, TL in H. cbn [lift obind] in H. injection H as <- <-.
  exists s, ls, ft, sts, tr, s'. do 4 (split; [reflexivity || assumption|]). split; [now symmetry|].
  assert (K : spells (some_of (PrgmTree_spec.T PG_PROGRAM_UNIT)) (map g_tag (g_kids tr))).
  { inversion DV as [g i A B C E|g e rr kids A B C E]; subst tr; cbn [g_tag stmt_leaf] in IP.
    - exfalso. apply (C (sq [some_of (PrgmTree_spec.T PG_PROGRAM_UNIT); Eps])). unfold productions. left. f_equal. exact IP.
    - assert (e = sq [some_of (PrgmTree_spec.T PG_PROGRAM_UNIT); Eps]) as ->.
      { clear -A IP. subst g. unfold productions in A. cbn [In] in A. repeat (destruct A as [A|A]; [inversion A; try reflexivity; discriminate|]). destruct A. }
      cbn [g_kids]. cbn [sq fold_right] in B. inversion B as [| |a b u v B1 B2 E1 E2| | | |]; subst. inversion B2 as [| |a b u' v' B3 B4 E3 E4| | | |]; subst.
      inversion B3; subst. inversion B4; subst. cbn [app]. rewrite app_nil_r. exact B1. }
  split; [|split; [|split; [exact DV|]]].
  - intros E. rewrite E in K. cbn [map] in K. unfold some_of in K. inversion K as [| |a b u v K1 K2 E1 E2| | | |]; subst. inversion K1; subst. discriminate E2.
  - assert (M : forall e l, spells e l -> e = Many (PrgmTree_spec.T PG_PROGRAM_UNIT) -> Forall (eq PG_PROGRAM_UNIT) l).
    { induction 1 as [| | | | | |a u v A IA V IV]; intros E; try discriminate; [constructor|]. apply Forall_app. split; [|auto]. injection E as ->. inversion A; subst. auto. }
    unfold some_of in K. inversion K as [| |a b u v K1 K2 E1 E2| | | |]; subst. inversion K1; subst. apply M in K2; [|reflexivity].
    assert (F : Forall (eq PG_PROGRAM_UNIT) (map g_tag (g_kids tr))) by (rewrite <- E2; constructor; auto).
    apply (proj1 (Forall_map g_tag (eq PG_PROGRAM_UNIT) (g_kids tr))) in F. eapply Forall_impl; [|exact F]. intros k X. now symmetry.
  - unfold say_name, say_lines. repeat (rewrite <- app_assoc; cbn [app]). reflexivity.
Qed.
(** C83.  Of the same lines Parsed_File (flpr-format, module, caliper) makes a tree exactly if parse_files reports one, and it
    has undefined behaviour if parse_files reports a failure. *)
Theorem C83_agrees : forall exts m n st f ls ft st1, read_and_scan st 0 f = Done (Some ls, ft, st1) ->
  ((exists t st2, read_one exts m n st f = Done (t, true, st2)) <-> (exists sts tr, prefetch exts m n ls = Done (sts, Some tr))) /\
  ((exists t st2, read_one exts m n st f = Done (t, false, st2)) -> prefetch exts m n ls = Bad).
Proof.
  intros exts m n st f ls ft st1 R. pose proof (one_prefetch exts m n _ _ _ _ _ R) as Q. destruct (read_one exts m n st f) as [[[t ok] st2]| |].
  - destruct ok.
    + destruct Q as (_ & sts & tr & Q & _). split; [split; eauto|]. intros (t' & st' & E). discriminate.
    + destruct Q as (_ & Q). split; [|eauto]. split; [intros (t' & st' & E); discriminate|]. intros (sts & tr & E). congruence.
  - split; [|intros (t' & st' & E); discriminate]. split; [intros (t' & st' & E); discriminate|]. intros (sts & tr & E). now apply Q in E.
  - split; [|intros (t' & st' & E); discriminate]. split; [intros (t' & st' & E); discriminate|]. intros (sts & tr & E). now apply Q in E.
Qed.
(** A file without statements is not reported on: the parser looks at the statement behind the last one.  Parsed_File asks first. *)
Theorem C83_no_statements_refuted : forall exts m n st f ls ft st1, read_and_scan st 0 f = Done (Some ls, ft, st1) ->
  make_stmts (3 + length ls + length (flat_map l_stmts ls)) ls = Some (Ok []) ->
  (forall r, read_one exts m n st f <> Done r) /\ prefetch exts m n ls = Done ([], None).
Proof.
  intros exts m n st f ls ft st1 R M. split.
  - intros r H. unfold read_one in H. rewrite R in H. cbn [obind] in H. destruct (n_text f) as [s|] eqn:TX.
    + rewrite M in H. cbn [lift obind map] in H. pose proof (no_stmts exts m n) as NS. destruct (parse_prgm (of_source exts m []) n g_program) as [q| |]; [now destruct (NS q)| |]; discriminate.
    + unfold read_and_scan in R. rewrite TX in R. discriminate.
  - unfold prefetch. rewrite M. reflexivity.
Qed.
(** A file that ends in a real literal and is not parsed leaves the scanner in the middle of it: the next file is read in
    another way than alone. *)
Definition disk (f : str) : option str :=
  if list_eq_dec ascii_dec f (L "list") then Some (text_of [L "b.f90"; L "no.f90"])
  else if list_eq_dec ascii_dec f (L "a.f90") then Some (text_of [L "? ?"; L "y = 1."])
  else if list_eq_dec ascii_dec f (L "b.f90") then Some (text_of [L "d1 = 0"; L "end"])
  else if list_eq_dec ascii_dec f (L "c.f90") then Some (text_of [L "! nothing"])
  else None.
Definition b_parsed : str := text_of [L "Processing: 'b.f90'"; c_tab :: L "scanning..."; c_tab :: L "scan created 2 logical lines from 2 input text lines.";
  c_tab :: L "parsing..."; c_tab :: L "root rule ""program"" has 1 branches. "].
Definition b_failed : str := text_of [L "Processing: 'b.f90'"; c_tab :: L "scanning..."; c_tab :: L "scan created 2 logical lines from 2 input text lines.";
  c_tab :: L "parsing..."; c_tab :: L "parsing FAILED"].
Theorem C83_alone_refuted : exists a_failed,
  parse_files no_exts 60 60 disk [L "a.f90"] = Done (0%Z, a_failed ++ L "done." ++ [c_nl]) /\
  parse_files no_exts 60 60 disk [L "b.f90"] = Done (0%Z, b_parsed ++ L "done." ++ [c_nl]) /\
  parse_files no_exts 60 60 disk [L "a.f90"; L "b.f90"] = Done (0%Z, a_failed ++ b_failed ++ L "done." ++ [c_nl]).
Proof.
  exists (text_of [L "Processing: 'a.f90'"; c_tab :: L "scanning..."; c_tab :: L "scan created 2 logical lines from 2 input text lines.";
    c_tab :: L "parsing..."; c_tab :: L "parsing FAILED"]).
  split; [vm_compute; reflexivity|]. split; vm_compute; reflexivity.
Qed.
(** The exit status does not tell whether the files were parsed. *)
Theorem C83_status_refuted : exists t, parse_files no_exts 60 60 disk [L "no.f90"] = Done (0%Z, t) /\ disk (L "no.f90") = None.
Proof. eexists. split; [vm_compute; reflexivity|reflexivity]. Qed.
Example C83_ex : file_names disk [L "a.f90"; L "-flist"; L "b.f90"] = Some [L "b.f90"; L "no.f90"; L "a.f90"; L "b.f90"] /\
  file_names disk [L "-f"; L "nolist"; L "b.f90"] = None /\ file_names disk [L "-x"] = None /\
  clean_end no_exts 60 60 (mkNamed (L "b.f90") (disk (L "b.f90"))) /\ clean_end no_exts 60 60 (mkNamed (L "no.f90") (disk (L "no.f90"))) /\
  parse_files no_exts 60 60 disk [L "-f"; L "list"; L "a.f90"] = Done (0%Z, b_parsed ++ text_of [L "Processing: 'no.f90'"; c_tab :: L "scanning..."; c_tab :: L "read/scan FAILED"] ++
    text_of [L "Processing: 'a.f90'"; c_tab :: L "scanning..."; c_tab :: L "scan created 2 logical lines from 2 input text lines."; c_tab :: L "parsing..."; c_tab :: L "parsing FAILED"] ++ L "done." ++ [c_nl]) /\
  parse_files no_exts 60 60 disk [L "c.f90"] = Bad.
Proof.
  repeat (split; [vm_compute; reflexivity|]). split; [left; do 2 eexists; vm_compute; reflexivity|]. split; [right; discriminate|]. split; vm_compute; reflexivity.
Qed.

(** ** C84 *)

(** C84 (partial).  If no file is named twice and none is the backup of another, then after module the files that it has gone
    through are as before, or they are rewritten and the backup has what they had; nothing else is changed.  It has gone through
    all of them if the exit status is 0, otherwise up to the first that cannot be read (1) or renamed (2).  [work] stands for
    what is made of a file. *)
Theorem C84_backup_partial : forall work movable mo names d fs d' code, apart fs -> do_files work movable mo names d fs = Done (d', code) ->
  exists done rest, fs = done ++ rest /\ backed_up (work mo names) d d' done /\
    ((code = 0%Z /\ rest = []) \/
     (code = 1%Z /\ exists f r, rest = f :: r /\ (d f = None \/ exists s, d f = Some s /\ work mo names f s = Done unread)) \/
     (code = 2%Z /\ exists f r s t, rest = f :: r /\ d f = Some s /\ work mo names f s = Done (rewritten t) /\ movable f = false)).
Proof. intros work movable mo names d fs d' code. apply files_backed. Qed.
(** A file that is named twice, or worked on in a second run: the action rewrites it again, although nothing is missing any more
    (C73_changed_refuted), and the backup is no longer the original, which is lost. *)
Theorem C84_twice_refuted : forall work movable mo names d f s t t2, d f = Some s -> work mo names f s = Done (rewritten t) ->
  work mo names f t = Done (rewritten t2) -> movable f = true ->
  exists d', do_files work movable mo names d [f; f] = Done (d', 0%Z) /\ d' f = Some t2 /\ d' (bak f) = Some t /\
    (s <> t -> s <> t2 -> (forall g, g <> f -> d g <> Some s) -> forall g, d' g <> Some s).
Proof.
  intros work movable mo names d f s t t2 D W1 W2 M. eexists. split.
  - cbn [do_files]. unfold do_file. rewrite D, W1. cbn [obind]. rewrite M. cbn [obind]. rewrite put_same, W2. reflexivity.
  - assert (B : bak f <> f) by (intros E; symmetry in E; now apply bak_not in E).
    split; [apply put_same|]. split; [now rewrite put_other, put_same|]. intros N1 N2 O g. unfold put.
    destruct (list_eq_dec ascii_dec g f); [congruence|]. destruct (list_eq_dec ascii_dec g (bak f)); [congruence|auto].
Qed.
(** After an error the files before it are changed already. *)
Definition add_use (mo : str) (names : list str) (f s : str) : out verdict :=
  Done (if list_eq_dec ascii_dec (firstn 3 s) (L "use") then rewritten s else rewritten (L "use " ++ mo ++ c_nl :: s)).
Definition two_files (f : str) : option str :=
  if list_eq_dec ascii_dec f (L "a") then Some (L "call x") else if list_eq_dec ascii_dec f (L "b") then Some (L "use y") else None.
Theorem C84_halfway_refuted : exists d', do_files add_use (fun _ => true) (L "m") [] two_files [L "a"; L "c"; L "b"] = Done (d', 1%Z) /\ d' (L "a") <> two_files (L "a").
Proof. eexists. split; [reflexivity|]. vm_compute. discriminate. Qed.
Example C84_ex : apart [L "a"; L "b"] /\ exists d', do_files add_use (fun _ => true) (L "m") [] two_files [L "a"; L "b"] = Done (d', 0%Z) /\
  d' (L "a") = Some (L "use m" ++ c_nl :: L "call x") /\ d' (L "a.bak") = Some (L "call x") /\ d' (L "b") = Some (L "use y").
Proof.
  split.
  - split; [repeat constructor; cbn; intuition discriminate|]. intros f g [<-|[<-|[]]] [<-|[<-|[]]]; discriminate.
  - eexists. split; [reflexivity|]. repeat split.
Qed.
Example C84_twice_ex : add_use (L "m") [] (L "a") (L "call x") = Done (rewritten (L "use m" ++ c_nl :: L "call x")) /\
  add_use (L "m") [] (L "a") (L "use m" ++ c_nl :: L "call x") = Done (rewritten (L "use m" ++ c_nl :: L "call x")).
Proof. split; reflexivity. Qed.

(** ** C85 *)

(** C85.  What module takes from its command line: with -f the last value is the file of call names and the operands are the
    module and the files, otherwise the first operand is the call name. *)
Theorem C85_request : forall args q, module_cmd args = Ok q -> exists opts rest, command args opts rest /\
  ((q_is_file q = false /\ opts = [] /\ rest = q_call q :: q_module q :: q_files q) \/
   (q_is_file q = true /\ (exists o, opts = o ++ [q_call q]) /\ rest = q_module q :: q_files q)).
Proof.
  intros args q H. unfold module_cmd in H. destruct (getopt_f args) as [[opts rest]|] eqn:G; [|discriminate]. apply getopt_command in G.
  exists opts, rest. split; [exact G|]. destruct (rev opts) as [|o r] eqn:E.
  - left. destruct (S (length args) <? 4); [discriminate|]. destruct rest as [|c rest]; [discriminate|]. cbn [bind] in H. destruct rest as [|mo fs]; [discriminate|].
    injection H as <-. cbn. split; [reflexivity|]. split; [|reflexivity]. rewrite <- (rev_involutive opts), E. reflexivity.
  - right. destruct (S (length args) <? 3); [discriminate|]. cbn [bind] in H. destruct rest as [|mo fs]; [discriminate|].
    injection H as <-. cbn. split; [reflexivity|]. split; [|reflexivity]. exists (rev r). rewrite <- (rev_involutive opts), E. reflexivity.
Qed.
(** C85 (partial).  A command line that is refused, or makes a string of the null pointer behind the arguments: the latter exactly
    if -f is given and there is no operand, although there are at least two arguments. *)
Theorem C85_outcome_partial : forall args,
  (module_cmd args = Throw <-> (forall opts rest, ~ command args opts rest) \/ exists opts rest, command args opts rest /\ length args < (if is_empty opts then 3 else 2)) /\
  (module_cmd args = UB <-> exists opts, command args opts [] /\ opts <> [] /\ 2 <= length args).
Proof.
  intros args. unfold module_cmd. destruct (getopt_f args) as [[opts rest]|] eqn:G.
  - assert (U : forall o r, command args o r -> o = opts /\ r = rest) by (intros o r C; apply getopt_command in C; rewrite G in C; injection C as -> ->; auto).
    apply getopt_command in G.
    assert (LEN : opts = [] -> length args <= S (length rest)).
    { clear U. induction G as [|r|v r o p V C IH|v r o p C IH|a r o p A C IH]; intros E; cbn [length]; try discriminate; try lia. apply IH in E. lia. }
    destruct (rev opts) as [|o r] eqn:E.
    + assert (opts = []) as -> by (rewrite <- (rev_involutive opts), E; reflexivity). specialize (LEN eq_refl). cbn [is_empty].
      destruct (Nat.ltb_spec (S (length args)) 4) as [L1|L1]; cbn [bind].
      * split; split; intros H; try discriminate; [right; exists [], rest; split; [exact G|cbn [is_empty]; lia]|reflexivity|]. destruct H as (o & C & N & _). apply U in C as (-> & _). contradiction.
      * destruct rest as [|c [|mo fs]]; cbn [length] in LEN; try lia. cbn [bind]. split; split; intros H; try discriminate.
        -- destruct H as [H|(o & r & C & L2)]; [now apply H in G|]. apply U in C as (-> & _). cbn [is_empty] in L2. lia.
        -- destruct H as (o & C & N & _). apply U in C as (-> & _). contradiction.
    + assert (N : opts <> []) by (intros ->; discriminate E). assert (IE : is_empty opts = false) by (destruct opts; [contradiction|reflexivity]).
      destruct (Nat.ltb_spec (S (length args)) 3) as [L1|L1]; cbn [bind].
      * split; split; intros H; try discriminate; [right; exists opts, rest; split; [exact G|rewrite IE; lia]|reflexivity|]. destruct H as (o' & _ & _ & L2). lia.
      * destruct rest as [|mo fs]; split; split; intros H; try discriminate; try reflexivity.
        -- destruct H as [H|(o' & r' & C & L2)]; [now apply H in G|]. apply U in C as (-> & _). rewrite IE in L2. lia.
        -- exists opts. split; [exact G|]. split; [exact N|lia].
        -- destruct H as [H|(o' & r' & C & L2)]; [now apply H in G|]. apply U in C as (-> & _). rewrite IE in L2. lia.
        -- destruct H as (o' & C & _ & _). apply U in C as (_ & C). discriminate C.
  - assert (U : forall o r, ~ command args o r) by (intros o r C; apply getopt_command in C; congruence).
    split; split; intros H; try discriminate; auto. destruct H as (o & C & _). now apply U in C.
Qed.
Theorem C85_usage_refuted : module_cmd [L "-f"; L "names"] = UB /\ module_cmd [L "-f"; L "names"; L "--"] = UB.
Proof. split; reflexivity. Qed.
(** C85.  The names in the file of call names are its words, in small letters. *)
Theorem C85_call_names : forall d q s names, q_is_file q = true -> d (q_call q) = Some s -> call_names d q = Ok names ->
  exists ws, text_words s ws /\ names = map (map lower_b) ws.
Proof.
  intros d q s names F D H. unfold call_names in H. rewrite F, D in H. exists (words_of [] s). split; [apply (words_text s [] (Forall_nil _))|].
  revert names H. induction (words_of [] s) as [|w l IH]; intros names H; cbn [lower_all] in H; [injection H as <-; reflexivity|].
  apply bind_Ok in H as (a & A & H). apply bind_Ok in H as (b & B & H). injection H as <-. cbn [map]. rewrite (IH b B). f_equal.
  clear - A. revert a A. induction w as [|c w IH]; intros a A; cbn [flpr_tolower] in A; [injection A as <-; reflexivity|].
  apply bind_Ok in A as (x & X & A). apply bind_Ok in A as (y & Y & A). injection A as <-. cbn [map]. rewrite (IH y Y). f_equal.
  unfold c_tolower in X. destruct (ctype_ok c); [|discriminate]. now injection X as <-.
Qed.
Theorem C85_words_unique : forall s l l', text_words s l -> text_words s l' -> l = l'.
Proof. intros s l l' A B. apply words_only in A. apply words_only in B. congruence. Qed.
(** A file of call names that is not there is no error: there are no names, so no file is changed. *)
Theorem C85_missing_refuted : forall work movable d o mo fs, d o = None -> flpr_tolower mo <> UB -> flpr_tolower mo <> Throw -> operand mo -> Forall operand fs ->
  module_main work movable d (L "-f" :: o :: mo :: fs) = do_files work movable mo [] d fs.
Proof.
  intros work movable d o mo fs D N1 N2 OM OF. unfold module_main.
  assert (C : command (L "-f" :: o :: mo :: fs) [o] (mo :: fs)).
  { apply cl_apart. apply cl_operand; [exact OM|]. induction OF; constructor; auto. }
  apply getopt_command in C. unfold module_cmd. rewrite C. cbn [rev app length Nat.ltb Nat.leb bind q_module q_files]. unfold call_names. cbn [q_is_file q_call]. rewrite D. cbn [lower_all].
  destruct (flpr_tolower mo); [reflexivity|contradiction|contradiction].
Qed.
Example C85_ex : module_cmd [L "Sub"; L "mod"; L "a.f90"; L "b.f90"] = Ok (mkReq (L "Sub") false (L "mod") [L "a.f90"; L "b.f90"]) /\
  module_cmd [L "mod"; L "-f"; L "names"; L "a.f90"] = Ok (mkReq (L "names") true (L "mod") [L "a.f90"]) /\
  module_cmd [L "Sub"; L "mod"] = Throw /\
  call_names (fun f => if list_eq_dec ascii_dec f (L "names") then Some (L " Foo" ++ c_nl :: c_nl :: L "BAR ") else None) (mkReq (L "names") true (L "mod") []) = Ok [L "foo"; L "bar"].
Proof. repeat split. Qed.

Definition Drivers_all := (C81_command, C81_same_command, C83_names, C83_status, C83_alone_partial, C83_numbers, C83_agrees, C83_no_statements_refuted, C83_alone_refuted, C83_status_refuted,
  C84_backup_partial, C84_twice_refuted, C84_halfway_refuted, C85_request, C85_outcome_partial, C85_usage_refuted, C85_call_names, C85_words_unique, C85_missing_refuted).
Print Assumptions Drivers_all.
