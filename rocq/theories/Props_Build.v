(** Theorems on grammars made from lines. *)
From Verif Require Import Base Helpers Utf8 Stream Native Engine EngSpec RunSpec TermSpec Build BuildSpec BuildMain BuildRef BuildOpts
  Joeson JoesonSpec JoesonRun Calc CalcRun.

(** The hypotheses below hold of the calculator of examples/calculator, whose
    texts are compiled with the joeson grammar: it has seven rules. *)
Example calc_meets : build calc_compile 300 "calc" calc_lines = ROk calc /\ names_once calc_lines /\
  no_singles calc_compile calc_lines /\ plain_labels calc_compile calc_lines /\ parsers (LA calc_lines) = [] /\
  d_name <$> decls "calc" calc_lines = ["Term"; "Factor"; "AddOp"; "MulOp"; "_"; "Integer"; "Expr"]%string.
Proof.
  split; [exact calc_eq|]. split; [exact calc_names_once|]. split; [exact calc_no_singles|]. split; [exact calc_plain|].
  split; vm_compute; reflexivity.
Qed.
(** Those of the joeson grammar too: 35 rules, ranks inside ranks. *)
Example joeson_meets : names_once joeson_rules /\ no_singles no_compile joeson_rules /\ length (decls joeson_name joeson_rules) = 35.
Proof.
  split; [apply (bool_decide_unpack _); vm_compute; exact I|]. split; [apply written_checked; vm_compute; reflexivity|].
  vm_compute. reflexivity.
Qed.

(** ** Numbers *)

(** The place of a rule in the table is its id, and its name there is its name.
    Every memoised parser of the grammar is in the table at its id. *)
Theorem C44_numbered compile fuel name ls b : build compile fuel name ls = ROk b -> names_once ls ->
  (forall i nm n, snd b !! i = Some (nm, n) -> i_id (n_info n) = i /\ i_name (n_info n) = nm) /\
  forall o rx cb n, reach (mk_env (gram_of b) o rx cb) (g_rank (gram_of b)) n -> i_isrule (n_info n) = true ->
    snd b !! i_id (n_info n) = Some (i_name (n_info n), n).
Proof. exact (numbered compile fuel name ls b). Qed.
Print Assumptions C44_numbered.

(** There are as many rules as the lines declare. *)
Theorem C44_count compile fuel name ls b : build compile fuel name ls = ROk b ->
  names_once ls -> no_singles compile ls -> name <> EmptyString ->
  length (snd b) = length (decls name ls) /\ g_nrules (gram_of b) = length (decls name ls).
Proof. intros. split; exact (counted compile fuel name ls b H H0 H1 H2). Qed.
Print Assumptions C44_count.

(** What the theorems on parsing ask of a grammar holds of every grammar made
    from texts. *)
Theorem C44_ready compile fuel name ls b : build compile fuel name ls = ROk b ->
  names_once ls -> no_singles compile ls -> name <> EmptyString -> parsers (LA ls) = [] ->
  forall o rx cb, let E := mk_env (gram_of b) o rx cb in
  ids_fit E (g_rank (gram_of b)) /\ ids_unique E (g_rank (gram_of b)) /\ top_rank (g_rank (gram_of b)) /\ refs_to_rules E /\
  exists D, heights E (g_rank (gram_of b)) D.
Proof. exact (ready compile fuel name ls b). Qed.
Print Assumptions C44_ready.

(** Two i-lines of one rank with the same name: the last one is registered
    twice, and has the second id only. *)
Definition twice : list line :=
  [LI "A" (LC true (st_ "x")) no_opts; LI "A" (LC true (st_ "y")) no_opts; LO "" (LC true (r_ "A")) no_opts].
Theorem C44_duplicate : exists b n,
  build no_compile 10 "g" twice = ROk b /\ ~ names_once twice /\
  snd b !! 0 = Some ("A"%string, n) /\ i_id (n_info n) = 1 /\ snd b !! 1 = Some ("A"%string, n) /\ n_kind n = KStr (s2b "y").
Proof.
  eexists. eexists. split; [vm_compute; reflexivity|]. split; [|vm_compute; repeat split; reflexivity].
  intros H. apply Forall_cons in H as [H _]. apply NoDup_cons in H as [H _]. apply H. left.
Qed.
Print Assumptions C44_duplicate.

(** ** Names *)

(** The rules in the order of their ids are those the lines declare, in order,
    each with its name, its callback and what was written. *)
Theorem C45_names compile fuel name ls b : build compile fuel name ls = ROk b ->
  names_once ls -> no_singles compile ls -> name <> EmptyString ->
  Forall2 (fun d q => fst q = d_name d /\ rule_of compile (snd b) d (snd q)) (decls name ls) (snd b) /\
  exists alts, n_kind (fst b) = KChoice alts /\ i_name ∘ n_info <$> alts = o_names name ls 0 /\
    Forall (fun a => (i_name (n_info a), a) ∈ snd b) alts /\
    i_isrule (n_info (fst b)) = false /\ i_label (n_info (fst b)) = EmptyString /\ i_cb (n_info (fst b)) = None.
Proof. exact (named compile fuel name ls b). Qed.
Print Assumptions C45_names.

(** A name means the last rule declared under it. *)
Theorem C45_lookup compile fuel name ls b : build compile fuel name ls = ROk b ->
  names_once ls -> no_singles compile ls -> name <> EmptyString -> forall nm,
  match g_rule (gram_of b) nm with
  | None => nm ∉ d_name <$> decls name ls
  | Some n => exists i d, decls name ls !! i = Some d /\ d_name d = nm /\ snd b !! i = Some (nm, n) /\ rule_of compile (snd b) d n /\
      forall j d', i < j -> decls name ls !! j = Some d' -> d_name d' <> nm
  end.
Proof. exact (looked_up compile fuel name ls b). Qed.
Print Assumptions C45_lookup.

(** A reference inside a rule parses as the rule last declared under its name;
    if there is none the parse panics.  (On the way a parse looks at the frame of
    the rule it is in.) *)
Theorem C45_reference compile fuel name ls b : build compile fuel name ls = ROk b ->
  names_once ls -> no_singles compile ls -> name <> EmptyString ->
  forall o rx cb f n nm s, let E := mk_env (gram_of b) o rx cb in
  n_kind n = KRef nm -> i_isrule (n_info n) = false -> i_cb (n_info n) = None ->
  i_label (n_info n) = EmptyString \/ i_wraps (n_info n) = false -> (exists a r, s_stack s = a :: r /\ a < length (s_fheap s)) ->
  match List.filter (fun d => String.eqb (d_name d) nm) (decls name ls) with
  | [] => parse E (S f) n s = Panic (PMsg "Grammar has a reference to a type which is NOT defined") s
  | ds => exists d target, last ds = Some d /\ rule_of compile (snd b) d target /\ parse E (S f) n s = parse E f target s
  end.
Proof. exact (referred compile fuel name ls b). Qed.
Print Assumptions C45_reference.

(** Names of a nested grammar: three unnamed o-lines, the third holding two. *)
Definition x_ : line := LO "" (LC true (st_ "x")) no_opts.
Example nested_names : d_name <$> decls "g" [x_; LI "K" (LC true (st_ "k")) no_opts; x_; LO "" (LA [x_; LO "N" (LC true (st_ "n")) no_opts; x_]) no_opts]
  = ["K"; "g[0]"; "g[1]"; "g[2][0]"; "N"; "g[2][2]"; "g[2]"]%string.
Proof. vm_compute. reflexivity. Qed.

(** ** Captures *)

(** Captures and the types of sequences are as the written form says.  Missing:
    references labelled [@], which take the labels of the rule they name. *)
Theorem C46_written_partial compile fuel name ls b : build compile fuel name ls = ROk b ->
  names_once ls -> no_singles compile ls -> name <> EmptyString -> plain_labels compile ls ->
  Forall2 (fun d q => typed_as compile d (snd q)) (decls name ls) (snd b).
Proof. exact (captured compile fuel name ls b). Qed.
Print Assumptions C46_written_partial.

(** With such references the order of the lines decides: the same rules in two
    orders give [X] a sequence of another type. *)
Definition x_line : line := i_s "X" "(@:Y)? 'z'".
Definition y_line : line := i_s "Y" "(a:'x')?".
Definition type_of_x (ls : list line) : option seqtype :=
  match build (compile_with re_known 300 (gram_of hand)) 300 "g" ls with
  | ROk b => match n_kind <$> g_rule (gram_of b) "X" with Some (KSeq ty _) => Some ty | _ => None end
  | _ => None
  end.
Theorem C46_order_refuted :
  type_of_x [o_s "X"; x_line; y_line] = Some TSingle /\ type_of_x [o_s "X"; y_line; x_line] = Some TObject.
Proof. split; vm_compute; reflexivity. Qed.
Print Assumptions C46_order_refuted.

(** ** Options *)

(** [O] and [I] keep the last callback, SkipCache and Debug among their
    options. *)
Theorem C57_line a l nm c o : mk_o a l = ROk (LO nm c o) \/ mk_i a l = ROk (LI nm c o) ->
  o = LOpts (asked asks_cb None l) (asked asks_skip false l) (asked asks_debug false l).
Proof. intros [H|H]; [exact (o_opts a l nm c o H)|exact (i_opts a l nm c o H)]. Qed.
Print Assumptions C57_line.
Example C57_line_ex : mk_i (named_text "X" (s2b "'a'")) [OCb 1; OSkipCache true; OCb 2] =
  ROk (LI "X" (LO "" (LS (s2b "'a'")) no_opts) (LOpts (Some 2) true false)).
Proof. vm_compute. reflexivity. Qed.

(** The rule of a line has the callback of the line, and, if the line is a text,
    its SkipCache and Debug. *)
Theorem C57_kept_partial compile fuel name ls b : build compile fuel name ls = ROk b ->
  names_once ls -> no_singles compile ls -> name <> EmptyString ->
  forall i d, decls name ls !! i = Some d -> exists n, snd b !! i = Some (d_name d, n) /\
  i_cb (n_info n) = lo_cb (d_opts d) /\
  (forall s, d_what d = WText s -> i_skip (n_info n) = lo_skip (d_opts d) /\ i_debug (n_info n) = lo_debug (d_opts d)).
Proof. exact (kept compile fuel name ls b). Qed.
Print Assumptions C57_kept_partial.

(** SkipCache given to a rank has no effect. *)
Theorem C57_rank_refuted : exists l b n,
  mk_i (named_lines "R" [o_s "'a'"]) [OSkipCache true; ODebug true] = ROk l /\
  build (compile_with re_known 300 (gram_of hand)) 300 "g" [o_s "R"; l] = ROk b /\
  g_rule (gram_of b) "R" = Some n /\ i_skip (n_info n) = false /\ i_debug (n_info n) = false.
Proof. eexists. eexists. eexists. split; [vm_compute; reflexivity|]. split; [vm_compute; reflexivity|]. vm_compute. repeat split. Qed.
Print Assumptions C57_rank_refuted.

(** The callback of a line inside a named line is dropped. *)
Theorem C57_inner_refuted : exists l l' b n,
  mk_o (GText (s2b "'a'")) [OCb 5] = ROk l /\ mk_i (named_line "X" l) [] = ROk l' /\
  build (compile_with re_known 300 (gram_of hand)) 300 "g" [o_s "X"; l'] = ROk b /\
  g_rule (gram_of b) "X" = Some n /\ i_cb (n_info n) = None.
Proof. eexists. eexists. eexists. eexists. split; [vm_compute; reflexivity|]. split; [vm_compute; reflexivity|]. split; [vm_compute; reflexivity|]. vm_compute. repeat split. Qed.
Print Assumptions C57_inner_refuted.
