(** Property C130: order of rules in the lines, and rules that are not used,
    left recursion included. *)
From Verif Require Import Base Helpers Utf8 Stream Native Engine Print ErrMsg SimSpec Build BuildSpec Calc CalcRun MeansSpec MeansRun ReadsSpec UnusedSpec RenumSpec RenumLinesSpec RenumLines Unused Toy.
Local Open Scope list_scope.

Theorem C130_outcome : forall (compile : bytes -> res pexp) (fuel fuel' : nat) (name : string) (ls : list line) (name' : string) (ls' : list line) b b',
  part_of compile name ls name' ls' -> complete compile name ls ->
  build compile fuel name ls = ROk b -> build compile fuel' name' ls' = ROk b' -> in_words compile name ls -> in_words compile name' ls' ->
  exists pi : nat -> nat,
  (forall i d, decls name ls !! i = Some d -> exists d', decls name' ls' !! pi i = Some d' /\ d_name d' = d_name d) /\
  forall (f : nat) (o : popts) rx cb cb' (c : code), cb_like false cb cb' ->
  outcome_renum pi (fst (gram_parse f (gram_of b) o rx cb c)) (fst (gram_parse f (gram_of b') o rx cb' c)) /\
  snd (gram_parse f (gram_of b) o rx cb c) = snd (gram_parse f (gram_of b') o rx cb' c) /\
  parse_message f (gram_of b) o rx cb c = parse_message f (gram_of b') o rx cb' c.
Proof. exact part_outcome. Qed.
Print Assumptions C130_outcome.

(** Sums and products with two left-recursive rules; then with the rules in
    another order and a rule that nothing refers to. *)
Definition num : line := LI "Num" (LS (s2b "'a' | 'b'")) no_opts.
Definition term : line := LI "Term" (LA [LO "" (LS (s2b "l:Term '*' r:Num")) no_opts; LO "" (LS (s2b "Num")) no_opts]) no_opts.
Definition expr : line := LI "Expr" (LA [LO "" (LS (s2b "l:Expr '+' r:Term")) no_opts; LO "" (LS (s2b "Term")) no_opts]) no_opts.
Definition spare : line := LI "Spare" (LS (s2b "Spare 'x' | Num")) no_opts.
Definition input : line := LO "Input" (LS (s2b "Expr")) no_opts.
Definition few : list line := [input; expr; term; num].
Definition more : list line := [num; spare; term; input; expr].
Definition at_more (i : nat) (d : decl) : decl :=
  match list_find (fun d' => d_name d' = d_name d) (decls "g" more) with Some (_, d') => d' | None => d end.
Example C130_ex : part_of calc_compile "g" few "g" more /\ complete calc_compile "g" few.
Proof.
  split; [|apply complete_checked; vm_compute; reflexivity]. split; [|vm_compute; reflexivity].
  apply Forall_lookup_2. intros i d Hd. exists (at_more i d).
  do 8 (destruct i as [|i]; [injection Hd as <-; split; [apply elem_of_list_In; vm_compute; tauto|vm_compute; split; [reflexivity|]; split; [reflexivity|]; first [reflexivity|eexists; split; reflexivity]]|]).
  vm_compute in Hd. by destruct i.
Qed.
Example C130_nonvacuous : exists b b' a s,
  build calc_compile 300 "g" few = ROk b /\ build calc_compile 300 "g" more = ROk b' /\ in_words calc_compile "g" few /\ in_words calc_compile "g" more /\
  cb_like false no_cb no_cb /\ fst (parse_string 300 (gram_of b) mute no_rx no_cb (s2b "a+b*a+b")) = Ok (Some (AObj a)) s /\ st_pos s = 7 /\
  existsb (fun e => match e with EvRec _ 0 => true | _ => false end) (s_log s) = true /\ g_rule (gram_of b) "Spare" = None /\ g_rule (gram_of b') "Spare" <> None.
Proof.
  eexists _, _, _, _. split; [vm_compute; reflexivity|]. split; [vm_compute; reflexivity|]. split; [apply words_checked; vm_compute; reflexivity|].
  split; [apply words_checked; vm_compute; reflexivity|]. split; [intros c p h1 h2 x HH; by split|]. split; [vm_compute; reflexivity|].
  split; [vm_compute; reflexivity|]. split; [vm_compute; reflexivity|]. split; [vm_compute; reflexivity|]. by vm_compute.
Qed.
