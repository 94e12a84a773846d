(** Property C129: numbers of rules and left recursion. *)
From Verif Require Import Base Helpers Utf8 Stream Native Engine Print ErrMsg SimSpec RenumSpec Renum RenumCheck Build Calc CalcRun Toy.
Local Open Scope list_scope.

Theorem C129_outcome : forall (R : string -> string -> Prop) (pi : nat -> nat) (g g' : gram) (fuel : nat) (o : popts) rx cb cb' (c : code),
  renums R pi g g' -> cb_like false cb cb' ->
  outcome_renum pi (fst (gram_parse fuel g o rx cb c)) (fst (gram_parse fuel g' o rx cb' c)) /\
  snd (gram_parse fuel g o rx cb c) = snd (gram_parse fuel g' o rx cb' c) /\
  parse_message fuel g o rx cb c = parse_message fuel g' o rx cb' c.
Proof. exact renums_parse. Qed.
Print Assumptions C129_outcome.

(** Sums and products with two left-recursive rules; then with the rules in
    another order and a rule that nothing refers to. *)
Definition num : line := LI "Num" (LS (s2b "'a' | 'b'")) no_opts.
Definition term : line := LI "Term" (LA [LO "" (LS (s2b "l:Term '*' r:Num")) no_opts; LO "" (LS (s2b "Num")) no_opts]) no_opts.
Definition expr : line := LI "Expr" (LA [LO "" (LS (s2b "l:Expr '+' r:Term")) no_opts; LO "" (LS (s2b "Term")) no_opts]) no_opts.
Definition spare : line := LI "Spare" (LS (s2b "Spare 'x' | Num")) no_opts.
Definition input : line := LO "Input" (LS (s2b "Expr")) no_opts.
Definition first_way : res gram := grammar_from_lines calc_compile 300 "g" [input; expr; term; num].
Definition other_way : res gram := grammar_from_lines calc_compile 300 "g" [num; spare; term; input; expr].
(** 0-2: the rank of sums, 3-5: that of products, 6: letters, 7: the start. *)
Definition moved (i : nat) : nat := nth i [5; 6; 7; 2; 3; 4; 0; 8] 0.
Example C129_nonvacuous : exists g g' a s,
  first_way = ROk g /\ other_way = ROk g' /\ g_nrules g = 8 /\ g_nrules g' = 9 /\
  renums (fun a b => (a, b) ∈ [("Expr", "Expr"); ("Term", "Term"); ("Num", "Num")]%string) moved g g' /\ cb_like false no_cb no_cb /\
  fst (parse_string 300 g mute no_rx no_cb (s2b "a+b*a+b")) = Ok (Some (AObj a)) s /\ st_pos s = 7 /\
  existsb (fun e => match e with EvRec _ 0 => true | _ => false end) (s_log s) = true.
Proof.
  eexists _, _, _, _. split; [vm_compute; reflexivity|]. split; [vm_compute; reflexivity|]. split; [reflexivity|]. split; [reflexivity|].
  split; [apply (renums_ok _ _ 50); vm_compute; reflexivity|].
  split; [intros c p h1 h2 x HH; by split|]. split; [vm_compute; reflexivity|]. split; vm_compute; reflexivity.
Qed.
