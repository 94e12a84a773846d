(** Property C126: names in the lines of a grammar, left recursion included. *)
From Verif Require Import Base Helpers Utf8 Stream Native Engine Print ErrMsg SimSpec Build BuildSpec Calc CalcRun MeansSpec MeansRun RenameSpec TwinSpec Twin TwinLines Toy.
Local Open Scope list_scope.

Theorem C126_outcome : forall (compile : bytes -> res pexp) (fuel fuel' : nat) (name : string) (ls : list line) (name' : string) (ls' : list line) b b',
  renamed_lines compile name ls name' ls' ->
  build compile fuel name ls = ROk b -> build compile fuel' name' ls' = ROk b' -> in_words compile name ls -> in_words compile name' ls' ->
  forall (f : nat) (o : popts) rx cb cb' (c : code), cb_like false cb cb' ->
  outcome_like false (fst (gram_parse f (gram_of b) o rx cb c)) (fst (gram_parse f (gram_of b') o rx cb' c)) /\
  snd (gram_parse f (gram_of b) o rx cb c) = snd (gram_parse f (gram_of b') o rx cb' c) /\
  parse_message f (gram_of b) o rx cb c = parse_message f (gram_of b') o rx cb' c.
Proof. exact lines_outcome. Qed.
Print Assumptions C126_outcome.

(** Sums and products with two left-recursive rules; the lines of the ranks have
    no name of their own. *)
Definition sums_lines (input expr term num : string) : list line :=
  [LO input (LS (s2b expr)) no_opts;
   LI expr (LA [LO "" (LS (s2b ("l:" ++ expr ++ " '+' r:" ++ term))) no_opts; LO "" (LS (s2b term)) no_opts]) no_opts;
   LI term (LA [LO "" (LS (s2b ("l:" ++ term ++ " '*' r:" ++ num))) no_opts; LO "" (LS (s2b num)) no_opts]) no_opts;
   LI num (LS (s2b "'a' | 'b'")) no_opts].
Definition ls1 : list line := sums_lines "Input" "Expr" "Term" "Num".
Definition ls2 : list line := sums_lines "Top" "Sum" "Product" "Letter".
Example C126_ex : renamed_lines calc_compile "g" ls1 "h" ls2.
Proof.
  assert (HE : stands_for "g" ls1 "h" ls2 "Expr" "Sum") by (exists 2; eexists _, _; vm_compute; repeat split).
  assert (HT : stands_for "g" ls1 "h" ls2 "Term" "Product") by (exists 5; eexists _, _; vm_compute; repeat split).
  assert (HN : stands_for "g" ls1 "h" ls2 "Num" "Letter") by (exists 6; eexists _, _; vm_compute; repeat split).
  apply rn_rank. apply Forall2_cons. split; [|apply Forall2_cons; split; [|apply Forall2_cons; split; [|apply Forall2_cons; split; [|by apply Forall2_nil]]]].
  - apply rn_o. eapply rn_text; [vm_compute; reflexivity|vm_compute; reflexivity|]. by apply rn_ref.
  - apply rn_i, rn_rank. apply Forall2_cons. split; [|apply Forall2_cons; split; [|by apply Forall2_nil]]; apply rn_o.
    + eapply rn_text; [vm_compute; reflexivity|vm_compute; reflexivity|]. apply rn_node; [exact I|]. apply sk_seq.
      apply Forall2_cons. split; [by apply rn_ref|]. apply Forall2_cons. split; [apply rn_node; [exact I|constructor]|]. apply Forall2_cons. split; [by apply rn_ref|]. by apply Forall2_nil.
    + eapply rn_text; [vm_compute; reflexivity|vm_compute; reflexivity|]. by apply rn_ref.
  - apply rn_i, rn_rank. apply Forall2_cons. split; [|apply Forall2_cons; split; [|by apply Forall2_nil]]; apply rn_o.
    + eapply rn_text; [vm_compute; reflexivity|vm_compute; reflexivity|]. apply rn_node; [exact I|]. apply sk_seq.
      apply Forall2_cons. split; [by apply rn_ref|]. apply Forall2_cons. split; [apply rn_node; [exact I|constructor]|]. apply Forall2_cons. split; [by apply rn_ref|]. by apply Forall2_nil.
    + eapply rn_text; [vm_compute; reflexivity|vm_compute; reflexivity|]. by apply rn_ref.
  - apply rn_i. eapply rn_text; [vm_compute; reflexivity|vm_compute; reflexivity|]. apply rn_node; [exact I|]. apply sk_choice.
    apply Forall2_cons. split; [apply rn_node; [exact I|constructor]|]. apply Forall2_cons. split; [apply rn_node; [exact I|constructor]|]. by apply Forall2_nil.
Qed.
Example C126_nonvacuous : exists b b' a s,
  build calc_compile 300 "g" ls1 = ROk b /\ build calc_compile 300 "h" ls2 = ROk b' /\ in_words calc_compile "g" ls1 /\ in_words calc_compile "h" ls2 /\
  cb_like false no_cb no_cb /\ fst (parse_string 300 (gram_of b) mute no_rx no_cb (s2b "a+b*a+b")) = Ok (Some (AObj a)) s /\ st_pos s = 7 /\
  existsb (fun e => match e with EvRec _ 0 => true | _ => false end) (s_log s) = true /\ g_rule (gram_of b') "Expr" = None.
Proof.
  eexists _, _, _, _. split; [vm_compute; reflexivity|]. split; [vm_compute; reflexivity|]. split; [apply words_checked; vm_compute; reflexivity|].
  split; [apply words_checked; vm_compute; reflexivity|]. split; [intros c p h1 h2 x HH; by split|]. split; [vm_compute; reflexivity|].
  split; [vm_compute; reflexivity|]. split; vm_compute; reflexivity.
Qed.
