(** Property C125: names and left recursion. *)
From Verif Require Import Base Helpers Utf8 Stream Native Engine Print ErrMsg SimSpec TwinSpec Twin Build Calc CalcRun Toy.
Local Open Scope list_scope.

Theorem C125_outcome : forall (R : string -> string -> Prop) (g g' : gram) (fuel : nat) (o : popts) rx cb cb' (c : code),
  twins R g g' -> cb_like false cb cb' ->
  outcome_like false (fst (gram_parse fuel g o rx cb c)) (fst (gram_parse fuel g' o rx cb' c)) /\
  snd (gram_parse fuel g o rx cb c) = snd (gram_parse fuel g' o rx cb' c).
Proof. exact twins_parse. Qed.
Print Assumptions C125_outcome.
Theorem C125_message : forall (R : string -> string -> Prop) (g g' : gram) (fuel : nat) (o : popts) rx cb cb' (c : code),
  twins R g g' -> cb_like false cb cb' -> parse_message fuel g o rx cb c = parse_message fuel g' o rx cb' c.
Proof. exact twins_message. Qed.
Print Assumptions C125_message.

(** Sums and products with two left-recursive rules. *)
Definition sums (input expr term num : string) : res gram :=
  grammar_from_lines calc_compile 300 "g"
    [LO input (LS (s2b expr)) no_opts;
     LI expr (LA [LO "" (LS (s2b ("l:" ++ expr ++ " '+' r:" ++ term))) no_opts; LO "" (LS (s2b term)) no_opts]) no_opts;
     LI term (LA [LO "" (LS (s2b ("l:" ++ term ++ " '*' r:" ++ num))) no_opts; LO "" (LS (s2b num)) no_opts]) no_opts;
     LI num (LS (s2b "'a' | 'b'")) no_opts].
Definition value_of (g : gram) (text : string) : option (nat * nat * list event) :=
  match fst (parse_string 300 g mute no_rx no_cb (s2b text)) with
  | Ok (Some (AObj a)) s => Some (a, st_pos s, s_log s)
  | _ => None
  end.
Example C125_nonvacuous : exists g g' v,
  sums "Input" "Expr" "Term" "Num" = ROk g /\ sums "Top" "Sum" "Product" "Letter" = ROk g' /\
  twins (fun a b => (a, b) ∈ [("Expr", "Sum"); ("Term", "Product"); ("Num", "Letter")]%string) g g' /\ cb_like false no_cb no_cb /\
  value_of g "a+b*a+b" = Some v /\ existsb (fun e => match e with EvRec _ 0 => true | _ => false end) (snd v) = true /\
  i_name (n_info (g_rank g)) = i_name (n_info (g_rank g')) /\ g_rule g' "Expr" = None.
Proof.
  eexists _, _, _. split; [vm_compute; reflexivity|]. split; [vm_compute; reflexivity|]. split; [apply (twins_ok _ 50); vm_compute; reflexivity|].
  split; [intros c p h1 h2 x HH; by split|]. split; [vm_compute; reflexivity|]. split; [vm_compute; reflexivity|]. split; vm_compute; reflexivity.
Qed.
(** A parse that fails ends in the same message. *)
Example C125_message_nonvacuous : exists g t, sums "Input" "Expr" "Term" "Num" = ROk g /\
  parse_message 300 g mute no_rx no_cb (CRune (new_rune_stream (s2b "a+b*c"))) = Some (ROk t) /\ t <> [].
Proof. eexists _, _. split; [vm_compute; reflexivity|]. split; [vm_compute; reflexivity|]. done. Qed.
