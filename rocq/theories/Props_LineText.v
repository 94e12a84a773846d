(** Properties C127 and C128: lines in the errors of a construction. *)
From Verif Require Import Base Helpers Native Engine Print Build LineText LineTextSpec LineTextProofs Calc.
Local Open Scope list_scope.

(** C127: a line of the screen for each line, and the text of the rules. *)
Theorem C127_height : forall (show : pexp -> bytes) (l : line) (n : nat), (forall e, feeds (show e) = 0) -> flat_names l ->
  feeds (string_indent show n l) = height l.
Proof. intros show l n H. exact (feeds_lines show H l n). Qed.
Print Assumptions C127_height.
Theorem C127_message : forall (show : pexp -> bytes) (ls : list line), (forall e, feeds (show e) = 0) -> flat_names (LA ls) ->
  feeds (unknown_line show ls) = height (LA ls).
Proof. exact feeds_message. Qed.
Print Assumptions C127_message.
Theorem C127_shown : forall (show : pexp -> bytes) (s : bytes) (ls : list line), shown_whole s -> s ∈ rule_texts (LA ls) -> within s (unknown_line show ls).
Proof. exact message_shown. Qed.
Print Assumptions C127_shown.
Definition few : list line :=
  [LO "" (LS (s2b "Sum")) no_opts; LI "Sum" (LA [LO "" (LO "" (LS (s2b "l:Sum '+' r:Num")) no_opts) no_opts; LO "" (LS (s2b "Num")) no_opts]) no_opts].
Example C127_nonvacuous : flat_names (LA few) /\ shown_whole (s2b "l:Sum '+' r:Num") /\ s2b "l:Sum '+' r:Num" ∈ rule_texts (LA few) /\
  height (LA few) = 6 /\ feeds (unknown_line (fun _ => []) few) = 6.
Proof.
  split; [by vm_compute|]. split; [split; [done|]; eexists _, _; split; [vm_compute; reflexivity|done]|]. split; [|by vm_compute].
  right. left.
Qed.

(** C128: a text that starts with the letter o. *)
Theorem C128_verbatim_refuted : exists (s s' : bytes) (o : lopts), s <> s' /\ feeds s = 0 /\ (forall show n, string_indent show n (LO "Number" (LS s) o) = string_indent show n (LO "Number" (LS s') o)) /\
  forall show, string_indent show 0 (LO "Number" (LS s) o) = s2b "o Number o ne | two".
Proof. exists (s2b "one | two"), (s2b "o ne | two"), no_opts. split; [done|]. split; [done|]. split; [done|]. intros show. vm_compute. reflexivity. Qed.
Print Assumptions C128_verbatim_refuted.
(** It is the whole text otherwise. *)
Theorem C128_verbatim_partial : forall (show : pexp -> bytes) (s : bytes) (l : line) (n : nat), shown_whole s -> s ∈ rule_texts l -> within s (string_indent show n l).
Proof. intros show s l n. exact (text_shown show s l n). Qed.
Print Assumptions C128_verbatim_partial.
Example C128_nonvacuous : shown_whole (s2b "two | one") /\ s2b "two | one" ∈ rule_texts (LO "Number" (LS (s2b "two | one")) no_opts).
Proof. split; [split; [done|]; eexists _, _; split; [vm_compute; reflexivity|done]|]. left. Qed.
