(** The text of a lisp expression without numbers, with single spaces.  No proofs
    here. *)
From Verif Require Import Base LispReadSpec AnsiSpec.

(** Strings without quotes that are calm, operators that are names, no numbers. *)
Inductive wordy : sexp -> Prop :=
| wordy_str s : Forall (fun b => b < 256)%N s -> 34%N ∉ s -> calm s -> wordy (SStr s)
| wordy_op s : a_name s -> wordy (SOp s)
| wordy_list l : Forall wordy l -> wordy (SList l).
