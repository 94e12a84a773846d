(** What the greeting grammars accept: independent of the grammars. *)
From Verif Require Import Base Helpers.

Definition a_letter (b : N) : Prop := (97 <= b <= 122 \/ 65 <= b <= 90)%N.
(** hi, [k] spaces and the name [n]. *)
Definition greets (s : bytes) (k : nat) (n : bytes) : Prop := s = s2b "hi" ++ repeat 32%N k ++ n /\ Forall a_letter n.
