(** Texts that are no expressions. *)
From Verif Require Import Base CalcSpec.

(** Opening parentheses. *)
Definition opens (s : bytes) : nat := length (filter (fun b => b = 40%N) s).
(** The text of an expression, blanks around. *)
Definition calc_text (e : aexp) (text : bytes) : Prop :=
  exists d w s w', text = w ++ s ++ w' /\ blank w /\ blank w' /\ prints 2 d e s.
(** Every expression written somewhere in the text has a value. *)
Definition valued (text : bytes) : Prop :=
  forall e a u b d, text = a ++ u ++ b -> prints 2 d e u -> exists z, value e = Some z.
