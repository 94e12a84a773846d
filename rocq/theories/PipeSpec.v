(** Vertical bars before the first and behind the last alternative. *)
From Verif Require Import Base TextSpec.
(** Bars, with space before each of them. *)
Inductive bars : bytes -> Prop :=
| bars_none : bars []
| bars_one w s : gap w -> bars s -> bars (w ++ [124] ++ s)%N.
