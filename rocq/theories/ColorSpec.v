(** What the color example reads: independent of the grammar. *)
From Verif Require Import Base Helpers CalcSpec.

(** Decimal numbers without leading zeros. *)
Definition is_digit (b : N) : Prop := (48 <= b <= 57)%N.
Definition a_number (n : bytes) : Prop := exists b r, n = b :: r /\ (49 <= b <= 57)%N /\ Forall is_digit r.
Definition decimal (n : bytes) : Z := fold_left (fun a b => a * 10 + (Z.of_N b - 48))%Z n 0%Z.
(** It fits in Go's [int]. *)
Definition small (n : bytes) : Prop := (decimal n < 2 ^ 63)%Z.
(** Between two components: at least one blank or comma. *)
Definition commas (w : bytes) : Prop := w <> [] /\ Forall (fun b => b = 32%N \/ b = 44%N) w.

(** [color_of s ns c]: text [s], with the numbers [ns], is color [c]. *)
Inductive color_of : bytes -> list bytes -> Z * Z * Z -> Prop :=
| col_red : color_of (s2b "red") [] (255, 0, 0)%Z
| col_green : color_of (s2b "green") [] (0, 255, 0)%Z
| col_blue : color_of (s2b "blue") [] (0, 0, 255)%Z
| col_rgb w w1 n1 c1 n2 c2 n3 w2 : blank w -> blank w1 -> a_number n1 -> commas c1 -> a_number n2 -> commas c2 -> a_number n3 -> blank w2 ->
    color_of (s2b "rgb" ++ w ++ s2b "(" ++ w1 ++ n1 ++ c1 ++ n2 ++ c2 ++ n3 ++ w2 ++ s2b ")") [n1; n2; n3] (decimal n1, decimal n2, decimal n3)
| col_hsl w w1 n1 w2 w3 n2 w4 w5 n3 w6 : blank w -> blank w1 -> a_number n1 -> blank w2 -> blank w3 -> a_number n2 -> blank w4 -> blank w5 ->
    a_number n3 -> blank w6 ->
    color_of (s2b "hsl" ++ w ++ s2b "(" ++ w1 ++ n1 ++ w2 ++ s2b "," ++ w3 ++ n2 ++ s2b "%" ++ w4 ++ s2b "," ++ w5 ++ n3 ++ s2b "%" ++ w6 ++ s2b ")")
      [n1; n2; n3] (12, 23, 34)%Z.
(** Every number in a text fits. *)
Definition numbers_small (s : bytes) : Prop := forall a n b, s = a ++ n ++ b -> a_number n -> small n.
