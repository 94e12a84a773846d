(** The questions to the README's first grammars about games. *)
From Verif Require Import Base Helpers CalcSpec ColorSpec Games GamesSpec.

(** By id or title. *)
Definition plain (a : ask) : Prop := match a with ByYear _ => False | _ => True end.
(** What example1 takes a text for: only the first digit of a number. *)
Inductive asks_first : bytes -> ask -> Prop :=
| first_id b w : (49 <= b <= 57)%N -> Forall is_digit w -> asks_first (b :: w) (ById (Z.of_N b - 48))
| first_title t : Forall (fun b => b <> 34%N) t -> asks_first (s2b """" ++ t ++ s2b """") (ByTitle t).
