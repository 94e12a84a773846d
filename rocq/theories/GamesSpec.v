(** What the videogamedb example answers: independent of the grammar. *)
From Verif Require Import Base Helpers CalcSpec ColorSpec Games.

Inductive ask := ById (z : Z) | ByTitle (t : bytes) | ByYear (z : Z).
(** [asks s a]: text [s] asks for [a]. *)
Inductive asks : bytes -> ask -> Prop :=
| ask_id n : a_number n -> asks n (ById (decimal n))
| ask_title t : Forall (fun b => b <> 34%N) t -> asks (s2b """" ++ t ++ s2b """") (ByTitle t)
| ask_year w c a b : blank w -> c = s2b "19" \/ c = s2b "20" \/ c = s2b "21" -> is_digit a -> is_digit b ->
    asks (s2b "bestIn:" ++ w ++ c ++ [a; b]) (ByYear (decimal (c ++ [a; b]))).
Definition meets (a : ask) (g : game) : Prop :=
  match a with ById z => gm_id g = z | ByTitle t => gm_title g = t | ByYear z => gm_year g = z end.
(** The games of the example, written out again: id, title, year, developer, score. *)
Definition listed : list game :=
  [ Game 1 (s2b "Civilization") 1991 (s2b "Sid Meier") 95;
    Game 3 (s2b "Rogue") 1980 (s2b "Michael Toy, Glenn Wichman, Ken Arnold") 80;
    Game 4 (s2b "Doom") 1993 (s2b "John Carmack") 90;
    Game 5 (s2b "Tetris") 1984 (s2b "Alexey Pajitnov") 90 ].
Definition none : game := Game 0 (s2b "Not found") (-1) [] 0.
(** The first game of the list that meets it; the game that stands for none. *)
Definition answers (a : ask) (g : game) : Prop :=
  (exists l r, listed = l ++ g :: r /\ meets a g /\ Forall (fun g' => ~ meets a g') l) \/
  (Forall (fun g' => ~ meets a g') listed /\ g = none).
Definition fits (a : ask) : Prop := match a with ById z => (z < 2 ^ 63)%Z | _ => True end.
(** A number at the start of a text fits in Go's [int]. *)
Definition starts_small (s : bytes) : Prop := forall n r, s = n ++ r -> a_number n -> small n.
