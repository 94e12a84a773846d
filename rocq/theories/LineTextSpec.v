(** The text of lines in errors: a specification. *)
From Verif Require Import Base Helpers Native Engine Build.

(** Line feeds in a text. *)
Definition feeds (s : bytes) : nat := length (List.filter (N.eqb 10) s).
(** The lines a rank takes on the screen: the one with the bracket, and each of
    its lines. *)
Fixpoint height (l : line) : nat :=
  match l with LS _ | LC _ _ => 0 | LA ls => 1 + list_sum (map (fun x => 1 + height x) ls) | LO _ c _ | LI _ c _ => height c end.
(** Names in one line. *)
Fixpoint flat_names (l : line) : Prop :=
  match l with
  | LS _ | LC _ _ => True
  | LA ls => fold_right (fun x P => flat_names x /\ P) True ls
  | LO nm c _ | LI nm c _ => feeds (s2b nm) = 0 /\ flat_names c
  end.
(** The texts of the rules. *)
Fixpoint rule_texts (l : line) : list bytes :=
  match l with LS s => [s] | LC _ _ => [] | LA ls => concat (map rule_texts ls) | LO _ c _ | LI _ c _ => rule_texts c end.
(** A text is part of another. *)
Definition within (s t : bytes) : Prop := exists a z, t = a ++ s ++ z.
(** In one line, not starting with a blank or the letter o. *)
Definition shown_whole (s : bytes) : Prop := feeds s = 0 /\ exists c s', s = c :: s' /\ c <> 32%N /\ c <> 111%N.
