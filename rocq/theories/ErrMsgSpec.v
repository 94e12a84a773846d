(** What the text of a parse error says, colours left out.  No proofs here. *)
From Verif Require Import Base Utf8Spec StreamSpec Native.

(** Decimal notation. *)
Definition num_text (n : nat) : bytes := itoa (Z.of_nat n).
(** The last [n] bytes. *)
Definition ending (n : nat) (s : bytes) : bytes := drop (length s - n) s.
(** The part of [s] from [a] to [b]. *)
Definition part (s : bytes) (a b : nat) : bytes := take (b - a) (drop a s).

(** A place in a text: offset, length, what is around it. *)
Definition place_text (text : bytes) (p : nat) : bytes :=
  s2b "Code at offset " ++ num_text p ++ s2b "/" ++ num_text (length text) ++ s2b ": '" ++
  ending 20 (take p text) ++ s2b "|" ++ take 40 (drop p text) ++ s2b "'".
(** The line of an offset, counted from 0. *)
Definition line_of (text : bytes) (p : nat) : nat := newlines (take p text).
(** The parse stopped at [p]; the furthest match began at [succ], the furthest
    attempt at [att]. *)
Definition message_text (text : bytes) (p succ att col : nat) : bytes :=
  s2b "Error parsing at char:" ++ num_text succ ++ s2b "=(line:" ++ num_text (line_of text succ) ++ s2b ",col:" ++ num_text col ++ s2b ")." ++
  [10%N] ++ place_text text p ++ [10%N] ++ s2b "Details:" ++ [10%N] ++ s2b "OK/Parsing/Suspect/Unknown" ++ [10; 10]%N ++
  lines_between text (line_of text p - 2) (line_of text p) ++ part text p succ ++ part text succ att ++ s2b "/" ++
  lines_between text (line_of text att) (Nat.min (newlines text) (line_of text att + 2)) ++ [10%N].

(** ASCII without bell and escape. *)
Definition tame (s : bytes) : Prop := Forall (fun b => b < 128 /\ b <> 7 /\ b <> 27)%N s.
