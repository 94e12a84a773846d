(** Model of helpers/stripansi.go: taking the colour marks out of a text.  No
    proofs here.

    The regular expression (stripansi.go:11) is spelled out for Go's matching:
    leftmost, and of the ways to match at a place the first one, every [*] and [?]
    preferring more.  A place is tried when its rune is U+001B or U+009B, so going
    by bytes is the same as going by runes. *)
From Verif Require Import Base.

Definition within (lo hi b : N) : bool := ((lo <=? b) && (b <=? hi))%N%bool.
Definition is_num (b : N) : bool := within 48 57 b.
(** The classes of the expression: brackets and the like; letters and digits; the
    last byte, [\dA-PRZcf-ntqry=><~]. *)
Definition is_open (b : N) : bool := existsb (N.eqb b) [91; 93; 40; 41; 35; 59; 63]%N.
Definition is_word (b : N) : bool := (within 97 122 b || within 65 90 b || is_num b)%bool.
Definition is_final (b : N) : bool :=
  (is_num b || within 65 80 b || within 102 110 b || existsb (N.eqb b) [82; 90; 99; 116; 113; 114; 121; 61; 62; 60; 126]%N)%bool.

(** How many bytes, [n] at most, are in a class. *)
Fixpoint run_of (p : N -> bool) (n : nat) (s : bytes) : nat :=
  match n, s with
  | S n', b :: r => if p b then S (run_of p n' r) else 0
  | _, _ => 0
  end.
(** n, n-1, …, 0. *)
Fixpoint down (n : nat) : list nat := match n with O => [0] | S n' => n :: down n' end.
(** Words with semicolons between them, then a bell (the words cannot contain it). *)
Definition bell_end (s : bytes) : option nat :=
  let k := run_of (fun b => (is_word b || (b =? 59)%N)%bool) (length s) s in
  match drop k s with
  | 7%N :: _ => Some (S k)
  | _ => None
  end.
(** The ends of any number of [;\d{0,4}], in the order they are tried; [n] bounds
    the rounds. *)
Fixpoint more_ends (n : nat) (s : bytes) : list nat :=
  match n, s with
  | S n', 59%N :: r => flat_map (fun k => map (fun e => S (k + e)) (more_ends n' (drop k r))) (down (run_of is_num 4 r)) ++ [0]
  | _, _ => [0]
  end.
(** The ends of [\d{1,4}] with any number of [;\d{0,4}] behind it, or nothing. *)
Definition code_ends (s : bytes) : list nat :=
  flat_map (fun k => match k with O => [] | _ => map (fun e => k + e) (more_ends (length s) (drop k s)) end) (down (run_of is_num 4 s)) ++ [0].
Definition code_end (s : bytes) : option nat :=
  match List.find (fun e => match drop e s with b :: _ => is_final b | [] => false end) (code_ends s) with
  | Some e => Some (S e)
  | None => None
  end.
Definition tail_end (s : bytes) : option nat := match bell_end s with Some n => Some n | None => code_end s end.
Fixpoint first_some {A B} (f : A -> option B) (l : list A) : option B :=
  match l with
  | [] => None
  | a :: l' => match f a with Some b => Some b | None => first_some f l' end
  end.
Definition after_open (s : bytes) : option nat :=
  first_some (fun k => match tail_end (drop k s) with Some n => Some (k + n) | None => None end) (down (run_of is_open (length s) s)).
(** The length of the match that begins here, less one. *)
Definition mark_end (s : bytes) : option nat :=
  match s with
  | 27%N :: r => after_open r
  | 194%N :: 155%N :: r => match after_open r with Some n => Some (S n) | None => None end
  | _ => None
  end.
(** stripansi.go:15-17: ReplaceAllString with nothing; [skip] bytes of a match are
    still to be left out. *)
Fixpoint strip_from (skip : nat) (s : bytes) : bytes :=
  match s with
  | [] => []
  | b :: r =>
      match skip with
      | S k => strip_from k r
      | O => match mark_end s with Some n => strip_from n r | None => b :: strip_from 0 r end
      end
  end.
Definition strip_ansi : bytes -> bytes := strip_from 0.
