(** Repetitions of a literal joined by a literal, README.md:135-145. *)
From Verif Require Import Base Helpers Native Engine Build.

(** [ 'a'*'b' ] with [mn] = -1, [ 'a'+'b' ] with [mn] = 1: parser_pattern.go. *)
Definition joined_by (a b : bytes) (mn : Z) : pexp := PExp "" (KPat (PExp "" (KStr a)) (Some (PExp "" (KStr b))) mn (-1)).
(** [k + 1] times [a] with [b] between. *)
Definition run_of (a b : bytes) (k : nat) : bytes := a ++ mjoin (replicate k (b ++ a)).
