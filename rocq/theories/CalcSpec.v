(** What the calculator should do: arithmetic expressions, their values and
    their texts.  Nothing here mentions grammars or parsers. *)
From Verif Require Import Base.

Inductive arith := APlus | AMinus | ATimes | AOver.
Inductive aexp :=
| Num (z : Z)
| Bin (o : arith) (a b : aexp).

(** 64-bit numbers: sums, differences and products wrap around, quotients are
    truncated; there is no quotient by zero and no literal that does not fit. *)
Definition fits (z : Z) : bool := ((- 2 ^ 63 <=? z) && (z <? 2 ^ 63))%Z%bool.
Definition wrapped (z : Z) : Z := ((z + 2 ^ 63) mod 2 ^ 64 - 2 ^ 63)%Z.
Definition compute (o : arith) (a b : Z) : option Z :=
  match o with
  | APlus => Some (wrapped (a + b))
  | AMinus => Some (wrapped (a - b))
  | ATimes => Some (wrapped (a * b))
  | AOver => if (b =? 0)%Z then None else Some (wrapped (a ÷ b))
  end.
Fixpoint value (e : aexp) : option Z :=
  match e with
  | Num z => if fits z then Some z else None
  | Bin o a b => match value a, value b with Some x, Some y => compute o x y | _, _ => None end
  end.

(** ** Texts *)
Definition blank (s : bytes) : Prop := Forall (fun b => b = 32%N \/ b = 9%N) s.
Definition sign (o : arith) : N := match o with APlus => 43 | AMinus => 45 | ATimes => 42 | AOver => 47 end.
(** An optional minus and digits, the most significant first. *)
Definition is_digit (b : N) : Prop := (48 <= b <= 57)%N.
Definition decimal (ds : bytes) : Z := fold_left (fun n b => 10 * n + (Z.of_N b - 48))%Z ds 0%Z.
Inductive numeral : bytes -> Z -> Prop :=
| numeral_pos ds : ds <> [] -> Forall is_digit ds -> numeral ds (decimal ds)
| numeral_neg ds : ds <> [] -> Forall is_digit ds -> numeral (45%N :: ds) (- decimal ds).

(** Operators of level 2 are weaker than those of level 1; both associate to the
    left.  Level 0: numbers and parentheses. *)
Definition level (o : arith) : nat := match o with APlus | AMinus => 2 | ATimes | AOver => 1 end.
(** [prints l d e s]: [s] is a text of [e] at level [l], with as many blanks and
    parentheses as one likes, the parentheses nested [d] deep at most. *)
Inductive prints : nat -> nat -> aexp -> bytes -> Prop :=
| pr_num d z s : numeral s z -> prints 0 d (Num z) s
| pr_paren d e s w w' : blank w -> blank w' -> prints 2 d e s ->
    prints 0 (S d) e ([40%N] ++ w ++ s ++ w' ++ [41%N])
| pr_up l d e s : prints l d e s -> prints (S l) d e s
| pr_bin l d o a b s w w' s' : level o = S l -> blank w -> blank w' ->
    prints (S l) d a s -> prints l d b s' -> prints (S l) d (Bin o a b) (s ++ w ++ [sign o] ++ w' ++ s').
