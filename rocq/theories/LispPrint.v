(** Model of how the lisp example prints a value: expr.go:82-98, main.go:22-25,
    colors.go.  No proofs here.

    How a float64 is printed with [%f] is a parameter. *)
From Verif Require Import Base Native Print Lisp.
Local Open Scope list_scope.

(** colors.go:22, 23. *)
Definition bold_magenta : bytes -> bytes := coloured "[1;35m".
Definition bold_cyan : bytes -> bytes := coloured "[1;36m".
(** strings.Join(a, " "). *)
Fixpoint join_space (l : list bytes) : bytes :=
  match l with
  | [] => []
  | [s] => s
  | s :: l' => s ++ [32%N] ++ join_space l'
  end.
Section Show.
Context {A : arith}.
Variable fmt : num A -> bytes.
(** expr.go:82-98; main.go:23 (colorParen) and 25 (quoted). *)
Fixpoint expr_string (e : lexp A) : bytes :=
  match e with
  | LStr s => red [34%N] ++ blue (s2b s) ++ red [34%N]
  | LNum x => bold_magenta (fmt x)
  | LOp s => bold_cyan (s2b s)
  | LList l => bold_cyan [40%N] ++ join_space (map expr_string l) ++ bold_cyan [41%N]
  end.
End Show.
(** [%f] of an integer and of NaN. *)
Definition fmt_exact (x : num exact_arith) : bytes :=
  match x with
  | Some z => itoa z ++ s2b ".000000"
  | None => s2b "NaN"
  end.
