(** What the reader of the lisp should do: expressions and their texts.  Nothing
    here mentions grammars or parsers. *)
From Verif Require Import Base Native CalcSpec.

(** Integers, strings, names and operators, lists. *)
Inductive sexp :=
| SNum (z : Z)
| SStr (s : bytes)
| SOp (s : bytes)
| SList (l : list sexp).

Definition space (w : bytes) : Prop := Forall (fun b => b = 32 \/ b = 9 \/ b = 10)%N w.
Definition letter (b : N) : Prop := (97 <= b <= 122 \/ 65 <= b <= 90 \/ b = 46 \/ b = 95)%N.
Definition letter2 (b : N) : Prop := letter b \/ is_digit b \/ b = 63%N.
Definition symbols : list bytes := s2b <$> ["+"; "-"; "*"; "/"; "%"; ">="; "<="; "!="; "=="; "<"; ">"; "="]%string.

(** [says e s]: [s] is a text of [e]; [says_all l s]: [s] is a text of the
    elements [l], which are kept apart by space. *)
Inductive says : sexp -> bytes -> Prop :=
| says_num z s : numeral s z -> says (SNum z) s
| says_str s : 34%N ∉ s -> says (SStr s) ([34%N] ++ s ++ [34%N])
| says_word b s : letter b -> Forall letter2 s -> says (SOp (b :: s)) (b :: s)
| says_symbol s : s ∈ symbols -> says (SOp s) s
| says_list l w s w' : space w -> space w' -> says_all l s -> says (SList l) ([40%N] ++ w ++ s ++ w' ++ [41%N])
with says_all : list sexp -> bytes -> Prop :=
| says_nil : says_all [] []
| says_one e s : says e s -> says_all [e] s
| says_more e s w e' l s' : says e s -> w <> [] -> space w -> says_all (e' :: l) s' -> says_all (e :: e' :: l) (s ++ w ++ s').
(** A whole text: space around. *)
Definition says_text (e : sexp) (text : bytes) : Prop :=
  exists w s w', text = w ++ s ++ w' /\ space w /\ space w' /\ says e s.

(** How deep the lists are nested, and whether the numbers fit 64 bits. *)
Fixpoint nest (e : sexp) : nat :=
  match e with
  | SList l => S (fold_right (fun x n => max (nest x) n) 0 l)
  | _ => 0
  end.
Fixpoint all_fit (e : sexp) : bool :=
  match e with
  | SNum z => fits z
  | SList l => forallb all_fit l
  | _ => true
  end.

(** The value of an expression: kind and contents. *)
Fixpoint sexp_ast (e : sexp) : ast :=
  match e with
  | SNum z => AUser 1 [AInt z]
  | SStr s => AUser 0 [AStr s]
  | SOp s => AUser 3 [AStr s]
  | SList l => AUser 2 (sexp_ast <$> l)
  end.

(** The expressions that have a text: strings without quotes, operators that are
    names or symbols. *)
Definition a_name (s : bytes) : Prop := s ∈ symbols \/ exists b r, s = b :: r /\ letter b /\ Forall letter2 r.
Inductive sayable : sexp -> Prop :=
| sayable_num z : sayable (SNum z)
| sayable_str s : 34%N ∉ s -> sayable (SStr s)
| sayable_op s : a_name s -> sayable (SOp s)
| sayable_list l : Forall sayable l -> sayable (SList l).

(** The opening parentheses of a text. *)
Definition opens (s : bytes) : nat := length (List.filter (N.eqb 40) s).
(** No number in the text is too large for 64 bits. *)
Definition numbers_fit (s : bytes) : Prop := forall a n b z, s = a ++ n ++ b -> numeral n z -> fits z = true.
