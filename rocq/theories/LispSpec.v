(** What the theorems on the lisp example say, without fuel.  No proofs here. *)
From Verif Require Import Base Lisp.
From Coq Require Import String.
Open Scope string_scope.

Section Spec.
Context {A : arith}.

(** Eval returns [v], leaving the machine as [m']. *)
Definition evaluates (m : machine A) (e v : lexp A) (m' : machine A) : Prop := exists f, eval f m e = LOk v m'.
(** Eval panics. *)
Definition panics (m : machine A) (e : lexp A) : Prop := exists f, eval f m e = LPanic.
(** Eval never returns. *)
Definition hangs (m : machine A) (e : lexp A) : Prop := forall f, eval f m e = LFuel.

(** [op] still is what it is in a new machine. *)
Definition stock (m : machine A) (op : string) : Prop := resolve m op = resolve new_machine op /\ resolve m op <> None.

(** The expression stands for a number: it is one, or a list whose value
    stands for one. *)
Inductive counts : machine A -> lexp A -> num A -> machine A -> Prop :=
| counts_num m z : counts m (LNum z) z m
| counts_list m l e m1 z m2 : evaluates m (LList l) e m1 -> counts m1 e z m2 -> counts m (LList l) z m2.
(** Several, from left to right. *)
Inductive all_count : machine A -> list (lexp A) -> list (num A) -> machine A -> Prop :=
| all_nil m : all_count m [] [] m
| all_cons m e z m1 l zs m2 : counts m e z m1 -> all_count m1 l zs m2 -> all_count m (e :: l) (z :: zs) m2.

(** Each number is in relation with the next. *)
Definition chain (r : num A -> num A -> bool) (zs : list (num A)) : Prop :=
  forall i x y, zs !! i = Some x -> zs !! S i = Some y -> r x y = true.
(** The comparisons, as a user writes them. *)
Definition comparison (op : string) (r : num A -> num A -> bool) : Prop :=
  (op, r) ∈ [("<", n_lt A); ("lt", n_lt A); ("<=", n_le A); ("le", n_le A); (">", n_gt A); ("gt", n_gt A); (">=", n_ge A); ("ge", n_ge A);
             ("==", n_eq A); ("eq", n_eq A); ("eq?", n_eq A); ("!=", n_ne A); ("neq", n_ne A); ("neq?", n_ne A)].
(** Functions that read their first argument as a number before anything else. *)
Definition reads_number (op : string) : Prop := op ∈ ["+"; "add"; "*"; "mul"; "and"; "or"].

(** The action of the first branch of cond whose condition holds, and the machine
    when it is reached. *)
Inductive picks : machine A -> list (lexp A) -> option (lexp A) -> machine A -> Prop :=
| picks_none m : picks m [] None m
| picks_else m a l : picks m (LList [LOp "else"; a] :: l) (Some a) m
| picks_yes m c a l z m1 : counts m c z m1 -> n_nonzero A z = true -> picks m (LList [c; a] :: l) (Some a) m1
| picks_no m c a l z m1 r m2 : counts m c z m1 -> n_nonzero A z = false -> picks m1 l r m2 -> picks m (LList [c; a] :: l) r m2.

(** A list that Eval returns as it is: empty, or not starting with an operator. *)
Definition data (l : list (lexp A)) : Prop := forall s, head l <> Some (LOp s).

(** [e'] is [e] with every operator [names!!i] replaced by [args!!i], at once. *)
Inductive replaced (names : list string) (args : list (lexp A)) : lexp A -> lexp A -> Prop :=
| rep_num z : replaced names args (LNum z) (LNum z)
| rep_str s : replaced names args (LStr s) (LStr s)
| rep_hit i s a : names !! i = Some s -> args !! i = Some a -> replaced names args (LOp s) a
| rep_miss s : s ∉ names -> replaced names args (LOp s) (LOp s)
| rep_list l l' : Forall2 (replaced names args) l l' -> replaced names args (LList l) (LList l').
End Spec.

(** Arithmetic expressions, what they are in lisp, and their value. *)
Inductive term := TInt (z : Z) | TAdd (l : list term) | TMul (l : list term) | TSub (a b : term) (l : list term).
Fixpoint term_lisp (t : term) : lexp exact_arith :=
  match t with
  | TInt z => @LNum exact_arith (Some z)
  | TAdd l => LList (LOp "+" :: map term_lisp l)
  | TMul l => LList (LOp "*" :: map term_lisp l)
  | TSub a b l => LList (LOp "-" :: term_lisp a :: term_lisp b :: map term_lisp l)
  end.
Definition sum (l : list Z) : Z := foldr Z.add 0%Z l.
Definition product (l : list Z) : Z := foldr Z.mul 1%Z l.
Fixpoint term_value (t : term) : Z :=
  match t with
  | TInt z => z
  | TAdd l => sum (map term_value l)
  | TMul l => product (map term_value l)
  | TSub a b l => (term_value a - term_value b - sum (map term_value l))%Z
  end.

(** (define (fact n) (if (<= n 0) 1 ( * n (fact (- n 1))))), main_test.go:94. *)
Definition define_fact : lexp exact_arith :=
  LList [LOp "define"; LList [LOp "fact"; LOp "n"];
    LList [LOp "if"; LList [LOp "<="; LOp "n"; @LNum exact_arith (Some 0%Z)]; @LNum exact_arith (Some 1%Z);
      LList [LOp "*"; LOp "n"; LList [LOp "fact"; LList [LOp "-"; LOp "n"; @LNum exact_arith (Some 1%Z)]]]]].
Fixpoint factorial (n : nat) : Z := match n with O => 1%Z | S n' => (Z.of_nat n * factorial n')%Z end.
