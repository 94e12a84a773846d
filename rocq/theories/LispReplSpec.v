(** What a line typed at the lisp prompt means.  No proofs here. *)
From Verif Require Import Base Native Lisp LispSpec LispReadSpec LispRepl.
Local Open Scope list_scope.

(** [typed l line]: the line is a list in parentheses, or, if no parenthesis
    opens it, the elements of the list without the parentheses. *)
Definition blanks (w : bytes) : Prop := Forall (fun b => b = 32%N) w.
Definition opened (line : bytes) : Prop := exists w rest, line = w ++ [40%N] ++ rest /\ blanks w.
Inductive typed : list sexp -> bytes -> Prop :=
| typed_list l w s w' : blanks w -> space w' -> says (SList l) s -> typed l (w ++ s ++ w')
| typed_bare l w s w' : space w -> space w' -> says_all l s -> ~ opened (w ++ s ++ w') -> typed l (w ++ s ++ w').

(** The expression that is evaluated. *)
Section Of.
Context {A : arith}.
Variable of_int : Z -> num A.
Fixpoint lexp_of (e : sexp) : lexp A :=
  match e with
  | SNum z => LNum (of_int z)
  | SStr s => LStr (b2s s)
  | SOp s => LOp (b2s s)
  | SList l => LList (lexp_of <$> l)
  end.
(** A session: lines and what each gives, the machine going from one to the
    next. *)
Inductive replies : machine A -> list bytes -> list (reply A) -> Prop :=
| replies_nil m : replies m [] []
| replies_value m line l v m' lines rs : typed l line -> evaluates m (LList (lexp_of <$> l)) v m' -> replies m' lines rs ->
    replies m (line :: lines) (REval (LOk v m') :: rs)
| replies_wrong m line lines rs : (forall l, ~ typed l line) -> replies m lines rs -> replies m (line :: lines) (RParseError :: rs)
| replies_panic m line l lines : typed l line -> panics m (LList (lexp_of <$> l)) -> replies m (line :: lines) [REval LPanic].
End Of.
(** A line the parser and the machine can hold. *)
Definition modest (line : bytes) : Prop := 10%N ∉ line /\ opens line <= 509 /\ numbers_fit line.
(** The reads of a terminal: the newline of a line ends a read. *)
Inductive reads_of : list bytes -> list bytes -> Prop :=
| reads_done : reads_of [] []
| reads_line line cs lines reads : 10%N ∉ line -> concat cs = line ++ [10%N] -> reads_of lines reads -> (forall c, c ∈ cs -> c <> []) ->
    reads_of (line :: lines) (cs ++ reads).
