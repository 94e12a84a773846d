(** Model of the evaluator of examples/lisp-repl: expr.go, list.go, machine.go,
    machine_internal.go, machine_primitives.go.  No proofs here.

    What is simplified: float64 is a parameter, the record [arith] (theorems hold
    for every arithmetic unless they name one); Go maps are association lists;
    attributes and printing are left out; the message of a panic is left out, and
    so is the machine as a panic leaves it.  The maps of the Go machine are shared
    by pointer (machine.go:12-13), so evaluation returns the machine after it.
    An evaluation that never ends (in Go: the stack overflows and the process
    dies) is out of fuel for every fuel. *)
From Verif Require Import Base.
From Coq Require Import String.
Open Scope string_scope.

(** What the code does with a float64: the constants 0 and 1 (expr.go:36-37),
    [!= 0.] (machine_internal.go:25) and machine_primitives.go:39-82. *)
Record arith := Arith {
  num : Type;
  n_zero : num; n_one : num;
  n_nonzero : num -> bool;
  n_add : num -> num -> num; n_sub : num -> num -> num; n_mul : num -> num -> num; n_mod : num -> num -> num;
  n_eq : num -> num -> bool; n_ne : num -> num -> bool; n_lt : num -> num -> bool; n_le : num -> num -> bool;
  n_gt : num -> num -> bool; n_ge : num -> num -> bool }.

(** Integers without bounds, [None] being NaN, which math.Mod returns for a zero
    divisor.  float64 agrees as long as the numbers stay below 2^53. *)
Definition on2 {B} (f : Z -> Z -> B) (d : B) (x y : option Z) : B := match x, y with Some a, Some b => f a b | _, _ => d end.
Definition exact_arith : arith := {|
  num := option Z; n_zero := Some 0%Z; n_one := Some 1%Z;
  n_nonzero x := match x with Some z => negb (z =? 0)%Z | None => true end;
  n_add := on2 (fun a b => Some (a + b)%Z) None; n_sub := on2 (fun a b => Some (a - b)%Z) None;
  n_mul := on2 (fun a b => Some (a * b)%Z) None;
  n_mod := on2 (fun a b => if (b =? 0)%Z then None else Some (Z.rem a b)) None;
  n_eq := on2 Z.eqb false; n_ne := on2 (fun a b => negb (a =? b)%Z) true; n_lt := on2 Z.ltb false; n_le := on2 Z.leb false;
  n_gt := on2 Z.gtb false; n_ge := on2 Z.geb false |}.

(** expr.go:12-30, list.go:5-8. *)
Inductive lexp {A : arith} :=
| LNum (z : num A)
| LStr (s : string)
| LOp (s : string)
| LList (l : list lexp).
Arguments lexp : clear implicits.

(** The functions of machine.go:22-43, and those made by define
    (machine_primitives.go:224-235): names of the arguments, and the body. *)
Inductive prim {A : arith} :=
| PAdd | PSub | PMul | PCar | PCdr | PAlias | PDefine | PLt | PLe | PGt | PGe | PEq | PNeq | PAnd | POr | PNot | PIf | PCond | PIsList | PRem
| PUser (args : list string) (body : lexp A).
Arguments prim : clear implicits.
(** machine.go:11-14. *)
Record machine {A : arith} := Machine { m_funcs : list (string * prim A); m_aliases : list (string * string) }.
Arguments machine : clear implicits.
Arguments Machine {A}. Arguments m_funcs {A}. Arguments m_aliases {A}.

(** Reading and deleting in a Go map; writing is consing. *)
Fixpoint assoc {B} (l : list (string * B)) (k : string) : option B :=
  match l with
  | [] => None
  | (k', v) :: l' => if String.eqb k k' then Some v else assoc l' k
  end.
Definition remove_key {B} (k : string) (l : list (string * B)) : list (string * B) := List.filter (fun p => negb (String.eqb k (fst p))) l.

(** machine.go:17-58. *)
Definition new_machine {A} : machine A := Machine
  [("add", PAdd); ("sub", PSub); ("mul", PMul); ("car", PCar); ("cdr", PCdr); ("alias", PAlias); ("define", PDefine); ("lt", PLt); ("le", PLe);
   ("gt", PGt); ("ge", PGe); ("eq", PEq); ("neq", PNeq); ("and", PAnd); ("or", POr); ("not", PNot); ("if", PIf); ("cond", PCond);
   ("list?", PIsList); ("%", PRem)]
  [("+", "add"); ("-", "sub"); ("*", "mul"); ("<", "lt"); (">", "gt"); (">=", "ge"); ("<=", "le"); ("==", "eq"); ("eq?", "eq");
   ("neq?", "neq"); ("!=", "neq")].

(** A value and the machine after it, a panic, or not enough fuel. *)
Inductive lres {A : arith} {B : Type} := LOk (b : B) (m : machine A) | LPanic | LFuel.
Arguments lres : clear implicits.
Arguments LOk {A B}. Arguments LPanic {A B}. Arguments LFuel {A B}.
Definition lbind {A B C} (x : lres A B) (k : B -> machine A -> lres A C) : lres A C :=
  match x with LOk b m => k b m | LPanic => LPanic | LFuel => LFuel end.

Section Eval.
Context {A : arith}.
Notation lexp := (lexp A). Notation machine := (machine A). Notation lres := (lres A).

(** expr.go:32, 36-44. *)
Definition empty : lexp := LList [].
Definition lbool (b : bool) : lexp := LNum (if b then n_one A else n_zero A).

(** machine_primitives.go:239-258. *)
Fixpoint subst_args (args : list (string * lexp)) (e : lexp) : lexp :=
  match e with
  | LNum _ | LStr _ => e
  | LOp s => match assoc args s with Some v => v | None => e end
  | LList l => LList (map (subst_args args) l)
  end.
(** expr.go:60-71: MustStringOrOperator; [None]: a panic. *)
Definition must_name (e : lexp) : option string := match e with LStr s => Some s | LOp s => Some s | _ => None end.
(** machine_primitives.go:216-219. *)
Fixpoint must_names (l : list lexp) : option (list string) :=
  match l with
  | [] => Some []
  | e :: l' => match must_name e, must_names l' with Some s, Some r => Some (s :: r) | _, _ => None end
  end.

(** [m.Eval]. *)
Variable ev : machine -> lexp -> lres lexp.

(** machine_internal.go:11-23: numberFromExpr; [k] bounds the number of times a
    list is evaluated again. *)
Fixpoint number_from (k : nat) (m : machine) (e : lexp) : lres (num A) :=
  match e with
  | LNum z => LOk z m
  | LStr _ | LOp _ => LPanic
  | LList _ => match k with O => LFuel | S k' => lbind (ev m e) (fun e' m' => number_from k' m' e') end
  end.
Variable k : nat.
(** machine_internal.go:25. *)
Definition bool_from (m : machine) (e : lexp) : lres bool := lbind (number_from k m e) (fun z m' => LOk (n_nonzero A z) m').
(** The loops at machine_primitives.go:41-43, 52-54 and 61-63. *)
Fixpoint fold_num (f : num A -> num A -> num A) (r : num A) (m : machine) (l : list lexp) : lres lexp :=
  match l with
  | [] => LOk (LNum r) m
  | e :: l' => lbind (number_from k m e) (fun z m' => fold_num f (f r z) m' l')
  end.
(** machine_internal.go:60-73: cmpNum, and its loop (65-71). *)
Fixpoint cmp_loop (pred : num A -> num A -> bool) (x : num A) (m : machine) (l : list lexp) : lres lexp :=
  match l with
  | [] => LOk (lbool true) m
  | e :: l' => lbind (number_from k m e) (fun y m' => if pred x y then cmp_loop pred y m' l' else LOk (lbool false) m')
  end.
Definition cmp_num (pred : num A -> num A -> bool) (m : machine) (l : list lexp) : lres lexp :=
  match l with
  | a :: b :: r => lbind (number_from k m a) (fun x m' => cmp_loop pred x m' (b :: r))
  | _ => LPanic
  end.
(** machine_primitives.go:88-95. *)
Fixpoint p_and (m : machine) (l : list lexp) : lres lexp :=
  match l with
  | [] => LOk (lbool true) m
  | e :: l' => lbind (bool_from m e) (fun b m' => if b then p_and m' l' else LOk (lbool false) m')
  end.
(** machine_primitives.go:98-105. *)
Fixpoint p_or (m : machine) (l : list lexp) : lres lexp :=
  match l with
  | [] => LOk (lbool false) m
  | e :: l' => lbind (bool_from m e) (fun b m' => if b then LOk (lbool true) m' else p_or m' l')
  end.
(** machine_primitives.go:108-113: the truth value of the argument is returned
    as it is. *)
Definition p_not (m : machine) (l : list lexp) : lres lexp :=
  match l with
  | [e] => lbind (bool_from m e) (fun b m' => LOk (lbool b) m')
  | _ => LPanic
  end.
(** machine_primitives.go:117-129. *)
Definition p_if (m : machine) (l : list lexp) : lres lexp :=
  match l with
  | [c; a; b] => lbind (bool_from m c) (fun t m' => ev m' (if t then a else b))
  | _ => LPanic
  end.
(** machine_primitives.go:140-165. *)
Fixpoint p_cond (m : machine) (l : list lexp) : lres lexp :=
  match l with
  | [] => LOk empty m
  | LList [c; a] :: l' =>
      if match c with LOp s => String.eqb s "else" | _ => false end then ev m a
      else match c with
           | LList _ => lbind (ev m c) (fun c' m' => lbind (bool_from m' c') (fun t m'' => if t then ev m'' a else p_cond m'' l'))
           | _ => lbind (bool_from m c) (fun t m' => if t then ev m' a else p_cond m' l')
           end
  | _ => LPanic
  end.
(** machine_internal.go:40-58; the list inside being empty, the index at 48 is
    out of range. *)
Definition unnest (m : machine) (l : list lexp) : lres lexp :=
  match l with
  | [LList (LOp s :: r)] => ev m (LList (LOp s :: r))
  | [LList (a :: r)] => LOk (LList (a :: r)) m
  | _ => LPanic
  end.
(** machine_primitives.go:183-196. *)
Definition p_alias (m : machine) (l : list lexp) : lres lexp :=
  match l with
  | [a; b] =>
      match must_name a, must_name b with
      | Some x, Some y =>
          match assoc (m_funcs m) y with
          | Some _ => LOk empty (Machine (m_funcs m) ((x, y) :: m_aliases m))
          | None => LPanic
          end
      | _, _ => LPanic
      end
  | _ => LPanic
  end.
(** machine_primitives.go:206-237. *)
Definition p_define (m : machine) (l : list lexp) : lres lexp :=
  match l with
  | [LList (f :: args); body] =>
      match must_name f, must_names args with
      | Some name, Some names => LOk empty (Machine ((name, PUser names body) :: m_funcs m) (remove_key name (m_aliases m)))
      | _, _ => LPanic
      end
  | _ => LPanic
  end.
(** Calling a function.  sub 47-57, remainder 67-73, comparisons 77-82, isList
    171-176, car 11-22, cdr 26-37 with apply (machine_internal.go:28-33), and the
    functions of define 224-235, where a later argument of the same name wins. *)
Definition call (p : prim A) (m : machine) (l : list lexp) : lres lexp :=
  match p with
  | PAdd => fold_num (n_add A) (n_zero A) m l
  | PMul => fold_num (n_mul A) (n_one A) m l
  | PSub => match l with a :: b :: r => lbind (number_from k m a) (fun x m' => fold_num (n_sub A) x m' (b :: r)) | _ => LPanic end
  | PRem => match l with
            | [a; b] => lbind (number_from k m a) (fun x m' => lbind (number_from k m' b) (fun y m'' => LOk (LNum (n_mod A x y)) m''))
            | _ => LPanic
            end
  | PLt => cmp_num (n_lt A) m l
  | PLe => cmp_num (n_le A) m l
  | PGt => cmp_num (n_gt A) m l
  | PGe => cmp_num (n_ge A) m l
  | PEq => cmp_num (n_eq A) m l
  | PNeq => cmp_num (n_ne A) m l
  | PAnd => p_and m l
  | POr => p_or m l
  | PNot => p_not m l
  | PIf => p_if m l
  | PCond => p_cond m l
  | PIsList => match l with [LList _] => LOk (lbool true) m | [_] => LOk (lbool false) m | _ => LPanic end
  | PCar => lbind (unnest m l) (fun e m' => match e with LList (a :: _) => LOk a m' | _ => LPanic end)
  | PCdr => lbind (unnest m l) (fun e m' => match e with LList (_ :: r) => LOk (LList r) m' | LList [] => LOk empty m' | _ => LPanic end)
  | PAlias => p_alias m l
  | PDefine => p_define m l
  | PUser names body => if Nat.eqb (List.length l) (List.length names) then ev m (subst_args (List.rev (combine names l)) body) else LPanic
  end.
End Eval.

(** machine.go:76-98: the function an operator stands for; [None]: a panic. *)
Definition resolve {A} (m : machine A) (op : string) : option (prim A) :=
  match assoc (m_aliases m) op with
  | Some s => assoc (m_funcs m) s
  | None => assoc (m_funcs m) op
  end.
(** machine.go:60-104. *)
Fixpoint eval {A} (fuel : nat) (m : machine A) (e : lexp A) : lres A (lexp A) :=
  match fuel with
  | O => LFuel
  | S f =>
      match e with
      | LNum _ | LStr _ | LOp _ => LOk e m
      | LList [] => LOk empty m
      | LList (LOp op :: args) => match resolve m op with Some p => call (eval f) f p m args | None => LPanic end
      | LList _ => LOk e m
      end
  end.
