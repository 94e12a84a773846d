(** Theorems on the evaluator of the lisp example (examples/lisp-repl). *)
From Verif Require Import Base Lisp LispSpec LispProofs.
From Coq Require Import String.
Open Scope string_scope.

(** C52: [not] does not negate. *)
Theorem C52_refuted : exists (e : lexp exact_arith) m',
  counts new_machine e (n_one exact_arith) m' /\
  evaluates new_machine (LList [LOp "not"; e]) (lbool true) m' /\ ~ evaluates new_machine (LList [LOp "not"; e]) (lbool false) m'.
Proof.
  exists (lbool true), new_machine. split; [constructor|]. assert (H : evaluates new_machine (LList [LOp "not"; @lbool exact_arith true]) (lbool true) new_machine) by by exists 2.
  split; [exact H|]. intros H'. by destruct (evaluates_unique _ _ _ _ _ _ H H').
Qed.
Print Assumptions C52_refuted.
(** What it does, in any arithmetic and for every expression: the truth value of
    its argument, and nothing if the argument stands for no number. *)
Theorem C52_actual_partial (A : arith) (m : machine A) e v m' : stock m "not" ->
  evaluates m (LList [LOp "not"; e]) v m' <-> exists z, counts m e z m' /\ v = lbool (n_nonzero A z).
Proof. intros Hs. split; [exact (not_only m e v m' Hs)|intros (z & Hz & ->); exact (not_keeps m e z m' Hs Hz)]. Qed.
Print Assumptions C52_actual_partial.

(** C58: a comparison of two or more arguments holds exactly if it holds between
    neighbours; of fewer, it panics. *)
Theorem C58_chain (A : arith) (m : machine A) op (r : num A -> num A -> bool) l zs m' : comparison op r -> stock m op -> all_count m l zs m' -> 2 <= List.length l ->
  exists b m1, evaluates m (LList (LOp op :: l)) (lbool b) m1 /\ (b = true <-> chain r zs).
Proof. exact (compares m op r l zs m'). Qed.
Print Assumptions C58_chain.
Theorem C58_few (A : arith) (m : machine A) op (r : num A -> num A -> bool) l : comparison op r -> stock m op -> List.length l < 2 -> panics m (LList (LOp op :: l)).
Proof. exact (compares_few m op r l). Qed.
Print Assumptions C58_few.
Example some_chain : @comparison exact_arith ">=" (n_ge exact_arith) /\ stock (A := exact_arith) new_machine ">=" /\
  all_count new_machine [qn 5%Z; term_lisp (TAdd [TInt 2; TInt 2]); qn 4%Z] [Some 5%Z; Some 4%Z; Some 4%Z] new_machine /\
  chain (A := exact_arith) (n_ge exact_arith) [Some 5%Z; Some 4%Z; Some 4%Z] /\ ~ chain (A := exact_arith) (n_ge exact_arith) [Some 5%Z; Some 6%Z].
Proof.
  split; [unfold comparison; repeat (first [left | right])|]. split; [by split|]. split; [|split].
  - econstructor; [constructor|]. econstructor; [|econstructor; constructor]. econstructor; [by exists 2|constructor].
  - intros [|[|[|i]]] x y Hx Hy; cbn in Hx, Hy; try done; by injection Hx as <-; injection Hy as <-.
  - intros H. by specialize (H 0 _ _ eq_refl eq_refl).
Qed.

(** C59: a function defined by the user is called with its arguments put in place
    of the names, all at once and not evaluated; defining it touches no other. *)
Theorem C59_define (A : arith) (m : machine A) f names body : stock m "define" ->
  exists m', evaluates m (LList [LOp "define"; LList (LOp f :: map LOp names); body]) empty m' /\
    (forall op, op <> f -> assoc (m_funcs m') op = assoc (m_funcs m) op /\ assoc (m_aliases m') op = assoc (m_aliases m) op) /\
    (forall args, List.length args <> List.length names -> panics m' (LList (LOp f :: args))) /\
    (forall args body' v m2, NoDup names -> List.length args = List.length names -> replaced names args body body' ->
       evaluates m' (LList (LOp f :: args)) v m2 <-> evaluates m' body' v m2).
Proof.
  intros Hs. destruct (define_adds m f names body Hs) as (m' & He & Hr & Ho). exists m'. split; [exact He|]. split; [exact Ho|]. split.
  - intros args. exact (user_call_wrong m' f names body args Hr).
  - intros args body' v m2 Hn Hl. exact (user_call m' f names body args body' v m2 Hr Hn Hl).
Qed.
Print Assumptions C59_define.
(** The factorial of main_test.go:94, for all n. *)
Theorem C59_fact : exists m, evaluates new_machine define_fact empty m /\ forall n,
  evaluates m (LList [LOp "fact"; qn (Z.of_nat n)]) (qn (factorial n)) m.
Proof. exists fact_machine. split; [exact fact_defined|]. intros n. exact (fact_counts n _ (counts_num _ _)). Qed.
Print Assumptions C59_fact.
Example fact_five : factorial 5 = 120%Z.
Proof. reflexivity. Qed.

(** C60: [list?] looks at how its argument is written, not at its value: the
    comment's [(list? (+ 1 2 3)) -> false] is wrong. *)
Theorem C60_refuted : exists (e : lexp exact_arith) z, evaluates new_machine e (LNum z) new_machine /\
  evaluates new_machine (LList [LOp "list?"; e]) (lbool true) new_machine.
Proof. exists (term_lisp (TAdd [TInt 1; TInt 2; TInt 3])), (Some 6%Z). split; [by exists 2|by exists 2]. Qed.
Print Assumptions C60_refuted.
Theorem C60_actual_partial (A : arith) (m : machine A) e : stock m "list?" ->
  evaluates m (LList [LOp "list?"; e]) (lbool (match e with LList _ => true | _ => false end)) m.
Proof. exact (islist_form m e). Qed.
Print Assumptions C60_actual_partial.

(** C61: [and] and [or] tell whether all, or some, of their arguments are true. *)
Theorem C61_and_partial (A : arith) (m : machine A) l zs m' : stock m "and" -> all_count m l zs m' ->
  exists b m1, evaluates m (LList (LOp "and" :: l)) (lbool b) m1 /\ (b = true <-> Forall (fun z => n_nonzero A z = true) zs).
Proof. exact (and_all m l zs m'). Qed.
Print Assumptions C61_and_partial.
Theorem C61_or_partial (A : arith) (m : machine A) l zs m' : stock m "or" -> all_count m l zs m' ->
  exists b m1, evaluates m (LList (LOp "or" :: l)) (lbool b) m1 /\ (b = true <-> Exists (fun z => n_nonzero A z = true) zs).
Proof. exact (or_some m l zs m'). Qed.
Print Assumptions C61_or_partial.
(** But a list that is data never gets a number: the evaluation never returns,
    where the comments say that (and ()) is true and (or ()) is false. *)
Theorem C61_data_refuted (A : arith) (m : machine A) op l rest : reads_number op -> stock m op -> data l -> hangs m (LList (LOp op :: LList l :: rest)).
Proof. exact (data_hangs m op l rest). Qed.
Print Assumptions C61_data_refuted.
Example and_of_nothing : reads_number "and" /\ stock (A := exact_arith) new_machine "and" /\ data (A := exact_arith) [].
Proof. split; [unfold reads_number; repeat (first [left | right])|]. split; [by split|]. by intros s. Qed.

(** C62: [if] and [cond] evaluate the chosen branch and no other. *)
Theorem C62_if (A : arith) (m : machine A) c a b z m1 v m2 : stock m "if" -> counts m c z m1 ->
  evaluates m (LList [LOp "if"; c; a; b]) v m2 <-> evaluates m1 (if n_nonzero A z then a else b) v m2.
Proof. exact (if_picks m c a b z m1 v m2). Qed.
Print Assumptions C62_if.
Theorem C62_cond (A : arith) (m : machine A) l a m1 v m2 : stock m "cond" -> picks m l (Some a) m1 ->
  evaluates m (LList (LOp "cond" :: l)) v m2 <-> evaluates m1 a v m2.
Proof. exact (cond_picks m l a m1 v m2). Qed.
Print Assumptions C62_cond.
Theorem C62_cond_none (A : arith) (m : machine A) l m1 : stock m "cond" -> picks m l None m1 -> evaluates m (LList (LOp "cond" :: l)) empty m1.
Proof. exact (cond_none m l m1). Qed.
Print Assumptions C62_cond_none.
Example some_cond : picks (A := exact_arith) new_machine [LList [qn 0%Z; LStr "L"]; LList [term_lisp (TAdd [TInt 1]); LStr "M"]; LList [LOp "else"; LStr "S"]] (Some (LStr "M")) new_machine.
Proof.
  eapply picks_no; [constructor|done|]. eapply (picks_yes (A := exact_arith) _ _ _ _ (Some 1%Z)); [|reflexivity]. econstructor; [by exists 2|constructor].
Qed.

(** C63: sums, products and differences of integers, nested to any depth, have
    their mathematical value, and evaluating them leaves the machine alone. *)
Theorem C63_arithmetic (m : machine exact_arith) t : stock m "+" -> stock m "*" -> stock m "-" -> evaluates m (term_lisp t) (qn (term_value t)) m.
Proof. intros Ha Hm Hs. exact (terms_evaluate m t (conj Ha (conj Hm Hs))). Qed.
Print Assumptions C63_arithmetic.
Example some_term : term_value (TSub (TInt 12) (TSub (TInt 2) (TInt 1) []) [TMul [TInt 3; TInt 4]]) = (-1)%Z /\ stock (A := exact_arith) new_machine "+".
Proof. by split. Qed.
