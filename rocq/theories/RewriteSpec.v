(** Ways of writing a parser shorter: a specification.  It speaks of written
    parsers and of lines only. *)
From Verif Require Import Base Helpers Native Engine Build BuildSpec.

(** A parser that always succeeds: optional, or repeated with no least number. *)
Definition never_fails (e : pexp) : bool :=
  match e with
  | PExp _ (KExist _) => true
  | PExp _ (KPat _ _ mn _) => (mn <=? 0)%Z
  | _ => false
  end.

(** Lists of alternatives.
    A group of alternatives among the alternatives needs no group; an
    alternative written before needs not be written again; a literal that begins
    with an earlier literal is never reached, and neither is anything behind an
    alternative that always succeeds (it can still decide whether the choice is
    captured, see [w_capture]). *)
Inductive shorter : list pexp -> list pexp -> Prop :=
| sh_group l1 m l2 : shorter (l1 ++ PExp "" (KChoice m) :: l2) (l1 ++ m ++ l2)
| sh_again l1 a l2 l3 : shorter (l1 ++ a :: l2 ++ a :: l3) (l1 ++ a :: l2 ++ l3)
| sh_literal l1 lb s l2 lb' t l3 :
    shorter (l1 ++ PExp lb (KStr s) :: l2 ++ PExp lb' (KStr (s ++ t)) :: l3) (l1 ++ PExp lb (KStr s) :: l2 ++ l3)
| sh_behind l1 a l2 : never_fails a = true -> forallb w_capture l2 = true -> shorter (l1 ++ a :: l2) (l1 ++ [a]).

(** Parsers in place: alternatives, and operators doubled. *)
Inductive shorter_here : kind pexp -> kind pexp -> Prop :=
| sk_alts l l' : shorter l l' -> shorter_here (KChoice l) (KChoice l')
| sk_opt a : w_labels a = [] -> shorter_here (KExist (PExp "" (KExist a))) (KExist a)
| sk_ahead a : shorter_here (KLook (PExp "" (KLook a))) (KLook a)
| sk_notnot a : shorter_here (KNot (PExp "" (KNot (PExp "" (KNot a))))) (KNot a).

(** Anywhere in a parser. *)
Inductive rewritten : pexp -> pexp -> Prop :=
| rw_here lb k k' : shorter_here k k' -> rewritten (PExp lb k) (PExp lb k')
| rw_seq lb t l1 e e' l2 : rewritten e e' -> rewritten (PExp lb (KSeq t (l1 ++ e :: l2))) (PExp lb (KSeq t (l1 ++ e' :: l2)))
| rw_choice lb l1 e e' l2 : rewritten e e' -> rewritten (PExp lb (KChoice (l1 ++ e :: l2))) (PExp lb (KChoice (l1 ++ e' :: l2)))
| rw_many lb e e' j mn mx : rewritten e e' -> rewritten (PExp lb (KPat e j mn mx)) (PExp lb (KPat e' j mn mx))
| rw_join lb v e e' mn mx : rewritten e e' -> rewritten (PExp lb (KPat v (Some e) mn mx)) (PExp lb (KPat v (Some e') mn mx))
| rw_exist lb e e' : rewritten e e' -> rewritten (PExp lb (KExist e)) (PExp lb (KExist e'))
| rw_look lb e e' : rewritten e e' -> rewritten (PExp lb (KLook e)) (PExp lb (KLook e'))
| rw_not lb e e' : rewritten e e' -> rewritten (PExp lb (KNot e)) (PExp lb (KNot e')).

(** One text of the lines is written so. *)
Inductive rewritten_in (compile : bytes -> res pexp) : line -> line -> Prop :=
| ri_text s s' e e' : compile s = ROk e -> compile s' = ROk e' -> rewritten e e' -> rewritten_in compile (LS s) (LS s')
| ri_rank l1 l l' l2 : rewritten_in compile l l' -> rewritten_in compile (LA (l1 ++ l :: l2)) (LA (l1 ++ l' :: l2))
| ri_o nm c c' o : rewritten_in compile c c' -> rewritten_in compile (LO nm c o) (LO nm c' o)
| ri_i nm c c' o : rewritten_in compile c c' -> rewritten_in compile (LI nm c o) (LI nm c' o).
