(** Texts of parser expressions without labels in which a lookahead may stand
    without parentheses of its own, [?e]: which texts write which parser. *)
From Verif Require Import Base Engine Build TextSpec.

Section Spec.
(** The valid regular expressions. *)
Variable re_ok : bytes -> bool.

(** [plain o n f s]: [s] is a text for [f], with parentheses and lookaheads nested
    at most [n] deep. [o] says that it is open at its end: it ends with a lookahead
    without parentheses, and that takes an expression, all there is up to a closing
    parenthesis or the end. *)
Inductive plain : bool -> nat -> form -> bytes -> Prop :=
| p_name n nm : name nm -> plain false n (Prim (PExp "" (KRef nm))) (s2b nm)
| p_string n s t : quoted s t -> plain false n (Prim (PExp "" (KStr s))) ([39] ++ t ++ [39])%N
| p_regex n t : before 47 t -> re_ok t = true -> plain false n (Prim (PExp "" (KRegex t))) ([47] ++ t ++ [47])%N
| p_class n t : before 93 t -> re_ok ([91] ++ t ++ [93])%N = true ->
    plain false n (Prim (PExp "" (KRegex ([91] ++ t ++ [93])%N))) ([91] ++ t ++ [93])%N
| p_paren n e s : plain false n (Expr e) s -> plain false (S n) (Prim e) ([40] ++ s ++ [41])%N
| p_no_join n : plain false n (Join None) []
| p_join n e s : plain false n (Prim e) s -> plain false n (Join (Some e)) s
| p_prim n e s : plain false n (Prim e) s -> plain false n (Deco e) s
| p_option n e s : plain false n (Prim e) s -> plain false n (Deco (PExp "" (KExist e))) (s ++ [63])%N
| p_star n e j s s' : plain false n (Prim e) s -> plain false n (Join j) s' ->
    plain false n (Deco (PExp "" (KPat e j (-1) (-1)))) (s ++ [42] ++ s')%N
| p_star_range n e j mn mx s s' t : plain false n (Prim e) s -> plain false n (Join j) s' -> range_text mn mx t ->
    plain false n (Deco (PExp "" (KPat e j mn mx))) (s ++ [42] ++ s' ++ t)%N
| p_plus n e j s s' : plain false n (Prim e) s -> plain false n (Join j) s' ->
    plain false n (Deco (PExp "" (KPat e j 1 (-1)))) (s ++ [43] ++ s')%N
| p_range n e mn mx s t : plain false n (Prim e) s -> range_text mn mx t -> plain false n (Deco (PExp "" (KPat e None mn mx))) (s ++ t)
| p_not n e s : plain false n (Prim e) s -> plain false n (Deco (PExp "" (KNot e))) ([33] ++ s)%N
| p_look n e s : plain false n (Expr e) s -> plain false (S (S n)) (Deco (PExp "" (KLook e))) ([40; 63] ++ s ++ [41])%N
| p_open n e s : plain false n (Expr e) s -> plain true (S n) (Deco (PExp "" (KLook e))) ([63] ++ s)%N
| p_unit o n e s : plain o n (Deco e) s -> plain o n (Unit e) s
| p_units_one o n e s : plain o n (Unit e) s -> plain o n (Units [e]) s
| p_units o n e l s w s' : plain false n (Unit e) s -> gap w -> w <> [] -> plain o n (Units l) s' -> plain o n (Units (e :: l)) (s ++ w ++ s')
| p_one_unit o n e s : plain o n (Unit e) s -> plain o n (Sequ e) s
| p_sequ o n l s : plain o n (Units l) s -> 2 <= length l -> plain o n (Sequ (PExp "" (KSeq TSingle l))) s
| p_sequs_one o n e s : plain o n (Sequ e) s -> plain o n (Sequs [e]) s
| p_sequs o n e l s w w' s' : plain false n (Sequ e) s -> gap w -> gap w' -> plain o n (Sequs l) s' ->
    plain o n (Sequs (e :: l)) (s ++ w ++ [124] ++ w' ++ s')%N
| p_one_sequ o n e s : plain o n (Sequ e) s -> plain o n (Alter e) s
| p_alter o n l s : plain o n (Sequs l) s -> 2 <= length l -> plain o n (Alter (PExp "" (KChoice l))) s
| p_expr n e w s w' : plain false n (Alter e) s -> gap w -> gap w' -> plain false n (Expr e) (w ++ s ++ w')
(** After an opening parenthesis or a question mark no question mark may follow
    at once: [(?e)] is [p_look]. *)
| p_expr_open n e w s : plain true n (Alter e) s -> gap w -> w <> [] \/ head s <> Some 63%N -> plain false n (Expr e) (w ++ s).
End Spec.
