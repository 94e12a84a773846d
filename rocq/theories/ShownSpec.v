(** What printing a parser should show. *)
From Verif Require Import Base Utf8Spec NativeSpec Native Engine Build TextSpec PrintSpec.

(** What is seen of a coloured text: from an escape to the next [m] nothing. *)
Fixpoint seen_from (hidden : bool) (s : bytes) : bytes :=
  match s with
  | [] => []
  | b :: r => if hidden then seen_from (negb (b =? 109)%N) r else if (b =? 27)%N then seen_from true r else b :: seen_from false r
  end.
Definition seen : bytes -> bytes := seen_from false.

(** A name, a string, or something printed in parentheses; no label. *)
Definition operand (e : pexp) : Prop :=
  match e with PExp l k => l = ""%string /\ match k with KStr _ | KRef _ | KSeq _ _ | KChoice _ => True | _ => False end end.
(** No quote, no escape, no control character that is printed as an escape. *)
Definition plain (b : N) : Prop := b <> 39%N /\ b <> 27%N /\ ~ (7 <= b <= 13)%N.
(** Expressions without regular expressions whose strings are plain and whose
    operators apply to operands. *)
Inductive printable : pexp -> Prop :=
| pb_exp l k : (l = ""%string \/ label_name l) -> printable_kind k -> printable (PExp l k)
with printable_kind : kind pexp -> Prop :=
| pb_str s rs : utf8s rs s -> Forall plain s -> printable_kind (KStr s)
| pb_ref nm : name nm -> printable_kind (KRef nm)
| pb_seq es : 2 <= length es -> printable_all es -> printable_kind (KSeq TSingle es)
| pb_choice es : 2 <= length es -> printable_all es -> printable_kind (KChoice es)
| pb_pat v j mn mx : operand v -> printable v -> printable_opt j -> bound_ok mn -> bound_ok mx -> printable_kind (KPat v j mn mx)
| pb_exist a : operand a -> printable a -> printable_kind (KExist a)
| pb_not a : operand a -> printable a -> printable_kind (KNot a)
| pb_look a : printable a -> printable_kind (KLook a)
with printable_all : list pexp -> Prop :=
| pb_nil : printable_all []
| pb_cons e es : printable e -> printable_all es -> printable_all (e :: es)
with printable_opt : option pexp -> Prop :=
| pb_none : printable_opt None
| pb_some e : operand e -> printable e -> printable_opt (Some e).
(** How deep the printed parentheses nest, those of a lookahead counted twice. *)
Fixpoint nests (e : pexp) : nat :=
  match e with
  | PExp _ k =>
      match k with
      | KSeq _ es | KChoice es => S (list_max (map nests es))
      | KPat v j _ _ => max (nests v) (match j with Some x => nests x | None => 0 end)
      | KExist a | KNot a => nests a
      | KLook a => S (S (nests a))
      | _ => 0
      end
  end.
