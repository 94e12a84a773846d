(** When is a parse sure to end?  Vocabulary. *)
From Verif Require Import Base Helpers Stream StreamSpec Native Engine EngSpec.

(** The height of a parser: references count as leaves. *)
Fixpoint height (n : node) : nat :=
  match n with
  | Node _ k =>
      match k with
      | KSeq _ l | KChoice l => S (fold_right (fun c m => Nat.max (height c) m) 0 l)
      | KPat v j _ _ => S (Nat.max (height v) (match j with Some x => height x | None => 0 end))
      | KExist a | KLook a | KNot a => S (height a)
      | KStr _ | KRegex _ | KRef _ | KUndef => 1
      end
  end.
(** Grammars are finite: the parsers have a height in common. *)
Definition heights (E : env) (root : node) (D : nat) : Prop := forall n, reach E root n -> height n <= D.

(** References lead to rules (grammar.go:276-303). *)
Definition refs_to_rules (E : env) : Prop := forall name t, e_rule E name = Some t -> i_isrule (n_info t) = true.

(** More generally, references that do not lead to rules go round no circle:
    parsers have levels up to [D], which go down from a parser to its parts and
    from such references to what they refer to. *)
Definition levels (E : env) (root : node) (lvl : node -> nat) (D : nat) : Prop :=
  forall n, reach E root n -> lvl n <= D /\ (forall c, c ∈ children n -> lvl c < lvl n) /\
    forall name t, n_kind n = KRef name -> e_rule E name = Some t -> i_isrule (n_info t) = true \/ lvl t < lvl n.

(** [eats n]: if [n] succeeds it has moved on.  [ate] is what [n] being so
    takes, given which other parsers are; [rxe] tells it for regular
    expressions. *)
Definition ate (E : env) (rxe : bytes -> bool) (eats : node -> bool) (n : node) : bool :=
  match n_kind n with
  | KStr s => negb (length s =? 0)
  | KRegex re => rxe re
  | KRef name => match e_rule E name with Some t => eats t | None => true end
  | KSeq _ l => existsb eats l
  | KChoice l => forallb eats l
  | KPat v _ mn _ => ((0 <? mn)%Z && eats v)%bool
  | KExist _ | KLook _ | KNot _ | KUndef => false
  end.
Record eating (E : env) (root : node) (rxe : bytes -> bool) (eats : node -> bool) : Prop := {
  eat_rx : forall re s b, rxe re = true -> e_rx E re s = Some (0, b) -> 0 < b;
  eat_ok : forall n, reach E root n -> eats n = true -> ate E rxe eats n = true }.

(** Each round of a repetition moves on: its value or its join does. *)
Definition reps_eat (E : env) (root : node) (eats : node -> bool) : Prop :=
  forall n v j mn mx, reach E root n -> n_kind n = KPat v j mn mx ->
    eats v = true \/ exists x, j = Some x /\ eats x = true.

(** How deep calls can nest, for a text of [len] bytes. *)
Definition enough (D len : nat) : nat := stack_limit * (D + 1) + D + len + 3.
