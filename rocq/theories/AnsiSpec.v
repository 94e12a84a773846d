(** Texts in colour: what a text is with the colour marks in it.  No proofs here. *)
From Verif Require Import Base.

(** What the marks of colors.go are made of, behind the escape: a colour, bold or
    not; bold; and back to normal. *)
Definition marks : list bytes :=
  s2b <$> ["[30m"; "[31m"; "[32m"; "[33m"; "[34m"; "[35m"; "[36m"; "[37m";
           "[1;30m"; "[1;31m"; "[1;32m"; "[1;33m"; "[1;34m"; "[1;35m"; "[1;36m"; "[1;37m"; "[1m"; "[0m"]%string.
(** [painted t s]: [t] is the text [s] with marks anywhere in it; [s] has no bell,
    no escape and no U+009B. *)
Inductive painted : bytes -> bytes -> Prop :=
| painted_nil : painted [] []
| painted_char b t s : b <> 7%N -> b <> 27%N -> (b = 194%N -> head t <> Some 155%N) -> painted t s -> painted (b :: t) (b :: s)
| painted_mark m t s : m ∈ marks -> painted t s -> painted (27%N :: m ++ t) s.
(** Nothing in it begins a mark. *)
Definition unmarked (s : bytes) : Prop := 27%N ∉ s /\ forall a b, s <> a ++ [194; 155]%N ++ b.
(** No bell, no escape, no U+009B. *)
Definition calm (s : bytes) : Prop := 7%N ∉ s /\ 27%N ∉ s /\ forall a b, s <> a ++ [194; 155]%N ++ b.

(** ** The control sequences, as sets of texts *)
Definition opens (b : N) : Prop := b ∈ s2b "[]()#;?".
Definition digit (b : N) : Prop := (48 <= b <= 57)%N.
Definition wordy_byte (b : N) : Prop := (97 <= b <= 122 \/ 65 <= b <= 90 \/ 48 <= b <= 57)%N.
Definition finals (b : N) : Prop := b ∈ s2b "0123456789ABCDEFGHIJKLMNOPRZcfghijklmntqry=><~".
(** Up to four digits. *)
Definition digits4 (s : bytes) : Prop := Forall digit s /\ length s <= 4.
(** Numbers with semicolons before all but the first, or nothing. *)
Definition numbers (s : bytes) : Prop :=
  s = [] \/ exists d gs, d <> [] /\ digits4 d /\ Forall digits4 gs /\ s = d ++ concat (map (cons 59%N) gs).
(** An escape or U+009B, brackets and the like, then words up to a bell or numbers
    up to a final byte. *)
Inductive control : bytes -> Prop :=
| control_bell i o w : i = [27%N] \/ i = [194; 155]%N -> Forall opens o -> Forall (fun b => wordy_byte b \/ b = 59%N) w ->
    control (i ++ o ++ w ++ [7%N])
| control_code i o c f : i = [27%N] \/ i = [194; 155]%N -> Forall opens o -> numbers c -> finals f ->
    control (i ++ o ++ c ++ [f]).
(** [s] is [t] without control sequences: from left to right, one is cut wherever
    one begins, anything else is kept. *)
Inductive stripped : bytes -> bytes -> Prop :=
| stripped_nil : stripped [] []
| stripped_cut m t s : control m -> stripped t s -> stripped (m ++ t) s
| stripped_keep b t s : (forall m r, control m -> b :: t <> m ++ r) -> stripped t s -> stripped (b :: t) (b :: s).
