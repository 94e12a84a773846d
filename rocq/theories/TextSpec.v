(** Texts of parser expressions: which texts write which parser. *)
From Verif Require Import Base Utf8Spec NativeSpec Engine Build.

(** A name: a letter, '.' or '_' and then such or digits. *)
Definition letter (b : N) : Prop := (97 <= b <= 122 \/ 65 <= b <= 90 \/ b = 46 \/ b = 95)%N.
Definition digit (b : N) : Prop := (48 <= b <= 57)%N.
Definition name (s : string) : Prop :=
  match s2b s with [] => False | b :: r => letter b /\ Forall (fun c => letter c \/ digit c) r end.
Definition label_name (s : string) : Prop := s = "&"%string \/ s = "@"%string \/ name s.
(** Spaces and newlines. *)
Definition gap (w : bytes) : Prop := Forall (fun b => b = 32 \/ b = 10)%N w.

(** What stands between quotes for the string [s]: a backslash before a
    character stands for the character, and must stand before a quote and a
    backslash. *)
Inductive quoted : bytes -> bytes -> Prop :=
| q_nil : quoted [] []
| q_char r b s t : utf8 r b -> r <> 39%N -> r <> 92%N -> quoted s t -> quoted (b ++ s) (b ++ t)
| q_escape r b s t : utf8 r b -> quoted s t -> quoted (b ++ s) ((92 :: b) ++ t)%N.
(** A regular expression that can be written before [stop]: a backslash and
    the character after it belong together. *)
Inductive before (stop : N) : bytes -> Prop :=
| b_nil : before stop []
| b_char r b t : utf8 r b -> r <> stop -> r <> 92%N -> before stop t -> before stop (b ++ t)
| b_escape r b t : utf8 r b -> before stop t -> before stop ((92 :: b) ++ t)%N.

(** Bounds of a repetition: a number, or nothing, which the parsers know as -1. *)
Inductive bound_text : Z -> bytes -> Prop :=
| bd_none : bound_text (-1) []
| bd_number s : is_digits s -> (digits_value s < 2 ^ 63)%Z -> bound_text (digits_value s) s.
Definition range_text (mn mx : Z) (s : bytes) : Prop :=
  exists w1 w2 w3 w4 a b, gap w1 /\ gap w2 /\ gap w3 /\ gap w4 /\ bound_text mn a /\ bound_text mx b /\
    s = ([123] ++ w1 ++ a ++ w2 ++ [44] ++ w3 ++ b ++ w4 ++ [125])%N.

(** Expressions by how tightly they hold together. *)
Inductive form :=
| Prim (e : pexp)                (* name, string, regular expression, class, (expression) *)
| Join (j : option pexp)         (* what may follow [*] and [+] *)
| Deco (e : pexp)                (* with [? * + {m,n} !], lookahead *)
| Unit (e : pexp)                (* with a label *)
| Units (l : list pexp)
| Sequ (e : pexp)                (* a sequence *)
| Sequs (l : list pexp)
| Alter (e : pexp)               (* a choice *)
| Expr (e : pexp).               (* with space around *)

Section Spec.
(** The valid regular expressions. *)
Variable re_ok : bytes -> bool.

(** [writes n f s]: [s] is a text for [f], with parentheses nested at most [n] deep,
    those of a lookahead counted twice. *)
Inductive writes : nat -> form -> bytes -> Prop :=
| w_name n nm : name nm -> writes n (Prim (PExp "" (KRef nm))) (s2b nm)
| w_string n s t : quoted s t -> writes n (Prim (PExp "" (KStr s))) ([39] ++ t ++ [39])%N
| w_regex n t : before 47 t -> re_ok t = true -> writes n (Prim (PExp "" (KRegex t))) ([47] ++ t ++ [47])%N
| w_class n t : before 93 t -> re_ok ([91] ++ t ++ [93])%N = true ->
    writes n (Prim (PExp "" (KRegex ([91] ++ t ++ [93])%N))) ([91] ++ t ++ [93])%N
| w_paren n e s : writes n (Expr e) s -> writes (S n) (Prim e) ([40] ++ s ++ [41])%N
| w_no_join n : writes n (Join None) []
| w_join n e s : writes n (Prim e) s -> writes n (Join (Some e)) s
| w_prim n e s : writes n (Prim e) s -> writes n (Deco e) s
| w_option n e s : writes n (Prim e) s -> writes n (Deco (PExp "" (KExist e))) (s ++ [63])%N
| w_star n e j s s' : writes n (Prim e) s -> writes n (Join j) s' -> writes n (Deco (PExp "" (KPat e j (-1) (-1)))) (s ++ [42] ++ s')%N
| w_star_range n e j mn mx s s' t : writes n (Prim e) s -> writes n (Join j) s' -> range_text mn mx t ->
    writes n (Deco (PExp "" (KPat e j mn mx))) (s ++ [42] ++ s' ++ t)%N
| w_plus n e j s s' : writes n (Prim e) s -> writes n (Join j) s' -> writes n (Deco (PExp "" (KPat e j 1 (-1)))) (s ++ [43] ++ s')%N
| w_range n e mn mx s t : writes n (Prim e) s -> range_text mn mx t -> writes n (Deco (PExp "" (KPat e None mn mx))) (s ++ t)
| w_not n e s : writes n (Prim e) s -> writes n (Deco (PExp "" (KNot e))) ([33] ++ s)%N
| w_look n e s : writes n (Expr e) s -> writes (S (S n)) (Deco (PExp "" (KLook e))) ([40; 63] ++ s ++ [41])%N
| w_unit n e s : writes n (Deco e) s -> writes n (Unit e) s
| w_label n l k s : writes n (Deco (PExp "" k)) s -> label_name l -> writes n (Unit (PExp l k)) (s2b l ++ [58] ++ s)%N
| w_units_one n e s : writes n (Unit e) s -> writes n (Units [e]) s
| w_units n e l s w s' : writes n (Unit e) s -> gap w -> w <> [] -> writes n (Units l) s' -> writes n (Units (e :: l)) (s ++ w ++ s')
| w_one_unit n e s : writes n (Unit e) s -> writes n (Sequ e) s
| w_sequ n l s : writes n (Units l) s -> 2 <= length l -> writes n (Sequ (PExp "" (KSeq TSingle l))) s
| w_sequs_one n e s : writes n (Sequ e) s -> writes n (Sequs [e]) s
| w_sequs n e l s w w' s' : writes n (Sequ e) s -> gap w -> gap w' -> writes n (Sequs l) s' ->
    writes n (Sequs (e :: l)) (s ++ w ++ [124] ++ w' ++ s')%N
| w_one_sequ n e s : writes n (Sequ e) s -> writes n (Alter e) s
| w_alter n l s : writes n (Sequs l) s -> 2 <= length l -> writes n (Alter (PExp "" (KChoice l))) s
| w_expr n e w s w' : writes n (Alter e) s -> gap w -> gap w' -> writes n (Expr e) (w ++ s ++ w').
End Spec.
