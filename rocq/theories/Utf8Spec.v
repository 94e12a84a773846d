(** Independent specification of UTF-8 (RFC 3629, table of section 3), as a
    relation between a code point and its bytes. *)
From Verif Require Import Base.

Inductive utf8 : N -> bytes -> Prop :=
| utf8_1 x : (x < 128)%N -> utf8 x [x]
| utf8_2 x y :
    (x < 32)%N -> (y < 64)%N -> (128 <= x * 64 + y)%N ->
    utf8 (x * 64 + y) [192 + x; 128 + y]%N
| utf8_3 x y z :
    (x < 16)%N -> (y < 64)%N -> (z < 64)%N ->
    (2048 <= x * 4096 + y * 64 + z)%N ->
    ~ (55296 <= x * 4096 + y * 64 + z <= 57343)%N ->
    utf8 (x * 4096 + y * 64 + z) [224 + x; 128 + y; 128 + z]%N
| utf8_4 x y z t :
    (x < 8)%N -> (y < 64)%N -> (z < 64)%N -> (t < 64)%N ->
    (65536 <= x * 262144 + y * 4096 + z * 64 + t <= 1114111)%N ->
    utf8 (x * 262144 + y * 4096 + z * 64 + t) [240 + x; 128 + y; 128 + z; 128 + t]%N.

(** The text of a sequence of code points. *)
Inductive utf8s : list N -> bytes -> Prop :=
| utf8s_nil : utf8s [] []
| utf8s_cons r b rs bs : utf8 r b -> utf8s rs bs -> utf8s (r :: rs) (b ++ bs).

(** The last [n] elements of a list. *)
Definition last_n {A} (n : nat) (l : list A) : list A := drop (length l - n) l.
