(** Specification words for C104 to C107, without the model's functions. *)
From Verif Require Import Base Utf8Spec Native Small.
Local Open Scope list_scope.

(** The bytes outside ASCII. *)
Definition foreign (s : bytes) : bytes := List.filter (fun b => (128 <=? b)%N) s.

(** A call that sets nothing. *)
Definition asks (o : aop) : bool :=
  match o with OpSetLine _ | OpSetOrigin _ => false | _ => true end.
(** The origin without the name of its rule. *)
Definition nameless (o : origin) : origin := Origin (or_code o) (or_start o) (or_end o) (or_line o) "".
