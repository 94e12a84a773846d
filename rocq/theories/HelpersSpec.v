(** Independent specifications for the helpers (C01-C04, C06, C07).  These do
    not mention the model's functions. *)
From Verif Require Import Base.

(** [i] splits [a] into elements [<= n] before and [> n] from [i] on. *)
Definition splits_right (a : list Z) (n : Z) (i : nat) : Prop :=
  i <= length a /\
  (forall j x, a !! j = Some x -> j < i -> (x <= n)%Z) /\
  (forall j x, a !! j = Some x -> i <= j -> (n < x)%Z).

(** [i] splits [a] into elements [< n] before and [>= n] from [i] on. *)
Definition splits_left (a : list Z) (n : Z) (i : nat) : Prop :=
  i <= length a /\
  (forall j x, a !! j = Some x -> j < i -> (x < n)%Z) /\
  (forall j x, a !! j = Some x -> i <= j -> (n <= x)%Z).

(** Sorted: every earlier element is at most every later one. *)
Definition sorted (a : list Z) : Prop :=
  forall i j x y, a !! i = Some x -> a !! j = Some y -> i <= j -> (x <= y)%Z.

(** JavaScript's slice: the bytes at index [k], [lo <= k < hi], where negative
    bounds count from the end and bounds are clamped to the text. *)
Definition js_bound (len i : Z) : Z :=
  if (i <? 0)%Z then Z.max 0 (len + i) else Z.min i len.
Definition js_slice_spec (s : bytes) (istart iend : Z) (r : bytes) : Prop :=
  let len := Z.of_nat (length s) in
  let lo := js_bound len istart in
  let hi := js_bound len iend in
  length r = Z.to_nat (hi - lo) /\
  forall k, k < length r -> r !! k = s !! (Z.to_nat lo + k).

(** The bytes that must not appear unescaped. *)
Definition control_byte (b : N) : Prop :=
  In b [7; 8; 9; 10; 11; 12; 13]%N.
