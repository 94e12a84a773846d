(** Independent specifications for the native values (C17-C20). *)
From Verif Require Import Base Native.

(** The value of the last Set of [k] in a history. *)
Definition last_set (ops : list (string * ast)) (k : string) : option ast :=
  snd <$> last (filter (fun p => fst p = k) ops).

(** [K] lists the keys of [ops] that are not in [old], each once, in the order
    in which they are first set. *)
Definition in_first_set_order (old : list string) (ops : list (string * ast)) (K : list string) : Prop :=
  NoDup K /\
  (forall k, k ∈ K <-> k ∈ ops.*1 /\ k ∉ old) /\
  (forall K1 K2 K3 a b, K = K1 ++ a :: K2 ++ b :: K3 ->
     exists p1 p2 v, ops = p1 ++ (a, v) :: p2 /\ b ∉ p1.*1).

(** Lexicographic order on byte strings. *)
Inductive bytes_le : bytes -> bytes -> Prop :=
| bytes_le_nil s : bytes_le [] s
| bytes_le_lt x y s t : (x < y)%N -> bytes_le (x :: s) (y :: t)
| bytes_le_eq x s t : bytes_le s t -> bytes_le (x :: s) (x :: t).

(** Decimal notation. *)
Definition digits_value (ds : bytes) : Z :=
  foldl (fun acc d => acc * 10 + (Z.of_N d - 48))%Z 0%Z ds.
Definition is_digits (ds : bytes) : Prop := ds <> [] /\ Forall (fun d => 48 <= d <= 57)%N ds.
Inductive denotes : bytes -> Z -> Prop :=
| denotes_plain ds : is_digits ds -> denotes ds (digits_value ds)
| denotes_plus ds : is_digits ds -> denotes (43%N :: ds) (digits_value ds)
| denotes_minus ds : is_digits ds -> denotes (45%N :: ds) (- digits_value ds).
(** No superfluous sign or leading zero. *)
Definition canonical (s : bytes) : Prop :=
  s = [48%N] \/
  exists d ds, (49 <= d <= 57)%N /\ (s = d :: ds \/ s = 45%N :: d :: ds).

(** The flattened text of a nested native value.  [maps] tells whether
    NativeMaps may occur; inside arrays they may not. *)
Inductive flat (h : heap) : bool -> ast -> bytes -> Prop :=
| flat_str b s : flat h b (AStr s) s
| flat_int b z s : denotes s z -> canonical s -> flat h b (AInt z) s
| flat_undef b : flat h b AUndef []
| flat_arr b l s : flats h false l s -> flat h b (AArr l) s
| flat_map a m at_ vs s :
    h !! a = Some (Obj (OMap m) at_) ->
    Forall2 (fun k v => nm_get m k = Some v) (nm_keys m) vs ->
    flats h true vs s -> flat h true (AObj a) s
with flats (h : heap) : bool -> list ast -> bytes -> Prop :=
| flats_nil b : flats h b [] []
| flats_cons b x s l t : flat h b x s -> flats h b l t -> flats h b (x :: l) (s ++ t).
