(** Model of the typed getters of NativeMap and of NewNativeIntFromBool. *)
From Verif Require Import Base Native.

(** native_map.go:93-106, [GetStringExists]. *)
Definition nm_get_string_exists (ostr : ast -> bytes) (fuel : nat) (h : heap) (m : nmap) (k : string) : res (bytes * bool) :=
  match nm_get m k with
  | Some (AStr s) => ROk (s, true)
  | Some (AArr l) => let* s := concat_arr ostr fuel h l in ROk (s, true)
  | Some _ => RPanic (PMsg "unexpected type")
  | None => ROk ([], false)
  end.

(** native_map.go:111-134, [GetIntExists]. *)
Definition nm_get_int_exists (ostr : ast -> bytes) (fuel : nat) (h : heap) (m : nmap) (k : string) : res (Z * bool) :=
  match nm_get m k with
  | Some (AInt z) => ROk (z, true)
  | Some (AStr s) => match atoi s with Some z => ROk (z, true) | None => RPanic (PMsg "Could not Atoi") end
  | Some (AArr l) =>
      let* s := concat_arr ostr fuel h l in
      match atoi s with Some z => ROk (z, true) | None => RPanic (PMsg "Could not Atoi") end
  | Some _ => RPanic (PMsg "Could not get Int from")
  | None => ROk (0%Z, false)
  end.

(** native_int.go:12-18 and :54. *)
Definition int_from_bool (b : bool) : Z := if b then 1 else 0.
Definition int_bool (z : Z) : bool := negb (z =? 0)%Z.
