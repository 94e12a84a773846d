(** The getters of NativeMap (C56). *)
From Verif Require Import Base Native NativeSpec NativeProofs Access AccessProofs.

(** IsUndefined: the key is missing, or its value is undefined. *)
Theorem C56_undefined : forall (ops : list (string * ast)) (k : string),
  let m := fold_left (fun m p => nm_set m (fst p) (snd p)) ops nm_empty in
  nm_is_undefined m k = true <-> last_set ops k = None \/ last_set ops k = Some AUndef.
Proof. exact undefined_spec. Qed.
Print Assumptions C56_undefined.

(** GetOrPanic and GetWhicheverOrPanic: the value of the key, or of the first
    of the keys that is there; a panic when there is none. *)
Theorem C56_or_panic : forall (ops : list (string * ast)) (k : string),
  let m := fold_left (fun m p => nm_set m (fst p) (snd p)) ops nm_empty in
  (forall v, nm_get_or_panic m k = ROk v <-> last_set ops k = Some v) /\
  (last_set ops k = None -> exists p, nm_get_or_panic m k = RPanic (PMsg p)).
Proof. exact get_or_panic_spec. Qed.
Print Assumptions C56_or_panic.
Theorem C56_whichever : forall (ops : list (string * ast)) (ks : list string),
  let m := fold_left (fun m p => nm_set m (fst p) (snd p)) ops nm_empty in
  (forall v, nm_get_whichever m ks = ROk v <->
     exists k1 k k2, ks = k1 ++ k :: k2 /\ Forall (fun x => last_set ops x = None) k1 /\ last_set ops k = Some v) /\
  (Forall (fun x => last_set ops x = None) ks -> exists p, nm_get_whichever m ks = RPanic (PMsg p)).
Proof. exact whichever_spec. Qed.
Print Assumptions C56_whichever.

(** GetStringExists: the text of a string, or of nested arrays; false for a
    missing key; a panic for anything else. *)
Theorem C56_string : forall ostr fuel h (ops : list (string * ast)) (k : string),
  let m := fold_left (fun m p => nm_set m (fst p) (snd p)) ops nm_empty in
  match last_set ops k with
  | None => nm_get_string_exists ostr fuel h m k = ROk ([], false)
  | Some (AStr s) => nm_get_string_exists ostr fuel h m k = ROk (s, true)
  | Some (AArr l) => forall s, flat h false (AArr l) s -> exists n, forall fuel, n <= fuel -> nm_get_string_exists ostr fuel h m k = ROk (s, true)
  | Some _ => exists p, nm_get_string_exists ostr fuel h m k = RPanic (PMsg p)
  end.
Proof. exact string_exists_spec. Qed.
Print Assumptions C56_string.

(** GetIntExists: an int, or the number written by a string or by nested
    arrays. *)
Theorem C56_int : forall ostr fuel h (ops : list (string * ast)) (k : string),
  let m := fold_left (fun m p => nm_set m (fst p) (snd p)) ops nm_empty in
  match last_set ops k with
  | None => nm_get_int_exists ostr fuel h m k = ROk (0%Z, false)
  | Some (AInt z) => nm_get_int_exists ostr fuel h m k = ROk (z, true)
  | Some (AStr s) =>
      (forall z, nm_get_int_exists ostr fuel h m k = ROk (z, true) <-> denotes s z /\ (- 2 ^ 63 <= z < 2 ^ 63)%Z) /\
      ((forall z, ~ (denotes s z /\ (- 2 ^ 63 <= z < 2 ^ 63)%Z)) -> exists p, nm_get_int_exists ostr fuel h m k = RPanic (PMsg p))
  | Some (AArr l) => forall s z, flat h false (AArr l) s -> denotes s z -> (- 2 ^ 63 <= z < 2 ^ 63)%Z ->
      exists n, forall fuel, n <= fuel -> nm_get_int_exists ostr fuel h m k = ROk (z, true)
  | Some _ => exists p, nm_get_int_exists ostr fuel h m k = RPanic (PMsg p)
  end.
Proof. exact int_exists_all. Qed.
Print Assumptions C56_int.

Example C56_example :
  let ops := [("a", AInt 5); ("b", AUndef); ("c", AStr (s2b "x")); ("a", AArr [AStr (s2b "1"); AArr [AStr (s2b "2")]])]%string in
  let m := fold_left (fun m p => nm_set m (fst p) (snd p)) ops nm_empty in
  nm_is_undefined m "b" = true /\ nm_is_undefined m "c" = false /\ nm_is_undefined m "z" = true /\
  nm_get_whichever m ["z"; "c"; "a"]%string = ROk (AStr (s2b "x")) /\
  nm_get_int_exists (fun _ => []) 3 [] m "a" = ROk (12%Z, true) /\ nm_get_string_exists (fun _ => []) 3 [] m "c" = ROk (s2b "x", true).
Proof. vm_compute. done. Qed.

(** NewNativeIntFromBool and Bool: going there and back gives the boolean, and a
    number comes back as itself exactly if it is 0 or 1. *)
Theorem C56_bool : (forall b, int_bool (int_from_bool b) = b) /\ (forall z, int_from_bool (int_bool z) = z <-> z = 0%Z \/ z = 1%Z).
Proof. exact bool_round. Qed.
Print Assumptions C56_bool.
