(** Properties of the native values: C17-C20. *)
From Coq Require Import Sorted.
From Verif Require Import Base Native NativeSpec NativeProofs.

(** ** C17 *)
Theorem C17_ordered_map : forall (init ops : list (string * ast)), NoDup init.*1 ->
  let m := fold_left (fun m p => nm_set m (fst p) (snd p)) ops (nm_from_list init) in
  (forall k, nm_get m k = match last_set ops k with
                          | Some v => Some v
                          | None => last_set init k
                          end) /\
  (forall k, nm_exists m k = true <-> k ∈ init.*1 \/ k ∈ ops.*1) /\
  (exists S K, nm_keys m = S ++ K /\ S ≡ₚ init.*1 /\
     StronglySorted (fun a b => bytes_le (s2b a) (s2b b)) S /\ in_first_set_order init.*1 ops K) /\
  NoDup (nm_keys m).
Proof. exact nm_props. Qed.
Print Assumptions C17_ordered_map.

Example C17_example :
  let ini := [("zz"%string, AInt 1); ("b"%string, AInt 2)] in
  let ops := [("y"%string, AInt 3); ("a"%string, AInt 4); ("y"%string, AInt 5); ("b"%string, AInt 6)] in
  let m := fold_left (fun m p => nm_set m (fst p) (snd p)) ops (nm_from_list ini) in
  NoDup ini.*1 /\ nm_keys m = ["b"; "zz"; "y"; "a"]%string /\
  nm_get m "y" = Some (AInt 5) /\ nm_get m "b" = Some (AInt 6) /\ nm_get m "c" = None.
Proof. split; [|done]. apply (bool_decide_unpack _). vm_compute. done. Qed.

(** ** C18.  The code answers the opposite of the question, always. *)
Theorem C18_is_empty_refuted : exists m,
  nm_is_empty m = false /\ nm_keys m = [] /\ exists k v, nm_is_empty (nm_set m k v) = true.
Proof. exists nm_empty. split; [done|]. split; [done|]. by exists "a"%string, AUndef. Qed.
Print Assumptions C18_is_empty_refuted.

Theorem C18_is_empty_inverted : forall (ops : list (string * ast)),
  nm_is_empty (fold_left (fun m p => nm_set m (fst p) (snd p)) ops nm_empty) = true <-> ops <> [].
Proof. exact nm_is_empty_inverted. Qed.
Print Assumptions C18_is_empty_inverted.

(** ** C19.  Arrays at any depth below maps at any depth.  A map inside an
    array is rendered by String instead. *)
Theorem C19_array_concat_partial : forall ostr h l s, flat h false (AArr l) s ->
  exists n, forall fuel, n <= fuel -> concat_arr ostr fuel h l = ROk s.
Proof. intros ostr h. exact (concat_arr_flat ostr h false). Qed.
Print Assumptions C19_array_concat_partial.

Theorem C19_map_concat_partial : forall ostr h a m at_ s,
  h !! a = Some (Obj (OMap m) at_) -> flat h true (AObj a) s ->
  exists n, forall fuel, n <= fuel -> nm_concat ostr fuel h m = ROk s.
Proof. exact nm_concat_flat. Qed.
Print Assumptions C19_map_concat_partial.

Example C19_example :
  let m1 := NMap ["x"; "y"]%string [("y", AInt (-12)); ("x", AArr [AStr (s2b "p"); AUndef; AArr [AInt 7]])]%string in
  let m0 := NMap ["u"; "v"; "w"]%string [("u", AObj 1); ("v", AUndef); ("w", AStr (s2b "!"))]%string in
  let h := [Obj (OMap m0) attr0; Obj (OMap m1) attr0] in
  flat h true (AObj 0) (s2b "p7-12!") /\ nm_concat (fun _ => []) 5 h m0 = ROk (s2b "p7-12!").
Proof.
  intros m1 m0 h. split; [|done].
  assert (forall z s, itoa z = s -> denotes s z /\ canonical s) as HI.
  { intros z s <-. split; [apply itoa_denotes|apply itoa_canonical]. }
  destruct (HI 7%Z (s2b "7") eq_refl), (HI (-12)%Z (s2b "-12") eq_refl).
  eapply (flat_map h 0 m0 attr0 [AObj 1; AUndef; AStr (s2b "!")]); [done|repeat constructor|].
  apply (flats_cons h true (AObj 1) (s2b "p7-12") _ (s2b "!")).
  - eapply (flat_map h 1 m1 attr0); [done|repeat constructor|].
    apply (flats_cons h true _ (s2b "p7") _ (s2b "-12")).
    + constructor. apply (flats_cons h false _ (s2b "p") _ (s2b "7")); [constructor|].
      apply (flats_cons h false _ [] _ (s2b "7")); [constructor|].
      apply (flats_cons h false _ (s2b "7") _ []); [|constructor].
      constructor. apply (flats_cons h false _ (s2b "7") _ []); [by constructor|constructor].
    + apply (flats_cons h true _ (s2b "-12") _ []); [by constructor|constructor].
  - apply (flats_cons h true _ [] _ (s2b "!")); [constructor|].
    apply (flats_cons h true _ (s2b "!") _ []); constructor.
Qed.

(** A map inside an array: keys and punctuation appear in the "text". *)
Theorem C19_map_in_array_refuted : exists h a m,
  h !! a = Some (Obj (OMap m) attr0) /\
  flat h true (AObj a) (s2b "v") /\
  forall ostr fuel, 2 < fuel -> concat_arr ostr fuel h [AObj a] = ROk (s2b "NativeMap{k:v}").
Proof.
  exists [Obj (OMap (NMap ["k"%string] [("k"%string, AStr (s2b "v"))])) attr0], 0,
    (NMap ["k"%string] [("k"%string, AStr (s2b "v"))]).
  split; [done|]. split.
  - eapply flat_map; [done|repeat constructor|].
    apply (flats_cons _ true _ (s2b "v") _ []); constructor.
  - intros ostr fuel Hf. destruct fuel as [|[|[|fuel]]]; [lia..|]. done.
Qed.
Print Assumptions C19_map_in_array_refuted.

(** ** C20 *)
Theorem C20_int_round_trip : forall ostr fuel h z, (- 2 ^ 63 <= z < 2 ^ 63)%Z ->
  exists s, native_string_from ostr fuel h (AInt z) = ROk (AStr s) /\
            denotes s z /\ canonical s /\
            native_int_from ostr fuel h (AStr s) = ROk (AInt z).
Proof. exact int_round_trip. Qed.
Print Assumptions C20_int_round_trip.

Theorem C20_int_from_text : forall ostr fuel h s,
  (forall z, native_int_from ostr fuel h (AStr s) = ROk (AInt z) <->
             denotes s z /\ (- 2 ^ 63 <= z < 2 ^ 63)%Z) /\
  ((exists z, native_int_from ostr fuel h (AStr s) = ROk (AInt z)) \/
   (exists p, native_int_from ostr fuel h (AStr s) = RPanic p)).
Proof. exact int_from_text. Qed.
Print Assumptions C20_int_from_text.

(** The same through an array of digits, the shape that [[0-9]+]-like patterns
    produce. *)
Theorem C20_int_from_array : forall ostr h l s z,
  flat h false (AArr l) s -> denotes s z -> (- 2 ^ 63 <= z < 2 ^ 63)%Z ->
  exists n, forall fuel, n <= fuel -> native_int_from ostr fuel h (AArr l) = ROk (AInt z).
Proof. exact int_from_array. Qed.
Print Assumptions C20_int_from_array.

Example C20_example :
  native_int_from (fun _ => []) 0 [] (AStr (s2b "-0042")) = ROk (AInt (-42)) /\
  denotes (s2b "-0042") (-42) /\
  native_int_from (fun _ => []) 9 [] (AArr [AStr (s2b "4"); AArr [AUndef; AStr (s2b "2")]]) = ROk (AInt 42) /\
  (exists p, native_int_from (fun _ => []) 0 [] (AStr (s2b "9223372036854775808")) = RPanic p) /\
  native_int_from (fun _ => []) 0 [] (AStr (s2b "-9223372036854775808")) = ROk (AInt (- 2 ^ 63)).
Proof.
  split; [done|]. split; [|split; [done|]; split; [by eexists|done]].
  apply (denotes_minus (s2b "0042")). split; [done|]. repeat constructor; done.
Qed.
