(** Properties C01, C02, C03, C04, C06, C07 (helpers). *)
From Verif Require Import Base Helpers HelpersSpec HelpersProofs.

(** C01 *)
Theorem C01_bisect : forall (a : list Z) (n : Z),
  (exists i, bisect_right a n = ROk i /\ i <= length a) /\
  (exists i, bisect_left a n = ROk i /\ i <= length a) /\
  (sorted a ->
     (exists i, bisect_right a n = ROk i /\ splits_right a n i /\
                forall i', splits_right a n i' -> i' = i) /\
     (exists i, bisect_left a n = ROk i /\ splits_left a n i /\
                forall i', splits_left a n i' -> i' = i)).
Proof. exact bisect_props. Qed.
Print Assumptions C01_bisect.

Example C01_nonvacuous :
  sorted [1; 3; 3; 3; 8]%Z /\ bisect_right [1; 3; 3; 3; 8]%Z 3 = ROk 4 /\
  bisect_left [1; 3; 3; 3; 8]%Z 3 = ROk 1.
Proof.
  split; [|split; reflexivity].
  intros i j x y Hx Hy Hij.
  do 5 (destruct i as [|i]; [do 5 (destruct j as [|j]; [cbn in Hx, Hy; simplify_eq; lia|]); cbn in Hy; done|]).
  cbn in Hx; done.
Qed.

(** C02 *)
Theorem C02_insort : forall (a : list Z) (x : Z), sorted a ->
  (exists pre post, a = pre ++ post /\ insort_right a x = ROk (pre ++ x :: post) /\
     sorted (pre ++ x :: post) /\ Forall (fun y => y <= x)%Z pre /\ Forall (fun y => x < y)%Z post) /\
  (exists pre post, a = pre ++ post /\ insort_left a x = ROk (pre ++ x :: post) /\
     sorted (pre ++ x :: post) /\ Forall (fun y => y < x)%Z pre /\ Forall (fun y => x <= y)%Z post).
Proof. exact insort_props. Qed.
Print Assumptions C02_insort.

Example C02_nonvacuous : sorted [1; 5]%Z /\ insort_right [1; 5]%Z 3 = ROk [1; 3; 5]%Z.
Proof.
  split; [|reflexivity].
  intros i j x y Hx Hy Hij.
  do 2 (destruct i as [|i]; [do 2 (destruct j as [|j]; [cbn in Hx, Hy; simplify_eq; lia|]); cbn in Hy; done|]).
  cbn in Hx; done.
Qed.

(** C03 *)
Theorem C03_slice_string : forall (s : bytes) (a b : Z),
  exists r, slice_string s a b = ROk r /\ js_slice_spec s a b r.
Proof. exact slice_string_spec. Qed.
Print Assumptions C03_slice_string.

Example C03_nonvacuous :
  slice_string (s2b "abcdef") (-4) (-1) = ROk (s2b "cde") /\
  slice_string (s2b "abcdef") (-40) 400 = ROk (s2b "abcdef").
Proof. split; reflexivity. Qed.

(** C04 *)
Theorem C04_pad : forall (s : bytes) (n : Z),
  (exists sp, pad_left s n = s ++ sp /\ Forall (eq 32%N) sp) /\
  (exists sp, pad_right s n = sp ++ s /\ Forall (eq 32%N) sp) /\
  Z.of_nat (length (pad_left s n)) = Z.max (Z.of_nat (length s)) n /\
  Z.of_nat (length (pad_right s n)) = Z.max (Z.of_nat (length s)) n.
Proof. exact pad_props. Qed.
Print Assumptions C04_pad.

Example C04_nonvacuous : pad_left (s2b "ab") 4 = s2b "ab  " /\ pad_right (s2b "ab") 4 = s2b "  ab".
Proof. split; reflexivity. Qed.

(** C06 *)
Theorem C06_escape_injective : forall s1 s2 : bytes, escape s1 = escape s2 -> s1 = s2.
Proof. exact escape_inj. Qed.
Print Assumptions C06_escape_injective.

Theorem C06_escape_no_control : forall (s : bytes) (b : N), b ∈ escape s -> ~ control_byte b.
Proof. exact escape_no_control. Qed.
Print Assumptions C06_escape_no_control.

Example C06_nonvacuous : escape (92 :: 110 :: 10 :: nil)%N = [92; 92; 110; 92; 110]%N.
Proof. reflexivity. Qed.

(** C07.  Histories start from a Lazy made by NewLazy; LazyFromValue and
    LazyFromFunc are NewLazy followed by Set or SetLazy. *)
Theorem C07_lazy_at_most_once : forall ev h k,
  forallb (fun o => negb (is_clear o)) k = true ->
  lz_runs (fst (lazy_run ev lazy_new (h ++ k))) <= S (lz_runs (fst (lazy_run ev lazy_new h))).
Proof. exact lazy_runs_at_most_once. Qed.
Print Assumptions C07_lazy_at_most_once.

Theorem C07_lazy_get_after_set : forall ev h z k, forallb keeps k = true ->
  lazy_last_ans ev (h ++ LSet z :: k) LGet = LVal z.
Proof. exact lazy_get_after_set. Qed.
Print Assumptions C07_lazy_get_after_set.

Theorem C07_lazy_get_stable : forall ev h v k, forallb keeps k = true ->
  lazy_last_ans ev h LGet = LVal v ->
  lazy_last_ans ev (h ++ LGet :: k) LGet = LVal v.
Proof. exact lazy_get_stable. Qed.
Print Assumptions C07_lazy_get_stable.

Theorem C07_lazy_panic_iff : forall ev h k, forallb (fun o => negb (is_clear o)) k = true ->
  (h = [] \/ exists h', h = h' ++ [LClear]) ->
  (lazy_last_ans ev (h ++ k) LGet = LPanic <->
   forallb (fun o => negb (is_set o || is_setlazy o)) k = true).
Proof. exact lazy_panic_iff. Qed.
Print Assumptions C07_lazy_panic_iff.

Example C07_nonvacuous :
  snd (lazy_run (fun f n => Z.of_nat (10 * f + n)) lazy_new
         [LSetLazy 3; LGet; LGet; LSet 7; LGet; LClear; LSetLazy 4; LGet; LClear; LGet])
  = [LUnit; LVal 30; LVal 30; LUnit; LVal 7; LUnit; LUnit; LVal 41; LUnit; LPanic].
Proof. reflexivity. Qed.
