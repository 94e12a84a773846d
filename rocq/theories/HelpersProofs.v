(** Lemmas about Helpers.v. *)
From Verif Require Import Base Helpers HelpersSpec.

(** ** search *)
Lemma search_loop_total f n : (forall h, h < n -> is_Some (f h)) ->
  forall fuel i j, j - i < fuel -> i <= j -> j <= n ->
  exists k, search_loop fuel f i j = ROk k /\ i <= k <= j.
Proof.
  intros Hf fuel. induction fuel as [|fuel IH]; intros i j Hm Hij Hj; [lia|].
  cbn [search_loop]. destruct (Nat.ltb_spec i j).
  - assert (i <= (i + j) / 2 < j) by lia.
    destruct (Hf ((i + j) / 2)) as [b Hb]; [lia|]. rewrite Hb.
    destruct b.
    + destruct (IH i ((i + j) / 2)) as (k & -> & ?); [lia..|]. exists k; split; [done|lia].
    + destruct (IH ((i + j) / 2 + 1) j) as (k & -> & ?); [lia..|]. exists k; split; [done|lia].
  - exists i. split; [done|lia].
Qed.

(** Correctness for a monotone predicate [P] decided by [f]. *)
Lemma search_loop_correct f n (P : nat -> Prop) :
  (forall h, h < n -> f h = Some true /\ P h \/ f h = Some false /\ ~ P h) ->
  (forall a b, a <= b -> b < n -> P a -> P b) ->
  forall fuel i j, j - i < fuel -> i <= j -> j <= n ->
  (forall k, k < i -> ~ P k) -> (forall k, j <= k -> k < n -> P k) ->
  exists k, search_loop fuel f i j = ROk k /\ k <= n /\
    (forall l, l < k -> ~ P l) /\ (forall l, k <= l -> l < n -> P l).
Proof.
  intros Hf Hmon fuel. induction fuel as [|fuel IH]; intros i j Hm Hij Hj Hlo Hhi; [lia|].
  cbn [search_loop]. destruct (Nat.ltb_spec i j).
  - set (h := (i + j) / 2). assert (i <= h < j) by (subst h; lia).
    destruct (Hf h) as [[-> HP]|[-> HP]]; [lia|..].
    + apply IH; try lia; [done|]. intros k ? ?. apply (Hmon h k); [lia..|done].
    + apply IH; try lia; [|done]. intros k ? ?.
      apply HP. apply (Hmon k h); [lia..|done].
  - exists i. split; [done|]. split; [lia|]. split; [done|].
    intros l ? ?. apply Hhi; lia.
Qed.

Lemma bisect_right_total a n :
  exists i, bisect_right a n = ROk i /\ i <= length a.
Proof.
  unfold bisect_right, search.
  destruct (search_loop_total
    (fun i => (fun x => (n <? x)%Z) <$> (a !! i)) (length a)) with (fuel := S (length a)) (i := 0) (j := length a)
    as (k & Hk & ?); [|lia..|].
  - intros h Hh. apply lookup_lt_is_Some in Hh as [x Hx]. rewrite Hx. by eexists.
  - exists k. split; [done|lia].
Qed.

Lemma bisect_left_total a n :
  exists i, bisect_left a n = ROk i /\ i <= length a.
Proof.
  unfold bisect_left, search.
  destruct (search_loop_total
    (fun i => (fun x => (n <=? x)%Z) <$> (a !! i)) (length a)) with (fuel := S (length a)) (i := 0) (j := length a)
    as (k & Hk & ?); [|lia..|].
  - intros h Hh. apply lookup_lt_is_Some in Hh as [x Hx]. rewrite Hx. by eexists.
  - exists k. split; [done|lia].
Qed.

Lemma bisect_right_split a n : sorted a ->
  exists i, bisect_right a n = ROk i /\ splits_right a n i.
Proof.
  intros Hs. unfold bisect_right, search.
  destruct (search_loop_correct
    (fun i => (fun x => (n <? x)%Z) <$> (a !! i)) (length a)
    (fun i => exists x, a !! i = Some x /\ (n < x)%Z))
    with (fuel := S (length a)) (i := 0) (j := length a)
    as (k & Hk & Hle & Hlo & Hhi); try lia.
  - intros h Hh. apply lookup_lt_is_Some in Hh as [x Hx]. rewrite Hx. cbn.
    destruct (Z.ltb_spec n x).
    + left. split; [done|]. by exists x.
    + right. split; [done|]. intros (y & ? & ?). simplify_eq. lia.
  - intros i j Hij Hj (x & Hx & ?). apply lookup_lt_is_Some in Hj as [y Hy].
    exists y. split; [done|]. specialize (Hs i j x y Hx Hy Hij). lia.
  - exists k. split; [done|]. split; [done|]. split.
    + intros j x Hj Hjk. destruct (Z.le_gt_cases x n); [done|].
      exfalso. apply (Hlo j Hjk). exists x. split; [done|lia].
    + intros j x Hj Hkj. destruct (Hhi j Hkj) as (y & Hy & ?).
      { by eapply lookup_lt_Some. }
      by simplify_eq.
Qed.

Lemma bisect_left_split a n : sorted a ->
  exists i, bisect_left a n = ROk i /\ splits_left a n i.
Proof.
  intros Hs. unfold bisect_left, search.
  destruct (search_loop_correct
    (fun i => (fun x => (n <=? x)%Z) <$> (a !! i)) (length a)
    (fun i => exists x, a !! i = Some x /\ (n <= x)%Z))
    with (fuel := S (length a)) (i := 0) (j := length a)
    as (k & Hk & Hle & Hlo & Hhi); try lia.
  - intros h Hh. apply lookup_lt_is_Some in Hh as [x Hx]. rewrite Hx. cbn.
    destruct (Z.leb_spec n x).
    + left. split; [done|]. by exists x.
    + right. split; [done|]. intros (y & ? & ?). simplify_eq. lia.
  - intros i j Hij Hj (x & Hx & ?). apply lookup_lt_is_Some in Hj as [y Hy].
    exists y. split; [done|]. specialize (Hs i j x y Hx Hy Hij). lia.
  - exists k. split; [done|]. split; [done|]. split.
    + intros j x Hj Hjk. destruct (Z.lt_ge_cases x n); [done|].
      exfalso. apply (Hlo j Hjk). exists x. split; [done|lia].
    + intros j x Hj Hkj. destruct (Hhi j Hkj) as (y & Hy & ?).
      { by eapply lookup_lt_Some. }
      by simplify_eq.
Qed.

Lemma splits_right_unique a n i j : splits_right a n i -> splits_right a n j -> i = j.
Proof.
  intros (Hi & Hi1 & Hi2) (Hj & Hj1 & Hj2).
  destruct (Nat.lt_trichotomy i j) as [H|[H|H]]; [|done|].
  - destruct (lookup_lt_is_Some_2 a i) as [x Hx]; [lia|].
    pose proof (Hi2 i x Hx). pose proof (Hj1 i x Hx). lia.
  - destruct (lookup_lt_is_Some_2 a j) as [x Hx]; [lia|].
    pose proof (Hj2 j x Hx). pose proof (Hi1 j x Hx). lia.
Qed.

Lemma splits_left_unique a n i j : splits_left a n i -> splits_left a n j -> i = j.
Proof.
  intros (Hi & Hi1 & Hi2) (Hj & Hj1 & Hj2).
  destruct (Nat.lt_trichotomy i j) as [H|[H|H]]; [|done|].
  - destruct (lookup_lt_is_Some_2 a i) as [x Hx]; [lia|].
    pose proof (Hi2 i x Hx). pose proof (Hj1 i x Hx). lia.
  - destruct (lookup_lt_is_Some_2 a j) as [x Hx]; [lia|].
    pose proof (Hj2 j x Hx). pose proof (Hi1 j x Hx). lia.
Qed.

(** ** insort *)
Lemma insert_at_app a i v : i <= length a ->
  insert_at a i v = ROk (take i a ++ v :: drop i a).
Proof.
  intros Hi. unfold insert_at.
  destruct (Nat.ltb_spec (length a) i); [lia|]. f_equal.
  assert (Hl : length (take i a) = i) by (rewrite take_length; lia).
  rewrite <- (take_drop i a) at 1 2 3.
  rewrite <- (app_assoc (take i a)).
  rewrite (take_add_app _ _ i 1) by done.
  rewrite drop_app_alt by done.
  rewrite !app_length, Hl.
  destruct (drop i a) as [|x r] eqn:E.
  - cbn [app take length]. replace (i + (0 + 1) - (i + 1)) with 0 by lia. cbn [take].
    rewrite app_nil_r. rewrite insert_app_r_alt by lia.
    replace (i - length (take i a)) with 0 by lia. done.
  - cbn [app take length].
    replace (i + (S (length r) + 1) - (i + 1)) with (length (x :: r)) by (cbn [length]; lia).
    rewrite (app_comm_cons r [0%Z] x), (take_app (x :: r)), take_0.
    rewrite <- app_assoc. rewrite insert_app_r_alt by lia.
    replace (i - length (take i a)) with 0 by lia. done.
Qed.

Lemma sorted_insert a i v :
  sorted a -> i <= length a ->
  (forall j x, a !! j = Some x -> j < i -> (x <= v)%Z) ->
  (forall j x, a !! j = Some x -> i <= j -> (v <= x)%Z) ->
  sorted (take i a ++ v :: drop i a).
Proof.
  intros Hs Hi Hlo Hhi.
  assert (Hl : length (take i a) = i) by (rewrite take_length; lia).
  assert (Hlk : forall k x, (take i a ++ v :: drop i a) !! k = Some x ->
     k < i /\ a !! k = Some x \/ k = i /\ x = v \/ i < k /\ a !! (k - 1) = Some x).
  { intros k x Hk. apply lookup_app_Some in Hk as [Hk|[Hge Hk]].
    - left. apply lookup_take_Some in Hk as [? ?]. split; [lia|done].
    - right. rewrite Hl in Hge, Hk. destruct (k - i) as [|m] eqn:E.
      + left. cbn in Hk. simplify_eq. split; [lia|done].
      + right. change (drop i a !! m = Some x) in Hk. rewrite lookup_drop in Hk. split; [lia|].
        replace (k - 1) with (i + m) by lia. done. }
  intros p q x y Hp Hq Hpq.
  destruct (Hlk p x Hp) as [[? Hx]|[[? ->]|[? Hx]]];
  destruct (Hlk q y Hq) as [[? Hy]|[[? ->]|[? Hy]]]; try lia.
  - by apply (Hs p q).
  - by apply (Hlo p).
  - apply (Hs p (q - 1)); [done..|lia].
  - apply (Hhi (q - 1)); [done|lia].
  - apply (Hs (p - 1) (q - 1)); [done..|lia].
Qed.

Lemma insert_perm (a : list Z) i v : take i a ++ v :: drop i a ≡ₚ v :: a.
Proof.
  rewrite <- (take_drop i a) at 3. symmetry. apply Permutation_middle.
Qed.

(** ** SliceString *)
Lemma slice_lookup s i j k : k < j - i -> slice s i j !! k = s !! (i + k).
Proof. intros. unfold slice. rewrite lookup_take by lia. apply lookup_drop. Qed.

Lemma slice_string_spec s a b :
  exists r, slice_string s a b = ROk r /\ js_slice_spec s a b r.
Proof.
  unfold slice_string, js_slice_spec, js_bound.
  set (len := Z.of_nat (length s)).
  destruct (Z.leb_spec len a).
  { exists []. split; [done|]. cbn [length]. split; [|lia].
    destruct (Z.ltb_spec a 0), (Z.ltb_spec b 0); lia. }
  assert (Hjs : js_bound len a = (if (a <? 0)%Z then Z.max (a + len) 0 else a)).
  { unfold js_bound. destruct (Z.ltb_spec a 0); lia. }
  fold (js_bound len a). rewrite Hjs.
  set (a' := if (a <? 0)%Z then Z.max (a + len) 0 else a) in *.
  assert (0 <= a' <= len)%Z by (subst a'; destruct (Z.ltb_spec a 0); lia).
  set (b' := if (b <? 0)%Z then Z.max (b + len) 0 else b).
  assert (Hb : (if (b <? 0)%Z then Z.max 0 (len + b) else Z.min b len) = Z.min b' len).
  { subst b'. destruct (Z.ltb_spec b 0); lia. }
  rewrite Hb.
  destruct (Z.leb_spec b' a').
  { exists []. split; [done|]. cbn [length]. split; lia. }
  set (b'' := if (len <? b')%Z then len else b').
  assert (b'' = Z.min b' len)%Z as Eb by (subst b''; destruct (Z.ltb_spec len b'); lia).
  destruct (Z.ltb_spec a' 0), (Z.ltb_spec b'' a'), (Z.ltb_spec len b''); try lia; cbn [orb].
  eexists. split; [reflexivity|]. rewrite length_slice by lia. split; [lia|].
  intros k Hk. rewrite slice_lookup by lia. done.
Qed.

(** ** Escape *)
(** Explicit inverse of [escape]. *)
Definition unescape_byte (b : N) : N :=
  if (b =? 110)%N then 10%N else if (b =? 114)%N then 13%N
  else if (b =? 116)%N then 9%N else if (b =? 97)%N then 7%N
  else if (b =? 102)%N then 12%N else if (b =? 98)%N then 8%N
  else if (b =? 118)%N then 11%N else b.
Fixpoint unescape (s : bytes) : bytes :=
  match s with
  | [] => []
  | b :: r =>
      if (b =? backslash)%N
      then match r with
           | [] => [b]
           | c :: r' => unescape_byte c :: unescape r'
           end
      else b :: unescape r
  end.

Lemma escape_cons b s : escape (b :: s) = escape_byte b ++ escape s.
Proof. done. Qed.

Lemma unescape_escape s : unescape (escape s) = s.
Proof.
  induction s as [|b s IH]; [done|]. rewrite escape_cons.
  unfold escape_byte.
  repeat (case_match; [cbn; rewrite IH; f_equal; symmetry; by apply N.eqb_eq|]).
  cbn [app unescape]. rewrite IH.
  destruct (b =? backslash)%N eqn:E; [|done]. congruence.
Qed.

Lemma escape_no_control s b : b ∈ escape s -> ~ control_byte b.
Proof.
  unfold escape. rewrite elem_of_list_bind. intros (c & Hb & _) Hc.
  unfold control_byte in Hc. cbn in Hc.
  unfold escape_byte in Hb.
  repeat match type of Hb with
  | context [if (c =? ?k)%N then _ else _] => destruct (N.eqb_spec c k)
  end; unfold backslash in *; repeat (apply elem_of_cons in Hb as [Hb|Hb]); try (by apply elem_of_nil in Hb); lia.
Qed.

(** ** Lazy *)
Definition is_clear (o : lazy_op) : bool := match o with LClear => true | _ => false end.
Definition is_set (o : lazy_op) : bool := match o with LSet _ => true | _ => false end.
Definition is_setlazy (o : lazy_op) : bool := match o with LSetLazy _ => true | _ => false end.

Lemma lazy_run_app ev l h1 h2 :
  lazy_run ev l (h1 ++ h2) =
  (fst (lazy_run ev (fst (lazy_run ev l h1)) h2),
   snd (lazy_run ev l h1) ++ snd (lazy_run ev (fst (lazy_run ev l h1)) h2)).
Proof.
  revert l. induction h1 as [|o h1 IH]; intros l.
  - cbn. by destruct (lazy_run ev l h2).
  - cbn. destruct (lazy_step ev l o) as [l1 a]. rewrite IH.
    destruct (lazy_run ev l1 h1) as [l2 r]. done.
Qed.

Lemma lazy_no_clear_runs ev l h : forallb (fun o => negb (is_clear o)) h = true ->
  lz_runs (fst (lazy_run ev l h)) <= lz_runs l + (if lz_val l then 0 else 1) /\
  (lz_val l <> None -> lz_val (fst (lazy_run ev l h)) <> None).
Proof.
  revert l. induction h as [|o h IH]; intros l Hh; cbn [lazy_run fst forallb] in *.
  - split; [lia|done].
  - apply andb_true_iff in Hh as [Ho Hh].
    destruct (lazy_step ev l o) as [l1 a] eqn:E. specialize (IH l1 Hh).
    destruct (lazy_run ev l1 h) as [l2 r]. cbn [fst] in *.
    destruct o; cbn in E, Ho; try done; simplify_eq; cbn in *; try (by intuition).
    + destruct IH as [IH1 IH2]. split; [lia|]. intros _. apply IH2. done.
    + destruct l as [[v|] [f|] n]; cbn in *; simplify_eq; cbn in *; try (by intuition).
      destruct IH as [IH1 IH2]. split; [lia|]. intros ?. by apply IH2.
Qed.

Definition keeps (o : lazy_op) : bool := negb (is_clear o || is_set o).

Lemma lazy_keeps_value ev l h v : forallb keeps h = true -> lz_val l = Some v ->
  lz_val (fst (lazy_run ev l h)) = Some v.
Proof.
  revert l. induction h as [|o h IH]; intros l Hh Hv; [done|].
  cbn [lazy_run forallb] in *. apply andb_true_iff in Hh as [Ho Hh].
  destruct (lazy_step ev l o) as [l1 a] eqn:E.
  assert (lz_val l1 = Some v).
  { destruct l as [v' f n]; cbn in Hv; subst v'. destruct o; cbn in E, Ho; try done; simplify_eq; done. }
  specialize (IH l1 Hh H). by destruct (lazy_run ev l1 h).
Qed.

Lemma lazy_unset_iff ev h :
  forallb (fun o => negb (is_set o || is_setlazy o)) h = true ->
  forall l, lz_val l = None -> lz_f l = None ->
  lz_val (fst (lazy_run ev l h)) = None /\ lz_f (fst (lazy_run ev l h)) = None.
Proof.
  induction h as [|o h IH]; intros Hh l Hv Hf; [done|].
  cbn [lazy_run forallb] in *. apply andb_true_iff in Hh as [Ho Hh].
  destruct (lazy_step ev l o) as [l1 a] eqn:E.
  assert (lz_val l1 = None /\ lz_f l1 = None) as [? ?].
  { destruct l as [v' f n]; cbn in Hv, Hf; subst. destruct o; cbn in E, Ho; try done; by simplify_eq. }
  specialize (IH Hh l1). by destruct (lazy_run ev l1 h); apply IH.
Qed.

Lemma lazy_has_after ev h :
  forallb (fun o => negb (is_clear o)) h = true ->
  forall l, (existsb (fun o => is_set o || is_setlazy o) h = true \/ lz_val l <> None \/ lz_f l <> None) ->
  lz_val (fst (lazy_run ev l h)) <> None \/ lz_f (fst (lazy_run ev l h)) <> None.
Proof.
  induction h as [|o h IH]; intros Hh l Hv.
  - cbn in *. destruct Hv; [done|]. done.
  - cbn [lazy_run forallb existsb] in *. apply andb_true_iff in Hh as [Ho Hh].
    destruct (lazy_step ev l o) as [l1 a] eqn:E.
    assert (existsb (fun o => is_set o || is_setlazy o) h = true \/ lz_val l1 <> None \/ lz_f l1 <> None) as Hl1.
    { destruct l as [v' f n]; destruct o; cbn in E, Ho, Hv; try done; simplify_eq; cbn; try (by intuition).
      all: destruct v', f; simplify_eq; cbn; intuition (try discriminate). }
    specialize (IH Hh l1 Hl1). by destruct (lazy_run ev l1 h).
Qed.

(** ** Final forms used by the property file *)
Lemma bisect_props a n :
  (exists i, bisect_right a n = ROk i /\ i <= length a) /\
  (exists i, bisect_left a n = ROk i /\ i <= length a) /\
  (sorted a ->
     (exists i, bisect_right a n = ROk i /\ splits_right a n i /\
                forall i', splits_right a n i' -> i' = i) /\
     (exists i, bisect_left a n = ROk i /\ splits_left a n i /\
                forall i', splits_left a n i' -> i' = i)).
Proof.
  split; [apply bisect_right_total|]. split; [apply bisect_left_total|].
  intros Hs. split.
  - destruct (bisect_right_split a n Hs) as (i & ? & ?). exists i. split; [done|]. split; [done|].
    intros i' ?. by eapply splits_right_unique.
  - destruct (bisect_left_split a n Hs) as (i & ? & ?). exists i. split; [done|]. split; [done|].
    intros i' ?. by eapply splits_left_unique.
Qed.

Lemma insort_props a x : sorted a ->
  (exists pre post, a = pre ++ post /\ insort_right a x = ROk (pre ++ x :: post) /\
     sorted (pre ++ x :: post) /\ Forall (fun y => y <= x)%Z pre /\ Forall (fun y => x < y)%Z post) /\
  (exists pre post, a = pre ++ post /\ insort_left a x = ROk (pre ++ x :: post) /\
     sorted (pre ++ x :: post) /\ Forall (fun y => y < x)%Z pre /\ Forall (fun y => x <= y)%Z post).
Proof.
  intros Hs. split.
  - destruct (bisect_right_split a x Hs) as (i & Hb & Hi & Hlo & Hhi).
    exists (take i a), (drop i a). split; [by rewrite take_drop|].
    split. { unfold insort_right. rewrite Hb. cbn [rbind]. by apply insert_at_app. }
    split. { apply sorted_insert; try done. intros j y Hy Hj. specialize (Hhi j y Hy Hj). lia. }
    split; apply Forall_lookup; intros j y Hy.
    + apply lookup_take_Some in Hy as [Hy ?]. by eapply Hlo.
    + rewrite lookup_drop in Hy. eapply Hhi; [done|lia].
  - destruct (bisect_left_split a x Hs) as (i & Hb & Hi & Hlo & Hhi).
    exists (take i a), (drop i a). split; [by rewrite take_drop|].
    split. { unfold insort_left. rewrite Hb. cbn [rbind]. by apply insert_at_app. }
    split. { apply sorted_insert; try done. intros j y Hy Hj. specialize (Hlo j y Hy Hj). lia. }
    split; apply Forall_lookup; intros j y Hy.
    + apply lookup_take_Some in Hy as [Hy ?]. by eapply Hlo.
    + rewrite lookup_drop in Hy. eapply Hhi; [done|lia].
Qed.

Lemma pad_props s n :
  (exists sp, pad_left s n = s ++ sp /\ Forall (eq 32%N) sp) /\
  (exists sp, pad_right s n = sp ++ s /\ Forall (eq 32%N) sp) /\
  Z.of_nat (length (pad_left s n)) = Z.max (Z.of_nat (length s)) n /\
  Z.of_nat (length (pad_right s n)) = Z.max (Z.of_nat (length s)) n.
Proof.
  unfold pad_left, pad_right.
  destruct (Z.ltb_spec (Z.of_nat (length s)) n).
  - rewrite !app_length, !replicate_length.
    split; [eexists; split; [done|by apply Forall_replicate]|].
    split; [eexists; split; [done|by apply Forall_replicate]|]. lia.
  - split; [exists []; split; [by rewrite app_nil_r|done]|].
    split; [exists []; split; [done|done]|]. lia.
Qed.

Lemma escape_inj s1 s2 : escape s1 = escape s2 -> s1 = s2.
Proof. intros H. rewrite <- (unescape_escape s1), <- (unescape_escape s2). by rewrite H. Qed.

(** The answer given to the last call of history [h ++ [o]]. *)
Definition lazy_last_ans ev (h : list lazy_op) (o : lazy_op) : lazy_ans :=
  snd (lazy_step ev (fst (lazy_run ev lazy_new h)) o).

Lemma lazy_run_snoc ev h o :
  snd (lazy_run ev lazy_new (h ++ [o])) = snd (lazy_run ev lazy_new h) ++ [lazy_last_ans ev h o].
Proof.
  rewrite lazy_run_app. cbn [snd fst]. f_equal. unfold lazy_last_ans. cbn.
  by destruct (lazy_step ev _ o).
Qed.

Lemma lazy_get_after_set ev h z k : forallb keeps k = true ->
  lazy_last_ans ev (h ++ LSet z :: k) LGet = LVal z.
Proof.
  intros Hk. unfold lazy_last_ans. rewrite lazy_run_app. cbn [fst].
  set (l := fst (lazy_run ev lazy_new h)). cbn [lazy_run lazy_step].
  destruct (lazy_run ev _ k) as [l2 r] eqn:E. cbn [fst].
  assert (lz_val l2 = Some z) as Hv.
  { replace l2 with (fst (lazy_run ev {| lz_val := Some z; lz_f := lz_f l; lz_runs := lz_runs l |} k)) by by rewrite E.
    by apply lazy_keeps_value. }
  cbn. by rewrite Hv.
Qed.

Lemma lazy_get_stable ev h v k : forallb keeps k = true ->
  lazy_last_ans ev h LGet = LVal v ->
  lazy_last_ans ev (h ++ LGet :: k) LGet = LVal v.
Proof.
  intros Hk Hv. unfold lazy_last_ans in *. rewrite lazy_run_app. cbn [fst].
  set (l := fst (lazy_run ev lazy_new h)) in *. cbn [lazy_run].
  destruct (lazy_step ev l LGet) as [l1 a] eqn:E. cbn [snd] in Hv. subst a.
  assert (lz_val l1 = Some v) as H1.
  { destruct l as [[w|] [f|] n]; cbn in E; by simplify_eq. }
  destruct (lazy_run ev l1 k) as [l2 r] eqn:E2. cbn [fst].
  assert (lz_val l2 = Some v) as Hv2.
  { replace l2 with (fst (lazy_run ev l1 k)) by by rewrite E2. by apply lazy_keeps_value. }
  cbn. by rewrite Hv2.
Qed.

Lemma lazy_panic_iff ev h k : forallb (fun o => negb (is_clear o)) k = true ->
  (h = [] \/ exists h', h = h' ++ [LClear]) ->
  (lazy_last_ans ev (h ++ k) LGet = LPanic <->
   forallb (fun o => negb (is_set o || is_setlazy o)) k = true).
Proof.
  intros Hk Hh. unfold lazy_last_ans. rewrite lazy_run_app. cbn [fst].
  set (l := fst (lazy_run ev lazy_new h)).
  assert (lz_val l = None /\ lz_f l = None) as [Hlv Hlf].
  { destruct Hh as [->|[h' ->]]; [done|]. subst l. rewrite lazy_run_app. done. }
  set (l2 := fst (lazy_run ev l k)).
  assert (lazy_step ev l2 LGet = lazy_step ev l2 LGet) by done.
  destruct (forallb (fun o => negb (is_set o || is_setlazy o)) k) eqn:E.
  - destruct (lazy_unset_iff ev k E l Hlv Hlf) as [H1 H2]. fold l2 in H1, H2.
    cbn. by rewrite H1, H2.
  - split; [|done]. intros Hp. exfalso.
    destruct (lazy_has_after ev k Hk l) as [H1|H1].
    + left. clear -E. induction k as [|o k IH]; [done|]. cbn in *.
      destruct (is_set o || is_setlazy o); [done|]. cbn in *. by apply IH.
    + fold l2 in H1. cbn in Hp. destruct (lz_val l2); [done|]. done.
    + fold l2 in H1. cbn in Hp. destruct (lz_val l2); [done|]. by destruct (lz_f l2).
Qed.

Lemma lazy_runs_at_most_once ev h k :
  forallb (fun o => negb (is_clear o)) k = true ->
  lz_runs (fst (lazy_run ev lazy_new (h ++ k))) <= S (lz_runs (fst (lazy_run ev lazy_new h))).
Proof.
  intros Hk. rewrite lazy_run_app. cbn [fst].
  destruct (lazy_no_clear_runs ev (fst (lazy_run ev lazy_new h)) k Hk) as [H _].
  destruct (lz_val (fst (lazy_run ev lazy_new h))); lia.
Qed.
