(** Lemmas about Utf8.v. *)
From Verif Require Import Base Utf8 Utf8Spec.

Lemma utf8_length r b : utf8 r b -> 1 <= length b <= 4.
Proof. destruct 1; cbn [length]; lia. Qed.

Lemma utf8s_app rs1 rs2 b1 b2 : utf8s rs1 b1 -> utf8s rs2 b2 -> utf8s (rs1 ++ rs2) (b1 ++ b2).
Proof.
  induction 1 as [|r b rs bs Hr Hs IH]; intros H2; [done|].
  cbn [app]. rewrite <- app_assoc. constructor; [done|]. by apply IH.
Qed.

Lemma utf8s_app_inv rs1 rs2 bs : utf8s (rs1 ++ rs2) bs ->
  exists b1 b2, bs = b1 ++ b2 /\ utf8s rs1 b1 /\ utf8s rs2 b2.
Proof.
  revert bs. induction rs1 as [|r rs1 IH]; intros bs H.
  - exists [], bs. repeat constructor. done.
  - cbn [app] in H. inversion H as [|r' b rs bs' Hr Hs]; subst.
    destruct (IH _ Hs) as (b1 & b2 & -> & H1 & H2).
    exists (b ++ b1), b2. rewrite app_assoc. split; [done|]. split; [|done].
    by constructor.
Qed.

Ltac chk_true H := let B := fresh "B" in
  match goal with |- context[if ?c then _ else _] => 
    assert (B : c = true) by H; rewrite B; clear B end.

(** Decoding the first rune. *)
Lemma decode_rune_spec r b rest : utf8 r b -> decode_rune (b ++ rest) = (r, length b).
Proof.
  intros H. destruct H as [x Hx | x y Hx Hy Hm | x y z Hx Hy Hz Hm Hs | x y z t Hx Hy Hz Ht Hm];
    cbn [app decode_rune length].
  - assert ((x <? 128)%N = true) as -> by lia. done.
  - assert ((192 + x <? 128)%N = false) as -> by lia.
    unfold first_info, in_range.
    assert (((194 <=? 192 + x) && (192 + x <=? 223))%N%bool = true) as -> by lia.
    cbn [Nat.ltb Nat.leb negb].
    assert (((128 <=? 128 + y) && (128 + y <=? 191))%N%bool = true) as -> by lia.
    cbn [negb]. f_equal. lia.
  - assert ((224 + x <? 128)%N = false) as -> by lia.
    unfold first_info, in_range.
    assert (((194 <=? 224 + x) && (224 + x <=? 223))%N%bool = false) as -> by lia.
    destruct (224 + x =? 224)%N eqn:E0; [|destruct ((225 <=? 224 + x) && (224 + x <=? 236))%N%bool eqn:E1;
      [|destruct (224 + x =? 237)%N eqn:E2; [|
        assert (((238 <=? 224 + x) && (224 + x <=? 239))%N%bool = true) as -> by lia]]];
    cbn [Nat.ltb Nat.leb negb]; (match goal with |- context[((?l <=? 128 + y) && (128 + y <=? ?h))%N%bool] =>
       assert (((l <=? 128 + y) && (128 + y <=? h))%N%bool = true) as -> by lia end;
      cbn [negb];
      assert (((128 <=? 128 + z) && (128 + z <=? 191))%N%bool = true) as -> by lia;
      cbn [negb]; f_equal; lia).
  - assert ((240 + x <? 128)%N = false) as -> by lia.
    unfold first_info, in_range.
    assert (((194 <=? 240 + x) && (240 + x <=? 223))%N%bool = false) as -> by lia.
    assert ((240 + x =? 224)%N = false) as -> by lia.
    assert (((225 <=? 240 + x) && (240 + x <=? 236))%N%bool = false) as -> by lia.
    assert ((240 + x =? 237)%N = false) as -> by lia.
    assert (((238 <=? 240 + x) && (240 + x <=? 239))%N%bool = false) as -> by lia.
    destruct (240 + x =? 240)%N eqn:E0; [|destruct ((241 <=? 240 + x) && (240 + x <=? 243))%N%bool eqn:E1;
      [|assert ((240 + x =? 244)%N = true) as -> by lia]];
    cbn [Nat.ltb Nat.leb negb]; (match goal with |- context[((?l <=? 128 + y) && (128 + y <=? ?h))%N%bool] =>
       assert (((l <=? 128 + y) && (128 + y <=? h))%N%bool = true) as -> by lia end;
      cbn [negb];
      assert (((128 <=? 128 + z) && (128 + z <=? 191))%N%bool = true) as -> by lia;
      cbn [negb];
      assert (((128 <=? 128 + t) && (128 + t <=? 191))%N%bool = true) as -> by lia;
      cbn [negb]; f_equal; lia).
Qed.

Lemma rune_start_cont y : (y < 64)%N -> rune_start (128 + y) = false.
Proof. intros. unfold rune_start. apply negb_false_iff, N.eqb_eq. lia. Qed.
Lemma rune_start_2 x : (x < 32)%N -> rune_start (192 + x) = true.
Proof. intros. unfold rune_start. apply negb_true_iff, N.eqb_neq. lia. Qed.
Lemma rune_start_3 x : (x < 16)%N -> rune_start (224 + x) = true.
Proof. intros. replace (224 + x)%N with (192 + (32 + x))%N by lia.
  unfold rune_start. apply negb_true_iff, N.eqb_neq. lia. Qed.
Lemma rune_start_4 x : (x < 8)%N -> rune_start (240 + x) = true.
Proof. intros. unfold rune_start. apply negb_true_iff, N.eqb_neq. lia. Qed.

Lemma scan_back_stop fuel s lim start b :
  (0 <= lim <= start)%Z -> s !! Z.to_nat start = Some b -> rune_start b = true ->
  scan_back (S fuel) s lim start = start.
Proof.
  intros H Hl Hr. cbn [scan_back].
  assert ((lim <=? start)%Z = true) as -> by lia. by rewrite Hl, Hr.
Qed.
Lemma scan_back_cont fuel s lim start b :
  (0 <= lim <= start)%Z -> s !! Z.to_nat start = Some b -> rune_start b = false ->
  scan_back (S fuel) s lim start = scan_back fuel s lim (start - 1).
Proof.
  intros H Hl Hr. cbn [scan_back].
  assert ((lim <=? start)%Z = true) as -> by lia. by rewrite Hl, Hr.
Qed.

Lemma lookup_tail_n (pre b : bytes) k x : 
  b !! k = Some x -> forall i, i = (Z.of_nat (length pre) + Z.of_nat k)%Z -> (pre ++ b) !! Z.to_nat i = Some x.
Proof. intros H i ->. rewrite lookup_app_r by lia. by replace (_ - _) with k by lia. Qed.

(** Decoding the last rune, whatever precedes it. *)
Lemma decode_last_rune_spec r b pre : utf8 r b -> decode_last_rune (pre ++ b) = (r, length b).
Proof.
  intros H. pose proof (decode_rune_spec r b [] H) as HD. rewrite app_nil_r in HD.
  unfold decode_last_rune. rewrite app_length.
  assert (forall k, k = Z.of_nat (length pre) ->
     (let start := Z.to_nat (Z.max 0 k) in
     let '(r0, size) := decode_rune (drop start (pre ++ b)) in
     if start + size =? length pre + length b then (r0, size) else (rune_error, 1)) = (r, length b)) as Hfin.
  { intros k ->. cbv zeta. rewrite Z.max_r by lia. rewrite Nat2Z.id, drop_app, HD.
    by rewrite Nat.eqb_refl. }
  destruct H as [x Hx | x y Hx Hy Hm | x y z Hx Hy Hz Hm Hs | x y z t Hx Hy Hz Ht Hm];
    cbn [length] in *.
  - rewrite last_snoc. assert ((x <? 128)%N = true) as -> by lia. done.
  - replace (last (pre ++ [192 + x; 128 + y]%N)) with (Some (128 + y)%N)
      by (change [192 + x; 128 + y]%N with ([192 + x]%N ++ [128 + y]%N); by rewrite app_assoc, last_snoc).
    assert ((128 + y <? 128)%N = false) as -> by lia.
    apply Hfin.
    rewrite (scan_back_stop _ _ _ _ (192 + x)%N); [lia|lia| |by apply rune_start_2].
    eapply (lookup_tail_n _ _ 0); [done|lia].
  - replace (last (pre ++ [224 + x; 128 + y; 128 + z]%N)) with (Some (128 + z)%N)
      by (change [224 + x; 128 + y; 128 + z]%N with ([224 + x; 128 + y]%N ++ [128 + z]%N); by rewrite app_assoc, last_snoc).
    assert ((128 + z <? 128)%N = false) as -> by lia.
    apply Hfin.
    rewrite (scan_back_cont _ _ _ _ (128 + y)%N); [|lia|eapply (lookup_tail_n _ _ 1); [done|lia]|by apply rune_start_cont].
    rewrite (scan_back_stop _ _ _ _ (224 + x)%N); [lia|lia| |by apply rune_start_3].
    eapply (lookup_tail_n _ _ 0); [done|lia].
  - replace (last (pre ++ [240 + x; 128 + y; 128 + z; 128 + t]%N)) with (Some (128 + t)%N)
      by (change [240 + x; 128 + y; 128 + z; 128 + t]%N with ([240 + x; 128 + y; 128 + z]%N ++ [128 + t]%N); by rewrite app_assoc, last_snoc).
    assert ((128 + t <? 128)%N = false) as -> by lia.
    apply Hfin.
    rewrite (scan_back_cont _ _ _ _ (128 + z)%N); [|lia|eapply (lookup_tail_n _ _ 2); [done|lia]|by apply rune_start_cont].
    rewrite (scan_back_cont _ _ _ _ (128 + y)%N); [|lia|eapply (lookup_tail_n _ _ 1); [done|lia]|by apply rune_start_cont].
    rewrite (scan_back_stop _ _ _ _ (240 + x)%N); [lia|lia| |by apply rune_start_4].
    eapply (lookup_tail_n _ _ 0); [done|lia].
Qed.

(** Encoding. *)
Lemma encode_rune_spec r b : utf8 r b -> encode_rune r = b.
Proof.
  intros H. destruct H as [x Hx | x y Hx Hy Hm | x y z Hx Hy Hz Hm Hs | x y z t Hx Hy Hz Ht Hm];
  unfold encode_rune, in_range.
  - assert ((x <? 128)%N = true) as -> by lia. done.
  - assert ((x * 64 + y <? 128)%N = false) as -> by lia.
    assert ((x * 64 + y <? 2048)%N = true) as -> by lia.
    repeat f_equal; lia.
  - set (r := (x * 4096 + y * 64 + z)%N) in *.
    assert ((r <? 128)%N = false) as -> by lia.
    assert ((r <? 2048)%N = false) as -> by lia.
    assert (((55296 <=? r) && (r <=? 57343) || (1114111 <? r))%N%bool = false) as -> by (subst r; lia).
    assert ((r <? 65536)%N = true) as -> by (subst r; lia).
    subst r. repeat f_equal; lia.
  - set (r := (x * 262144 + y * 4096 + z * 64 + t)%N) in *.
    assert ((r <? 128)%N = false) as -> by lia.
    assert ((r <? 2048)%N = false) as -> by lia.
    assert (((55296 <=? r) && (r <=? 57343) || (1114111 <? r))%N%bool = false) as -> by (subst r; lia).
    assert ((r <? 65536)%N = false) as -> by (subst r; lia).
    subst r. repeat f_equal; lia.
Qed.

Lemma utf8_inj r b1 b2 : utf8 r b1 -> utf8 r b2 -> b1 = b2.
Proof. intros H1 H2. by rewrite <- (encode_rune_spec _ _ H1), <- (encode_rune_spec _ _ H2). Qed.

Lemma utf8s_inj rs b1 b2 : utf8s rs b1 -> utf8s rs b2 -> b1 = b2.
Proof.
  intros H1. revert b2. induction H1 as [|r b rs bs Hr Hs IH]; intros b2 H2.
  - by inversion H2.
  - inversion H2; subst. f_equal; [by eapply utf8_inj|auto].
Qed.

Lemma utf8s_length rs bs : utf8s rs bs -> length rs <= length bs.
Proof.
  induction 1 as [|r b rs bs Hr Hs IH]; [done|].
  pose proof (utf8_length _ _ Hr). rewrite app_length. cbn [length]. lia.
Qed.

(** The range loop. *)
Lemma range_aux_utf8s rs bs : utf8s rs bs -> forall fuel pos, length bs <= fuel ->
  (range_aux fuel pos bs).*2 = rs.
Proof.
  induction 1 as [|r b rs bs Hr Hs IH]; intros fuel pos Hf.
  - by destruct fuel.
  - pose proof (utf8_length _ _ Hr). rewrite app_length in Hf.
    destruct fuel as [|fuel]; [lia|]. cbn [range_aux].
    destruct (b ++ bs) as [|x l] eqn:E; [destruct b; cbn in *; [lia|done]|].
    rewrite <- E, (decode_rune_spec _ _ _ Hr), drop_app. cbn [fmap list_fmap snd].
    f_equal. apply IH. lia.
Qed.
Lemma range_string_utf8s rs bs : utf8s rs bs -> (range_string bs).*2 = rs.
Proof. intros H. by apply range_aux_utf8s. Qed.

(** LastNRunes. *)
Lemma last_n_runes_loop_ok n : forall rs bs pre total, utf8s rs bs ->
  Forall (fun r => r <> rune_error) (last_n n rs) -> n <= length rs \/ pre = [] ->
  exists b', utf8s (last_n n rs) b' /\
    last_n_runes_loop n (pre ++ bs) total = ROk (total + length b').
Proof.
  induction n as [|n IH]; intros rs bs pre total Hs Hf Hn.
  - exists []. split. { unfold last_n. rewrite Nat.sub_0_r, drop_all. constructor. }
    cbn. f_equal. lia.
  - destruct rs as [|r0 rs0] using rev_ind; [|clear IHrs0].
    { destruct Hn as [Hn| ->]; [cbn in Hn; lia|]. inversion Hs; subst.
      exists []. split; [constructor|]. cbn. f_equal. lia. }
    destruct (utf8s_app_inv _ _ _ Hs) as (b1 & b2 & -> & H1 & H2).
    assert (last_n (S n) (rs0 ++ [r0]) = last_n n rs0 ++ [r0]) as EL.
    { unfold last_n. rewrite app_length. cbn [length].
      replace (length rs0 + 1 - S n) with (length rs0 - n) by lia.
      rewrite drop_app_le by lia. done. }
    rewrite EL in Hf |- *. apply Forall_app in Hf as [Hf1 Hf2].
    inversion H2 as [|? b ? bs' Hr Hnil]; subst. inversion Hnil; subst. rewrite app_nil_r.
    destruct (IH rs0 b1 pre (total + length b) H1 Hf1) as (b' & Hb' & Hrun).
    { rewrite app_length in Hn. cbn in Hn. destruct Hn; [left; lia|by right]. }
    exists (b' ++ b). split.
    { apply utf8s_app; [done|]. rewrite app_nil_r in H2. done. }
    cbn [last_n_runes_loop].
    destruct (pre ++ b1 ++ b) as [|x l] eqn:E.
    { apply (f_equal length) in E. rewrite !app_length in E. pose proof (utf8_length _ _ Hr). cbn in E. lia. }
    rewrite <- E, app_assoc, (decode_last_rune_spec _ _ _ Hr).
    inversion Hf2; subst. assert ((r0 =? rune_error)%N = false) as -> by (by apply N.eqb_neq).
    rewrite !app_length. replace (length pre + length b1 + length b - length b) with (length (pre ++ b1))
      by (rewrite app_length; lia).
    rewrite take_app, Hrun. f_equal. lia.
Qed.

Lemma last_n_runes_loop_panic n : forall rs bs total, utf8s rs bs ->
  rune_error ∈ last_n n rs ->
  last_n_runes_loop n bs total = RPanic (PMsg "RuneError").
Proof.
  induction n as [|n IH]; intros rs bs total Hs Hin.
  - unfold last_n in Hin. rewrite Nat.sub_0_r, drop_all in Hin. by inversion Hin.
  - destruct rs as [|r0 rs0] using rev_ind; [|clear IHrs0].
    { by inversion Hin. }
    destruct (utf8s_app_inv _ _ _ Hs) as (b1 & b2 & -> & H1 & H2).
    assert (last_n (S n) (rs0 ++ [r0]) = last_n n rs0 ++ [r0]) as EL.
    { unfold last_n. rewrite app_length. cbn [length].
      replace (length rs0 + 1 - S n) with (length rs0 - n) by lia.
      rewrite drop_app_le by lia. done. }
    rewrite EL in Hin. 
    inversion H2 as [|? b ? bs' Hr Hnil]; subst. inversion Hnil; subst. rewrite app_nil_r.
    cbn [last_n_runes_loop].
    destruct (b1 ++ b) as [|x l] eqn:E.
    { apply (f_equal length) in E. rewrite !app_length in E. pose proof (utf8_length _ _ Hr). cbn in E. lia. }
    rewrite <- E, (decode_last_rune_spec _ _ _ Hr).
    destruct (r0 =? rune_error)%N eqn:E0; [done|].
    apply elem_of_app in Hin as [Hin|Hin].
    2:{ apply elem_of_list_singleton in Hin. apply N.eqb_neq in E0. congruence. }
    rewrite app_length. replace (length b1 + length b - length b) with (length b1) by lia.
    rewrite take_app. by eapply IH.
Qed.

Lemma last_n_app_utf8s n rs bs : utf8s rs bs ->
  exists b1 b', bs = b1 ++ b' /\ utf8s (last_n n rs) b'.
Proof.
  intros H. unfold last_n. rewrite <- (take_drop (length rs - n) rs) in H.
  destruct (utf8s_app_inv _ _ _ H) as (b1 & b2 & -> & H1 & H2). eauto.
Qed.

Lemma last_n_runes_ok n rs bs : utf8s rs bs ->
  Forall (fun r => r <> rune_error) (last_n (Z.to_nat n) rs) ->
  exists b', utf8s (last_n (Z.to_nat n) rs) b' /\ last_n_runes bs n = ROk b'.
Proof.
  intros Hs Hf.
  destruct (last_n_runes_loop_ok (Z.to_nat n) rs bs [] 0 Hs Hf) as (b' & Hb & Hrun); [by right|].
  destruct (last_n_app_utf8s (Z.to_nat n) rs bs Hs) as (b1 & b'' & -> & Hb'').
  assert (b'' = b') as -> by (by eapply utf8s_inj).
  exists b'. split; [done|]. unfold last_n_runes. cbn [app] in Hrun. rewrite Hrun. cbn [rbind].
  rewrite app_length. assert ((length b1 + length b' <? 0 + length b') = false) as -> by lia.
  f_equal. replace (length b1 + length b' - (0 + length b')) with (length b1) by lia. apply drop_app.
Qed.

Lemma last_n_runes_panic n rs bs : utf8s rs bs ->
  rune_error ∈ last_n (Z.to_nat n) rs ->
  last_n_runes bs n = RPanic (PMsg "RuneError").
Proof.
  intros Hs Hf. unfold last_n_runes. by rewrite (last_n_runes_loop_panic _ rs).
Qed.

(** Any bytes: LastNRunes never slices out of range. *)
Lemma decode_rune_width s : s <> [] -> 1 <= snd (decode_rune s) <= length s.
Proof.
  intros Hs. destruct s as [|b0 r0]; [done|]. cbn [decode_rune].
  destruct (b0 <? 128)%N; [cbn; lia|].
  destruct (first_info b0) as [[[sz lo] hi]|]; [|cbn; lia].
  destruct (length (b0 :: r0) <? sz); [cbn; lia|].
  destruct r0 as [|b1 r1]; [cbn; lia|].
  destruct (negb _); [cbn; lia|].
  destruct (sz <=? 2); [cbn; lia|].
  destruct r1 as [|b2 r2]; [cbn; lia|].
  destruct (negb _); [cbn; lia|].
  destruct (sz <=? 3); [cbn; lia|].
  destruct r2 as [|b3 r3]; [cbn; lia|].
  destruct (negb _); cbn; lia.
Qed.

Lemma decode_last_rune_width s : s <> [] -> 1 <= snd (decode_last_rune s) <= length s.
Proof.
  intros Hs. unfold decode_last_rune.
  destruct (last s) as [b|] eqn:EL; [|destruct s; [done|by apply last_None in EL]].
  assert (1 <= length s) by (destruct s; [done|cbn; lia]).
  destruct (b <? 128)%N; [cbn; lia|]. cbv zeta.
  set (start := Z.to_nat _).
  pose proof (decode_rune_width (drop start s)) as HW.
  destruct (decode_rune (drop start s)) as [r size] eqn:ED. cbn [snd] in HW.
  destruct (start + size =? length s) eqn:ES; [|cbn; lia]. cbn [snd].
  destruct (drop start s) eqn:EDr.
  { cbn in ED. injection ED as <- <-. apply Nat.eqb_eq in ES.
    exfalso. assert (start <= length s - 1); [|lia]. subst start.
    assert (forall f st, (st <= Z.of_nat (length s) - 1)%Z ->
       (scan_back f s (Z.max 0 (Z.of_nat (length s) - 4)) st <= Z.of_nat (length s) - 1)%Z) as HB.
    { induction f as [|f IH]; intros st Hst; cbn [scan_back]; [done|].
      destruct (_ <=? st)%Z; [|done]. destruct (s !! Z.to_nat st); [|done].
      destruct (rune_start _); [done|]. apply IH. lia. }
    specialize (HB 4 (Z.of_nat (length s) - 2)%Z). lia. }
  rewrite <- EDr in HW. rewrite drop_length in HW. assert (n :: l <> []) by done.
  rewrite EDr in HW. specialize (HW H0). lia.
Qed.

Lemma last_n_runes_loop_bound n : forall s total t,
  last_n_runes_loop n s total = ROk t -> total <= t <= total + length s.
Proof.
  induction n as [|n IH]; intros s total t H; cbn [last_n_runes_loop] in H.
  - injection H as <-. lia.
  - destruct s as [|x s]; [injection H as <-; lia|].
    destruct (decode_last_rune (x :: s)) as [c csize] eqn:ED.
    pose proof (decode_last_rune_width (x :: s) ltac:(done)) as HW. rewrite ED in HW. cbn [snd] in HW.
    destruct (c =? rune_error)%N; [done|]. apply IH in H. rewrite take_length in H. lia.
Qed.

Lemma last_n_runes_any s n :
  (exists k, last_n_runes s n = ROk (drop k s)) \/ last_n_runes s n = RPanic (PMsg "RuneError").
Proof.
  unfold last_n_runes.
  destruct (last_n_runes_loop (Z.to_nat n) s 0) as [t|p|] eqn:E.
  - apply last_n_runes_loop_bound in E. cbn [rbind].
    assert ((length s <? t) = false) as -> by lia. left. eauto.
  - right. cbn [rbind]. f_equal. revert E. generalize 0 as total. revert s.
    induction (Z.to_nat n) as [|m IH]; intros s total H; cbn [last_n_runes_loop] in H; [done|].
    destruct s; [done|]. destruct (decode_last_rune _) as [c cs].
    destruct (c =? rune_error)%N; [congruence|eauto].
  - exfalso. revert E. generalize 0 as total. revert s.
    induction (Z.to_nat n) as [|m IH]; intros s total H; cbn [last_n_runes_loop] in H; [done|].
    destruct s; [done|]. destruct (decode_last_rune _) as [c cs].
    destruct (c =? rune_error)%N; [congruence|eauto].
Qed.
