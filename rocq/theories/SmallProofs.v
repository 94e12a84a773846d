(** Proofs for C104 to C107. *)
From Verif Require Import Base Helpers Utf8 Utf8Spec Utf8Proofs Native Small SmallSpec.
Local Open Scope list_scope.

(** ** Decoding is sound *)
Lemma first_info_cases b sz lo hi : first_info b = Some (sz, lo, hi) ->
  (sz = 2%nat /\ 194 <= b <= 223 /\ lo = 128 /\ hi = 191)%N \/
  (sz = 3%nat /\ 224 <= b <= 239 /\ 128 <= lo /\ hi <= 191 /\ (b = 224 -> lo = 160) /\ (b = 237 -> hi = 159))%N \/
  (sz = 4%nat /\ 240 <= b <= 244 /\ 128 <= lo /\ hi <= 191 /\ (b = 240 -> lo = 144) /\ (b = 244 -> hi = 143))%N.
Proof.
  unfold first_info, in_range. intros H.
  repeat match type of H with context[if ?c then _ else _] => destruct c eqn:?; [injection H as <- <- <-; lia|] end.
  done.
Qed.
Lemma decode_rune_sound s r w : decode_rune s = (r, w) -> r <> rune_error -> utf8 r (take w s).
Proof.
  intros H Hr. destruct s as [|b0 r0]; [cbn in H; congruence|]. cbn [decode_rune] in H.
  destruct (b0 <? 128)%N eqn:E0; [injection H as <- <-; apply utf8_1; lia|].
  destruct (first_info b0) as [[[sz lo] hi]|] eqn:EF; [|congruence].
  apply first_info_cases in EF.
  destruct (length (b0 :: r0) <? sz); [congruence|].
  destruct r0 as [|b1 r1]; [congruence|].
  destruct (negb (in_range lo hi b1)) eqn:E1; [congruence|].
  apply negb_false_iff in E1. unfold in_range in E1.
  destruct (sz <=? 2) eqn:Z2.
  { injection H as <- <-. cbn [take].
    assert (b0 mod 32 = b0 - 192)%N as -> by lia. assert (b1 mod 64 = b1 - 128)%N as -> by lia.
    replace b0 with (192 + (b0 - 192))%N at 2 by lia. replace b1 with (128 + (b1 - 128))%N at 2 by lia.
    apply utf8_2; lia. }
  destruct r1 as [|b2 r2]; [congruence|].
  destruct (negb (in_range 128 191 b2)) eqn:E2; [congruence|].
  apply negb_false_iff in E2. unfold in_range in E2.
  destruct (sz <=? 3) eqn:Z3.
  { injection H as <- <-. cbn [take].
    assert (b0 mod 16 = b0 - 224)%N as -> by lia. assert (b1 mod 64 = b1 - 128)%N as -> by lia.
    assert (b2 mod 64 = b2 - 128)%N as -> by lia.
    replace b0 with (224 + (b0 - 224))%N at 2 by lia. replace b1 with (128 + (b1 - 128))%N at 2 by lia.
    replace b2 with (128 + (b2 - 128))%N at 2 by lia.
    apply utf8_3; lia. }
  destruct r2 as [|b3 r3]; [congruence|].
  destruct (negb (in_range 128 191 b3)) eqn:E3; [congruence|].
  apply negb_false_iff in E3. unfold in_range in E3.
  injection H as <- <-. cbn [take].
  assert (b0 mod 8 = b0 - 240)%N as -> by lia. assert (b1 mod 64 = b1 - 128)%N as -> by lia.
  assert (b2 mod 64 = b2 - 128)%N as -> by lia. assert (b3 mod 64 = b3 - 128)%N as -> by lia.
  replace b0 with (240 + (b0 - 240))%N at 2 by lia. replace b1 with (128 + (b1 - 128))%N at 2 by lia.
  replace b2 with (128 + (b2 - 128))%N at 2 by lia. replace b3 with (128 + (b3 - 128))%N at 2 by lia.
  apply utf8_4; lia.
Qed.
Lemma decode_last_sound s r w : decode_last_rune s = (r, w) -> r <> rune_error ->
  utf8 r (drop (length s - w) s).
Proof.
  unfold decode_last_rune. intros H Hr. destruct (last s) as [b|] eqn:EL; [|congruence].
  destruct (b <? 128)%N eqn:E0.
  { injection H as <- <-. apply last_Some in EL as [s' ->]. rewrite app_length. cbn [length].
    replace (length s' + 1 - 1) with (length s') by lia. rewrite drop_app. apply utf8_1. lia. }
  cbv zeta in H. set (start := Z.to_nat _) in H.
  destruct (decode_rune (drop start s)) as [r1 sz] eqn:ED.
  destruct (start + sz =? length s) eqn:ES; [|congruence]. injection H as <- <-.
  apply Nat.eqb_eq in ES. pose proof (decode_rune_sound _ _ _ ED Hr) as HU.
  replace (length s - sz) with start by lia. rewrite firstn_all2 in HU; [done|]. rewrite drop_length. lia.
Qed.

(** ** LastNRunesReversed *)
Lemma utf8s_one r b : utf8 r b -> utf8s [r] b.
Proof. intros H. rewrite <- (app_nil_r b). constructor; [done|constructor]. Qed.
Lemma reversed_exact n : forall pre rs bs, utf8s rs bs -> 65533%N ∉ rs -> length rs <= n ->
  (length rs = n \/ pre = [] \/ exists pre', pre = pre' ++ [239; 191; 189]%N) ->
  exists b', utf8s (rev rs) b' /\ reversed_loop n (pre ++ bs) = ROk b'.
Proof.
  induction n as [|n IH]; intros pre rs bs Hs Hin Hl Hp.
  { destruct rs; [|cbn in Hl; lia]. exists []. split; [constructor|done]. }
  cbn [reversed_loop]. destruct rs as [|r rs _] using rev_ind.
  { inversion Hs; subst. rewrite app_nil_r. exists []. split; [constructor|].
    destruct Hp as [Hp|[->|[pre' ->]]]; [done|done|].
    rewrite (decode_last_rune_spec 65533%N [239; 191; 189]%N); [done|].
    apply (utf8_3 15 63 61); lia. }
  destruct (utf8s_app_inv _ _ _ Hs) as (b1 & b2 & -> & H1 & H2).
  inversion H2 as [|? b ? bs' Hr Hnil]; subst. inversion Hnil; subst. rewrite app_nil_r.
  rewrite app_assoc, (decode_last_rune_spec _ _ _ Hr).
  rewrite not_elem_of_app in Hin. destruct Hin as [Hi1 Hi2].
  assert ((r =? rune_error)%N = false) as ->.
  { apply N.eqb_neq. intros ->. apply Hi2. by left. }
  rewrite !app_length in *. cbn [length] in *.
  assert ((length pre + length b1 + length b <? length b) = false) as -> by lia.
  replace (length pre + length b1 + length b - length b) with (length (pre ++ b1)) by (rewrite app_length; lia).
  rewrite take_app.
  destruct (IH pre rs b1 H1 Hi1) as (b' & Hb & HR); [lia|destruct Hp; [left; lia|by right]|].
  rewrite HR. cbn [rbind]. rewrite (encode_rune_spec _ _ Hr), rev_app_distr.
  exists (b ++ b'). split; [|done]. cbn [rev app]. by constructor.
Qed.
Lemma reversed_runes : forall (rs : list N) (bs : bytes) (n : Z), utf8s rs bs ->
  65533%N ∉ last_n (Z.to_nat n) rs ->
  exists b', utf8s (rev (last_n (Z.to_nat n) rs)) b' /\ last_n_runes_reversed bs n = ROk b'.
Proof.
  intros rs bs n Hs Hin. unfold last_n_runes_reversed. destruct (Z.ltb_spec n 0).
  { replace (Z.to_nat n) with 0 by lia. exists []. split; [|done].
    unfold last_n. rewrite Nat.sub_0_r, drop_all. constructor. }
  set (k := Z.to_nat n) in *. unfold last_n in *. set (m := length rs - k) in *.
  rewrite <- (take_drop m rs) in Hs. destruct (utf8s_app_inv _ _ _ Hs) as (b1 & b2 & -> & H1 & H2).
  apply reversed_exact; [done|done|rewrite drop_length; lia|]. rewrite drop_length.
  destruct (Nat.le_gt_cases k (length rs)); [left; lia|]. right. left.
  replace m with 0 in H1 by lia. rewrite take_0 in H1. by inversion H1.
Qed.
Lemma reversed_stops : forall (pre post : list N) (bs : bytes) (n : Z), utf8s (pre ++ 65533%N :: post) bs ->
  65533%N ∉ post -> (Z.of_nat (length post) < n)%Z ->
  exists b', utf8s (rev post) b' /\ last_n_runes_reversed bs n = ROk b'.
Proof.
  intros pre post bs n Hs Hin Hn. unfold last_n_runes_reversed.
  assert ((n <? 0)%Z = false) as -> by lia.
  destruct (utf8s_app_inv _ _ _ Hs) as (b1 & b2 & -> & H1 & H2).
  inversion H2 as [|? b ? bs' Hr Hp]; subst.
  assert (b = [239; 191; 189]%N) as -> by (eapply utf8_inj; [exact Hr|apply (utf8_3 15 63 61); lia]).
  rewrite app_assoc. apply reversed_exact; [done|done|lia|]. right. right. eauto.
Qed.
Lemma reversed_total : forall (s : bytes) (n : Z), exists r, last_n_runes_reversed s n = ROk r.
Proof.
  intros s n. unfold last_n_runes_reversed. destruct (n <? 0)%Z; [eauto|].
  revert s. induction (Z.to_nat n) as [|m IH]; intros s; cbn [reversed_loop]; [eauto|].
  destruct (decode_last_rune s) as [r w] eqn:ED.
  destruct (r =? rune_error)%N eqn:ER; [eauto|]. destruct s as [|x s]; [cbn in ED; injection ED as <- <-; done|].
  pose proof (decode_last_rune_width (x :: s) ltac:(done)) as HW. rewrite ED in HW. cbn [snd] in HW.
  assert ((length (x :: s) <? w) = false) as -> by lia.
  destruct (IH (take (length (x :: s) - w) (x :: s))) as [q ->]. cbn [rbind]. eauto.
Qed.
(** Whatever the bytes: where LastNRunes answers, its answer is UTF-8, and
    LastNRunesReversed has the same runes in the other order. *)
Lemma both_loops n : forall s total t, last_n_runes_loop n s total = ROk t ->
  exists rs, length rs <= n /\ total <= t /\ utf8s rs (drop (length s - (t - total)) s) /\
    exists b', utf8s (rev rs) b' /\ reversed_loop n s = ROk b'.
Proof.
  induction n as [|n IH]; intros s total t H; cbn [last_n_runes_loop] in H.
  { injection H as <-. exists []. split; [done|]. split; [lia|]. rewrite Nat.sub_diag, Nat.sub_0_r, drop_all.
    split; [constructor|]. exists []. split; [constructor|done]. }
  destruct s as [|x s].
  { injection H as <-. exists []. split; [cbn; lia|]. split; [lia|]. rewrite drop_nil.
    split; [constructor|]. exists []. split; [constructor|done]. }
  cbn [reversed_loop]. set (s0 := x :: s) in *.
  destruct (decode_last_rune s0) as [c cs] eqn:ED.
  destruct (c =? rune_error)%N eqn:EC; [done|]. apply N.eqb_neq in EC.
  pose proof (decode_last_rune_width s0 ltac:(done)) as HW. rewrite ED in HW. cbn [snd] in HW.
  assert ((length s0 <? cs) = false) as -> by lia.
  pose proof (last_n_runes_loop_bound _ _ _ _ H) as HB. rewrite take_length in HB.
  destruct (IH _ _ _ H) as (rs & Hl & Ht & Hu & b' & Hb & HR). rewrite HR. cbn [rbind].
  pose proof (decode_last_sound _ _ _ ED EC) as HS.
  assert (encode_rune c = drop (length s0 - cs) s0) as HE by (by apply encode_rune_spec).
  exists (rs ++ [c]). split; [rewrite app_length; cbn; lia|]. split; [lia|]. split.
  - rewrite take_length in Hu. rewrite Nat.min_l in Hu by lia.
    replace (drop (length s0 - (t - total)) s0) with
      (drop (length s0 - cs - (t - (total + cs))) (take (length s0 - cs) s0) ++ drop (length s0 - cs) s0).
    { apply utf8s_app; [done|]. by apply utf8s_one. }
    replace (length s0 - (t - total)) with (length s0 - cs - (t - (total + cs))) by lia.
    set (k := length s0 - cs - _). transitivity (drop k (take (length s0 - cs) s0 ++ drop (length s0 - cs) s0)); [|by rewrite take_drop].
    rewrite drop_app_le by (rewrite take_length; lia). done.
  - exists (drop (length s0 - cs) s0 ++ b'). rewrite rev_app_distr. cbn [rev app]. rewrite HE.
    split; [by constructor|done].
Qed.
Lemma last_and_reversed : forall (s out : bytes) (n : Z), last_n_runes s n = ROk out ->
  exists rs out', utf8s rs out /\ (Z.of_nat (length rs) <= Z.max 0 n)%Z /\
    utf8s (rev rs) out' /\ last_n_runes_reversed s n = ROk out'.
Proof.
  intros s out n H. unfold last_n_runes in H.
  destruct (last_n_runes_loop (Z.to_nat n) s 0) as [t|p|] eqn:E; cbn [rbind] in H; [|done|done].
  destruct (length s <? t) eqn:EL; [done|]. injection H as <-.
  destruct (both_loops _ _ _ _ E) as (rs & Hl & _ & Hu & b' & Hb & HR). rewrite Nat.sub_0_r in Hu.
  exists rs, b'. split; [done|]. split; [lia|]. split; [done|]. unfold last_n_runes_reversed.
  destruct (Z.ltb_spec n 0); [|done]. replace (Z.to_nat n) with 0 in HR by lia. done.
Qed.

(** ** Escape and Indent *)
Lemma escape_foreign : forall s : bytes, foreign (escape s) = foreign s.
Proof.
  induction s as [|b s IH]; [done|]. unfold escape. cbn [mbind list_bind]. fold (escape s).
  unfold foreign in *. rewrite List.filter_app, IH. cbn [List.filter].
  unfold escape_byte. unfold backslash.
  repeat match goal with |- context[if (b =? ?n)%N then _ else _] =>
    destruct (N.eqb_spec b n); [subst; cbn; done|] end.
  cbn [List.filter]. destruct (128 <=? b)%N; done.
Qed.
Lemma escape_ascii : forall s : bytes, (forall b, b ∈ s -> (b < 128)%N) <-> (forall b, b ∈ escape s -> (b < 128)%N).
Proof.
  assert (forall s, (forall b, b ∈ s -> (b < 128)%N) <-> foreign s = []) as HF.
  { induction s as [|b s IH]; [split; [done|intros _ b Hb; inversion Hb]|]. unfold foreign. cbn [List.filter].
    destruct (128 <=? b)%N eqn:E; split.
    - intros H. specialize (H b ltac:(left)). lia.
    - done.
    - intros H. apply IH. intros c Hc. apply H. by right.
    - intros H c Hc. apply elem_of_cons in Hc as [->|Hc]; [lia|]. by apply IH. }
  intros s. rewrite !HF. by rewrite escape_foreign.
Qed.
Lemma join_empties n : str_join [32; 32]%N (replicate (S n) []) = replicate (2 * n) 32%N.
Proof.
  induction n as [|n IH]; [done|]. change (replicate (S (S n)) []) with (([] : bytes) :: replicate (S n) []).
  replace (2 * S n) with (S (S (2 * n))) by lia. cbn [replicate]. rewrite <- IH. done.
Qed.
Lemma indent_blanks : forall c : Z, ((-1 <= c)%Z -> indent c = ROk (replicate (2 * Z.to_nat c) 32%N)) /\
  ((c < -1)%Z -> exists p, indent c = RPanic p).
Proof.
  intros c. unfold indent. split; intros H.
  - assert ((c + 1 <? 0)%Z = false) as -> by lia. f_equal. destruct (Z.eqb_spec c (-1)); [subst; done|].
    replace (Z.to_nat (c + 1)) with (S (Z.to_nat c)) by lia. apply join_empties.
  - assert ((c + 1 <? 0)%Z = true) as -> by lia. eauto.
Qed.

(** ** Attributes *)
Lemma run_app h l k : hold_run h (l ++ k) = hold_run (hold_run h l) k.
Proof. revert h. induction l as [|o l IH]; intros h; [done|]. cbn [app hold_run]. apply IH. Qed.
Lemma run_asks k : forall h, forallb asks k = true -> hold_run h k = h.
Proof.
  induction k as [|o k IH]; intros h H; [done|]. cbn [forallb] in H. apply andb_true_iff in H as [Ho Hk].
  cbn [hold_run]. rewrite IH by done. by destruct h, o.
Qed.
Lemma run_attr l : forall a, exists a', hold_run (HAttr a) l = HAttr a'.
Proof.
  induction l as [|o l IH]; intros a; [eauto|]. cbn [hold_run]. destruct o; apply IH.
Qed.
Lemma run_native l : hold_run HNative l = HNative.
Proof. induction l as [|o l IH]; [done|]. cbn [hold_run]. by destruct o. Qed.

Lemma origin_kept : forall l o k, forallb asks k = true ->
  hold_ans new_holder (l ++ OpSetOrigin o :: k) OpGetOrigin = AnsOrigin (nameless o) /\
  hold_ans new_holder (l ++ OpSetOrigin o :: k) OpGetLine = AnsLine (or_line o).
Proof.
  intros l o k H. unfold hold_ans. rewrite run_app. cbn [hold_run]. rewrite run_asks by done.
  destruct (run_attr l attr0) as [a Ha]. unfold new_holder. rewrite Ha. done.
Qed.
Lemma line_kept : forall l n k x, forallb asks k = true ->
  hold_ans new_holder l OpGetOrigin = AnsOrigin x ->
  hold_ans new_holder (l ++ OpSetLine n :: k) OpGetLine = AnsLine n /\
  hold_ans new_holder (l ++ OpSetLine n :: k) OpGetOrigin = AnsOrigin (Origin (or_code x) 0 0 n "").
Proof.
  intros l n k x H. unfold hold_ans. rewrite run_app. cbn [hold_run]. rewrite (run_asks k) by done.
  destruct (run_attr l attr0) as [a Ha]. unfold new_holder. rewrite Ha. cbn. intros Hx. injection Hx as <-. done.
Qed.
Lemma native_says : forall l,
  hold_ans HNative l OpGetLine = AnsLine 1 /\ hold_ans HNative l OpGetOrigin = AnsOrigin origin0.
Proof. intros l. unfold hold_ans. by rewrite run_native. Qed.
Lemma no_attributes : forall h l k v,
  hold_ans h l (OpHas k) = AnsHas false /\ (exists m, hold_ans h l (OpSet k v) = AnsPanic m) /\
  hold_run h (l ++ [OpSet k v]) = hold_run h l.
Proof.
  intros h l k v. rewrite run_app. unfold hold_ans. destruct (hold_run h l); cbn; eauto.
Qed.
