(** Proofs for C108 to C110: PeekLines with any arguments, positions in the
    last token, repetitions bounded by 0 or 1. *)
From Verif Require Import Base Helpers Utf8 Stream StreamSpec StreamProofs Native Engine.
Local Open Scope list_scope.

Lemma starts_length text : length (line_starts text) = S (newlines text).
Proof. rewrite line_starts_offsets, fmap_length, offsets_length. apply split_lines_length. Qed.

(** ** PeekLines *)
Lemma range_beyond text line mn mx : (0 <= line)%Z -> (Z.of_nat (newlines text) < line + mn)%Z ->
  peek_lines_range text (line_starts text) line mn mx = RPanic PIndex.
Proof.
  intros H0 H. unfold peek_lines_range, go_index.
  assert ((Z.max 0 (line + mn) <? 0)%Z = false) as -> by lia.
  rewrite lookup_ge_None_2; [done|]. rewrite starts_length. lia.
Qed.
Lemma slice_but_last text : slice_string text 0 (-1) = ROk (take (length text - 1) text).
Proof.
  unfold slice_string. destruct text as [|b text]; [done|]. set (t := b :: text).
  assert (1 <= length t) by (subst t; cbn; lia).
  assert ((Z.of_nat (length t) <=? 0)%Z = false) as -> by lia. cbn [Z.ltb Z.compare].
  set (e := Z.max (-1 + Z.of_nat (length t)) 0). assert (e = Z.of_nat (length t) - 1)%Z by lia.
  destruct (Z.leb_spec e 0).
  { replace (length t - 1) with 0 by lia. done. }
  assert ((Z.of_nat (length t) <? e)%Z = false) as -> by lia.
  assert ((false || (e <? 0) || (Z.of_nat (length t) <? e))%Z%bool = false) as -> by lia.
  unfold slice. change (Z.to_nat 0) with 0. rewrite drop_0. do 2 f_equal. lia.
Qed.
Lemma range_before text line mn mx : (mn <= mx)%Z -> (line + mx < 0)%Z ->
  peek_lines_range text (line_starts text) line mn mx =
  if (line + mx =? -1)%Z then ROk (take (length text - 1) text) else RPanic PIndex.
Proof.
  intros Hm H. unfold peek_lines_range. rewrite Z.max_l by lia.
  replace (go_index (line_starts text) 0) with (ROk 0%Z) by done. cbn [rbind].
  rewrite starts_length, Z.min_r by lia.
  assert ((line + mx <? Z.of_nat (S (newlines text)) - 1)%Z = true) as -> by lia.
  destruct (Z.eqb_spec (line + mx) (-1)) as [->|Hne].
  - change (-1 + 1)%Z with 0%Z. replace (go_index (line_starts text) 0) with (ROk 0%Z) by done. cbn [rbind].
    apply slice_but_last.
  - unfold go_index. assert ((line + mx + 1 <? 0)%Z = true) as -> by lia. done.
Qed.

Lemma lines_exact : forall (text : bytes) (p : nat) (ns : list Z) (mn mx : Z),
  is_min mn (with_implied_zero ns) -> is_max mx (with_implied_zero ns) ->
  let cur := Z.of_nat (newlines (take p text)) in
  let last_line := Z.of_nat (newlines text) in
  let peek := rs_peek_lines (rs_with_pos (new_rune_stream text) p) ns in
  ((cur + mn <= last_line)%Z -> (0 <= cur + mx)%Z ->
     peek = ROk (lines_between text (Z.to_nat (Z.max 0 (cur + mn))) (Z.to_nat (Z.min last_line (cur + mx))))) /\
  ((last_line < cur + mn)%Z -> exists q, peek = RPanic q) /\
  ((cur + mx = -1)%Z -> peek = ROk (take (length text - 1) text)) /\
  ((cur + mx < -1)%Z -> exists q, peek = RPanic q).
Proof.
  intros text p ns mn mx Hmn Hmx cur last_line peek.
  assert (ns <> []) as Hne. { intros ->. destruct Hmn as [H _]. by inversion H. }
  pose proof (min_le_max _ _ _ Hmn Hmx) as Hle.
  assert (peek = peek_lines_range text (line_starts text) cur mn mx) as EP.
  { subst peek. rewrite rs_peek_lines_eq by done. unfold rs_line. cbn [rs_with_pos rs_pos].
    destruct (pos_to_line_col (rs_with_pos (new_rune_stream text) p) p eq_refl) as [E _].
    rewrite E. cbn [rbind]. by rewrite (peek_min_spec _ _ Hne Hmn), (peek_max_spec _ _ Hne Hmx). }
  split; [intros; by apply peek_lines_prop|]. rewrite EP.
  split; [intros; eexists; apply range_beyond; lia|].
  split; intros H; (rewrite range_before; [|done|lia]).
  - assert ((cur + mx =? -1)%Z = true) as -> by lia. done.
  - assert ((cur + mx =? -1)%Z = false) as -> by lia. eauto.
Qed.
Lemma lines_none : forall (text : bytes) (p : nat), rs_peek_lines (rs_with_pos (new_rune_stream text) p) [] = ROk [].
Proof. done. Qed.
(** Of a TokenStream: the lines of the original text around the line it says
    it is in. *)
Lemma token_lines : forall (text : bytes) (toks : list token) (w o : nat) (ns : list Z),
  let ts := ts_with_pos (new_token_stream text toks) w in
  ts_line ts = ROk (Z.of_nat (newlines (take o text))) ->
  (ns <> [] -> ts_peek_lines ts ns = rs_peek_lines (rs_with_pos (new_rune_stream text) o) ns) /\
  ts_peek_lines ts [] = ROk (lines_between text (newlines (take o text)) (newlines (take o text))).
Proof.
  intros text toks w o ns ts HL.
  destruct (pos_to_line_col (rs_with_pos (new_rune_stream text) o) o eq_refl) as [E _].
  assert (newlines (take o text) <= newlines text) as HM.
  { destruct (Nat.le_gt_cases o (length text)).
    - rewrite <- (firstn_all text) at 2. by apply newlines_mono.
    - rewrite firstn_all2 by lia. done. }
  split.
  - intros Hne. rewrite ts_peek_lines_eq, rs_peek_lines_eq by done. rewrite HL. unfold rs_line.
    cbn [rs_with_pos rs_pos]. rewrite E. done.
  - unfold ts_peek_lines. rewrite HL. cbn [rbind]. change (list_min 0 [0%Z]) with 0%Z. change (list_max 0 [0%Z]) with 0%Z.
    change (ts_lines ts) with (line_starts text). change (ts_original ts) with text.
    rewrite peek_lines_range_ok by lia. rewrite !Z.add_0_r. do 2 f_equal; lia.
Qed.

(** ** The last token *)
Lemma loop_to_last all : tokens_laid_out all -> forall toks n tok w,
  drop n all = toks -> n <= length all - 1 ->
  (forall k t, n <= k -> k < length all - 1 -> all !! k = Some t -> (tk_work t + Z.of_nat (length (tk_repr t)) <= w)%Z) ->
  toks <> [] ->
  coords_loop toks n tok w (length all) =
  (length all - 1, if n =? length all - 1 then tok else default tok (all !! (length all - 2))).
Proof.
  intros Hlay. induction toks as [|t0 toks IH]; intros n tok w Hd Hn Hw Hne; [done|]. cbn [coords_loop].
  assert (all !! n = Some t0) as Hn0 by (by rewrite <- (Nat.add_0_r n), <- lookup_drop, Hd).
  destruct (Nat.eqb_spec n (length all - 1)) as [->|Hlt].
  { assert ((length all - 1 <=? length all - 1) = true) as -> by lia. done. }
  assert ((length all - 1 <=? n) = false) as -> by lia.
  pose proof (Hw n t0 ltac:(lia) ltac:(lia) Hn0) as H0.
  assert ((w <? tk_work t0 + Z.of_nat (length (tk_repr t0)))%Z = false) as -> by lia.
  assert (drop (S n) all = toks) as Hd' by (by rewrite <- (Nat.add_1_r n), <- drop_drop, Hd).
  rewrite IH; [|done|lia| |].
  - destruct (Nat.eqb_spec (S n) (length all - 1)) as [E|E].
    + replace (length all - 2) with n by lia. by rewrite Hn0.
    + destruct (lookup_lt_is_Some_2 all (length all - 2)) as [x ->]; [lia|done].
  - intros k t Hk. apply Hw. lia.
  - intros ->. apply (f_equal length) in Hd'. rewrite drop_length in Hd'. cbn in Hd'. lia.
Qed.
Lemma last_token_exact : forall (text : bytes) (toks : list token) (prev t : token) (w : nat),
  let ts := new_token_stream text toks in
  let k := length toks - 1 in
  (forall k t, toks !! k = Some t -> tk_work t = Z.of_nat (work_start (tk_repr <$> toks) k)) ->
  2 <= length toks -> toks !! (k - 1) = Some prev -> toks !! k = Some t -> (0 <= tk_orig t)%Z ->
  work_start (tk_repr <$> toks) k <= w ->
  let o := Z.to_nat (tk_orig t) + (w - work_start (tk_repr <$> toks) k) + length (tk_repr prev) in
  ts_pos_to_line ts (Z.of_nat w) = ROk (Z.of_nat (newlines (take o text))) /\
  exists c, ts_pos_to_col ts (Z.of_nat w) = ROk (Z.of_nat c) /\ column_of text o c.
Proof.
  intros text toks prev t w ts k Hlay H2 Hp Hk Ho Hw o.
  assert (k = length toks - 1) as EK by done. clearbody k.
  assert ((tk_repr <$> toks) !! (k - 1) = Some (tk_repr prev)) as HR by (by rewrite list_lookup_fmap, Hp).
  pose proof (work_start_S _ _ _ HR) as HS. replace (S (k - 1)) with k in HS by lia.
  apply (ts_pos_to_line_col ts o (Z.of_nat w) k); [done|].
  unfold ts_coords. change (ts_tokens ts) with toks. assert (toks <> []) as Hne by (intros ->; cbn in H2; lia).
  transitivity (let '(n, tok) := coords_loop toks 0 zero_token (Z.of_nat w) (length toks) in
    match toks !! n with None => RPanic (PMsg "nToken goes beyond") | Some tn => ROk (n, (tk_orig tn + (Z.of_nat w - tk_work tok))%Z) end);
    [by destruct toks|].
  rewrite (loop_to_last toks Hlay toks 0); [|done|lia| |done].
  - assert ((0 =? length toks - 1) = false) as -> by lia. rewrite <- EK.
    replace (length toks - 2) with (k - 1) by lia. rewrite Hp, Hk. unfold default, id. rewrite (Hlay _ _ Hp).
    do 2 f_equal. subst o. lia.
  - intros j x _ Hj Hx. rewrite (Hlay _ _ Hx).
    assert ((tk_repr <$> toks) !! j = Some (tk_repr x)) as HX by (by rewrite list_lookup_fmap, Hx).
    pose proof (work_start_S _ _ _ HX). pose proof (work_start_mono (tk_repr <$> toks) (S j) k ltac:(lia)). lia.
Qed.

(** ** Repetitions bounded by 0 or 1 *)
Lemma pat_loop_two rec lf v j mx acc s : (0 <= mx <= 1)%Z -> 1 <= length acc ->
  pat_loop rec lf v j mx acc s = pat_loop rec lf v j 2 acc s.
Proof.
  intros Hm Ha. destruct lf as [|lf]; [done|]. cbn [pat_loop].
  unfold bind, get_pos, gets. set (jr := match j with None => _ | Some _ => _ end).
  destruct (jr s) as [b s1|p s1|]; [|done|done]. destruct b; [|done].
  destruct (rec v s1) as [[x|] s2|p s2|]; [|done|done|done].
  assert (((-1 <? mx) && (mx <=? Z.of_nat (length (x :: acc))))%Z%bool = true) as -> by (cbn [length]; lia).
  assert (((-1 <? 2) && (2 <=? Z.of_nat (length (x :: acc))))%Z%bool = true) as -> by (cbn [length]; lia).
  done.
Qed.
Lemma bound_two : forall (E : env) rec (lf : nat) (i i2 : info) (v : node) (j : option node) (mn mx : Z) (s : st),
  (0 <= mx <= 1)%Z ->
  body E rec lf (Node i (KPat v j mn mx)) s = body E rec lf (Node i2 (KPat v j mn 2)) s.
Proof.
  intros E rec lf i i2 v j mn mx s Hm. unfold body. cbn [n_kind]. unfold bind, get_pos, gets.
  destruct (rec v s) as [[x|] s2|p s2|]; [|done|done|done].
  rewrite (pat_loop_two rec lf v j mx [x] s2) by (cbn; lia). done.
Qed.
