(** Lemmas about Stream.v. *)
From Verif Require Import Base Helpers HelpersSpec HelpersProofs Utf8 Utf8Spec Utf8Proofs Stream StreamSpec StreamRun.

(** ** Slices *)
Lemma go_slice_ok s i j : i <= j -> j <= length s -> go_slice s i j = ROk (slice s i j).
Proof. intros. unfold go_slice. by assert (((i <=? j) && (j <=? length s))%bool = true) as -> by lia. Qed.
Lemma slice_to_end s i : slice s i (length s) = drop i s.
Proof. unfold slice. apply take_ge. rewrite drop_length. lia. Qed.
Lemma slice_from_0 s j : slice s 0 j = take j s.
Proof. unfold slice. by rewrite drop_0, Nat.sub_0_r. Qed.

(** A view of a stream as (work text, position), common to both kinds. *)
Definition c_wf (c : code) : Prop := c_pos c <= length (c_work c).

Definition c_with_pos (c : code) (p : nat) : code :=
  match c with CRune r => CRune (rs_with_pos r p) | CTok t => CTok (ts_with_pos t p) end.
Lemma c_with_pos_pos c p : c_pos (c_with_pos c p) = p.
Proof. by destruct c. Qed.
Lemma c_with_pos_work c p : c_work (c_with_pos c p) = c_work c.
Proof. by destruct c. Qed.
Lemma c_with_pos_same c : c_with_pos c (c_pos c) = c.
Proof. by destruct c as [[]|[]]. Qed.
Lemma c_with_pos_twice c p q : c_with_pos (c_with_pos c p) q = c_with_pos c q.
Proof. by destruct c. Qed.

Lemma c_set_pos_eq c n :
  c_set_pos c n = if ((n <? 0) || (Z.of_nat (length (c_work c)) <? n))%Z%bool
                  then RPanic (PMsg "out of bound") else ROk (c_with_pos c (Z.to_nat n)).
Proof. destruct c; cbn [c_set_pos c_work rmap]; unfold rs_set_pos, ts_set_pos; by destruct (_ || _)%bool. Qed.

Lemma c_set_pos_ok c p : p <= length (c_work c) -> c_set_pos c (Z.of_nat p) = ROk (c_with_pos c p).
Proof.
  intros. rewrite c_set_pos_eq.
  assert (((Z.of_nat p <? 0) || (Z.of_nat (length (c_work c)) <? Z.of_nat p))%Z%bool = false) as -> by lia.
  by rewrite Nat2Z.id.
Qed.

(** *** GetUntil *)
Lemma c_get_until_eq c needle : c_wf c ->
  c_get_until c needle =
  let rest := drop (c_pos c) (c_work c) in
  let off := match str_index rest needle with None => length (c_work c) | Some o => o + c_pos c + length needle end in
  let* out := go_slice (c_work c) (c_pos c) off in
  ROk (out, c_with_pos c off).
Proof.
  unfold c_wf. intros H. destruct c as [r|t]; cbn [c_pos c_work c_get_until c_with_pos] in *.
  - unfold rs_get_until. rewrite go_slice_ok by lia. cbn [rbind]. rewrite slice_to_end. cbv zeta.
    by destruct (go_slice _ _ _).
  - unfold ts_get_until. rewrite go_slice_ok by lia. cbn [rbind]. rewrite slice_to_end. cbv zeta.
    by destruct (go_slice _ _ _).
Qed.

Lemma has_prefix_iff p s : has_prefix p s = true <-> exists post, s = p ++ post.
Proof.
  revert s. induction p as [|x p IH]; intros s.
  - cbn. split; [eauto|done].
  - destruct s as [|y s]; cbn [has_prefix].
    + split; [done|]. intros (post & H). done.
    + rewrite andb_true_iff, IH, N.eqb_eq. split.
      * intros (-> & post & ->). by exists post.
      * intros (post & H). injection H as -> ->. eauto.
Qed.

Lemma str_index_Some s sub o : str_index s sub = Some o ->
  occurs_at sub s o /\ forall k, k < o -> ~ occurs_at sub s k.
Proof.
  revert o. induction s as [|b s IH]; intros o H; cbn [str_index] in H.
  - destruct (has_prefix sub []) eqn:E; [|done]. injection H as <-.
    apply has_prefix_iff in E as [post E]. split; [by exists post|lia].
  - destruct (has_prefix sub (b :: s)) eqn:E.
    + injection H as <-. apply has_prefix_iff in E as [post E]. split; [by exists post|lia].
    + destruct (str_index s sub) as [o'|] eqn:E'; [|done]. cbn in H. injection H as <-.
      destruct (IH o' eq_refl) as [H1 H2]. split; [done|].
      intros [|k] Hk; [|apply H2; lia].
      intros [post Hp]. rewrite drop_0 in Hp. assert (has_prefix sub (b :: s) = true); [|congruence].
      apply has_prefix_iff. eauto.
Qed.
Lemma str_index_None s sub : str_index s sub = None -> forall k, ~ occurs_at sub s k.
Proof.
  induction s as [|b s IH]; intros H k; cbn [str_index] in H.
  - destruct (has_prefix sub []) eqn:E; [done|]. intros [post Hp]. rewrite drop_nil in Hp.
    assert (has_prefix sub [] = true); [|congruence]. apply has_prefix_iff. eauto.
  - destruct (has_prefix sub (b :: s)) eqn:E; [done|].
    destruct (str_index s sub) as [o'|] eqn:E'; [done|]. destruct k as [|k].
    + intros [post Hp]. rewrite drop_0 in Hp. assert (has_prefix sub (b :: s) = true); [|congruence].
      apply has_prefix_iff. eauto.
    + intros [post Hp]. apply (IH eq_refl k). by exists post.
Qed.

Lemma c_get_until_found c needle o : c_wf c ->
  occurs_at needle (drop (c_pos c) (c_work c)) o ->
  (forall k, k < o -> ~ occurs_at needle (drop (c_pos c) (c_work c)) k) ->
  let e := c_pos c + o + length needle in
  e <= length (c_work c) /\
  c_get_until c needle = ROk (slice (c_work c) (c_pos c) e, c_with_pos c e).
Proof.
  intros Hwf Ho Hfirst e.
  assert (e <= length (c_work c)) as He.
  { subst e. destruct Ho as [post Hp]. apply (f_equal length) in Hp.
    rewrite !drop_length, app_length in Hp. unfold c_wf in Hwf.
    destruct (decide (length needle = 0)) as [E|E]; [|lia].
    destruct o as [|o]; [lia|]. exfalso. destruct needle; [|cbn in E; lia].
    apply (Hfirst 0); [lia|]. by exists (drop (c_pos c) (c_work c)). }
  split; [done|].
  rewrite c_get_until_eq by done. cbv zeta.
  destruct (str_index (drop (c_pos c) (c_work c)) needle) as [o'|] eqn:E.
  - apply str_index_Some in E as [E1 E2].
    assert (o' = o) as -> by (destruct (lt_eq_lt_dec o o') as [[Hl|Hl]|Hl]; [exfalso; by apply (E2 o)|done|exfalso; by apply (Hfirst o')]).
    replace (o + c_pos c + length needle) with e by (subst e; lia).
    rewrite go_slice_ok by (subst e; lia). done.
  - exfalso. by eapply str_index_None.
Qed.

Lemma c_get_until_unfound c needle : c_wf c ->
  (forall k, ~ occurs_at needle (drop (c_pos c) (c_work c)) k) ->
  c_get_until c needle = ROk (drop (c_pos c) (c_work c), c_with_pos c (length (c_work c))).
Proof.
  intros Hwf Hno. rewrite c_get_until_eq by done. cbv zeta.
  destruct (str_index (drop (c_pos c) (c_work c)) needle) as [o'|] eqn:E.
  - apply str_index_Some in E as [E1 E2]. exfalso. by eapply Hno.
  - unfold c_wf in Hwf. rewrite go_slice_ok by lia. cbn [rbind]. by rewrite slice_to_end.
Qed.

(** *** MatchString *)
Lemma slice_min s p n : slice s p (Nat.min (p + n) (length s)) = take n (drop p s).
Proof.
  unfold slice. destruct (decide (p + n <= length s)).
  - rewrite Nat.min_l by lia. f_equal. lia.
  - rewrite Nat.min_r by lia. rewrite !take_ge; [done| |]; rewrite drop_length; lia.
Qed.

Lemma c_match_string_eq c s : c_wf c ->
  c_match_string c s =
  if bytes_eqb s (take (length s) (drop (c_pos c) (c_work c)))
  then ROk (Some s, c_with_pos c (c_pos c + length s)) else ROk (None, c).
Proof.
  unfold c_wf. intros H. destruct c as [r|t]; cbn [c_pos c_work c_match_string c_with_pos] in *.
  - unfold rs_match_string. rewrite go_slice_ok by lia. cbn [rbind]. rewrite slice_min.
    by destruct (bytes_eqb _ _).
  - unfold ts_match_string. rewrite go_slice_ok by lia. cbn [rbind]. rewrite slice_min.
    by destruct (bytes_eqb _ _).
Qed.
Lemma bytes_eqb_spec a b : reflect (a = b) (bytes_eqb a b).
Proof. unfold bytes_eqb. destruct (bool_decide_reflect (a = b)); by constructor. Qed.

Lemma take_prefix_iff (s l : bytes) : s = take (length s) l <-> exists post, l = s ++ post.
Proof.
  split.
  - intros H. exists (drop (length s) l). rewrite H at 1. by rewrite take_drop.
  - intros [post ->]. by rewrite take_app.
Qed.

(** *** MatchRegexp *)
Lemma c_match_regexp_eq c find : c_wf c -> rx_ok find ->
  c_match_regexp c find =
  match find (drop (c_pos c) (c_work c)) with
  | Some (0, l) => ROk (Some (slice (c_work c) (c_pos c) (c_pos c + l)), c_with_pos c (c_pos c + l))
  | _ => ROk (None, c)
  end.
Proof.
  unfold c_wf. intros H Hrx. destruct c as [r|t]; cbn [c_pos c_work c_match_regexp c_with_pos] in *.
  - unfold rs_match_regexp. rewrite go_slice_ok by lia. cbn [rbind]. rewrite slice_to_end.
    destruct (find _) as [[a b]|] eqn:E; [|done].
    apply Hrx in E. rewrite drop_length in E.
    destruct a as [|a]; [|done]. cbn [Nat.eqb negb].
    rewrite Nat.add_0_r, Nat.min_l by lia. rewrite go_slice_ok by lia. done.
  - unfold ts_match_regexp. rewrite go_slice_ok by lia. cbn [rbind]. rewrite slice_to_end.
    destruct (find _) as [[a b]|] eqn:E; [|done].
    apply Hrx in E. rewrite drop_length in E.
    destruct a as [|a]; [|done]. cbn [Nat.eqb negb].
    rewrite Nat.add_0_r, Nat.min_l by lia. rewrite go_slice_ok by lia. done.
Qed.

(** *** MatchRune *)
Lemma range_string_cons s : s <> [] ->
  range_string s = (0, fst (decode_rune s)) ::
     ((fun '(o, r) => (o + snd (decode_rune s), r)) <$> range_string (drop (snd (decode_rune s)) s)).
Proof.
  intros Hs. unfold range_string.
  pose proof (decode_rune_width s Hs) as HW.
  destruct (length s) as [|f] eqn:EL; [destruct s; done|].
  cbn [range_aux]. destruct s as [|b s0] eqn:Es; [done|]. rewrite <- Es in *. clear Es Hs.
  destruct (decode_rune s) as [r w] eqn:ED. cbn [fst snd] in *. f_equal.
  assert (forall f1 f2 p q s', length s' <= f1 -> length s' <= f2 ->
     range_aux f1 (q + p) s' = (fun '(o, r0) => (o + p, r0)) <$> range_aux f2 q s') as HH.
  { induction f1 as [|f1 IH]; intros f2 p q s' H1 H2.
    - destruct s'; [|cbn in H1; lia]. by destruct f2.
    - destruct s' as [|x s']; [by destruct f2|].
      destruct f2 as [|f2]; [cbn in H2; lia|]. cbn [range_aux].
      pose proof (decode_rune_width (x :: s') ltac:(done)) as HW'.
      destruct (decode_rune (x :: s')) as [r' w'] eqn:ED'. cbn [snd] in HW'.
      cbn [fmap list_fmap]. f_equal. replace (q + p + w') with (q + w' + p) by lia.
      apply IH; rewrite drop_length; lia. }
  apply (HH f _ w 0). all: rewrite drop_length; lia.
Qed.

Lemma c_match_rune_eq c f : c_wf c ->
  c_match_rune c f =
  match drop (c_pos c) (c_work c) with
  | [] => ROk (None, c)
  | s => let '(r, w) := decode_rune s in
         if f r then ROk (Some r, c_with_pos c (c_pos c + w)) else ROk (None, c)
  end.
Proof.
  intros H. 
  assert (forall (X : Type) (mk : nat -> X) (sp : Z -> res X) (same : X),
    (forall p, p <= length (c_work c) -> sp (Z.of_nat p) = ROk (mk p)) ->
    (if length (c_work c) <=? c_pos c then ROk (None, same)
  else
    let* rest := go_slice (c_work c) (c_pos c) (length (c_work c)) in
    match range_string rest with
    | [] => let* r' := sp (Z.of_nat (length (c_work c))) in ROk (Some 0%N, r')
    | (_, x) :: more =>
        if f x then
          let newpos := match more with [] => c_pos c | (off, _) :: _ => c_pos c + off end in
          let* r' := sp (if newpos =? c_pos c then Z.of_nat (length (c_work c)) else Z.of_nat newpos) in
          ROk (Some x, r')
        else ROk (None, same)
    end) = 
  match drop (c_pos c) (c_work c) with
  | [] => ROk (None, same)
  | s => let '(r, w) := decode_rune s in
         if f r then ROk (Some r, mk (c_pos c + w)) else ROk (None, same)
  end) as HG.
  { intros X mk sp same Hsp. unfold c_wf in H.
    destruct (length (c_work c) <=? c_pos c) eqn:EL.
    { rewrite drop_ge by lia. done. }
    rewrite go_slice_ok by lia. cbn [rbind]. rewrite slice_to_end.
    destruct (drop (c_pos c) (c_work c)) as [|b0 s0] eqn:ED.
    { apply (f_equal length) in ED. rewrite drop_length in ED. cbn in ED. lia. }
    rewrite <- ED. assert (drop (c_pos c) (c_work c) <> []) as Hne by (by rewrite ED).
    rewrite range_string_cons by done.
    pose proof (decode_rune_width _ Hne) as HW.
    destruct (decode_rune (drop (c_pos c) (c_work c))) as [r w] eqn:EDR. cbn [fst snd] in *.
    rewrite drop_length in HW.
    destruct (f r); [|done]. cbv zeta.
    destruct (drop w (drop (c_pos c) (c_work c))) as [|b1 s1] eqn:ED2.
    - cbn. rewrite Nat.eqb_refl. rewrite Hsp by lia. cbn.
      apply (f_equal length) in ED2. rewrite !drop_length in ED2. cbn in ED2.
      do 3 f_equal. lia.
    - rewrite range_string_cons by done. cbn [fmap list_fmap]. rewrite Nat.add_0_l.
      assert ((c_pos c + w =? c_pos c) = false) as -> by lia.
      rewrite Hsp by lia. done. }
  destruct c as [r|t]; cbn [c_match_rune c_pos c_work c_with_pos] in *.
  - unfold rs_match_rune.
    rewrite (HG rstream (rs_with_pos r) (rs_set_pos r) r).
    + destruct (drop _ _) as [|b s]; [done|]. destruct (decode_rune _). by destruct (f _).
    + intros p Hp. unfold rs_set_pos.
      assert (((Z.of_nat p <? 0) || (Z.of_nat (length (rs_text r)) <? Z.of_nat p))%Z%bool = false) as -> by lia.
      by rewrite Nat2Z.id.
  - unfold ts_match_rune.
    rewrite (HG tstream (ts_with_pos t) (ts_set_pos t) t).
    + destruct (drop _ _) as [|b s]; [done|]. destruct (decode_rune _). by destruct (f _).
    + intros p Hp. unfold ts_set_pos.
      assert (((Z.of_nat p <? 0) || (Z.of_nat (length (ts_work t)) <? Z.of_nat p))%Z%bool = false) as -> by lia.
      by rewrite Nat2Z.id.
Qed.

(** *** PeekRunes *)
Lemma c_peek_runes_eq c n : c_wf c ->
  c_peek_runes c n =
  if (n <=? 0)%Z then last_n_runes (take (c_pos c) (c_work c)) (- n)
  else ROk (peek_forward (drop (c_pos c) (c_work c)) (Z.to_nat n)).
Proof.
  unfold c_wf. intros H. destruct c as [r|t]; cbn [c_pos c_work c_peek_runes] in *;
  unfold rs_peek_runes, ts_peek_runes; (destruct (n <=? 0)%Z;
    [rewrite go_slice_ok by lia; cbn [rbind]; by rewrite slice_from_0
    |rewrite go_slice_ok by lia; cbn [rbind]; by rewrite slice_to_end]).
Qed.

Lemma range_utf8s_app rs1 rs2 b1 b2 : utf8s rs1 b1 -> utf8s rs2 b2 ->
  peek_forward (b1 ++ b2) (length rs1) = b1.
Proof.
  intros H1 H2. unfold peek_forward.
  assert (forall l : list (nat * N), l ≫= (fun '(_, r) => encode_rune r) = l.*2 ≫= encode_rune) as E.
  { induction l as [|[a b] l IH]; [done|]. cbn. f_equal. apply IH. }
  rewrite E, fmap_take, (range_string_utf8s (rs1 ++ rs2)) by (by apply utf8s_app).
  rewrite take_app. clear -H1. induction H1 as [|r b rs bs Hr Hs IH]; [done|].
  cbn. f_equal; [by apply encode_rune_spec|apply IH].
Qed.

Lemma peek_forward_ge s n : length (range_string s) <= n -> peek_forward s n = peek_forward s (length (range_string s)).
Proof. intros. unfold peek_forward. rewrite !take_ge; done. Qed.

Lemma peek_forward_utf8s rs bs n : utf8s rs bs ->
  exists b', utf8s (take n rs) b' /\ peek_forward bs n = b'.
Proof.
  intros H.
  destruct (decide (n <= length rs)) as [Hn|Hn].
  - rewrite <- (take_drop n rs) in H. destruct (utf8s_app_inv _ _ _ H) as (b1 & b2 & -> & H1 & H2).
    exists b1. split; [done|]. replace n with (length (take n rs)) at 1 by (rewrite take_length; lia).
    by eapply range_utf8s_app.
  - rewrite take_ge by lia. exists bs. split; [done|].
    pose proof (range_string_utf8s _ _ H) as E. apply (f_equal length) in E. rewrite fmap_length in E.
    rewrite peek_forward_ge by lia. rewrite E.
    rewrite <- (app_nil_r bs) at 1. eapply range_utf8s_app; [done|constructor].
Qed.

(** ** Lines *)
Fixpoint offsets (o : nat) (ls : list bytes) : list nat :=
  match ls with
  | [] => []
  | l :: ls' => o :: offsets (o + length l + 1) ls'
  end.

Lemma split_lines_not_nil s : split_lines s <> [].
Proof. destruct s as [|b s]; [done|]. cbn. destruct (b =? 10)%N; [done|]. by destruct (split_lines s). Qed.

Lemma join_split s : join_lines (split_lines s) = s.
Proof.
  induction s as [|b s IH]; [done|]. cbn [split_lines].
  destruct (b =? 10)%N eqn:E.
  - apply N.eqb_eq in E as ->. pose proof (split_lines_not_nil s).
    destruct (split_lines s) as [|l ls] eqn:El; [done|]. cbn [join_lines].
    change (10%N :: join_lines (l :: ls) = 10%N :: s). by rewrite IH.
  - destruct (split_lines s) as [|l ls] eqn:El; [by destruct (split_lines_not_nil s)|].
    destruct ls as [|l' ls]; cbn [join_lines] in *; by rewrite <- IH.
Qed.

Lemma offsets_length o ls : length (offsets o ls) = length ls.
Proof. revert o. induction ls as [|l ls IH]; intros o; [done|]. cbn. by rewrite IH. Qed.

(** Byte positions of newlines. *)
Fixpoint nl_positions (o : nat) (s : bytes) : list nat :=
  match s with
  | [] => []
  | b :: s' => if (b =? 10)%N then o :: nl_positions (S o) s' else nl_positions (S o) s'
  end.

Lemma nl_positions_app o s1 s2 :
  nl_positions o (s1 ++ s2) = nl_positions o s1 ++ nl_positions (o + length s1) s2.
Proof.
  revert o. induction s1 as [|b s1 IH]; intros o; cbn [app nl_positions length].
  - by rewrite Nat.add_0_r.
  - rewrite IH. replace (S o + length s1) with (o + S (length s1)) by lia. by destruct (b =? 10)%N.
Qed.

Lemma nl_positions_none o s : Forall (fun b => b <> 10%N) s -> nl_positions o s = [].
Proof.
  intros H. revert o. induction H as [|b s Hb Hs IH]; intros o; [done|]. cbn.
  assert ((b =? 10)%N = false) as -> by (by apply N.eqb_neq). apply IH.
Qed.

Lemma decode_rune_nl s : s <> [] ->
  (fst (decode_rune s) = 10%N <-> s !! 0 = Some 10%N) /\
  Forall (fun b => b <> 10%N) (take (snd (decode_rune s) - 1) (drop 1 s)).
Proof.
  intros Hs. destruct s as [|b0 r0]; [done|]. cbn [decode_rune].
  change ((b0 :: r0) !! 0) with (Some b0). cbn [drop].
  assert (forall b, b = 10%N <-> Some b = Some 10%N) as HS by (intros; split; congruence).
  destruct (b0 <? 128)%N eqn:E0.
  { cbn [fst snd Nat.sub take]. split; [apply HS|constructor]. }
  assert (b0 <> 10%N) by lia.
  assert (rune_error = 10%N <-> Some b0 = Some 10%N) as HR.
  { rewrite <- HS. split; [done|lia]. }
  destruct (first_info b0) as [[[sz lo] hi]|] eqn:EF; [|cbn; split; [exact HR|constructor]].
  assert (128 <= lo /\ hi <= 191)%N as Hlo.
  { unfold first_info in EF. repeat case_match; simplify_eq; lia. }
  assert (2 <= sz <= 4 /\ (sz = 2 -> (194 <= b0 <= 223)%N) /\ (sz = 3 -> (224 <= b0 <= 239)%N /\ (b0 = 224%N -> (160 <= lo)%N)) /\
      (sz = 4 -> (240 <= b0 <= 244)%N /\ (b0 = 240%N -> (144 <= lo)%N))) as Hsz.
  { unfold first_info, in_range in EF. repeat case_match; simplify_eq; lia. }
  destruct (length (b0 :: r0) <? sz); [cbn; split; [exact HR|constructor]|].
  destruct r0 as [|b1 r1]; [cbn; split; [exact HR|constructor]|].
  destruct (negb (in_range lo hi b1)) eqn:E1; [cbn; split; [exact HR|constructor]|].
  unfold in_range in E1.
  destruct (sz <=? 2) eqn:S2.
  { cbn [fst snd Nat.sub take]. split; [rewrite <- HS; lia|]. constructor; [lia|constructor]. }
  destruct r1 as [|b2 r2]; [cbn; split; [exact HR|constructor]|].
  destruct (negb (in_range 128 191 b2)) eqn:E2; [cbn; split; [exact HR|constructor]|].
  unfold in_range in E2.
  destruct (sz <=? 3) eqn:S3.
  { cbn [fst snd Nat.sub take]. split; [rewrite <- HS; lia|]. repeat constructor; lia. }
  destruct r2 as [|b3 r3]; [cbn; split; [exact HR|constructor]|].
  destruct (negb (in_range 128 191 b3)) eqn:E3; [cbn; split; [exact HR|constructor]|].
  unfold in_range in E3.
  cbn [fst snd Nat.sub take]. split; [rewrite <- HS; lia|]. repeat constructor; lia.
Qed.

Lemma line_starts_nl_aux n : forall s o, length s <= n ->
  ((fun '(p, _) => Z.of_nat (p + o + 1)) <$> filter (fun '(_, r) => r = 10%N) (range_string s))
  = (fun p => Z.of_nat (p + 1)) <$> nl_positions o s.
Proof.
  induction n as [|n IH]; intros s o Hn.
  { destruct s; [done|cbn in Hn; lia]. }
  destruct s as [|b s0] eqn:Es; [done|]. rewrite <- Es in *.
  assert (s <> []) as Hne by (by rewrite Es).
  rewrite range_string_cons by done.
  pose proof (decode_rune_width s Hne) as HW.
  destruct (decode_rune_nl s Hne) as [Hnl Hrest].
  destruct (decode_rune s) as [r w] eqn:ED. cbn [fst snd] in *.
  assert (s = b :: take (w - 1) (drop 1 s) ++ drop w s) as Esplit.
  { rewrite Es. cbn [drop]. destruct w as [|w]; [lia|]. cbn [drop].
    replace (S w - 1) with w by lia. by rewrite take_drop. }
  rewrite Esplit at 2. cbn [nl_positions].
  rewrite nl_positions_app, (nl_positions_none _ _ Hrest). cbn [app].
  assert (length (take (w - 1) (drop 1 s)) = w - 1) as ELen.
  { rewrite take_length, drop_length. lia. }
  rewrite ELen. replace (S o + (w - 1)) with (o + w) by lia.
  specialize (IH (drop w s) (o + w)). rewrite drop_length in IH.
  assert (forall l : list (nat * N),
    (fun '(p, _) => Z.of_nat (p + o + 1)) <$> filter (fun '(_, r0) => r0 = 10%N) ((fun '(o0, r0) => (o0 + w, r0)) <$> l)
    = (fun '(p, _) => Z.of_nat (p + (o + w) + 1)) <$> filter (fun '(_, r0) => r0 = 10%N) l) as HF.
  { induction l as [|[a c] l IHl]; [done|]. rewrite fmap_cons.
    destruct (decide (c = 10%N)) as [Hc|Hc].
    - rewrite !filter_cons_True by done. rewrite !fmap_cons. f_equal; [f_equal; lia|apply IHl].
    - rewrite !filter_cons_False by done. apply IHl. }
  assert (b = 10%N <-> r = 10%N) as Hb.
  { rewrite Hnl, Es. cbn. split; congruence. }
  destruct (decide (r = 10%N)) as [Hr|Hr].
  - rewrite filter_cons_True by done. assert ((b =? 10)%N = true) as -> by (apply N.eqb_eq; tauto). rewrite !fmap_cons, HF.
    f_equal. apply IH. lia.
  - rewrite filter_cons_False by done.
    assert ((b =? 10)%N = false) as -> by (apply N.eqb_neq; tauto). rewrite HF. apply IH. lia.
Qed.

Lemma nl_positions_offsets s o :
  o :: (S <$> nl_positions o s) = offsets o (split_lines s).
Proof.
  revert o. induction s as [|b s IH]; intros o; [done|]. cbn [nl_positions split_lines].
  destruct (b =? 10)%N.
  - cbn [offsets]. rewrite fmap_cons. rewrite (IH (S o)). cbn [length].
    by replace (o + 0 + 1) with (S o) by lia.
  - specialize (IH (S o)). destruct (split_lines s) as [|l ls]; [done|].
    cbn [offsets] in *. injection IH as IH. rewrite IH. cbn [length].
    do 2 f_equal. lia.
Qed.

Lemma line_starts_offsets s : line_starts s = Z.of_nat <$> offsets 0 (split_lines s).
Proof.
  rewrite <- nl_positions_offsets, fmap_cons. unfold line_starts. f_equal.
  pose proof (line_starts_nl_aux (length s) s 0 ltac:(lia)) as H.
  rewrite <- list_fmap_compose.
  transitivity ((fun p : nat => Z.of_nat (p + 1)) <$> nl_positions 0 s).
  - rewrite <- H. apply list_fmap_ext. intros _ [p r] _. f_equal. lia.
  - apply list_fmap_ext. intros _ x _. cbn. lia.
Qed.

(** Offsets increase strictly. *)
Lemma offsets_lookup_ge o ls i x : offsets o ls !! i = Some x -> o <= x.
Proof.
  revert o i. induction ls as [|l ls IH]; intros o i H; [done|]. destruct i as [|i]; cbn in H.
  - injection H as <-. lia.
  - apply IH in H. lia.
Qed.
Lemma offsets_increasing o ls i j x y : offsets o ls !! i = Some x -> offsets o ls !! j = Some y ->
  i < j -> x < y.
Proof.
  revert o i j. induction ls as [|l ls IH]; intros o i j Hi Hj Hij; [done|].
  destruct j as [|j]; [lia|]. cbn [offsets] in *. change (offsets (o + length l + 1) ls !! j = Some y) in Hj.
  destruct i as [|i].
  - cbn in Hi. injection Hi as <-. apply offsets_lookup_ge in Hj. lia.
  - eapply IH; [exact Hi|exact Hj|lia].
Qed.

Lemma line_starts_sorted s : sorted (line_starts s).
Proof.
  rewrite line_starts_offsets. intros i j x y Hx Hy Hij.
  apply list_lookup_fmap_inv in Hx as (x' & -> & Hx). apply list_lookup_fmap_inv in Hy as (y' & -> & Hy).
  destruct (decide (i = j)) as [->|]; [simplify_eq; lia|].
  pose proof (offsets_increasing _ _ _ _ _ _ Hx Hy). lia.
Qed.

Lemma newlines_app a b : newlines (a ++ b) = newlines a + newlines b.
Proof. unfold newlines. by rewrite filter_app, app_length. Qed.
Lemma newlines_cons_nl a : newlines (10%N :: a) = S (newlines a).
Proof. unfold newlines. by rewrite filter_cons_True. Qed.

(** The relation between text and line offsets. *)
Lemma text_at_offset o ls i x : offsets o ls !! i = Some x ->
  exists pre, join_lines ls = pre ++ join_lines (drop i ls) /\ x = o + length pre /\
     newlines pre = i + newlines (mjoin (take i ls)) /\
     (i = 0 /\ pre = [] \/ exists pre', pre = pre' ++ [10%N]).
Proof.
  revert o i. induction ls as [|l ls IH]; intros o i H; [done|]. destruct i as [|i].
  - cbn in H. injection H as <-. exists []. split; [done|]. split; [cbn; lia|]. split; [done|]. by left.
  - cbn [offsets] in H. change (offsets (o + length l + 1) ls !! i = Some x) in H.
    destruct (IH _ _ H) as (pre & E & Hx & Hnl & Hpre).
    exists (l ++ 10%N :: pre). split; [|split; [|split]].
    + cbn [drop]. destruct ls as [|l' ls]; [done|]. cbn [join_lines]. cbn [join_lines] in E. rewrite E.
      by rewrite <- app_assoc.
    + rewrite app_length. cbn [length]. lia.
    + cbn [take]. change (mjoin (l :: take i ls)) with (l ++ mjoin (take i ls)).
      rewrite !newlines_app, newlines_cons_nl. lia.
    + right. destruct Hpre as [[-> ->]|[pre' ->]].
      * by exists l.
      * exists (l ++ 10%N :: pre'). by rewrite <- app_assoc.
Qed.

Lemma split_lines_no_nl s : Forall (fun l => Forall (fun b => b <> 10%N) l) (split_lines s).
Proof.
  induction s as [|b s IH]; [repeat constructor|]. cbn [split_lines].
  destruct (b =? 10)%N eqn:E; [by constructor|].
  destruct (split_lines s) as [|l ls]; [repeat constructor; by apply N.eqb_neq in E|].
  inversion IH; subst. constructor; [|done]. constructor; [by apply N.eqb_neq in E|done].
Qed.

Lemma newlines_none l : Forall (fun b => b <> 10%N) l -> newlines l = 0.
Proof.
  unfold newlines. induction 1 as [|b l Hb Hl IH]; [done|]. rewrite filter_cons_False; [apply IH|done].
Qed.

Lemma Forall_mjoin {A} (P : A -> Prop) (ls : list (list A)) : Forall (Forall P) ls -> Forall P (mjoin ls).
Proof. induction 1; cbn; [constructor|]. by apply Forall_app. Qed.

(** The facts used by everything below: line number [i] starts at [x]. *)
Lemma line_start_facts s i x : offsets 0 (split_lines s) !! i = Some x ->
  x <= length s /\ newlines (take x s) = i /\
  (x = 0 \/ (1 <= x /\ s !! (x - 1) = Some 10%N)) /\
  drop x s = join_lines (drop i (split_lines s)).
Proof.
  intros H. destruct (text_at_offset _ _ _ _ H) as (pre & E & Hx & Hnl & Hpre).
  rewrite join_split in E. cbn in Hx. subst x.
  split; [rewrite E, app_length; lia|].
  split.
  { rewrite E, take_app, Hnl. rewrite newlines_none; [lia|].
    apply Forall_mjoin, Forall_take, split_lines_no_nl. }
  split.
  { destruct Hpre as [[_ ->]|[pre' ->]]; [by left|]. right. rewrite app_length. cbn [length].
    split; [lia|]. rewrite E, lookup_app_l by (rewrite app_length; cbn; lia).
    rewrite lookup_app_r by lia. by replace (_ - _) with 0 by lia. }
  rewrite E at 1. apply drop_app.
Qed.

(** Which line an offset is on. *)
Lemma newlines_mono s p q : p <= q -> newlines (take p s) <= newlines (take q s).
Proof.
  intros H. replace q with (p + (q - p)) by lia.
  rewrite <- (take_drop p (take (p + (q - p)) s)). rewrite newlines_app, take_take, Nat.min_l by lia. lia.
Qed.

Lemma newlines_strict s x p : 1 <= x -> s !! (x - 1) = Some 10%N -> p < x -> newlines (take p s) < newlines (take x s).
Proof.
  intros H1 H2 H3. pose proof (newlines_mono s p (x - 1) ltac:(lia)).
  assert (newlines (take x s) = newlines (take (x - 1) s) + 1); [|lia].
  replace x with (S (x - 1)) at 1 by lia. by rewrite (take_S_r _ _ _ H2), newlines_app.
Qed.

Lemma offsets_is_Some o ls i : i < length ls -> is_Some (offsets o ls !! i).
Proof. intros. apply lookup_lt_is_Some. by rewrite offsets_length. Qed.

Lemma offsets_lt o ls i x : offsets o ls !! i = Some x -> i < length ls.
Proof. intros H. apply lookup_lt_Some in H. by rewrite offsets_length in H. Qed.

Lemma split_lines_length s : length (split_lines s) = S (newlines s).
Proof.
  induction s as [|b s IH]; [done|]. cbn [split_lines]. unfold newlines in *. rewrite filter_cons.
  destruct (b =? 10)%N eqn:E.
  - apply N.eqb_eq in E as ->. rewrite decide_True by done. cbn [length]. by rewrite IH.
  - apply N.eqb_neq in E. rewrite decide_False by done.
    destruct (split_lines s) as [|l ls]; cbn [length] in *; lia.
Qed.

Lemma splits_right_line s p :
  splits_right (line_starts s) (Z.of_nat p) (S (newlines (take p s))).
Proof.
  rewrite line_starts_offsets. split; [|split].
  - rewrite fmap_length, offsets_length, split_lines_length.
    pose proof (newlines_mono s p (p + length s) ltac:(lia)) as H.
    rewrite (take_ge s (p + length s)) in H by lia. lia.
  - intros j x Hx Hj. apply list_lookup_fmap_inv in Hx as (x' & -> & Hx).
    destruct (line_start_facts _ _ _ Hx) as (H1 & H2 & H3 & _).
    destruct (decide (x' <= p)); [lia|]. exfalso.
    destruct H3 as [->|[H3 H4]]; [lia|].
    pose proof (newlines_strict s x' p H3 H4 ltac:(lia)). lia.
  - intros j x Hx Hj. apply list_lookup_fmap_inv in Hx as (x' & -> & Hx).
    destruct (line_start_facts _ _ _ Hx) as (H1 & H2 & H3 & _).
    destruct (decide (p < x')); [lia|]. exfalso.
    pose proof (newlines_mono s x' p ltac:(lia)). lia.
Qed.

Lemma bisect_line s p : bisect_right (line_starts s) (Z.of_nat p) = ROk (S (newlines (take p s))).
Proof.
  destruct (bisect_props (line_starts s) (Z.of_nat p)) as (_ & _ & H).
  destruct (H (line_starts_sorted s)) as [(i & Hi & _ & Hu) _].
  rewrite Hi. f_equal. symmetry. apply Hu, splits_right_line.
Qed.

Lemma line_start_of s p : exists st,
  line_starts s !! newlines (take p s) = Some (Z.of_nat st) /\ st <= p /\
  (st = 0 \/ (1 <= st /\ s !! (st - 1) = Some 10%N)) /\
  (forall k, st <= k < p -> s !! k <> Some 10%N).
Proof.
  assert (newlines (take p s) < length (split_lines s)) as HL.
  { rewrite split_lines_length. pose proof (newlines_mono s p (length s + p) ltac:(lia)).
    rewrite (take_ge s (length s + p)) in H by lia. lia. }
  destruct (offsets_is_Some 0 _ _ HL) as [st Hst].
  exists st. rewrite line_starts_offsets, list_lookup_fmap, Hst. split; [done|].
  destruct (line_start_facts _ _ _ Hst) as (H1 & H2 & H3 & _).
  assert (st <= p) as Hle.
  { destruct (decide (st <= p)); [done|]. exfalso. destruct H3 as [->|[H3 H4]]; [lia|].
    pose proof (newlines_strict s st p H3 H4 ltac:(lia)). lia. }
  split; [done|]. split; [done|].
  intros k Hk Hnl. pose proof (newlines_strict s (S k) k ltac:(lia)) as HS.
  replace (S k - 1) with k in HS by lia. specialize (HS Hnl ltac:(lia)).
  pose proof (newlines_mono s st k ltac:(lia)). pose proof (newlines_mono s (S k) p ltac:(lia)). lia.
Qed.

Lemma pos_to_line_col r p : rs_lines r = line_starts (rs_text r) ->
  rs_pos_to_line r (Z.of_nat p) = ROk (Z.of_nat (newlines (take p (rs_text r)))) /\
  exists c, rs_pos_to_col r (Z.of_nat p) = ROk (Z.of_nat c) /\ column_of (rs_text r) p c.
Proof.
  intros HL.
  assert (rs_pos_to_line r (Z.of_nat p) = ROk (Z.of_nat (newlines (take p (rs_text r))))) as E.
  { unfold rs_pos_to_line. rewrite HL, bisect_line. cbn [rbind]. f_equal. lia. }
  split; [done|].
  destruct (line_start_of (rs_text r) p) as (st & H1 & H2 & H3 & H4).
  exists (p - st). split.
  - unfold rs_pos_to_col. rewrite E. cbn [rbind]. unfold go_index.
    assert ((Z.of_nat (newlines (take p (rs_text r))) <? 0)%Z = false) as -> by lia.
    rewrite Nat2Z.id, HL, H1. cbn [rbind]. f_equal. lia.
  - exists st. split; [lia|]. split; [done|]. intros k Hk. apply H4. lia.
Qed.

(** Same line number and same column: same offset. *)
Lemma line_col_inj s p q c : newlines (take p s) = newlines (take q s) ->
  column_of s p c -> column_of s q c -> p = q.
Proof.
  assert (forall p q c, p < q -> newlines (take p s) = newlines (take q s) ->
     column_of s p c -> column_of s q c -> False) as HH.
  { intros p' q' c' Hlt Hnl (sp & Ep & Hp & Hpn) (sq & Eq & Hq & _).
    assert (sp < sq) by lia. destruct Hq as [->|[Hq1 Hq2]]; [lia|].
    pose proof (newlines_mono s sq q' ltac:(lia)).
    destruct (decide (p' < sq)) as [Hd|Hd].
    - pose proof (newlines_strict s sq p' Hq1 Hq2 ltac:(lia)). lia.
    - by apply (Hpn (sq - 1) ltac:(lia)). }
  intros Hnl Hp Hq. destruct (lt_eq_lt_dec p q) as [[H|H]|H]; [exfalso; eauto|done|exfalso; eauto].
Qed.

(** ** PeekLines *)
Lemma slice_string_nat s a b : a <= b -> b <= length s ->
  slice_string s (Z.of_nat a) (Z.of_nat b) = ROk (slice s a b).
Proof.
  intros Hab Hb. destruct (slice_string_spec s (Z.of_nat a) (Z.of_nat b)) as (r & -> & Hl & Hr).
  f_equal. unfold js_bound in *. cbv zeta in *.
  assert ((Z.of_nat a <? 0)%Z = false) as E1 by lia. assert ((Z.of_nat b <? 0)%Z = false) as E2 by lia.
  rewrite E1, E2 in *. rewrite !Z.min_l in * by lia.
  assert (length r = b - a) as Hl' by lia.
  apply list_eq. intros k. destruct (decide (k < length r)).
  - rewrite Hr by done. rewrite slice_lookup by lia. f_equal. lia.
  - rewrite !lookup_ge_None_2; [done| |lia]. rewrite length_slice by lia. lia.
Qed.

Lemma offsets_drop o ls i x : offsets o ls !! i = Some x -> offsets x (drop i ls) = drop i (offsets o ls).
Proof.
  revert o i. induction ls as [|l ls IH]; intros o i H; [done|]. destruct i as [|i].
  - cbn in H. by injection H as <-.
  - cbn [drop offsets]. apply IH. exact H.
Qed.

Lemma join_take o ls k x : offsets o ls !! S k = Some x ->
  o <= x - 1 /\ take (x - 1 - o) (join_lines ls) = join_lines (take (S k) ls).
Proof.
  revert o k. induction ls as [|l ls IH]; intros o k H; [done|].
  cbn [offsets] in H. change (offsets (o + length l + 1) ls !! k = Some x) in H.
  destruct ls as [|l' ls]; [done|].
  destruct k as [|k].
  - cbn in H. injection H as <-. split; [lia|].
    cbn [join_lines take]. replace (o + length l + 1 - 1 - o) with (length l) by lia. by rewrite take_app.
  - destruct (IH _ _ H) as [H1 H2]. split; [lia|].
    change (join_lines (l :: l' :: ls)) with (l ++ 10%N :: join_lines (l' :: ls)).
    change (take (S (S k)) (l :: l' :: ls)) with (l :: l' :: take k ls).
    change (join_lines (l :: l' :: take k ls)) with (l ++ 10%N :: join_lines (take (S k) (l' :: ls))).
    rewrite <- H2. 
    replace (x - 1 - o) with (length l + S (x - 1 - (o + length l + 1))).
    2:{ pose proof (offsets_lookup_ge _ _ _ _ H).
        destruct k; [|]; cbn [offsets] in H; lia. }
    rewrite take_add_app by done. done.
Qed.

Lemma peek_lines_range_ok text line mn mx :
  (0 <= line)%Z -> (mn <= mx)%Z -> (line + mn <= Z.of_nat (newlines text))%Z -> (0 <= line + mx)%Z ->
  peek_lines_range text (line_starts text) line mn mx =
  ROk (lines_between text (Z.to_nat (Z.max 0 (line + mn)))
         (Z.to_nat (Z.min (Z.of_nat (newlines text)) (line + mx)))).
Proof.
  intros H0 Hm Hlo Hhi. unfold peek_lines_range, lines_between.
  set (i := Z.to_nat (Z.max 0 (line + mn))). set (j := Z.to_nat (Z.min (Z.of_nat (newlines text)) (line + mx))).
  assert (Hij : i <= j) by lia.
  assert (HL : length (line_starts text) = S (newlines text)).
  { rewrite line_starts_offsets, fmap_length, offsets_length. apply split_lines_length. }
  destruct (offsets_is_Some 0 (split_lines text) i) as [x Hx]; [rewrite split_lines_length; lia|].
  assert (forall k y, offsets 0 (split_lines text) !! k = Some y -> go_index (line_starts text) (Z.of_nat k) = ROk (Z.of_nat y)) as HG.
  { intros k y Hk. unfold go_index. assert ((Z.of_nat k <? 0)%Z = false) as -> by lia.
    by rewrite Nat2Z.id, line_starts_offsets, list_lookup_fmap, Hk. }
  replace (Z.max 0 (line + mn)) with (Z.of_nat i) by lia. rewrite (HG _ _ Hx). cbn [rbind].
  destruct (line_start_facts _ _ _ Hx) as (Hxl & _ & _ & Hdrop).
  rewrite HL. replace (Z.of_nat (S (newlines text)) - 1)%Z with (Z.of_nat (newlines text)) by lia.
  replace (Z.min (Z.of_nat (newlines text)) (line + mx)) with (Z.of_nat j) by lia.
  destruct (Z.of_nat j <? Z.of_nat (newlines text))%Z eqn:E.
  - destruct (offsets_is_Some 0 (split_lines text) (S j)) as [y Hy]; [rewrite split_lines_length; lia|].
    replace (Z.of_nat j + 1)%Z with (Z.of_nat (S j)) by lia. rewrite (HG _ _ Hy). cbn [rbind].
    destruct (line_start_facts _ _ _ Hy) as (Hyl & _ & _ & _).
    pose proof (offsets_increasing _ _ _ _ _ _ Hx Hy ltac:(lia)) as Hxy.
    replace (Z.of_nat y - 1)%Z with (Z.of_nat (y - 1)) by lia.
    rewrite slice_string_nat by lia. f_equal. unfold slice. rewrite Hdrop.
    destruct (join_take x (drop i (split_lines text)) (j - i) y) as [_ HT].
    { rewrite (offsets_drop _ _ _ _ Hx), lookup_drop. by replace (i + S (j - i)) with (S j) by lia. }
    rewrite HT. f_equal. f_equal. lia.
  - cbn [rbind]. rewrite slice_string_nat by lia. f_equal.
    rewrite slice_to_end, Hdrop. f_equal. rewrite take_ge; [done|].
    rewrite drop_length, split_lines_length. lia.
Qed.

Lemma list_min_spec l : forall x, is_min (list_min x l) (x :: l).
Proof.
  unfold list_min. induction l as [|y l IH]; intros x; cbn [fold_left].
  - split; [left|]. repeat constructor. lia.
  - destruct (IH (Z.min x y)) as [H1 H2]. inversion H2 as [|? ? H3 H4]; subst. split.
    + apply elem_of_cons in H1 as [H1|H1]; [|by right; right].
      rewrite H1 at 1. destruct (Z.min_spec x y) as [[_ ->]|[_ ->]]; [left|right; left].
    + repeat constructor; [lia|lia|done].
Qed.
Lemma list_max_spec l : forall x, is_max (list_max x l) (x :: l).
Proof.
  unfold list_max. induction l as [|y l IH]; intros x; cbn [fold_left].
  - split; [left|]. repeat constructor. lia.
  - destruct (IH (Z.max x y)) as [H1 H2]. inversion H2 as [|? ? H3 H4]; subst. split.
    + apply elem_of_cons in H1 as [H1|H1]; [|by right; right].
      rewrite H1 at 1. destruct (Z.max_spec x y) as [[_ ->]|[_ ->]]; [right; left|left].
    + repeat constructor; [lia|lia|done].
Qed.
Lemma is_min_unique l m1 m2 : is_min m1 l -> is_min m2 l -> m1 = m2.
Proof.
  intros [H1 H2] [H3 H4]. rewrite Forall_forall in H2, H4. pose proof (H2 _ H3). pose proof (H4 _ H1). lia.
Qed.
Lemma is_max_unique l m1 m2 : is_max m1 l -> is_max m2 l -> m1 = m2.
Proof.
  intros [H1 H2] [H3 H4]. rewrite Forall_forall in H2, H4. pose proof (H2 _ H3). pose proof (H4 _ H1). lia.
Qed.
Lemma is_min_dup x l m : is_min m (x :: x :: l) <-> is_min m (x :: l).
Proof.
  unfold is_min. rewrite !elem_of_cons, !Forall_cons. intuition.
Qed.
Lemma is_max_dup x l m : is_max m (x :: x :: l) <-> is_max m (x :: l).
Proof.
  unfold is_max. rewrite !elem_of_cons, !Forall_cons. intuition.
Qed.
Lemma min_le_max l a b : is_min a l -> is_max b l -> (a <= b)%Z.
Proof. intros [H1 _] [_ H2]. rewrite Forall_forall in H2. auto. Qed.

Definition peek_min (ns : list Z) : Z := match with_implied_zero ns with [] => 0%Z | n0 :: r => list_min n0 (n0 :: r) end.
Definition peek_max (ns : list Z) : Z := match with_implied_zero ns with [] => 0%Z | n0 :: r => list_max n0 (n0 :: r) end.
Lemma peek_min_spec ns m : ns <> [] -> is_min m (with_implied_zero ns) -> peek_min ns = m.
Proof.
  intros Hne H. unfold peek_min. destruct (with_implied_zero ns) as [|n0 r] eqn:E.
  { destruct H as [H _]. by inversion H. }
  eapply is_min_unique; [|exact H]. apply is_min_dup. apply list_min_spec.
Qed.
Lemma peek_max_spec ns m : ns <> [] -> is_max m (with_implied_zero ns) -> peek_max ns = m.
Proof.
  intros Hne H. unfold peek_max. destruct (with_implied_zero ns) as [|n0 r] eqn:E.
  { destruct H as [H _]. by inversion H. }
  eapply is_max_unique; [|exact H]. apply is_max_dup. apply list_max_spec.
Qed.

Lemma rs_peek_lines_eq r ns : ns <> [] -> 
  rs_peek_lines r ns = let* line := rs_line r in
     peek_lines_range (rs_text r) (rs_lines r) line (peek_min ns) (peek_max ns).
Proof. intros H. destruct ns as [|n0 [|n1 ns]]; done. Qed.
Lemma ts_peek_lines_eq t ns : ns <> [] -> 
  ts_peek_lines t ns = let* line := ts_line t in
     peek_lines_range (ts_original t) (ts_lines t) line (peek_min ns) (peek_max ns).
Proof. intros H. destruct ns as [|n0 [|n1 ns]]; done. Qed.

(** ** Well-formed streams and call histories *)
Definition rs_wf (r : rstream) : Prop := rs_lines r = line_starts (rs_text r).

Lemma c_line_ok r : rs_wf r -> exists l, rs_line r = ROk (Z.of_nat l) /\ l = newlines (take (rs_pos r) (rs_text r)).
Proof. intros H. destruct (pos_to_line_col r (rs_pos r) H) as [E _]. eauto. Qed.

Lemma step_of_cases {A} c (f : A -> answer) r a' c' : step_of c f r = (a', c') ->
  c' = c \/ exists a, r = ROk (a, c').
Proof. destruct r as [[a c'']| |]; cbn; intros H; simplify_eq; eauto. Qed.

Lemma c_get_until_total c needle : c_wf c -> exists out p,
  c_get_until c needle = ROk (out, c_with_pos c p) /\ c_pos c <= p <= length (c_work c) /\ out = slice (c_work c) (c_pos c) p.
Proof.
  intros Hwf.
  destruct (str_index (drop (c_pos c) (c_work c)) needle) as [o|] eqn:E.
  - pose proof (str_index_Some _ _ _ E) as [H1 H2].
    destruct (c_get_until_found c needle o Hwf H1 H2) as [He ->]. do 2 eexists. split; [done|]. split; [lia|done].
  - pose proof (str_index_None _ _ E) as H1.
    rewrite (c_get_until_unfound c needle Hwf H1). unfold c_wf in Hwf. do 2 eexists. split; [done|]. split; [lia|].
    by rewrite slice_to_end.
Qed.

(** Every call keeps the stream well-formed and only moves the cursor. *)
Lemma call_step_pos c k a c' : c_wf c -> call_ok k -> call_step c k = (a, c') ->
  exists p, c' = c_with_pos c p /\ p <= length (c_work c).
Proof.
  intros Hwf Hk H.
  assert (exists p, c = c_with_pos c p /\ p <= length (c_work c)) as Hsame.
  { exists (c_pos c). by rewrite c_with_pos_same. }
  destruct k; cbn [call_step call_ok] in *; simplify_eq; try done.
  - rewrite c_set_pos_eq in H. destruct (_ || _)%bool eqn:E; cbn in H; simplify_eq; [done|].
    exists (Z.to_nat n). split; [done|]. lia.
  - destruct (c_get_until_total c needle Hwf) as (out & p & E & Hp & _). rewrite E in H. cbn in H. simplify_eq.
    exists p. split; [done|lia].
  - rewrite c_match_string_eq in H by done. destruct (bytes_eqb_spec s (take (length s) (drop (c_pos c) (c_work c)))) as [E|E];
      cbn in H; simplify_eq; [|done].
    eexists. split; [done|]. unfold c_wf in Hwf. apply (f_equal length) in E. rewrite take_length, drop_length in E. lia.
  - rewrite c_match_regexp_eq in H by done.
    destruct (find (drop (c_pos c) (c_work c))) as [[[|a0] l]|] eqn:E; cbn in H; simplify_eq; [|done|done].
    eexists. split; [done|]. apply Hk in E. rewrite drop_length in E. unfold c_wf in Hwf. lia.
  - rewrite c_match_rune_eq in H by done.
    destruct (drop (c_pos c) (c_work c)) as [|b s] eqn:E; [cbn in H; simplify_eq; done|].
    pose proof (decode_rune_width (b :: s) ltac:(done)) as HW. destruct (decode_rune (b :: s)) as [r w] eqn:ED.
    cbn [snd] in HW. apply (f_equal length) in E. rewrite drop_length in E.
    destruct (f r); cbn in H; simplify_eq; [|done]. eexists. split; [done|]. unfold c_wf in Hwf. lia.
Qed.

Lemma call_run_pos h : forall c l c', c_wf c -> Forall call_ok h -> call_run c h = (l, c') ->
  exists p, c' = c_with_pos c p /\ p <= length (c_work c).
Proof.
  induction h as [|k h IH]; intros c l c' Hwf Hok H; cbn [call_run] in H.
  - simplify_eq. exists (c_pos c'). by rewrite c_with_pos_same.
  - destruct (call_step c k) as [a c1] eqn:E1. destruct (call_run c1 h) as [l' c2] eqn:E2. simplify_eq.
    inversion Hok; subst.
    destruct (call_step_pos _ _ _ _ Hwf ltac:(eassumption) E1) as (p & -> & Hp).
    destruct (IH _ _ _ ltac:(unfold c_wf; rewrite c_with_pos_pos, c_with_pos_work; done) ltac:(done) E2) as (q & -> & Hq).
    exists q. rewrite c_with_pos_twice. split; [done|]. by rewrite c_with_pos_work in Hq.
Qed.

(** ** Both kinds of stream scan alike *)
Definition same_scan (c1 c2 : code) : Prop := c_work c1 = c_work c2 /\ c_pos c1 = c_pos c2.

(** What a non-line call does, as a function of work text and position only. *)
Definition scan_step (w : bytes) (p : nat) (k : call) : answer * nat :=
  match k with
  | CallSetPos n =>
      if ((n <? 0) || (Z.of_nat (length w) <? n))%Z%bool
      then (AnsPanic (PMsg "out of bound"), p) else (AnsUnit, Z.to_nat n)
  | CallGetUntil needle =>
      let off := match str_index (drop p w) needle with None => length w | Some o => o + p + length needle end in
      match go_slice w p off with
      | ROk out => (AnsBytes out, off)
      | RPanic e => (AnsPanic e, p)
      | RFuel => (AnsFuel, p)
      end
  | CallMatchString s =>
      if bytes_eqb s (take (length s) (drop p w)) then (AnsMatch (Some s), p + length s) else (AnsMatch None, p)
  | CallMatchRegexp find =>
      match find (drop p w) with
      | Some (0, l) => (AnsMatch (Some (slice w p (p + l))), p + l)
      | _ => (AnsMatch None, p)
      end
  | CallMatchRune f =>
      match drop p w with
      | [] => (AnsRune None, p)
      | s => let '(r, n) := decode_rune s in if f r then (AnsRune (Some r), p + n) else (AnsRune None, p)
      end
  | CallPeekRunes n =>
      (ans_of AnsBytes (if (n <=? 0)%Z then last_n_runes (take p w) (- n)
                        else ROk (peek_forward (drop p w) (Z.to_nat n))), p)
  | _ => (AnsZ (Z.of_nat p), p)
  end.

Lemma call_step_scan c k : c_wf c -> call_ok k -> line_call k = false ->
  call_step c k = (fst (scan_step (c_work c) (c_pos c) k), c_with_pos c (snd (scan_step (c_work c) (c_pos c) k))).
Proof.
  intros Hwf Hok Hl. destruct k; cbn [call_step scan_step call_ok line_call] in *; try done.
  - rewrite c_set_pos_eq. destruct (_ || _)%bool; cbn; [by rewrite c_with_pos_same|done].
  - rewrite c_get_until_eq by done. cbv zeta. destruct (go_slice _ _ _); cbn; [done|by rewrite c_with_pos_same..].
  - rewrite c_match_string_eq by done. destruct (bytes_eqb _ _); cbn; [done|by rewrite c_with_pos_same].
  - rewrite c_match_regexp_eq by done. destruct (find _) as [[[|a] l]|]; cbn; [done|by rewrite c_with_pos_same..].
  - rewrite c_match_rune_eq by done. destruct (drop _ _); cbn [step_of]; [cbn; by rewrite c_with_pos_same|].
    destruct (decode_rune _). destruct (f _); cbn; [done|by rewrite c_with_pos_same].
  - rewrite c_peek_runes_eq by done. cbn. by rewrite c_with_pos_same.
  - cbn. by rewrite c_with_pos_same.
Qed.

Lemma call_run_same h : forall c1 c2, c_wf c1 -> same_scan c1 c2 ->
  Forall call_ok h -> Forall (fun k => line_call k = false) h ->
  fst (call_run c1 h) = fst (call_run c2 h) /\ same_scan (snd (call_run c1 h)) (snd (call_run c2 h)).
Proof.
  induction h as [|k h IH]; intros c1 c2 Hwf [Hw Hp] Hok Hl; [done|].
  inversion Hok; inversion Hl; subst.
  assert (c_wf c2) as Hwf2 by (unfold c_wf in *; by rewrite <- Hw, <- Hp).
  pose proof (call_step_scan c1 k Hwf ltac:(done) ltac:(done)) as E1.
  pose proof (call_step_scan c2 k Hwf2 ltac:(done) ltac:(done)) as E2.
  rewrite <- Hw, <- Hp in E2.
  destruct (call_step_pos _ _ _ _ Hwf ltac:(eassumption) E1) as (p & Ep & Hple).
  apply (f_equal c_pos) in Ep. rewrite !c_with_pos_pos in Ep. rewrite Ep in *.
  cbn [call_run]. rewrite E1, E2.
  destruct (IH (c_with_pos c1 p) (c_with_pos c2 p)) as [IH1 IH2]; try done.
  { unfold c_wf. by rewrite c_with_pos_work, c_with_pos_pos. }
  { unfold same_scan. by rewrite !c_with_pos_work, !c_with_pos_pos. }
  destruct (call_run (c_with_pos c1 p) h), (call_run (c_with_pos c2 p) h). cbn [fst snd] in *.
  split; [by f_equal|done].
Qed.

(** ** Decoding is complete: a failed decoding means there is no code point. *)
Lemma decode_rune_complete s : s <> [] ->
  utf8 (fst (decode_rune s)) (take (snd (decode_rune s)) s) \/
  (decode_rune s = (rune_error, 1) /\ forall r b rest, s = b ++ rest -> ~ utf8 r b).
Proof.
  intros Hs.
  assert (decode_rune s = (rune_error, 1) ->
     utf8 (fst (decode_rune s)) (take (snd (decode_rune s)) s) \/
     (decode_rune s = (rune_error, 1) /\ forall r b rest, s = b ++ rest -> ~ utf8 r b)) as HE.
  { intros E. right. split; [done|]. intros r b rest -> H.
    pose proof (decode_rune_spec _ _ rest H) as E'. rewrite E in E'. injection E' as Er El.
    inversion H; subst; cbn in El; try lia. unfold rune_error in *. lia. }
  destruct s as [|b0 r0]; [done|]. revert HE. cbn [decode_rune].
  destruct (b0 <? 128)%N eqn:E0.
  { intros _. left. cbn. constructor. lia. }
  destruct (first_info b0) as [[[sz lo] hi]|] eqn:EF; [|auto].
  assert ((sz = 2%nat /\ 194 <= b0 <= 223 /\ lo = 128 /\ hi = 191)%N \/
          (sz = 3%nat /\ (b0 = 224 /\ lo = 160 /\ hi = 191 \/ b0 = 237 /\ lo = 128 /\ hi = 159 \/
                      225 <= b0 <= 239 /\ b0 <> 237 /\ lo = 128 /\ hi = 191))%N \/
          (sz = 4%nat /\ (b0 = 240 /\ lo = 144 /\ hi = 191 \/ b0 = 244 /\ lo = 128 /\ hi = 143 \/
                      241 <= b0 <= 243 /\ lo = 128 /\ hi = 191))%N) as HI.
  { unfold first_info, in_range in EF. repeat case_match; simplify_eq; lia. }
  destruct (length (b0 :: r0) <? sz); [auto|].
  destruct r0 as [|b1 r1]; [auto|].
  destruct (negb (in_range lo hi b1)) eqn:E1; [auto|].
  unfold in_range in E1.
  destruct (sz <=? 2) eqn:S2.
  { intros _. left. cbn [fst snd]. change (take 2 (b0 :: b1 :: r1)) with [b0; b1].
    replace [b0; b1] with [192 + b0 mod 32; 128 + b1 mod 64]%N by (repeat f_equal; lia).
    apply utf8_2; lia. }
  destruct r1 as [|b2 r2]; [auto|].
  destruct (negb (in_range 128 191 b2)) eqn:E2; [auto|].
  unfold in_range in E2.
  destruct (sz <=? 3) eqn:S3.
  { intros _. left. cbn [fst snd]. change (take 3 (b0 :: b1 :: b2 :: r2)) with [b0; b1; b2].
    replace [b0; b1; b2] with [224 + b0 mod 16; 128 + b1 mod 64; 128 + b2 mod 64]%N by (repeat f_equal; lia).
    apply utf8_3; lia. }
  destruct r2 as [|b3 r3]; [auto|].
  destruct (negb (in_range 128 191 b3)) eqn:E3; [auto|].
  unfold in_range in E3. intros _. left. cbn [fst snd]. change (take 4 (b0 :: b1 :: b2 :: b3 :: r3)) with [b0; b1; b2; b3].
  replace [b0; b1; b2; b3] with [240 + b0 mod 8; 128 + b1 mod 64; 128 + b2 mod 64; 128 + b3 mod 64]%N by (repeat f_equal; lia).
  apply utf8_4; lia.
Qed.

(** ** Token coordinates *)
Definition tokens_laid_out (toks : list token) : Prop :=
  forall k t, toks !! k = Some t -> tk_work t = Z.of_nat (work_start (tk_repr <$> toks) k).

Lemma mjoin_app {A} (l1 l2 : list (list A)) : mjoin (l1 ++ l2) = mjoin l1 ++ mjoin l2.
Proof. induction l1 as [|x l1 IH]; [done|]. cbn. rewrite <- app_assoc. f_equal. apply IH. Qed.

Lemma work_start_S reprs k r : reprs !! k = Some r -> work_start reprs (S k) = work_start reprs k + length r.
Proof. intros H. unfold work_start. rewrite (take_S_r _ _ _ H), mjoin_app. unfold mjoin at 2. cbn. rewrite app_nil_r, app_length. done. Qed.

Lemma work_start_mono reprs i j : i <= j -> work_start reprs i <= work_start reprs j.
Proof.
  intros H. unfold work_start. rewrite <- (take_drop i (take j reprs)), mjoin_app, app_length, take_take, Nat.min_l by lia. lia.
Qed.

Lemma coords_loop_found all : tokens_laid_out all -> forall toks n tok w k t,
  drop n all = toks -> n <= k -> all !! k = Some t -> k < length all - 1 ->
  (tk_work t <= w < tk_work t + Z.of_nat (length (tk_repr t)))%Z ->
  coords_loop toks n tok w (length all) = (k, t).
Proof.
  intros Hlay. induction toks as [|t0 toks IH]; intros n tok w k t Hd Hnk Hk Hlast Hw.
  - apply (f_equal length) in Hd. rewrite drop_length in Hd. cbn in Hd. lia.
  - assert (all !! n = Some t0) as Hn.
    { rewrite <- (Nat.add_0_r n), <- lookup_drop, Hd. done. }
    cbn [coords_loop].
    assert ((length all - 1 <=? n) = false) as -> by lia.
    destruct (decide (n = k)) as [->|Hne].
    + assert (t0 = t) as -> by congruence.
      assert ((w <? tk_work t + Z.of_nat (length (tk_repr t)))%Z = true) as -> by lia. done.
    + pose proof (Hlay _ _ Hn) as E0. pose proof (Hlay _ _ Hk) as Ek.
      assert ((tk_repr <$> all) !! n = Some (tk_repr t0)) as HR by (by rewrite list_lookup_fmap, Hn).
      pose proof (work_start_S _ _ _ HR) as ES.
      pose proof (work_start_mono (tk_repr <$> all) (S n) k ltac:(lia)).
      assert ((w <? tk_work t0 + Z.of_nat (length (tk_repr t0)))%Z = false) as -> by lia.
      apply IH; try done; try lia.
      rewrite <- (Nat.add_1_r n), <- drop_drop, Hd. done.
Qed.

Lemma ts_coords_ok ts k t w : tokens_laid_out (ts_tokens ts) -> ts_tokens ts !! k = Some t ->
  (S k < length (ts_tokens ts) \/ length (ts_tokens ts) = 1) ->
  (tk_work t <= w < tk_work t + Z.of_nat (length (tk_repr t)))%Z ->
  ts_coords ts w = ROk (k, (tk_orig t + (w - tk_work t))%Z).
Proof.
  intros Hlay Hk Hlast Hw. unfold ts_coords.
  destruct Hlast as [Hlast|H1].
  - destruct (ts_tokens ts) as [|t1 l] eqn:E; [done|]. rewrite <- E in *.
    rewrite (coords_loop_found (ts_tokens ts) Hlay (ts_tokens ts) 0 zero_token w k t); [|done|lia|done|lia|done].
    by rewrite Hk.
  - destruct (ts_tokens ts) as [|t1 [|t2 l]] eqn:E; [done| |cbn in H1; lia].
    destruct k as [|k]; [|done]. cbn in Hk. injection Hk as ->.
    pose proof (Hlay 0 t eq_refl) as E0. unfold work_start in E0. cbn in E0. cbn.
    rewrite E0. done.
Qed.

Lemma ts_pos_to_line_col ts o w n : ts_lines ts = line_starts (ts_original ts) ->
  ts_coords ts w = ROk (n, Z.of_nat o) ->
  ts_pos_to_line ts w = ROk (Z.of_nat (newlines (take o (ts_original ts)))) /\
  exists c, ts_pos_to_col ts w = ROk (Z.of_nat c) /\ column_of (ts_original ts) o c.
Proof.
  intros HL HC.
  assert (ts_pos_to_line ts w = ROk (Z.of_nat (newlines (take o (ts_original ts))))) as E.
  { unfold ts_pos_to_line. rewrite HC. cbn [rbind snd]. rewrite HL, bisect_line. cbn [rbind]. f_equal. lia. }
  split; [done|].
  destruct (line_start_of (ts_original ts) o) as (st & H1 & H2 & H3 & H4).
  exists (o - st). split.
  - unfold ts_pos_to_col. rewrite HC, E. cbn [rbind]. unfold go_index.
    assert ((Z.of_nat (newlines (take o (ts_original ts))) <? 0)%Z = false) as -> by lia.
    rewrite Nat2Z.id, HL, H1. cbn [rbind snd]. f_equal. lia.
  - exists st. split; [lia|]. split; [done|]. intros k Hk. apply H4. lia.
Qed.

(** ** Final forms *)
Lemma last_n_runes_prop : forall (rs : list N) (bs : bytes) (n : Z), utf8s rs bs ->
  (65533%N ∉ last_n (Z.to_nat n) rs ->
     exists b', utf8s (last_n (Z.to_nat n) rs) b' /\ last_n_runes bs n = ROk b') /\
  (65533%N ∈ last_n (Z.to_nat n) rs -> exists p, last_n_runes bs n = RPanic p).
Proof.
  intros rs bs n H. split.
  - intros Hn. apply last_n_runes_ok; [done|]. apply Forall_forall. intros x Hx ->. by apply Hn.
  - intros Hn. eexists. by apply (last_n_runes_panic n rs bs H).
Qed.

Lemma cursor_prop : forall (text : bytes) (h : list call), Forall call_ok h ->
  let c := snd (call_run (CRune (new_rune_stream text)) h) in
  c_pos c <= length text /\ c_work c = text /\
  (forall n p, fst (call_step c (CallSetPos n)) = AnsPanic p -> (n < 0 \/ Z.of_nat (length text) < n)%Z) /\
  (forall n, (0 <= n <= Z.of_nat (length text))%Z ->
     fst (call_step c (CallSetPos n)) = AnsUnit /\ c_pos (snd (call_step c (CallSetPos n))) = Z.to_nat n) /\
  (forall n, (n < 0 \/ Z.of_nat (length text) < n)%Z -> exists p, fst (call_step c (CallSetPos n)) = AnsPanic p).
Proof.
  intros text h Hok c.
  assert (exists p, c = c_with_pos (CRune (new_rune_stream text)) p /\ p <= length text) as (p & -> & Hp).
  { subst c. destruct (call_run (CRune (new_rune_stream text)) h) as [l c'] eqn:E.
    destruct (call_run_pos h (CRune (new_rune_stream text)) l c') as (p & E' & Hp); [unfold c_wf; cbn; lia|done|done|].
    exists p. done. }
  rewrite c_with_pos_pos, c_with_pos_work. split; [done|]. split; [done|].
  cbn [call_step]. split; [|split].
  - intros n q. rewrite c_set_pos_eq, c_with_pos_work. cbn [c_work new_rune_stream rs_text].
    destruct (_ || _)%bool eqn:E; cbn; [lia|done].
  - intros n Hn. rewrite c_set_pos_eq, c_with_pos_work. cbn [c_work new_rune_stream rs_text].
    destruct (_ || _)%bool eqn:E; cbn; [lia|done].
  - intros n Hn. rewrite c_set_pos_eq, c_with_pos_work. cbn [c_work new_rune_stream rs_text].
    destruct (_ || _)%bool eqn:E; cbn; [eauto|lia].
Qed.

Lemma match_string_prop : forall (c : code) (s : bytes), c_pos c <= length (c_work c) ->
  (forall post, drop (c_pos c) (c_work c) = s ++ post ->
     exists c', c_match_string c s = ROk (Some s, c') /\ c_pos c' = c_pos c + length s /\ c_work c' = c_work c) /\
  ((forall post, drop (c_pos c) (c_work c) <> s ++ post) -> c_match_string c s = ROk (None, c)).
Proof.
  intros c s Hwf. rewrite c_match_string_eq by done.
  destruct (bytes_eqb_spec s (take (length s) (drop (c_pos c) (c_work c)))) as [E|E].
  - split.
    + intros post _. eexists. split; [done|]. by rewrite c_with_pos_pos, c_with_pos_work.
    + intros Hno. exfalso. apply take_prefix_iff in E as [post E]. by eapply Hno.
  - split; [|done]. intros post Hp. exfalso. apply E. apply take_prefix_iff. eauto.
Qed.

Lemma match_rune_prop : forall (c : code) (f : N -> bool), c_pos c <= length (c_work c) ->
  (c_pos c = length (c_work c) -> c_match_rune c f = ROk (None, c)) /\
  (forall r b post, utf8 r b -> drop (c_pos c) (c_work c) = b ++ post ->
     if f r
     then exists c', c_match_rune c f = ROk (Some r, c') /\ c_pos c' = c_pos c + length b /\ c_work c' = c_work c
     else c_match_rune c f = ROk (None, c)) /\
  (c_pos c < length (c_work c) ->
   (forall r b post, utf8 r b -> drop (c_pos c) (c_work c) <> b ++ post) ->
     if f 65533%N
     then exists c', c_match_rune c f = ROk (Some 65533%N, c') /\ c_pos c' = c_pos c + 1 /\ c_work c' = c_work c
     else c_match_rune c f = ROk (None, c)).
Proof.
  intros c f Hwf. rewrite c_match_rune_eq by done. split; [|split].
  - intros E. by rewrite drop_ge by lia.
  - intros r b post Hu E. rewrite E.
    destruct (b ++ post) as [|x l] eqn:Eb.
    { pose proof (utf8_length _ _ Hu). destruct b; cbn in *; [lia|done]. }
    rewrite <- Eb, (decode_rune_spec _ _ _ Hu). destruct (f r); [|done].
    eexists. split; [done|]. by rewrite c_with_pos_pos, c_with_pos_work.
  - intros Hlt Hno. destruct (drop (c_pos c) (c_work c)) as [|x l] eqn:Ed.
    { apply (f_equal length) in Ed. rewrite drop_length in Ed. cbn in Ed. lia. }
    destruct (decode_rune_complete (x :: l) ltac:(done)) as [Hu|[E _]].
    + exfalso. eapply (Hno _ _ (drop (snd (decode_rune (x :: l))) (x :: l)) Hu). by rewrite take_drop.
    + rewrite E. change rune_error with 65533%N. destruct (f 65533%N); [|done].
      eexists. split; [done|]. by rewrite c_with_pos_pos, c_with_pos_work.
Qed.

Lemma match_regexp_prop : forall (c : code) find, c_pos c <= length (c_work c) -> rx_ok find ->
  (forall l, find (drop (c_pos c) (c_work c)) = Some (0, l) ->
     exists c', c_match_regexp c find = ROk (Some (take l (drop (c_pos c) (c_work c))), c') /\
                c_pos c' = c_pos c + l /\ c_pos c' <= length (c_work c) /\ c_work c' = c_work c) /\
  ((forall l, find (drop (c_pos c) (c_work c)) <> Some (0, l)) -> c_match_regexp c find = ROk (None, c)).
Proof.
  intros c find Hwf Hrx. rewrite c_match_regexp_eq by done. split.
  - intros l E. rewrite E. eexists. split; [|].
    + do 3 f_equal. unfold slice. f_equal. lia.
    + rewrite c_with_pos_pos, c_with_pos_work. apply Hrx in E. rewrite drop_length in E. split; [done|]. split; [lia|done].
  - intros Hno. destruct (find _) as [[[|a] l]|]; [by edestruct Hno|done|done].
Qed.

Lemma get_until_prop : forall (c : code) (needle : bytes), c_pos c <= length (c_work c) ->
  (forall o, occurs_at needle (drop (c_pos c) (c_work c)) o ->
     (forall k, k < o -> ~ occurs_at needle (drop (c_pos c) (c_work c)) k) ->
     exists c', c_get_until c needle = ROk (take (o + length needle) (drop (c_pos c) (c_work c)), c') /\
                c_pos c' = c_pos c + o + length needle /\ c_pos c' <= length (c_work c) /\ c_work c' = c_work c) /\
  ((forall o, ~ occurs_at needle (drop (c_pos c) (c_work c)) o) ->
     exists c', c_get_until c needle = ROk (drop (c_pos c) (c_work c), c') /\
                c_pos c' = length (c_work c) /\ c_work c' = c_work c).
Proof.
  intros c needle Hwf. split.
  - intros o Ho Hf. destruct (c_get_until_found c needle o Hwf Ho Hf) as [He ->].
    eexists. split.
    + do 2 f_equal. unfold slice. f_equal. lia.
    + by rewrite c_with_pos_pos, c_with_pos_work.
  - intros Hno. rewrite (c_get_until_unfound c needle Hwf Hno). eexists. split; [done|].
    by rewrite c_with_pos_pos, c_with_pos_work.
Qed.

Lemma line_col_prop : forall (text : bytes) (p : nat),
  rs_pos_to_line (new_rune_stream text) (Z.of_nat p) = ROk (Z.of_nat (newlines (take p text))) /\
  exists c, rs_pos_to_col (new_rune_stream text) (Z.of_nat p) = ROk (Z.of_nat c) /\ column_of text p c.
Proof. intros text p. by apply (pos_to_line_col (new_rune_stream text) p). Qed.

Lemma line_col_determines : forall (text : bytes) (p q : nat),
  rs_pos_to_line (new_rune_stream text) (Z.of_nat p) = rs_pos_to_line (new_rune_stream text) (Z.of_nat q) ->
  rs_pos_to_col (new_rune_stream text) (Z.of_nat p) = rs_pos_to_col (new_rune_stream text) (Z.of_nat q) ->
  p = q.
Proof.
  intros text p q. destruct (line_col_prop text p) as (-> & c1 & -> & H1).
  destruct (line_col_prop text q) as (-> & c2 & -> & H2). intros E1 E2.
  assert (c1 = c2) as -> by (injection E2; lia).
  eapply line_col_inj; [|exact H1|exact H2]. injection E1. lia.
Qed.

Lemma peek_prop : forall (c : code) (rs1 rs2 : list N) (n : Z),
  utf8s rs1 (take (c_pos c) (c_work c)) -> utf8s rs2 (drop (c_pos c) (c_work c)) ->
  c_pos c <= length (c_work c) ->
  ((0 < n)%Z -> exists b, utf8s (take (Z.to_nat n) rs2) b /\ c_peek_runes c n = ROk b) /\
  ((n <= 0)%Z -> 65533%N ∉ last_n (Z.to_nat (- n)) rs1 ->
     exists b, utf8s (last_n (Z.to_nat (- n)) rs1) b /\ c_peek_runes c n = ROk b).
Proof.
  intros c rs1 rs2 n H1 H2 Hwf. rewrite c_peek_runes_eq by done. split.
  - intros Hn. assert ((n <=? 0)%Z = false) as -> by lia.
    destruct (peek_forward_utf8s _ _ (Z.to_nat n) H2) as (b & Hb & ->). eauto.
  - intros Hn Hno. assert ((n <=? 0)%Z = true) as -> by lia.
    by apply (last_n_runes_prop rs1 _ (- n) H1).
Qed.

Lemma peek_still : forall (c : code) (k : call),
  match k with CallPeekRunes _ | CallPeekLines _ | CallPos | CallLine | CallCol => True | _ => False end ->
  snd (call_step c k) = c.
Proof. intros c k. by destruct k. Qed.

Lemma peek_lines_prop : forall (text : bytes) (p : nat) (ns : list Z) (mn mx : Z),
  ns <> [] -> is_min mn (with_implied_zero ns) -> is_max mx (with_implied_zero ns) ->
  let cur := Z.of_nat (newlines (take p text)) in
  let last_line := Z.of_nat (newlines text) in
  (cur + mn <= last_line)%Z -> (0 <= cur + mx)%Z ->
  rs_peek_lines (rs_with_pos (new_rune_stream text) p) ns =
  ROk (lines_between text (Z.to_nat (Z.max 0 (cur + mn))) (Z.to_nat (Z.min last_line (cur + mx)))).
Proof.
  intros text p ns mn mx Hne Hmn Hmx cur last_line H1 H2.
  rewrite rs_peek_lines_eq by done. unfold rs_line. cbn [rs_with_pos rs_pos].
  destruct (pos_to_line_col (rs_with_pos (new_rune_stream text) p) p eq_refl) as [E _].
  rewrite E. cbn [rbind].
  rewrite (peek_min_spec _ _ Hne Hmn), (peek_max_spec _ _ Hne Hmx).
  cbn [rs_with_pos new_rune_stream rs_text rs_lines]. apply peek_lines_range_ok; try lia.
  by eapply min_le_max.
Qed.

Lemma token_scan_prop : forall (text : bytes) (toks : list token) (h : list call),
  Forall call_ok h -> Forall (fun k => line_call k = false) h ->
  c_work (CTok (new_token_stream text toks)) = mjoin (tk_repr <$> toks) /\
  fst (call_run (CTok (new_token_stream text toks)) h) =
  fst (call_run (CRune (new_rune_stream (mjoin (tk_repr <$> toks)))) h) /\
  c_pos (snd (call_run (CTok (new_token_stream text toks)) h)) =
  c_pos (snd (call_run (CRune (new_rune_stream (mjoin (tk_repr <$> toks)))) h)).
Proof.
  intros text toks h H1 H2.
  assert (c_work (CTok (new_token_stream text toks)) = mjoin (tk_repr <$> toks)) as E.
  { cbn. clear. induction toks as [|t toks IH]; [done|]. cbn. f_equal. apply IH. }
  split; [done|].
  destruct (call_run_same h (CTok (new_token_stream text toks)) (CRune (new_rune_stream (mjoin (tk_repr <$> toks)))))
    as [Ha [_ Hp]]; try done.
  unfold c_wf. cbn. lia.
Qed.

Lemma token_coords_prop : forall (text : bytes) (toks : list token) (k : nat) (t : token) (w : nat),
  let ts := new_token_stream text toks in
  (forall k t, toks !! k = Some t -> tk_work t = Z.of_nat (work_start (tk_repr <$> toks) k)) ->
  toks !! k = Some t -> (0 <= tk_orig t)%Z ->
  (S k < length toks \/ length toks = 1) ->
  work_start (tk_repr <$> toks) k <= w < work_start (tk_repr <$> toks) k + length (tk_repr t) ->
  let o := Z.to_nat (tk_orig t) + (w - work_start (tk_repr <$> toks) k) in
  ts_pos_to_line ts (Z.of_nat w) = ROk (Z.of_nat (newlines (take o text))) /\
  exists c, ts_pos_to_col ts (Z.of_nat w) = ROk (Z.of_nat c) /\ column_of text o c.
Proof.
  intros text toks k t w ts Hlay Hk Ho Hlast Hw o.
  apply (ts_pos_to_line_col ts o (Z.of_nat w) k); [done|].
  rewrite (ts_coords_ok ts k t (Z.of_nat w)); [|done|done|done|]; rewrite (Hlay _ _ Hk).
  - do 2 f_equal. subst o. lia.
  - lia.
Qed.
