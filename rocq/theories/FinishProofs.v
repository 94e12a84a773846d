(** The end of a parse: grammar.go:122-153. *)
From Verif Require Import Base Helpers HelpersProofs Utf8 Utf8Proofs Stream StreamSpec StreamProofs Native NativeSpec NativeProofs
  Engine EngSpec EngInv EngMon.

Lemma scan_row_bounds fh row pos att succ p :
  p <= succ -> succ <= att -> att <= pos ->
  p <= snd (scan_row fh row pos att succ) <= fst (scan_row fh row pos att succ) /\ fst (scan_row fh row pos att succ) <= pos.
Proof.
  revert att succ. induction row as [|o row IH]; intros att succ H1 H2 H3; cbn [scan_row]; [cbn; lia|].
  destruct (frame_at fh o) as [f|]; [|by apply IH]. destruct (f_res f); [cbn; lia|]. apply IH; lia.
Qed.
Lemma scan_rows_bounds fh rows pos att succ p :
  p <= succ -> succ <= att -> att <= pos ->
  p <= snd (scan_rows fh rows pos att succ) <= fst (scan_rows fh rows pos att succ) /\
  fst (scan_rows fh rows pos att succ) <= Nat.max att (pos + length rows - 1).
Proof.
  revert pos att succ. induction rows as [|row rows IH]; intros pos att succ H1 H2 H3; cbn [scan_rows]; [cbn; lia|].
  pose proof (scan_row_bounds fh row pos att succ p H1 H2 H3) as HB. destruct (scan_row fh row pos att succ) as [a' s']. cbn in HB.
  pose proof (IH (S pos) a' s' ltac:(lia) ltac:(lia) ltac:(lia)). cbn [length]. lia.
Qed.

Lemma with_pos_twice c p q : c_with_pos (c_with_pos c p) q = c_with_pos c q.
Proof. by destruct c. Qed.

Lemma newlines_take_le s p : newlines (take p s) <= newlines s.
Proof. rewrite <- (take_drop p s) at 2. rewrite newlines_app. lia. Qed.

Section Finish.
Variable gb : nat -> bool -> bool.
Variable N : nat.
Variable c : code.
Hypothesis Hc : code_ok c.

Lemma c_line_bounds p : p <= length (c_work c) -> exists l,
  c_line (c_with_pos c p) = ROk l /\ (0 <= l <= Z.of_nat (newlines (c_code c)))%Z.
Proof.
  intros Hp. destruct c as [r|t]; cbn in *.
  - destruct (pos_to_line_col (rs_with_pos r p) p) as [H1 _]; [done|]. unfold rs_line. cbn [rs_with_pos rs_pos rs_text] in *.
    eexists. split; [exact H1|]. cbn [c_code]. pose proof (newlines_take_le (rs_text r) p). unfold newlines in *. lia.
  - destruct Hc as [HL Ht]. unfold ts_line.
    destruct (coords_total (ts_with_pos t p) (Z.of_nat p)) as (n & o & Ho & Hpos).
    specialize (Hpos Ht ltac:(lia)).
    destruct (ts_pos_to_line_col (ts_with_pos t p) (Z.to_nat o) (Z.of_nat p) n HL) as [H1 _].
    { by rewrite Z2Nat.id. }
    cbn [ts_with_pos ts_pos ts_original] in *. eexists. split; [exact H1|]. cbn [c_code]. pose proof (newlines_take_le (ts_original t) (Z.to_nat o)). unfold newlines in *. lia.
Qed.

Lemma c_peek_lines_total p n : p <= length (c_work c) -> exists b, c_peek_lines (c_with_pos c p) [n] = ROk b \/ (n <> 2 /\ n <> -2)%Z.
Proof.
  intros Hp. destruct (decide (n = 2 \/ n = -2)%Z) as [Hn|Hn]; [|exists []; right; lia].
  destruct (c_line_bounds p Hp) as (l & Hl & Hlb).
  destruct c as [r|t]; cbn [c_peek_lines c_with_pos c_line c_code] in *.
  - unfold rs_peek_lines. rewrite Hl. cbn [rbind]. cbn [rs_with_pos rs_text rs_lines].
    cbn in Hc. rewrite Hc, peek_lines_range_ok; [eauto|..]; destruct Hn as [-> | ->]; cbn; lia.
  - unfold ts_peek_lines. rewrite Hl. cbn [rbind]. cbn [ts_with_pos ts_original ts_lines].
    destruct Hc as [HL _]. rewrite HL, peek_lines_range_ok; [eauto|..]; destruct Hn as [-> | ->]; cbn; lia.
Qed.

Lemma c_peek_runes_total p n : p <= length (c_work c) -> (0 <= n)%Z -> exists b, c_peek_runes (c_with_pos c p) n = ROk b.
Proof.
  intros Hp Hn. rewrite c_peek_runes_eq by (unfold c_wf; destruct c; done).
  destruct (Z.leb_spec n 0); [|eauto]. assert (n = 0)%Z as -> by lia. unfold last_n_runes. cbn. eauto.
Qed.
Lemma c_pos_to_total p q : (exists l, c_pos_to_line (c_with_pos c p) (Z.of_nat q) = ROk l) /\
  (exists l, c_pos_to_col (c_with_pos c p) (Z.of_nat q) = ROk l).
Proof.
  destruct c as [r|t]; cbn [c_pos_to_line c_pos_to_col c_with_pos].
  - destruct (pos_to_line_col (rs_with_pos r p) q) as [H1 (k & H2 & _)]; [done|]. split; eauto.
  - destruct Hc as [HL Ht].
    destruct (coords_total (ts_with_pos t p) (Z.of_nat q)) as (n & o & Ho & Hpos).
    specialize (Hpos Ht ltac:(lia)).
    destruct (ts_pos_to_line_col (ts_with_pos t p) (Z.to_nat o) (Z.of_nat q) n HL) as [H1 (k & H2 & _)].
    { by rewrite Z2Nat.id. }
    split; eauto.
Qed.

Lemma bind_ok {A B} (m : M A) (k : A -> M B) s a s' : m s = Ok a s' -> bind m k s = k a s'.
Proof. unfold bind. by intros ->. Qed.

(** What [finish] does in a state of the engine. *)
Lemma finish_ok r s : GI gb N c s ->
  (st_pos s = length (c_work c) -> finish r s = Ok r s) /\
  (st_pos s <> length (c_work c) -> exists succ s', finish r s = Ok (Some (AErr succ)) s' /\
     st_pos s <= succ <= st_pos s' /\ st_pos s' <= length (c_work c)).
Proof.
  intros HG. pose proof (gi_code _ _ _ _ HG) as HC. pose proof (gi_pos _ _ _ _ HG) as HP. pose proof (gi_len _ _ _ _ HG) as HL.
  assert (c_work_length (s_code s) = length (c_work c)) as HW by (rewrite HC; by destruct c).
  unfold finish. split; intros Hp.
  { erewrite bind_ok by done. rewrite HW. change (c_pos (s_code s)) with (st_pos s). by rewrite (proj2 (Nat.eqb_eq _ _) Hp). }
  erewrite bind_ok by done. rewrite HW. change (c_pos (s_code s)) with (st_pos s). rewrite (proj2 (Nat.eqb_neq _ _) Hp).
  pose proof (scan_rows_bounds (s_fheap s) (drop (st_pos s) (s_frames s)) (st_pos s) (st_pos s) (st_pos s) (st_pos s)
    ltac:(lia) ltac:(lia) ltac:(lia)) as HB.
  destruct (scan_rows _ _ _ _ _) as [att succ]. cbn [fst snd] in HB. rewrite drop_length, HL in HB.
  rewrite HC. destruct (c_pos_to_total (st_pos s) succ) as [[l1 E1] [l2 E2]].
  erewrite bind_ok by (unfold lift; rewrite E1; done). erewrite bind_ok by (unfold lift; rewrite E2; done).
  destruct (c_peek_lines_total (st_pos s) (-2) HP) as [b1 [E3|[_ []]]]; [|done].
  erewrite bind_ok by (unfold lift; rewrite E3; done).
  destruct (c_peek_runes_total (st_pos s) (Z.of_nat succ - Z.of_nat (st_pos s)) HP ltac:(lia)) as [b2 E4].
  erewrite bind_ok by (unfold lift; rewrite E4; done).
  erewrite bind_ok by (eapply set_pos_eq; [exact HG|lia]). erewrite bind_ok by done. cbn [set_code s_code].
  assert (c_pos (c_with_pos c succ) = succ) as -> by (by destruct c).
  destruct (c_peek_runes_total succ (Z.of_nat att - Z.of_nat succ) ltac:(lia) ltac:(lia)) as [b3 E5].
  erewrite bind_ok by (unfold lift; rewrite E5; done).
  assert (set_pos att (set_code s (c_with_pos c succ)) = Ok tt (set_code s (c_with_pos c att))) as E6.
  { unfold set_pos. cbn [set_code s_code]. rewrite c_set_pos_ok by (rewrite c_with_pos_work; lia). by rewrite with_pos_twice. }
  erewrite bind_ok by exact E6. erewrite bind_ok by done. cbn [set_code s_code].
  destruct (c_peek_lines_total att 2 ltac:(lia)) as [b4 [E7|[[] _]]]; [|done].
  erewrite bind_ok by (unfold lift; rewrite E7; done).
  eexists succ, _. split; [done|]. unfold st_pos at 2 3. cbn [set_code s_code].
  assert (c_pos (c_with_pos c att) = att) as -> by (by destruct c). lia.
Qed.
End Finish.
