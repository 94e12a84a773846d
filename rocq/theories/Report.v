(** Where a parse error points: grammar.go:122-137. *)
From Verif Require Import Base Helpers Utf8 Stream StreamSpec Native Engine EngSpec EngInv EngMon FinishProofs.

(** A rule has been tried at [p]; one has a result there. *)
Definition tried (s : st) (p : nat) : Prop :=
  exists row o f, s_frames s !! p = Some row /\ o ∈ row /\ frame_at (s_fheap s) o = Some f.
Definition matched (s : st) (p : nat) : Prop :=
  exists row o f x, s_frames s !! p = Some row /\ o ∈ row /\ frame_at (s_fheap s) o = Some f /\ f_res f = Some x.
(** [k] is the last position satisfying [P], or [p] if there is none after it. *)
Definition furthest (P : nat -> Prop) (p k : nat) : Prop :=
  p <= k /\ (k <> p -> P k) /\ forall q, k < q -> ~ P q.

Section Scan.
Variable fh : list frame.
Definition row_tried (row : list (option nat)) : Prop := exists o f, o ∈ row /\ frame_at fh o = Some f.
Definition row_matched (row : list (option nat)) : Prop :=
  exists o f x, o ∈ row /\ frame_at fh o = Some f /\ f_res f = Some x.

Lemma scan_row_spec row pos att succ :
  (row_tried row -> fst (scan_row fh row pos att succ) = pos) /\
  (~ row_tried row -> fst (scan_row fh row pos att succ) = att) /\
  (row_matched row -> snd (scan_row fh row pos att succ) = pos) /\
  (~ row_matched row -> snd (scan_row fh row pos att succ) = succ).
Proof.
  revert att succ. induction row as [|o row IH]; intros att succ; cbn [scan_row].
  { cbn. repeat split; try done; [intros (? & ? & H & _)|intros (? & ? & ? & H & _)]; by apply elem_of_nil in H. }
  destruct (frame_at fh o) as [f|] eqn:Ef.
  - destruct (f_res f) as [x|] eqn:Ex.
    + cbn. repeat split; try done; intros H; exfalso; apply H; [exists o, f|exists o, f, x]; by repeat split; try left.
    + destruct (IH pos succ) as (H1 & H2 & H3 & H4).
      assert (row_matched (o :: row) <-> row_matched row) as HM.
      { split; intros (o' & f' & x' & Hin & Hf & Hx); [|exists o', f', x'; repeat split; try done; by right].
        apply elem_of_cons in Hin as [-> | Hin]; [congruence|]. by exists o', f', x'. }
      assert (fst (scan_row fh row pos pos succ) = pos) as HP.
      { clear -fh. assert (forall row a, (a = pos) -> fst (scan_row fh row pos a succ) = pos) as HH; [|by apply HH].
        clear row. induction row as [|o row IH]; intros a ->; cbn [scan_row]; [done|].
        destruct (frame_at fh o) as [f|]; [|by apply IH]. destruct (f_res f); [done|]. by apply IH. }
      repeat split; [done| |by rewrite HM|by rewrite HM].
      intros H. exfalso. apply H. exists o, f. by split; [left|].
  - destruct (IH att succ) as (H1 & H2 & H3 & H4).
    assert (row_tried (o :: row) <-> row_tried row) as HT.
    { split; intros (o' & f' & Hin & Hf); [|exists o', f'; split; [by right|done]].
      apply elem_of_cons in Hin as [-> | Hin]; [congruence|]. by exists o', f'. }
    assert (row_matched (o :: row) <-> row_matched row) as HM.
    { split; intros (o' & f' & x' & Hin & Hf & Hx); [|exists o', f', x'; repeat split; try done; by right].
      apply elem_of_cons in Hin as [-> | Hin]; [congruence|]. by exists o', f', x'. }
    rewrite HT, HM. done.
Qed.
End Scan.

Lemma scan_rows_spec fh rows pos att succ :
  att <= pos -> succ <= att ->
  let r := scan_rows fh rows pos att succ in
  let T q := exists row, rows !! (q - pos) = Some row /\ pos <= q /\ row_tried fh row in
  let Mt q := exists row, rows !! (q - pos) = Some row /\ pos <= q /\ row_matched fh row in
  (fst r = att \/ T (fst r)) /\ (forall q, T q -> q <= fst r) /\ att <= fst r /\
  (snd r = succ \/ Mt (snd r)) /\ (forall q, Mt q -> q <= snd r) /\ succ <= snd r.
Proof.
  revert pos att succ. induction rows as [|row rows IH]; intros pos att succ Ha Hs; cbn [scan_rows].
  { cbn [fst snd]. split; [by left|]. split; [intros q (? & H & _); by rewrite lookup_nil in H|]. split; [done|].
    split; [by left|]. split; [intros q (? & H & _); by rewrite lookup_nil in H|done]. }
  destruct (scan_row_spec fh row pos att succ) as (H1 & H2 & H3 & H4).
  destruct (scan_row_bounds fh row pos att succ succ ltac:(lia) ltac:(lia) ltac:(lia)) as [B1 B2].
  assert (att <= fst (scan_row fh row pos att succ)) as B3.
  { destruct (scan_row_bounds fh row pos att att att ltac:(lia) ltac:(lia) ltac:(lia)) as [B3 _].
    assert (forall row a x y, fst (scan_row fh row pos a x) = fst (scan_row fh row pos a y)) as HX.
    { clear. induction row as [|o row IH]; intros a x y; cbn [scan_row]; [done|].
      destruct (frame_at fh o) as [f|]; [|apply IH]. destruct (f_res f); [done|]. apply IH. }
    rewrite (HX _ _ succ att). lia. }
  destruct (scan_row fh row pos att succ) as [a' s'] eqn:E. cbn [fst snd] in *.
  specialize (IH (S pos) a' s' ltac:(lia) ltac:(lia)). cbn zeta in IH.
  destruct (scan_rows fh rows (S pos) a' s') as [A S']. cbn [fst snd] in *.
  destruct IH as (I1 & I2 & I3 & I4 & I5 & I6).
  assert (forall q, S pos <= q -> (row :: rows) !! (q - pos) = rows !! (q - S pos)) as HL.
  { intros q Hq. replace (q - pos) with (S (q - S pos)) by lia. done. }
  split; [|split; [|split; [lia|split; [|split; [|lia]]]]].
  - destruct I1 as [-> | (r & Hr & Hq & Ht)].
    + destruct (decide (a' = att)) as [|Hne]; [by left|]. right.
      assert (exists o f, o ∈ row /\ frame_at fh o = Some f) as HT.
      { clear -Hne E. revert att succ Hne E. induction row as [|o row IH]; intros att succ Hne E; cbn [scan_row] in E; [congruence|].
        destruct (frame_at fh o) as [f|] eqn:Ef; [exists o, f; split; [by left|done]|].
        destruct (IH _ _ Hne E) as (o' & f' & Hin & Hf). exists o', f'. split; [by right|done]. }
      assert (a' = pos) as -> by (by apply H1).
      exists row. rewrite Nat.sub_diag. done.
    + right. exists r. rewrite HL by done. split; [done|]. split; [lia|done].
  - intros q (r & Hr & Hq & Ht). destruct (decide (q = pos)) as [->|].
    + rewrite Nat.sub_diag in Hr. injection Hr as <-. rewrite H1 in I3 by done. lia.
    + apply I2. exists r. rewrite <- HL by lia. split; [done|]. split; [lia|done].
  - destruct I4 as [-> | (r & Hr & Hq & Ht)].
    + destruct (decide (s' = succ)) as [|Hne]; [by left|]. right.
      assert (exists o f x, o ∈ row /\ frame_at fh o = Some f /\ f_res f = Some x) as HT.
      { clear -Hne E. revert att succ Hne E. induction row as [|o row IH]; intros att succ Hne E; cbn [scan_row] in E; [congruence|].
        destruct (frame_at fh o) as [f|] eqn:Ef.
        - destruct (f_res f) as [x|] eqn:Ex; [exists o, f, x; split; [by left|done]|].
          destruct (IH _ _ Hne E) as (o' & f' & x' & Hin & Hf). exists o', f', x'. split; [by right|done].
        - destruct (IH _ _ Hne E) as (o' & f' & x' & Hin & Hf). exists o', f', x'. split; [by right|done]. }
      assert (s' = pos) as -> by (by apply H3).
      exists row. rewrite Nat.sub_diag. done.
    + right. exists r. rewrite HL by done. split; [done|]. split; [lia|done].
  - intros q (r & Hr & Hq & Ht). destruct (decide (q = pos)) as [->|].
    + rewrite Nat.sub_diag in Hr. injection Hr as <-. rewrite H3 in I6 by done. lia.
    + apply I5. exists r. rewrite <- HL by lia. split; [done|]. split; [lia|done].
Qed.

Lemma lift_ok {A B} (r : res A) (f : A -> M B) s b s' : bind (lift r) f s = Ok b s' -> exists a, f a s = Ok b s'.
Proof. unfold bind, lift. destruct r; intros H; try discriminate H. eauto. Qed.
Lemma set_pos_st n {B} (f : unit -> M B) s b s' : bind (set_pos n) f s = Ok b s' ->
  exists c, f tt (set_code s c) = Ok b s' /\ c_pos c = n.
Proof.
  unfold bind, set_pos. destruct (c_set_pos (s_code s) (Z.of_nat n)) as [c|p|] eqn:E; intros H; try discriminate H.
  exists c. split; [done|]. destruct (s_code s) as [r|t]; cbn [c_set_pos] in E.
  - unfold rs_set_pos in E. destruct (_ || _)%bool; cbn [rmap] in E; [discriminate E|]. injection E as <-. cbn. lia.
  - unfold ts_set_pos in E. destruct (_ || _)%bool; cbn [rmap] in E; [discriminate E|]. injection E as <-. cbn. lia.
Qed.

(** The reported position is the furthest where a rule matched, the cursor is
    left at the furthest where one was tried. *)
Lemma report r s k s' : finish r s = Ok (Some (AErr k)) s' -> st_pos s <> c_work_length (s_code s) ->
  furthest (matched s) (st_pos s) k /\ furthest (tried s) (st_pos s) (st_pos s').
Proof.
  intros H Hn. unfold finish in H. unfold bind at 1, get in H. change (c_pos (s_code s)) with (st_pos s) in H.
  rewrite (proj2 (Nat.eqb_neq _ _) Hn) in H.
  pose proof (scan_rows_spec (s_fheap s) (drop (st_pos s) (s_frames s)) (st_pos s) (st_pos s) (st_pos s)
    ltac:(lia) ltac:(lia)) as HS. cbn zeta in HS.
  destruct (scan_rows _ _ _ _ _) as [att succ]. cbn [fst snd] in HS.
  apply lift_ok in H as [_ H]. apply lift_ok in H as [_ H]. apply lift_ok in H as [_ H]. apply lift_ok in H as [_ H].
  apply set_pos_st in H as (c1 & H & Hc1). unfold bind at 1, gets in H.
  apply lift_ok in H as [_ H]. apply set_pos_st in H as (c2 & H & Hc2). unfold bind at 1, gets in H.
  apply lift_ok in H as [_ H]. unfold ret in H. injection H as <- <-.
  assert (st_pos (set_code (set_code s c1) c2) = att) as -> by exact Hc2.
  destruct HS as (I1 & I2 & I3 & I4 & I5 & I6).
  assert (forall P : list (option nat) -> Prop, forall q, (exists row, drop (st_pos s) (s_frames s) !! (q - st_pos s) = Some row /\ st_pos s <= q /\ P row) <->
    (st_pos s <= q /\ exists row, s_frames s !! q = Some row /\ P row)) as HD.
  { intros P q. split.
    - intros (row & Hr & Hq & HP). rewrite lookup_drop in Hr. replace (st_pos s + (q - st_pos s)) with q in Hr by lia. eauto.
    - intros (Hq & row & Hr & HP). exists row. rewrite lookup_drop. replace (st_pos s + (q - st_pos s)) with q by lia. done. }
  assert (forall q, matched s q <-> exists row, s_frames s !! q = Some row /\ row_matched (s_fheap s) row) as HM.
  { intros q. split; [intros (row & o & f & x & H1 & H2 & H3 & H4)|intros (row & H1 & o & f & x & H2 & H3 & H4)].
    - exists row. split; [done|]. by exists o, f, x.
    - by exists row, o, f, x. }
  assert (forall q, tried s q <-> exists row, s_frames s !! q = Some row /\ row_tried (s_fheap s) row) as HT.
  { intros q. split; [intros (row & o & f & H1 & H2 & H3)|intros (row & H1 & o & f & H2 & H3)].
    - exists row. split; [done|]. by exists o, f.
    - by exists row, o, f. }
  split; (split; [lia|split]).
  - intros Hne. destruct I4 as [|I4]; [congruence|]. apply HD in I4 as [_ I4]. by apply HM.
  - intros q Hq HQ. apply HM in HQ. assert (st_pos s <= q) as Hsq by lia. pose proof (I5 q (proj2 (HD _ q) (conj Hsq HQ))). lia.
  - intros Hne. destruct I1 as [|I1]; [congruence|]. apply HD in I1 as [_ I1]. by apply HT.
  - intros q Hq HQ. apply HT in HQ. assert (st_pos s <= q) as Hsq by lia. pose proof (I2 q (proj2 (HD _ q) (conj Hsq HQ))). lia.
Qed.
