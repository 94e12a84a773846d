(** Simulation between the runs of two grammars that differ in names and
    numbers of rules. *)
From Verif Require Import Base Helpers Utf8 Stream Native Engine Print ErrMsg SimSpec RenumSpec.
Local Open Scope list_scope.

Section Cells.
Variables (pi : nat -> nat) (n1 n2 : nat).
Hypothesis Hinj : forall i j, i < n1 -> j < n1 -> pi i = pi j -> i = j.
Hypothesis Hin : forall i, i < n1 -> pi i < n2.
(** The same cells in other places, the rest as [d]. *)
Definition cells {A} (d : A) (l1 l2 : list A) : Prop :=
  length l1 = n1 /\ length l2 = n2 /\ (forall i, i < n1 -> l2 !! pi i = l1 !! i) /\
  forall j x, l2 !! j = Some x -> x = d \/ exists i, i < n1 /\ pi i = j.
Lemma cells_insert {A} (d x : A) l1 l2 i : i < n1 -> cells d l1 l2 -> cells d (<[i := x]> l1) (<[pi i := x]> l2).
Proof.
  intros Hi (H1 & H2 & H3 & H4). split; [by rewrite insert_length|]. split; [by rewrite insert_length|]. split.
  - intros j Hj. destruct (decide (j = i)) as [->|Hne].
    + rewrite !list_lookup_insert; [done|lia|]. rewrite H2. auto.
    + rewrite !list_lookup_insert_ne; [auto|done|]. intros E. apply Hne. symmetry. by apply Hinj.
  - intros j y Hj. destruct (decide (j = pi i)) as [->|Hne]; [right; eauto|]. rewrite list_lookup_insert_ne in Hj by done. by eapply H4.
Qed.
Lemma cells_zip {A B C} (f : A -> B -> C) a b x1 x2 y1 y2 : cells a x1 x2 -> cells b y1 y2 -> cells (f a b) (zip_with f x1 y1) (zip_with f x2 y2).
Proof.
  clear Hinj Hin. intros (H1 & H2 & H3 & H4) (G1 & G2 & G3 & G4). split; [rewrite zip_with_length; lia|]. split; [rewrite zip_with_length; lia|]. split.
  - intros i Hi. by rewrite !lookup_zip_with, H3, G3.
  - intros j z Hj. rewrite lookup_zip_with in Hj. destruct (x2 !! j) as [u|] eqn:Hu; [|done]. cbn in Hj. destruct (y2 !! j) as [v|] eqn:Hv; [|done]. cbn in Hj.
    injection Hj as <-. destruct (H4 _ _ Hu) as [->|?]; [|by right]. destruct (G4 _ _ Hv) as [->|?]; [by left|by right].
Qed.
Lemma cells_replicate {A} (d : A) : cells d (replicate n1 d) (replicate n2 d).
Proof.
  split; [apply replicate_length|]. split; [apply replicate_length|]. split.
  - intros i Hi. rewrite !lookup_replicate_2; auto.
  - intros j x Hj. apply lookup_replicate in Hj as [-> _]. by left.
Qed.
End Cells.

(** What a scan of a row finds. *)
Lemma scan_row_eq fh row pos att succ : scan_row fh row pos att succ =
  if existsb (fun o => match frame_at fh o with Some f => match f_res f with Some _ => true | None => false end | None => false end) row then (pos, pos)
  else if existsb (fun o => match frame_at fh o with Some _ => true | None => false end) row then (pos, succ) else (att, succ).
Proof.
  revert att. induction row as [|o row IH]; intros att; [done|]. cbn [scan_row existsb]. destruct (frame_at fh o) as [f|]; [|by rewrite IH].
  destruct (f_res f); cbn [orb]; [done|]. rewrite IH. destruct (existsb _ row); [done|]. by destruct (existsb _ row).
Qed.

Section Renum.
Variables E1 E2 : env.
Variables (R : string -> string -> Prop) (pi : nat -> nat).
Notation n1 := (e_nrules E1).
Notation n2 := (e_nrules E2).
Notation renum := (renum R pi n1).
Notation info_renum := (info_renum pi n1).
Notation cells := (cells pi n1 n2).
Hypothesis Hinj : forall i j, i < n1 -> j < n1 -> pi i = pi j -> i = j.
Hypothesis Hin : forall i, i < n1 -> pi i < n2.
Hypothesis Hrule : forall nm nm', R nm nm' -> both_have R pi n1 (e_rule E1 nm) (e_rule E2 nm').
Hypothesis Hrxe : e_rx E2 = e_rx E1.
Hypothesis Hcb : cb_like false (e_cb E1) (e_cb E2).
Hypothesis Hstk : e_stack E2 = e_stack E1.
Hypothesis Hloop : e_loop E2 = e_loop E1.
Hypothesis Hfil : e_filter E2 = e_filter E1.
Hypothesis Hskl : e_skiplog E2 = e_skiplog E1.

Record fsim (f1 f2 : frame) : Prop := {
  fs_res : f_res f2 = f_res f1; fs_end : f_end f2 = f_end f1; fs_stage : f_stage f2 = f_stage f1; fs_pos : f_pos f2 = f_pos f1;
  fs_id : f_id f1 < n1; fs_id2 : f_id f2 = pi (f_id f1); fs_mask : option_Forall2 (cells false) (f_mask f1) (f_mask f2) }.
Record psim (s1 s2 : st) : Prop := {
  ps_code : s_code s2 = s_code s1;
  ps_rows : Forall2 (cells None) (s_frames s1) (s_frames s2);
  ps_fh : Forall2 fsim (s_fheap s1) (s_fheap s2);
  ps_stack : s_stack s2 = s_stack s1;
  ps_heap : heap_like false (s_heap s1) (s_heap s2);
  ps_cnt : s_counter s2 = s_counter s1;
  ps_loop : s_loopstack s2 = s_loopstack s1;
  ps_log : s_log s2 = map (ev_renum pi) (s_log s1);
  ps_val : forall p row i a, s_frames s1 !! p = Some row -> row !! i = Some (Some a) -> exists f, s_fheap s1 !! a = Some f /\ f_pos f = p }.
(** Frames stay, with their positions. *)
Definition pext (s s' : st) : Prop :=
  length (s_frames s') = length (s_frames s) /\ forall a f, s_fheap s !! a = Some f -> exists f', s_fheap s' !! a = Some f' /\ f_pos f' = f_pos f.
Lemma pext_refl s : pext s s.
Proof. split; [done|]. intros a f H. by exists f. Qed.
Lemma pext_same s s' : s_frames s' = s_frames s -> s_fheap s' = s_fheap s -> pext s s'.
Proof. intros H1 H2. split; [by rewrite H1|]. intros a f H. rewrite H2. by exists f. Qed.
Lemma pext_trans s s' s'' : pext s s' -> pext s' s'' -> pext s s''.
Proof. intros [H1 H2] [G1 G2]. split; [congruence|]. intros a f H. destruct (H2 a f H) as (f' & A & B). destruct (G2 a f' A) as (f'' & C & D). exists f''. split; congruence. Qed.
Definition pout {A} (Q : st -> A -> A -> Prop) (s : st) (o1 o2 : outcome A) : Prop :=
  match o1, o2 with
  | Ok a1 s1, Ok a2 s2 => Q s1 a1 a2 /\ psim s1 s2 /\ pext s s1
  | Panic p1 s1, Panic p2 s2 => p1 = p2 /\ psim s1 s2
  | OutOfFuel, OutOfFuel => True
  | _, _ => False
  end.
Definition eqq {A} (_ : st) (a b : A) : Prop := a = b.
Definition pq {A} (Q : st -> A -> A -> Prop) (m1 m2 : M A) : Prop := forall s1 s2, psim s1 s2 -> pout Q s1 (m1 s1) (m2 s2).
Notation tq := (pq eqq).

Lemma pq_bindq {A C} (Q1 : st -> A -> A -> Prop) (Q : st -> C -> C -> Prop) m1 m2 k1 k2 : pq Q1 m1 m2 ->
  (forall a b s1 s2, psim s1 s2 -> Q1 s1 a b -> pout Q s1 (k1 a s1) (k2 b s2)) -> pq Q (bind m1 k1) (bind m2 k2).
Proof.
  intros H1 H2 s1 s2 HS. unfold bind. specialize (H1 s1 s2 HS). destruct (m1 s1) as [a t1|p1 t1|], (m2 s2) as [b t2|p2 t2|]; try done.
  destruct H1 as (HQ & HS1 & HX). specialize (H2 a b t1 t2 HS1 HQ). unfold pout in *. destruct (k1 a t1), (k2 b t2); try done.
  destruct H2 as (G1 & G2 & G3). split; [done|]. split; [done|]. by eapply pext_trans.
Qed.
Lemma pq_bind {A C} (Q : st -> C -> C -> Prop) (m1 m2 : M A) (k1 k2 : A -> M C) : tq m1 m2 -> (forall a, pq Q (k1 a) (k2 a)) -> pq Q (bind m1 k1) (bind m2 k2).
Proof. intros H1 H2. eapply pq_bindq; [exact H1|]. intros a b s1 s2 HS ->. by apply H2. Qed.
Lemma pq_ret {A} (a : A) : tq (ret a) (ret a).
Proof. intros s1 s2 HS. split; [done|]. split; [done|]. apply pext_refl. Qed.
Lemma pq_panic {A} Q p : pq Q (panic_ (A:=A) p) (panic_ p).
Proof. intros s1 s2 HS. done. Qed.
Lemma pq_fuel {A} Q : pq Q (out_of_fuel (A:=A)) out_of_fuel.
Proof. done. Qed.
Lemma pq_lift {A} (r : res A) : tq (lift r) (lift r).
Proof. intros s1 s2 HS. unfold lift. destruct r; try done. split; [done|]. split; [done|]. apply pext_refl. Qed.
Ltac same := split; [|split; [|try first [apply pext_refl|apply pext_same; reflexivity]]].
Lemma pq_code : tq (gets s_code) (gets s_code).
Proof. intros s1 s2 HS. same; [unfold eqq; cbn; by rewrite (ps_code _ _ HS)|done]. Qed.
Lemma pq_get_pos : tq get_pos get_pos.
Proof. intros s1 s2 HS. same; [unfold eqq, st_pos; cbn; by rewrite (ps_code _ _ HS)|done]. Qed.
Lemma pq_stk : tq (gets s_stack) (gets s_stack).
Proof. intros s1 s2 HS. same; [unfold eqq; cbn; by rewrite (ps_stack _ _ HS)|done]. Qed.
Lemma pq_set_pos p : tq (set_pos p) (set_pos p).
Proof.
  intros s1 s2 HS. unfold set_pos. rewrite (ps_code _ _ HS). destruct (c_set_pos (s_code s1) (Z.of_nat p)); try done. same; [done|]. destruct HS. by constructor.
Qed.
Lemma pq_emit e : tq (emit e) (emit (ev_renum pi e)).
Proof. intros s1 s2 HS. same; [done|]. destruct HS as [? ? ? ? ? ? ? H ?]. constructor; try done. cbn. by rewrite H. Qed.
Lemma pq_alloc o : tq (alloc o) (alloc o).
Proof.
  intros s1 s2 HS. destruct HS as [? ? ? ? HH ? ? ? ?]. same; [by apply Forall2_length in HH|]. constructor; try done. cbn. apply Forall2_app; [done|]. by constructor.
Qed.
Lemma pq_read {C} Q a (k1 k2 : obj -> M C) : (forall o1 o2, obj_like false o1 o2 -> pq Q (k1 o1) (k2 o2)) ->
  pq Q (bind (read_obj a) k1) (bind (read_obj a) k2).
Proof.
  intros H s1 s2 HS. unfold bind, read_obj. pose proof (ps_heap _ _ HS) as HH.
  destruct (s_heap s1 !! a) as [o1|] eqn:H1.
  - destruct (Forall2_lookup_l _ _ _ _ _ HH H1) as (o2 & -> & HO). by apply H.
  - destruct (s_heap s2 !! a) as [o2|] eqn:H2; [|done]. destruct (Forall2_lookup_r _ _ _ _ _ HH H2) as (o1 & H3 & _). congruence.
Qed.
Lemma pq_write a o1 o2 : obj_like false o1 o2 -> tq (write_obj a o1) (write_obj a o2).
Proof. intros HO s1 s2 HS. same; [done|]. destruct HS as [? ? ? ? HH ? ? ? ?]. constructor; try done. by apply Forall2_insert. Qed.
Lemma pq_fr {C} Q a (k1 k2 : frame -> M C) : (forall f1 f2, fsim f1 f2 -> pq Q (k1 f1) (k2 f2)) -> pq Q (bind (get_fr a) k1) (bind (get_fr a) k2).
Proof.
  intros H s1 s2 HS. unfold bind, get_fr. pose proof (ps_fh _ _ HS) as HH.
  destruct (s_fheap s1 !! a) as [o1|] eqn:H1.
  - destruct (Forall2_lookup_l _ _ _ _ _ HH H1) as (o2 & -> & HO). by apply H.
  - destruct (s_fheap s2 !! a) as [o2|] eqn:H2; [|done]. destruct (Forall2_lookup_r _ _ _ _ _ HH H2) as (o1 & H3 & _). congruence.
Qed.
Lemma pq_peek {C} Q (k1 k2 : frame -> M C) : (forall f1 f2, fsim f1 f2 -> pq Q (k1 f1) (k2 f2)) -> pq Q (bind stack_peek k1) (bind stack_peek k2).
Proof.
  intros H s1 s2 HS. unfold bind, stack_peek. rewrite (ps_stack _ _ HS). destruct (s_stack s1) as [|a l]; [done|]. exact (pq_fr Q a k1 k2 H s1 s2 HS).
Qed.
(** Changes of a frame that keep its position. *)
Lemma pq_upd a (u1 u2 : frame -> frame) : (forall f1 f2, fsim f1 f2 -> fsim (u1 f1) (u2 f2)) -> (forall f, f_pos (u1 f) = f_pos f) ->
  tq (bind (get_fr a) (fun f => put_fr a (u1 f))) (bind (get_fr a) (fun f => put_fr a (u2 f))).
Proof.
  intros Hu Hp s1 s2 HS. unfold bind, get_fr, put_fr. pose proof (ps_fh _ _ HS) as HH.
  destruct (s_fheap s1 !! a) as [o1|] eqn:H1.
  - destruct (Forall2_lookup_l _ _ _ _ _ HH H1) as (o2 & -> & HO).
    assert (HX : forall b f, s_fheap s1 !! b = Some f -> exists f', <[a := u1 o1]> (s_fheap s1) !! b = Some f' /\ f_pos f' = f_pos f).
    { intros b f Hb. destruct (decide (b = a)) as [->|Hne].
      - rewrite list_lookup_insert by (by eapply lookup_lt_Some). eexists. split; [done|]. rewrite Hp. congruence.
      - rewrite list_lookup_insert_ne by done. by exists f. }
    split; [done|]. split; [|by split]. destruct HS as [? ? ? ? ? ? ? ? HV]. constructor; try done; cbn.
    + apply Forall2_insert; auto.
    + intros p row i b Hr Hc. destruct (HV p row i b Hr Hc) as (f & F1 & F2). destruct (HX b f F1) as (f' & F3 & F4). exists f'. split; congruence.
  - destruct (s_fheap s2 !! a) as [o2|] eqn:H2; [|done]. destruct (Forall2_lookup_r _ _ _ _ _ HH H2) as (o1 & H3 & _). congruence.
Qed.
Lemma pq_set_stage a z : tq (set_stage a z) (set_stage a z).
Proof. apply pq_upd; [|done]. intros f1 f2 []. by constructor. Qed.
Lemma pq_cache_set a r e : tq (cache_set a r e) (cache_set a r e).
Proof. apply pq_upd; [|done]. intros f1 f2 []. by constructor. Qed.
Lemma pq_set_mask a m1 m2 : cells false m1 m2 -> tq (set_mask a m1) (set_mask a m2).
Proof. intros Hm. apply pq_upd; [|done]. intros f1 f2 []. constructor; try done. cbn. by constructor. Qed.
Lemma pq_get_frame i : i < n1 -> tq (get_frame i) (get_frame (pi i)).
Proof.
  intros Hi s1 s2 HS. unfold get_frame, table_get, table_set. cbn zeta. pose proof (ps_code _ _ HS) as Hc. pose proof (ps_rows _ _ HS) as HR. pose proof (ps_fh _ _ HS) as HF.
  unfold st_pos. rewrite Hc. set (p := c_pos (s_code s1)) in *. destruct (s_frames s1 !! p) as [row|] eqn:Hr.
  - destruct (Forall2_lookup_l _ _ _ _ _ HR Hr) as (row' & Hr' & HC). rewrite Hr'. pose proof HC as (L1 & L2 & L3 & L4). rewrite (L3 i Hi).
    destruct (row !! i) as [[a|]|] eqn:Hcell; [same; done| |done]. rewrite <- (Forall2_length _ _ _ HF).
    assert (HX : forall b f, s_fheap s1 !! b = Some f -> (s_fheap s1 ++ [new_frame p i]) !! b = Some f) by (intros b f Hb; by apply lookup_app_l_Some).
    split; [done|]. split; [|split; [cbn; by rewrite insert_length|intros b f Hb; exists f; split; [by apply HX|done]]].
    destruct HS as [? ? ? ? ? ? ? ? HV]. constructor; try done; cbn [s_frames s_fheap set_frames set_fheap].
    + apply Forall2_insert; [done|]. by apply cells_insert.
    + apply Forall2_app; [done|]. constructor; [|constructor]. constructor; try done. constructor.
    + intros q r j b Hq Hj. destruct (decide (q = p)) as [->|Hne].
      * rewrite list_lookup_insert in Hq by (by eapply lookup_lt_Some). injection Hq as <-. destruct (decide (j = i)) as [->|Hji].
        -- rewrite list_lookup_insert in Hj by lia. injection Hj as <-. exists (new_frame p i). split; [|done]. by apply list_lookup_middle.
        -- rewrite list_lookup_insert_ne in Hj by done. destruct (HV _ _ _ _ Hr Hj) as (f & F1 & F2). exists f. split; [by apply HX|done].
      * rewrite list_lookup_insert_ne in Hq by done. destruct (HV _ _ _ _ Hq Hj) as (f & F1 & F2). exists f. split; [by apply HX|done].
  - destruct (s_frames s2 !! p) as [row'|] eqn:Hr'; [|done]. destruct (Forall2_lookup_r _ _ _ _ _ HR Hr') as (? & H3 & _). congruence.
Qed.
(** Stashes. *)
Definition stashed (s : st) (t1 t2 : list (option nat)) : Prop :=
  cells None t1 t2 /\ exists p, p < length (s_frames s) /\ forall i a, t1 !! i = Some (Some a) -> exists f, s_fheap s !! a = Some f /\ f_pos f = p.
Lemma stashed_ext s s' t1 t2 : pext s s' -> stashed s t1 t2 -> stashed s' t1 t2.
Proof.
  intros [X1 X2] (HC & p & Hp & HV). split; [done|]. exists p. split; [by rewrite X1|]. intros i a Ha. destruct (HV i a Ha) as (f & F1 & F2).
  destruct (X2 a f F1) as (f' & F3 & F4). exists f'. split; congruence.
Qed.
Lemma pq_wipe a : pq stashed (wipe_with a true) (wipe_with a true) /\ tq (wipe_with a false) (wipe_with a false).
Proof.
  assert (forall mk : bool, pq (fun s (t1 t2 : list (option nat)) => if mk then stashed s t1 t2 else t1 = t2) (wipe_with a mk) (wipe_with a mk)) as H; [|split; [exact (H true)|exact (H false)]].
  intros mk. unfold wipe_with. apply pq_fr. intros f1 f2 HF. pose proof (fs_pos _ _ HF) as Hp. pose proof (fs_mask _ _ HF) as HM.
  destruct HM as [m1 m2 HM|]; [|apply pq_panic]. intros s1 s2 HS. rewrite Hp. pose proof (ps_rows _ _ HS) as HR. destruct (s_frames s1 !! f_pos f1) as [row|] eqn:Hr.
  - destruct (Forall2_lookup_l _ _ _ _ _ HR Hr) as (row' & Hr' & HC). rewrite Hr'. destruct HM as (L1 & L2 & L3). destruct HC as (K1 & K2 & K3).
    rewrite L1, L2, K1, K2, !Nat.eqb_refl. cbn [negb].
    assert (HM : cells false m1 m2) by done. assert (HC : cells None row row') by done. split; [|split].
    + destruct mk; [|done]. split; [exact (cells_zip _ _ _ _ _ _ _ _ _ _ HM HC)|]. exists (f_pos f1). cbn [s_frames s_fheap set_frames]. rewrite insert_length.
      split; [by eapply lookup_lt_Some|]. intros i b Hb. rewrite lookup_zip_with in Hb. destruct (m1 !! i) as [u|]; [|done]. cbn in Hb.
      destruct (row !! i) as [v|] eqn:Hv; [|done]. cbn in Hb. destruct u; [|done]. injection Hb as ->. by apply (ps_val _ _ HS _ _ i b Hr Hv).
    + destruct HS as [? ? ? ? ? ? ? ? HV]. constructor; try done; cbn [s_frames s_fheap set_frames].
      * apply Forall2_insert; [done|]. exact (cells_zip _ _ _ (fun (b : bool) (o : option nat) => if b then None else o) _ _ _ _ _ _ HM HC).
      * intros q r j b Hq Hj. destruct (decide (q = f_pos f1)) as [->|Hne].
        -- rewrite list_lookup_insert in Hq by (by eapply lookup_lt_Some). injection Hq as <-. rewrite lookup_zip_with in Hj.
           destruct (m1 !! j) as [u|]; [|done]. cbn in Hj. destruct (row !! j) as [v|] eqn:Hv; [|done]. cbn in Hj. destruct u; [done|]. injection Hj as ->. by apply (HV _ _ j b Hr Hv).
        -- rewrite list_lookup_insert_ne in Hq by done. by eapply HV.
    + split; [cbn; by rewrite insert_length|]. intros b f Hb. by exists f.
  - destruct (s_frames s2 !! f_pos f1) as [row'|] eqn:Hr'; [|done]. destruct (Forall2_lookup_r _ _ _ _ _ HR Hr') as (? & H3 & _). congruence.
Qed.
Definition over (o x : option nat) : option nat := match o with Some a => Some a | None => x end.
Lemma restore_eq st0 : forall pre rest s p, s_frames s !! p = Some (pre ++ rest) -> length rest = length st0 ->
  (forall i a, st0 !! i = Some (Some a) -> exists f, s_fheap s !! a = Some f /\ f_pos f = p) ->
  restore_from (length pre) st0 s = Ok tt (set_frames s (<[p := pre ++ zip_with over st0 rest]> (s_frames s))).
Proof.
  induction st0 as [|o st0 IH]; intros pre rest s p Hr HL HV.
  - destruct rest; [|done]. cbn [restore_from zip_with]. rewrite list_insert_id by done. by destruct s.
  - destruct rest as [|x rest]; [done|]. cbn [restore_from zip_with]. injection HL as HL.
    assert (Hlt : length pre < length (pre ++ x :: rest)) by (rewrite app_length; cbn; lia).
    assert (Hx : (pre ++ x :: rest) !! length pre = Some x) by (by apply list_lookup_middle).
    assert (HV' : forall i a, st0 !! i = Some (Some a) -> exists f, s_fheap s !! a = Some f /\ f_pos f = p) by (intros i a Ha; by apply (HV (S i) a)).
    replace (S (length pre)) with (length (pre ++ [over o x])) by (rewrite app_length; cbn; lia). destruct o as [a|].
    + destruct (HV 0 a eq_refl) as (f & F1 & F2). unfold bind at 1. unfold bind at 1. unfold get_fr. rewrite F1. unfold table_get, table_set. rewrite F2, Hr, Hx.
      rewrite insert_app_r_alt, Nat.sub_diag by lia. cbn [list_insert insert].
      rewrite (IH (pre ++ [Some a]) rest _ p); cbn [s_frames s_fheap set_frames]; [|rewrite list_lookup_insert by (by eapply lookup_lt_Some); by rewrite <- app_assoc|done|done].
      unfold set_frames. cbn. rewrite list_insert_insert, <- app_assoc. done.
    + unfold bind, ret. cbn [over]. rewrite (IH (pre ++ [x]) rest s p); [|by rewrite <- app_assoc|done|done]. by rewrite <- app_assoc.
Qed.
Lemma pq_restore t1 t2 s1 s2 : psim s1 s2 -> stashed s1 t1 t2 -> pout eqq s1 (restore_with t1 s1) (restore_with t2 s2).
Proof.
  intros HS (HC & p & Hp & HV). pose proof (ps_rows _ _ HS) as HR. destruct (lookup_lt_is_Some_2 _ _ Hp) as [row Hr].
  destruct (Forall2_lookup_l _ _ _ _ _ HR Hr) as (row' & Hr' & HC'). pose proof HC as (L1 & L2 & L3 & L4). pose proof HC' as (K1 & K2 & K3 & K4).
  unfold restore_with.
  assert (Q1 : restore_from 0 t1 s1 = Ok tt (set_frames s1 (<[p := zip_with over t1 row]> (s_frames s1)))) by (apply (restore_eq t1 [] row s1 p Hr); [lia|done]).
  assert (Q2 : restore_from 0 t2 s2 = Ok tt (set_frames s2 (<[p := zip_with over t2 row']> (s_frames s2)))).
  { apply (restore_eq t2 [] row' s2 p Hr'); [lia|]. intros j a Ha. destruct (L4 j (Some a) Ha) as [?|(i & Hi & <-)]; [done|]. rewrite (L3 i Hi) in Ha. destruct (HV i a Ha) as (f & F1 & F2).
    destruct (Forall2_lookup_l _ _ _ _ _ (ps_fh _ _ HS) F1) as (f' & F3 & HF). exists f'. split; [done|]. by rewrite (fs_pos _ _ HF). }
  rewrite Q1, Q2. split; [done|]. split.
  - destruct HS as [? ? ? ? ? ? ? ? HW]. constructor; try done; cbn [s_frames s_fheap set_frames].
    + apply Forall2_insert; [done|]. exact (cells_zip _ _ _ over _ _ _ _ _ _ HC HC').
    + intros q r j b Hq Hj. destruct (decide (q = p)) as [->|Hne].
      * rewrite list_lookup_insert in Hq by done. injection Hq as <-. rewrite lookup_zip_with in Hj.
        destruct (t1 !! j) as [u|] eqn:Hu; [|done]. cbn in Hj. destruct (row !! j) as [v|] eqn:Hv; [|done]. cbn in Hj. injection Hj as Hj. destruct u as [u|]; cbn in Hj; subst.
        -- injection Hj as ->. by apply (HV j b Hu).
        -- by apply (HW _ _ j b Hr Hv).
      * rewrite list_lookup_insert_ne in Hq by done. by eapply HW.
  - split; [cbn; by rewrite insert_length|]. intros b f Hb. by exists f.
Qed.
Lemma pq_mark sp id : id < n1 -> forall stk m1 m2, cells false m1 m2 -> pq (fun _ a b => cells false a b) (mark stk sp id m1) (mark stk sp (pi id) m2).
Proof.
  intros Hid. induction stk as [|a stk IH]; intros m1 m2 HM; cbn [mark]; [intros s1 s2 HS; same; done|]. apply pq_fr. intros f1 f2 HF.
  rewrite (fs_pos _ _ HF), (fs_id2 _ _ HF). pose proof (fs_id _ _ HF) as Hf. destruct (_ <? _); [apply pq_panic|].
  assert ((pi (f_id f1) =? pi id) = (f_id f1 =? id)) as ->.
  { destruct (Nat.eqb_spec (f_id f1) id) as [->|Hne]; [apply Nat.eqb_refl|]. apply Nat.eqb_neq. intros E. apply Hne. by apply Hinj. }
  destruct (_ || _)%bool; [intros s1 s2 HS; same; done|]. pose proof HM as (L1 & L2 & _). rewrite L1, L2.
  destruct (Nat.leb_spec n1 (f_id f1)); [lia|]. pose proof (Hin _ Hf). destruct (Nat.leb_spec n2 (pi (f_id f1))); [lia|]. apply IH. by apply cells_insert.
Qed.
Ltac tstep := first
  [ apply pq_ret | apply pq_fuel | apply pq_get_pos | apply pq_set_pos | apply pq_alloc
  | apply pq_panic | apply pq_lift | apply pq_code | apply pq_stk
  | (apply pq_bind; [|intros ?])
  | match goal with
    | |- pq _ (match ?x with _ => _ end) _ => destruct x
    | |- pq _ (if ?x then _ else _) _ => destruct x
    | |- pq _ (let '(_, _) := ?x in _) _ => destruct x
    end ].
Lemma pq_push : tq loop_stack_push loop_stack_push.
Proof. intros s1 s2 HS. same; [done|]. destruct HS as [? ? ? ? ? ? H ? ?]. constructor; try done. cbn. by rewrite H. Qed.
Lemma pq_pop : tq loop_stack_pop loop_stack_pop.
Proof. intros s1 s2 HS. unfold loop_stack_pop. rewrite (ps_loop _ _ HS). destruct (s_loopstack s1); [done|]. same; [done|]. destruct HS. by constructor. Qed.

(** The native objects. *)
Lemma pq_merge_keys dst src ks : tq (merge_keys dst src ks) (merge_keys dst src ks).
Proof.
  induction ks as [|k ks IH]; cbn [merge_keys]; [apply pq_ret|]. apply pq_read. intros o1 o2 [HB _]. rewrite HB. apply pq_bind; [|intros _; apply IH].
  destruct (o_body o2) as [m|]; [|apply pq_panic]. apply pq_bind; [apply pq_lift|]. intros v. apply pq_read. intros d1 d2 [HD HA]. rewrite HD.
  destruct (o_body d2); [|apply pq_panic]. by apply pq_write.
Qed.
Lemma pq_merge_label dst m ks : tq (merge_label dst m ks) (merge_label dst m ks).
Proof.
  induction ks as [|k ks IH]; cbn [merge_label]; [apply pq_ret|]. apply pq_bind; [|intros _; apply IH].
  destruct (String.eqb k "label"); [|apply pq_panic]. apply pq_bind; [apply pq_lift|]. intros v. destruct v; try apply pq_panic.
  destruct dst as [a|]; [|apply pq_ret]. apply pq_read. intros d1 d2 [HD HA]. rewrite HD.
  destruct (o_body d2); [apply pq_panic|]. by apply pq_write.
Qed.
Lemma pq_type_of x : tq (type_of x) (type_of x).
Proof.
  unfold type_of. destruct x; try apply pq_ret. apply pq_read. intros o1 o2 [HB _]. rewrite HB. destruct (o_body o2); apply pq_ret.
Qed.
Lemma pq_merge x y : tq (merge x y) (merge x y).
Proof.
  unfold merge. apply pq_bind; [apply pq_type_of|]. intros [|a m|a|]; try apply pq_panic; [apply pq_ret| |];
    (apply pq_bind; [apply pq_type_of|]); intros [|b m'|b|]; repeat first [apply pq_merge_keys|apply pq_merge_label|tstep].
Qed.
Lemma pq_add_labelled l r x : tq (add_labelled l r x) (add_labelled l r x).
Proof.
  unfold add_labelled. destruct (String.eqb l "&").
  { destruct (is_undefined r); [apply pq_ret|]. destruct r; [|apply pq_ret]. apply pq_bind; [apply pq_merge|]. intros y. apply pq_ret. }
  destruct (String.eqb l "@").
  { destruct (is_undefined r); [apply pq_ret|]. destruct r; [|apply pq_ret]. apply pq_bind; [apply pq_merge|]. intros y. apply pq_ret. }
  destruct (String.eqb l ""); [apply pq_ret|]. destruct (is_undefined r); [apply pq_bind; [apply pq_alloc|]; intros y; apply pq_ret|].
  destruct r as [[| | | |a| |]|]; try apply pq_panic. apply pq_read. intros o1 o2 [HB HA]. rewrite HB. destruct (o_body o2); [|apply pq_panic].
  apply pq_bind; [|intros _; apply pq_ret]. by apply pq_write.
Qed.
Lemma renum_wraps i i' : info_renum i i' -> (negb (String.eqb (i_label i') "") && i_wraps i')%bool = (negb (String.eqb (i_label i) "") && i_wraps i)%bool.
Proof. intros (-> & H & _). destruct (String.eqb_spec (i_label i) "") as [E|E]; [done|]. by rewrite H. Qed.
Lemma pq_wrap_label i i' x : info_renum i i' -> tq (wrap_label i x) (wrap_label i' x).
Proof. intros H. unfold wrap_label. rewrite (renum_wraps i i' H). destruct H as [-> _]. repeat tstep. Qed.
Lemma pq_call i i' x : i_cb i' = i_cb i -> tq (call_cb E1 i x) (call_cb E2 i' x).
Proof.
  unfold call_cb. intros ->. destruct (i_cb i) as [c|]; [|apply pq_ret]. apply pq_bind; [apply pq_get_pos|]. intros p. apply pq_bind; [apply (pq_emit (EvCb c p))|].
  intros _ s1 s2 HS. pose proof (Hcb c p (s_heap s1) (s_heap s2) x (ps_heap _ _ HS)) as HC. unfold cbres_like in HC.
  destruct (e_cb E1 c p (s_heap s1) x) as [h1 r1|t1], (e_cb E2 c p (s_heap s2) x) as [h2 r2|t2]; try done.
  - destruct HC as [-> HC]. same; [done|]. destruct HS. by constructor.
  - subst. done.
Qed.
Lemma pq_origin y o1 o2 : tq (set_origin y o1) (set_origin y o2).
Proof. unfold set_origin. destruct y; try apply pq_ret. apply pq_read. intros b1 b2 [HB HA]. by apply pq_write. Qed.
Lemma pq_prepare fp1 fp2 n n' : info_renum (n_info n) (n_info n') -> tq fp1 fp2 -> tq (prepare_result E1 fp1 n) (prepare_result E2 fp2 n').
Proof.
  intros HI H. unfold prepare_result. apply pq_bind.
  { intros s1 s2 HS. same; [done|]. destruct HS as [? ? ? ? ? HN ? ? ?]. constructor; try done. cbn. by rewrite HN. }
  intros _. apply pq_bind; [done|]. intros [x|]; [|apply pq_ret]. apply pq_bind; [by apply pq_wrap_label|]. intros x1.
  apply pq_bind; [apply pq_call; by apply HI|]. intros [y|]; [|apply pq_ret]. apply pq_peek. intros fr fr' _.
  apply pq_bind; [apply pq_get_pos|]. intros p. apply pq_bind; [apply pq_code|]. intros c. apply pq_bind; [apply pq_lift|]. intros line.
  apply pq_bind; [apply pq_origin|]. intros _. apply pq_ret.
Qed.
Lemma pq_log : tq (log_ E1) (log_ E2).
Proof. unfold log_. rewrite Hskl, Hfil. repeat tstep. Qed.
Lemma pq_log_if b : tq (log_if E1 b) (log_if E2 b).
Proof. unfold log_if. destruct b; [apply pq_log|apply pq_ret]. Qed.
(** From a state on. *)
Definition pqf {A} (s0 : st) (Q : st -> A -> A -> Prop) (m1 m2 : M A) : Prop := forall s1 s2, psim s1 s2 -> pext s0 s1 -> pout Q s1 (m1 s1) (m2 s2).
Lemma pqf_bind {A C} s0 (Q : st -> C -> C -> Prop) (m1 m2 : M A) (k1 k2 : A -> M C) : tq m1 m2 -> (forall a, pqf s0 Q (k1 a) (k2 a)) -> pqf s0 Q (bind m1 k1) (bind m2 k2).
Proof.
  intros H1 H2 s1 s2 HS HX. unfold bind. specialize (H1 s1 s2 HS). destruct (m1 s1) as [a t1|p1 t1|], (m2 s2) as [b t2|p2 t2|]; try done.
  destruct H1 as (-> & HS1 & HX1). pose proof (H2 b t1 t2 HS1 (pext_trans _ _ _ HX HX1)) as H3. unfold pout in *. destruct (k1 b t1), (k2 b t2); try done.
  destruct H3 as (G1 & G2 & G3). split; [done|]. split; [done|]. by eapply pext_trans.
Qed.
Lemma pqf_pq {A} s0 (Q : st -> A -> A -> Prop) m1 m2 : pq Q m1 m2 -> pqf s0 Q m1 m2.
Proof. intros H s1 s2 HS _. by apply H. Qed.
Lemma pqf_restore {C} s0 (Q : st -> C -> C -> Prop) t1 t2 (k1 k2 : unit -> M C) : stashed s0 t1 t2 -> pq Q (k1 tt) (k2 tt) ->
  pqf s0 Q (bind (restore_with t1) k1) (bind (restore_with t2) k2).
Proof.
  intros HT HK u1 u2 HU HX. pose proof (pq_restore t1 t2 u1 u2 HU (stashed_ext _ _ _ _ HX HT)) as HR. unfold bind. unfold pout in HR.
  destruct (restore_with t1 u1) as [[] v1|q1 v1|], (restore_with t2 u2) as [[] v2|q2 v2|]; try done. destruct HR as (_ & HV & HX2).
  specialize (HK v1 v2 HV). unfold pout in HK |- *. destruct (k1 tt v1), (k2 tt v2); try done.
  destruct HK as (K1 & K2 & K3). split; [done|]. split; [done|]. by eapply pext_trans.
Qed.
Definition best_like (s : st) (b1 b2 : ast * nat * list (option nat)) : Prop := fst b1 = fst b2 /\ stashed s (snd b1) (snd b2).
Lemma pq_grow fp1 fp2 show id a sp lf : tq fp1 fp2 -> forall x, pq best_like (grow E1 lf fp1 show id a sp x) (grow E2 lf fp2 show (pi id) a sp x).
Proof.
  intros Hfp. induction lf as [|lf IH]; intros x; cbn [grow]; [apply pq_fuel|]. apply pq_fr. intros f1 f2 HF. destruct (fs_mask _ _ HF); [|apply pq_panic].
  eapply pq_bindq; [apply pq_wipe|]. intros t1 t2 s1 s2 HS HT. cbn beta in HT.
  refine ((_ : pqf s1 best_like _ _) s1 s2 HS (pext_refl s1)).
  apply pqf_bind; [apply pq_get_pos|]. intros bp. apply pqf_bind; [apply pq_cache_set|]. intros _. apply pqf_bind; [apply pq_log_if|]. intros _.
  apply pqf_bind; [apply pq_set_pos|]. intros _. apply pqf_bind; [apply (pq_emit (EvBody id sp))|]. intros _. apply pqf_bind; [exact Hfp|]. intros r.
  apply pqf_bind; [apply pq_get_pos|]. intros p. destruct (p <=? bp); [|destruct r as [r'|]; [apply pqf_pq, IH|]];
    (intros u1 u2 HU HX; split; [split; [done|by eapply stashed_ext]|]; split; [done|apply pext_refl]).
Qed.
Lemma pq_loopify fp1 fp2 lf n n' : i_id (n_info n) < n1 /\ i_id (n_info n') = pi (i_id (n_info n)) /\ i_skip (n_info n') = i_skip (n_info n) /\ i_debug (n_info n') = i_debug (n_info n) ->
  tq fp1 fp2 -> tq (loopify E1 lf fp1 n) (loopify E2 lf fp2 n').
Proof.
  intros (H0 & H1 & H2 & H3) Hfp. unfold loopify. rewrite H1, H2, H3, Hstk, Hloop, Hfil. cbn zeta. set (show := (e_stack E1 || i_debug (n_info n))%bool). set (id := i_id (n_info n)) in *.
  apply pq_bind; [apply pq_log_if|]. intros _. destruct (i_skip (n_info n)).
  { apply pq_bind; [apply pq_get_pos|]. intros sp. apply pq_bind; [apply (pq_emit (EvSkip id sp))|]. intros _. apply pq_bind; [exact Hfp|]. intros r.
    apply pq_bind; [destruct show; [destruct r; [apply pq_log|apply pq_panic]|apply pq_ret]|]. intros _. apply pq_ret. }
  apply pq_bind; [by apply pq_get_frame|]. intros a. apply pq_bind; [apply pq_get_pos|]. intros sp. apply pq_fr. intros f0 f0' F0. rewrite (fs_stage _ _ F0).
  apply pq_bind; [destruct (_ <? _)%Z; [apply pq_set_stage|apply pq_ret]|]. intros _. apply pq_fr. intros f f' F. rewrite (fs_stage _ _ F), (fs_end _ _ F), (fs_res _ _ F).
  destruct (f_stage f =? 0)%Z.
  - destruct (f_end f) as [e|].
    { apply pq_bind; [apply pq_log_if|]. intros _. apply pq_bind; [apply pq_set_pos|]. intros _. apply pq_ret. }
    apply pq_bind; [apply pq_set_stage|]. intros _. apply pq_bind; [apply pq_cache_set|]. intros _. apply pq_bind; [apply (pq_emit (EvBody id sp))|]. intros _.
    apply pq_bind; [exact Hfp|]. intros r. apply pq_fr. intros g g' G. rewrite (fs_stage _ _ G). destruct (f_stage g =? 1)%Z.
    { apply pq_bind; [apply pq_set_stage|]. intros _. apply pq_bind; [apply pq_get_pos|]. intros p. apply pq_bind; [apply pq_cache_set|]. intros _.
      apply pq_bind; [apply pq_log_if|]. intros _. apply pq_ret. }
    destruct (f_stage g =? 2)%Z; [|apply pq_panic]. destruct r as [x|].
    2: { apply pq_bind; [apply pq_log_if|]. intros _. apply pq_bind; [apply pq_set_stage|]. intros _. apply pq_ret. }
    apply pq_bind; [apply pq_set_stage|]. intros _. apply pq_bind.
    { destruct (e_loop E1); [|apply pq_ret]. apply pq_bind; [apply pq_code|]. intros c. apply pq_bind; [repeat tstep|]. intros push. destruct push; [apply pq_push|apply pq_ret]. }
    intros _. eapply pq_bindq; [by apply pq_grow|]. intros [[b1 p1] t1] [[b2 p2] t2] s1 s2 HS [HB HT]. cbn [fst snd] in HB, HT. injection HB as <- <-.
    refine ((_ : pqf s1 eqq _ _) s1 s2 HS (pext_refl s1)).
    apply pqf_bind; [destruct (e_loop E1); [apply pq_pop|apply pq_ret]|]. intros _. apply pqf_bind; [apply pq_wipe|]. intros _.
    apply pqf_restore; [done|]. apply pq_bind; [apply pq_set_pos|]. intros _. apply pq_bind; [apply pq_log_if|]. intros _. apply pq_bind; [apply pq_set_stage|]. intros _. apply pq_ret.
  - destruct ((f_stage f =? 1) || (f_stage f =? 2) || (f_stage f =? 3))%Z%bool; [|apply pq_panic]. apply pq_bind; [destruct (f_stage f =? 1)%Z; [apply pq_set_stage|apply pq_ret]|]. intros _.
    apply pq_bind; [apply (pq_emit (EvRec id sp))|]. intros _. apply pq_bind; [apply pq_log_if|]. intros _. apply pq_fr. intros g g' G.
    apply pq_bind; [apply pq_stk|]. intros stk.
    eapply pq_bindq; [apply pq_mark; [done|]|].
    { destruct (fs_mask _ _ G); [done|]. by apply cells_replicate. }
    intros m1 m2 s1 s2 HS HM. refine ((_ : tq _ _) s1 s2 HS). apply pq_bind; [by apply pq_set_mask|]. intros _. apply pq_fr. intros h h' H. rewrite (fs_end _ _ H), (fs_res _ _ H).
    apply pq_bind; [destruct (f_end h); [apply pq_set_pos|apply pq_ret]|]. intros _. apply pq_ret.
Qed.
Lemma pq_stack m1 m2 n n' : i_id (n_info n) < n1 -> i_id (n_info n') = pi (i_id (n_info n)) -> tq m1 m2 -> tq (stack_ m1 n) (stack_ m2 n').
Proof.
  intros H0 HI Hm. unfold stack_, stack_push. rewrite HI. apply pq_bind.
  { apply pq_bind; [by apply pq_get_frame|]. intros a s1 s2 HS. rewrite (ps_stack _ _ HS). destruct (_ <=? _); [done|]. same; [done|]. destruct HS as [? ? ? HK ? ? ? ? ?]. constructor; try done. }
  intros _. apply pq_bind; [done|]. intros r. apply pq_bind; [|intros _; apply pq_ret]. intros s1 s2 HS. same; [done|]. destruct HS as [? ? ? HK ? ? ? ? ?]. constructor; try done. cbn. by rewrite HK.
Qed.

Section Body.
Variables rec1 rec2 : node -> M (option ast).
Hypothesis Hrec : forall n n', renum n n' -> tq (rec1 n) (rec2 n').
Lemma renum_info n n' : renum n n' -> info_renum (n_info n) (n_info n').
Proof. by intros []. Qed.
Lemma renum_label n n' : renum n n' -> i_label (n_info n') = i_label (n_info n).
Proof. intros H. apply (renum_info n n' H). Qed.
Notation items := (Forall2 (fun a a' => renum a a' /\ i_capture (n_info a') = i_capture (n_info a))).
Lemma pq_seq_single l l' : items l l' -> forall acc, tq (seq_single rec1 l acc) (seq_single rec2 l' acc).
Proof.
  induction 1 as [|c c' l l' [Hc Hcc] _ IH]; intros acc; cbn [seq_single]; [apply pq_ret|]. apply pq_bind; [by apply Hrec|]. rewrite Hcc.
  intros [a|]; [apply IH|apply pq_ret].
Qed.
Lemma pq_seq_array l l' : items l l' -> forall acc, tq (seq_array rec1 l acc) (seq_array rec2 l' acc).
Proof.
  induction 1 as [|c c' l l' [Hc Hcc] _ IH]; intros acc; cbn [seq_array]; [apply pq_ret|]. apply pq_bind; [by apply Hrec|]. rewrite Hcc.
  intros [a|]; [apply IH|apply pq_ret].
Qed.
Lemma pq_seq_object l l' : items l l' -> forall acc, tq (seq_object rec1 l acc) (seq_object rec2 l' acc).
Proof.
  induction 1 as [|c c' l l' [Hc Hcc] _ IH]; intros acc; cbn [seq_object]; [apply pq_ret|]. apply pq_bind; [by apply Hrec|]. rewrite (renum_label c c' Hc).
  intros [a|]; [|apply pq_ret]. apply pq_bind; [apply pq_add_labelled|]. intros acc'. apply IH.
Qed.
Lemma pq_choice l l' : Forall2 (renum) l l' -> tq (choice_loop rec1 l) (choice_loop rec2 l').
Proof.
  induction 1 as [|c c' l l' Hc _ IH]; cbn [choice_loop]; [apply pq_ret|]. apply pq_bind; [apply pq_get_pos|]. intros p.
  apply pq_bind; [by apply Hrec|]. intros [a|]; [apply pq_ret|]. apply pq_bind; [apply pq_set_pos|]. intros _. apply IH.
Qed.
Lemma pq_pat v v' j j' mx lf : renum v v' -> option_Forall2 (renum) j j' -> forall acc,
  tq (pat_loop rec1 lf v j mx acc) (pat_loop rec2 lf v' j' mx acc).
Proof.
  intros Hv Hj. induction lf as [|lf IH]; intros acc; cbn [pat_loop]; [apply pq_fuel|]. apply pq_bind; [apply pq_get_pos|]. intros p. apply pq_bind.
  { destruct Hj as [x y Hj|]; [|apply pq_ret]. apply pq_bind; [by apply Hrec|]. intros ?. apply pq_ret. }
  intros []; [|repeat tstep]. apply pq_bind; [by apply Hrec|]. intros [a|]; [|repeat tstep]. cbn zeta. destruct (_ && _)%bool; [apply pq_ret|apply IH].
Qed.
Lemma pq_body lf n n' : renum n n' -> tq (body E1 rec1 lf n) (body E2 rec2 lf n').
Proof.
  unfold body. intros [i i' s HI|i i' s HI|i i' nm nm' HI HR|i i' t l l' HI HL|i i' l l' HI HL|i i' v v' j j' mn mx HI Hv Hj|i i' a a' HI Ha|i i' a a' HI Ha|i i' a a' HI Ha|i i' HI]; cbn [n_kind].
  - intros s1 s2 HS. rewrite (ps_code _ _ HS). destruct (c_match_string (s_code s1) s) as [[r c]| |]; try done. same; [done|]. destruct HS. by constructor.
  - rewrite Hrxe. intros s1 s2 HS. rewrite (ps_code _ _ HS). destruct (c_match_regexp (s_code s1) (e_rx E1 s)) as [[r c]| |]; try done. same; [done|]. destruct HS. by constructor.
  - specialize (Hrule nm nm' HR). unfold both_have in Hrule. destruct (e_rule E1 nm), (e_rule E2 nm'); try done.
    apply pq_peek. intros ? ? _. by apply Hrec.
  - destruct t; [by apply pq_seq_single|by apply pq_seq_array|]. destruct HL as [|x y l l' Hx HL]; [apply pq_ret|]. apply pq_seq_object. by constructor.
  - by apply pq_choice.
  - apply pq_bind; [apply pq_get_pos|]. intros p. apply pq_bind; [by apply Hrec|]. intros [a|]; [|repeat tstep].
    apply pq_bind; [by apply pq_pat|]. intros ms. repeat tstep.
  - apply pq_bind; [apply pq_get_pos|]. intros p. apply pq_bind; [by apply Hrec|]. intros x. repeat tstep.
  - apply pq_bind; [apply pq_get_pos|]. intros p. apply pq_bind; [by apply Hrec|]. intros x. repeat tstep.
  - apply pq_bind; [apply pq_get_pos|]. intros p. apply pq_bind; [by apply Hrec|]. intros x. repeat tstep.
  - apply pq_ret.
Qed.
End Body.

Lemma pq_parse : forall fuel n n', renum n n' -> tq (parse E1 fuel n) (parse E2 fuel n').
Proof.
  induction fuel as [|fuel IH]; intros n n' HT; cbn [parse]; [apply pq_fuel|].
  assert (tq (wrap E1 (parse E1 fuel) fuel n) (wrap E2 (parse E2 fuel) fuel n')) as Hw.
  { pose proof (pq_body (parse E1 fuel) (parse E2 fuel) IH fuel n n' HT) as Hb. pose proof (renum_info n n' HT) as HI.
    pose proof (pq_prepare _ _ n n' HI Hb) as Hp. unfold wrap.
    rewrite (renum_wraps _ _ HI). destruct HI as (_ & _ & -> & -> & HI).
    destruct (i_isrule (n_info n)); [|destruct (_ || _)%bool; done]. specialize (HI eq_refl). apply pq_stack; [by apply HI|by apply HI|]. by apply pq_loopify. }
  destruct HT; cbn [n_kind] in Hw |- *; try exact Hw. apply pq_ret.
Qed.
(** The report of an error. *)
Lemma frame_sim s1 s2 o : psim s1 s2 -> match frame_at (s_fheap s1) o, frame_at (s_fheap s2) o with Some f1, Some f2 => fsim f1 f2 | None, None => True | _, _ => False end.
Proof.
  intros HS. unfold frame_at. destruct o as [a|]; [|done]. pose proof (ps_fh _ _ HS) as HH. destruct (s_fheap s1 !! a) as [f1|] eqn:H1.
  - destruct (Forall2_lookup_l _ _ _ _ _ HH H1) as (f2 & -> & HF). done.
  - destruct (s_fheap s2 !! a) as [f2|] eqn:H2; [|done]. destruct (Forall2_lookup_r _ _ _ _ _ HH H2) as (f1 & H3 & _). congruence.
Qed.
Lemma cells_exists (q1 q2 : option nat -> bool) r1 r2 : (forall o, q1 o = q2 o) -> q1 None = false -> cells None r1 r2 -> existsb q1 r1 = existsb q2 r2.
Proof.
  intros Hq HN (L1 & L2 & L3 & L4). apply eq_bool_prop_intro. rewrite !Is_true_true, !existsb_exists. split.
  - intros (o & Ho & H). apply elem_of_list_In, elem_of_list_lookup in Ho as [i Hi]. assert (i < n1) by (rewrite <- L1; by eapply lookup_lt_Some).
    exists o. split; [|by rewrite <- Hq]. apply elem_of_list_In, elem_of_list_lookup. exists (pi i). by rewrite L3.
  - intros (o & Ho & H). apply elem_of_list_In, elem_of_list_lookup in Ho as [j Hj]. rewrite <- Hq in H. destruct (L4 _ _ Hj) as [->|(i & Hi & <-)]; [congruence|].
    exists o. split; [|done]. apply elem_of_list_In, elem_of_list_lookup. exists i. by rewrite <- L3.
Qed.
Lemma scan_sim s1 s2 : psim s1 s2 -> forall t1 t2, Forall2 (cells None) t1 t2 -> forall p att succ, scan_rows (s_fheap s2) t2 p att succ = scan_rows (s_fheap s1) t1 p att succ.
Proof.
  intros HS t1 t2 HF. induction HF as [|r1 r2 t1 t2 Hr HF IH]; intros p att succ; [done|]. cbn [scan_rows]. rewrite !scan_row_eq.
  rewrite <- (cells_exists (fun o => match frame_at (s_fheap s1) o with Some f => match f_res f with Some _ => true | None => false end | None => false end) _ r1 r2); [| |done|done].
  2: { intros o. pose proof (frame_sim s1 s2 o HS) as H. destruct (frame_at (s_fheap s1) o), (frame_at (s_fheap s2) o); try done. by rewrite (fs_res _ _ H). }
  rewrite <- (cells_exists (fun o => match frame_at (s_fheap s1) o with Some _ => true | None => false end) _ r1 r2); [| |done|done].
  2: { intros o. pose proof (frame_sim s1 s2 o HS) as H. by destruct (frame_at (s_fheap s1) o), (frame_at (s_fheap s2) o). }
  destruct (existsb _ r1); [apply IH|]. destruct (existsb _ r1); apply IH.
Qed.
Definition report (c : code) (p att succ : nat) : M (option ast) :=
    do! _ := lift (c_pos_to_line c (Z.of_nat succ)) in
    do! _ := lift (c_pos_to_col c (Z.of_nat succ)) in
    do! _ := lift (c_peek_lines c [(-2)%Z]) in
    do! _ := lift (c_peek_runes c (Z.of_nat succ - Z.of_nat p)) in
    set_pos succ ;!
    do! c1 := gets s_code in
    do! _ := lift (c_peek_runes c1 (Z.of_nat att - Z.of_nat (c_pos c1))) in
    set_pos att ;!
    do! c2 := gets s_code in
    do! _ := lift (c_peek_lines c2 [2%Z]) in
    ret (Some (AErr succ)).
Lemma finish_eq r s : finish r s = if c_pos (s_code s) =? c_work_length (s_code s) then Ok r s else
  let '(att, succ) := scan_rows (s_fheap s) (drop (c_pos (s_code s)) (s_frames s)) (c_pos (s_code s)) (c_pos (s_code s)) (c_pos (s_code s)) in
  report (s_code s) (c_pos (s_code s)) att succ s.
Proof. unfold finish. unfold bind at 1. unfold get. destruct (_ =? _); [done|]. by destruct (scan_rows _ _ _ _ _). Qed.
Lemma pq_report c p att succ : tq (report c p att succ) (report c p att succ).
Proof. unfold report. repeat tstep. Qed.
Lemma scans s1 s2 p : psim s1 s2 -> scan_rows (s_fheap s2) (drop p (s_frames s2)) p p p = scan_rows (s_fheap s1) (drop p (s_frames s1)) p p p.
Proof. intros HS. apply scan_sim; [done|]. apply Forall2_drop, (ps_rows _ _ HS). Qed.
Lemma pq_finish r : tq (finish r) (finish r).
Proof.
  intros s1 s2 HS. rewrite !finish_eq, (ps_code _ _ HS), (scans s1 s2 _ HS). destruct (_ =? _); [same; done|]. destruct (scan_rows _ _ _ _ _) as [att succ]. by apply pq_report.
Qed.
Lemma message_sim s1 s2 : psim s1 s2 -> state_message s2 = state_message s1.
Proof. intros HS. unfold state_message. cbn zeta. by rewrite (ps_code _ _ HS), (scans s1 s2 _ HS). Qed.
Lemma init_sim c : psim (init_st c n1) (init_st c n2).
Proof.
  constructor; try done; cbn [init_st s_frames s_fheap s_heap]; try constructor.
  - apply Forall2_replicate. by apply cells_replicate.
  - intros p row i a Hp Hi. apply lookup_replicate in Hp as [-> _]. by apply lookup_replicate in Hi as [? _].
Qed.
End Renum.

Lemma pout_like pi E1 E2 {A} s (o1 o2 : outcome A) : pout E1 E2 pi eqq s o1 o2 -> outcome_renum pi o1 o2.
Proof.
  unfold pout, outcome_renum. destruct o1, o2; try done.
  - intros (-> & [HC _ _ _ HH _ _ HL _] & _). split; [done|]. split; [done|]. split; [|done]. unfold st_pos. by rewrite HC.
  - intros [-> [_ _ _ _ _ _ _ HL _]]. done.
Qed.
Lemma renums_parse R pi g g' fuel o rx cb1 cb2 c : renums R pi g g' -> cb_like false cb1 cb2 ->
  outcome_renum pi (fst (gram_parse fuel g o rx cb1 c)) (fst (gram_parse fuel g' o rx cb2 c)) /\
  snd (gram_parse fuel g o rx cb1 c) = snd (gram_parse fuel g' o rx cb2 c) /\
  parse_message fuel g o rx cb1 c = parse_message fuel g' o rx cb2 c.
Proof.
  intros [H1 H2 H3 H4 H5 HT HR] HC. set (E1 := mk_env g o rx cb1). set (E2 := mk_env g' o rx cb2).
  assert (pout E1 E2 pi eqq (init_st c (g_nrules g)) (parse E1 fuel (g_rank g) (init_st c (g_nrules g))) (parse E2 fuel (g_rank g') (init_st c (g_nrules g')))) as HP.
  { eapply (pq_parse E1 E2 R); cbn; try done; [by rewrite H3|]. by apply (init_sim E1 E2). }
  unfold gram_parse, parse_message. fold E1 E2.
  destruct (parse E1 _ _ _) as [r1 s1|p1 s1|], (parse E2 _ _ _) as [r2 s2|p2 s2|]; try done; cbn [fst snd].
  - destruct HP as (-> & HP & _). split; [|split; [by rewrite H3|symmetry; by eapply message_sim]]. eapply pout_like. eapply (pq_finish E1 E2); [..|exact HP]; done.
  - split; [exact (pout_like pi E1 E2 (init_st c (g_nrules g)) _ _ HP)|by rewrite H3].
Qed.
