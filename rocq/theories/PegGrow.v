(** The engine computes the semantics of Peg.v: rules that start a left recursion. *)
From stdpp Require Import sets.
From Verif Require Import Base Helpers Utf8 Utf8Proofs Stream StreamSpec StreamProofs Native NativeSpec NativeProofs
  Engine EngSpec EngInv EngMon Peg PegProofs PegRep PegInv PegBody PegCases PegRules.

(** ** The cache during a left recursion *)
Section Wipe.
Variable E : env.
Notation N := (e_nrules E).
Variable c0 : code.
Notation L := (length (c_work c0)).
Notation G := (GI (fun _ _ => false) N c0).

Lemma wipe_full s a f m b : G s -> fr s a f -> f_mask f = Some m -> exists t stash,
  wipe_with a b s = Ok stash (set_frames s t) /\ G (set_frames s t) /\ stash_ok N s (f_pos f) 0 stash /\
  (forall i c, stash !! i = Some (Some c) -> m !! i = Some true) /\
  (forall q i c, tab (set_frames s t) q i c <-> tab s q i c /\ ~ (q = f_pos f /\ m !! i = Some true)).
Proof.
  intros HG Hf Hm. destruct (wipe_ok N c0 (fun _ _ => false) E eq_refl s a f m b HG Hf Hm) as (stash & s' & Hw & HG' & _ & Hst).
  destruct (G_frame N c0 _ _ _ _ HG Hf) as (_ & Hp & Hi & _ & Hl & _). specialize (Hl _ Hm).
  revert Hw. unfold wipe_with. rewrite (bind_Ok _ _ _ _ _ (get_fr_ok _ _ _ Hf)), Hm.
  destruct (G_row N c0 _ s (f_pos f) HG Hp) as (row & Hrow & Hlen). rewrite Hrow, Hl, Hlen, Nat.eqb_refl. cbn [negb].
  intros [= <- <-]. eexists _, _. split; [reflexivity|]. split; [done|]. split; [done|]. split.
  - intros i c. destruct b; [|done]. intros Hx. apply lookup_zip_with_Some in Hx as (bb & o & Hx & Hb & Ho). by destruct bb.
  - intros q i c. unfold tab, table_get. cbn. destruct (decide (f_pos f = q)) as [<-|Hne].
    + rewrite list_lookup_insert by (by eapply lookup_lt_Some). rewrite Hrow. rewrite lookup_zip_with_Some. split.
      * intros (bb & o & Hx & Hb & Ho). destruct bb; [done|]. subst o. split; [done|]. intros [_ ?]. congruence.
      * intros [Hr Hno]. destruct (m !! i) as [bb|] eqn:Hb.
        -- exists bb, (Some c). destruct bb; [by destruct Hno|done].
        -- apply lookup_ge_None in Hb. apply lookup_lt_Some in Hr. lia.
    + rewrite list_lookup_insert_ne by done. split; [|by intros [? _]]. intros H. split; [done|]. intros [-> _]. done.
Qed.

Lemma restore_full sp : sp <= L -> forall l k s, G s -> stash_ok N s sp k l -> exists t,
  restore_from k l s = Ok tt (set_frames s t) /\ G (set_frames s t) /\
  (forall q i c, tab (set_frames s t) q i c -> tab s q i c \/ (q = sp /\ k <= i /\ l !! (i - k) = Some (Some c))) /\
  (forall q i c, tab s q i c -> tab (set_frames s t) q i c \/ (q = sp /\ k <= i /\ exists c', l !! (i - k) = Some (Some c'))).
Proof.
  intros Hsp. induction l as [|o l IH]; intros k s HG Hst; cbn [restore_from].
  { exists (s_frames s). assert (set_frames s (s_frames s) = s) as -> by (by destruct s). split; [done|]. split; [done|]. split; by left. }
  assert (stash_ok N s sp (S k) l) as Hst1.
  { intros j b Hb. specialize (Hst (S j) b Hb). rewrite Nat.add_succ_r in Hst. exact Hst. }
  destruct o as [a|].
  - destruct (Hst 0 a eq_refl) as [(f & Hf & Hp & Hi) Hk]. rewrite Nat.add_0_r in Hi, Hk.
    destruct (G_table_some N c0 _ s sp k HG) as [o Ho]; [done|lia|].
    set (s1 := set_frames s (table_set (s_frames s) sp k (Some a))).
    assert (G s1) as HG1.
    { apply G_frames; [done|by rewrite table_set_length|apply table_set_rows, HG|].
      intros p i b. rewrite table_get_set by congruence.
      destruct (bool_decide_reflect (sp = p)), (bool_decide_reflect (k = i)); cbn [andb];
        [|intros Hb; by apply (gi_ent _ _ _ _ HG)..].
      intros [= <-]. exists f. split; [done|]. split; congruence. }
    assert (stash_ok N s1 sp (S k) l) as Hst2 by exact Hst1.
    destruct (IH (S k) s1 HG1 Hst2) as (t & H1 & H2 & H3 & H4). exists t.
    split; [unfold bind at 1; rewrite (bind_Ok _ _ _ _ _ (get_fr_ok _ _ _ Hf)); rewrite Hp, Ho; exact H1|]. split; [exact H2|].
    assert (forall i c, k < i -> l !! (i - S k) = Some (Some c) -> (Some a :: l) !! (i - k) = Some (Some c)) as HS.
    { intros i c Hki Hl. assert (i - k = S (i - S k)) as -> by lia. done. }
    split.
    + intros q i c Ht. destruct (H3 q i c Ht) as [Ht1|(-> & Hle & Hl)].
      * unfold tab in Ht1. cbn in Ht1. rewrite table_get_set in Ht1 by congruence.
        destruct (bool_decide_reflect (sp = q)) as [->|]; [|by left]. destruct (bool_decide_reflect (k = i)) as [->|]; [|by left].
        cbn in Ht1. right. split; [done|]. split; [done|]. rewrite Nat.sub_diag. cbn. congruence.
      * right. split; [done|]. split; [lia|]. apply HS; [lia|done].
    + intros q i c Ht. destruct (decide (q = sp /\ i = k)) as [[-> ->]|Hne].
      * right. split; [done|]. split; [done|]. exists a. by rewrite Nat.sub_diag.
      * destruct (H4 q i c) as [?|(-> & Hle & c' & Hl)].
        -- unfold tab. cbn. rewrite table_get_set by congruence.
           destruct (bool_decide_reflect (sp = q)) as [->|]; [|done]. destruct (bool_decide_reflect (k = i)) as [->|]; [|done].
           by destruct Hne.
        -- by left.
        -- right. split; [done|]. split; [lia|]. exists c'. apply HS; [lia|done].
  - destruct (IH (S k) s HG Hst1) as (t & H1 & H2 & H3 & H4). exists t. split; [done|]. split; [done|].
    assert (forall i c, k < i -> l !! (i - S k) = Some (Some c) -> (None :: l) !! (i - k) = Some (Some c)) as HS.
    { intros i c Hki Hl. assert (i - k = S (i - S k)) as -> by lia. done. }
    split.
    + intros q i c Ht. destruct (H3 q i c Ht) as [?|(-> & Hle & Hl)]; [by left|]. right. split; [done|]. split; [lia|]. apply HS; [lia|done].
    + intros q i c Ht. destruct (H4 q i c Ht) as [?|(-> & Hle & c' & Hl)]; [by left|].
      right. split; [done|]. split; [lia|]. exists c'. apply HS; [lia|done].
Qed.
End Wipe.

Section Grow.
Variable E : env.
Variable c0 : code.
Variable root : node.
Variable cbf : nat -> nat -> val -> option (option val).
Variable R : nat -> node.
Variable par : nat -> option nat.
Notation N := (e_nrules E).
Notation L := (length (c_work c0)).
Notation G := (GI (fun _ _ => false) N c0).
Notation GR := (GR N c0 (fun _ _ => false)).
Notation peg := (peg (e_rule E) (e_rx E) cbf R par (c_work c0)).
Notation skips i := (i_skip (n_info (R i)) = true).
Notation Inv := (Inv E c0 cbf R par).
Notation reach := (reach E root).
Notation pre := (pre E c0 cbf R par).
Notation postx := (postx E c0 cbf R par).
Notation post := (postx []).
Notation ok := (ok E c0 root cbf R par).

Hypothesis Hrx : forall re, rx_ok (e_rx E re).
Hypothesis Hlines : code_lines_ok c0.
Hypothesis Hfit : ids_fit E root.
Hypothesis HR : forall n, reach n -> is_rule n -> R (i_id (n_info n)) = n.
Hypothesis Hpar : forall i F, par i = Some F -> par F = None /\ i_skip (n_info (R F)) = false.
Hypothesis Hcb : cb_pure E root cbf.
Hypothesis Hq1 : e_stack E = false.
Hypothesis Hq2 : e_loop E = false.
Hypothesis Hq3 : forall n, reach n -> i_debug (n_info n) = false.


Definition grow_next (f lf : nat) (id a p e : nat) (x : ast) (y : option ast) (stash : list (option nat)) (q : nat) :=
  if q <=? e then ret (x, e, stash)
  else match y with
       | None => ret (x, e, stash)
       | Some r' => grow E lf (prepare_result E (body E (parse E f) f (R id)) (R id)) false id a p r'
       end.

(** One round. *)
Lemma grow_round id v e p t h r r' P A rest s x fa stk Q :
  peg (Some (Ctx id p (Some (v, e)) false)) (JBody (R id)) p t h r ->
  ok (Some (Ctx id p (Some (v, e)) false)) (JBody (R id)) p t h r -> prepared cbf (n_info (R id)) r = Some r' ->
  reach (R id) -> ac_id A = id -> ac_pos A = p -> ac_in A = None ->
  ac_out A <> None -> Inv P (A :: rest) s -> fr s (ac_a A) fa -> f_stage fa = 3%Z -> f_mask fa <> None ->
  s_stack s = ac_a A :: stk -> st_pos s = e -> rep P (s_heap s) x v -> length (s_stack s) + h <= stack_limit ->
  Forall (fun A => h < ac_h A) (A :: rest) ->
  (forall y s5 stash f5, gives P r' y s5 -> Inv P (with_seed A (Some (v, e)) :: rest) s5 -> s_stack s5 = s_stack s ->
     fr s5 (ac_a A) f5 -> f_stage f5 = 3%Z -> f_mask f5 <> None -> stash_ok N s5 p 0 stash ->
     (forall i b, stash !! i = Some (Some b) -> par i = Some id \/ skips i) -> p <= e <= L -> hext (s_heap s) (s_heap s5) ->
     ev (fun f lf => grow_next f lf id (ac_a A) p e x y stash (st_pos s5)) s5 Q) ->
  ev (fun f lf => grow E lf (prepare_result E (body E (parse E f) f (R id)) (R id)) false id (ac_a A) p x) s Q.
Proof.
  intros Hpeg HB Hprep Hn HAi HAp HAin HAo HI Hfa Hst Hmask Hstk Hpos Hrep Hlen Hh HK.
  set (a := ac_a A) in *. destruct (f_mask fa) as [m|] eqn:Hm; [|done].
  pose proof (iv_G _ _ _ _ _ _ _ _ HI) as HG.
  pose proof (act_in _ _ _ _ _ _ _ _ A HI ltac:(left)) as HA.
  pose proof (ao_tab _ _ _ _ _ _ _ _ HA) as HAt. fold a in HAt.
  destruct (tab_fr _ _ _ _ _ _ _ _ _ _ _ HI HAt) as (fa' & Hfa' & Hfp & Hfi).
  assert (fa' = fa) as -> by (unfold fr in *; congruence).
  pose proof (G_frame N c0 _ _ _ _ HG Hfa) as (K0 & K1 & K2 & K3 & K4 & K5 & K6).
  assert (p <= e) as Hpe.
  { pose proof (gi_stk _ _ _ _ HG) as Hd. rewrite Hstk in Hd. destruct Hd as (g & Hg & Hd & _).
    assert (g = fa) as -> by (unfold fr in *; congruence). lia. }
  assert (e <= L) as HeL by (rewrite <- Hpos; apply HG).
  destruct (wipe_full E c0 s a fa m true HG Hfa Hm) as (tb & stash & Hw & HG1 & Hso & Hsm & Htab).
  set (s1 := set_frames s tb) in *.
  set (f2 := fr_cache fa (Some x) (Some e)). set (s2 := set_fheap s1 (<[a := f2]> (s_fheap s1))).
  assert (G s2) as HG2.
  { eapply G_put; [done|exact Hfa| |done|done]. split; [done|]. split; [done|]. split; [done|].
    split; [cbn; intros e0 [= <-]; lia|]. split; [done|]. split; [done|done]. }
  set (s3 := set_code s2 (c_with_pos c0 p)).
  assert (stack_desc (s_fheap s2) p (s_stack s2)) as Hdesc2.
  { cbn. apply (desc_put s1 a fa f2); [done|done|]. cbn. pose proof (gi_stk _ _ _ _ HG) as Hd. rewrite Hstk in Hd |- *.
    destruct Hd as (g & Hg & Hd & Hd'). assert (g = fa) as -> by (unfold fr in *; congruence). exists fa. split; [done|]. split; [lia|done]. }
  assert (G s3) as HG3 by (apply G_move; [done|lia|done]).
  set (s4 := add_log s3 (EvBody id p)).
  assert (st_pos s4 = p) as Hp4 by (apply st_pos_set_code).
  assert (G s4) as HG4. { apply (GR_emit N c0 (fun _ _ => false)); [done|]. cbn. lia. }
  set (A' := with_seed A (Some (v, e))).
  assert (fr s4 a f2) as Hf4 by (by apply (put_same s1 a fa)).
  assert (par (ac_id A) = None) as HparA by apply HA.
  assert (i_skip (n_info (R (ac_id A))) = false) as HskA by apply HA.
  assert (forall i, m !! i = Some true -> par i = Some id \/ skips i) as Hmi.
  { intros i Hi. rewrite <- HAi, <- Hfi. by eapply (iv_mask _ _ _ _ _ _ _ _ HI). }
  assert (forall q i c, tab s4 q i c <-> tab s q i c /\ ~ (q = f_pos fa /\ m !! i = Some true)) as Htab4 by exact Htab.
  assert (Inv P (A' :: rest) s4) as HI4.
  { eapply (Inv_head _ _ _ _ _ Hpar P A A' rest s s4 fa f2); try done.
    - cbn. by rewrite HAin.
    - split.
      + intros q i c Ht. by apply Htab4.
      + intros q i c Ht. destruct (decide (q = f_pos fa /\ m !! i = Some true)) as [[-> Hi]|Hno].
        * right. split; [done|]. rewrite HAi. by apply Hmi.
        * left. by apply Htab4.
    - cbn. lia.
    - cbn. rewrite Hm. intros m0 i [= <-] Hi. rewrite Hfi, HAi. by apply Hmi.
    - intros i (g & m0 & Hg & Hm0 & Hi). change (fr s a g) in Hg; assert (g = fa) as -> by (unfold fr in *; congruence). exists f2, m0. done.
    - destruct HA as [A1 A2 A3 A4 A5 A6]. split; [done|done|done| | |done].
      + apply Htab4. split; [done|]. intros [_ Hi]. destruct (Hmi _ Hi) as [Hx|Hx]; cbn in Hx; congruence.
      + exists f2. split; [done|]. split; [cbn; lia|]. split; [|split; [done|cbn; lia]].
        split; [done|]. by exists x.
    - intros i c g e0 Hi Htc Hg Hgs Hge (t0 & h0 & r0 & Q1 & Q2 & Q3).
      apply Htab4 in Htc as [Htc Hnm].
      assert (t0 = false) as ->.
      { destruct t0; [|done]. destruct (Q3 eq_refl HAo) as [_ (g0 & m0 & Hg0 & Hm0 & Hi0)].
        change (fr s a g0) in Hg0; assert (g0 = fa) as -> by (unfold fr in *; congruence). destruct Hnm. split; [done|]. congruence. }
      exists false, h0, r0. split; [|split; [done|done]]. cbn [A' with_seed ac_seed].
      by apply (peg_seed _ _ _ _ _ _ _ _ _ _ _ _ Q1 eq_refl _ (Some (v, e)) eq_refl). }
  assert (pre P (A' :: rest) p h s4) as HP4.
  { split; [done|done| |change (s_stack s4) with (s_stack s); done|].
    - exists [], stk. split; [done|]. split; [by apply Forall_nil|done].
    - apply Forall_cons in Hh as [H1 H2]. by apply Forall_cons. }
  (* the code *)
  assert (ev (fun f lf => do! f0 := get_fr a in
      match f_mask f0 with
      | None => panic_ (PMsg "where's my wipemask")
      | Some _ =>
          do! stash := wipe_with a true in
          do! bp := get_pos in
          cache_set a (Some x) (Some bp) ;!
          log_if E false ;!
          set_pos p ;!
          emit (EvBody id p) ;!
          do! r := prepare_result E (body E (parse E f) f (R id)) (R id) in
          do! q := get_pos in
          if q <=? bp then ret (x, bp, stash)
          else match r with
               | None => ret (x, bp, stash)
               | Some r' => grow E lf (prepare_result E (body E (parse E f) f (R id)) (R id)) false id a p r'
               end
      end) s Q) as (f0 & b0 & s0 & HQ & HE).
  2: { exists (S f0), b0, s0. split; [done|]. intros f lf Hf Hlf. destruct lf as [|lf]; [lia|]. apply HE; lia. }
  eapply (ev_step (get_fr a) (fun _ f lf => _) s fa s); [by apply get_fr_ok|]. rewrite Hm.
  eapply (ev_step (wipe_with a true) (fun _ f lf => _)); [exact Hw|].
  eapply (ev_step get_pos (fun _ f lf => _)); [reflexivity|].
  assert (st_pos s1 = e) as Hp1 by exact Hpos. rewrite Hp1.
  eapply (ev_step _ (fun _ f lf => _) s1 tt s2); [by apply (cache_set_ok s1 a fa)|].
  eapply (ev_step (ret tt) (fun _ f lf => _)); [reflexivity|].
  eapply (ev_step (set_pos p) (fun _ f lf => _) s2 tt s3); [apply (set_pos_eq N c0 (fun _ _ => false)); [done|lia]|].
  eapply (ev_step (emit _) (fun _ f lf => _) s3 tt s4); [reflexivity|].
  apply (ev_bind (fun f _ => prepare_result E (body E (parse E f) f (R id)) (R id)) (fun y f lf => do! q := get_pos in grow_next f lf id a p e x y stash q)).
  apply (ev_weaken _ _ (post P (A' :: rest) t r' s4)).
  { apply (ev_diag (fun f lf => prepare_result E (body E (parse E f) lf (R id)) (R id))).
    eapply (prep_ev _ _ _ _ _ _ Hrx Hlines Hfit HR Hpar Hcb); [exact Hprep|done|exact HP4|change (s_stack s4) with (s_stack s); by rewrite Hstk|].
    intros s5 HP5 Hs5. apply HB; [by apply reach_children| |done|].
    - cbn. unfold act_ctx. cbn. by rewrite HAi, HAp.
    - left. rewrite Hs5. change (s_stack s4) with (s_stack s). by rewrite Hstk. }
  intros y s5 [B1 B2 B3 B4].
  eapply (ev_step get_pos (fun _ f lf => _)); [reflexivity|].
  assert (touch t (A' :: rest) = A' :: rest) as ET by (cbn; by rewrite orb_true_l || done). rewrite ET in B1.
  destruct (proj2 (proj1 (proj2 B2)) a f2 Hf4) as (f5 & Hf5 & R1 & R2 & R3 & R4).
  assert (f_stage f5 = 3%Z) as Hst5. { cbn in R3. rewrite Hst in R3. unfold stage_rel in R3. lia. }
  apply (HK y s5 stash f5); try done.
  - change (s_stack s) with (s_stack s4). by apply (GR_stack _ _ _ _ _ B2).
  - apply R4. cbn. by rewrite Hm.
  - rewrite <- HAp, <- Hfp. intros j b Hb. destruct (Hso j b Hb) as [(g & Hg & Hg1 & Hg2) Hb2]. split; [|done].
    destruct (decide (b = a)) as [->|Hne].
    + assert (g = fa) as -> by (unfold fr in *; congruence). exists f5. split; [done|]. cbn in R1, R2. split; congruence.
    + destruct (proj2 (proj1 (proj2 B2)) b g) as (g' & Hg' & S1 & S2 & _).
      * cbn. by rewrite list_lookup_insert_ne.
      * exists g'. split; [done|]. split; congruence.
  - intros i b Hb. apply Hmi. by eapply Hsm.
Qed.

Lemma rep_keep P h h' x v : rep P h x v -> hext h h' -> rep P h' x v.
Proof. intros H1 H2. eapply rep_hext; [done|done|set_solver]. Qed.

Lemma ok_grow_stop id v e p t h r r' :
  peg (Some (Ctx id p (Some (v, e)) false)) (JBody (R id)) p t h r ->
  ok (Some (Ctx id p (Some (v, e)) false)) (JBody (R id)) p t h r -> prepared cbf (n_info (R id)) r = Some r' ->
  ~ longer r' e -> ok None (JGrow id v e) p false h (Some (v, e)).
Proof.
  intros Hpeg HB Hprep Hno P A rest s x fa stk Hn HAi HAp HAin HAo HI Hfa Hst Hmask Hstk Hpos Hrep Hlen Hh.
  eapply (grow_round id v e p t h r r'); try done.
  intros y s5 stash f5 Hg HI5 Hs5 Hf5 Hst5 Hm5 Hso Hsp Hpe Hx.
  assert (ev (fun _ _ => ret (x, e, stash)) s5 (fun best s' => exists v' e' bx stash, best = (bx, e', stash) /\ Some (v, e) = Some (v', e') /\ rep P (s_heap s') bx v' /\
           hext (s_heap s) (s_heap s') /\ Inv P (with_seed A (Some (v, e)) :: rest) s' /\ s_stack s' = s_stack s /\
           (exists f', fr s' (ac_a A) f' /\ f_stage f' = 3%Z /\ f_mask f' <> None) /\ stash_ok N s' p 0 stash /\
           (forall i b, stash !! i = Some (Some b) -> par i = Some id \/ skips i) /\ p <= e' <= length (c_work c0))) as HE.
  { apply ev_ret. exists v, e, x, stash. split; [done|]. split; [done|]. split; [by eapply rep_keep|]. split; [done|]. split; [done|].
    split; [done|]. split; [by exists f5|]. split; [done|]. split; [done|done]. }
  eapply ev_ext; [exact HE|]. intros f lf. unfold grow_next.
  destruct r' as [[v' e']|].
  - destruct Hg as (y' & -> & _ & Hq). assert (st_pos s5 <=? e = true) as ->; [|done]. apply Nat.leb_le. cbn in Hno. lia.
  - cbn in Hg. subst y. by destruct (st_pos s5 <=? e).
Qed.

Lemma ok_grow_more id v e p t h h' r v' e' r' :
  peg (Some (Ctx id p (Some (v, e)) false)) (JBody (R id)) p t h r ->
  ok (Some (Ctx id p (Some (v, e)) false)) (JBody (R id)) p t h r -> prepared cbf (n_info (R id)) r = Some (Some (v', e')) ->
  e < e' -> ok None (JGrow id v' e') p false h' r' -> ok None (JGrow id v e) p false (max h h') r'.
Proof.
  intros Hpeg HB Hprep Hlt HG P A rest s x fa stk Hn HAi HAp HAin HAo HI Hfa Hst Hmask Hstk Hpos Hrep Hlen Hh.
  eapply (grow_round id v e p t h r (Some (v', e'))); try done.
  - lia.
  - eapply Forall_impl; [exact Hh|]. cbn. lia.
  - intros y s5 stash f5 (y' & -> & Hy & Hq) HI5 Hs5 Hf5 Hst5 Hm5 Hso Hsp Hpe Hx.
    unfold grow_next. assert (st_pos s5 <=? e = false) as -> by (apply Nat.leb_gt; lia).
    eapply ev_weaken.
    { eapply (HG P (with_seed A (Some (v, e))) rest s5 y' f5 stk); try done.
      - by rewrite Hs5.
      - rewrite Hs5. lia.
      - apply Forall_cons in Hh as [H1 H2]. apply Forall_cons. split; [cbn; lia|]. eapply Forall_impl; [exact H2|]. cbn. lia. }
    cbn beta. intros best s' (v0 & e0 & bx & st0 & Q1 & Q2 & Q3 & Q4 & Q5 & Q6 & Q7).
    exists v0, e0, bx, st0. split; [done|]. split; [done|]. split; [done|]. split; [by eapply hext_trans|].
    split; [exact Q5|]. split; [congruence|done].
Qed.


(** ** Calling a rule *)
Lemma ok_rule c n p h r : n_kind n <> KUndef -> is_rule n -> i_skip (n_info n) = false -> R (i_id (n_info n)) = n ->
  par (i_id (n_info n)) = None -> ok None (JRule (i_id (n_info n))) p false h r -> ok c (JNode n) p false h r.
Proof.
  intros Hk Hir Hsk HRn Hp HB P acts s Hn Hc HP Hs. specialize (HB P acts s). rewrite HRn in HB. by apply HB.
Qed.

Lemma ok_run id p h t r r' H out : is_rule (R id) -> i_skip (n_info (R id)) = false -> i_id (n_info (R id)) = id ->
  n_kind (R id) <> KUndef -> peg None (JRule id) p false H out ->
  ok (Some (Ctx id p None false)) (JBody (R id)) p t h r -> prepared cbf (n_info (R id)) r = Some r' -> h < H ->
  (t = false -> out = r') ->
  (t = true -> match r' with
               | None => out = None
               | Some (v, e) => out <> None /\ exists h', h' < H /\ ok None (JGrow id v e) p false h' out
               end) ->
  ok None (JRule id) p false H out.
Proof.
  intros Hir Hsk Hid Hk Hpeg HB Hprep HhH Hout0 Hout1 P acts s Hn Hp0 HP.
  eapply (ev_rule E c0 root cbf R par Hrx Hlines Hfit HR Hpar Hq3); [done|done|done|exact HP|lia|]. rewrite touch_false, Hid. intros b s2 HI2 Hp2 Hs2 Ht2 Hfr2 Hh2.
  apply (loopify_start E c0 root cbf R par HR Hpar Hq1 Hq2 Hq3 (R id) P acts p s2 b
    (fun f => prepare_result E (body E (parse E f) f (R id)) (R id))); try done; [by rewrite Hid|].
  intros s3 f HI3 Hf3 C1 C2 C3 C4 C5 Hst.
  assert (st_pos s3 = p) as Hp3 by (unfold st_pos in *; congruence).
  assert (tab s3 p id b) as Ht3 by (unfold tab; by rewrite C2).
  destruct (tab_fr _ _ _ _ _ _ _ _ _ _ _ HI3 Ht3) as (f' & Hf'' & Hfp & Hfi).
  assert (f' = f) as -> by (unfold fr in *; congruence).
  pose proof (iv_G _ _ _ _ _ _ _ _ HI3) as HG3.
  destruct (decide (f_stage f = 0%Z)) as [Hz|Hz].
  2: { (* it cannot be running *)
    destruct (in_progress _ _ _ _ _ _ _ _ _ _ _ _ HI3 Ht3 Hf3) as (B & HB1 & HB2 & HB3); [lia|].
    pose proof (act_in _ _ _ _ _ _ _ _ B HI3 HB1) as HBok. exfalso. destruct HB3 as [[HB3 _]|[tx HB3]].
    - pose proof (ao_peg _ _ _ _ _ _ _ _ HBok) as HBp. rewrite HB2, HB3 in HBp.
      destruct (peg_det _ _ _ _ _ _ _ _ _ _ _ _ Hpeg _ _ _ HBp) as (_ & Hhh & _).
      pose proof (pr_h _ _ _ _ _ _ _ _ _ _ HP) as Hh. rewrite Forall_forall in Hh. specialize (Hh _ HB1). lia.
    - pose proof (ao_in _ _ _ _ _ _ _ _ HBok) as Hin. rewrite HB3 in Hin. destruct Hin as [Hin _]. congruence. }
  destruct (f_end f) as [e|] eqn:He.
  { (* from the cache *)
    pose proof (iv_cache _ _ _ _ _ _ _ _ HI3 _ _ _ _ _ Ht3 Hf3 ltac:(lia) He) as Hcache. unfold cache_ok in Hcache.
    rewrite Hp0 in Hcache. destruct Hcache as (h0 & r0 & Hpeg0 & Hag).
    destruct (peg_det _ _ _ _ _ _ _ _ _ _ _ _ Hpeg _ _ _ Hpeg0) as (_ & _ & <-).
    eapply ev_weaken; [eapply (ev_cached E c0 root cbf R par HR Hpar Hq3 P acts s3 f b (fun _ lf => lf)); [done|done|done|exact He|congruence|exact Hag]|].
    cbn beta. intros y s4 (D1 & D2 & D3 & D4). split; [congruence|]. split; [exact D2|].
    split; [rewrite <- Hh2, <- C4; exact D3|exact D4]. }
  (* evaluated *)
  unfold loop_tail. rewrite Hz, He. cbn [Z.eqb]. eapply (ev_start s3 b f); [done|]. set (ev0 := EvBody _ _).
  destruct (G_start E c0 root R par HR Hpar Hq3 s3 b f ev0 HG3 Hf3) as [HG4 HG4']; [cbn; rewrite <- Hp3; apply HG3|].
  set (s4 := add_log _ _) in *. set (A := Act b id p None H out false None).
  assert (Inv P (A :: acts) s4) as HI4.
  { assert (Inv P (A :: acts) (set_fheap s3 (<[b := Frame None None 1 (f_mask f) (f_pos f) (f_id f)]> (s_fheap s3)))) as HI'.
    2: { eapply (Inv_heap _ _ _ _ _ Hpar); [exact HI'|exact HG4'|done|done|apply hext_refl]. }
    by apply (Inv_push _ _ _ _ _ Hpar). }
  assert (s_stack s4 = b :: s_stack s) as Hs4 by (change (s_stack s4) with (s_stack s3); by rewrite C3).
  assert (pre P (A :: acts) p h s4) as HP4.
  { destruct HP as [P1 P2 P3 P4 P5]. split; [done|done| | |].
    - exists [], (s_stack s). split; [done|]. split; [by apply Forall_nil|done].
    - rewrite Hs4. cbn. lia.
    - apply Forall_cons. split; [cbn; lia|]. eapply Forall_impl; [exact P5|]. cbn. lia. }
  apply (ev_bind (fun f _ => prepare_result E (body E (parse E f) f (R id)) (R id)) (fun r f lf => loop_after E lf (prepare_result E (body E (parse E f) f (R id)) (R id)) (R id) b p r)).
  apply (ev_weaken _ _ (post P (A :: acts) t r' s4)).
  { apply (ev_diag (fun f lf => prepare_result E (body E (parse E f) lf (R id)) (R id))).
    eapply (prep_ev _ _ _ _ _ _ Hrx Hlines Hfit HR Hpar Hcb); [exact Hprep|done|exact HP4|by rewrite Hs4|].
    intros s5 HP5 Hs5. apply HB; [by apply reach_children|done|done|]. left. by rewrite Hs5, Hs4. }
  intros y s5 [B1 B2 B3 B4]. change (touch t (A :: acts)) with (Act b id p None H out t None :: acts) in B1.
  set (A5 := Act b id p None H out t None) in *.
  pose proof (act_in _ _ _ _ _ _ _ _ A5 B1 ltac:(left)) as HA5.
  destruct (ao_fr _ _ _ _ _ _ _ _ HA5) as (fx & Hfx & Hstx & [Hsr Hse] & Htf & Htt). cbn [A5 ac_a ac_t ac_out] in Hfx, Htf, Htt.
  destruct (tab_fr _ _ _ _ _ _ _ _ _ _ _ B1 (ao_tab _ _ _ _ _ _ _ _ HA5)) as (fx' & Hfx' & Hfxp & Hfxi). cbn [A5 ac_pos ac_id ac_a] in Hfx', Hfxp, Hfxi.
  assert (fx' = fx) as -> by (unfold fr in *; congruence).
  assert (p <= st_pos s5) as Hge. { rewrite <- Hp3. apply B2. }
  assert (fr s4 b (Frame None None 1 (f_mask f) (f_pos f) (f_id f))) as Hf4 by (by apply (put_same s3 b f)).
  destruct (proj2 (proj1 (proj2 B2)) _ _ Hf4) as (fx' & Hfx'' & _ & _ & R3 & _).
  assert (fx' = fx) as -> by (unfold fr in *; congruence).
  assert (f_stage fx = 1 \/ f_stage fx = 2)%Z as Hstx' by (cbn in R3; unfold stage_rel in R3; lia). clear R3 Hfx''.
  pose proof (iv_G _ _ _ _ _ _ _ _ B1) as HG5.
  pose proof (G_frame N c0 _ _ _ _ HG5 Hfx) as (K0 & K1 & K2 & K3 & K4 & K5 & K6).
  assert (s_stack s5 = b :: s_stack s) as Hs5 by (by rewrite (GR_stack _ _ _ _ _ B2)).
  unfold loop_after. eapply (ev_step (get_fr b) (fun _ f lf => _) s5 fx s5); [by apply get_fr_ok|].
  destruct Hstx' as [Hs1|Hs1']; rewrite ?Hs1, ?Hs1'; cbn [Z.eqb Pos.eqb].
  - (* no left recursion that matters *)
    assert (out = r') as ->.
    { destruct t; [|by apply Hout0]. specialize (Hout1 eq_refl). destruct r' as [[v e]|]; [|done].
      destruct Hout1 as [Hne _]. specialize (Htt eq_refl Hne). lia. }
    eapply (ev_end E s5 b fx); [done|]. apply ev_ret. set (s6 := set_fheap _ _).
    assert (G s6) as HG6 by (apply (G_done E c0 root R par HR Hpar Hq3); [done|done|lia]).
    split; [|split; [|split]].
    + change (s_stack s6) with (s_stack s5). by rewrite Hs5, Hs2.
    + eapply (Inv_pop _ _ _ _ _ Hpar P A5 acts s5 s6 fx); try done; [by left|by left|]. cbn. by apply gives_agrees.
    + cbn. rewrite <- Hh2, <- C4. exact B3.
    + destruct r' as [[v e]|]; [|done]. exact B4.
  - (* a left recursion *)
    destruct t; [|specialize (Htf eq_refl); lia]. specialize (Hout1 eq_refl).
    destruct r' as [[v e]|].
    2: { cbn in B4. subst y out. eapply (ev_step (ret tt) (fun _ f lf => _)); [reflexivity|].
      eapply (ev_step _ (fun _ f lf => _)); [by apply set_stage_ok|]. apply ev_ret. set (s6 := set_fheap _ _).
      split; [by rewrite Hs2|]. split; [|split; [|done]].
      - eapply (Inv_pop _ _ _ _ _ Hpar P A5 acts s5 s6 fx (fr_stage fx 0)); try done; [|by left|by left|by cbn; rewrite Hse].
        eapply G_put; [done|done| |done|done]. split; [done|]. split; [done|]. split; [done|]. split; [done|]. split; [done|]. cbn. split; [lia|lia].
      - cbn. rewrite <- Hh2, <- C4. exact B3. }
    destruct Hout1 as (Hne & h' & Hh' & HGr). destruct B4 as (y' & -> & Hy & Hq).
    eapply (ev_step _ (fun _ f lf => _)); [by apply set_stage_ok|]. set (s6 := set_fheap _ _).
    eapply (ev_step (ret tt) (fun _ f lf => _)); [reflexivity|].
    assert (f_mask fx <> None) as Hmx by (apply K5; by left).
    assert (G s6) as HG6.
    { eapply G_put; [done|done| |done|done]. split; [done|]. split; [done|]. split; [done|]. split; [done|]. split; [done|]. cbn. split; [done|lia]. }
    assert (fr s6 b (fr_stage fx 3)) as Hf6 by (by apply (put_same s5 b fx)).
    assert (Inv P (A5 :: acts) s6) as HI6.
    { eapply (Inv_head _ _ _ _ _ Hpar P A5 A5 acts s5 s6 fx (fr_stage fx 3)); try done.
      - split; [done|]. by left.
      - intros m i Hm Hi. by eapply (iv_mask _ _ _ _ _ _ _ _ B1).
      - intros i (g & m & Hg & Hm & Hi). change (fr s5 b g) in Hg. assert (g = fx) as -> by (unfold fr in *; congruence).
        exists (fr_stage fx 3), m. done.
      - destruct HA5 as [A1 A2 A3 A4 A6 A7]. split; [done|done|done|done| |done].
        exists (fr_stage fx 3). split; [done|]. split; [cbn; lia|]. split; [done|]. split; [done|cbn; lia].
      - intros i c g e' Hi Htc Hg Hgs Hge' Hok. eapply part_ok_mono; [exact Hok|done|]. intros HK Ho. destruct (HK Ho) as [HK1 (g0 & m & Hg0 & Hm & Hi0)].
        split; [done|]. change (fr s5 b g0) in Hg0. assert (g0 = fx) as -> by (unfold fr in *; congruence). exists (fr_stage fx 3), m. done. }
    apply (ev_bind (fun f lf => grow E lf (prepare_result E (body E (parse E f) f (R id)) (R id)) false (i_id (n_info (R id))) b p y')
      (fun best f lf => let '(bres, bpos, bstash) := best in
                ret tt ;!
                do! _ := wipe_with b false in
                restore_with bstash ;!
                set_pos bpos ;!
                log_if E false ;!
                set_stage b 0 ;!
                ret (Some bres))).
    rewrite Hid. eapply ev_weaken.
    { eapply (HGr P A5 acts s6 y' (fr_stage fx 3) (s_stack s)); try done.
      - change (s_stack s6) with (s_stack s5). rewrite Hs5. cbn. pose proof (pr_len _ _ _ _ _ _ _ _ _ _ HP). lia.
      - apply Forall_cons. split; [cbn; lia|]. eapply Forall_impl; [apply (pr_h _ _ _ _ _ _ _ _ _ _ HP)|]. cbn. lia. }
    cbn beta. intros best s7 (v' & e' & bx & stash & -> & Hout & Hbx & Hx7 & HI7 & Hs7 & (f7 & Hf7 & Hst7 & Hm7) & Hso & Hsp & Hpe).
    change (ac_a A5) with b in Hf7. destruct (f_mask f7) as [m7|] eqn:Em7; [|done].
    pose proof (iv_G _ _ _ _ _ _ _ _ HI7) as HG7.
    pose proof (act_in _ _ _ _ _ _ _ _ (with_seed A5 out) HI7 ltac:(left)) as HA7.
    destruct (tab_fr _ _ _ _ _ _ _ _ _ _ _ HI7 (ao_tab _ _ _ _ _ _ _ _ HA7)) as (f7' & Hf7' & Hf7p & Hf7i). cbn [A5 with_seed ac_pos ac_id ac_a] in Hf7', Hf7p, Hf7i.
    assert (f7' = f7) as -> by (unfold fr in *; congruence).
    destruct (ao_fr _ _ _ _ _ _ _ _ HA7) as (f7' & Hf7'' & _ & Hseed7 & _ & _). cbn [A5 with_seed ac_seed ac_a] in Hf7'', Hseed7.
    assert (f7' = f7) as -> by (unfold fr in *; congruence). rewrite Hout in Hseed7. destruct Hseed7 as (Hend7 & y7 & Hy7 & Hry7).
    eapply (ev_step (ret tt) (fun _ f lf => _)); [reflexivity|].
    destruct (wipe_full E c0 s7 b f7 m7 false HG7 Hf7 Em7) as (tb8 & stash8 & Hw & HG8 & _ & _ & Htab8).
    eapply (ev_step (wipe_with b false) (fun _ f lf => _)); [exact Hw|]. set (s8 := set_frames s7 tb8) in *.
    destruct (restore_full E c0 p ltac:(lia) stash 0 s8 HG8 Hso) as (tb9 & Hr & HG9 & Htab9 & Htab9').
    eapply (ev_step (restore_with stash) (fun _ f lf => _)); [exact Hr|]. set (s9 := set_frames s8 tb9) in *.
    eapply (ev_step (set_pos e') (fun _ f lf => _)); [apply (set_pos_eq N c0 (fun _ _ => false)); [done|lia]|].
    eapply (ev_step (ret tt) (fun _ f lf => _)); [reflexivity|].
    set (s10 := set_code s9 _). eapply (ev_step _ (fun _ f lf => _)); [by apply (set_stage_ok s10 b f7)|].
    apply ev_ret. set (s11 := set_fheap _ _).
    assert (st_pos s10 = e') as Hp10 by (apply st_pos_set_code).
    assert (G s10) as HG10.
    { apply G_move; [done|lia|]. change (stack_desc (s_fheap s7) e' (s_stack s7)). pose proof (gi_stk _ _ _ _ HG7) as Hd.
      rewrite Hs7 in Hd |- *. change (s_stack s6) with (s_stack s5) in Hd |- *. rewrite Hs5 in Hd |- *.
      destruct Hd as (g & Hg & Hd1 & Hd2). exists g. split; [done|]. split; [|done]. assert (g = f7) as -> by (unfold fr in *; congruence). lia. }
    assert (G s11) as HG11.
    { pose proof (G_frame N c0 _ _ _ _ HG7 Hf7) as (J0 & J1 & J2 & J3 & J4 & J5 & J6).
      eapply G_put; [done|exact Hf7| |done|done]. split; [done|]. split; [done|]. split; [done|]. split; [done|]. split; [done|]. cbn. split; [lia|lia]. }
    assert (forall i, m7 !! i = Some true -> par i = Some id \/ skips i) as Hmi.
    { intros i Hi. rewrite <- Hf7i. by eapply (iv_mask _ _ _ _ _ _ _ _ HI7). }
    split; [|split; [|split]].
    + change (s_stack s11) with (s_stack s7). rewrite Hs7. change (s_stack s6) with (s_stack s5). by rewrite Hs5, Hs2.
    + eapply (Inv_pop _ _ _ _ _ Hpar P (with_seed A5 out) acts s7 s11 f7 (fr_stage f7 0)); try done.
      * intros q i c Ht. destruct (Htab9 q i c Ht) as [Ht8|(-> & _ & Hl)].
        -- left. by apply Htab8.
        -- right. split; [done|]. split; [cbn; by rewrite Hend7|]. rewrite Nat.sub_0_r in Hl. by eapply Hsp.
      * intros q i c Ht. destruct (decide (q = f_pos f7 /\ m7 !! i = Some true)) as [[-> Hi]|Hno].
        -- right. split; [done|]. by apply Hmi.
        -- destruct (Htab9' q i c) as [?|(-> & _ & c' & Hl)]; [by apply Htab8|by left|].
           right. split; [done|]. rewrite Nat.sub_0_r in Hl. by eapply Hsp.
      * cbn. rewrite Hend7, Hy7, Hout. split; [done|]. by exists y7.
    + change (s_heap s11) with (s_heap s7). eapply hext_trans; [|exact Hx7].
      change (s_heap s6) with (s_heap s5). rewrite <- Hh2, <- C4. exact B3.
    + rewrite Hout. exists bx. done.
Qed.

Lemma ok_once id p h r r' : is_rule (R id) -> i_skip (n_info (R id)) = false -> i_id (n_info (R id)) = id ->
  n_kind (R id) <> KUndef -> peg None (JRule id) p false (S h) r' ->
  ok (Some (Ctx id p None false)) (JBody (R id)) p false h r -> prepared cbf (n_info (R id)) r = Some r' ->
  ok None (JRule id) p false (S h) r'.
Proof. intros. eapply (ok_run id p h false r r'); try done. lia. Qed.
Lemma ok_rec_fail id p h r : is_rule (R id) -> i_skip (n_info (R id)) = false -> i_id (n_info (R id)) = id ->
  n_kind (R id) <> KUndef -> peg None (JRule id) p false (S h) None ->
  ok (Some (Ctx id p None false)) (JBody (R id)) p true h r -> prepared cbf (n_info (R id)) r = Some None ->
  ok None (JRule id) p false (S h) None.
Proof. intros. eapply (ok_run id p h true r None); try done. lia. Qed.
Lemma ok_rec id p h h' r v e r' : is_rule (R id) -> i_skip (n_info (R id)) = false -> i_id (n_info (R id)) = id ->
  n_kind (R id) <> KUndef -> peg None (JRule id) p false (S (max h h')) r' ->
  ok (Some (Ctx id p None false)) (JBody (R id)) p true h r -> prepared cbf (n_info (R id)) r = Some (Some (v, e)) ->
  r' <> None -> ok None (JGrow id v e) p false h' r' -> ok None (JRule id) p false (S (max h h')) r'.
Proof. intros. eapply (ok_run id p h true r (Some (v, e))); try done; [lia|]. intros _. split; [done|]. exists h'. split; [lia|done]. Qed.

End Grow.
