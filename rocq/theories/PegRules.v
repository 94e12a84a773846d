(** The engine computes the semantics of Peg.v: rules. *)
From stdpp Require Import sets.
From Verif Require Import Base Helpers Utf8 Utf8Proofs Stream StreamSpec StreamProofs Native NativeSpec NativeProofs
  Engine EngSpec EngInv EngMon Peg PegProofs PegRep PegInv PegBody PegCases.

Section Rules.
Variable E : env.
Variable c0 : code.
Variable root : node.
Variable cbf : nat -> nat -> val -> option (option val).
Variable R : nat -> node.
Variable par : nat -> option nat.
Notation N := (e_nrules E).
Notation L := (length (c_work c0)).
Notation G := (GI (fun _ _ => false) N c0).
Notation GR := (GR N c0 (fun _ _ => false)).
Notation peg := (peg (e_rule E) (e_rx E) cbf R par (c_work c0)).
Notation skips i := (i_skip (n_info (R i)) = true).
Notation Inv := (Inv E c0 cbf R par).
Notation reach := (reach E root).
Notation pre := (pre E c0 cbf R par).
Notation postx := (postx E c0 cbf R par).
Notation post := (postx []).
Notation ok := (ok E c0 root cbf R par).

Hypothesis Hrx : forall re, rx_ok (e_rx E re).
Hypothesis Hlines : code_lines_ok c0.
Hypothesis Hfit : ids_fit E root.
Hypothesis HR : forall n, reach n -> is_rule n -> R (i_id (n_info n)) = n.
Hypothesis Hpar : forall i F, par i = Some F -> par F = None /\ i_skip (n_info (R F)) = false.
Hypothesis Hcb : cb_pure E root cbf.
Hypothesis Hq1 : e_stack E = false.
Hypothesis Hq2 : e_loop E = false.
Hypothesis Hq3 : forall n, reach n -> i_debug (n_info n) = false.

Lemma parse_tr f n s : reach n -> G s -> s_stack s <> [] \/ is_rule n -> tr (parse E f n) s (fun _ s' => GR s s') (XP c0 E).
Proof.
  intros Hn HG Hs.
  pose proof (parse_mon_ok N c0 (fun _ _ => false) E eq_refl Hrx Hlines root Hfit ltac:(done) (fun _ _ => true) (fun _ _ _ _ => true)
    ltac:(done) ltac:(done) f n s Hn HG Hs) as HT.
  destruct (le_parse_mon E (fun _ _ => true) (fun _ _ _ _ => true) f n s) as [[s' HV]|HV].
  - unfold tr in HT. rewrite HV in HT. destruct HT as [HT _]. destruct HT. left.
  - unfold tr in *. rewrite <- HV. destruct (parse_mon _ _ _ _ _ _); [|done|done]. apply HT.
Qed.

Lemma Inv_stack P acts s stk : Inv P acts s -> stack_desc (s_fheap s) (st_pos s) stk -> Inv P acts (set_stack s stk).
Proof.
  intros HI Hd. eapply (Inv_heap _ _ _ _ _ Hpar); [exact HI| |done|done|apply hext_refl].
  destruct HI as [HG _ _ _ _ _ _ _]. destruct HG. by split.
Qed.

(** Calling a rule: the frame is on the stack while it runs. *)
Lemma ev_rule n P acts p h s t r : reach n -> n_kind n <> KUndef -> is_rule n -> pre P acts p h s -> 1 <= h ->
  (forall b s2, Inv P acts s2 -> st_pos s2 = p -> s_stack s2 = b :: s_stack s -> tab s2 p (i_id (n_info n)) b ->
     (forall a f, fr s a f -> exists f', fr s2 a f' /\ frel f f') -> s_heap s2 = s_heap s ->
     ev (fun f lf => loopify E lf (prepare_result E (body E (parse E f) f n) n) n) s2
       (fun x s3 => s_stack s3 = s_stack s2 /\ Inv P (touch t acts) s3 /\ hext (s_heap s) (s_heap s3) /\ gives P r x s3)) ->
  ev (fun f _ => parse E f n) s (post P acts t r s).
Proof.
  intros Hn Hk Hir HP Hh HL.
  eapply ev_weaken.
  { eapply (ev_tr _ _ (fun x s4 => Inv P (touch t acts) s4 /\ hext (s_heap s) (s_heap s4) /\ gives P r x s4)).
    2: { intros f lf. apply parse_tr; [done|apply HP|by right]. }
    apply ev_parse; [done|]. unfold wrap. rewrite Hir. unfold stack_.
    apply (ev_diag (fun f lf => stack_push (i_id (n_info n)) ;!
      (do! r := loopify E lf (prepare_result E (body E (parse E f) f n) n) n in stack_pop ;! ret r))).
    destruct (Inv_get_frame _ _ _ _ _ Hpar _ _ _ _ (pr_inv _ _ _ _ _ _ _ _ _ _ HP) (Hfit n Hn Hir))
      as (b & s1 & Hg & HI1 & HX1 & Hp1 & Ht1 & Hh1 & Hs1).
    pose proof (pr_pos _ _ _ _ _ _ _ _ _ _ HP) as Hpos. pose proof (pr_len _ _ _ _ _ _ _ _ _ _ HP) as Hlen.
    set (s2 := set_stack s1 (b :: s_stack s1)).
    eapply (ev_step _ (fun _ f lf => do! r := loopify E lf (prepare_result E (body E (parse E f) f n) n) n in stack_pop ;! ret r)
      s tt s2).
    { unfold stack_push. rewrite (bind_Ok _ _ _ _ _ Hg). cbn beta.
      assert (stack_limit <=? length (s_stack s1) = false) as ->; [|done]. apply Nat.leb_gt. rewrite Hs1. lia. }
    apply (ev_bind (fun f lf => loopify E lf (prepare_result E (body E (parse E f) f n) n) n) (fun r _ _ => stack_pop ;! ret r)).
    assert (Inv P acts s2) as HI2.
    { apply Inv_stack; [done|]. destruct (tab_fr _ _ _ _ _ _ _ _ _ _ _ HI1 Ht1) as (f & Hf & Hfp & _).
      exists f. split; [done|]. rewrite Hfp. split; [lia|]. rewrite <- Hp1. apply HI1. }
    eapply ev_weaken; [apply (HL b s2)|].
    - done.
    - change (st_pos s1 = p). congruence.
    - cbn. by rewrite Hs1.
    - by rewrite Hpos in Ht1.
    - intros a f Hf. by apply HX1.
    - done.
    - cbn beta. intros x s3 (K1 & K2 & K3 & K4). set (s4 := set_stack s3 (s_stack s)).
      eapply (ev_step _ (fun _ _ _ => ret x) s3 tt s4).
      { unfold stack_pop. rewrite K1. cbn. by rewrite Hs1. }
      apply ev_ret. split; [|split; [done|destruct r as [[v e]|]; done]].
      apply Inv_stack; [done|]. pose proof (gi_stk _ _ _ _ (iv_G _ _ _ _ _ _ _ _ K2)) as Hd. rewrite K1 in Hd.
      destruct Hd as (f & _ & Hd1 & Hd2). eapply stack_desc_bound; [|exact Hd1]. by rewrite <- Hs1. }
  cbn beta. intros x s4 [(K1 & K2 & K3) K4]. by split.
Qed.

(** The beginning of a cached rule. *)
Lemma stage_step P acts s b f0 : Inv P acts s -> fr s b f0 -> exists s1 f,
  (if (f_stage f0 <? 0)%Z then set_stage b 0 else ret tt) s = Ok tt s1 /\ Inv P acts s1 /\ fr s1 b f /\
  s_code s1 = s_code s /\ s_frames s1 = s_frames s /\ s_stack s1 = s_stack s /\ s_heap s1 = s_heap s /\
  (forall a g, fr s a g -> exists g', fr s1 a g' /\ f_id g' = f_id g) /\ (0 <= f_stage f)%Z.
Proof.
  intros HI Hf. pose proof (G_frame N c0 _ _ _ _ (iv_G _ _ _ _ _ _ _ _ HI) Hf) as (K0 & K1 & K2 & K3 & K4 & K5 & K6).
  destruct (Z.ltb_spec (f_stage f0) 0) as [Hlt|Hge].
  - eexists _, (fr_stage f0 0). split; [by apply set_stage_ok|].
    assert (G (set_fheap s (<[b := fr_stage f0 0]> (s_fheap s)))) as HG.
    { eapply G_put; [apply HI|done| |done|done]. split; [done|]. split; [done|]. split; [done|]. split; [done|]. split; [done|]. cbn. split; [lia|lia]. }
    split; [apply (Inv_stage0 _ _ _ _ _ Hpar); [done|done|lia|done]|]. split; [by eapply put_same|].
    split; [done|]. split; [done|]. split; [done|]. split; [done|]. split; [|done].
    intros a g Hg. destruct (decide (b = a)) as [<-|Hne].
    + exists (fr_stage f0 0). split; [by apply (put_same s b f0)|]. unfold fr in *. by simplify_eq.
    + exists g. split; [|done]. unfold fr. cbn. by rewrite list_lookup_insert_ne.
  - exists s, f0. split; [done|]. do 6 (split; [done|]). split; [eauto|lia].
Qed.

(** What follows the first evaluation of the body. *)
Definition loop_after (lf : nat) (fparse : M (option ast)) (n : node) (a sp : nat) (r : option ast) : M (option ast) :=
          do! f' := get_fr a in
          if (f_stage f' =? 1)%Z then
            set_stage a 0 ;!
            do! p := get_pos in
            cache_set a r (Some p) ;!
            log_if E false ;!
            ret r
          else if (f_stage f' =? 2)%Z then
            match r with
            | None => log_if E false ;! set_stage a 0 ;! ret None
            | Some x =>
                set_stage a 3 ;!
                ret tt ;!
                do! best := grow E lf fparse false (i_id (n_info n)) a sp x in
                let '(bres, bpos, bstash) := best in
                ret tt ;!
                do! _ := wipe_with a false in
                restore_with bstash ;!
                set_pos bpos ;!
                log_if E false ;!
                set_stage a 0 ;!
                ret (Some bres)
            end
          else panic_ (PMsg "Unexpected stage").
(** What follows a left-recursive call. *)
Definition loop_rec (n : node) (a sp : nat) (f : frame) : M (option ast) :=
      (if (f_stage f =? 1)%Z then set_stage a 2 else ret tt) ;!
      emit (EvRec (i_id (n_info n)) sp) ;!
      log_if E false ;!
      do! f1 := get_fr a in
      let mask0 := match f_mask f1 with Some m => m | None => replicate (e_nrules E) false end in
      do! stk := gets s_stack in
      do! mask := mark (tail stk) sp (i_id (n_info n)) mask0 in
      set_mask a mask ;!
      do! f2 := get_fr a in
      (match f_end f2 with Some e => set_pos e | None => ret tt end) ;!
      ret (f_res f2).
Definition loop_tail (lf : nat) (fparse : M (option ast)) (n : node) (a sp : nat) (f : frame) : M (option ast) :=
    if (f_stage f =? 0)%Z then
      match f_end f with
      | Some e => log_if E false ;! set_pos e ;! ret (f_res f)
      | None =>
          set_stage a 1 ;!
          cache_set a None None ;!
          emit (EvBody (i_id (n_info n)) sp) ;!
          do! r := fparse in
          loop_after lf fparse n a sp r
      end
    else if ((f_stage f =? 1) || (f_stage f =? 2) || (f_stage f =? 3))%Z%bool then
      loop_rec n a sp f
    else panic_ (PMsg "Unexpected stage (B)").

Lemma loopify_start n P acts p s b (fp : nat -> M (option ast)) Q : reach n -> i_skip (n_info n) = false ->
  Inv P acts s -> st_pos s = p -> tab s p (i_id (n_info n)) b ->
  (forall s1 f, Inv P acts s1 -> fr s1 b f -> s_code s1 = s_code s -> s_frames s1 = s_frames s -> s_stack s1 = s_stack s ->
     s_heap s1 = s_heap s -> (forall a g, fr s a g -> exists g', fr s1 a g' /\ f_id g' = f_id g) -> (0 <= f_stage f)%Z ->
     ev (fun f' lf => loop_tail lf (fp f') n b p f) s1 Q) ->
  ev (fun f lf => loopify E lf (fp f) n) s Q.
Proof.
  intros Hn Hsk HI Hpos Ht HK. unfold loopify. rewrite Hq1, (Hq3 _ Hn), Hsk, Hq2. cbn [orb log_if].
  eapply (ev_step (ret tt) (fun _ f lf => _)); [reflexivity|].
  destruct (tab_fr _ _ _ _ _ _ _ _ _ _ _ HI Ht) as (f0 & Hf0 & Hfp & Hfi).
  eapply (ev_step (get_frame _) (fun a f lf => _) s b s).
  { unfold get_frame. rewrite Hpos. by rewrite Ht. }
  eapply (ev_step get_pos (fun a f lf => _)); [reflexivity|].
  eapply (ev_step (get_fr b) (fun a f lf => _) s f0 s); [by apply get_fr_ok|].
  destruct (stage_step P acts s b f0 HI Hf0) as (s1 & f & Hs1 & HI1 & Hf1 & C1 & C2 & C3 & C4 & C5 & C6).
  eapply (ev_step _ (fun a f lf => _)); [exact Hs1|].
  eapply (ev_step (get_fr b) (fun a f lf => _) s1 f s1); [by apply get_fr_ok|].
  rewrite Hpos. eapply HK; try done.
Qed.

(** ** Rules that are not cached *)
Lemma seg_push acts s s2 b : seg_ok R acts s -> s_stack s2 = b :: s_stack s ->
  (forall a f, fr s a f -> exists f', fr s2 a f' /\ f_id f' = f_id f) -> (exists f, fr s2 b f /\ skips (f_id f)) -> seg_ok R acts s2.
Proof.
  destruct acts as [|A acts]; [done|]. intros (seg & rest & H1 & H2 & H3) HS HE Hb. exists (b :: seg), rest.
  split; [by rewrite HS, H1|]. split.
  - apply Forall_cons. split; [by left|]. eapply Forall_impl; [exact H2|]. cbn beta. intros c [(f & Hf & Hsk)|?]; [|by right].
    left. destruct (HE _ _ Hf) as (f' & Hf' & Hid). exists f'. split; [done|]. by rewrite Hid.
  - intros ax X tx Hin. right. by eapply H3.
Qed.

Lemma frel_id s s2 : (forall a f, fr s a f -> exists f', fr s2 a f' /\ frel f f') ->
  forall a f, fr s a f -> exists f', fr s2 a f' /\ f_id f' = f_id f.
Proof. intros H a f Hf. destruct (H _ _ Hf) as (f' & Hf' & _ & Hid & _). by exists f'. Qed.

Lemma ok_skip c n p t h r r' : n_kind n <> KUndef -> is_rule n -> is_skip n ->
  ok c (JBody n) p t h r -> prepared cbf (n_info n) r = Some r' -> ok c (JNode n) p t (S h) r'.
Proof.
  intros Hk Hir Hsk HB Hprep P acts s Hn Hc HP Hs.
  eapply ev_rule; [done|done|done|exact HP|lia|]. intros b s2 HI2 Hp2 Hs2 Ht2 Hfr2 Hh2.
  unfold loopify. rewrite Hq1, (Hq3 _ Hn), Hsk. cbn [orb log_if].
  eapply (ev_step (ret tt) (fun _ f lf => _)); [reflexivity|].
  eapply (ev_step get_pos (fun _ f lf => _)); [reflexivity|].
  eapply (ev_step (emit _) (fun _ f lf => _)); [reflexivity|].
  set (s3 := add_log s2 _).
  assert (pre P acts p h s2) as HP2.
  { destruct HP as [P1 P2 P3 P4 P5]. split; [done|done| | |].
    - eapply seg_push; [exact P3|exact Hs2|by apply frel_id|].
      destruct (tab_fr _ _ _ _ _ _ _ _ _ _ _ HI2 Ht2) as (f & Hf & _ & Hfi). exists f. split; [done|]. rewrite Hfi, HR; done.
    - rewrite Hs2. cbn. lia.
    - eapply Forall_impl; [exact P5|]. cbn. lia. }
  assert (core c0 s2 s3) as HC3.
  { split; [done|]. split; [done|]. split; [done|]. split; [done|]. intros HL. apply Forall_cons. split; [|done]. cbn. apply HI2. }
  assert (pre P acts p h s3) as HP3 by (by eapply (pre_core _ _ _ _ _ Hpar)).
  apply (ev_bind (fun f _ => prepare_result E (body E (parse E f) f n) n) (fun r f lf => _)).
  apply (ev_weaken _ _ (post P acts t r' s3)).
  - apply (ev_diag (fun f lf => prepare_result E (body E (parse E f) lf n) n)).
    eapply (prep_ev _ _ _ _ _ _ Hrx Hlines Hfit HR Hpar Hcb); [exact Hprep|done|exact HP3|by cbn; rewrite Hs2|].
    intros s4 HP4 Hs4. apply HB; [by apply reach_children|done|done|]. left. rewrite Hs4. cbn. by rewrite Hs2.
  - intros x s4 H4. eapply (ev_step (ret tt) (fun _ f lf => _)); [reflexivity|]. apply ev_ret.
    split; [by rewrite (GR_stack _ _ _ _ _ (po_GR _ _ _ _ _ _ _ _ _ _ _ _ _ H4))|].
    split; [apply H4|]. split; [rewrite <- Hh2; apply H4|apply H4].
Qed.

(** ** Left recursion *)
Lemma mark_run s sp id a f : fr s a f -> f_pos f = sp -> f_id f = id -> forall seg rest mask,
  (forall b g, fr s b g -> f_id g < N) -> length mask = N -> stack_desc (s_fheap s) sp (seg ++ a :: rest) ->
  Forall (fun b => exists g, fr s b g /\ f_id g <> id) seg ->
  exists mask', mark (seg ++ a :: rest) sp id mask s = Ok mask' s /\ length mask' = N /\
    (forall i, mask !! i = Some true -> mask' !! i = Some true) /\
    (forall b g, b ∈ seg -> fr s b g -> mask' !! f_id g = Some true) /\
    (forall i, mask' !! i = Some true -> mask !! i = Some true \/ exists b g, b ∈ seg /\ fr s b g /\ f_id g = i).
Proof.
  intros Hf Hfp Hfi. induction seg as [|b seg IH]; intros rest mask HG Hm Hd Hseg; cbn [app mark].
  - rewrite (bind_Ok _ _ _ _ _ (get_fr_ok _ _ _ Hf)). exists mask.
    assert (sp <? f_pos f = false) as -> by (apply Nat.ltb_ge; lia). rewrite Hfi, Nat.eqb_refl, orb_true_r.
    split; [done|]. split; [done|]. split; [done|]. split; [|by left]. intros b g Hb. by apply elem_of_nil in Hb.
  - apply Forall_cons in Hseg as [(g & Hg & Hgid) Hseg]. destruct Hd as (g' & Hg' & Hgp & Hd).
    assert (g' = g) as -> by (unfold fr in *; congruence).
    rewrite (bind_Ok _ _ _ _ _ (get_fr_ok _ _ _ Hg)).
    assert (sp <= f_pos g) as Hge.
    { clear IH Hseg. revert Hd. generalize (f_pos g). clear -Hf Hfp. induction seg as [|c seg IH]; intros q.
      - intros (f' & Hf' & Hq & _). unfold fr in Hf. simplify_eq. lia.
      - intros (f' & Hf' & Hq & Hd). apply IH in Hd. lia. }
    assert (sp <? f_pos g = false) as -> by (apply Nat.ltb_ge; lia).
    assert (f_pos g <? sp = false) as -> by (apply Nat.ltb_ge; lia).
    assert (f_id g =? id = false) as -> by (by apply Nat.eqb_neq).
    pose proof (HG _ _ Hg) as Hid.
    assert (length mask <=? f_id g = false) as -> by (apply Nat.leb_gt; lia). cbn [orb].
    destruct (IH rest (<[f_id g := true]> mask)) as (mask' & H1 & H2 & H3 & H4 & H5).
    + done.
    + by rewrite insert_length.
    + by eapply stack_desc_bound.
    + done.
    + exists mask'. split; [done|]. split; [done|]. split; [|split].
      * intros i Hi. apply H3. destruct (decide (f_id g = i)) as [<-|Hne]; [|by rewrite list_lookup_insert_ne].
        apply list_lookup_insert. lia.
      * intros c gc Hc Hgc. apply elem_of_cons in Hc as [->|Hc]; [|by eapply H4].
        assert (gc = g) as -> by (unfold fr in *; congruence). apply H3. apply list_lookup_insert. lia.
      * intros i Hi. destruct (H5 i Hi) as [Hmi|(c & gc & Hc & Hgc)].
        { destruct (decide (f_id g = i)) as [<-|Hne].
          - right. exists b, g. split; [left|done].
          - left. by rewrite list_lookup_insert_ne in Hmi. }
        right. exists c, gc. split; [by right|done].
Qed.

Lemma ok_seed x n p : n_kind n <> KUndef -> is_rule n -> i_skip (n_info n) = false ->
  x_id x = i_id (n_info n) -> x_pos x = p -> ok (Some x) (JNode n) p true 1 (x_seed x).
Proof.
  intros Hk Hir Hsk Hxi Hxp P acts s Hn Hc HP Hs.
  destruct acts as [|A acts]; [done|]. injection Hc as Hc.
  assert (ac_id A = i_id (n_info n)) as HAi by (rewrite <- Hxi, <- Hc; done).
  assert (ac_pos A = p) as HAp by (rewrite <- Hxp, <- Hc; done).
  assert (ac_seed A = x_seed x) as HAs by (by rewrite <- Hc).
  eapply ev_rule; [done|done|done|exact HP|lia|]. intros b s2 HI2 Hp2 Hs2 Ht2 Hfr2 Hh2.
  apply (loopify_start n P (A :: acts) p s2 b (fun f => prepare_result E (body E (parse E f) f n) n)); try done.
  intros s3 f HI3 Hf3 C1 C2 C3 C4 C5 Hst.
  assert (st_pos s3 = p) as Hp3 by (unfold st_pos in *; congruence).
  assert (tab s3 p (i_id (n_info n)) b) as Ht3 by (unfold tab; by rewrite C2).
  pose proof (act_in _ _ _ _ _ _ _ _ A HI3 ltac:(left)) as HA.
  assert (b = ac_a A) as ->.
  { pose proof (ao_tab _ _ _ _ _ _ _ _ HA) as HTA. rewrite HAi, HAp in HTA. unfold tab in *. congruence. }
  destruct (ao_fr _ _ _ _ _ _ _ _ HA) as (f' & Hf' & Hstage & Hseed & Ht0 & Ht1).
  assert (f' = f) as -> by (unfold fr in *; congruence).
  destruct (tab_fr _ _ _ _ _ _ _ _ _ _ _ HI3 Ht3) as (f' & Hf'' & Hfp & Hfi).
  assert (f' = f) as -> by (unfold fr in *; congruence).
  pose proof (iv_G _ _ _ _ _ _ _ _ HI3) as HG3.
  pose proof (G_frame N c0 _ _ _ _ HG3 Hf3) as (K0 & K1 & K2 & K3 & K4 & K5 & K6).
  unfold loop_tail. destruct (Z.eqb_spec (f_stage f) 0) as [?|_]; [lia|].
  assert (((f_stage f =? 1) || (f_stage f =? 2) || (f_stage f =? 3))%Z%bool = true) as ->.
  { destruct (Z.eqb_spec (f_stage f) 1), (Z.eqb_spec (f_stage f) 2), (Z.eqb_spec (f_stage f) 3); cbn; try done. lia. }
  unfold loop_rec.
  set (a := ac_a A) in *. set (fa := fr_stage f (if (f_stage f =? 1)%Z then 2 else f_stage f)).
  set (s4 := set_fheap s3 (<[a := fa]> (s_fheap s3))).
  eapply (ev_step _ (fun _ f lf => _) s3 tt s4).
  { unfold s4, fa. destruct (f_stage f =? 1)%Z; [by apply set_stage_ok|].
    assert (fr_stage f (f_stage f) = f) as -> by (by destruct f). rewrite list_insert_id by done. by destruct s3. }
  eapply (ev_step (emit _) (fun _ f lf => _)); [reflexivity|]. set (ev0 := EvRec _ _). set (s5 := add_log s4 ev0).
  eapply (ev_step (ret tt) (fun _ f lf => _)); [reflexivity|].
  assert (fr s5 a fa) as Hf5 by (by apply (put_same s3 a f)).
  eapply (ev_step (get_fr a) (fun _ f lf => _) s5 fa s5); [by apply get_fr_ok|]. cbv zeta.
  set (mask0 := match f_mask fa with Some m => m | None => replicate N false end).
  eapply (ev_step (gets s_stack) (fun _ f lf => _)); [reflexivity|].
  destruct (pr_seg _ _ _ _ _ _ _ _ _ _ HP) as (seg & rest & Hseg1 & Hseg2 & Hseg3).
  assert (s_stack s5 = a :: seg ++ a :: rest) as Hs5 by (change (s_stack s5) with (s_stack s3); by rewrite C3, Hs2, Hseg1).
  rewrite Hs5. cbn [tail].
  assert (forall c g, fr s c g -> exists g', fr s5 c g' /\ f_id g' = f_id g) as Hfr5.
  { intros c g Hg. destruct (frel_id _ _ Hfr2 _ _ Hg) as (g2 & Hg2 & E2). destruct (C5 _ _ Hg2) as (g3 & Hg3 & E3).
    destruct (decide (c = a)) as [->|Hne].
    - exists fa. split; [done|]. assert (g3 = f) as -> by (unfold fr in *; congruence). cbn. congruence.
    - exists g3. split; [|congruence]. unfold fr. cbn. by rewrite list_lookup_insert_ne. }
  assert (forall b g, fr s5 b g -> f_id g < N) as HidN.
  { intros c g Hg. destruct (decide (c = a)) as [->|Hne].
    - assert (g = fa) as -> by (unfold fr in *; congruence). done.
    - assert (fr s3 c g) as Hg3 by (unfold fr in Hg |- *; cbn in Hg; by rewrite list_lookup_insert_ne in Hg).
      apply (G_frame N c0 _ _ _ _ HG3 Hg3). }
  (* the parsers above the rule on the stack are not the rule *)
  assert (Forall (fun c => exists g, fr s5 c g /\ f_id g <> i_id (n_info n) /\ (par (f_id g) = Some (ac_id A) \/ skips (f_id g))) seg) as Hsegid.
  { eapply Forall_impl; [exact Hseg2|]. cbn beta. intros c [(g & Hg & Hgs)|(X & tx & Hin)].
    - destruct (Hfr5 _ _ Hg) as (g' & Hg' & Eg). exists g'. split; [done|]. rewrite Eg. split; [|by right].
      intros Hx. rewrite Hx, HR in Hgs by done. congruence.
    - pose proof (ao_in _ _ _ _ _ _ _ _ HA) as HI. rewrite Hin in HI. destruct HI as (I1 & I2 & I3 & (fx & I4 & I5) & I6).
      destruct (tab_fr _ _ _ _ _ _ _ _ _ _ _ HI3 I3) as (g & Hg & Hgp & Hgi).
      assert (X <> i_id (n_info n)) as HXn. { intros ->. rewrite <- HAi in I1. destruct (Hpar _ _ I1). congruence. }
      assert (c <> a) as Hca.
      { intros ->. assert (g = f) as -> by (unfold fr in *; congruence). congruence. }
      exists g. split; [unfold fr; cbn; by rewrite list_lookup_insert_ne|]. rewrite Hgi. split; [done|by left]. }
  assert (stack_desc (s_fheap s5) p (seg ++ a :: rest)) as Hd5.
  { assert (stack_desc (s_fheap s3) p (s_stack s3)) as Hd3 by (rewrite <- Hp3; apply HG3).
    pose proof (desc_put s3 a f fa p Hf3 eq_refl Hd3) as Hd. change (s_stack s3) with (s_stack s5) in Hd. rewrite Hs5 in Hd.
    destruct Hd as (g & Hg & Hg1 & Hg2). change (<[a:=fa]> (s_fheap s3)) with (s_fheap s5) in Hg, Hg2.
    eapply stack_desc_bound; [exact Hg2|]. exact Hg1. }
  destruct (mark_run s5 p (i_id (n_info n)) a fa Hf5 Hfp Hfi seg rest mask0) as (mask & Hmark & Hml & Hm1 & Hm2 & Hm3).
  { done. }
  { unfold mask0. destruct (f_mask fa) as [m|] eqn:EM; [by apply K4|by rewrite replicate_length]. }
  { done. }
  { eapply Forall_impl; [exact Hsegid|]. cbn beta. intros c (g & ? & ? & _). by exists g. }
  eapply (ev_step _ (fun _ f lf => _)); [exact Hmark|].
  set (fz := fr_mask fa mask). set (s6 := add_log (set_fheap s3 (<[a := fz]> (s_fheap s3))) ev0).
  eapply (ev_step _ (fun _ f lf => _) s5 tt s6).
  { rewrite (set_mask_ok s5 a fa mask Hf5). unfold s6, s5, s4. cbn. unfold set_fheap, add_log. cbn. by rewrite list_insert_insert. }
  assert (fr s6 a fz) as Hf6 by (by apply (put_same s3 a f)).
  eapply (ev_step (get_fr a) (fun _ f lf => _) s6 fz s6); [by apply get_fr_ok|].
  assert (G s6) as HG6.
  { eapply (G_core _ _ _ (set_fheap s3 (<[a := fz]> (s_fheap s3)))).
    - split; [done|]. split; [done|]. split; [done|]. split; [done|]. intros HL. apply Forall_cons. split; [|done]. cbn. rewrite <- Hp3. apply HG3.
    - eapply G_put; [done|done| |done|done]. split; [done|]. split; [done|]. split; [done|]. split; [done|].
      split; [|split; [done|]]. + cbn. by intros m [= <-]. + cbn. destruct (f_stage f =? 1)%Z; lia. }
  assert (forall i, marked s3 a i -> marked s6 a i) as Hmk.
  { intros i (g & m & Hg & Hm & Hi). assert (g = f) as -> by (unfold fr in *; congruence).
    exists fz, mask. split; [done|]. split; [done|]. apply Hm1. unfold mask0. cbn. by rewrite Hm. }
  assert (Inv P (touch true (A :: acts)) s6) as HI6.
  { eapply (Inv_head _ _ _ _ _ Hpar P A (touch1 true A) acts s3 s6 f fz); try done.
    - cbn. by destruct (ac_in A) as [[[? ?] ?]|].
    - split; [done|]. by left.
    - cbn. destruct (f_stage f =? 1)%Z; lia.
    - cbn. intros m i [= <-] Hi. rewrite Hfi. destruct (Hm3 i Hi) as [H0|(c & g & Hcs & Hg & <-)].
      + unfold mask0 in H0. cbn in H0. destruct (f_mask f) as [m|] eqn:EM.
        * rewrite <- Hfi. by eapply (iv_mask _ _ _ _ _ _ _ _ HI3).
        * apply lookup_replicate in H0 as [? _]. done.
      + rewrite Forall_forall in Hsegid. destruct (Hsegid _ Hcs) as (g' & Hg' & _ & Hor).
        assert (g' = g) as -> by (unfold fr in *; congruence). by rewrite <- HAi.
    - destruct HA as [A1 A2 A3 A4 A5 A6]. split; [done|done|done|done| |].
      + exists fz. split; [done|]. split; [cbn; destruct (f_stage f =? 1)%Z; lia|]. split; [|split].
        * cbn. by destruct (ac_seed A) as [[v e]|].
        * cbn. by rewrite orb_true_r.
        * cbn. intros _ _. destruct (Z.eqb_spec (f_stage f) 1); lia.
      + cbn. destruct (ac_in A) as [[[ax X] tx]|] eqn:EI; [|done]. destruct A6 as (I1 & I2 & I3 & (fx & I4 & I5 & I5') & I6).
        assert (ax <> a) as Hne.
        { intros ->. assert (fx = f) as -> by (unfold fr in *; congruence).
          destruct (tab_fr _ _ _ _ _ _ _ _ _ _ _ HI3 I3) as (g & Hg & _ & Hgi). assert (g = f) as -> by (unfold fr in *; congruence).
          rewrite Hfi in Hgi. rewrite <- Hgi, <- HAi in I1. destruct (Hpar _ _ I1). congruence. }
        split; [done|]. split; [done|]. split; [done|].
        assert (fr s6 ax fx) as Hax6 by (unfold fr; cbn; by rewrite list_lookup_insert_ne).
        split; [by exists fx|]. intros _ _. split; [by rewrite orb_true_r|].
        exists fz, mask. split; [done|]. split; [done|].
        destruct (tab_fr _ _ _ _ _ _ _ _ _ _ _ HI3 I3) as (g & Hg & _ & Hgi). rewrite <- Hgi. apply (Hm2 ax).
        * by eapply Hseg3.
        * unfold fr. cbn. by rewrite list_lookup_insert_ne.
    - intros i c g e Hi Htc Hg Hgs Hge Hok. cbn [touch1 ac_seed ac_t].
      eapply part_ok_mono; [exact Hok|done|]. intros HK Hout. destruct (HK Hout) as [_ HM]. split; [by rewrite orb_true_r|by apply Hmk]. }
  assert (st_pos s6 = p) as Hp6 by done.
  rewrite <- HAs. cbn [f_end f_res fz fa fr_mask fr_stage].
  assert (s_stack s6 = s_stack s2) as Hs6 by done.
  destruct (ac_seed A) as [[v e]|].
  - destruct Hseed as (He & y & Hy & Hrep). rewrite He, Hy. destruct (K3 e He) as [Ke1 Ke2].
    eapply (ev_step _ (fun _ f lf => _)); [by apply (set_pos_eq N c0 (fun _ _ => false))|]. apply ev_ret.
    split; [done|]. split; [|split].
    + eapply (Inv_heap _ _ _ _ _ Hpar); [exact HI6| |done|done|apply hext_refl]. apply G_move_ge; [done|done|]. rewrite Hp6. lia.
    + rewrite <- Hh2. cbn. rewrite C4. apply hext_refl.
    + exists y. split; [done|]. split; [done|]. apply st_pos_set_code.
  - destruct Hseed as [Hr He]. rewrite He, Hr. eapply (ev_step (ret tt) (fun _ f lf => _)); [reflexivity|]. apply ev_ret.
    split; [done|]. split; [done|]. split; [|done]. rewrite <- Hh2. cbn. rewrite C4. apply hext_refl.
Qed.

(** ** Running a body under a frame *)
Lemma ev_start {B} s b f ev0 (k : nat -> nat -> M B) Q : fr s b f ->
  ev k (add_log (set_fheap s (<[b := Frame None None 1 (f_mask f) (f_pos f) (f_id f)]> (s_fheap s))) ev0) Q ->
  ev (fun f lf => set_stage b 1 ;! cache_set b None None ;! emit ev0 ;! k f lf) s Q.
Proof.
  intros Hf HK. eapply (ev_step _ (fun _ f lf => _)); [by apply set_stage_ok|].
  eapply (ev_step _ (fun _ f lf => _)); [apply cache_set_ok; by apply (put_same s b f)|].
  eapply (ev_step (emit _) (fun _ f lf => _)); [reflexivity|]. cbn [fr_cache fr_stage f_stage f_mask f_pos f_id].
  unfold set_fheap in *. cbn [s_fheap s_code s_frames s_stack s_heap s_counter s_loopstack s_log] in *. by rewrite list_insert_insert.
Qed.
Lemma ev_end {B} s b f r (k : nat -> nat -> M B) Q : fr s b f ->
  ev k (set_fheap s (<[b := Frame r (Some (st_pos s)) 0 (f_mask f) (f_pos f) (f_id f)]> (s_fheap s))) Q ->
  ev (fun f lf => set_stage b 0 ;! do! p := get_pos in cache_set b r (Some p) ;! log_if E false ;! k f lf) s Q.
Proof.
  intros Hf HK. eapply (ev_step _ (fun _ f lf => _)); [by apply set_stage_ok|].
  eapply (ev_step get_pos (fun _ f lf => _)); [reflexivity|].
  eapply (ev_step _ (fun _ f lf => _)); [apply cache_set_ok; by apply (put_same s b f)|].
  eapply (ev_step (ret tt) (fun _ f lf => _)); [reflexivity|]. cbn [fr_cache fr_stage f_stage f_mask f_pos f_id].
  unfold set_fheap in *. cbn [s_fheap s_code s_frames s_stack s_heap s_counter s_loopstack s_log] in *. by rewrite list_insert_insert.
Qed.

Lemma G_start s b f ev0 : G s -> fr s b f -> ev_pos ev0 <= L ->
  G (set_fheap s (<[b := Frame None None 1 (f_mask f) (f_pos f) (f_id f)]> (s_fheap s))) /\
  G (add_log (set_fheap s (<[b := Frame None None 1 (f_mask f) (f_pos f) (f_id f)]> (s_fheap s))) ev0).
Proof.
  intros HG Hf Hev. pose proof (G_frame N c0 _ _ _ _ HG Hf) as (K0 & K1 & K2 & K3 & K4 & K5 & K6).
  set (s1 := set_fheap _ _). assert (G s1) as HG1.
  { eapply G_put; [done|done| |done|done]. split; [done|]. split; [done|]. split; [done|]. split; [done|]. split; [done|]. cbn. split; [lia|lia]. }
  split; [done|]. by apply (GR_emit N c0 (fun _ _ => false)).
Qed.
Lemma G_done s b f r : G s -> fr s b f -> f_pos f <= st_pos s ->
  G (set_fheap s (<[b := Frame r (Some (st_pos s)) 0 (f_mask f) (f_pos f) (f_id f)]> (s_fheap s))).
Proof.
  intros HG Hf Hge. pose proof (G_frame N c0 _ _ _ _ HG Hf) as (K0 & K1 & K2 & K3 & K4 & K5 & K6).
  eapply G_put; [done|done| |done|done]. split; [done|]. split; [done|]. split; [done|].
  split; [cbn; intros e [= <-]; split; [done|apply HG]|]. split; [done|]. cbn. split; [lia|lia].
Qed.

Lemma gives_agrees P r x s : gives P r x s -> agrees P s x (st_pos s) r.
Proof. destruct r as [[v e]|]; [|done]. intros (y & -> & Hy & <-). split; [done|]. by exists y. Qed.
Lemma agrees_gives P r x s s' e : agrees P s x e r -> st_pos s' = e -> s_heap s' = s_heap s -> gives P r x s'.
Proof. destruct r as [[v e']|]; [|done]. intros (-> & y & -> & Hy) Hp Hh. exists y. rewrite Hh. done. Qed.

(** The cached outcome. *)
Lemma ev_cached P acts s f b lf0 fp n p r e : Inv P acts s -> fr s b f -> f_stage f = 0%Z -> f_end f = Some e ->
  f_pos f = st_pos s -> agrees P s (f_res f) e r ->
  ev (fun f' lf => loop_tail (lf0 f' lf) (fp f') n b p f) s
    (fun x s3 => s_stack s3 = s_stack s /\ Inv P acts s3 /\ hext (s_heap s) (s_heap s3) /\ gives P r x s3).
Proof.
  intros HI Hf Hst He Hfp Hag. unfold loop_tail. rewrite Hst, He. cbn [Z.eqb].
  pose proof (iv_G _ _ _ _ _ _ _ _ HI) as HG.
  pose proof (G_frame N c0 _ _ _ _ HG Hf) as (K0 & K1 & K2 & K3 & K4 & K5 & K6). destruct (K3 e He) as [Ke1 Ke2].
  eapply (ev_step (ret tt) (fun _ f lf => _)); [reflexivity|].
  eapply (ev_step _ (fun _ f lf => _)); [by apply (set_pos_eq N c0 (fun _ _ => false))|]. apply ev_ret.
  split; [done|]. split; [|split].
  - eapply (Inv_heap _ _ _ _ _ Hpar); [exact HI| |done|done|apply hext_refl]. apply G_move_ge; [done|done|lia].
  - apply hext_refl.
  - eapply agrees_gives; [exact Hag|apply st_pos_set_code|done].
Qed.

(** ** Alternatives of the rule *)
Lemma ok_part x n p t h r r' : n_kind n <> KUndef -> is_rule n -> i_skip (n_info n) = false ->
  R (i_id (n_info n)) = n -> x_pos x = p -> x_in x = false -> par (i_id (n_info n)) = Some (x_id x) ->
  x_id x <> i_id (n_info n) ->
  peg (Some x) (JNode n) p t (S h) r' ->
  ok (Some (Ctx (x_id x) p (x_seed x) true)) (JBody n) p t h r -> prepared cbf (n_info n) r = Some r' ->
  ok (Some x) (JNode n) p t (S h) r'.
Proof.
  intros Hk Hir Hsk HRn Hxp Hxin Hxpar Hxne Hpeg HB Hprep P acts s Hn Hc HP Hs.
  destruct acts as [|A acts]; [done|]. injection Hc as Hc.
  assert (ac_in A = None) as HAin. { rewrite <- Hc in Hxin. cbn in Hxin. by destruct (ac_in A). }
  assert (x = Ctx (ac_id A) (ac_pos A) (ac_seed A) false) as Hx by (rewrite <- Hc; unfold act_ctx; by rewrite HAin).
  clear Hc. subst x. cbn [x_id x_pos x_seed] in *. set (X := i_id (n_info n)) in *.
  eapply ev_rule; [done|done|done|exact HP|lia|]. intros b s2 HI2 Hp2 Hs2 Ht2 Hfr2 Hh2.
  apply (loopify_start n P (A :: acts) p s2 b (fun f => prepare_result E (body E (parse E f) f n) n)); try done.
  intros s3 f HI3 Hf3 C1 C2 C3 C4 C5 Hst. fold X in Ht2.
  assert (st_pos s3 = p) as Hp3 by (unfold st_pos in *; congruence).
  assert (tab s3 p X b) as Ht3 by (unfold tab; by rewrite C2).
  destruct (tab_fr _ _ _ _ _ _ _ _ _ _ _ HI3 Ht3) as (f' & Hf'' & Hfp & Hfi).
  assert (f' = f) as -> by (unfold fr in *; congruence).
  pose proof (iv_G _ _ _ _ _ _ _ _ HI3) as HG3.
  destruct (decide (f_stage f = 0%Z)) as [Hz|Hz].
  2: { (* it cannot be running *)
    destruct (in_progress _ _ _ _ _ _ _ _ _ _ _ _ HI3 Ht3 Hf3) as (B & HB1 & HB2 & HB3); [lia|].
    pose proof (act_in _ _ _ _ _ _ _ _ B HI3 HB1) as HBok. exfalso. destruct HB3 as [[HB3 _]|[tx HB3]].
    - pose proof (ao_par _ _ _ _ _ _ _ _ HBok). congruence.
    - pose proof (ao_in _ _ _ _ _ _ _ _ HBok) as Hin. rewrite HB3 in Hin. destruct Hin as [Hin _].
      apply elem_of_cons in HB1 as [->|HB1]; [congruence|].
      eapply (key_unique _ _ _ _ _ _ A acts s3 B HI3 HB1); congruence. }
  destruct (f_end f) as [e|] eqn:He.
  - (* from the cache *)
    pose proof (iv_cache _ _ _ _ _ _ _ _ HI3 _ _ _ _ _ Ht3 Hf3 ltac:(lia) He) as Hcache. unfold cache_ok in Hcache.
    rewrite Hxpar in Hcache. destruct Hcache as [Hcache _].
    destruct (Hcache A ltac:(left) eq_refl Hxp) as (t' & h' & r0 & Hpeg' & Hag & HK).
    rewrite HRn, <- Hxp in Hpeg'. rewrite <- Hxp in Hpeg. destruct (peg_det _ _ _ _ _ _ _ _ _ _ _ _ Hpeg _ _ _ Hpeg') as (<- & _ & <-).
    eapply ev_weaken; [eapply (ev_cached P (A :: acts) s3 f b (fun _ lf => lf)); [done|done|done|exact He|congruence|exact Hag]|].
    cbn beta. intros y s4 (D1 & D2 & D3 & D4). split; [congruence|].
    split; [|split; [rewrite <- Hh2, <- C4; exact D3|exact D4]].
    (* the flags of the rule are up to date *)
    assert (ac_in (touch1 t A) = None) as HTin by (cbn; by rewrite HAin).
    destruct t; [|by rewrite touch_false].
    pose proof (act_in _ _ _ _ _ _ _ _ A D2 ltac:(left)) as HA4.
    destruct (ao_fr _ _ _ _ _ _ _ _ HA4) as (fa & Hfa & Hstage & Hseed & Hta & Htb).
    eapply (Inv_head _ _ _ _ _ Hpar P A (touch1 true A) acts s4 s4 fa fa); try done.
    + cbn. by rewrite HAin.
    + apply D2.
    + symmetry. by apply list_insert_id.
    + split; [done|]. by left.
    + lia.
    + intros m i Hm Hi. by eapply (iv_mask _ _ _ _ _ _ _ _ D2).
    + destruct HA4 as [A1 A2 A3 A4 A5 A6]. split; [done|done|done|done| |by rewrite HTin].
      exists fa. split; [done|]. split; [done|]. split; [done|]. cbn. rewrite orb_true_r. split; [done|].
      intros _ Hout. apply Htb; [|done]. by apply HK.
    + intros i c g e' Hi Htc Hg Hgs Hge Hok. cbn [touch1 ac_seed ac_t].
      eapply part_ok_mono; [exact Hok|done|]. intros HK' Hout. rewrite orb_true_r. split; [done|]. by apply HK'.
  - (* evaluated *)
    unfold loop_tail. rewrite Hz, He. cbn [Z.eqb]. eapply (ev_start s3 b f); [done|]. set (ev0 := EvBody _ _).
    destruct (G_start s3 b f ev0 HG3 Hf3) as [HG4 HG4']; [cbn; rewrite <- Hp3; apply HG3|].
    set (s4 := add_log _ _) in *.
    assert (Inv P (with_in A (Some (b, X, false)) :: acts) s4) as HI4.
    { assert (Inv P (with_in A (Some (b, X, false)) :: acts)
        (set_fheap s3 (<[b := Frame None None 1 (f_mask f) (f_pos f) (f_id f)]> (s_fheap s3)))) as HI'.
      2: { eapply (Inv_heap _ _ _ _ _ Hpar); [exact HI'|exact HG4'|done|done|apply hext_refl]. }
      rewrite <- Hxp in Ht3. eapply (Inv_enter _ _ _ _ _ Hpar); try done. by rewrite HRn. }
    set (A' := with_in A (Some (b, X, false))) in *.
    assert (forall c g, fr s c g -> exists g', fr s4 c g' /\ f_id g' = f_id g) as Hfr4.
    { intros c g Hg. destruct (frel_id _ _ Hfr2 _ _ Hg) as (g2 & Hg2 & E2). destruct (C5 _ _ Hg2) as (g3 & Hg3 & E3).
      destruct (decide (c = b)) as [->|Hne].
      - eexists. split; [by apply (put_same s3 b f)|]. assert (g3 = f) as -> by (unfold fr in *; congruence). cbn. congruence.
      - exists g3. split; [|congruence]. unfold fr. cbn. by rewrite list_lookup_insert_ne. }
    assert (pre P (A' :: acts) p h s4) as HP4.
    { destruct HP as [P1 P2 P3 P4 P5]. split; [done|done| | |].
      - destruct P3 as (seg & rest & Q1 & Q2 & Q3). exists (b :: seg), rest. split.
        + change (s_stack s4) with (s_stack s3). by rewrite C3, Hs2, Q1.
        + split.
          * apply Forall_cons. split; [right; by exists X, false|]. eapply Forall_impl; [exact Q2|]. cbn beta.
            intros c [(g & Hg & Hgs)|(X' & tx & Hin)]; [|congruence].
            left. destruct (Hfr4 _ _ Hg) as (g' & Hg' & Eg). exists g'. split; [done|]. by rewrite Eg.
          * cbn. intros ax X' tx [= <- _ _]. left.
      - change (s_stack s4) with (s_stack s3). rewrite C3, Hs2. cbn. lia.
      - apply Forall_cons in P5 as [P5 P6]. apply Forall_cons. split; [cbn; lia|]. eapply Forall_impl; [exact P6|]. cbn. lia. }
    assert (s_stack s4 = b :: s_stack s) as Hs4 by (change (s_stack s4) with (s_stack s3); by rewrite C3).
    apply (ev_bind (fun f _ => prepare_result E (body E (parse E f) f n) n) (fun r f lf => loop_after lf (prepare_result E (body E (parse E f) f n) n) n b p r)).
    apply (ev_weaken _ _ (post P (A' :: acts) t r' s4)).
    { apply (ev_diag (fun f lf => prepare_result E (body E (parse E f) lf n) n)).
      eapply (prep_ev _ _ _ _ _ _ Hrx Hlines Hfit HR Hpar Hcb); [exact Hprep|done|exact HP4|by rewrite Hs4|].
      intros s5 HP5 Hs5. apply HB; [by apply reach_children| |done|].
      - cbn. by rewrite <- Hxp.
      - left. by rewrite Hs5, Hs4. }
    intros y s5 [B1 B2 B3 B4].
    assert (touch t (A' :: acts) = touch1 t A' :: acts) as ET by done. rewrite ET in B1.
    pose proof (act_in _ _ _ _ _ _ _ _ (touch1 t A') B1 ltac:(left)) as HA5.
    pose proof (ao_in _ _ _ _ _ _ _ _ HA5) as Hin5. cbn in Hin5. destruct Hin5 as (I1 & I2 & I3 & (fx & I4 & I5 & I5') & I6).
    unfold loop_after. eapply (ev_step (get_fr b) (fun _ f lf => _) s5 fx s5); [by apply get_fr_ok|].
    rewrite I5. cbn [Z.eqb].
    destruct (tab_fr _ _ _ _ _ _ _ _ _ _ _ B1 I3) as (fx' & Hfx' & Hfxp & Hfxi).
    assert (fx' = fx) as -> by (unfold fr in *; congruence).
    assert (p <= st_pos s5) as Hge. { rewrite <- Hp3. apply B2. }
    eapply (ev_end s5 b fx); [done|]. apply ev_ret. set (s6 := set_fheap _ _).
    assert (G s6) as HG6 by (apply G_done; [apply B1|done|lia]).
    split; [|split; [|split]].
    + change (s_stack s6) with (s_stack s5). rewrite (GR_stack _ _ _ _ _ B2), Hs4. by rewrite Hs2.
    + assert (touch t (A :: acts) = with_in (touch1 t A') None :: acts) as ->.
      { cbn. unfold touch1, with_in. cbn. by rewrite HAin. }
      eapply (Inv_leave E c0 cbf R par P (touch1 t A') acts s5 X b (false || t)%bool fx y (st_pos s5) t (S h) r'); try done.
      * cbn. rewrite HRn, Hxp. rewrite Hxp in Hpeg. exact Hpeg.
      * by apply gives_agrees.
    + cbn. rewrite <- Hh2, <- C4. exact B3.
    + destruct r' as [[v e]|]; [|done]. exact B4.
Qed.

End Rules.
