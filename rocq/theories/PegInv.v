(** What the engine's tables mean while it computes the semantics of Peg.v. *)
From stdpp Require Import sets.
From Verif Require Import Base Helpers Utf8 Utf8Proofs Stream StreamSpec StreamProofs Native NativeSpec NativeProofs
  Engine EngSpec EngInv Peg PegProofs PegRep.

(** An active rule: the address of its frame, id, start position, current seed,
    nesting depth and outcome of the evaluation in progress, whether its seed
    was consulted, and the alternative-as-rule it is in (address, id, whether
    the seed was consulted inside). *)
Record act := Act {
  ac_a : nat; ac_id : nat; ac_pos : nat; ac_seed : result; ac_h : nat; ac_out : result;
  ac_t : bool; ac_in : option (nat * nat * bool) }.

Definition in_addr (o : option (nat * nat * bool)) : list nat :=
  match o with Some (ax, _, _) => [ax] | None => [] end.
Definition act_addrs (A : act) : list nat := ac_a A :: in_addr (ac_in A).
Definition addrs (acts : list act) : list nat := mjoin (act_addrs <$> acts).

Definition act_ctx (A : act) : ctx :=
  Ctx (ac_id A) (ac_pos A) (ac_seed A) (match ac_in A with Some _ => true | None => false end).
Definition ctx_of (acts : list act) : option ctx := act_ctx <$> head acts.

Definition touch1 (t : bool) (A : act) : act :=
  Act (ac_a A) (ac_id A) (ac_pos A) (ac_seed A) (ac_h A) (ac_out A) (ac_t A || t)
      (match ac_in A with Some (ax, X, tx) => Some (ax, X, (tx || t)%bool) | None => None end).
Definition touch (t : bool) (acts : list act) : list act :=
  match acts with [] => [] | A :: r => touch1 t A :: r end.

Lemma touch1_false A : touch1 false A = A.
Proof. destruct A as [a i p sd h o t inn]. unfold touch1. cbn. rewrite orb_false_r. by destruct inn as [[[? ?] ?]|]; rewrite ?orb_false_r. Qed.
Lemma touch_false acts : touch false acts = acts.
Proof. destruct acts; [done|]. cbn. by rewrite touch1_false. Qed.
Lemma touch_touch t t' acts : touch t' (touch t acts) = touch (t || t') acts.
Proof.
  destruct acts as [|[a i p sd h o tt inn] r]; [done|]. cbn. unfold touch1. cbn.
  rewrite orb_assoc. by destruct inn as [[[? ?] ?]|]; rewrite ?orb_assoc.
Qed.
Lemma touch_ctx t acts : ctx_of (touch t acts) = ctx_of acts.
Proof. destruct acts as [|[a i p sd h o tt inn] r]; [done|]. unfold ctx_of, act_ctx. cbn. by destruct inn as [[[? ?] ?]|]. Qed.
Lemma touch_addrs t acts : addrs (touch t acts) = addrs acts.
Proof. destruct acts as [|[a i p sd h o tt inn] r]; [done|]. unfold addrs. cbn. by destruct inn as [[[? ?] ?]|]. Qed.

Definition fr (s : st) (b : nat) (f : frame) : Prop := s_fheap s !! b = Some f.
Definition tab (s : st) (p i b : nat) : Prop := table_get (s_frames s) p i = Some (Some b).
Definition marked (s : st) (b i : nat) : Prop :=
  exists f m, fr s b f /\ f_mask f = Some m /\ m !! i = Some true.
(** The rule has its outcome in the cache. *)
Definition cached (s : st) (i p : nat) : Prop :=
  exists b f e, tab s p i b /\ fr s b f /\ (f_stage f <= 0)%Z /\ f_end f = Some e.

Section Inv.
Variable E : env.
Variable c0 : code.
Variable cbf : nat -> nat -> val -> option (option val).
Variable R : nat -> node.
Variable par : nat -> option nat.
Notation N := (e_nrules E).
Notation G := (GI (fun _ _ => false) N c0).
Notation peg := (peg (e_rule E) (e_rx E) cbf R par (c_work c0)).
Notation skips i := (i_skip (n_info (R i)) = true).
(** Parts belong to rules that are not parts. *)
Hypothesis Hpar : forall i F, par i = Some F -> par F = None /\ i_skip (n_info (R F)) = false.

Definition agrees (P : list nat) (s : st) (res : option ast) (e : nat) (r : result) : Prop :=
  match r with
  | None => res = None
  | Some (v, e') => e' = e /\ exists y, res = Some y /\ rep P (s_heap s) y v
  end.

Definition seed_ok (P : list nat) (s : st) (f : frame) (sd : result) : Prop :=
  match sd with
  | None => f_res f = None /\ f_end f = None
  | Some (v, e) => f_end f = Some e /\ exists y, f_res f = Some y /\ rep P (s_heap s) y v
  end.

Record act_ok (P : list nat) (s : st) (A : act) : Prop := {
  ao_par : par (ac_id A) = None;
  ao_skip : i_skip (n_info (R (ac_id A))) = false;
  ao_peg : peg None (JRule (ac_id A)) (ac_pos A) false (ac_h A) (ac_out A);
  ao_tab : tab s (ac_pos A) (ac_id A) (ac_a A);
  ao_fr : exists f, fr s (ac_a A) f /\ (1 <= f_stage f <= 3)%Z /\ seed_ok P s f (ac_seed A) /\
    (ac_t A = false -> f_stage f = 1%Z) /\ (ac_t A = true -> ac_out A <> None -> (2 <= f_stage f)%Z);
  ao_in : match ac_in A with
    | None => True
    | Some (ax, X, tx) => par X = Some (ac_id A) /\ i_skip (n_info (R X)) = false /\ tab s (ac_pos A) X ax /\
        (exists fx, fr s ax fx /\ f_stage fx = 1%Z /\ f_end fx = None) /\
        (tx = true -> ac_out A <> None -> ac_t A = true /\ marked s (ac_a A) X)
    end }.

(** A cached outcome of rule [i] at [p] is right. *)
Definition part_ok (P : list nat) (s : st) (F p i : nat) (sd : result) (res : option ast) (e : nat) (K : Prop) : Prop :=
  exists t h r, peg (Some (Ctx F p sd false)) (JNode (R i)) p t h r /\ agrees P s res e r /\ (t = true -> K).
Definition cache_ok (P : list nat) (acts : list act) (s : st) (p i : nat) (res : option ast) (e : nat) : Prop :=
  match par i with
  | None => exists h r, peg None (JRule i) p false h r /\ agrees P s res e r
  | Some F =>
      (forall A, A ∈ acts -> ac_id A = F -> ac_pos A = p ->
         part_ok P s F p i (ac_seed A) res e (ac_out A <> None -> ac_t A = true /\ marked s (ac_a A) i)) /\
      ((forall A, A ∈ acts -> ac_id A = F -> ac_pos A <> p) -> cached s F p \/
         part_ok P s F p i None res e (forall h r, peg None (JRule F) p false h r -> r = None))
  end.

Record Inv (P : list nat) (acts : list act) (s : st) : Prop := {
  iv_G : G s;
  iv_P : Forall (fun a => a < length (s_heap s)) P;
  iv_nd : NoDup (addrs acts);
  iv_acts : Forall (act_ok P s) acts;
  iv_prog : forall b f, fr s b f -> (1 <= f_stage f)%Z -> b ∈ addrs acts;
  iv_skip : forall b f, fr s b f -> skips (f_id f) -> f_end f = None;
  iv_mask : forall b f m i, fr s b f -> f_mask f = Some m -> m !! i = Some true -> par i = Some (f_id f) \/ skips i;
  iv_cache : forall p i b f e, tab s p i b -> fr s b f -> (f_stage f <= 0)%Z -> f_end f = Some e ->
    cache_ok P acts s p i (f_res f) e }.

(** ** Basic facts *)
Lemma tab_fr P acts s p i b : Inv P acts s -> tab s p i b -> exists f, fr s b f /\ f_pos f = p /\ f_id f = i.
Proof. intros HI. apply (gi_ent _ _ _ _ (iv_G _ _ _ HI)). Qed.

Lemma act_addr_stage P s A b : act_ok P s A -> b ∈ act_addrs A -> exists f, fr s b f /\ (1 <= f_stage f)%Z.
Proof.
  intros HA Hb. apply elem_of_cons in Hb as [->|Hb].
  - destruct (ao_fr _ _ _ HA) as (f & Hf & Hs & _). exists f. split; [done|lia].
  - pose proof (ao_in _ _ _ HA) as HI. destruct (ac_in A) as [[[ax X] tx]|]; [|by apply elem_of_nil in Hb].
    apply elem_of_list_singleton in Hb as ->. destruct HI as (_ & _ & _ & (fx & Hfx & Hs & _) & _). exists fx. split; [done|lia].
Qed.
Lemma addr_stage P acts s b : Inv P acts s -> b ∈ addrs acts -> exists f, fr s b f /\ (1 <= f_stage f)%Z.
Proof.
  intros HI Hb. apply elem_of_list_join in Hb as (l & Hb & Hl). apply elem_of_list_fmap in Hl as (A & -> & HA).
  eapply act_addr_stage; [|exact Hb]. pose proof (iv_acts _ _ _ HI) as H. rewrite Forall_forall in H. by apply H.
Qed.
Lemma act_in P acts s A : Inv P acts s -> A ∈ acts -> act_ok P s A.
Proof. intros HI HA. pose proof (iv_acts _ _ _ HI) as H. rewrite Forall_forall in H. by apply H. Qed.

(** The rule whose frame is in progress is one of the active ones. *)
Lemma in_progress P acts s p i b f : Inv P acts s -> tab s p i b -> fr s b f -> (1 <= f_stage f)%Z ->
  exists A, A ∈ acts /\ ac_pos A = p /\ ((ac_id A = i /\ ac_a A = b) \/ exists tx, ac_in A = Some (b, i, tx)).
Proof.
  intros HI Ht Hf Hs. pose proof (iv_prog _ _ _ HI _ _ Hf Hs) as Hb.
  apply elem_of_list_join in Hb as (l & Hb & Hl). apply elem_of_list_fmap in Hl as (A & -> & HA).
  pose proof (act_in _ _ _ _ HI HA) as HOK. exists A. split; [done|].
  destruct (tab_fr _ _ _ _ _ _ HI Ht) as (f1 & Hf1 & Hp & Hi). assert (f1 = f) as -> by (unfold fr in *; congruence).
  apply elem_of_cons in Hb as [->|Hb].
  - destruct (tab_fr _ _ _ _ _ _ HI (ao_tab _ _ _ HOK)) as (f2 & Hf2 & Hp2 & Hi2).
    assert (f2 = f) as -> by (unfold fr in *; congruence). split; [congruence|]. left. split; [congruence|done].
  - pose proof (ao_in _ _ _ HOK) as Hin. destruct (ac_in A) as [[[ax X] tx]|] eqn:EI; [|by apply elem_of_nil in Hb].
    apply elem_of_list_singleton in Hb as ->. destruct Hin as (_ & _ & Htx & _).
    destruct (tab_fr _ _ _ _ _ _ HI Htx) as (f2 & Hf2 & Hp2 & Hi2).
    assert (f2 = f) as -> by (unfold fr in *; congruence). split; [congruence|]. right. exists tx. by simplify_eq.
Qed.

Lemma head_not_in A rest b : NoDup (addrs (A :: rest)) -> b ∈ act_addrs A -> b ∉ addrs rest.
Proof. intros H Hb Hr. change (NoDup (act_addrs A ++ addrs rest)) in H. apply NoDup_app in H as (_ & H & _). by apply (H b). Qed.
Lemma other_act rest B b : B ∈ rest -> b ∈ act_addrs B -> b ∈ addrs rest.
Proof. intros HB Hb. apply elem_of_list_join. exists (act_addrs B). split; [done|]. apply elem_of_list_fmap. by exists B. Qed.
(** Active rules have different ids or positions. *)
Lemma key_unique P A rest s B : Inv P (A :: rest) s -> B ∈ rest -> ac_id B = ac_id A -> ac_pos B <> ac_pos A.
Proof.
  intros HI HB Hid Hpos.
  pose proof (act_in _ _ _ A HI ltac:(left)) as HA. pose proof (act_in _ _ _ B HI ltac:(by right)) as HOB.
  pose proof (ao_tab _ _ _ HA) as T1. pose proof (ao_tab _ _ _ HOB) as T2. rewrite Hid, Hpos in T2.
  unfold tab in *. assert (ac_a A = ac_a B) as Ea by congruence.
  apply (head_not_in A rest (ac_a A) (iv_nd _ _ _ HI)); [left|]. eapply other_act; [exact HB|]. rewrite Ea. left.
Qed.

(** ** Preservation *)
Lemma seed_ok_mono P P' s s' f sd : seed_ok P s f sd -> (forall x v, rep P (s_heap s) x v -> rep P' (s_heap s') x v) -> seed_ok P' s' f sd.
Proof. intros H HR. destruct sd as [[v e]|]; [|done]. destruct H as (H1 & y & H2 & H3). split; [done|]. eauto. Qed.
Lemma agrees_mono P P' s s' res e r : agrees P s res e r -> (forall x v, rep P (s_heap s) x v -> rep P' (s_heap s') x v) -> agrees P' s' res e r.
Proof. intros H HR. destruct r as [[v e']|]; [|done]. destruct H as (H1 & y & H2 & H3). split; [done|]. eauto. Qed.

Lemma act_ok_mono P P' s s' A : act_ok P s A ->
  (forall i b, tab s (ac_pos A) i b -> b ∈ act_addrs A -> tab s' (ac_pos A) i b) ->
  (forall b f, b ∈ act_addrs A -> fr s b f -> fr s' b f) ->
  (forall x v, rep P (s_heap s) x v -> rep P' (s_heap s') x v) -> act_ok P' s' A.
Proof.
  intros HA HT HF HR. destruct HA as [H1 H2 H3 H4 H5 H6]. split; [done..| | |].
  - apply HT; [done|left].
  - destruct H5 as (f & Hf & Hs & Hsd & Hrest). exists f. split; [apply HF; [left|done]|]. split; [done|]. split; [|done].
    by eapply seed_ok_mono.
  - destruct (ac_in A) as [[[ax X] tx]|] eqn:EI; [|done]. destruct H6 as (I1 & I2 & I3 & (fx & I4 & I5) & I6).
    assert (ax ∈ act_addrs A) as Hax by (unfold act_addrs; rewrite EI; right; left).
    split; [done|]. split; [done|]. split; [by apply HT|]. split; [exists fx; split; [by apply HF|done]|].
    intros Htx Ho. destruct (I6 Htx Ho) as (Ht & g & m & Hg & Hm). split; [done|]. exists g, m. split; [|done]. apply HF; [left|done].
Qed.

Lemma part_ok_mono P P' s s' F p i sd res e (K K' : Prop) : part_ok P s F p i sd res e K ->
  (forall x v, rep P (s_heap s) x v -> rep P' (s_heap s') x v) -> (K -> K') -> part_ok P' s' F p i sd res e K'.
Proof.
  intros (t & h & r & H1 & H2 & H3) HR HK. exists t, h, r. split; [done|]. split; [by eapply agrees_mono|]. auto.
Qed.
Lemma cache_ok_mono P P' acts s s' p i res e : cache_ok P acts s p i res e ->
  (forall x v, rep P (s_heap s) x v -> rep P' (s_heap s') x v) ->
  (forall b j, marked s b j -> marked s' b j) ->
  (forall F q, par i = Some F -> cached s F q -> cached s' F q) -> cache_ok P' acts s' p i res e.
Proof.
  intros H HR HM HC. unfold cache_ok in *. destruct (par i) as [F|] eqn:EPar.
  - destruct H as [H1 H2]. split.
    + intros A HA HF Hp. eapply part_ok_mono; [by apply H1|done|]. intros HK Ho. destruct (HK Ho). auto.
    + intros Hno. destruct (H2 Hno) as [?|?]; [left; auto|right]. by eapply part_ok_mono.
  - destruct H as (h & r & H1 & H2). exists h, r. split; [done|]. by eapply agrees_mono.
Qed.

(** Steps that leave the frames alone. *)
Lemma Inv_same P P' acts s s' : Inv P acts s -> G s' -> s_frames s' = s_frames s -> s_fheap s' = s_fheap s ->
  Forall (fun a => a < length (s_heap s')) P' ->
  (forall x v, rep P (s_heap s) x v -> rep P' (s_heap s') x v) -> Inv P' acts s'.
Proof.
  intros HI HG HT HF HP HR.
  assert (forall b f, fr s' b f <-> fr s b f) as HFr by (intros; unfold fr; by rewrite HF).
  assert (forall p i b, tab s' p i b <-> tab s p i b) as HTab by (intros; unfold tab; by rewrite HT).
  destruct HI as [I1 I2 I3 I4 I5 I6 I7 I8]. split; [done..| | | | |].
  - eapply Forall_impl; [exact I4|]. cbn beta. intros A HA. eapply act_ok_mono; [exact HA| | |done].
    + intros i b Hb _. by apply HTab.
    + intros b f _ Hf. by apply HFr.
  - intros b f Hf. apply I5. by apply HFr.
  - intros b f Hf. apply (I6 b). by apply HFr.
  - intros b f m i Hf. apply (I7 b). by apply HFr.
  - intros p i b f e Hb Hf Hs He. eapply cache_ok_mono; [apply (I8 p i b f e); [by apply HTab|by apply HFr|done|done]|done| |].
    + intros b' j (g & m & Hg & Hm). exists g, m. split; [by apply HFr|done].
    + intros F q _ (b' & g & e' & Hb' & Hg & Hrest). exists b', g, e'. split; [by apply HTab|]. split; [by apply HFr|done].
Qed.

Lemma Inv_heap P acts s s' : Inv P acts s -> G s' -> s_frames s' = s_frames s -> s_fheap s' = s_fheap s ->
  hext (s_heap s) (s_heap s') -> Inv P acts s'.
Proof.
  intros HI HG HT HF HH. eapply Inv_same; [done..| |].
  - eapply Forall_impl; [apply (iv_P _ _ _ HI)|]. cbn. intros a Ha. destruct HH. lia.
  - intros x v Hx. eapply rep_hext; [done|done|set_solver].
Qed.

(** A new frame. *)
Lemma Inv_get_frame P acts s i : Inv P acts s -> i < N -> exists b s', get_frame i s = Ok b s' /\ Inv P acts s' /\
  ext s s' /\ st_pos s' = st_pos s /\ tab s' (st_pos s) i b /\ s_heap s' = s_heap s /\ s_stack s' = s_stack s.
Proof.
  intros HI Hi. destruct (get_frame_ok N c0 (fun _ _ => false) s i (iv_G _ _ _ HI) Hi) as (b & s' & Hg & HG' & HX & Hp & Ht & _).
  exists b, s'. split; [done|]. split; [|split; [done|split; [done|split; [done|split; [|apply HX]]]]].
  - unfold get_frame in Hg. destruct (table_get (s_frames s) (st_pos s) i) as [[b'|]|] eqn:ET; [by simplify_eq| |done].
    injection Hg as <- <-. set (s' := set_frames _ _) in *.
    assert (forall b f, fr s b f -> fr s' b f) as HFr.
    { intros b f Hf. unfold fr. cbn. rewrite lookup_app_l; [done|by eapply lookup_lt_Some]. }
    assert (forall b f, fr s' b f -> fr s b f \/ (b = length (s_fheap s) /\ f = new_frame (st_pos s) i)) as HFr'.
    { intros b f Hf. unfold fr in Hf. cbn in Hf. apply lookup_app_Some in Hf as [Hf|[Hl Hf]]; [by left|].
      right. apply list_lookup_singleton_Some in Hf as [Hb ->]. split; [lia|done]. }
    assert (forall q j b, tab s q j b -> tab s' q j b) as HTab.
    { intros q j b Hb. unfold tab. cbn. rewrite table_get_set by congruence.
      destruct (bool_decide_reflect (st_pos s = q)), (bool_decide_reflect (i = j)); subst; cbn; try done.
      unfold tab in Hb. congruence. }
    assert (forall q j b, tab s' q j b -> tab s q j b \/ b = length (s_fheap s)) as HTab'.
    { intros q j b Hb. unfold tab in Hb. cbn in Hb. rewrite table_get_set in Hb by congruence.
      destruct (bool_decide_reflect (st_pos s = q)), (bool_decide_reflect (i = j)); subst; cbn in Hb; [right; congruence|by left..]. }
    destruct HI as [I1 I2 I3 I4 I5 I6 I7 I8]. split; [done|done|done| | | | |].
    + eapply Forall_impl; [exact I4|]. cbn beta. intros A HA. eapply act_ok_mono; [exact HA|auto..].
    + intros b f Hf Hs. apply HFr' in Hf as [Hf|[-> ->]]; [by eapply I5|]. cbn in Hs. lia.
    + intros b f Hf Hs. apply HFr' in Hf as [Hf|[-> ->]]; [by eapply I6|done].
    + intros b f m j Hf Hm. apply HFr' in Hf as [Hf|[-> ->]]; [by eapply I7|done].
    + intros p j b f e Hb Hf Hs He. apply HFr' in Hf as [Hf|[-> ->]]; [|done].
      apply HTab' in Hb as [Hb|Hb]; [|apply lookup_lt_Some in Hf; lia].
      eapply cache_ok_mono; [by apply (I8 p j b f e)|auto| |].
      * intros b' k (g & m & Hg' & Hm). exists g, m. split; [by apply HFr|done].
      * intros F q _ (b' & g & e' & Hb' & Hg' & Hrest). exists b', g, e'. split; [by apply HTab|]. split; [by apply HFr|done].
  - unfold get_frame in Hg. destruct (table_get (s_frames s) (st_pos s) i) as [[b'|]|]; by simplify_eq.
Qed.

(** Rewriting the frame of a rule that is not active, without giving it an
    outcome: stage -1 to 0. *)
Lemma Inv_stage0 P acts s b f : Inv P acts s -> fr s b f -> (f_stage f <= 0)%Z ->
  G (set_fheap s (<[b := fr_stage f 0]> (s_fheap s))) -> Inv P acts (set_fheap s (<[b := fr_stage f 0]> (s_fheap s))).
Proof.
  intros HI Hf Hs HG. set (s' := set_fheap _ _).
  assert (forall c g, c <> b -> fr s' c g <-> fr s c g) as HFr.
  { intros c g Hc. unfold fr. cbn. by rewrite list_lookup_insert_ne. }
  assert (fr s' b (fr_stage f 0)) as Hfb by (by apply (put_same s b f)).
  assert (b ∉ addrs acts) as Hnb.
  { intros Hb. destruct (addr_stage _ _ _ _ HI Hb) as (g & Hg & Hgs). unfold fr in *. simplify_eq. lia. }
  destruct HI as [I1 I2 I3 I4 I5 I6 I7 I8]. split; [done|done|done| | | | |].
  - rewrite Forall_forall in I4 |- *. intros A HA. eapply act_ok_mono; [by apply I4|done| |done].
    intros c g Hc Hg. apply HFr; [|done]. intros ->. apply Hnb. by eapply other_act.
  - intros c g Hg Hgs. destruct (decide (c = b)) as [->|Hne]; [|apply HFr in Hg; [by eapply I5|done]].
    unfold fr in *. simplify_eq. done.
  - intros c g Hg Hgs. destruct (decide (c = b)) as [->|Hne]; [|apply HFr in Hg; [by eapply I6|done]].
    unfold fr in *. simplify_eq. by apply (I6 b f).
  - intros c g m i Hg Hm. destruct (decide (c = b)) as [->|Hne]; [|apply HFr in Hg; [by eapply I7|done]].
    unfold fr in *. simplify_eq. by apply (I7 b f).
  - intros p i c g e Ht Hg Hgs He.
    assert (exists g0, fr s c g0 /\ (f_stage g0 <= 0)%Z /\ f_end g0 = Some e /\ f_res g0 = f_res g) as (g0 & Hg0 & Hs0 & He0 & Hr0).
    { destruct (decide (c = b)) as [->|Hne]; [|exists g; split; [by apply HFr|done]].
      unfold fr in *. simplify_eq. by exists f. }
    rewrite <- Hr0. eapply cache_ok_mono; [by apply (I8 p i c g0 e)|done| |].
    + intros c' k (h & m & Hh & Hm). destruct (decide (c' = b)) as [->|Hne].
      * exists (fr_stage f 0), m. split; [done|]. unfold fr in *. by simplify_eq.
      * exists h, m. split; [by apply HFr|done].
    + intros F q _ (c' & h & e' & Hc' & Hh & Hhs & Hhe). destruct (decide (c' = b)) as [->|Hne].
      * exists b, (fr_stage f 0), e'. unfold fr in *. simplify_eq. done.
      * exists c', h, e'. split; [done|]. split; [by apply HFr|done].
Qed.

(** Rewriting one frame. *)
Lemma fr_put s b f f' c g : fr s b f -> fr (set_fheap s (<[b := f']> (s_fheap s))) c g <-> (c = b /\ g = f') \/ (c <> b /\ fr s c g).
Proof.
  intros Hf. unfold fr. cbn. destruct (decide (c = b)) as [->|Hne].
  - rewrite list_lookup_insert by (by eapply lookup_lt_Some). split; [intros [= <-]; by left|].
    intros [[_ ->]|[? _]]; done.
  - rewrite list_lookup_insert_ne by done. split; [intros; by right|]. intros [[? _]|[_ ?]]; done.
Qed.

Lemma not_active P acts s b f : Inv P acts s -> fr s b f -> (f_stage f <= 0)%Z -> b ∉ addrs acts.
Proof.
  intros HI Hf Hs Hb. destruct (addr_stage _ _ _ _ HI Hb) as (g & Hg & Hgs). unfold fr in *. simplify_eq. lia.
Qed.

(** A rule starts. *)
Lemma Inv_push P acts s p i b f h out : Inv P acts s -> tab s p i b -> fr s b f -> f_stage f = 0%Z -> f_end f = None ->
  par i = None -> i_skip (n_info (R i)) = false -> peg None (JRule i) p false h out ->
  let s' := set_fheap s (<[b := Frame None None 1 (f_mask f) (f_pos f) (f_id f)]> (s_fheap s)) in
  G s' -> Inv P (Act b i p None h out false None :: acts) s'.
Proof.
  intros HI Ht Hf Hs He Hp Hsk Hpeg s' HG. set (f' := Frame None None 1 (f_mask f) (f_pos f) (f_id f)).
  assert (forall c g, fr s' c g <-> (c = b /\ g = f') \/ (c <> b /\ fr s c g)) as HFr by (intros; by eapply fr_put).
  assert (b ∉ addrs acts) as Hnb by (eapply not_active; [done..|lia]).
  assert (forall c j, marked s c j -> marked s' c j) as HM.
  { intros c j (g & m & Hg & Hm). destruct (decide (c = b)) as [->|Hne].
    - exists f', m. split; [apply HFr; by left|]. unfold fr in *. by simplify_eq.
    - exists g, m. split; [apply HFr; by right|done]. }
  assert (~ cached s i p) as Hnc.
  { intros (b' & g & e & Hb' & Hg & _ & Hge). unfold tab, fr in *. simplify_eq. }
  assert (forall F q, cached s F q -> cached s' F q) as HC.
  { intros F q (c & g & e & Hc & Hg & Hgs & Hge). exists c, g, e. split; [done|]. split; [|done]. apply HFr.
    right. split; [|done]. intros ->. unfold fr in *. simplify_eq. }
  destruct HI as [I1 I2 I3 I4 I5 I6 I7 I8]. split; [done|done| | | | | |].
  - change (NoDup (b :: addrs acts)). by apply NoDup_cons.
  - apply Forall_cons. split.
    + split; [done|done|done|done| |done]. exists f'. split; [apply HFr; by left|]. cbn. split; [lia|]. split; [done|]. split; [done|]. done.
    + rewrite Forall_forall in I4 |- *. intros A HA. eapply act_ok_mono; [by apply I4|done| |done].
      intros c g Hc Hg. apply HFr. right. split; [|done]. intros ->. apply Hnb. by eapply other_act.
  - intros c g Hg Hgs. change (c ∈ b :: addrs acts). apply HFr in Hg as [[-> ->]|[Hne Hg]]; [left|]. right. by eapply I5.
  - intros c g Hg Hgs. apply HFr in Hg as [[-> ->]|[Hne Hg]]; [done|]. by eapply I6.
  - intros c g m j Hg Hm. apply HFr in Hg as [[-> ->]|[Hne Hg]]; [|by eapply I7]. by apply (I7 b f).
  - intros q j c g e Hc Hg Hgs Hge. apply HFr in Hg as [[-> ->]|[Hne Hg]]; [done|].
    pose proof (I8 q j c g e Hc Hg Hgs Hge) as Hold. unfold cache_ok in *.
    destruct (par j) as [F|] eqn:Ej; [|destruct Hold as (h1 & r1 & ? & ?); exists h1, r1; split; [done|by eapply agrees_mono]].
    destruct Hold as [H1 H2]. split.
    + intros A HA HF Hq. apply elem_of_cons in HA as [->|HA].
      * cbn in *. subst F q. destruct H2 as [H2|H2].
        { intros A HA HF Hq. rewrite Forall_forall in I4. pose proof (ao_tab _ _ _ (I4 A HA)) as HtA.
          rewrite HF, Hq in HtA. unfold tab in *. assert (ac_a A = b) as Eb by congruence.
          apply Hnb. eapply other_act; [exact HA|]. rewrite <- Eb. left. }
        { done. }
        eapply part_ok_mono; [exact H2|done|]. intros HK Ho. exfalso. apply Ho. by eapply HK.
      * eapply part_ok_mono; [by apply H1|done|]. intros HK Ho. destruct (HK Ho). auto.
    + intros Hno. destruct H2 as [H2|H2].
      * intros A HA HF Hq. eapply Hno; [by right|done|done].
      * left. auto.
      * right. by eapply part_ok_mono.
Qed.

Definition with_in (A : act) (o : option (nat * nat * bool)) : act :=
  Act (ac_a A) (ac_id A) (ac_pos A) (ac_seed A) (ac_h A) (ac_out A) (ac_t A) o.

(** An alternative-as-rule of the innermost rule starts. *)
Lemma Inv_enter P A rest s i b f : Inv P (A :: rest) s -> ac_in A = None -> tab s (ac_pos A) i b -> fr s b f ->
  f_stage f = 0%Z -> f_end f = None -> par i = Some (ac_id A) -> i_skip (n_info (R i)) = false ->
  let s' := set_fheap s (<[b := Frame None None 1 (f_mask f) (f_pos f) (f_id f)]> (s_fheap s)) in
  G s' -> Inv P (with_in A (Some (b, i, false)) :: rest) s'.
Proof.
  intros HI Hin Ht Hf Hs He Hp Hsk s' HG. set (f' := Frame None None 1 (f_mask f) (f_pos f) (f_id f)).
  assert (forall c g, fr s' c g <-> (c = b /\ g = f') \/ (c <> b /\ fr s c g)) as HFr by (intros; by eapply fr_put).
  assert (b ∉ addrs (A :: rest)) as Hnb by (eapply not_active; [done..|lia]).
  assert (addrs (with_in A (Some (b, i, false)) :: rest) = ac_a A :: b :: addrs rest) as Hadr by done.
  assert (addrs (A :: rest) = ac_a A :: addrs rest) as Hadr0.
  { unfold addrs, act_addrs. cbn. by rewrite Hin. }
  assert (forall c j, marked s c j -> marked s' c j) as HM.
  { intros c j (g & m & Hg & Hm). destruct (decide (c = b)) as [->|Hne].
    - exists f', m. split; [apply HFr; by left|]. unfold fr in *. by simplify_eq.
    - exists g, m. split; [apply HFr; by right|done]. }
  assert (forall F q, cached s F q -> cached s' F q) as HC.
  { intros F q (c & g & e & Hc & Hg & Hgs & Hge). exists c, g, e. split; [done|]. split; [|done]. apply HFr.
    right. split; [|done]. intros ->. unfold fr in *. simplify_eq. }
  rewrite Hadr0 in Hnb.
  assert (forall B, B ∈ A :: rest -> act_ok P s' B) as HA'.
  { intros B HB. eapply act_ok_mono; [by eapply act_in|done| |done].
    intros c g Hc Hg. apply HFr. right. split; [|done]. intros ->. apply Hnb. rewrite <- Hadr0. by eapply other_act. }
  destruct HI as [I1 I2 I3 I4 I5 I6 I7 I8]. split; [done|done| | | | | |].
  - rewrite Hadr. rewrite Hadr0 in I3. apply NoDup_cons in I3 as [N1 N2]. apply not_elem_of_cons in Hnb as [Nb1 Nb2].
    apply NoDup_cons. split; [|by apply NoDup_cons]. apply not_elem_of_cons. done.
  - apply Forall_cons. split.
    + destruct (HA' A ltac:(left)) as [H1 H2 H3 H4 H5 H6]. split; [done..|]. cbn. split; [done|]. split; [done|]. split; [done|].
      split; [|done]. exists f'. split; [apply HFr; by left|done].
    + rewrite Forall_forall. intros B HB. apply HA'. by right.
  - intros c g Hg Hgs. rewrite Hadr. apply HFr in Hg as [[-> ->]|[Hne Hg]]; [right; left|].
    pose proof (I5 _ _ Hg Hgs) as Hc. rewrite Hadr0 in Hc. apply elem_of_cons in Hc as [->|Hc]; [left|]. right. by right.
  - intros c g Hg Hgs. apply HFr in Hg as [[-> ->]|[Hne Hg]]; [done|]. by eapply I6.
  - intros c g m j Hg Hm. apply HFr in Hg as [[-> ->]|[Hne Hg]]; [|by eapply I7]. by apply (I7 b f).
  - intros q j c g e Hc Hg Hgs Hge. apply HFr in Hg as [[-> ->]|[Hne Hg]]; [done|].
    pose proof (cache_ok_mono P P (A :: rest) s s' q j (f_res g) e (I8 q j c g e Hc Hg Hgs Hge) ltac:(done) HM ltac:(auto)) as Hold.
    unfold cache_ok in *. destruct (par j) as [F|] eqn:Ej; [|done]. destruct Hold as [H1 H2]. split.
    + intros B HB HF Hq. apply elem_of_cons in HB as [->|HB]; [apply (H1 A ltac:(left) HF Hq)|apply H1; [by right|done|done]].
    + intros Hno. apply H2. intros B HB. apply elem_of_cons in HB as [->|HB]; [apply (Hno (with_in A (Some (b, i, false)))); left|apply Hno; by right].
Qed.

(** And ends, with an outcome. *)
Lemma Inv_leave P A rest s i b tx f res e t h r : Inv P (A :: rest) s -> ac_in A = Some (b, i, tx) -> fr s b f ->
  peg (Some (Ctx (ac_id A) (ac_pos A) (ac_seed A) false)) (JNode (R i)) (ac_pos A) t h r ->
  agrees P s res e r -> (t = true -> tx = true) ->
  let s' := set_fheap s (<[b := Frame res (Some e) 0 (f_mask f) (f_pos f) (f_id f)]> (s_fheap s)) in
  G s' -> Inv P (with_in A None :: rest) s'.
Proof.
  intros HI Hin Hf Hpeg Hag Htx s' HG. set (f' := Frame res (Some e) 0 (f_mask f) (f_pos f) (f_id f)).
  assert (forall c g, fr s' c g <-> (c = b /\ g = f') \/ (c <> b /\ fr s c g)) as HFr by (intros; by eapply fr_put).
  assert (addrs (A :: rest) = ac_a A :: b :: addrs rest) as Hadr0.
  { unfold addrs, act_addrs. cbn. by rewrite Hin. }
  assert (addrs (with_in A None :: rest) = ac_a A :: addrs rest) as Hadr by done.
  pose proof (iv_nd _ _ _ HI) as Hnd. rewrite Hadr0 in Hnd. apply NoDup_cons in Hnd as [N1 Hnd]. apply NoDup_cons in Hnd as [N2 N3].
  apply not_elem_of_cons in N1 as [N1 N1'].
  assert (forall c j, marked s c j -> marked s' c j) as HM.
  { intros c j (g & m & Hg & Hm). destruct (decide (c = b)) as [->|Hne].
    - exists f', m. split; [apply HFr; by left|]. unfold fr in *. by simplify_eq.
    - exists g, m. split; [apply HFr; by right|done]. }
  pose proof (act_in _ _ _ A HI ltac:(left)) as HA. pose proof (ao_in _ _ _ HA) as Hain. rewrite Hin in Hain.
  destruct Hain as (Hpi & Hski & Hti & (fx & Hfx & Hfs & Hfe) & Hmk). assert (fx = f) as -> by (unfold fr in *; congruence).
  assert (forall F q, cached s F q -> cached s' F q) as HC.
  { intros F q (c & g & e' & Hc & Hg & Hgs & Hge). exists c, g, e'. split; [done|]. split; [|done]. apply HFr.
    right. split; [|done]. intros ->. unfold fr in *. simplify_eq. }
  destruct (tab_fr _ _ _ _ _ _ HI Hti) as (f1 & Hf1 & Hp1 & Hi1). assert (f1 = f) as -> by (unfold fr in *; congruence).
  assert (forall q j, tab s q j b -> q = ac_pos A /\ j = i) as Huniq.
  { intros q j Hq. destruct (tab_fr _ _ _ _ _ _ HI Hq) as (f2 & Hf2 & ? & ?). unfold fr in *. simplify_eq. done. }
  destruct HI as [I1 I2 I3 I4 I5 I6 I7 I8]. split; [done|done| | | | | |].
  - rewrite Hadr. by apply NoDup_cons.
  - apply Forall_cons. split.
    + destruct HA as [H1 H2 H3 H4 H5 H6]. split; [done..| |done]. destruct H5 as (g & Hg & Hrest). exists g. split; [|done].
      apply HFr. right. done.
    + apply Forall_cons in I4 as [_ I4]. rewrite Forall_forall in I4 |- *. intros B HB. eapply act_ok_mono; [by apply I4|done| |done].
      intros c g Hc Hg. apply HFr. right. split; [|done]. intros ->. apply N2. by eapply other_act.
  - intros c g Hg Hgs. rewrite Hadr. apply HFr in Hg as [[-> ->]|[Hne Hg]]; [done|].
    pose proof (I5 _ _ Hg Hgs) as Hc. rewrite Hadr0 in Hc. apply elem_of_cons in Hc as [->|Hc]; [left|].
    apply elem_of_cons in Hc as [->|Hc]; [done|]. by right.
  - intros c g Hg Hgs. apply HFr in Hg as [[-> ->]|[Hne Hg]]; [|by eapply I6]. exfalso. cbn in Hgs. rewrite Hi1 in Hgs. congruence.
  - intros c g m j Hg Hm. apply HFr in Hg as [[-> ->]|[Hne Hg]]; [|by eapply I7]. by apply (I7 b f).
  - intros q j c g e' Hc Hg Hgs Hge. apply HFr in Hg as [[-> ->]|[Hne Hg]].
    + cbn in Hge. injection Hge as <-. destruct (Huniq _ _ Hc) as [-> ->]. cbn [f_res f'].
      unfold cache_ok. rewrite Hpi. split.
      * intros B HB HF Hq. apply elem_of_cons in HB as [->|HB].
        { exists t, h, r. split; [done|]. split; [by eapply agrees_mono|]. intros Ht Ho. cbn in Ho |- *. destruct (Hmk (Htx Ht) Ho). auto. }
        exfalso. pose proof (ao_tab _ _ _ HA) as T1. apply Forall_cons in I4 as [_ I4]. rewrite Forall_forall in I4.
        pose proof (ao_tab _ _ _ (I4 B HB)) as T2. rewrite HF, Hq in T2. unfold tab in *. assert (ac_a A = ac_a B) as Ea by congruence.
        apply N1'. eapply other_act; [exact HB|]. rewrite Ea. left.
      * intros Hno. exfalso. apply (Hno (with_in A None)); [left|done|done].
    + pose proof (cache_ok_mono P P (A :: rest) s s' q j (f_res g) e' (I8 q j c g e' Hc Hg Hgs Hge) ltac:(done) HM ltac:(auto)) as Hold.
      unfold cache_ok in *. destruct (par j) as [F|] eqn:Ej; [|done]. destruct Hold as [H1 H2]. split.
      * intros B HB HF Hq. apply elem_of_cons in HB as [->|HB]; [apply (H1 A ltac:(left) HF Hq)|apply H1; [by right|done|done]].
      * intros Hno. apply H2. intros B HB. apply elem_of_cons in HB as [->|HB]; [apply (Hno (with_in A None)); left|apply Hno; by right].
Qed.

(** The frame of the innermost rule changes, parts may be dropped from the
    table. *)
Definition drops (s s' : st) (F p : nat) : Prop :=
  (forall q i b, tab s' q i b -> tab s q i b) /\
  (forall q i b, tab s q i b -> tab s' q i b \/ (q = p /\ (par i = Some F \/ skips i))).

Lemma Inv_head P A A' rest s s' f f' : Inv P (A :: rest) s -> fr s (ac_a A) f ->
  ac_a A' = ac_a A -> ac_id A' = ac_id A -> ac_pos A' = ac_pos A -> ac_out A' = ac_out A -> in_addr (ac_in A') = in_addr (ac_in A) ->
  G s' -> s_heap s' = s_heap s -> s_fheap s' = <[ac_a A := f']> (s_fheap s) -> drops s s' (ac_id A) (ac_pos A) ->
  (1 <= f_stage f')%Z -> f_id f' = f_id f ->
  (forall m i, f_mask f' = Some m -> m !! i = Some true -> par i = Some (f_id f) \/ skips i) ->
  (forall i, marked s (ac_a A) i -> marked s' (ac_a A) i) ->
  act_ok P s' A' ->
  (forall i b g e, par i = Some (ac_id A) -> tab s' (ac_pos A) i b -> fr s b g -> (f_stage g <= 0)%Z -> f_end g = Some e ->
     part_ok P s (ac_id A) (ac_pos A) i (ac_seed A) (f_res g) e (ac_out A <> None -> ac_t A = true /\ marked s (ac_a A) i) ->
     part_ok P s' (ac_id A) (ac_pos A) i (ac_seed A') (f_res g) e (ac_out A <> None -> ac_t A' = true /\ marked s' (ac_a A) i)) ->
  Inv P (A' :: rest) s'.
Proof.
  intros HI Hf Ea Eid Epos Eout Ein HG Hheap Hfh [Hd1 Hd2] Hst' Hid' Hmask' HM0 HA' Hpart.
  assert (forall c g, fr s' c g <-> (c = ac_a A /\ g = f') \/ (c <> ac_a A /\ fr s c g)) as HFr.
  { intros c g. unfold fr. rewrite Hfh. rewrite <- (fr_put s (ac_a A) f f' c g Hf). done. }
  assert (addrs (A' :: rest) = addrs (A :: rest)) as Hadr.
  { unfold addrs, act_addrs. cbn. by rewrite Ea, Ein. }
  pose proof (head_not_in A rest (ac_a A) (iv_nd _ _ _ HI) ltac:(left)) as Hna.
  assert (forall x v, rep P (s_heap s) x v -> rep P (s_heap s') x v) as HR by (by rewrite Hheap).
  pose proof (act_in _ _ _ A HI ltac:(left)) as HA.
  assert (forall c j, marked s c j -> marked s' c j) as HM.
  { intros c j Hm. destruct (decide (c = ac_a A)) as [->|Hne]; [by apply HM0|].
    destruct Hm as (g & m & Hg & Hm). exists g, m. split; [apply HFr; by right|done]. }
  assert (forall b, b ∈ addrs rest -> forall q i, tab s q i b -> tab s' q i b) as HTr.
  { intros b Hb q i Hq. destruct (Hd2 _ _ _ Hq) as [?|[-> Hi]]; [done|]. exfalso.
    destruct (addr_stage P (A :: rest) s b HI) as (g & Hg & Hgs). { unfold addrs. cbn. right. apply elem_of_app. by right. }
    destruct (in_progress _ _ _ _ _ _ _ HI Hq Hg Hgs) as (B & HB & HBp & HBi).
    pose proof (act_in _ _ _ B HI HB) as HOB. destruct Hi as [Hi|Hi].
    - destruct HBi as [[HBi _]|[tx HBi]].
      + pose proof (ao_par _ _ _ HOB). congruence.
      + pose proof (ao_in _ _ _ HOB) as Hi2. rewrite HBi in Hi2. destruct Hi2 as (Hi2 & _).
        assert (ac_id B = ac_id A) by congruence. apply elem_of_cons in HB as [->|HB].
        * apply (head_not_in A rest b (iv_nd _ _ _ HI)); [|done]. unfold act_addrs. rewrite HBi. right. left.
        * by apply (key_unique P A rest s B).
    - destruct HBi as [[HBi _]|[tx HBi]].
      + pose proof (ao_skip _ _ _ HOB). congruence.
      + pose proof (ao_in _ _ _ HOB) as Hi2. rewrite HBi in Hi2. destruct Hi2 as (_ & Hi2 & _). congruence. }
  assert (forall F q, (exists i, par i = Some F) -> cached s F q -> cached s' F q) as HC.
  { intros F q [i Hi] (c & g & e & Hc & Hg & Hgs & Hge). destruct (Hpar _ _ Hi) as [Hp1 Hp2]. exists c, g, e. split; [|split; [|done]].
    - destruct (Hd2 _ _ _ Hc) as [?|[_ [?|?]]]; congruence.
    - apply HFr. right. split; [|done]. intros ->.
      destruct (ao_fr _ _ _ HA) as (f2 & Hf2 & Hs2 & _). unfold fr in *. simplify_eq. lia. }
  destruct HI as [I1 I2 I3 I4 I5 I6 I7 I8]. split; [done| | | | | | |].
  - by rewrite Hheap.
  - by rewrite Hadr.
  - apply Forall_cons. split; [done|]. apply Forall_cons in I4 as [_ I4]. rewrite Forall_forall in I4 |- *. intros B HB.
    eapply act_ok_mono; [by apply I4| | |done].
    + intros i b Hb Hin. apply HTr; [by eapply other_act|done].
    + intros c g Hc Hg. apply HFr. right. split; [|done]. intros ->. apply Hna. by eapply other_act.
  - intros c g Hg Hgs. rewrite Hadr. apply HFr in Hg as [[-> ->]|[Hne Hg]]; [left|by eapply I5].
  - intros c g Hg Hgs. apply HFr in Hg as [[-> ->]|[Hne Hg]]; [|by eapply I6]. exfalso.
    destruct (gi_ent _ _ _ _ I1 _ _ _ (ao_tab _ _ _ HA)) as (f2 & Hf2 & _ & Hi2). pose proof (ao_skip _ _ _ HA). unfold fr in *. simplify_eq. congruence.
  - intros c g m j Hg Hm Hj. apply HFr in Hg as [[-> ->]|[Hne Hg]]; [|by eapply I7]. rewrite Hid'. by eapply Hmask'.
  - intros q j c g e Hc Hg Hgs Hge. apply HFr in Hg as [[-> ->]|[Hne Hg]]; [lia|].
    pose proof (I8 q j c g e (Hd1 _ _ _ Hc) Hg Hgs Hge) as Hold. unfold cache_ok in *.
    destruct (par j) as [F|] eqn:Ej; [|destruct Hold as (h1 & r1 & ? & ?); exists h1, r1; split; [done|by eapply agrees_mono]].
    destruct Hold as [H1 H2]. split.
    + intros B HB HF Hq. apply elem_of_cons in HB as [->|HB].
      * rewrite Eid in HF. rewrite Epos in Hq. subst F q. rewrite Eout, Ea. eapply Hpart; [done|done|done|done|done|]. apply H1; [left|done|done].
      * eapply part_ok_mono; [apply H1; [by right|done|done]|done|]. intros HK Ho. destruct (HK Ho). auto.
    + intros Hno. destruct H2 as [H2|H2].
      * intros B HB HF. apply elem_of_cons in HB as [->|HB]; [|apply Hno; [by right|done]].
        rewrite <- Epos. apply (Hno A'); [left|]. by rewrite Eid.
      * left. eauto.
      * right. by eapply part_ok_mono.
Qed.

(** The innermost rule ends. *)
Lemma Inv_pop P A rest s s' f f' : Inv P (A :: rest) s -> ac_in A = None -> fr s (ac_a A) f ->
  G s' -> s_heap s' = s_heap s -> s_fheap s' = <[ac_a A := f']> (s_fheap s) ->
  f_stage f' = 0%Z -> f_id f' = f_id f -> f_mask f' = f_mask f ->
  (forall q i b, tab s' q i b -> tab s q i b \/ (q = ac_pos A /\ f_end f' <> None /\ (par i = Some (ac_id A) \/ skips i))) ->
  (forall q i b, tab s q i b -> tab s' q i b \/ (q = ac_pos A /\ (par i = Some (ac_id A) \/ skips i))) ->
  match f_end f' with
  | Some e => agrees P s (f_res f') e (ac_out A)
  | None => ac_out A = None /\ ac_seed A = None
  end -> Inv P rest s'.
Proof.
  intros HI Hin Hf HG Hheap Hfh Hst' Hid' Hmask' Hd1 Hd2 Hend.
  assert (forall c g, fr s' c g <-> (c = ac_a A /\ g = f') \/ (c <> ac_a A /\ fr s c g)) as HFr.
  { intros c g. unfold fr. rewrite Hfh. rewrite <- (fr_put s (ac_a A) f f' c g Hf). done. }
  assert (addrs (A :: rest) = ac_a A :: addrs rest) as Hadr.
  { unfold addrs, act_addrs. cbn. by rewrite Hin. }
  pose proof (head_not_in A rest (ac_a A) (iv_nd _ _ _ HI) ltac:(left)) as Hna.
  assert (forall x v, rep P (s_heap s) x v -> rep P (s_heap s') x v) as HR by (by rewrite Hheap).
  pose proof (act_in _ _ _ A HI ltac:(left)) as HA.
  assert (forall c j, marked s c j -> marked s' c j) as HM.
  { intros c j (g & m & Hg & Hm & Hj). destruct (decide (c = ac_a A)) as [->|Hne].
    - exists f', m. split; [apply HFr; by left|]. unfold fr in *. simplify_eq. split; [congruence|done].
    - exists g, m. split; [apply HFr; by right|done]. }
  assert (forall b, b ∈ addrs rest -> forall q i, tab s q i b -> tab s' q i b) as HTr.
  { intros b Hb q i Hq. destruct (Hd2 _ _ _ Hq) as [?|[-> Hi]]; [done|]. exfalso.
    destruct (addr_stage P (A :: rest) s b HI) as (g & Hg & Hgs). { rewrite Hadr. by right. }
    destruct (in_progress _ _ _ _ _ _ _ HI Hq Hg Hgs) as (B & HB & HBp & HBi).
    pose proof (act_in _ _ _ B HI HB) as HOB. destruct Hi as [Hi|Hi].
    - destruct HBi as [[HBi _]|[tx HBi]].
      + pose proof (ao_par _ _ _ HOB). congruence.
      + pose proof (ao_in _ _ _ HOB) as Hi2. rewrite HBi in Hi2. destruct Hi2 as (Hi2 & _).
        assert (ac_id B = ac_id A) by congruence. apply elem_of_cons in HB as [->|HB]; [congruence|].
        by apply (key_unique P A rest s B).
    - destruct HBi as [[HBi _]|[tx HBi]].
      + pose proof (ao_skip _ _ _ HOB). congruence.
      + pose proof (ao_in _ _ _ HOB) as Hi2. rewrite HBi in Hi2. destruct Hi2 as (_ & Hi2 & _). congruence. }
  assert (forall F q, (exists i, par i = Some F) -> cached s F q -> cached s' F q) as HC.
  { intros F q [i Hi] (c & g & e & Hc & Hg & Hgs & Hge). destruct (Hpar _ _ Hi) as [Hp1 Hp2]. exists c, g, e. split; [|split; [|done]].
    - destruct (Hd2 _ _ _ Hc) as [?|[_ [?|?]]]; congruence.
    - apply HFr. right. split; [|done]. intros ->.
      destruct (ao_fr _ _ _ HA) as (f2 & Hf2 & Hs2 & _). unfold fr in *. simplify_eq. lia. }
  assert (tab s' (ac_pos A) (ac_id A) (ac_a A)) as HtA.
  { destruct (Hd2 _ _ _ (ao_tab _ _ _ HA)) as [?|[_ [Hx|Hx]]]; [done| |].
    - pose proof (ao_par _ _ _ HA). congruence.
    - pose proof (ao_skip _ _ _ HA). congruence. }
  destruct (tab_fr _ _ _ _ _ _ HI (ao_tab _ _ _ HA)) as (f2 & Hf2 & Hpf & Hif). assert (f2 = f) as -> by (unfold fr in *; congruence).
  assert (forall e, f_end f' = Some e -> cached s' (ac_id A) (ac_pos A)) as Hcach.
  { intros e He. exists (ac_a A), f', e. split; [done|]. split; [apply HFr; by left|]. split; [lia|done]. }
  assert (forall B, B ∈ rest -> ac_id B = ac_id A -> ac_pos B <> ac_pos A) as Hku by (intros B HB; by eapply key_unique).
  pose proof (fun q j b H => tab_fr P (A :: rest) s q j b HI H) as Htf.
  destruct HI as [I1 I2 I3 I4 I5 I6 I7 I8]. split; [done| | | | | | |].
  - by rewrite Hheap.
  - rewrite Hadr in I3. by apply NoDup_cons in I3 as [_ ?].
  - apply Forall_cons in I4 as [_ I4]. rewrite Forall_forall in I4 |- *. intros B HB.
    eapply act_ok_mono; [by apply I4| | |done].
    + intros i b Hb Hib. apply HTr; [by eapply other_act|done].
    + intros c g Hc Hg. apply HFr. right. split; [|done]. intros ->. apply Hna. by eapply other_act.
  - intros c g Hg Hgs. apply HFr in Hg as [[-> ->]|[Hne Hg]]; [lia|]. pose proof (I5 _ _ Hg Hgs) as Hc. rewrite Hadr in Hc.
    by apply elem_of_cons in Hc as [->|Hc].
  - intros c g Hg Hgs. apply HFr in Hg as [[-> ->]|[Hne Hg]]; [|by eapply I6]. exfalso.
    pose proof (ao_skip _ _ _ HA). congruence.
  - intros c g m j Hg Hm Hj. apply HFr in Hg as [[-> ->]|[Hne Hg]]; [|by eapply I7]. rewrite Hid'. apply (I7 (ac_a A) f m j); [done|congruence|done].
  - intros q j c g e Hc Hg Hgs Hge. apply HFr in Hg as [[-> ->]|[Hne Hg]].
    + assert (q = ac_pos A /\ j = ac_id A) as [-> ->].
      { destruct (gi_ent _ _ _ _ HG _ _ _ Hc) as (f3 & Hf3 & Hq & Hj).
        destruct (gi_ent _ _ _ _ HG _ _ _ HtA) as (f4 & Hf4 & Hq4 & Hj4).
        unfold is_frame_at, fr in *. simplify_eq. split; congruence. }
      unfold cache_ok. rewrite (ao_par _ _ _ HA). rewrite Hge in Hend. exists (ac_h A), (ac_out A). split; [apply HA|]. by eapply agrees_mono.
    + destruct (Hd1 _ _ _ Hc) as [Hcs|(-> & Hee & [Hj|Hj])].
      * pose proof (I8 q j c g e Hcs Hg Hgs Hge) as Hold. unfold cache_ok in *.
        destruct (par j) as [F|] eqn:Ej; [|destruct Hold as (h1 & r1 & ? & ?); exists h1, r1; split; [done|by eapply agrees_mono]].
        destruct Hold as [H1 H2]. split.
        { intros B HB HF Hq. eapply part_ok_mono; [apply (H1 B); [by right|done|done]|done|]. intros HK Ho. destruct (HK Ho). auto. }
        intros Hno. destruct (decide (F = ac_id A /\ q = ac_pos A)) as [[-> ->]|HneA].
        { destruct (f_end f') as [e1|] eqn:Ee; [left; by eapply Hcach|]. right. destruct Hend as [Hout Hseed].
          pose proof (H1 A ltac:(left) eq_refl eq_refl) as Hp. rewrite Hseed in Hp. eapply part_ok_mono; [exact Hp|done|].
          intros _ h1 r1 Hr1. destruct (peg_det _ _ _ _ _ _ _ _ _ _ _ _ Hr1 _ _ _ (ao_peg _ _ _ HA)) as (_ & _ & ->). done. }
        destruct H2 as [H2|H2].
        { intros B HB HF. apply elem_of_cons in HB as [->|HB]; [|by apply Hno]. intros Hq. apply HneA. split; congruence. }
        { left. eauto. }
        right. by eapply part_ok_mono.
      * unfold cache_ok. rewrite Hj. split; [intros B HB HF Hq; by destruct (Hku B HB)|]. intros _. left.
        destruct (f_end f') as [e1|]; [by eapply Hcach|done].
      * exfalso. destruct (gi_ent _ _ _ _ HG _ _ _ Hc) as (f3 & Hf3 & Hq & Hj3).
        assert (f3 = g) as ->. { pose proof (proj2 (HFr c g) (or_intror (conj Hne Hg))). unfold fr in *. congruence. }
        rewrite (I6 c g Hg) in Hge; [done|]. by rewrite Hj3.
Qed.
End Inv.
