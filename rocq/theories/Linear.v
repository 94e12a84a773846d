(** Without left recursion a rule's body runs once per position. *)
From Verif Require Import Base Helpers Utf8 Stream StreamSpec Native Engine EngSpec EngInv EngMon CombProofs Pre LogSpec LogProofs Stages Origin.

Lemma norec_app l1 l2 : norec (l2 ++ l1) <-> norec l1 /\ norec l2.
Proof.
  unfold norec. split.
  - intros H. split; intros i p Hi; apply (H i p), elem_of_app; auto.
  - intros [H1 H2] i p [Hi|Hi]%elem_of_app; [exact (H2 i p Hi)|exact (H1 i p Hi)].
Qed.
Lemma norec_cons e l : norec (e :: l) <-> (forall i p, e <> EvRec i p) /\ norec l.
Proof.
  unfold norec. split.
  - intros H. split; [intros i p ->; apply (H i p); left|intros i p Hi; apply (H i p); by right].
  - intros [H1 H2] i p [Hi|Hi]%elem_of_cons; [by apply (H1 i p)|by apply (H2 i p)].
Qed.
Lemma norec_nil : norec [].
Proof. intros i p H. by apply elem_of_nil in H. Qed.
Lemma calls_app_n c l1 l2 : calls_of c (l2 ++ l1) = calls_of c l2 + calls_of c l1.
Proof. unfold calls_of. by rewrite List.filter_app, app_length. Qed.
Lemma runs_app_n c l1 l2 : runs_of c (l2 ++ l1) = runs_of c l2 + runs_of c l1.
Proof. unfold runs_of. by rewrite List.filter_app, app_length. Qed.
Lemma bodies_app l1 l2 : bodies (l2 ++ l1) = bodies l2 ++ bodies l1.
Proof. unfold bodies. by rewrite flat_map_app. Qed.

(** Evaluated once so far, and the cache remembers it. *)
Definition settled (f : frame) : Prop := f_stage f = 1%Z \/ (f_stage f = 0%Z /\ f_end f <> None).
Record J (s : st) : Prop := {
  j_ent : forall p i a, table_get (s_frames s) p i = Some (Some a) -> exists f, s_fheap s !! a = Some f /\ f_pos f = p /\ f_id f = i;
  j_run : forall i p, (i, p) ∈ bodies (s_log s) -> exists a f, table_get (s_frames s) p i = Some (Some a) /\ s_fheap s !! a = Some f /\ settled f;
  j_nodup : NoDup (bodies (s_log s)) }.
Lemma J_G0 s : J s -> G0 s.
Proof. intros [H _ _] p i a Ha. destruct (H _ _ _ Ha) as (f & Hf & Pf & _). eauto. Qed.

Section Linear.
Variable E : env.
Variable own : nat -> option nat.

Definition counted (x : option nat) (l : list event) : Prop :=
  forall c i, own c = Some i -> calls_of c l <= runs_of i l + (if bool_decide (x = Some c) then 1 else 0).
Definition tkeep (s s' : st) : Prop :=
  forall p i a, table_get (s_frames s) p i = Some (Some a) -> table_get (s_frames s') p i = Some (Some a).
(** [x]: the callback that may be called once more. *)
Definition R2 (x : option nat) (s s' : st) : Prop :=
  exists l, s_log s' = l ++ s_log s /\ (norec l -> J s -> J s' /\ tkeep s s' /\ counted x l).
Definition X2 (p : panic) (s s' : st) : Prop := True.
Notation pre2 := (pre (R2 None) X2).

Lemma counted_nil x : counted x [].
Proof. intros c i _. unfold calls_of. cbn. lia. Qed.
Lemma counted_app x y l1 l2 : counted x l1 -> counted y l2 -> (x = None \/ y = None) ->
  counted (if x then x else y) (l2 ++ l1).
Proof.
  intros H1 H2 Hxy c i Hc. specialize (H1 c i Hc). specialize (H2 c i Hc). rewrite calls_app_n, runs_app_n.
  destruct Hxy as [-> | ->]; cbn in *; rewrite ?(bool_decide_eq_false_2 (None = Some c)) in * by done.
  - lia.
  - destruct x; lia.
Qed.
Lemma R2_trans_gen x y s1 s2 s3 : (x = None \/ y = None) -> R2 x s1 s2 -> R2 y s2 s3 -> R2 (if x then x else y) s1 s3.
Proof.
  intros Hxy (l1 & L1 & H1) (l2 & L2 & H2). exists (l2 ++ l1). split; [by rewrite L2, L1, app_assoc|].
  intros [N1 N2]%norec_app HJ. destruct (H1 N1 HJ) as (J2 & T2 & C1). destruct (H2 N2 J2) as (J3 & T3 & C2).
  split; [done|]. split; [|by apply counted_app]. intros p i a Ha. by apply T3, T2.
Qed.
Lemma R2_trans s1 s2 s3 : R2 None s1 s2 -> R2 None s2 s3 -> R2 None s1 s3.
Proof. apply (R2_trans_gen None None). by left. Qed.
Lemma J_same s s' : s_frames s' = s_frames s -> s_fheap s' = s_fheap s -> s_log s' = s_log s -> J s -> J s'.
Proof. intros H1 H2 H3 [A B C]. split; by rewrite ?H1, ?H2, ?H3. Qed.
Lemma R2_same s s' : s_frames s' = s_frames s -> s_fheap s' = s_fheap s -> s_log s' = s_log s -> R2 None s s'.
Proof. intros H1 H2 H3. exists []. split; [done|]. intros _ HJ. split; [by eapply J_same|]. split; [|apply counted_nil]. intros p i a. by rewrite H1. Qed.
Lemma R2_refl s : R2 None s s.
Proof. by apply R2_same. Qed.
Lemma R2_core s s' : s_frames s' = s_frames s -> s_fheap s' = s_fheap s -> s_stack s' = s_stack s -> s_log s' = s_log s -> R2 None s s'.
Proof. intros. by apply R2_same. Qed.
(** Only the log grows. *)
Lemma R2_emit s e : match e with EvSkip _ _ => True | _ => False end -> R2 None s (add_log s e).
Proof.
  intros He. destruct e; try done. exists [EvSkip id pos]. split; [done|]. intros _ [A B C]. split; [by split|]. split; [by intros p i a|].
  intros c i _. unfold calls_of, runs_of. cbn. lia.
Qed.
Ltac fw := try apply R2_refl; try apply R2_trans; try apply R2_core; try done.

Lemma J_get_frame i s a s1 : get_frame i s = Ok a s1 -> J s -> J s1 /\ tkeep s s1 /\ table_get (s_frames s1) (st_pos s) i = Some (Some a).
Proof.
  unfold get_frame. intros H [A B C]. destruct (table_get (s_frames s) (st_pos s) i) as [[b|]|] eqn:ET; [| |done].
  { injection H as -> ->. split; [by split|split; [by intros p j x|done]]. }
  injection H as <- <-.
  assert (forall q j x, table_get (s_frames s) q j = Some (Some x) -> table_get (table_set (s_frames s) (st_pos s) i (Some (length (s_fheap s)))) q j = Some (Some x)) as HT.
  { intros q j x Hx. rewrite table_get_set by congruence. destruct (bool_decide_reflect (st_pos s = q)), (bool_decide_reflect (i = j)); cbn; congruence. }
  assert (forall b g, s_fheap s !! b = Some g -> (s_fheap s ++ [new_frame (st_pos s) i]) !! b = Some g) as HE.
  { intros b g Hb. rewrite lookup_app_l; [done|by eapply lookup_lt_Some]. }
  split; [split|split; [exact HT|]]; cbn.
  - intros q j b Hb. rewrite table_get_set in Hb by congruence.
    destruct (bool_decide_reflect (st_pos s = q)), (bool_decide_reflect (i = j)); cbn in Hb; simplify_eq.
    { exists (new_frame (st_pos s) j). by rewrite lookup_app_r, Nat.sub_diag by lia. }
    all: destruct (A _ _ _ Hb) as (g & Hg & Hp); exists g; split; [by apply HE|done].
  - intros j q Hin. destruct (B _ _ Hin) as (b & g & Hb & Hg & Hs). exists b, g. split; [by apply HT|]. split; [by apply HE|done].
  - done.
  - rewrite table_get_set by congruence. by rewrite !bool_decide_eq_true_2.
Qed.
(** Rewriting the frame of [(p, i)]. *)
Lemma J_put s p i a f f' : table_get (s_frames s) p i = Some (Some a) -> s_fheap s !! a = Some f ->
  f_pos f' = f_pos f -> f_id f' = f_id f -> ((i, p) ∈ bodies (s_log s) -> settled f -> settled f') ->
  J s -> J (set_fheap s (<[a := f']> (s_fheap s))).
Proof.
  intros Ha Hf P I Hs [A B C]. destruct (A _ _ _ Ha) as (f0 & Hf0 & P0 & I0). assert (f0 = f) as -> by congruence. split; cbn.
  - intros q j b Hb. destruct (A _ _ _ Hb) as (g & Hg & Pg & Ig). destruct (decide (b = a)) as [->|Hne].
    + exists f'. rewrite list_lookup_insert by (by eapply lookup_lt_Some). assert (g = f) as -> by congruence. split; [done|]. split; congruence.
    + exists g. by rewrite list_lookup_insert_ne.
  - intros j q Hin. destruct (B _ _ Hin) as (b & g & Hb & Hg & Hsg). exists b. destruct (decide (b = a)) as [->|Hne].
    + exists f'. split; [done|]. rewrite list_lookup_insert by (by eapply lookup_lt_Some). split; [done|]. assert (g = f) as -> by congruence.
      destruct (A _ _ _ Hb) as (f1 & Hf1 & P1 & I1). assert (f1 = f) as -> by congruence. apply Hs; [|done]. by simplify_eq.
    + exists g. split; [done|]. by rewrite list_lookup_insert_ne.
  - done.
Qed.

Lemma pl_emit e : pre Rlog X2 (emit e).
Proof. intros s. by exists [e]. Qed.
Lemma pl_fp x (fp : M (option ast)) : pre (R2 x) X2 fp -> pre Rlog X2 fp.
Proof. intros H s. specialize (H s). destruct (fp s); [|done|done]. destruct H as (l & L & _). by exists l. Qed.
Lemma pl_panic {A} p : pre Rlog X2 (panic_ (A:=A) p).
Proof. done. Qed.
Lemma pl_lift {A} (r : res A) : pre Rlog X2 (lift r).
Proof. intros s. unfold lift. destruct r; [apply Rlog_refl|done|done]. Qed.
Ltac fl := solve [apply Rlog_refl|apply Rlog_trans|intros; by apply Rlog_same|intros ? ? ?; by eexists [_]|done].
Ltac lg Hfp := repeat first
  [ apply pl_emit | apply pl_panic | apply pl_lift | (apply (pl_fp _ _ Hfp))
  | (apply (pre_ret Rlog X2); fl) | (apply (pre_gets Rlog X2); fl) | (apply (pre_set_pos Rlog X2); fl)
  | (apply (pre_get_fr Rlog X2); fl) | (apply (pre_log_if Rlog X2); fl)
  | (apply (pre_set_stage Rlog X2); fl) | (apply (pre_cache_set Rlog X2); fl) | (apply (pre_set_mask Rlog X2); fl)
  | (apply (pre_wipe Rlog X2); fl) | (apply (pre_restore Rlog X2); fl) | (apply (pre_mark Rlog X2); fl)
  | (apply (pre_loop_push Rlog X2); fl) | (apply (pre_loop_pop Rlog X2); fl)
  | (apply (pre_grow Rlog X2); [fl..|apply (pl_fp _ _ Hfp)])
  | (apply (pre_bind Rlog X2); [fl|fl| |intros ?])
  | match goal with
    | |- pre _ _ (match ?x with _ => _ end) => destruct x
    | |- pre _ _ (if ?x then _ else _) => destruct x
    | |- pre _ _ (let '(_, _) := ?x in _) => destruct x
    end ].
(** The rule's computation. *)
Lemma rule_R2 fp lf n s r s' :
  pre (R2 (i_cb (n_info n))) X2 fp -> pre (R1 None) X1 fp ->
  (forall c i, i_cb (n_info n) = Some c -> own c = Some i -> i_skip (n_info n) = false /\ i_id (n_info n) = i) ->
  loopify E lf fp n s = Ok r s' -> R2 None s s'.
Proof.
  intros H2 H1 Hown Em. set (cb := i_cb (n_info n)) in *. unfold loopify in Em. cbn zeta in Em. apply bind_inv in Em as (v & s0 & E0 & Em). apply log_if_same in E0 as ->.
  destruct (i_skip (n_info n)) eqn:ESk.
  { apply bind_inv in Em as (sp & sx & E3 & Em). injection E3 as <- <-. apply bind_inv in Em as (v1 & sx & E3 & Em). injection E3 as _ <-.
    apply bind_inv in Em as (r1 & s4 & E4 & Em). apply bind_inv in Em as (v2 & s5 & E5 & Em). injection Em as -> ->.
    assert (s' = s4) as ->.
    { destruct (_ || _)%bool; [|by injection E5 as _ <-]. destruct r; [|done]. pose proof (keeps_log E s4) as HK. by rewrite E5 in HK. }
    eapply R2_trans; [by apply (R2_emit s (EvSkip (i_id (n_info n)) (st_pos s)))|].
    specialize (H2 (add_log s (EvSkip (i_id (n_info n)) (st_pos s)))). rewrite E4 in H2. destruct H2 as (l & L & H2). exists l. split; [done|].
    intros HN HJ. destruct (H2 HN HJ) as (HJ' & HT' & HC). split; [done|]. split; [done|]. intros c i Hc. specialize (HC c i Hc).
    destruct (bool_decide_reflect (cb = Some c)) as [Hcb|]; [|rewrite bool_decide_eq_false_2 by done; exact HC].
    destruct (Hown c i Hcb Hc) as [? _]. congruence. }
  apply bind_inv in Em as (a & s1 & EG & Em). apply bind_inv in Em as (sp & s2 & E2 & Em). injection E2 as <- <-.
  apply bind_inv in Em as (f0 & s3 & E3 & Em). unfold get_fr in E3. destruct (s_fheap s1 !! a) as [g0|] eqn:EA; [|done]. injection E3 as <- <-.
  apply bind_inv in Em as (u & s4 & E4 & Em). apply bind_inv in Em as (f & s5 & E5 & Em).
  unfold get_fr in E5. destruct (s_fheap s4 !! a) as [g4|] eqn:EA4; [|done]. injection E5 as <- <-.
  assert (s_log s1 = s_log s /\ st_pos s1 = st_pos s) as [L1 P1].
  { unfold get_frame in EG. destruct (table_get _ _ _) as [[b|]|]; [by injection EG as _ <-|by injection EG as _ <-|done]. }
  assert (s_log s4 = s_log s1 /\ s_frames s4 = s_frames s1 /\ (J s1 -> table_get (s_frames s1) (st_pos s) (i_id (n_info n)) = Some (Some a) -> J s4)) as (L4 & T4 & J4).
  { destruct (Z.ltb_spec (f_stage g0) 0) as [Hlt|].
    - apply (upd_inv a (fun f => fr_stage f 0)) in E4 as (f6 & Ha6 & ->). split; [done|]. split; [done|]. intros HJ HT.
      assert (f6 = g0) as -> by congruence. eapply J_put; [exact HT|exact EA|done|done| |done].
      intros _ [?|[? ?]]; lia.
    - injection E4 as _ <-. auto. }
  assert (J s -> J s4 /\ tkeep s s4 /\ table_get (s_frames s4) (st_pos s) (i_id (n_info n)) = Some (Some a)) as HJ4.
  { intros HJ. destruct (J_get_frame _ _ _ _ EG HJ) as (HJ1 & HK & HT). split; [by apply J4|]. unfold tkeep. by rewrite T4. }
  clear E4 J4.
  destruct (Z.eqb_spec (f_stage g4) 0) as [Hs0|Hs0].
  - destruct (f_end g4) as [e|] eqn:EE.
    + apply bind_inv in Em as (v8 & s8 & E8 & Em). apply log_if_same in E8 as ->. apply bind_inv in Em as (v9 & s9 & E9 & Em). injection Em as _ <-.
      unfold set_pos in E9. destruct (c_set_pos _ _); [|done|done]. injection E9 as _ <-. exists []. split; [cbn; congruence|].
      intros _ HJ. destruct (HJ4 HJ) as (HJ' & HK & _). split; [by eapply (J_same s4)|]. split; [exact HK|apply counted_nil].
    + apply bind_inv in Em as (v8 & s8 & E8 & Em). apply bind_inv in Em as (v9 & s9 & E9 & Em). apply bind_inv in Em as (v10 & s10 & E10 & Em).
      injection E10 as _ <-. apply bind_inv in Em as (r1 & s11 & E11 & Em). apply bind_inv in Em as (f12 & s12 & E12 & Em).
      apply (upd_inv a (fun f => fr_stage f 1)) in E8 as (f8 & Ha8 & ->). apply (upd_inv a (fun f => fr_cache f None None)) in E9 as (f9 & Ha9 & ->).
      cbn in Ha9. rewrite list_lookup_insert in Ha9 by (by eapply lookup_lt_Some). injection Ha9 as <-. assert (f8 = g4) as -> by congruence.
      set (s9 := add_log _ _) in E11. assert (s_log s9 = EvBody (i_id (n_info n)) (st_pos s1) :: s_log s4) as HL9 by done.
      assert (s_fheap s9 !! a = Some (fr_cache (fr_stage g4 1) None None)) as Ha9.
      { cbn. rewrite list_lookup_insert; [done|]. rewrite insert_length. by eapply lookup_lt_Some. }
      assert (J s -> J s9 /\ tkeep s s9 /\ table_get (s_frames s9) (st_pos s) (i_id (n_info n)) = Some (Some a)) as HJ9.
      { intros HJ. destruct (HJ4 HJ) as (HJ4' & HK & HT). assert ((i_id (n_info n), st_pos s) ∉ bodies (s_log s4)) as Hnew.
        { intros Hin. destruct HJ4' as [A B C]. destruct (B _ _ Hin) as (b & g & Hb & Hg & [Hs|[_ Hs]]); simplify_eq; congruence. }
        split; [|split; [exact HK|exact HT]].
        pose proof (J_put s4 _ _ a g4 (fr_stage g4 1) HT EA4 eq_refl eq_refl (fun H => False_rect _ (Hnew H)) HJ4') as J8.
        pose proof (J_put (set_fheap s4 (<[a:=fr_stage g4 1]> (s_fheap s4))) (st_pos s) (i_id (n_info n)) a (fr_stage g4 1) (fr_cache (fr_stage g4 1) None None) HT) as J9.
        cbn in J9. rewrite list_lookup_insert in J9 by (by eapply lookup_lt_Some).
        specialize (J9 eq_refl eq_refl eq_refl (fun H => False_rect _ (Hnew H)) J8). destruct J9 as [A B C]. cbn in A, B, C. split.
        - exact A.
        - intros j q Hin. rewrite HL9 in Hin. cbn in Hin. apply elem_of_cons in Hin as [Hin|Hin].
          + injection Hin as -> ->. exists a, (fr_cache (fr_stage g4 1) None None). rewrite P1. split; [done|]. split; [exact Ha9|by left].
          + by apply B.
        - rewrite HL9. cbn. constructor; [by rewrite P1|done]. }
      clearbody s9. pose proof (H2 s9) as HH. rewrite E11 in HH. destruct HH as (l & L11 & HC).
      assert (J s -> f_stage f12 = 1%Z \/ exists i q, EvRec i q ∈ l) as Hst.
      { intros HJ. destruct (HJ9 HJ) as (J9 & _). specialize (H1 s9). rewrite E11 in H1. destruct (H1 (J_G0 _ J9)) as (_ & l' & L' & K).
        assert (l' = l) as -> by (rewrite L11 in L'; by apply app_inv_tail in L').
        destruct (K _ _ Ha9) as (f' & Ha' & _ & Sf). unfold get_fr in E12. rewrite Ha' in E12. injection E12 as <- <-.
        destruct (Sf ltac:(done) eq_refl) as [?|[i ?]]; eauto. }
      unfold get_fr in E12. destruct (s_fheap s11 !! a) as [g12|] eqn:EA12; [|done]. injection E12 as <- <-.
      assert (counted cb l -> counted None (l ++ [EvBody (i_id (n_info n)) (st_pos s1)])) as Hcnt.
      { intros Hcn c i Hc. specialize (Hcn c i Hc). rewrite calls_app_n, runs_app_n, (bool_decide_eq_false_2 (None = Some c)) by done.
        destruct (bool_decide_reflect (cb = Some c)) as [Hcb|].
        - destruct (Hown c i Hcb Hc) as [_ <-]. unfold calls_of at 2, runs_of at 2. cbn. rewrite Nat.eqb_refl. cbn. lia.
        - unfold calls_of at 2. cbn. lia. }
      destruct (Z.eqb_spec (f_stage g12) 1) as [Hs1|Hs1].
      * apply bind_inv in Em as (v13 & s13 & E13 & Em). apply bind_inv in Em as (p & s14 & E14 & Em). injection E14 as <- <-.
        apply bind_inv in Em as (v15 & s15 & E15 & Em). apply bind_inv in Em as (v16 & s16 & E16 & Em). apply log_if_same in E16 as ->.
        injection Em as -> ->. apply (upd_inv a (fun f => fr_stage f 0)) in E13 as (f13 & Ha13 & ->).
        apply (upd_inv a (fun f => fr_cache f r (Some (st_pos _)))) in E15 as (f15 & Ha15 & ->).
        cbn in Ha15. rewrite list_lookup_insert in Ha15 by (by eapply lookup_lt_Some). injection Ha15 as <-. assert (f13 = g12) as -> by congruence.
        exists (l ++ [EvBody (i_id (n_info n)) (st_pos s1)]). split.
        { cbn. rewrite L11, HL9, L4, L1, <- app_assoc. done. }
        intros [_ HN]%norec_app HJ. destruct (HJ9 HJ) as (J9 & K9 & HT9). destruct (HC HN J9) as (J11 & K11 & HCl). split; [|split; [|by apply Hcnt]].
        -- cbn. rewrite list_insert_insert. eapply (J_put s11 _ _ a g12); [by apply K11|done..| |done]. intros _ _. by right.
        -- intros q j b Hb. apply K11, K9, Hb.
      * assert (exists l12, s_log s' = l12 ++ s_log s11) as [l12 L12].
        { match type of Em with ?k s11 = _ => assert (pre Rlog X2 k) as HP end.
          { lg H2. }
          specialize (HP s11). by rewrite Em in HP. }
        exists (l12 ++ l ++ [EvBody (i_id (n_info n)) (st_pos s1)]). split.
        { rewrite L12, L11, HL9, L4, L1, <- !app_assoc. done. }
        intros [[_ HN]%norec_app _]%norec_app HJ. exfalso. destruct (Hst HJ) as [?|(i & q & Hi)]; [done|]. by apply (HN i q).
  - destruct (_ || _)%bool; [|done]. apply bind_inv in Em as (v8 & s8 & E8 & Em). apply bind_inv in Em as (v9 & s9 & E9 & Em). injection E9 as _ <-.
    assert (s_log s8 = s_log s4) as L8.
    { destruct (_ =? _)%Z; [|by injection E8 as _ <-]. apply (upd_inv a (fun f => fr_stage f 2)) in E8 as (f8 & Ha8 & ->). done. }
    assert (exists l, s_log s' = l ++ EvRec (i_id (n_info n)) (st_pos s1) :: s_log s8) as [l L].
    { match type of Em with ?k ?x = _ => assert (pre Rlog X2 k) as HP; [|specialize (HP x)] end.
      { lg H2. }
      by rewrite Em in HP. }
    exists (l ++ [EvRec (i_id (n_info n)) (st_pos s1)]). split.
    { rewrite L, L8, L4, L1, <- app_assoc. done. }
    intros [HN _]%norec_app _. exfalso. by apply (HN (i_id (n_info n)) (st_pos s1)), elem_of_list_here.
Qed.

Lemma prep_R2 fp n : pre2 fp -> pre (R2 (i_cb (n_info n))) X2 (prepare_result E fp n).
Proof.
  intros Hfp s. destruct (prepare_result E fp n s) as [r s'| |] eqn:H; [|done|done].
  unfold prepare_result in H. apply bind_inv in H as (u & s0 & E0 & H). injection E0 as _ <-. apply bind_inv in H as (r1 & s1 & E1 & H).
  assert (R2 None s s1) as H1.
  { eapply R2_trans; [|specialize (Hfp (set_counter s (S (s_counter s)))); rewrite E1 in Hfp; exact Hfp]. by apply R2_same. }
  assert (forall x s1 s2, R2 None s1 s2 -> R2 x s1 s2) as Hweak.
  { intros x t1 t2 (l & L & HH). exists l. split; [done|]. intros HN HJ. destruct (HH HN HJ) as (? & ? & HC). split; [done|]. split; [done|].
    intros c i Hc. specialize (HC c i Hc). rewrite (bool_decide_eq_false_2 (None = Some c)) in HC by done. lia. }
  destruct r1 as [x|]; [|injection H as <- <-; by apply Hweak]. apply bind_inv in H as (x1 & s2 & E2 & H).
  assert (R2 None s1 s2) as H2.
  { assert (pre2 (wrap_label (n_info n) x)) as HW by (apply (pre_wrap_label (R2 None) X2); fw). specialize (HW s1). rewrite E2 in HW. exact HW. }
  apply bind_inv in H as (r2 & s3 & E3 & H).
  assert (R2 (i_cb (n_info n)) s2 s3) as H3.
  { unfold call_cb in E3. destruct (i_cb (n_info n)) as [c|] eqn:EC; [|injection E3 as _ <-; apply R2_refl].
    apply bind_inv in E3 as (p & s4 & E4 & E3). injection E4 as <- <-. apply bind_inv in E3 as (v & s5 & E5 & E3). injection E5 as _ <-.
    destruct (e_cb E c _ _ x1) as [h y|]; [|done]. injection E3 as _ <-. exists [EvCb c (st_pos s2)]. split; [done|].
    intros _ [A B C]. split; [by split|]. split; [by intros q j b|]. intros d i Hd. unfold calls_of, runs_of. cbn.
    destruct (Nat.eqb_spec c d) as [->|]; cbn; [|lia]. by rewrite bool_decide_eq_true_2. }
  assert (R2 (i_cb (n_info n)) s s3) as Hs3.
  { apply (R2_trans_gen None (i_cb (n_info n)) s s2 s3); [by left| |done]. by eapply R2_trans. }
  destruct r2 as [y|]; [|injection H as <- <-; exact Hs3].
  assert (R2 None s3 s') as H4.
  { match type of H with ?k _ = _ => assert (pre2 k) as HP end.
    { apply (pre_bind (R2 None) X2); [fw..|apply (pre_peek (R2 None) X2); fw|]. intros fr.
      apply (pre_bind (R2 None) X2); [fw..|apply (pre_gets (R2 None) X2); fw|]. intros p.
      apply (pre_bind (R2 None) X2); [fw..|apply (pre_gets (R2 None) X2); fw|]. intros c.
      apply (pre_bind (R2 None) X2); [fw..|apply (pre_lift (R2 None) X2); fw; apply nup_line|]. intros l.
      apply (pre_bind (R2 None) X2); [fw..|apply (pre_set_origin (R2 None) X2); fw|]. intros v. apply (pre_ret (R2 None) X2); fw. }
    specialize (HP s3). by rewrite H in HP. }
  pose proof (R2_trans_gen (i_cb (n_info n)) None s s3 s' ltac:(by right) Hs3 H4) as HF. by destruct (i_cb (n_info n)).
Qed.

Variable P : node -> Prop.
Hypothesis HPch : forall n c, P n -> c ∈ children n -> P c.
Hypothesis HPru : forall name n, e_rule E name = Some n -> P n.
Hypothesis HPcb : forall n c i, P n -> i_cb (n_info n) = Some c -> own c = Some i ->
  i_isrule (n_info n) = true /\ i_skip (n_info n) = false /\ i_id (n_info n) = i.

Lemma parse_R2 fuel : forall n, P n -> pre2 (parse E fuel n).
Proof.
  induction fuel as [|fuel IH]; intros n Hn; cbn [parse]; [done|].
  assert (pre2 (wrap E (parse E fuel) fuel n)) as Hw.
  { assert (pre2 (body E (parse E fuel) fuel n)) as Hb.
    { apply (pre_body_in (R2 None) X2); fw.
      - intros m Hm. apply IH. by eapply HPch.
      - intros name m Hm. apply IH. by eapply HPru. }
    pose proof (prep_R2 _ n Hb) as Hp. unfold wrap. destruct (i_isrule (n_info n)) eqn:ER.
    - intros s. destruct (stack_ _ n s) as [r s'| |] eqn:H; [|done|done]. unfold stack_ in H. apply bind_inv in H as (u & s1 & E1 & H).
      apply bind_inv in H as (r1 & s2 & E2 & H). apply bind_inv in H as (u3 & s3 & E3 & H). injection E3 as _ <-. injection H as -> <-.
      apply bind_inv in E1 as (a0 & s0 & EG & E1). destruct (_ <=? _); [done|]. injection E1 as _ <-.
      assert (R2 None s s0) as H0.
      { exists []. split.
        - unfold get_frame in EG. destruct (table_get _ _ _) as [[b|]|]; [by injection EG as _ <-|by injection EG as _ <-|done].
        - intros _ HJ. destruct (J_get_frame _ _ _ _ EG HJ) as (HJ' & HK & _). split; [done|]. split; [done|]. apply counted_nil. }
      eapply R2_trans; [exact H0|]. eapply (R2_trans _ (set_stack s0 (a0 :: s_stack s0))); [by apply R2_same|].
      apply (R2_trans _ s2); [|by apply R2_same]. eapply rule_R2; [exact Hp|apply prep_R1| |exact E2].
      intros c i Hc Hi. by destruct (HPcb n c i Hn Hc Hi) as (_ & ? & ?).
    - destruct (_ || _)%bool; [|done]. intros s. specialize (Hp s). destruct (prepare_result _ _ n s) as [r s'| |]; [|done|done].
      destruct Hp as (l & L & HH). exists l. split; [done|]. intros HN HJ. destruct (HH HN HJ) as (? & ? & HC). split; [done|]. split; [done|].
      intros c i Hc. specialize (HC c i Hc). destruct (bool_decide_reflect (i_cb (n_info n) = Some c)) as [Hcb|].
      + destruct (HPcb n c i Hn Hcb Hc). congruence.
      + by rewrite (bool_decide_eq_false_2 (None = Some c)). }
  destruct (n_kind n); try exact Hw. intros s. apply R2_refl.
Qed.
End Linear.

Lemma J_init c N : J (init_st c N).
Proof.
  split; cbn.
  - intros p i a. unfold table_get. intros H. exfalso. destruct (replicate _ _ !! p) as [row|] eqn:ER; [|done].
    apply lookup_replicate in ER as [-> _]. by apply lookup_replicate in H as [[=] _].
  - intros i p H. by apply elem_of_nil in H.
  - constructor.
Qed.

Section Top.
Variable E : env.
Variable root : node.
Variable c : code.

Lemma runs_once fuel r s' : parse E fuel root (init_st c (e_nrules E)) = Ok r s' -> norec (s_log s') -> NoDup (bodies (s_log s')).
Proof.
  intros H HN. pose proof (parse_R2 E (fun _ => None) (fun _ => True) ltac:(done) ltac:(done) ltac:(done) fuel root I (init_st c (e_nrules E))) as HP.
  rewrite H in HP. destruct HP as (l & L & HP). cbn in L. rewrite app_nil_r in L. rewrite <- L in HP.
  apply HP; [done|]. apply J_init.
Qed.
Lemma calls_once fuel r s' d i : cb_of_rule E root d i ->
  parse E fuel root (init_st c (e_nrules E)) = Ok r s' -> norec (s_log s') -> calls_of d (s_log s') <= runs_of i (s_log s').
Proof.
  intros Hd H HN.
  pose proof (parse_R2 E (fun e => if e =? d then Some i else None) (reach E root) ltac:(by intros; eapply reach_child) ltac:(by intros; eapply reach_rule)) as HP.
  cbv beta in HP. match type of HP with ?A -> _ => assert A as HA; [|specialize (HP HA)] end.
  { intros n e j Hn He Hj. destruct (Nat.eqb_spec e d) as [->|]; [|discriminate]. injection Hj as <-. by apply Hd. }
  specialize (HP fuel root ltac:(constructor) (init_st c (e_nrules E))).
  rewrite H in HP. destruct HP as (l & L & HP). cbn in L. rewrite app_nil_r in L. rewrite <- L in HP.
  destruct (HP HN (J_init _ _)) as (_ & _ & HC). specialize (HC d i). cbv beta in HC. rewrite Nat.eqb_refl in HC. specialize (HC eq_refl).
  rewrite (bool_decide_eq_false_2 (None = Some d)) in HC by done. lia.
Qed.

Lemma runs_bodies i l : runs_of i l = length (List.filter (fun b => fst b =? i) (bodies l)).
Proof.
  induction l as [|e l IH]; [done|]. unfold runs_of, bodies in *. cbn in IH. destruct e as [j p|j p|j p|j p]; cbn; try exact IH.
  destruct (j =? i); cbn; by rewrite IH.
Qed.
Lemma bodies_in i p l : (i, p) ∈ bodies l <-> EvBody i p ∈ l.
Proof.
  induction l as [|e l IH]; cbn; [split; intros H; by apply elem_of_nil in H|]. rewrite elem_of_app, elem_of_cons, IH.
  destruct e; cbn; try rewrite elem_of_nil; try rewrite elem_of_list_singleton; naive_solver.
Qed.

Hypothesis Hrx : forall re, rx_ok (e_rx E re).
Hypothesis Hc : code_ok c.
Hypothesis Hcp : c_pos c <= length (c_work c).
Hypothesis Hfit : ids_fit E root.
Hypothesis Htop : top_ok root.
(** Every evaluated body is that of a rule of the grammar, within the text. *)
Lemma bodies_bound fuel r s' : parse E fuel root (init_st c (e_nrules E)) = Ok r s' -> norec (s_log s') ->
  forall i p, (i, p) ∈ bodies (s_log s') -> i < e_nrules E /\ p <= length (c_work c).
Proof.
  intros H HN i p Hin. pose proof (parse_R2 E (fun _ => None) (fun _ => True) ltac:(done) ltac:(done) ltac:(done) fuel root I (init_st c (e_nrules E))) as HP.
  rewrite H in HP. destruct HP as (l & L & HP). cbn in L. rewrite app_nil_r in L. rewrite <- L in HP.
  destruct (HP HN (J_init _ _)) as ([_ B _] & _). destruct (B _ _ Hin) as (a & f & Ha & _).
  destruct (mon_eq E root c Hrx Hc Hcp Hfit Htop (fun _ _ => false) (fun _ _ => true) (fun _ _ _ _ => true) fuel) as [_ HT]; [done..|].
  unfold tr in HT. rewrite H in HT. destruct HT as ((HG & _) & _). unfold table_get in Ha.
  destruct (s_frames s' !! p) as [row|] eqn:ER; [|done]. split.
  - pose proof (gi_rows _ _ _ _ HG) as HR. rewrite Forall_lookup in HR. rewrite <- (HR _ _ ER). by eapply lookup_lt_Some.
  - apply lookup_lt_Some in ER. rewrite (gi_len _ _ _ _ HG) in ER. lia.
Qed.
Lemma bodies_count fuel r s' : parse E fuel root (init_st c (e_nrules E)) = Ok r s' -> norec (s_log s') ->
  length (bodies (s_log s')) <= e_nrules E * (length (c_work c) + 1).
Proof.
  intros H HN. pose proof (runs_once _ _ _ H HN) as HD. pose proof (bodies_bound _ _ _ H HN) as HB.
  transitivity (length (list_prod (seq 0 (e_nrules E)) (seq 0 (length (c_work c) + 1)))).
  - apply NoDup_incl_length; [by apply NoDup_ListNoDup|]. intros [i p] Hin. apply elem_of_list_In in Hin. apply HB in Hin as [H1 H2].
    apply in_prod; apply in_seq; lia.
  - rewrite prod_length, !seq_length. lia.
Qed.
Lemma runs_count fuel r s' i : parse E fuel root (init_st c (e_nrules E)) = Ok r s' -> norec (s_log s') ->
  runs_of i (s_log s') <= length (c_work c) + 1.
Proof.
  intros H HN. pose proof (runs_once _ _ _ H HN) as HD. pose proof (bodies_bound _ _ _ H HN) as HB. rewrite runs_bodies.
  transitivity (length (list_prod [i] (seq 0 (length (c_work c) + 1)))).
  - apply NoDup_incl_length; [apply List.NoDup_filter; by apply NoDup_ListNoDup|]. intros [j p] Hin. apply filter_In in Hin as [Hin Hj].
    apply elem_of_list_In in Hin. apply HB in Hin as [H1 H2]. apply Nat.eqb_eq in Hj. cbn in Hj. subst j.
    apply in_prod; [by left|apply in_seq; lia].
  - rewrite prod_length, seq_length. cbn. lia.
Qed.
End Top.
