(** Origins; monitors that may use what a call computes. *)
From Verif Require Import Base Helpers Utf8 Stream StreamSpec Native Engine EngSpec EngInv EngMon CombProofs Pre LogSpec LogProofs Stages.

(** ** Monitors *)
Section Mon2.
Variable E : env.
Variable root : node.
Variable c : code.
Hypothesis Hrx : forall re, rx_ok (e_rx E re).
Hypothesis Hc : code_ok c.
Hypothesis Hcp : c_pos c <= length (c_work c).
Hypothesis Hfit : ids_fit E root.
Hypothesis Htop : top_ok root.
Notation G := (GI (fun _ _ => false) (e_nrules E) c).
Notation Pok := (post_ok (e_nrules E) c (fun _ _ => false)).
Notation XPc := (XP c E).
Variable pre : node -> st -> bool.
Variable post : node -> st -> option ast -> st -> bool.
Hypothesis Hpre : forall n s, reach E root n -> G s -> pre n s = true.
Hypothesis Hpost : forall fuel n s r s', reach E root n -> G s -> Pok n s r s' -> parse E fuel n s = Ok r s' -> post n s r s' = true.

Lemma checked_ok2 m fuel n s : reach E root n -> G s -> tr m s (Pok n s) XPc -> le m (parse E fuel n) ->
  tr (checked pre post m n) s (Pok n s) XPc.
Proof.
  intros Hn HG Hm Hle. unfold tr, checked in *. rewrite (Hpre _ _ Hn HG).
  destruct (Hle s) as [[s' HV]|HV].
  { rewrite HV in Hm |- *. done. }
  destruct (m s) as [r s'|p s'|]; [|done|done]. rewrite (Hpost fuel _ _ _ _ Hn HG Hm); [done|by rewrite <- HV].
Qed.
Lemma le_mon_step fuel n : le (match n_kind n with KUndef => ret (Some AUndef) | _ => wrap E (parse_mon E pre post fuel) fuel n end) (parse E (S fuel) n).
Proof.
  cbn [parse]. destruct (n_kind n); try apply le_wrap; try apply le_parse_mon. apply le_refl.
Qed.
Lemma parse_mon_ok2 fuel : forall n s, reach E root n -> G s -> s_stack s <> [] \/ i_isrule (n_info n) = true ->
  tr (parse_mon E pre post fuel n) s (Pok n s) XPc.
Proof.
  induction fuel as [|fuel IH]; intros n s Hn HG Hne; cbn [parse_mon]; [by apply (checked_ok2 _ 0); [..|apply le_refl]|].
  apply (checked_ok2 _ (S fuel)); [done|done| |apply le_mon_step].
  destruct (n_kind n) eqn:EK;
    try (apply (wrap_ok (e_nrules E) c (fun _ _ => false) E eq_refl Hrx (code_ok_lines c Hc) (reach E root)); [by intros; eapply reach_child|by intros; eapply reach_rule
      |by intros; apply Hfit|done|done|done|done|done]).
  apply tr_ret. split; [by apply GR_refl|]. split; done.
Qed.
Lemma mon_eq2 fuel :
  parse_mon E pre post fuel root (init_st c (e_nrules E)) = parse E fuel root (init_st c (e_nrules E)).
Proof.
  assert (G (init_st c (e_nrules E))) as HG by (by apply init_G).
  assert (tr (parse_mon E pre post fuel root) (init_st c (e_nrules E)) (Pok root (init_st c (e_nrules E))) XPc) as HT.
  { destruct Htop as [ER|(l & HK & HL & HC & HF)].
    { apply parse_mon_ok2; [constructor|done|by right]. }
    destruct (i_isrule (n_info root)) eqn:ER.
    { apply parse_mon_ok2; [constructor|done|by right]. }
    destruct fuel as [|fuel]; cbn [parse_mon]; [by apply (checked_ok2 _ 0); [constructor|..|apply le_refl]|].
    apply (checked_ok2 _ (S fuel)); [constructor|done| |apply le_mon_step]. rewrite HK.
    eapply (top_ok_inv (e_nrules E) c (fun _ _ => false) E (reach E root)); try done;
      [by intros; eapply reach_child|by apply parse_mon_ok2|constructor]. }
  destruct (le_parse_mon E pre post fuel root (init_st c (e_nrules E))) as [[s' HV]|HV]; [|done].
  exfalso. unfold tr in HT. rewrite HV in HT. destruct HT as [HT _]. apply HT. left.
Qed.
End Mon2.

(** ** The stack *)
Definition Rstk (s s' : st) : Prop := s_stack s' = s_stack s.
Definition Xany (p : panic) (s s' : st) : Prop := True.
Lemma stack_pre E fuel n : pre Rstk Xany (parse E fuel n).
Proof.
  assert (forall s1 s2 s3, Rstk s1 s2 -> Rstk s2 s3 -> Rstk s1 s3) as HT by (unfold Rstk; congruence).
  apply (pre_parse Rstk Xany); try done.
  - intros i x s. unfold call_cb. destruct (i_cb i); [|done]. unfold bind, get_pos, gets, emit. by destruct (e_cb E _ _ _ _).
  - intros m k Hm s. destruct (stack_ m k s) as [r s'| |] eqn:EM; [|done|done].
    apply bind_inv in EM as (u & s1 & E1 & EM). apply bind_inv in EM as (r1 & s2 & E2 & EM). apply bind_inv in EM as (u3 & s3 & E3 & EM).
    injection E3 as _ <-. injection EM as <- <-. apply bind_inv in E1 as (a & s0 & EG & E1).
    assert (s_stack s0 = s_stack s) as HS1.
    { unfold get_frame in EG. destruct (table_get _ _ _) as [[b|]|]; [by injection EG as _ <-|by injection EG as _ <-|done]. }
    destruct (_ <=? _); [done|]. injection E1 as _ <-. specialize (Hm (set_stack s0 (a :: s_stack s0))). rewrite E2 in Hm.
    unfold Rstk in *. cbn in *. rewrite Hm. done.
Qed.
Lemma stack_parse E fuel n s r s' : parse E fuel n s = Ok r s' -> s_stack s' = s_stack s.
Proof. intros H. pose proof (stack_pre E fuel n s) as HP. by rewrite H in HP. Qed.

(** ** Origins *)
Lemma prepare_origin E fp n s r s' a fr : prepare_result E fp n s = Ok r s' ->
  s_stack s' = a :: tail (s_stack s') -> s_fheap s' !! a = Some fr ->
  match r with
  | Some (AObj b) => exists o, s_heap s' !! b = Some o /\ at_code (o_attr o) = c_code (s_code s') /\ at_start (o_attr o) = f_pos fr /\
      at_end (o_attr o) = st_pos s' /\ c_line (s_code s') = ROk (at_line (o_attr o))
  | _ => True
  end.
Proof.
  intros H HS Hfr. unfold prepare_result in H. apply bind_inv in H as (u & s0 & E0 & H). apply bind_inv in H as (r1 & s1 & E1 & H).
  destruct r1 as [x|]; [|by injection H as <- <-]. apply bind_inv in H as (x1 & s2 & E2 & H). apply bind_inv in H as (r2 & s3 & E3 & H).
  destruct r2 as [y|]; [|by injection H as <- <-]. apply bind_inv in H as (f & s4 & E4 & H). apply bind_inv in H as (p & s5 & E5 & H).
  injection E5 as <- <-. apply bind_inv in H as (c & s6 & E6 & H). injection E6 as <- <-. apply bind_inv in H as (l & s7 & E7 & H).
  apply bind_inv in H as (v & s8 & E8 & H). injection H as <- <-.
  destruct y as [| | | |b| |]; try done. unfold lift in E7. destruct (c_line (s_code s4)) as [k| |] eqn:EL; [|done|done]. injection E7 as -> <-.
  cbn [set_origin] in E8. unfold bind, read_obj in E8. destruct (s_heap s4 !! b) as [ob|] eqn:EB; [|done]. unfold write_obj in E8. injection E8 as _ <-.
  cbn in *. unfold stack_peek in E4.
  assert (s4 = s3 /\ s_stack s3 <> [] /\ forall b, s_stack s3 = b :: tail (s_stack s3) -> s_fheap s3 !! b = Some f) as (-> & _ & HF).
  { destruct (s_stack s3) as [|b0 stk]; [done|]. unfold get_fr in E4. destruct (s_fheap s3 !! b0) as [g|] eqn:EG; [|done]. injection E4 as -> ->.
    split; [done|]. split; [done|]. intros b1 Hb. by injection Hb as ->. }
  rewrite list_lookup_insert by (by eapply lookup_lt_Some). eexists. split; [done|]. cbn. rewrite (HF _ HS) in Hfr. injection Hfr as ->.
  done.
Qed.


Definition keeps {A} (m : M A) : Prop := forall s, match m s with Ok _ s' => s' = s | _ => True end.
Lemma keeps_bind {A B} (m : M A) (k : A -> M B) : keeps m -> (forall a, keeps (k a)) -> keeps (bind m k).
Proof.
  intros H1 H2 s. unfold bind. specialize (H1 s). destruct (m s) as [a s1| |]; [|done|done]. subst s1. apply (H2 a s).
Qed.
Lemma keeps_lift {A} (r : res A) : keeps (lift r).
Proof. intros s. unfold lift. by destruct r. Qed.
Lemma keeps_ret {A} (a : A) : keeps (ret a).
Proof. done. Qed.
Lemma keeps_log E : keeps (log_ E).
Proof.
  unfold log_. destruct (e_skiplog E); [done|]. apply keeps_bind; [done|]. intros c. apply keeps_bind.
  { destruct (_ =? _)%Z; [done|]. apply keeps_bind; [apply keeps_lift|done]. }
  intros []; [|done]. repeat (apply keeps_bind; [apply keeps_lift|intros ?]). done.
Qed.
Lemma log_if_same E b s u s' : log_if E b s = Ok u s' -> s' = s.
Proof. unfold log_if. destruct b; [|by injection 1 as _ <-]. intros H. pose proof (keeps_log E s) as HK. by rewrite H in HK. Qed.

Section Origins.
Variable E : env.
Lemma prep_stack fuel n : pre Rstk Xany (prepare_result E (body E (parse E fuel) fuel n) n).
Proof.
  assert (forall s1 s2 s3, Rstk s1 s2 -> Rstk s2 s3 -> Rstk s1 s3) as HT by (unfold Rstk; congruence).
  apply (pre_prepare Rstk Xany); try done.
  - apply (pre_body Rstk Xany); try done. apply stack_pre.
  - intros x s. unfold call_cb. destruct (i_cb _); [|done]. unfold bind, get_pos, gets, emit. by destruct (e_cb E _ _ _ _).
Qed.
Lemma prep_R1 fuel n : pre (R1 None) X1 (prepare_result E (body E (parse E fuel) fuel n) n).
Proof.
  apply (pre_prepare (R1 None) X1); try done; try apply R1_refl; try apply R1_trans; try apply R1_core.
  - apply (pre_body (R1 None) X1); try done; try apply R1_refl; try apply R1_trans; try apply R1_core. apply p1_parse.
  - intros x. unfold call_cb. destruct (i_cb _); [|apply p1_ret].
    apply p1_bind; [apply p1_gets|]. intros p. apply p1_bind; [apply p1_emit|]. intros _ s. destruct (e_cb E _ _ _ _); [by apply R1_same|done].
Qed.

Lemma rec_event l i p : existsb (is_rec_at p) l = false -> EvRec i p ∈ l -> False.
Proof.
  intros H Hin. apply elem_of_list_In in Hin. assert (existsb (is_rec_at p) l = true); [|congruence].
  apply existsb_exists. eexists. split; [exact Hin|]. cbn. apply Nat.eqb_refl.
Qed.
Lemma ran_inv n s s' l : s_log s' = l ++ s_log s -> ran_body n s s' = true ->
  (exists e l', l = l' ++ [e] /\ is_run (i_id (n_info n)) (st_pos s) e = true) /\ forall i, EvRec i (st_pos s) ∉ l.
Proof.
  intros HL. unfold ran_body. rewrite (new_log_app _ _ _ HL). intros [H1 H2]%andb_prop. apply negb_true_iff in H2.
  split; [|intros i Hi; exact (rec_event _ _ _ H2 Hi)].
  destruct (last l) as [e|] eqn:EL; [|done]. apply last_Some in EL as [l' ->]. eauto.
Qed.

(** The computation [fp] of a rule's result, under the frame at [a0]. *)
Lemma fp_origin fuel n s r s' a0 f0 :
  G0 s -> s_stack s = a0 :: tail (s_stack s) -> s_fheap s !! a0 = Some f0 ->
  prepare_result E (body E (parse E fuel) fuel n) n s = Ok r s' ->
  forall s0, st_pos s0 = f_pos f0 -> origin_is s0 r s' = true.
Proof.
  intros HG HS Ha Hp s0 HP. pose proof (prep_stack fuel n s) as H1. rewrite Hp in H1. pose proof (prep_R1 fuel n s) as H2. rewrite Hp in H2.
  destruct (H2 HG) as (_ & l & _ & K). destruct (K _ _ Ha) as (f' & Ha' & Pf & _).
  assert (s_stack s' = a0 :: tail (s_stack s')) as HS' by (unfold Rstk in H1; rewrite H1; exact HS).
  pose proof (prepare_origin _ _ _ _ _ _ _ _ Hp HS' Ha') as HO. destruct r as [[| | | |b| |]|]; try done.
  destruct HO as (o & Ho & O1 & O2 & O3 & O4). unfold origin_is. rewrite Ho, O2, O3, HP, Pf, !Nat.eqb_refl. unfold line_is. rewrite O4, Z.eqb_refl.
  by rewrite bool_decide_eq_true_2.
Qed.

Lemma frame_at i s a s1 : G0 s -> get_frame i s = Ok a s1 ->
  G0 s1 /\ s_log s1 = s_log s /\ s_stack s1 = s_stack s /\ s_code s1 = s_code s /\ s_heap s1 = s_heap s /\
  exists f, s_fheap s1 !! a = Some f /\ f_pos f = st_pos s.
Proof.
  intros HG EG. pose proof (p1_get_frame None i s) as H1. rewrite EG in H1. destruct (H1 HG) as (G1 & _).
  split; [done|]. unfold get_frame in EG. destruct (table_get _ _ _) as [[b|]|] eqn:ET; [| |done].
  - injection EG as -> ->. destruct (HG _ _ _ ET) as (f & Hf & Pf). repeat split. by exists f.
  - injection EG as <- <-. repeat split. exists (new_frame (st_pos s) i). cbn. by rewrite lookup_app_r, Nat.sub_diag by lia.
Qed.
Lemma upd_inv a (g : frame -> frame) s u s' : (do! f := get_fr a in put_fr a (g f)) s = Ok u s' ->
  exists f, s_fheap s !! a = Some f /\ s' = set_fheap s (<[a := g f]> (s_fheap s)).
Proof. unfold bind, get_fr. destruct (s_fheap s !! a) as [f|]; [|done]. injection 1 as _ <-. by exists f. Qed.

(** A rule that ran its body, not met in progress meanwhile, gives what it
    computed. *)
Lemma ran_fp fuel n s r s' : i_isrule (n_info n) = true -> G0 s -> parse E (S fuel) n s = Ok r s' ->
  ran_body n s s' = true ->
  exists s1 s2 a0 f0, G0 s1 /\ s_stack s1 = a0 :: tail (s_stack s1) /\ s_fheap s1 !! a0 = Some f0 /\ f_pos f0 = st_pos s /\
    s_code s1 = s_code s /\ s_heap s1 = s_heap s /\
    prepare_result E (body E (parse E fuel) fuel n) n s1 = Ok r s2 /\ s_code s' = s_code s2 /\ s_heap s' = s_heap s2.
Proof.
  intros HR HG H Hran. cbn [parse] in H.
  assert (wrap E (parse E fuel) fuel n s = Ok r s') as Hw.
  { destruct (n_kind n); try exact H. exfalso. injection H as _ <-. destruct (ran_inv n s s [] eq_refl Hran) as ((e & l' & Hl & _) & _). by destruct l'. }
  clear H. unfold wrap in Hw. rewrite HR in Hw. unfold stack_ in Hw. apply bind_inv in Hw as (u & s1 & E1 & Hw).
  apply bind_inv in Hw as (r1 & s2 & E2 & Hw). apply bind_inv in Hw as (u3 & s3 & E3 & Hw). injection E3 as _ <-. injection Hw as -> <-.
  apply bind_inv in E1 as (a0 & s0 & EG & E1). destruct (_ <=? _); [done|]. injection E1 as _ <-.
  destruct (frame_at _ _ _ _ HG EG) as (G1 & L1 & S1 & C1 & H1 & f0 & Ha0 & Pf0).
  set (s1 := set_stack s0 (a0 :: s_stack s0)) in *. assert (G0 s1) as G1' by exact G1. 
  assert (s_stack s1 = a0 :: tail (s_stack s1)) as HS1 by done. assert (s_fheap s1 !! a0 = Some f0) as Ha1 by done.
  assert (s_code s1 = s_code s) as C1' by done. assert (s_heap s1 = s_heap s) as H1' by done.
  assert (st_pos s1 = st_pos s) as P1' by (unfold st_pos; by rewrite C1'). assert (s_log s1 = s_log s) as L1' by done. clearbody s1.
  assert (ran_body n s1 s2 = true) as Hran'.
  { revert Hran. unfold ran_body, new_log. by rewrite P1', L1'. }
  change (s_code (set_stack s2 (tail (s_stack s2)))) with (s_code s2). change (s_heap (set_stack s2 (tail (s_stack s2)))) with (s_heap s2).
  clear Hran EG G1 Ha0 C1 H1 L1.
  unfold loopify in E2. cbn zeta in E2. apply bind_inv in E2 as (v & s1x & E0 & E2). apply log_if_same in E0 as ->.
  destruct (i_skip (n_info n)).
  { apply bind_inv in E2 as (sp & sx & E3 & E2). injection E3 as <- <-. apply bind_inv in E2 as (v1 & sx & E3 & E2). injection E3 as _ <-.
    apply bind_inv in E2 as (r1 & s4 & E4 & E2). apply bind_inv in E2 as (v2 & s5 & E5 & E2). injection E2 as -> ->.
    assert (s2 = s4) as ->.
    { destruct (_ || _)%bool; [|by injection E5 as _ <-]. destruct r; [|done]. pose proof (keeps_log E s4) as HK. by rewrite E5 in HK. }
    exists (add_log s1 (EvSkip (i_id (n_info n)) (st_pos s1))), s4, a0, f0. repeat (split; [done|]). done. }
  apply bind_inv in E2 as (a & s4 & EG & E2). destruct (frame_at _ _ _ _ G1' EG) as (G4 & L4 & S4 & C4 & H4 & f & Ha & Pf).
  assert (st_pos s4 = st_pos s1) as P4 by (unfold st_pos; by rewrite C4).
  assert (exists g, s_fheap s4 !! a0 = Some g /\ f_pos g = f_pos f0) as (g0 & Ha04 & Pg0).
  { pose proof (p1_get_frame None (i_id (n_info n)) s1) as HH. rewrite EG in HH. destruct (HH G1') as (_ & l & _ & K).
    destruct (K _ _ Ha1) as (g & ? & ? & _). by exists g. }
  apply bind_inv in E2 as (sp & s5 & E5 & E2). injection E5 as <- <-. apply bind_inv in E2 as (f5 & s5 & E5 & E2).
  unfold get_fr in E5. rewrite Ha in E5. injection E5 as <- <-. apply bind_inv in E2 as (v5 & s6 & E6 & E2).
  assert (exists f6, s_fheap s6 !! a = Some f6 /\ f_pos f6 = f_pos f /\ s_log s6 = s_log s4 /\ (s_code s6 = s_code s4 /\ s_heap s6 = s_heap s4) /\ s_stack s6 = s_stack s4 /\ G0 s6 /\
    exists g, s_fheap s6 !! a0 = Some g /\ f_pos g = f_pos f0) as (f6 & Ha6 & Pf6 & L6 & [C6 H6] & S6 & G6 & g6 & Hg6 & Pg6).
  { destruct (_ <? _)%Z.
    - pose proof (p1_set_stage a 0 s4) as HH. rewrite E6 in HH. destruct (HH G4) as (G6 & l & _ & K). destruct (K _ _ Ha04) as (g6 & ? & ? & _).
      apply (upd_inv a (fun f => fr_stage f 0)) in E6 as (f6 & Ha6 & ->). cbn.
      exists (fr_stage f6 0). rewrite list_lookup_insert by (by eapply lookup_lt_Some). rewrite Ha in Ha6. injection Ha6 as <-.
      split; [done|]. split; [done|]. split; [done|]. split; [done|]. split; [done|]. split; [done|]. exists g6. split; [done|congruence].
    - injection E6 as _ <-. eexists. split; [done|]. repeat (split; [done|]). eauto. }
  clear E6. apply bind_inv in E2 as (f7 & s7 & E7 & E2). unfold get_fr in E7. rewrite Ha6 in E7. injection E7 as <- <-.
  destruct (f_stage f6 =? 0)%Z.
  - destruct (f_end f6) as [e|].
    { exfalso. apply bind_inv in E2 as (v8 & s8 & E8 & E2). apply log_if_same in E8 as ->. apply bind_inv in E2 as (v9 & s9 & E9 & E2).
      injection E2 as _ <-. assert (s_log s9 = s_log s6) as L9.
      { unfold set_pos in E9. destruct (c_set_pos _ _); [|done|done]. by injection E9 as _ <-. }
      destruct (ran_inv n s1 s9 []) as ((x & l' & Hl & _) & _); [cbn; congruence|done|]. by destruct l'. }
    apply bind_inv in E2 as (v8 & s8 & E8 & E2). apply bind_inv in E2 as (v9 & s9 & E9 & E2). apply bind_inv in E2 as (v10 & s10 & E10 & E2).
    injection E10 as _ <-. apply bind_inv in E2 as (r1 & s11 & E11 & E2). apply bind_inv in E2 as (f12 & s12 & E12 & E2).
    pose proof (p1_set_stage a 1 s6) as HH. rewrite E8 in HH. destruct (HH G6) as (G8 & l8 & L8 & K8). clear HH.
    pose proof (p1_cache_set a None None s8) as HH. rewrite E9 in HH. destruct (HH G8) as (G9 & l9 & L9 & K9). clear HH.
    apply (upd_inv a (fun f => fr_stage f 1)) in E8 as (f8 & Ha8 & ->). apply (upd_inv a (fun f => fr_cache f None None)) in E9 as (f9 & Ha9 & ->).
    cbn in Ha9. rewrite list_lookup_insert in Ha9 by (by eapply lookup_lt_Some). injection Ha9 as <-.
    set (s9 := add_log _ _) in E11. assert (s_log s9 = EvBody (i_id (n_info n)) (st_pos s4) :: s_log s6) as HL9 by done.
    assert (G0 s9) as G9' by exact G9. assert (s_code s9 = s_code s6) as C9 by done. assert (s_heap s9 = s_heap s6) as H9 by done. assert (s_stack s9 = s_stack s6) as S9 by done.
    assert (s_fheap s9 !! a = Some (fr_cache (fr_stage f8 1) None None)) as Ha9.
    { cbn. rewrite list_lookup_insert; [done|]. rewrite insert_length. by eapply lookup_lt_Some. }
    assert (exists g, s_fheap s9 !! a0 = Some g /\ f_pos g = f_pos f0) as (g9 & Hg9 & Pg9).
    { destruct (K8 _ _ Hg6) as (x8 & Hx8 & Px8 & _). destruct (K9 _ _ Hx8) as (x9 & Hx9 & Px9 & _). exists x9. split; [exact Hx9|congruence]. }
    clearbody s9. clear K8 K9 G8 G9 L8 L9.
    pose proof (prep_R1 fuel n s9) as HH. rewrite E11 in HH. destruct (HH G9') as (G11 & l11 & L11 & K11). clear HH.
    destruct (K11 _ _ Ha9) as (f11 & Ha11 & Pf11 & Sf11). unfold get_fr in E12. rewrite Ha11 in E12. injection E12 as <- <-.
    destruct (Z.eqb_spec (f_stage f11) 1) as [Hst|Hst].
    + apply bind_inv in E2 as (v13 & s13 & E13 & E2). apply bind_inv in E2 as (p & s14 & E14 & E2). injection E14 as <- <-.
      apply bind_inv in E2 as (v15 & s15 & E15 & E2). apply bind_inv in E2 as (v16 & s16 & E16 & E2). apply log_if_same in E16 as ->.
      injection E2 as -> ->. apply (upd_inv a (fun f => fr_stage f 0)) in E13 as (f13 & Ha13 & ->).
      apply (upd_inv a (fun f => fr_cache f r (Some (st_pos _)))) in E15 as (f15 & Ha15 & ->).
      exists s9, s11, a0, g9. split; [done|]. split; [by rewrite S9, S6, S4|]. split; [done|]. split; [congruence|].
      split; [congruence|]. split; [congruence|]. split; [exact E11|]. done.
    + exfalso. assert (exists l12, s_log s2 = l12 ++ s_log s11) as [l12 L12].
      { match type of E2 with ?k s11 = _ => assert (pre (R1 (Some a)) X1 k) as HP end.
        { repeat first [(apply p1_grow; apply prep_R1)|apply p1_loop_push|apply p1_loop_pop
            |apply p1_ret | apply p1_panic | apply p1_gets | apply p1_lift | apply p1_set_pos | apply p1_log_if | apply p1_get_fr
            | apply p1_set_stage | apply p1_cache_set | apply p1_set_mask | apply p1_emit | apply p1_wipe | apply p1_restore | apply p1_mark
            | done | (apply p1_bind; [|intros ?])
            | match goal with
              | |- pre _ _ (match ?x with _ => _ end) => destruct x
              | |- pre _ _ (if ?x then _ else _) => destruct x
              | |- pre _ _ (let '(_, _) := ?x in _) => destruct x
              end ]. }
        specialize (HP s11). rewrite E2 in HP. destruct (HP G11) as (_ & l & L & _). by exists l. }
      destruct (Sf11 ltac:(done) eq_refl) as [?|[i Hi]]; [done|].
      destruct (ran_inv n s1 s2 (l12 ++ l11 ++ [EvBody (i_id (n_info n)) (st_pos s4)])) as (_ & HN).
      { rewrite L12, L11, HL9, L6, L4, <- !app_assoc. done. }
      { done. }
      apply (HN i). apply elem_of_app. right. apply elem_of_app. left. rewrite <- P4. cbn in Hi. 
      assert (f8 = f6) as -> by congruence. rewrite Pf6, Pf in Hi. by rewrite P4.
  - exfalso. destruct (_ || _)%bool; [|done]. apply bind_inv in E2 as (v8 & s8 & E8 & E2). apply bind_inv in E2 as (v9 & s9 & E9 & E2). injection E9 as _ <-.
    assert (s_log s8 = s_log s6) as L8.
    { destruct (_ =? _)%Z; [|by injection E8 as _ <-]. apply (upd_inv a (fun f => fr_stage f 2)) in E8 as (f8 & Ha8 & ->). done. }
    assert (G0 s8) as G8.
    { destruct (_ =? _)%Z; [|by injection E8 as _ <-]. pose proof (p1_set_stage a 2 s6) as HH. rewrite E8 in HH. by destruct (HH G6). }
    assert (exists l, s_log s2 = l ++ EvRec (i_id (n_info n)) (st_pos s4) :: s_log s8) as [l L].
    { match type of E2 with ?k ?x = _ => assert (pre (R1 (Some a)) X1 k) as HP; [|specialize (HP x)] end.
      { repeat first [apply p1_ret | apply p1_panic | apply p1_gets | apply p1_lift | apply p1_set_pos | apply p1_log_if | apply p1_get_fr
            | apply p1_set_stage | apply p1_cache_set | apply p1_set_mask | apply p1_emit | apply p1_wipe | apply p1_restore | apply p1_mark
            | done | (apply p1_bind; [|intros ?])
            | match goal with
              | |- pre _ _ (match ?x with _ => _ end) => destruct x
              end ]. }
      rewrite E2 in HP. destruct (HP G8) as (_ & l & L & _). by exists l. }
    destruct (ran_inv n s1 s2 (l ++ [EvRec (i_id (n_info n)) (st_pos s4)])) as ((e & l' & Hl & He) & _).
    { rewrite L, L8, L6, L4, <- app_assoc. done. }
    { done. }
    apply app_inj_tail in Hl as [_ <-]. done.
Qed.

Lemma origin_rule fuel n s r s' : i_isrule (n_info n) = true -> G0 s -> parse E fuel n s = Ok r s' ->
  ran_body n s s' = true -> origin_is s r s' = true.
Proof.
  intros HR HG H Hran. destruct fuel as [|fuel]; [done|].
  destruct (ran_fp fuel n s r s' HR HG H Hran) as (s1 & s2 & a0 & f0 & G1 & S1 & A1 & P1 & C1 & _ & HP & C2 & H2).
  pose proof (fp_origin fuel n s1 r s2 a0 f0 G1 S1 A1 HP s ltac:(congruence)) as HO.
  revert HO. unfold origin_is, st_pos. by rewrite C2, H2.
Qed.

(** What a parser makes of its body's production: the label, then the callback. *)
Lemma prepare_inv fp n s r s' : prepare_result E fp n s = Ok r s' ->
  exists r0 s2, (exists s1, s_code s1 = s_code s /\ s_heap s1 = s_heap s /\ fp s1 = Ok r0 s2) /\ s_code s' = s_code s2 /\
  match r0 with
  | None => r = None
  | Some x =>
      exists x1 h1, (if (negb (String.eqb (i_label (n_info n)) "") && i_wraps (n_info n))%bool
         then x1 = AObj (length (s_heap s2)) /\ h1 = s_heap s2 ++ [Obj (OMap (nm_single (i_label (n_info n)) x)) attr0]
         else x1 = x /\ h1 = s_heap s2) /\
      match i_cb (n_info n) with
      | None => r = Some x1
      | Some c => exists h', e_cb E c (st_pos s2) h1 x1 = CbRet h' r
      end
  end.
Proof.
  unfold prepare_result. intros H. apply bind_inv in H as (u & s0 & E0 & H). injection E0 as _ <-. apply bind_inv in H as (r0 & s2 & E1 & H).
  exists r0, s2. assert (exists s1, s_code s1 = s_code s /\ s_heap s1 = s_heap s /\ fp s1 = Ok r0 s2) as HE by (eexists; split; [|split; [|exact E1]]; done).
  split; [exact HE|]. destruct r0 as [x|]; [|by injection H as <- <-].
  apply bind_inv in H as (x1 & s3 & E3 & H). apply bind_inv in H as (r2 & s4 & E4 & H).
  assert (r = r2 /\ s_code s' = s_code s4) as [-> C4].
  { destruct r2 as [y|]; [|by injection H as <- <-]. apply bind_inv in H as (fr & s5 & E5 & H). apply bind_inv in H as (p & s6 & E6 & H). injection E6 as _ <-.
    apply bind_inv in H as (c & s6 & E6 & H). injection E6 as <- <-. apply bind_inv in H as (l & s7 & E7 & H). apply bind_inv in H as (v & s8 & E8 & H).
    injection H as <- <-. split; [done|]. unfold stack_peek, get_fr in E5. destruct (s_stack s4) as [|b ?]; [done|]. destruct (s_fheap s4 !! b); [|done].
    injection E5 as _ <-. unfold lift in E7. destruct (c_line _); [|done|done]. injection E7 as _ <-.
    destruct y as [| | | |a9| |]; try (by injection E8 as _ <-). cbn [set_origin] in E8. unfold bind, read_obj in E8. destruct (s_heap s4 !! a9); [|done].
    by injection E8 as _ <-. }
  assert (s_code s4 = s_code s3 /\ match i_cb (n_info n) with None => r2 = Some x1 | Some c => exists h', e_cb E c (st_pos s3) (s_heap s3) x1 = CbRet h' r2 end) as [C3 Hcb].
  { unfold call_cb in E4. destruct (i_cb (n_info n)) as [c|]; [|by injection E4 as <- <-].
    apply bind_inv in E4 as (p & s5 & E5 & E4). injection E5 as <- <-. apply bind_inv in E4 as (v & s5 & E5 & E4). injection E5 as _ <-.
    cbn in E4. destruct (e_cb E c (st_pos s3) (s_heap s3) x1) as [h y|] eqn:EC; [|done]. injection E4 as <- <-. cbn. eauto. }
  assert (s_code s3 = s_code s2) as C2.
  { unfold wrap_label in E3. destruct (_ && _)%bool; [|by injection E3 as _ <-]. unfold bind, alloc in E3. by injection E3 as _ <-. }
  split; [congruence|]. exists x1, (s_heap s3). split.
  - unfold wrap_label in E3. destruct (_ && _)%bool; [|by injection E3 as <- <-]. unfold bind, alloc in E3. by injection E3 as <- <-.
  - destruct (i_cb (n_info n)); [|done]. unfold st_pos in *. by rewrite <- C2.
Qed.
End Origins.

(** ** The cache *)
Lemma rows_ok_iff fh : forall rows p, rows_ok fh p rows = true <->
  forall q i a, table_get rows q i = Some (Some a) -> exists f, fh !! a = Some f /\ f_pos f = p + q.
Proof.
  induction rows as [|row rows IH]; intros p; cbn [rows_ok]; [split; [intros _ q i a H; unfold table_get in H; by rewrite lookup_nil in H|done]|].
  rewrite andb_true_iff, IH, forallb_forall. split.
  - intros [H1 H2] [|q] i a H; cbn in H.
    + specialize (H1 (Some a)). apply elem_of_list_lookup_2, elem_of_list_In in H. specialize (H1 H). cbn in H1.
      destruct (fh !! a) as [f|]; [|done]. apply Nat.eqb_eq in H1. exists f. split; [done|lia].
    + destruct (H2 q i a H) as (f & Hf & Pf). exists f. split; [done|lia].
  - intros H. split.
    + intros [a|] Hin; [|done]. apply elem_of_list_In, elem_of_list_lookup_1 in Hin as [i Hi]. destruct (H 0 i a Hi) as (f & Hf & Pf). rewrite Hf. apply Nat.eqb_eq. lia.
    + intros q i a Ha. destruct (H (S q) i a Ha) as (f & Hf & Pf). exists f. split; [done|lia].
Qed.
Lemma cache_G0 s : cache_ok s = true <-> G0 s.
Proof. unfold cache_ok, G0. apply rows_ok_iff. Qed.

Section Runs.
Variable E : env.
Variable root : node.
Variable c : code.
Hypothesis Hrx : forall re, rx_ok (e_rx E re).
Hypothesis Hc : code_ok c.
Hypothesis Hcp : c_pos c <= length (c_work c).
Hypothesis Hfit : ids_fit E root.
Hypothesis Htop : top_ok root.

Lemma GI_G0 s : GI (fun _ _ => false) (e_nrules E) c s -> G0 s.
Proof. intros HG p i a H. destruct (gi_ent _ _ _ _ HG _ _ _ H) as (f & ? & ? & _). eauto. Qed.
Lemma cache_ok_run fuel :
  parse_mon E (fun _ s => cache_ok s) (fun _ _ _ s' => cache_ok s') fuel root (init_st c (e_nrules E)) = parse E fuel root (init_st c (e_nrules E)).
Proof.
  apply (mon_eq2 E root c Hrx Hc Hcp Hfit Htop).
  - intros n s _ HG. by apply cache_G0, GI_G0.
  - intros f n s r s' _ HG ((HG' & _) & _) _. by apply cache_G0, GI_G0.
Qed.
Lemma origins_run fuel :
  parse_mon E (fun _ _ => true) (fun n s r s' => (negb (i_isrule (n_info n)) || negb (ran_body n s s') || origin_is s r s')%bool) fuel root
    (init_st c (e_nrules E)) = parse E fuel root (init_st c (e_nrules E)).
Proof.
  apply (mon_eq2 E root c Hrx Hc Hcp Hfit Htop); [done|]. intros f n s r s' _ HG _ HP.
  destruct (i_isrule (n_info n)) eqn:ER; [|done]. destruct (ran_body n s s') eqn:EB; [|done]. cbn.
  by apply (origin_rule E f n s r s' ER (GI_G0 s HG) HP).
Qed.
End Runs.

Lemma applied E fuel n s r s' : i_isrule (n_info n) = true -> cache_ok s = true -> parse E (S fuel) n s = Ok r s' ->
  ran_body n s s' = true ->
  exists s1 r0 s2, s_code s1 = s_code s /\ s_heap s1 = s_heap s /\ body E (parse E fuel) fuel n s1 = Ok r0 s2 /\ st_pos s' = st_pos s2 /\
    match r0 with None => r = None | Some x => callback_gives E (n_info n) (st_pos s2) (s_heap s2) x r end.
Proof.
  intros HR HG H Hran. destruct (ran_fp E fuel n s r s' HR (proj1 (cache_G0 s) HG) H Hran) as (s1 & s2 & a0 & f0 & _ & _ & _ & _ & C1 & H1 & HP & C2 & _).
  destruct (prepare_inv E _ n s1 r s2 HP) as (r0 & s3 & (s4 & C4 & H4 & HB) & C3 & HM).
  exists s4, r0, s3. split; [congruence|]. split; [congruence|]. split; [done|]. split; [unfold st_pos; congruence|]. exact HM.
Qed.
Lemma applied_inline E fuel n s r s' : i_isrule (n_info n) = false -> n_kind n <> KUndef ->
  (standing_alone (n_info n) = true \/ i_cb (n_info n) <> None) -> parse E (S fuel) n s = Ok r s' ->
  exists s1 r0 s2, s_code s1 = s_code s /\ s_heap s1 = s_heap s /\ body E (parse E fuel) fuel n s1 = Ok r0 s2 /\ st_pos s' = st_pos s2 /\
    match r0 with None => r = None | Some x => callback_gives E (n_info n) (st_pos s2) (s_heap s2) x r end.
Proof.
  intros HR HU Hor H. cbn [parse] in H. assert (wrap E (parse E fuel) fuel n s = Ok r s') as Hw by (destruct (n_kind n); done).
  unfold wrap in Hw. rewrite HR in Hw.
  assert (prepare_result E (body E (parse E fuel) fuel n) n s = Ok r s') as HP.
  { destruct (_ || _)%bool eqn:EB; [done|]. exfalso. apply orb_false_iff in EB as [EB1 EB2]. unfold standing_alone in Hor. rewrite EB1 in Hor.
    destruct Hor as [?|Hor]; [done|]. by destruct (i_cb (n_info n)). }
  destruct (prepare_inv E _ n s r s' HP) as (r0 & s3 & (s4 & C4 & H4 & HB) & C3 & HM).
  exists s4, r0, s3. split; [congruence|]. split; [congruence|]. split; [done|]. split; [unfold st_pos; congruence|]. exact HM.
Qed.
