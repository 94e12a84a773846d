(** Parses end when every round of every repetition moves on. *)
From Verif Require Import Base Helpers Utf8 Stream StreamSpec StreamProofs Native Engine EngSpec EngInv CombProofs TermSpec.

(** ** Total correctness, panics aside *)
Definition tot {A} (m : M A) (s : st) (Q : A -> st -> Prop) : Prop :=
  match m s with Ok a s' => Q a s' | Panic _ _ => True | OutOfFuel => False end.
Lemma tot_bind {A B} (m : M A) (k : A -> M B) s Q : tot m s (fun a s' => tot (k a) s' Q) -> tot (bind m k) s Q.
Proof. unfold tot, bind. by destruct (m s). Qed.
Lemma tot_weaken {A} (m : M A) s (Q Q' : A -> st -> Prop) : tot m s Q -> (forall a s', Q a s' -> Q' a s') -> tot m s Q'.
Proof. unfold tot. destruct (m s); auto. Qed.
Lemma tot_ret {A} (a : A) s (Q : A -> st -> Prop) : Q a s -> tot (ret a) s Q.
Proof. done. Qed.
Lemma tot_panic {A} p s (Q : A -> st -> Prop) : tot (panic_ p) s Q.
Proof. done. Qed.
Lemma tot_gets {A} (f : st -> A) s (Q : A -> st -> Prop) : Q (f s) s -> tot (gets f) s Q.
Proof. done. Qed.

(** Steps that touch neither cursor, cache nor stack. *)
Definition same (s s' : st) : Prop :=
  s_code s' = s_code s /\ s_frames s' = s_frames s /\ s_fheap s' = s_fheap s /\ s_stack s' = s_stack s.
Lemma same_refl s : same s s.
Proof. done. Qed.
Lemma same_trans s1 s2 s3 : same s1 s2 -> same s2 s3 -> same s1 s3.
Proof. intros (A1 & A2 & A3 & A4) (B1 & B2 & B3 & B4). repeat split; congruence. Qed.
Definition inert {A} (m : M A) : Prop := forall s, tot m s (fun _ s' => same s s').
Lemma inert_ret {A} (a : A) : inert (ret a).
Proof. intros s. apply same_refl. Qed.
Lemma inert_panic {A} p : inert (panic_ (A:=A) p).
Proof. done. Qed.
Lemma inert_gets {A} (f : st -> A) : inert (gets f).
Proof. intros s. apply same_refl. Qed.
Lemma inert_bind {A B} (m : M A) (k : A -> M B) : inert m -> (forall a, inert (k a)) -> inert (bind m k).
Proof.
  intros H1 H2 s. apply tot_bind. eapply tot_weaken; [apply H1|]. cbn beta. intros a s1 Hs.
  eapply tot_weaken; [apply H2|]. cbn beta. intros b s2. by apply same_trans.
Qed.
Lemma inert_lift {A} (r : res A) : r <> RFuel -> inert (lift r).
Proof. intros H s. by destruct r. Qed.
Lemma inert_alloc o : inert (alloc o).
Proof. by intros s. Qed.
Lemma inert_write a o : inert (write_obj a o).
Proof. by intros s. Qed.
Lemma inert_read a : inert (read_obj a).
Proof. intros s. unfold tot, read_obj. by destruct (s_heap s !! a). Qed.
Lemma inert_emit e : inert (emit e).
Proof. by intros s. Qed.
Lemma inert_get_fr a : inert (get_fr a).
Proof. intros s. unfold tot, get_fr. by destruct (s_fheap s !! a). Qed.
Lemma inert_peek : inert stack_peek.
Proof. intros s. unfold tot, stack_peek. destruct (s_stack s); [done|apply inert_get_fr]. Qed.
Lemma nm_get_fuel m k : nm_get_or_panic m k <> RFuel.
Proof. unfold nm_get_or_panic. by destruct (nm_get m k). Qed.
Ltac in1 :=
  first
    [ apply inert_ret | apply inert_alloc | apply inert_write | apply inert_read | apply inert_panic | apply inert_gets
    | apply inert_emit | apply inert_get_fr | apply inert_peek
    | apply inert_lift; first [apply nm_get_fuel|apply c_line_fuel|apply c_col_fuel|apply c_peek_fuel]
    | apply inert_bind; [|intros ?]
    | match goal with
      | |- inert (match ?x with _ => _ end) => destruct x
      | |- inert (if ?x then _ else _) => destruct x
      end ].
Ltac ins := repeat in1.
Lemma inert_merge_keys dst src ks : inert (merge_keys dst src ks).
Proof. induction ks as [|k ks IH]; cbn [merge_keys]; [ins|]. ins. exact IH. Qed.
Lemma inert_merge_label dst m ks : inert (merge_label dst m ks).
Proof. induction ks as [|k ks IH]; cbn [merge_label]; [ins|]. apply inert_bind; [ins|]. intros _. exact IH. Qed.
Lemma inert_type_of x : inert (type_of x).
Proof. unfold type_of. ins. Qed.
Lemma inert_merge x y : inert (merge x y).
Proof. unfold merge. repeat first [apply inert_type_of|apply inert_merge_keys|apply inert_merge_label|in1]. Qed.
Lemma inert_add_labelled l r x : inert (add_labelled l r x).
Proof. unfold add_labelled. repeat first [apply inert_merge|in1]. Qed.
Lemma inert_set_origin x o : inert (set_origin x o).
Proof. unfold set_origin. ins. Qed.
Lemma inert_wrap_label i x : inert (wrap_label i x).
Proof. unfold wrap_label. ins. Qed.
Lemma inert_log E : inert (log_ E).
Proof. unfold log_. ins. Qed.
Lemma inert_log_if E b : inert (log_if E b).
Proof. destruct b; [apply inert_log|apply inert_ret]. Qed.
Lemma inert_call_cb E i x : inert (call_cb E i x).
Proof.
  unfold call_cb. destruct (i_cb i); [|ins]. apply inert_bind; [ins|]. intros p. apply inert_bind; [ins|]. intros _ s.
  unfold tot. by destruct (e_cb E n p (s_heap s) x).
Qed.
Lemma inert_mark sp id stk : forall mask, inert (mark stk sp id mask).
Proof. induction stk as [|a stk IH]; intros mask; cbn [mark]; [ins|]. ins. apply IH. Qed.
Lemma inert_push : inert loop_stack_push.
Proof. by intros s. Qed.
Lemma inert_pop : inert loop_stack_pop.
Proof. intros s. unfold tot, loop_stack_pop. by destruct (s_loopstack s). Qed.

Section Term.
Variable E : env.
Variable root : node.
Variable W : bytes.
Notation L := (length W).
Variable rxe : bytes -> bool.
Variable eats : node -> bool.
Hypothesis Heat : eating E root rxe eats.
Hypothesis Hreps : reps_eat E root eats.
Hypothesis Hrx : forall re, rx_ok (e_rx E re).
Hypothesis Huniq : ids_unique E root.

(** A cached result ends at or after its start; after it, for a rule that eats. *)
Definition fok (f : frame) : Prop := (f_end f = None -> f_res f = None) /\ forall e, f_end f = Some e -> f_pos f <= e /\
  ((exists n, reach E root n /\ i_isrule (n_info n) = true /\ i_id (n_info n) = f_id f /\ eats n = true) ->
   f_res f <> None -> f_pos f < e).
Record TI (s : st) : Prop := {
  ti_work : c_work (s_code s) = W;
  ti_pos : st_pos s <= L;
  ti_ent : forall p i a, table_get (s_frames s) p i = Some (Some a) ->
             exists f, s_fheap s !! a = Some f /\ f_pos f = p /\ f_id f = i;
  ti_fr : Forall fok (s_fheap s) }.

Definition keeps (s s' : st) : Prop :=
  forall a f, s_fheap s !! a = Some f -> exists f', s_fheap s' !! a = Some f' /\ f_pos f' = f_pos f /\ f_id f' = f_id f.
Lemma keeps_refl s : keeps s s.
Proof. intros a f H. by exists f. Qed.
Lemma keeps_trans s1 s2 s3 : keeps s1 s2 -> keeps s2 s3 -> keeps s1 s3.
Proof.
  intros A B a f H. destruct (A _ _ H) as (f' & H' & P1 & I1). destruct (B _ _ H') as (f'' & H'' & P2 & I2).
  exists f''. split; [done|]. split; congruence.
Qed.
Lemma keeps_eq s s' : s_fheap s' = s_fheap s -> keeps s s'.
Proof. intros H a f Ha. exists f. by rewrite H. Qed.

Definition R (s s' : st) : Prop := TI s' /\ keeps s s' /\ s_stack s' = s_stack s /\ st_pos s <= st_pos s'.
Lemma R_refl s : TI s -> R s s.
Proof. intros. split; [done|]. split; [apply keeps_refl|]. split; [done|lia]. Qed.
Lemma R_trans s1 s2 s3 : R s1 s2 -> R s2 s3 -> R s1 s3.
Proof. intros (A1 & A2 & A3 & A4) (B1 & B2 & B3 & B4). split; [done|]. split; [by eapply keeps_trans|]. split; [congruence|lia]. Qed.
Lemma same_pos s s' : same s s' -> st_pos s' = st_pos s.
Proof. intros (H & _). unfold st_pos. by rewrite H. Qed.
Lemma TI_same s s' : same s s' -> TI s -> TI s'.
Proof.
  intros HS [H1 H2 H3 H4]. pose proof (same_pos _ _ HS) as HP. destruct HS as (E1 & E2 & E3 & E4).
  split; rewrite ?E1, ?E2, ?E3, ?HP; done.
Qed.
Lemma R_same s s' : TI s -> same s s' -> R s s'.
Proof.
  intros HT HS. split; [by eapply TI_same|]. split; [apply keeps_eq, HS|]. split; [apply HS|]. by rewrite (same_pos _ _ HS).
Qed.
Lemma tot_inert {A} (m : M A) s (Q : A -> st -> Prop) : inert m -> (forall a s', same s s' -> Q a s') -> tot m s Q.
Proof. intros H1 H2. eapply tot_weaken; [apply H1|]. intros a s' H. by apply H2. Qed.

Lemma tot_set_pos p s (Q : unit -> st -> Prop) : TI s ->
  (forall s', TI s' -> s_fheap s' = s_fheap s -> s_frames s' = s_frames s -> s_stack s' = s_stack s -> st_pos s' = p -> Q tt s') ->
  tot (set_pos p) s Q.
Proof.
  intros HT HQ. unfold tot, set_pos. destruct (c_set_pos (s_code s) (Z.of_nat p)) as [c| |] eqn:EC; [|done|].
  - assert (p <= L /\ c = c_with_pos (s_code s) p) as [Hp ->].
    { rewrite c_set_pos_eq in EC. rewrite (ti_work _ HT) in EC. destruct (_ || _)%bool eqn:EB; [done|].
      split; [lia|]. rewrite Nat2Z.id in EC. by injection EC. }
    destruct HT as [H1 H2 H3 H4]. assert (st_pos (set_code s (c_with_pos (s_code s) p)) = p) as HP.
    { unfold st_pos. cbn. apply c_with_pos_pos. }
    apply HQ; try done. split; try done; [cbn; by rewrite c_with_pos_work|by rewrite HP].
  - rewrite c_set_pos_eq in EC. by destruct (_ || _)%bool.
Qed.
(** Back to where a run began. *)
Lemma tot_back s0 s (Q : unit -> st -> Prop) : R s0 s -> (forall s', R s0 s' -> st_pos s' = st_pos s0 -> Q tt s') -> tot (set_pos (st_pos s0)) s Q.
Proof.
  intros (HT & HK & HS & HP) HQ. apply tot_set_pos; [done|]. intros s' HT' E1 E2 E3 E4. apply HQ; [|done].
  split; [done|]. split; [eapply keeps_trans; [done|by apply keeps_eq]|]. split; [congruence|lia].
Qed.

Definition post (n : node) (s : st) (r : option ast) (s' : st) : Prop :=
  R s s' /\ (eats n = true -> r <> None -> st_pos s < st_pos s').

(** ** Bodies *)
Section Body.
Variable P : node -> Prop.
Variable h : nat.
Variable rec : node -> M (option ast).
Hypothesis Hrec : forall c s, P c -> TI s -> length (s_stack s) = h -> tot (rec c) s (post c s).

Lemma tot_rec {B} c (k : option ast -> M B) s0 s (Q : B -> st -> Prop) : P c -> R s0 s -> length (s_stack s0) = h ->
  (forall r s', R s0 s' -> R s s' -> (eats c = true -> r <> None -> st_pos s < st_pos s') -> tot (k r) s' Q) ->
  tot (bind (rec c) k) s Q.
Proof.
  intros HP HR Hh HQ. apply tot_bind. eapply tot_weaken; [apply Hrec; [done|apply HR|]|].
  - destruct HR as (_ & _ & -> & _). done.
  - cbn beta. intros r s' [H1 H2]. apply HQ; [by eapply R_trans|done|done].
Qed.

(** [go] accounts for what the sequence has eaten so far. *)
Definition seq_post (l : list node) (s0 s : st) (r : option ast) (s' : st) : Prop :=
  R s0 s' /\ st_pos s <= st_pos s' /\ (existsb eats l = true -> r <> None -> st_pos s < st_pos s').
Lemma seq_step c l s0 s s1 r s' : R s s1 -> (eats c = true -> st_pos s < st_pos s1) ->
  seq_post l s0 s1 r s' -> seq_post (c :: l) s0 s r s'.
Proof.
  intros (_ & _ & _ & H1) H2 (H3 & H4 & H5). split; [done|]. split; [lia|]. cbn [existsb]. intros H Hr.
  apply orb_true_iff in H as [H|H]; [specialize (H2 H)|specialize (H5 H Hr)]; lia.
Qed.
Lemma seq_fail c l s0 s s1 : R s0 s1 -> R s s1 -> seq_post (c :: l) s0 s None s1.
Proof. intros H1 H2. split; [done|]. split; [apply H2|done]. Qed.

Lemma tot_seq_single s0 l : length (s_stack s0) = h -> Forall P l -> forall acc s, R s0 s ->
  tot (seq_single rec l acc) s (seq_post l s0 s).
Proof.
  intros Hh. induction 1 as [|c l Hc _ IH]; intros acc s HR; cbn [seq_single].
  { apply tot_ret. split; [done|]. split; [lia|done]. }
  eapply tot_rec; [done|exact HR|done|]. intros r s1 H1 H2 H3. destruct r as [x|].
  - eapply tot_weaken; [by apply IH|]. cbn beta. intros r' s'. eapply seq_step; [done|]. intros He. by apply H3.
  - apply tot_ret. by apply seq_fail.
Qed.
Lemma tot_seq_array s0 l : length (s_stack s0) = h -> Forall P l -> forall acc s, R s0 s ->
  tot (seq_array rec l acc) s (seq_post l s0 s).
Proof.
  intros Hh. induction 1 as [|c l Hc _ IH]; intros acc s HR; cbn [seq_array].
  { apply tot_ret. split; [done|]. split; [lia|done]. }
  eapply tot_rec; [done|exact HR|done|]. intros r s1 H1 H2 H3. destruct r as [x|].
  - eapply tot_weaken; [by apply IH|]. cbn beta. intros r' s'. eapply seq_step; [done|]. intros He. by apply H3.
  - apply tot_ret. by apply seq_fail.
Qed.
Lemma tot_seq_object s0 l : length (s_stack s0) = h -> Forall P l -> forall acc s, R s0 s ->
  tot (seq_object rec l acc) s (seq_post l s0 s).
Proof.
  intros Hh. induction 1 as [|c l Hc _ IH]; intros acc s HR; cbn [seq_object].
  { apply tot_ret. split; [done|]. split; [lia|done]. }
  eapply tot_rec; [done|exact HR|done|]. intros r s1 H1 H2 H3. destruct r as [x|].
  - apply tot_bind. apply tot_inert; [apply inert_add_labelled|]. intros acc' s2 HS.
    assert (R s1 s2) as HR2 by (apply R_same; [apply H1|done]).
    eapply tot_weaken; [apply IH; by eapply R_trans|]. cbn beta. intros r' s'. eapply seq_step; [by eapply R_trans|].
    intros He. rewrite (same_pos _ _ HS). by apply H3.
  - apply tot_ret. by apply seq_fail.
Qed.

Lemma tot_choice s0 l : length (s_stack s0) = h -> Forall P l -> forall s, R s0 s -> st_pos s = st_pos s0 ->
  tot (choice_loop rec l) s (fun r s' => R s0 s' /\ (forallb eats l = true -> r <> None -> st_pos s0 < st_pos s')).
Proof.
  intros Hh. induction 1 as [|c l Hc _ IH]; intros s HR Hp; cbn [choice_loop].
  { apply tot_ret. done. }
  apply tot_bind, tot_gets. eapply tot_rec; [done|exact HR|done|]. intros r s1 H1 H2 H3. destruct r as [x|].
  - apply tot_ret. split; [done|]. cbn [forallb]. intros He _. apply andb_true_iff in He as [He _].
    rewrite <- Hp. by apply H3.
  - apply tot_bind. rewrite Hp. apply tot_back; [done|]. intros s2 HR2 Hp2.
    eapply tot_weaken; [by apply IH|]. cbn beta. intros r' s' [HA HB]. split; [done|]. cbn [forallb].
    intros He. apply andb_true_iff in He as [_ He]. auto.
Qed.

Lemma tot_pat s0 v j mx : length (s_stack s0) = h -> P v -> (forall x, j = Some x -> P x) ->
  (eats v = true \/ exists x, j = Some x /\ eats x = true) ->
  forall lf acc s, R s0 s -> L - st_pos s < lf ->
  tot (pat_loop rec lf v j mx acc) s (fun _ s' => R s s').
Proof.
  intros Hh Hv Hj He. induction lf as [|lf IH]; intros acc s HR Hlf; [lia|]. cbn [pat_loop].
  apply tot_bind, tot_gets.
  assert (TI s) as HT by apply HR.
  assert (length (s_stack s) = h) as Hh2 by (destruct HR as (_ & _ & -> & _); done).
  apply tot_bind.
  assert (tot (match j with None => ret true | Some jn => do! r := rec jn in ret (match r with None => false | Some _ => true end) end) s
    (fun b s' => R s s' /\ (b = true -> (exists x, j = Some x /\ eats x = true) -> st_pos s < st_pos s'))) as HJ.
  { destruct j as [jn|].
    - eapply tot_rec; [by apply Hj|by apply R_refl|done|]. intros r s1 H1 _ H3. apply tot_ret. split; [done|].
      intros Hb (x & [= <-] & Hx). apply H3; [done|by destruct r].
    - apply tot_ret. split; [by apply R_refl|]. intros _ (x & [=] & _). }
  eapply tot_weaken; [exact HJ|]. cbn beta. intros b s1 [HR1 HJ1]. destruct b.
  - eapply tot_rec; [done|exact HR1|done|]. intros r s2 H1 H2 H3. destruct r as [x|].
    + assert (st_pos s < st_pos s2) as Hlt.
      { destruct He as [He|He].
        - specialize (H3 He ltac:(done)). destruct HR1 as (_ & _ & _ & HR1). lia.
        - specialize (HJ1 eq_refl He). destruct H2 as (_ & _ & _ & H2). lia. }
      destruct (_ && _)%bool; [by apply tot_ret|].
      pose proof (ti_pos _ (proj1 H1)). eapply tot_weaken; [apply IH; [by eapply R_trans|lia]|]. cbn beta. intros _ s'. by eapply R_trans.
    + apply tot_bind. apply tot_back; [done|]. intros s3 HR3 _. by apply tot_ret.
  - apply tot_bind. apply tot_back; [done|]. intros s3 HR3 _. by apply tot_ret.
Qed.

Lemma TI_wf s : TI s -> c_wf (s_code s).
Proof. intros HT. unfold c_wf. rewrite (ti_work _ HT). apply HT. Qed.
Lemma R_advance s k : TI s -> st_pos s + k <= L -> R s (set_code s (c_with_pos (s_code s) (c_pos (s_code s) + k))).
Proof.
  intros HT Hk. assert (st_pos (set_code s (c_with_pos (s_code s) (c_pos (s_code s) + k))) = st_pos s + k) as HP.
  { unfold st_pos. cbn. apply c_with_pos_pos. }
  destruct HT as [H1 H2 H3 H4]. split; [split; try done; [cbn; by rewrite c_with_pos_work|by rewrite HP]|].
  split; [by apply keeps_eq|]. split; [done|]. rewrite HP. lia.
Qed.

Lemma tot_body lf n s : reach E root n -> Forall P (children n) ->
  (forall name t, n_kind n = KRef name -> e_rule E name = Some t -> P t) ->
  TI s -> length (s_stack s) = h -> L < lf -> tot (body E rec lf n) s (post n s).
Proof.
  intros Hn Hch Href HT Hh Hlf. pose proof (eat_ok _ _ _ _ Heat n Hn) as HA. unfold ate in HA.
  unfold body, post, children in *. pose proof (R_refl _ HT) as HR0.
  destruct (n_kind n) as [str|re|name|ty l|l|v j mn mx|a|a|a|] eqn:EK.
  - unfold tot. rewrite c_match_string_eq by (by apply TI_wf).
    destruct (bytes_eqb_spec str (take (length str) (drop (c_pos (s_code s)) (c_work (s_code s))))) as [HE|HE].
    + assert (st_pos s + length str <= L) as HL.
      { rewrite HE. rewrite take_length, drop_length, (ti_work _ HT). pose proof (ti_pos _ HT). unfold st_pos in *. lia. }
      split; [by apply R_advance|]. intros He _. specialize (HA He). unfold st_pos. cbn. rewrite c_with_pos_pos.
      destruct (Nat.eqb_spec (length str) 0); [done|lia].
    + assert (set_code s (s_code s) = s) as -> by (by destruct s). by split.
  - unfold tot. rewrite c_match_regexp_eq by (done || by apply TI_wf).
    assert (set_code s (s_code s) = s) as HSS by (by destruct s).
    destruct (e_rx E re _) as [[[|m] b]|] eqn:EX; [|rewrite HSS; by split..].
    pose proof (Hrx _ _ _ _ EX) as [_ HL]. rewrite drop_length, (ti_work _ HT) in HL. pose proof (ti_pos _ HT).
    split; [apply R_advance; [done|unfold st_pos in *; lia]|]. intros He _. specialize (HA He).
    pose proof (eat_rx _ _ _ _ Heat _ _ _ HA EX). unfold st_pos. cbn. rewrite c_with_pos_pos. lia.
  - destruct (e_rule E name) as [t|] eqn:ER; [|apply tot_panic].
    apply tot_bind. apply tot_inert; [apply inert_peek|]. intros fr s1 HS.
    eapply tot_weaken; [apply Hrec; [by eapply Href|by eapply TI_same|]|].
    { destruct HS as (_ & _ & _ & ->). done. }
    cbn beta. intros r s' [H1 H2]. pose proof (same_pos _ _ HS) as HP. split; [eapply R_trans; [by apply R_same|done]|].
    rewrite <- HP. auto.
  - assert (tot (match ty with TSingle => seq_single rec l None | TArray => seq_array rec l [] | TObject => seq_object rec l None end) s
      (seq_post l s s)) as HS.
    { destruct ty; [by apply tot_seq_single|by apply tot_seq_array|by apply tot_seq_object]. }
    assert (tot (match ty with TSingle => seq_single rec l None | TArray => seq_array rec l [] | TObject => match l with [] => ret (Some AUndef) | _ => seq_object rec l None end end) s
      (seq_post l s s)) as HS2.
    { destruct ty, l; exact HS. }
    destruct ty, l; (eapply tot_weaken; [exact HS2|]); cbn beta; intros r s' (H1 & _ & H3); (split; [done|auto]).
  - eapply tot_weaken; [by apply tot_choice|]. cbn beta. intros r s' [H1 H2]. split; [done|auto].
  - apply Forall_cons in Hch as [Hv Hj].
    assert (forall x, j = Some x -> P x) as Hj'. { intros x ->. by apply Forall_cons in Hj as [? _]. }
    apply tot_bind, tot_gets. eapply tot_rec; [done|exact HR0|done|]. intros r s1 H1 _ H3. destruct r as [x|].
    + apply tot_bind. eapply tot_weaken.
      { apply (tot_pat s v j mx Hh Hv Hj' (Hreps _ _ _ _ _ Hn EK)); [done|lia]. }
      cbn beta. intros ms s2 HR2. assert (R s s2) as HR02 by (by eapply R_trans).
      destruct ((-1 <? mn) && (Z.of_nat (length ms) <? mn))%Z%bool.
      * apply tot_bind. apply tot_back; [done|]. intros s3 HR3 _. apply tot_ret. by split.
      * apply tot_ret. split; [done|]. intros He _. specialize (HA He). apply andb_true_iff in HA as [_ HA].
        specialize (H3 HA ltac:(done)). destruct HR2 as (_ & _ & _ & HR2). lia.
    + apply tot_bind. apply tot_back; [done|]. intros s3 HR3 _. destruct (0 <? mn)%Z eqn:EM; apply tot_ret; (split; [done|]); [done|].
      intros He. specialize (HA He). by rewrite ?EM in HA.
  - apply Forall_cons in Hch as [Ha _]. apply tot_bind, tot_gets. eapply tot_rec; [done|exact HR0|done|]. intros r s1 H1 _ H3.
    destruct r as [x|].
    + apply tot_ret. split; [done|]. intros He. by specialize (HA He).
    + apply tot_bind. apply tot_back; [done|]. intros s3 HR3 _. apply tot_ret. split; [done|]. intros He. by specialize (HA He).
  - apply Forall_cons in Hch as [Ha _]. apply tot_bind, tot_gets. eapply tot_rec; [done|exact HR0|done|]. intros r s1 H1 _ H3.
    apply tot_bind. apply tot_back; [done|]. intros s3 HR3 _. apply tot_ret. split; [done|]. intros He. by specialize (HA He).
  - apply Forall_cons in Hch as [Ha _]. apply tot_bind, tot_gets. eapply tot_rec; [done|exact HR0|done|]. intros r s1 H1 _ H3.
    apply tot_bind. apply tot_back; [done|]. intros s3 HR3 _. apply tot_ret. split; [done|]. intros He. by specialize (HA He).
  - apply tot_ret. split; [done|]. intros He. by specialize (HA He).
Qed.
End Body.

(** ** Results and callbacks *)
Lemma tot_prepare m n s : TI s -> (forall s', same s s' -> tot m s' (post n s')) -> tot (prepare_result E m n) s (post n s).
Proof.
  intros HT Hm. unfold prepare_result. apply tot_bind. unfold tot at 1.
  assert (same s (set_counter s (S (s_counter s)))) as HS by done. specialize (Hm _ HS).
  revert HS Hm. generalize (set_counter s (S (s_counter s))). intros s1 HS Hm.
  apply tot_bind. eapply tot_weaken; [exact Hm|]. cbn beta. intros r s2 [HR HE].
  assert (post n s r s2) as [HR2 HE2].
  { split; [eapply R_trans; [by apply R_same|done]|]. rewrite <- (same_pos _ _ HS). done. }
  clear HR HE. destruct r as [x|]; [|by apply tot_ret].
  assert (forall y s3, same s2 s3 -> post n s (Some y) s3) as Hgo.
  { intros y s3 H3. split; [eapply R_trans; [done|apply R_same; [apply HR2|done]]|]. rewrite (same_pos _ _ H3). intros He _. by apply HE2. }
  assert (forall s3, same s2 s3 -> post n s None s3) as HgoN.
  { intros s3 H3. split; [eapply R_trans; [done|apply R_same; [apply HR2|done]]|done]. }
  apply tot_bind. apply tot_inert; [apply inert_wrap_label|]. intros x1 s3 H3.
  apply tot_bind. apply tot_inert; [apply inert_call_cb|]. intros r2 s4 H4. apply (same_trans _ _ _ H3) in H4.
  destruct r2 as [y|]; [|apply tot_ret; by apply HgoN].
  apply tot_bind. apply tot_inert; [apply inert_peek|]. intros fr s5 H5. apply (same_trans _ _ _ H4) in H5.
  apply tot_bind, tot_gets. apply tot_bind, tot_gets.
  apply tot_bind. apply tot_inert; [apply inert_lift, c_line_fuel|]. intros line s6 H6. apply (same_trans _ _ _ H5) in H6.
  apply tot_bind. apply tot_inert; [apply inert_set_origin|]. intros [] s7 H7. apply (same_trans _ _ _ H6) in H7.
  apply tot_ret. by apply Hgo.
Qed.

(** ** Frames *)
Definition at_ (s : st) (a p i : nat) : Prop := exists f, s_fheap s !! a = Some f /\ f_pos f = p /\ f_id f = i.
Lemma at_keeps s s' a p i : keeps s s' -> at_ s a p i -> at_ s' a p i.
Proof. intros HK (f & Hf & <- & <-). destruct (HK _ _ Hf) as (f' & ? & ? & ?). by exists f'. Qed.
Lemma TI_put s a f f' : TI s -> s_fheap s !! a = Some f -> f_pos f' = f_pos f -> f_id f' = f_id f -> fok f' ->
  let s' := set_fheap s (<[a := f']> (s_fheap s)) in TI s' /\ keeps s s'.
Proof.
  intros [H1 H2 H3 H4] Ha Hp Hi Hf s'.
  assert (keeps s s') as HK.
  { intros b g Hb. cbn. destruct (decide (a = b)) as [<-|Hne].
    - rewrite list_lookup_insert by (by eapply lookup_lt_Some). exists f'. by simplify_eq.
    - rewrite list_lookup_insert_ne by done. by exists g. }
  split; [|done]. split; try done.
  - intros p i b Hb. destruct (H3 _ _ _ Hb) as (g & Hg & <- & <-). destruct (HK _ _ Hg) as (g' & ? & ? & ?). by exists g'.
  - by apply Forall_insert.
Qed.
Lemma TI_fr s a f : TI s -> s_fheap s !! a = Some f -> fok f.
Proof. intros HT Ha. by eapply Forall_lookup_1; [apply HT|]. Qed.
Lemma R_upd s s' : TI s' -> keeps s s' -> s_code s' = s_code s -> s_stack s' = s_stack s -> R s s'.
Proof. intros H1 H2 H3 H4. split; [done|]. split; [done|]. split; [done|]. unfold st_pos. by rewrite H3. Qed.

Lemma tot_get_fr a s (Q : frame -> st -> Prop) : (forall f, s_fheap s !! a = Some f -> Q f s) -> tot (get_fr a) s Q.
Proof. intros H. unfold tot, get_fr. destruct (s_fheap s !! a) eqn:Ea; [by apply H|done]. Qed.
Lemma tot_put_fr a s f f' (Q : unit -> st -> Prop) : TI s -> s_fheap s !! a = Some f -> f_pos f' = f_pos f -> f_id f' = f_id f -> fok f' ->
  (forall s', R s s' -> st_pos s' = st_pos s -> Q tt s') -> tot (put_fr a f') s Q.
Proof.
  intros HT Ha Hp Hi Hf HQ. unfold tot, put_fr. destruct (TI_put _ _ _ _ HT Ha Hp Hi Hf) as [H1 H2].
  apply HQ; [|done]. by apply R_upd.
Qed.
Lemma tot_set_stage a k s (Q : unit -> st -> Prop) : TI s -> (forall s', R s s' -> st_pos s' = st_pos s -> Q tt s') -> tot (set_stage a k) s Q.
Proof.
  intros HT HQ. apply tot_bind, tot_get_fr. intros f Hf. eapply tot_put_fr; try done. by apply (TI_fr _ _ _ HT Hf).
Qed.
Lemma tot_set_mask a k s (Q : unit -> st -> Prop) : TI s -> (forall s', R s s' -> st_pos s' = st_pos s -> Q tt s') -> tot (set_mask a k) s Q.
Proof.
  intros HT HQ. apply tot_bind, tot_get_fr. intros f Hf. eapply tot_put_fr; try done. by apply (TI_fr _ _ _ HT Hf).
Qed.
Lemma tot_cache_set a p i r e s (Q : unit -> st -> Prop) : TI s -> at_ s a p i -> (e = None -> r = None) ->
  (forall x, e = Some x -> p <= x /\
    ((exists n, reach E root n /\ i_isrule (n_info n) = true /\ i_id (n_info n) = i /\ eats n = true) -> r <> None -> p < x)) ->
  (forall s', R s s' -> st_pos s' = st_pos s -> Q tt s') -> tot (cache_set a r e) s Q.
Proof.
  intros HT (f & Hf & <- & <-) Hr He HQ. apply tot_bind. unfold tot at 1, get_fr. rewrite Hf. by eapply tot_put_fr.
Qed.
Lemma tot_get_frame id s (Q : nat -> st -> Prop) : TI s ->
  (forall a s', R s s' -> st_pos s' = st_pos s -> at_ s' a (st_pos s) id -> Q a s') -> tot (get_frame id) s Q.
Proof.
  intros HT HQ. unfold tot, get_frame. destruct (table_get (s_frames s) (st_pos s) id) as [[a|]|] eqn:ET; [| |done].
  - apply HQ; [by apply R_refl|done|by apply (ti_ent _ HT)].
  - destruct HT as [H1 H2 H3 H4].
    set (s' := set_frames _ _).
    assert (s_fheap s' = s_fheap s ++ [new_frame (st_pos s) id]) as HF by done.
    assert (keeps s s') as HK.
    { intros a f Ha. exists f. rewrite HF. split; [|done]. rewrite lookup_app_l; [done|by eapply lookup_lt_Some]. }
    assert (at_ s' (length (s_fheap s)) (st_pos s) id) as HA.
    { exists (new_frame (st_pos s) id). split; [|done]. rewrite HF. by rewrite lookup_app_r, Nat.sub_diag by lia. }
    apply HQ; [|done|done]. apply R_upd; [|done|done|done]. split; try done.
    + intros p i a Ha. cbn in Ha. rewrite table_get_set in Ha by congruence.
      destruct (bool_decide_reflect (st_pos s = p)), (bool_decide_reflect (id = i)); cbn in Ha; simplify_eq; [exact HA|..].
      all: eapply at_keeps; [exact HK|by apply H3].
    + rewrite HF. apply Forall_app. split; [done|]. apply Forall_singleton. by split.
Qed.

Definition stash_at (s : st) (k : nat) (l : list (option nat)) : Prop :=
  forall j a, l !! j = Some (Some a) -> exists p, at_ s a p (k + j).
Lemma tot_wipe a b s (Q : list (option nat) -> st -> Prop) : TI s ->
  (forall stash s', R s s' -> st_pos s' = st_pos s -> stash_at s' 0 stash -> Q stash s') -> tot (wipe_with a b) s Q.
Proof.
  intros HT HQ. apply tot_bind, tot_get_fr. intros f Hf. destruct (f_mask f) as [m|]; [|done]. unfold tot.
  destruct (s_frames s !! f_pos f) as [row|] eqn:Hrow; [|done]. destruct (negb _); [done|].
  set (s' := set_frames _ _).
  assert (TI s') as HT'.
  { destruct HT as [H1 H2 H3 H4]. split; try done. intros p i x Hx. apply H3. revert Hx. unfold table_get. cbn.
    destruct (decide (f_pos f = p)) as [<-|Hne].
    - rewrite list_lookup_insert by (by eapply lookup_lt_Some). rewrite Hrow. intros Hx.
      apply lookup_zip_with_Some in Hx as (bb & o & Hx & _ & Ho). destruct bb; congruence.
    - by rewrite list_lookup_insert_ne. }
  apply HQ; [apply R_upd; [done|by apply keeps_eq|done|done]|done|].
  intros j x Hx. destruct b; [|done].
  apply lookup_zip_with_Some in Hx as (bb & o & Hx & _ & Ho). destruct bb; [|done]. subst o.
  exists (f_pos f). apply (ti_ent _ HT). unfold table_get. by rewrite Hrow.
Qed.
Lemma tot_restore l : forall k s (Q : unit -> st -> Prop), TI s -> stash_at s k l ->
  (forall s', R s s' -> st_pos s' = st_pos s -> Q tt s') -> tot (restore_from k l) s Q.
Proof.
  induction l as [|o l IH]; intros k s Q HT HS HQ; cbn [restore_from].
  { apply tot_ret. apply HQ; [by apply R_refl|done]. }
  assert (forall s1, R s s1 -> st_pos s1 = st_pos s -> tot (restore_from (S k) l) s1 Q) as Hgo.
  { intros s1 HR1 Hp1. apply IH; [apply HR1| |].
    - intros j a Hj. destruct (HS (S j) a Hj) as (p & Hp). exists p. replace (S k + j) with (k + S j) by lia.
      eapply at_keeps; [apply HR1|done].
    - intros s2 HR2 Hp2. apply HQ; [by eapply R_trans|congruence]. }
  apply tot_bind. destruct o as [a|]; [|apply tot_ret; apply Hgo; [by apply R_refl|done]].
  apply tot_bind, tot_get_fr. intros f Hf. unfold tot. destruct (table_get (s_frames s) (f_pos f) k) as [x|] eqn:ET; [|done].
  apply Hgo; [|done]. apply R_upd; [|by apply keeps_eq|done|done]. destruct HT as [H1 H2 H3 H4]. split; try done.
  intros p i b Hb. cbn in Hb. rewrite table_get_set in Hb by congruence.
  destruct (bool_decide_reflect (f_pos f = p)), (bool_decide_reflect (k = i)); cbn in Hb; simplify_eq; try by apply H3.
  destruct (HS 0 b eq_refl) as (q & g & Hg & Hq & Hi). exists f. split; [done|]. split; [done|]. rewrite Nat.add_0_r in Hi. cbn in Hg. congruence.
Qed.

(** ** The growing loop and the cache *)
Section Loop.
Variable n : node.
Hypothesis Hn : reach E root n.
Hypothesis Hrule : i_isrule (n_info n) = true.
Notation id := (i_id (n_info n)).
Variable stk : list nat.
Variable fp : M (option ast).
Hypothesis Hfp : forall s, TI s -> s_stack s = stk -> tot fp s (post n s).

Lemma eats_id m : reach E root m -> i_isrule (n_info m) = true -> i_id (n_info m) = id -> eats m = true -> eats n = true.
Proof.
  destruct Huniq as [RR HU]. intros Hm Hr Hi He. pose proof (HU _ Hm Hr) as H1. pose proof (HU _ Hn Hrule) as H2. congruence.
Qed.
Lemma eats_end p x (r : option ast) : p <= x -> (eats n = true -> r <> None -> p < x) ->
  p <= x /\ ((exists m, reach E root m /\ i_isrule (n_info m) = true /\ i_id (n_info m) = id /\ eats m = true) -> r <> None -> p < x).
Proof. intros H1 H2. split; [done|]. intros (m & Hm & Hr & Hi & He). apply H2. by eapply eats_id. Qed.

Definition grown (s : st) (sp : nat) (b : ast * nat * list (option nat)) (s' : st) : Prop :=
  let '(_, e, stash) := b in
  TI s' /\ keeps s s' /\ s_stack s' = s_stack s /\ stash_at s' 0 stash /\ sp <= e /\ (eats n = true -> sp < e).

Lemma tot_grow show a sp lf : forall x s, TI s -> s_stack s = stk -> at_ s a sp id -> sp <= st_pos s ->
  (eats n = true -> sp < st_pos s) -> L - st_pos s < lf ->
  tot (grow E lf fp show id a sp x) s (grown s sp).
Proof.
  induction lf as [|lf IH]; intros x s HT Hstk Ha Hsp He Hlf; [lia|]. cbn [grow].
  apply tot_bind, tot_get_fr. intros f Hf. destruct (f_mask f); [|apply tot_panic].
  apply tot_bind, tot_wipe; [done|]. intros stash s1 R1 P1 HS1.
  apply tot_bind, tot_gets. rewrite P1.
  apply tot_bind. eapply tot_cache_set; [apply R1|eapply at_keeps; [apply R1|done]|done| |].
  { intros y [= <-]. apply eats_end; [done|auto]. }
  intros s2 R2 P2. apply (R_trans _ _ _ R1) in R2 as R02.
  apply tot_bind, tot_inert; [apply inert_log_if|]. intros _ s3 S3. assert (R s s3) as R03 by (eapply R_trans; [done|apply R_same; [apply R02|done]]).
  apply tot_bind, tot_set_pos; [apply R03|]. intros s4 T4 F4 _ K4 P4.
  apply tot_bind, tot_inert; [apply inert_emit|]. intros _ s5 S5.
  assert (TI s5) as T5 by (by eapply TI_same). assert (st_pos s5 = sp) as P5 by (by rewrite (same_pos _ _ S5)).
  assert (s_stack s5 = stk) as K5. { destruct S5 as (_ & _ & _ & ->). rewrite K4. destruct R03 as (_ & _ & -> & _). done. }
  assert (keeps s1 s5) as KK.
  { eapply keeps_trans; [apply R2|]. eapply keeps_trans; [apply keeps_eq, S3|]. eapply keeps_trans; [apply keeps_eq, F4|]. apply keeps_eq, S5. }
  apply tot_bind. eapply tot_weaken; [by apply Hfp|]. cbn beta. intros r s6 [R6 E6].
  assert (keeps s1 s6) as KK6 by (eapply keeps_trans; [exact KK|apply R6]).
  assert (grown s sp (x, st_pos s, stash) s6) as Hend.
  { split; [apply R6|]. split; [eapply keeps_trans; [apply R1|done]|]. split; [destruct R6 as (_ & _ & -> & _); congruence|].
    split; [|done]. intros j b Hj. destruct (HS1 _ _ Hj) as [p Hp]. exists p. by eapply at_keeps. }
  apply tot_bind, tot_gets. destruct (Nat.leb_spec (st_pos s6) (st_pos s)) as [Hle|Hgt]; [by apply tot_ret|].
  destruct r as [y|]; [|by apply tot_ret].
  pose proof (ti_pos _ (proj1 R6)).
  eapply tot_weaken; [apply IH|].
  - apply R6.
  - destruct R6 as (_ & _ & -> & _). done.
  - eapply at_keeps; [|exact Ha]. eapply keeps_trans; [apply R1|done].
  - lia.
  - intros He'. specialize (He He'). lia.
  - lia.
  - cbn beta. intros [[res e] st'] s7 (A1 & A2 & A3 & A4 & A5). split; [done|]. split; [|split; [|split; done]].
    + eapply keeps_trans; [apply R1|]. by eapply keeps_trans.
    + rewrite A3. destruct R6 as (_ & _ & -> & _). congruence.
Qed.

Lemma tot_loopify lf s : TI s -> s_stack s = stk -> L < lf -> tot (loopify E lf fp n) s (post n s).
Proof.
  intros HT Hstk Hlf. unfold loopify.
  apply tot_bind, tot_inert; [apply inert_log_if|]. intros _ s1 S1. assert (R s s1) as R1 by (by apply R_same).
  assert (st_pos s1 = st_pos s) as P1 by (by apply same_pos).
  assert (forall s', R s s' -> s_stack s' = stk) as Hst. { intros s' (_ & _ & -> & _). done. }
  destruct (i_skip (n_info n)).
  { apply tot_bind, tot_gets. apply tot_bind, tot_inert; [apply inert_emit|]. intros _ s2 S2.
    apply (same_trans _ _ _ S1) in S2. assert (R s s2) as R2 by (by apply R_same).
    apply tot_bind. eapply tot_weaken; [apply Hfp; [apply R2|auto]|]. cbn beta. intros r s3 [R3 E3].
    apply tot_bind, tot_inert; [destruct (_ || _)%bool; [destruct r; [apply inert_log|ins]|ins]|]. intros _ s4 S4.
    apply tot_ret. split.
    - eapply R_trans; [done|]. eapply R_trans; [done|]. apply R_same; [apply R3|done].
    - rewrite (same_pos _ _ S4), <- (same_pos _ _ S2). done. }
  apply tot_bind, tot_get_frame; [apply R1|]. intros a s2 R2 P2 A2. apply (R_trans _ _ _ R1) in R2.
  rewrite P1 in P2, A2.
  apply tot_bind, tot_gets. apply tot_bind, tot_get_fr. intros f0 _. rewrite P2.
  apply tot_bind.
  assert (tot (if (f_stage f0 <? 0)%Z then set_stage a 0 else ret tt) s2 (fun _ s' => R s s' /\ st_pos s' = st_pos s /\ at_ s' a (st_pos s) id)) as HG.
  { destruct (_ <? _)%Z; [|by apply tot_ret]. apply tot_set_stage; [apply R2|]. intros s' R' P'.
    split; [by eapply R_trans|]. split; [congruence|]. eapply at_keeps; [apply R'|done]. }
  eapply tot_weaken; [exact HG|]. clear HG s2 R2 P2 A2. cbn beta. intros _ s2 (R2 & P2 & A2).
  apply tot_bind, tot_get_fr. intros f Hf. destruct (f_stage f =? 0)%Z.
  - destruct (f_end f) as [e|] eqn:EE.
    + apply tot_bind, tot_inert; [apply inert_log_if|]. intros _ s3 S3.
      assert (R s s3) as R3 by (eapply R_trans; [done|apply R_same; [apply R2|done]]).
      apply tot_bind, tot_set_pos; [apply R3|]. intros s4 T4 F4 _ K4 P4. apply tot_ret.
      pose proof (proj2 (TI_fr _ _ _ (proj1 R2) Hf) e EE) as [Hle Hlt]. destruct A2 as (f' & Hf' & Hfp' & Hfi). simplify_eq.
      split.
      * split; [done|]. split; [eapply keeps_trans; [apply R3|by apply keeps_eq]|]. split; [rewrite K4; apply R3|]. rewrite <- Hfp'. done.
      * intros He Hr. rewrite <- Hfp'. apply Hlt; [by exists n|done].
    + apply tot_bind, tot_set_stage; [apply R2|]. intros s3 R3 P3.
      assert (R s s3) as R03 by (by eapply R_trans).
      apply tot_bind. eapply (tot_cache_set a (st_pos s) id); [apply R3|eapply at_keeps; [apply R3|done]|done|done|]. intros s4 R4 P4.
      assert (R s s4) as R04 by (by eapply R_trans).
      apply tot_bind, tot_inert; [apply inert_emit|]. intros _ s5 S5.
      assert (R s s5) as R05 by (eapply R_trans; [exact R04|apply R_same; [apply R04|done]]).
      assert (st_pos s5 = st_pos s) as P5 by (rewrite (same_pos _ _ S5); congruence).
      assert (at_ s5 a (st_pos s) id) as A5.
      { eapply at_keeps; [|exact A2]. eapply keeps_trans; [apply R3|]. eapply keeps_trans; [apply R4|]. apply keeps_eq, S5. }
      apply tot_bind. eapply tot_weaken; [apply Hfp; [apply R05|auto]|]. cbn beta. intros r s6 [R6 E6].
      assert (R s s6) as R06 by (by eapply R_trans).
      assert (at_ s6 a (st_pos s) id) as A6 by (eapply at_keeps; [apply R6|done]). rewrite P5 in E6.
      apply tot_bind, tot_get_fr. intros f' Hf'. destruct (f_stage f' =? 1)%Z.
      * apply tot_bind, tot_set_stage; [apply R6|]. intros s7 R7 P7.
        apply tot_bind, tot_gets. apply tot_bind. eapply (tot_cache_set a (st_pos s) id); [apply R7|eapply at_keeps; [apply R7|done]|done| |].
        { intros x [= <-]. rewrite P7. apply eats_end; [apply R06|done]. }
        intros s8 R8 P8. apply tot_bind, tot_inert; [apply inert_log_if|]. intros _ s9 S9. apply tot_ret.
        split; [eapply R_trans; [done|]; eapply R_trans; [done|]; eapply R_trans; [done|]; apply R_same; [apply R8|done]|].
        rewrite (same_pos _ _ S9), P8, P7. done.
      * destruct (f_stage f' =? 2)%Z; [|apply tot_panic]. destruct r as [x|].
        -- apply tot_bind, tot_set_stage; [apply R6|]. intros s7 R7 P7. assert (R s s7) as R07 by (by eapply R_trans).
           apply tot_bind, tot_inert.
           { destruct (e_loop E); [|ins]. apply inert_bind; [ins|]. intros c. apply inert_bind; [ins|]. intros []; [apply inert_push|ins]. }
           intros _ s8 S8. assert (R s s8) as R08 by (eapply R_trans; [exact R07|apply R_same; [apply R07|done]]).
           apply tot_bind. eapply tot_weaken; [apply (tot_grow _ a (st_pos s))|].
           ++ apply R08.
           ++ auto.
           ++ eapply at_keeps; [apply keeps_eq, S8|]. eapply at_keeps; [apply R7|done].
           ++ apply R08.
           ++ intros He. rewrite (same_pos _ _ S8), P7. by apply E6.
           ++ lia.
           ++ cbn beta. intros [[bres bpos] bstash] s9 (T9 & K9 & Q9 & H9 & L9 & E9).
              apply tot_bind, tot_inert; [destruct (e_loop E); [apply inert_pop|ins]|]. intros _ s10 S10.
              assert (TI s10) as T10 by (by eapply TI_same).
              apply tot_bind, tot_wipe; [done|]. intros st11 s11 R11 P11 _.
              apply tot_bind, tot_restore; [apply R11| |].
              { intros j b Hj. destruct (H9 _ _ Hj) as [p Hp]. exists p. eapply at_keeps; [apply R11|]. eapply at_keeps; [apply keeps_eq, S10|done]. }
              intros s12 R12 P12. apply tot_bind, tot_set_pos; [apply R12|]. intros s13 T13 F13 _ K13 P13.
              apply tot_bind, tot_inert; [apply inert_log_if|]. intros _ s14 S14.
              apply tot_bind, tot_set_stage; [by eapply TI_same|]. intros s15 R15 P15. apply tot_ret.
              assert (st_pos s15 = bpos) as P15' by (rewrite P15, (same_pos _ _ S14); done).
              split; [|rewrite P15'; auto].
              split; [apply R15|]. split; [|split; [|lia]].
              ** eapply keeps_trans; [apply R08|]. eapply keeps_trans; [exact K9|]. eapply keeps_trans; [apply keeps_eq, S10|].
                 eapply keeps_trans; [apply R11|]. eapply keeps_trans; [apply R12|]. eapply keeps_trans; [apply keeps_eq, F13|].
                 eapply keeps_trans; [apply keeps_eq, S14|]. apply R15.
              ** destruct R15 as (_ & _ & -> & _). destruct S14 as (_ & _ & _ & ->). rewrite K13.
                 destruct R12 as (_ & _ & -> & _). destruct R11 as (_ & _ & -> & _). destruct S10 as (_ & _ & _ & ->).
                 rewrite Q9. apply R08.
        -- apply tot_bind, tot_inert; [apply inert_log_if|]. intros _ s7 S7.
           assert (R s s7) as R07 by (eapply R_trans; [exact R06|apply R_same; [apply R06|done]]).
           apply tot_bind, tot_set_stage; [apply R07|]. intros s8 R8 P8. apply tot_ret. split; [by eapply R_trans|done].
  - destruct (_ || _)%bool; [|apply tot_panic].
    apply tot_bind.
    assert (tot (if (f_stage f =? 1)%Z then set_stage a 2 else ret tt) s2 (fun _ s' => R s s' /\ st_pos s' = st_pos s /\ at_ s' a (st_pos s) id)) as HG.
    { destruct (_ =? _)%Z; [|by apply tot_ret]. apply tot_set_stage; [apply R2|]. intros s' R' P'.
      split; [by eapply R_trans|]. split; [congruence|]. eapply at_keeps; [apply R'|done]. }
    eapply tot_weaken; [exact HG|]. clear HG. cbn beta. intros _ s3 (R3 & P3 & A3).
    apply tot_bind, tot_inert; [apply inert_emit|]. intros _ s4 S4.
    apply tot_bind, tot_inert; [apply inert_log_if|]. intros _ s5 S5. apply (same_trans _ _ _ S4) in S5.
    apply tot_bind, tot_get_fr. intros f1 Hf1. apply tot_bind, tot_gets.
    apply tot_bind, tot_inert; [apply inert_mark|]. intros mask s6 S6. apply (same_trans _ _ _ S5) in S6.
    assert (R s s6) as R6 by (eapply R_trans; [exact R3|apply R_same; [apply R3|done]]).
    apply tot_bind, tot_set_mask; [apply R6|]. intros s7 R7 P7.
    apply tot_bind, tot_get_fr. intros f2 Hf2.
    assert (at_ s7 a (st_pos s) id) as A7. { eapply at_keeps; [apply R7|]. eapply at_keeps; [apply keeps_eq, S6|done]. }
    assert (R s s7) as R07 by (by eapply R_trans).
    pose proof (TI_fr _ _ _ (proj1 R7) Hf2) as HF. destruct A7 as (g & Hg & Hgp & Hgi). simplify_eq.
    apply tot_bind. destruct (f_end f2) as [e|] eqn:EE.
    + destruct (proj2 HF e EE) as [Hle Hlt]. apply tot_set_pos; [apply R7|]. intros s8 T8 F8 _ K8 P8. apply tot_ret.
      split.
      * split; [done|]. split; [eapply keeps_trans; [apply R07|by apply keeps_eq]|]. split; [rewrite K8; apply R07|lia].
      * intros He Hr. specialize (Hlt ltac:(by exists n) Hr). lia.
    + apply tot_ret, tot_ret. split; [done|]. intros _ Hr. by rewrite (proj1 HF EE) in Hr.
Qed.
End Loop.

(** ** Whole parsers *)
Variable lvl : node -> nat.
Variable D : nat.
Hypothesis Hlevels : levels E root lvl D.

(** The depth of calls that a parser needs when [h] rules are on the stack. *)
Definition need (h : nat) (n : node) : nat :=
  (stack_limit - h) * (D + 1) + L + 2 + if i_isrule (n_info n) then 0 else S (lvl n).

Lemma need_pos h n : L + 2 <= need h n.
Proof. unfold need. generalize ((stack_limit - h) * (D + 1)). intros k. destruct (i_isrule (n_info n)); lia. Qed.

Lemma tot_parse fuel : forall n s, reach E root n -> TI s -> need (length (s_stack s)) n <= fuel -> tot (parse E fuel n) s (post n s).
Proof.
  induction fuel as [|fuel IH]; intros n s Hn HT Hf; [pose proof (need_pos (length (s_stack s)) n); lia|]. cbn [parse].
  assert (tot (wrap E (parse E fuel) fuel n) s (post n s)) as HW.
  { unfold wrap.
    assert (forall c, c ∈ children n -> reach E root c) as Hch by (intros c Hc; by eapply reach_child).
    set (P := fun h c => reach E root c /\ need h c <= fuel).
    assert (forall h c s, P h c -> TI s -> length (s_stack s) = h -> tot (parse E fuel c) s (post c s)) as Hrec.
    { intros h c s' [Hc Hfc] HT' <-. by apply IH. }
    assert (L < fuel) as HLf by (pose proof (need_pos (length (s_stack s)) n); lia).
    destruct (i_isrule (n_info n)) eqn:ER.
    - unfold stack_. apply tot_bind. unfold stack_push. apply tot_bind, tot_get_frame; [done|]. intros a s1 R1 P1 A1.
      unfold tot at 1. destruct (Nat.leb_spec stack_limit (length (s_stack s1))) as [Hlim|Hlim]; [done|].
      assert (s_stack s1 = s_stack s) as K1 by apply R1. rewrite K1 in *.
      set (s2 := set_stack s1 (a :: s_stack s)).
      assert (TI s2) as T2 by (by destruct (proj1 R1)).
      assert (forall c, c ∈ children n -> P (S (length (s_stack s))) c) as HPc.
      { intros c Hc. split; [by apply Hch|]. destruct (Hlevels n Hn) as (HlD & Hlc & _). specialize (Hlc c Hc).
        unfold need in *. rewrite ER in Hf. replace (stack_limit - length (s_stack s)) with (S (stack_limit - S (length (s_stack s)))) in Hf by lia.
        rewrite Nat.mul_succ_l in Hf. destruct (i_isrule (n_info c)); lia. }
      assert (forall name t, n_kind n = KRef name -> e_rule E name = Some t -> P (S (length (s_stack s))) t) as HPt.
      { intros name t HK Ht. split; [by eapply reach_rule|]. destruct (Hlevels n Hn) as (HlD & _ & Hlt). specialize (Hlt _ _ HK Ht).
        unfold need in *. rewrite ER in Hf.
        replace (stack_limit - length (s_stack s)) with (S (stack_limit - S (length (s_stack s)))) in Hf by lia.
        rewrite Nat.mul_succ_l in Hf. destruct Hlt as [->|Hlt]; [|destruct (i_isrule (n_info t))]; lia. }
      apply tot_bind. eapply tot_weaken.
      + apply (tot_loopify n Hn ER (a :: s_stack s)); [|exact T2|done|done]. intros s' HT' HK'.
        apply tot_prepare; [done|]. intros s'' HS.
        apply (tot_body (P (S (length (s_stack s)))) (S (length (s_stack s)))); try done.
        * apply Hrec.
        * by apply Forall_forall.
        * by eapply TI_same.
        * destruct HS as (_ & _ & _ & ->). by rewrite HK'.
      + cbn beta. intros r s3 [R3 E3]. apply tot_bind. unfold tot at 1. cbn. unfold tot. cbn.
        destruct R3 as (T3 & K3 & Q3 & L3). change (st_pos s2) with (st_pos s1) in *.
        split; [|change (st_pos (set_stack s3 (tail (s_stack s3)))) with (st_pos s3); intros; rewrite <- P1; auto].
        split; [by destruct T3|]. split; [eapply keeps_trans; [apply R1|exact K3]|]. split; [cbn; by rewrite Q3|].
        change (st_pos (set_stack s3 (tail (s_stack s3)))) with (st_pos s3). lia.
    - assert (forall c, c ∈ children n -> P (length (s_stack s)) c) as HPc.
      { intros c Hc. split; [by apply Hch|]. destruct (Hlevels n Hn) as (_ & Hlc & _). specialize (Hlc c Hc).
        unfold need in *. rewrite ER in Hf. destruct (i_isrule (n_info c)); lia. }
      assert (forall name t, n_kind n = KRef name -> e_rule E name = Some t -> P (length (s_stack s)) t) as HPt.
      { intros name t HK Ht. split; [by eapply reach_rule|]. destruct (Hlevels n Hn) as (_ & _ & Hlt). specialize (Hlt _ _ HK Ht).
        unfold need in *. rewrite ER in Hf. destruct Hlt as [->|Hlt]; [|destruct (i_isrule (n_info t))]; lia. }
      assert (forall s', same s s' -> tot (body E (parse E fuel) fuel n) s' (post n s')) as HB.
      { intros s' HS. apply (tot_body (P (length (s_stack s))) (length (s_stack s))); try done.
        - apply Hrec.
        - by apply Forall_forall.
        - by eapply TI_same.
        - destruct HS as (_ & _ & _ & ->). done. }
      destruct (_ || _)%bool; [by apply tot_prepare|]. by apply HB. }
  destruct (n_kind n) eqn:EK; try exact HW. apply tot_ret. split; [by apply R_refl|].
  intros He. pose proof (eat_ok _ _ _ _ Heat n Hn He) as H. unfold ate in H. by rewrite EK in H.
Qed.
End Term.

Lemma height_child n c : c ∈ children n -> height c < height n.
Proof.
  assert (forall l, c ∈ l -> height c <= fold_right (fun c m => Nat.max (height c) m) 0 l) as HL.
  { induction 1 as [|? ? ? ? IH]; cbn [fold_right]; lia. }
  destruct n as [i k]. unfold children. cbn [n_kind]. destruct k as [| | |ty l|l|v j mn mx|a|a|a|]; cbn [height]; intros H;
    try (by apply elem_of_nil in H); try (apply elem_of_list_singleton in H as ->; lia).
  - apply HL in H. lia.
  - apply HL in H. lia.
  - apply elem_of_cons in H as [->|H]; [lia|]. destruct j; [|by apply elem_of_nil in H]. apply elem_of_list_singleton in H as ->. cbn [opt_list]. lia.
Qed.

Lemma heights_levels E root D : heights E root D -> refs_to_rules E -> levels E root height D.
Proof. intros H1 H2 n Hn. split; [by apply H1|]. split; [intros c; apply height_child|]. intros name t _ Ht. left. by eapply H2. Qed.

Lemma init_TI E root eats c N : c_pos c <= length (c_work c) -> TI E root (c_work c) eats (init_st c N).
Proof.
  intros Hc. split; [done|done| |constructor]. cbn. intros p i a. unfold table_get. intros H. exfalso.
  destruct (replicate _ _ !! p) as [row|] eqn:ER; [|done].
  apply lookup_replicate in ER as [-> _]. by apply lookup_replicate in H as [[=] _].
Qed.

Lemma parse_ends E root rxe eats lvl D c fuel : eating E root rxe eats -> reps_eat E root eats ->
  (forall re, rx_ok (e_rx E re)) -> ids_unique E root -> levels E root lvl D ->
  c_pos c <= length (c_work c) -> enough D (length (c_work c)) <= fuel ->
  parse E fuel root (init_st c (e_nrules E)) <> OutOfFuel /\
  forall r s, parse E fuel root (init_st c (e_nrules E)) = Ok (Some r) s -> eats root = true -> c_pos c < st_pos s.
Proof.
  intros H1 H2 H3 H4 H5 Hc Hf.
  pose proof (tot_parse E root (c_work c) rxe eats H1 H2 H3 H4 lvl D H5 fuel root (init_st c (e_nrules E))
    (reach_root _ _) (init_TI _ _ _ _ _ Hc)) as HT.
  assert (tot (parse E fuel root) (init_st c (e_nrules E)) (post E root (c_work c) eats root (init_st c (e_nrules E)))) as HT'.
  { apply HT. unfold need, enough in *. pose proof (proj1 (H5 root (reach_root _ _))). cbn [init_st s_stack length]. rewrite Nat.sub_0_r.
    destruct (i_isrule (n_info root)); lia. }
  clear HT. unfold tot in HT'. destruct (parse E fuel root _) as [r s| |]; [|done..]. split; [done|].
  intros r' s' [= -> ->] He. destruct HT' as [_ HT']. by apply HT'.
Qed.

(** ** Reporting the error *)
Lemma pos_to_line_fuel c p : c_pos_to_line c p <> RFuel.
Proof.
  destruct c as [r|t]; cbn.
  - apply rbind_fuel; [apply bisect_fuel|done].
  - apply rbind_fuel; [apply coords_fuel|]. intros a. apply rbind_fuel; [apply bisect_fuel|done].
Qed.
Lemma pos_to_col_fuel c p : c_pos_to_col c p <> RFuel.
Proof.
  destruct c as [r|t]; cbn.
  - apply rbind_fuel; [apply (pos_to_line_fuel (CRune _))|]. intros a. apply rbind_fuel; [apply go_index_fuel|done].
  - apply rbind_fuel; [apply coords_fuel|]. intros a. apply rbind_fuel; [apply (pos_to_line_fuel (CTok _))|].
    intros b. apply rbind_fuel; [apply go_index_fuel|done].
Qed.
Lemma peek_lines_fuel c ns : c_peek_lines c ns <> RFuel.
Proof.
  assert (forall t ls l mn mx, peek_lines_range t ls l mn mx <> RFuel) as HR.
  { intros. unfold peek_lines_range. apply rbind_fuel; [apply go_index_fuel|]. intros st. apply rbind_fuel.
    - destruct (_ <? _)%Z; [apply rbind_fuel; [apply go_index_fuel|done]|done].
    - intros e. unfold slice_string. repeat case_match; done. }
  destruct c as [r|t]; cbn.
  - unfold rs_peek_lines. destruct ns as [|n0 rest]; [done|]. apply rbind_fuel; [apply (c_line_fuel (CRune _))|]. intros; apply HR.
  - unfold ts_peek_lines. destruct ns as [|n0 [|n1 rest]]; (apply rbind_fuel; [apply (c_line_fuel (CTok _))|]; intros; apply HR).
Qed.
Lemma finish_fuel r s : finish r s <> OutOfFuel.
Proof.
  unfold finish. apply bind_nofuel; [done|]. intros s0 s1. destruct (_ =? _); [done|].
  destruct (scan_rows _ _ _ _ _) as [att succ].
  apply bind_nofuel; [apply lift_fuel, pos_to_line_fuel|]. intros _ s2.
  apply bind_nofuel; [apply lift_fuel, pos_to_col_fuel|]. intros _ s3.
  apply bind_nofuel; [apply lift_fuel, peek_lines_fuel|]. intros _ s4.
  apply bind_nofuel; [apply lift_fuel, c_peek_fuel|]. intros _ s5.
  apply bind_nofuel; [apply set_pos_fuel|]. intros _ s6.
  apply bind_nofuel; [done|]. intros c1 s7.
  apply bind_nofuel; [apply lift_fuel, c_peek_fuel|]. intros _ s8.
  apply bind_nofuel; [apply set_pos_fuel|]. intros _ s9.
  apply bind_nofuel; [done|]. intros c2 s10.
  apply bind_nofuel; [apply lift_fuel, peek_lines_fuel|]. done.
Qed.
Lemma gram_ends fuel g o rx cb c rxe eats lvl D :
  let E := mk_env g o rx cb in
  eating E (g_rank g) rxe eats -> reps_eat E (g_rank g) eats ->
  (forall re, rx_ok (rx re)) -> ids_unique E (g_rank g) -> levels E (g_rank g) lvl D ->
  c_pos c <= length (c_work c) -> enough D (length (c_work c)) <= fuel ->
  fst (gram_parse fuel g o rx cb c) <> OutOfFuel.
Proof.
  intros E H1 H2 H3 H4 H5 H7 H8. unfold gram_parse. fold E.
  destruct (parse_ends E (g_rank g) rxe eats lvl D c fuel H1 H2 H3 H4 H5 H7 H8) as [HP _].
  change (e_nrules E) with (g_nrules g) in HP.
  destruct (parse E fuel (g_rank g) (init_st c (g_nrules g))) as [r s|p s|]; cbn [fst]; [apply finish_fuel|done|done].
Qed.

(** ** Checking the hypotheses on concrete grammars *)
From Verif Require Import Toy CombProofs.
Lemma eating_check E root rules rxe eats : e_rule E = look_up rules ->
  (forall re s b, rxe re = true -> e_rx E re s = Some (0, b) -> 0 < b) ->
  forallb (fun n => implb (eats n) (ate E rxe eats n)) (all_nodes root rules) = true -> eating E root rxe eats.
Proof.
  intros HE HX H. split; [done|]. intros n Hn He. rewrite List.forallb_forall in H.
  specialize (H n ltac:(apply elem_of_list_In; by eapply reach_all)). by rewrite He in H.
Qed.
Lemma reps_check E root rules eats : e_rule E = look_up rules ->
  forallb (fun n => match n_kind n with KPat v j _ _ => eats v || match j with Some x => eats x | None => false end | _ => true end)%bool
    (all_nodes root rules) = true -> reps_eat E root eats.
Proof.
  intros HE H n v j mn mx Hn HK. rewrite List.forallb_forall in H.
  specialize (H n ltac:(apply elem_of_list_In; by eapply reach_all)). rewrite HK in H.
  destruct (eats v); [by left|]. destruct j; [|done]. right. eauto.
Qed.
Lemma heights_check E root rules D : e_rule E = look_up rules ->
  forallb (fun n => height n <=? D) (all_nodes root rules) = true -> heights E root D.
Proof.
  intros HE H n Hn. rewrite List.forallb_forall in H.
  specialize (H n ltac:(apply elem_of_list_In; by eapply reach_all)). by apply Nat.leb_le.
Qed.
Lemma refs_check E rules : e_rule E = look_up rules ->
  forallb (fun n => i_isrule (n_info n)) (snd <$> rules) = true -> refs_to_rules E.
Proof.
  intros HE H name t Ht. rewrite HE in Ht. apply look_up_in in Ht. rewrite List.forallb_forall in H. by apply H, elem_of_list_In.
Qed.

(** ** A repetition that does not end *)
Lemma rounds_hang E rec lf n v mn s (P : st -> Prop) : n_kind n = KPat v None mn (-1) -> P s ->
  (forall s, P s -> rec v s = OutOfFuel \/ exists x s', rec v s = Ok (Some x) s' /\ P s') -> body E rec lf n s = OutOfFuel.
Proof.
  intros HK Hs HP. assert (forall lf acc s, P s -> pat_loop rec lf v None (-1) acc s = OutOfFuel) as HL.
  { clear -HP. intros lf. induction lf as [|lf IH]; intros acc s Hs; [done|]. cbn [pat_loop].
    unfold bind, get_pos, gets, ret.
    destruct (HP s Hs) as [->|(x & s' & Hx & Hs')]; [done|]. rewrite Hx. cbn [andb Z.ltb Z.compare].
    by apply IH. }
  unfold body. rewrite HK. unfold bind, get_pos, gets. destruct (HP s Hs) as [->|(x & s' & Hx & Hs')]; [done|].
  rewrite Hx. by rewrite HL.
Qed.

Definition hang_rule : node := rule "__root__[0]" 0 (KPat (str "") None (-1) (-1)).
Definition hang_gram : gram := toy_gram (rank [hang_rule]) 1 [].
Lemma bind_hangs {A B} (m : M A) (k : A -> M B) s : m s = OutOfFuel -> bind m k s = OutOfFuel.
Proof. unfold bind. by intros ->. Qed.
Lemma bind_runs {A B} (m : M A) (k : A -> M B) s a s' : m s = Ok a s' -> bind m k s = k a s'.
Proof. unfold bind. by intros ->. Qed.
Lemma loop_hangs lf fp :
  let s0 := init_st (CRune (new_rune_stream [])) 1 in
  let E := mk_env hang_gram mute no_rx no_cb in
  (forall s, s_code s = CRune (new_rune_stream []) -> fp s = OutOfFuel) ->
  stack_ (loopify E lf fp hang_rule) hang_rule s0 = OutOfFuel.
Proof.
  intros s0 E H.
  lazy -[grow wipe_with restore_with mark c_line lift loop_stack_push loop_stack_pop].
  rewrite H by reflexivity. reflexivity.
Qed.
Lemma hangs fuel : fst (gram_parse fuel hang_gram mute no_rx no_cb (CRune (new_rune_stream []))) = OutOfFuel.
Proof.
  unfold gram_parse. set (E := mk_env _ _ _ _). set (s0 := init_st _ _).
  assert (parse E fuel (g_rank hang_gram) s0 = OutOfFuel) as ->; [|done].
  destruct fuel as [|fuel]; [done|]. rewrite plain_called by done. unfold body. cbn [n_kind g_rank hang_gram toy_gram rank].
  cbn [choice_loop]. unfold bind at 1, get_pos, gets. apply bind_hangs.
  destruct fuel as [|fuel]; [done|]. cbn [parse]. unfold wrap. cbn [hang_rule rule ri n_info i_isrule].
  apply (loop_hangs fuel). intros s Hs. unfold prepare_result.
  eapply eq_trans; [eapply bind_runs; reflexivity|]. apply bind_hangs.
  apply (rounds_hang E _ fuel _ (str "") (-1) _ (fun s => s_code s = CRune (new_rune_stream []))); [done|done|].
  clear. intros s Hs. destruct fuel as [|fuel]; [by left|right]. exists (AStr []), s. split; [|done].
  rewrite plain_called by done. unfold body. cbn [n_kind str]. rewrite Hs. cbn. by destruct s; cbn in Hs; subst.
Qed.
