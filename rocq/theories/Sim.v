(** Simulation between two runs of the engine that differ in tracing or in the
    kind of stream. *)
From Verif Require Import Base Helpers HelpersProofs Utf8 Stream StreamSpec StreamProofs Native Engine EngSpec EngInv EngMon CombProofs SkipSpec SimSpec.

Section Sim.
Variable strict : bool.
Variables c1 c2 : code.
Notation L := (length (c_work c1)).
Hypothesis Hwork : c_work c2 = c_work c1.
Hypothesis Hlines1 : code_lines_ok c1.
Hypothesis Hlines2 : code_lines_ok c2.
Hypothesis Hstrict : strict = true -> c1 = c2.
Variables E1 E2 : env.
Hypothesis Hn : e_nrules E2 = e_nrules E1.
Hypothesis Hrule : forall name, e_rule E2 name = option_map mute_node (e_rule E1 name).
Hypothesis Hrxe : e_rx E2 = e_rx E1.
Hypothesis Hrx : forall re, rx_ok (e_rx E1 re).
Hypothesis Hcb : cb_like strict (e_cb E1) (e_cb E2).
Hypothesis Hmute : e_stack E2 = false /\ e_loop E2 = false.
Hypothesis Hloop : e_loop E1 = true -> (e_filter E1 < 0)%Z.
(** The positions the cursor can take. *)
Variable B : nat -> Prop.
Hypothesis B_le : forall p, B p -> p <= L.
Variable root : node.
Hypothesis B_str : forall n s p, reach E1 root n -> n_kind n = KStr s -> B p -> take (length s) (drop p (c_work c1)) = s -> B (p + length s).
Hypothesis B_rx : forall n re p b, reach E1 root n -> n_kind n = KRegex re -> B p -> e_rx E1 re (drop p (c_work c1)) = Some (0, b) -> B (p + b).
Definition okf (f : frame) : Prop := forall e, f_end f = Some e -> B e.

Record sim (s1 s2 : st) : Prop := {
  sm_B : B (st_pos s1);
  sm_fr : Forall okf (s_fheap s1);
  sm_code1 : s_code s1 = c_with_pos c1 (st_pos s1);
  sm_code2 : s_code s2 = c_with_pos c2 (st_pos s1);
  sm_frames : s_frames s2 = s_frames s1;
  sm_fheap : s_fheap s2 = s_fheap s1;
  sm_stack : s_stack s2 = s_stack s1;
  sm_heap : heap_like strict (s_heap s1) (s_heap s2);
  sm_log : s_log s2 = s_log s1 }.

(** [i], [o]: how much of the loop stack is taken and left by [m1]. *)
Definition simq {A} (i o : nat) (Q : A -> Prop) (m1 m2 : M A) : Prop := forall s1 s2, sim s1 s2 -> i <= s_loopstack s1 ->
  match m1 s1, m2 s2 with
  | Ok a1 s1', Ok a2 s2' => a1 = a2 /\ Q a1 /\ sim s1' s2' /\ s_loopstack s1' + i = s_loopstack s1 + o
  | Panic p1 s1', Panic p2 s2' => p1 = p2 /\ sim s1' s2'
  | OutOfFuel, OutOfFuel => True
  | _, _ => False
  end.
Notation simn i o := (simq i o (fun _ => True)).
Notation sm := (simn 0 0).
Notation sq := (simq 0 0).

Lemma sm_pos s1 s2 : sim s1 s2 -> st_pos s1 <= L.
Proof. intros HS. apply B_le, HS. Qed.
Lemma sq_bind {A C} i j o Q Q' (m1 m2 : M A) (k1 k2 : A -> M C) : simq i j Q m1 m2 -> (forall a, Q a -> simq j o Q' (k1 a) (k2 a)) -> simq i o Q' (bind m1 k1) (bind m2 k2).
Proof.
  intros H1 H2 s1 s2 HS Hi. unfold bind. specialize (H1 s1 s2 HS Hi).
  destruct (m1 s1) as [a1 t1|p1 t1|], (m2 s2) as [a2 t2|p2 t2|]; try done.
  destruct H1 as (-> & HQ & HS1 & HL). specialize (H2 a2 HQ t1 t2 HS1 ltac:(lia)).
  destruct (k1 a2 t1) as [b1 u1|q1 u1|], (k2 a2 t2) as [b2 u2|q2 u2|]; try done. destruct H2 as (-> & HQ2 & HS2 & HL2). split; [done|]. split; [done|]. split; [done|lia].
Qed.
Lemma sq_frame {A} k Q (m1 m2 : M A) : sq Q m1 m2 -> simq k k Q m1 m2.
Proof.
  intros H s1 s2 HS Hi. specialize (H s1 s2 HS ltac:(lia)). destruct (m1 s1), (m2 s2); try done. destruct H as (-> & HQ & HS1 & HL).
  split; [done|]. split; [done|]. split; [done|lia].
Qed.
Lemma sm_bind {A C} Q' (m1 m2 : M A) (k1 k2 : A -> M C) : sm m1 m2 -> (forall a, sq Q' (k1 a) (k2 a)) -> sq Q' (bind m1 k1) (bind m2 k2).
Proof. intros H1 H2. eapply sq_bind; [exact H1|]. intros a _. apply H2. Qed.
Lemma sq_ret {A} (Q : A -> Prop) (a : A) : Q a -> sq Q (ret a) (ret a).
Proof. intros HQ s1 s2 HS Hi. cbn. split; [done|]. split; [done|]. split; [done|lia]. Qed.
Lemma sm_ret {A} (a : A) : sm (ret a) (ret a).
Proof. by apply sq_ret. Qed.
Lemma sm_panic {A} Q p : sq Q (panic_ (A:=A) p) (panic_ p).
Proof. intros s1 s2 HS Hi. cbn. done. Qed.
Lemma sm_fuel {A} Q : sq Q (out_of_fuel (A:=A)) out_of_fuel.
Proof. done. Qed.
Lemma sm_lift {A} (r : res A) : sm (lift r) (lift r).
Proof. intros s1 s2 HS Hi. unfold lift. destruct r; cbn; [|done|done]. split; [done|]. split; [done|]. split; [done|lia]. Qed.
Lemma pos2 s1 s2 : sim s1 s2 -> st_pos s2 = st_pos s1.
Proof. intros HS. unfold st_pos at 1. rewrite (sm_code2 _ _ HS). apply c_with_pos_pos. Qed.
Lemma sm_gets {A} (f : st -> A) : (forall s1 s2, sim s1 s2 -> f s2 = f s1) -> sm (gets f) (gets f).
Proof. intros H s1 s2 HS Hi. cbn. split; [by rewrite (H s1 s2)|]. split; [done|]. split; [done|lia]. Qed.
Lemma sm_get_pos : sq B get_pos get_pos.
Proof. intros s1 s2 HS Hi. cbn. split; [by rewrite (pos2 s1 s2)|]. split; [apply HS|]. split; [done|lia]. Qed.
Lemma sm_posb {A} (Q : A -> Prop) k1 k2 : (forall p, B p -> sq Q (k1 p) (k2 p)) -> sq Q (bind get_pos k1) (bind get_pos k2).
Proof. intros H. eapply sq_bind; [apply sm_get_pos|done]. Qed.
Lemma sim_code s1 s2 p : sim s1 s2 -> B p -> sim (set_code s1 (c_with_pos c1 p)) (set_code s2 (c_with_pos c2 p)).
Proof.
  intros HS Hp. assert (st_pos (set_code s1 (c_with_pos c1 p)) = p) as HP by (unfold st_pos; cbn; apply c_with_pos_pos).
  split; cbn [set_code s_code s_frames s_fheap s_stack s_heap s_log]; rewrite ?HP; try done; apply HS.
Qed.
Lemma sm_set_pos p : B p -> sm (set_pos p) (set_pos p).
Proof.
  intros HB s1 s2 HS Hi. unfold set_pos. rewrite !c_set_pos_eq, (sm_code1 _ _ HS), (sm_code2 _ _ HS), !c_with_pos_work, Hwork, !c_with_pos_twice.
  destruct ((_ <? 0) || _)%Z%bool eqn:EB; cbn; [done|]. split; [done|]. split; [done|]. rewrite Nat2Z.id.
  split; [by apply sim_code|lia].
Qed.
Lemma sm_emit e : sm (emit e) (emit e).
Proof. intros s1 s2 HS Hi. cbn. split; [done|]. split; [done|]. split; [|lia]. destruct HS. split; cbn; try done. by f_equal. Qed.
Lemma sm_alloc o : sm (alloc o) (alloc o).
Proof.
  intros s1 s2 HS Hi. cbn. destruct HS. split; [by apply Forall2_length in sm_heap0|]. split; [done|]. split; [|lia]. split; cbn; try done.
  apply Forall2_app; [done|]. by constructor.
Qed.
Lemma heap_at s1 s2 a : sim s1 s2 -> match s_heap s1 !! a, s_heap s2 !! a with
  | Some o1, Some o2 => obj_like strict o1 o2 | None, None => True | _, _ => False end.
Proof.
  intros HS. destruct HS as [_ _ _ _ _ _ _ HH _]. destruct (s_heap s1 !! a) as [o1|] eqn:H1.
  - destruct (Forall2_lookup_l _ _ _ _ _ HH H1) as (o2 & -> & H). done.
  - destruct (s_heap s2 !! a) as [o2|] eqn:H2; [|done]. destruct (Forall2_lookup_r _ _ _ _ _ HH H2) as (o1 & H & _). congruence.
Qed.
(** What is done with an object read depends on its contents only. *)
Lemma sm_read {C} Q a (k1 k2 : obj -> M C) : (forall o1 o2, obj_like strict o1 o2 -> sq Q (k1 o1) (k2 o2)) ->
  sq Q (bind (read_obj a) k1) (bind (read_obj a) k2).
Proof.
  intros H s1 s2 HS Hi. unfold bind, read_obj. pose proof (heap_at s1 s2 a HS) as HA.
  destruct (s_heap s1 !! a) as [o1|], (s_heap s2 !! a) as [o2|]; try done. by apply (H o1 o2 HA s1 s2 HS).
Qed.
Lemma sm_write a o1 o2 : obj_like strict o1 o2 -> sm (write_obj a o1) (write_obj a o2).
Proof.
  intros HO s1 s2 HS Hi. cbn. split; [done|]. split; [done|]. split; [|lia]. destruct HS. split; cbn; try done. by apply Forall2_insert.
Qed.
Lemma sm_get_fr a : sq okf (get_fr a) (get_fr a).
Proof.
  intros s1 s2 HS Hi. unfold get_fr. rewrite (sm_fheap _ _ HS). destruct (s_fheap s1 !! a) eqn:EA; cbn; [|done].
  split; [done|]. split; [exact (Forall_lookup_1 _ _ _ _ (sm_fr _ _ HS) EA)|]. split; [done|lia].
Qed.
Lemma sm_frb {A} (Q : A -> Prop) a k1 k2 : (forall f, okf f -> sq Q (k1 f) (k2 f)) -> sq Q (bind (get_fr a) k1) (bind (get_fr a) k2).
Proof. intros H. eapply sq_bind; [apply sm_get_fr|done]. Qed.
Lemma sm_put_fr a f : okf f -> sm (put_fr a f) (put_fr a f).
Proof.
  intros Hf s1 s2 HS Hi. cbn. split; [done|]. split; [done|]. split; [|lia]. destruct HS. split; cbn; try done; [by apply Forall_insert|by f_equal].
Qed.
Lemma sm_peek : sm stack_peek stack_peek.
Proof.
  intros s1 s2 HS Hi. unfold stack_peek. rewrite (sm_stack _ _ HS). destruct (s_stack s1) as [|a l]; [done|].
  pose proof (sm_get_fr a s1 s2 HS Hi) as H. destruct (get_fr a s1), (get_fr a s2); try done. destruct H as (-> & _ & H). done.
Qed.
Lemma sm_get_frame i : sm (get_frame i) (get_frame i).
Proof.
  intros s1 s2 HS Hi. unfold get_frame. rewrite (pos2 _ _ HS), (sm_frames _ _ HS), (sm_fheap _ _ HS).
  destruct (table_get _ _ _) as [[a|]|]; [| |done]; (split; [done|]; split; [done|]; split; [|cbn; lia]); [done|]. destruct HS. split; cbn; try done.
  apply Forall_app. split; [done|]. constructor; [|done]. intros e. cbn. done.
Qed.

Ltac sstep := first
  [ apply sm_ret | apply sm_fuel | apply sm_posb; intros ? ? | apply sm_frb; intros ? ? | (apply sm_set_pos; assumption) | apply sm_alloc | apply sm_emit
  | apply sm_peek | apply sm_panic | apply sm_lift | apply sm_get_frame
  | (apply sm_bind; [|intros ?])
  | match goal with
    | |- simq 0 0 _ (match ?x with _ => _ end) _ => destruct x
    | |- simq 0 0 _ (if ?x then _ else _) _ => destruct x
    | |- simq 0 0 _ (let '(_, _) := ?x in _) _ => destruct x
    end ].

Lemma sm_set_stage a z : sm (set_stage a z) (set_stage a z).
Proof. unfold set_stage. repeat sstep. apply sm_put_fr. intros e. cbn. auto. Qed.
Lemma sm_cache_set a r e : (forall p, e = Some p -> B p) -> sm (cache_set a r e) (cache_set a r e).
Proof. intros He. unfold cache_set. repeat sstep. apply sm_put_fr. intros p. cbn. auto. Qed.
Lemma sm_set_mask a m : sm (set_mask a m) (set_mask a m).
Proof. unfold set_mask. repeat sstep. apply sm_put_fr. intros e. cbn. auto. Qed.
Lemma sm_wipe a b : sm (wipe_with a b) (wipe_with a b).
Proof.
  unfold wipe_with. apply sm_frb. intros f _. destruct (f_mask f); [|apply sm_panic].
  intros s1 s2 HS Hi. rewrite (sm_frames _ _ HS). destruct (s_frames s1 !! _); [|done]. destruct (negb _); [done|].
  split; [done|]. split; [done|]. split; [|cbn; lia]. destruct HS. by split.
Qed.
Lemma sm_restore l : forall i, sm (restore_from i l) (restore_from i l).
Proof.
  induction l as [|o l IH]; intros i; cbn [restore_from]; [apply sm_ret|]. apply sm_bind; [|intros _; apply IH].
  destruct o as [a|]; [|apply sm_ret]. apply sm_frb. intros f _ s1 s2 HS Hi. rewrite (sm_frames _ _ HS).
  destruct (table_get _ _ _); [|done]. split; [done|]. split; [done|]. split; [|cbn; lia]. destruct HS. by split.
Qed.
Lemma sm_mark sp id : forall stk m, sm (mark stk sp id m) (mark stk sp id m).
Proof. induction stk as [|a stk IH]; intros m; cbn [mark]; repeat sstep. apply IH. Qed.
Lemma sm_push : simn 0 1 loop_stack_push (ret tt).
Proof. intros s1 s2 HS Hi. cbn. split; [done|]. split; [done|]. split; [|lia]. destruct HS. by split. Qed.
Lemma sm_pop : simn 1 0 loop_stack_pop (ret tt).
Proof.
  intros s1 s2 HS Hi. unfold loop_stack_pop. destruct (s_loopstack s1) as [|k] eqn:EL; [lia|]. cbn. split; [done|]. split; [done|]. split; [|lia].
  destruct HS. by split.
Qed.

(** The native objects. *)
Lemma sm_merge_keys dst src ks : sm (merge_keys dst src ks) (merge_keys dst src ks).
Proof.
  induction ks as [|k ks IH]; cbn [merge_keys]; [apply sm_ret|]. apply sm_read. intros o1 o2 [HB _]. rewrite HB. apply sm_bind; [|intros _; apply IH].
  destruct (o_body o2) as [m|]; [|apply sm_panic]. apply sm_bind; [apply sm_lift|]. intros v. apply sm_read. intros d1 d2 [HD HA]. rewrite HD.
  destruct (o_body d2); [|apply sm_panic]. by apply sm_write.
Qed.
Lemma sm_merge_label dst m ks : sm (merge_label dst m ks) (merge_label dst m ks).
Proof.
  induction ks as [|k ks IH]; cbn [merge_label]; [apply sm_ret|]. apply sm_bind; [|intros _; apply IH].
  destruct (String.eqb k "label"); [|apply sm_panic]. apply sm_bind; [apply sm_lift|]. intros v. destruct v; try apply sm_panic.
  destruct dst as [a|]; [|apply sm_ret]. apply sm_read. intros d1 d2 [HD HA]. rewrite HD.
  destruct (o_body d2); [apply sm_panic|]. by apply sm_write.
Qed.
Lemma sm_type_of x : sm (type_of x) (type_of x).
Proof.
  unfold type_of. destruct x; try apply sm_ret. apply sm_read. intros o1 o2 [HB _]. rewrite HB. destruct (o_body o2); apply sm_ret.
Qed.
Lemma sm_merge x y : sm (merge x y) (merge x y).
Proof.
  unfold merge. apply sm_bind; [apply sm_type_of|]. intros [|a m|a|]; try apply sm_panic; [apply sm_ret| |];
    (apply sm_bind; [apply sm_type_of|]); intros [|b m'|b|]; repeat first [apply sm_merge_keys|apply sm_merge_label|sstep].
Qed.
Lemma sm_add_labelled l r x : sm (add_labelled l r x) (add_labelled l r x).
Proof.
  unfold add_labelled. destruct (String.eqb l "&").
  { destruct (is_undefined r); [apply sm_ret|]. destruct r; [|apply sm_ret]. apply sm_bind; [apply sm_merge|]. intros y. apply sm_ret. }
  destruct (String.eqb l "@").
  { destruct (is_undefined r); [apply sm_ret|]. destruct r; [|apply sm_ret]. apply sm_bind; [apply sm_merge|]. intros y. apply sm_ret. }
  destruct (String.eqb l ""); [apply sm_ret|]. destruct (is_undefined r); [apply sm_bind; [apply sm_alloc|]; intros y; apply sm_ret|].
  destruct r as [[| | | |a| |]|]; try apply sm_panic. apply sm_read. intros o1 o2 [HB HA]. rewrite HB. destruct (o_body o2); [|apply sm_panic].
  apply sm_bind; [|intros _; apply sm_ret]. by apply sm_write.
Qed.
Lemma sm_wrap_label i x : sm (wrap_label i x) (wrap_label (info_mute i) x).
Proof. unfold wrap_label. cbn. repeat sstep. Qed.
Lemma sm_call i x : sm (call_cb E1 i x) (call_cb E2 (info_mute i) x).
Proof.
  unfold call_cb. cbn. destruct (i_cb i) as [c|]; [|apply sm_ret]. apply sm_posb. intros p _. apply sm_bind; [apply sm_emit|].
  intros _ s1 s2 HS Hi. pose proof (Hcb c p (s_heap s1) (s_heap s2) x (sm_heap _ _ HS)) as HC. unfold cbres_like in HC.
  destruct (e_cb E1 c p (s_heap s1) x) as [h1 r1|t1], (e_cb E2 c p (s_heap s2) x) as [h2 r2|t2]; try done.
  - destruct HC as [-> HC]. split; [done|]. split; [done|]. split; [|cbn; lia]. destruct HS. by split.
  - by subst.
Qed.
(** Origins. *)
Lemma sm_origin y sp p nm : forall s1 s2, sim s1 s2 -> forall l1 l2, c_line (s_code s1) = ROk l1 -> c_line (s_code s2) = ROk l2 ->
  match set_origin y (Origin (c_code (s_code s1)) sp p l1 nm) s1, set_origin y (Origin (c_code (s_code s2)) sp p l2 nm) s2 with
  | Ok a1 s1', Ok a2 s2' => a1 = a2 /\ True /\ sim s1' s2' /\ s_loopstack s1' + 0 = s_loopstack s1 + 0
  | Panic p1 s1', Panic p2 s2' => p1 = p2 /\ sim s1' s2'
  | OutOfFuel, OutOfFuel => True
  | _, _ => False
  end.
Proof.
  intros s1 s2 HS l1 l2 H1 H2. unfold set_origin. destruct y; try (cbn; split; [done|]; split; [done|]; split; [done|lia]).
  apply (sm_read (fun _ => True) addr (fun ob => write_obj addr (Obj (o_body ob) (attr_set_origin (o_attr ob) _)))
    (fun ob => write_obj addr (Obj (o_body ob) (attr_set_origin (o_attr ob) _)))); [|done|lia].
  intros o1 o2 [HB HA]. apply sm_write. split; [done|]. intros Hs. cbn. specialize (Hstrict Hs).
  assert (s_code s1 = s_code s2) as HC by (rewrite (sm_code1 _ _ HS), (sm_code2 _ _ HS); by rewrite Hstrict).
  rewrite HC in H1 |- *. rewrite H2 in H1. injection H1 as ->. done.
Qed.
Lemma line1 s1 s2 : sim s1 s2 -> exists l1 l2, c_line (s_code s1) = ROk l1 /\ c_line (s_code s2) = ROk l2.
Proof.
  intros HS. destruct (Hlines1 (st_pos s1) (sm_pos _ _ HS)) as [[l1 H1] _]. destruct (Hlines2 (st_pos s1)) as [[l2 H2] _].
  { rewrite Hwork. apply (sm_pos _ _ HS). }
  exists l1, l2. rewrite (sm_code1 _ _ HS), (sm_code2 _ _ HS). done.
Qed.
Lemma sm_finish_result n y fr p : 
  sm (do! c := gets s_code in do! line := lift (c_line c) in
      set_origin y (Origin (c_code c) (f_pos fr) p line (i_name (n_info n))) ;! ret (Some y))
     (do! c := gets s_code in do! line := lift (c_line c) in
      set_origin y (Origin (c_code c) (f_pos fr) p line (i_name (n_info n))) ;! ret (Some y)).
Proof.
  intros s1 s2 HS Hi. destruct (line1 s1 s2 HS) as (l1 & l2 & H1 & H2).
  assert (forall s l, c_line (s_code s) = ROk l -> (do! c := gets s_code in do! line := lift (c_line c) in
      set_origin y (Origin (c_code c) (f_pos fr) p line (i_name (n_info n))) ;! ret (Some y)) s =
    (set_origin y (Origin (c_code (s_code s)) (f_pos fr) p l (i_name (n_info n))) ;! ret (Some y)) s) as HE.
  { intros s l Hl. unfold bind at 1, gets. unfold bind at 1. rewrite Hl. done. }
  rewrite (HE s1 l1 H1), (HE s2 l2 H2). unfold bind.
  pose proof (sm_origin y (f_pos fr) p (i_name (n_info n)) s1 s2 HS l1 l2 H1 H2) as HO.
  destruct (set_origin y _ s1) as [a1 t1|p1 t1|], (set_origin y _ s2) as [a2 t2|p2 t2|]; try done. destruct HO as (_ & _ & HS' & HL). cbn. split; [done|]. split; [done|]. split; [done|lia].
Qed.
Lemma sm_prepare fp1 fp2 n : sm fp1 fp2 -> sm (prepare_result E1 fp1 n) (prepare_result E2 fp2 (mute_node n)).
Proof.
  intros H. unfold prepare_result. assert (n_info (mute_node n) = info_mute (n_info n)) as -> by (by destruct n).
  apply sm_bind. { intros s1 s2 HS Hi. cbn. split; [done|]. split; [done|]. split; [|lia]. destruct HS. by split. }
  intros _. apply sm_bind; [done|]. intros [x|]; [|apply sm_ret]. apply sm_bind; [apply sm_wrap_label|]. intros x1.
  apply sm_bind; [apply sm_call|]. intros [y|]; [|apply sm_ret]. apply sm_bind; [apply sm_peek|]. intros fr.
  apply sm_posb. intros p _. cbn [i_name info_mute]. apply sm_finish_result.
Qed.

(** Logging. *)
Definition loggable : Prop := forall p, B p -> loggable_at c1 p.
Lemma sm_log_ : loggable -> sm (log_ E1) (ret tt).
Proof.
  intros Hlog s1 s2 HS Hi. assert (log_ E1 s1 = Ok tt s1) as ->; [|cbn; split; [done|]; split; [done|]; split; [done|lia]].
  unfold log_. destruct (e_skiplog E1); [done|]. unfold bind, gets.
  destruct (Hlines1 (st_pos s1) (sm_pos _ _ HS)) as [[l Hl] [k Hk]]. rewrite <- (sm_code1 _ _ HS) in Hl, Hk.
  assert (exists t, c_peek_runes (s_code s1) (-5) = ROk t) as [t Ht].
  { destruct (Hlog (st_pos s1) (sm_B _ _ HS)) as [t Ht]. exists t. rewrite (sm_code1 _ _ HS). unfold c_with_pos. by destruct c1. }
  rewrite Hl, Hk, Ht. cbn [lift]. destruct (e_filter E1 =? -1)%Z; cbn [ret]; [done|]. by destruct (l =? e_filter E1)%Z.
Qed.
Lemma sm_log_if2 b : (b = true -> loggable) -> sm (log_if E1 b) (log_if E2 false).
Proof. intros H. destruct b; [by apply sm_log_, H|apply sm_ret]. Qed.

Lemma sm_grow fp1 fp2 show id a sp lf : sm fp1 fp2 -> (show = true -> loggable) -> B sp ->
  forall x, sq (fun y => B (snd (fst y))) (grow E1 lf fp1 show id a sp x) (grow E2 lf fp2 false id a sp x).
Proof.
  intros Hfp Hlog Hsp. induction lf as [|lf IH]; intros x; cbn [grow]; [apply sm_fuel|].
  apply sm_frb. intros f _. destruct (f_mask f); [|apply sm_panic].
  apply sm_bind; [apply sm_wipe|]. intros stash. apply sm_posb. intros bp Hbp. apply sm_bind; [apply sm_cache_set; by intros p [= <-]|]. intros _.
  apply sm_bind; [by apply sm_log_if2|]. intros _. apply sm_bind; [by apply sm_set_pos|]. intros _. apply sm_bind; [apply sm_emit|]. intros _.
  apply sm_bind; [exact Hfp|]. intros r. apply sm_posb. intros p Hp. destruct (p <=? bp); [by apply sq_ret|].
  destruct r; [apply IH|by apply sq_ret].
Qed.

(** The middle of [loopify], where loops are traced. *)
Lemma sm_traced {X Y Z C} Q (m1 m2 : M (X * Y * Z)) (k1 k2 : X -> Y -> Z -> M C) : sq Q m1 m2 -> (forall x y z, Q (x, y, z) -> sm (k1 x y z) (k2 x y z)) ->
  sm ((if e_loop E1 then
         do! c := gets s_code in
         do! push := (if (e_filter E1 <? 0)%Z then ret true else do! l := lift (c_line c) in ret (l =? e_filter E1)%Z) in
         if (push : bool) then loop_stack_push else ret tt
       else ret tt) ;!
      do! a := m1 in let '(x, y, z) := a in (if e_loop E1 then loop_stack_pop else ret tt) ;! k1 x y z)
     (ret tt ;! do! a := m2 in let '(x, y, z) := a in ret tt ;! k2 x y z).
Proof.
  intros Hm Hk. destruct (e_loop E1) eqn:EL.
  - specialize (Hloop eq_refl). apply Z.ltb_lt in Hloop as ->. apply (sq_bind 0 1 0 (fun _ => True)).
    { intros s1 s2 HS Hi. unfold bind, gets. by apply sm_push. }
    intros _ _. apply (sq_bind 1 1 0 Q); [by apply sq_frame|]. intros [[x y] z] HQ. apply (sq_bind 1 0 0 (fun _ => True)); [apply sm_pop|]. intros _ _. by apply Hk.
  - apply sm_bind; [apply sm_ret|]. intros _. eapply sq_bind; [exact Hm|]. intros [[x y] z] HQ. apply sm_bind; [apply sm_ret|]. intros _. by apply Hk.
Qed.

Lemma sm_loopify fp1 fp2 lf n : sm fp1 fp2 -> ((e_stack E1 || i_debug (n_info n))%bool = true -> i_skip (n_info n) = false /\ loggable) ->
  sm (loopify E1 lf fp1 n) (loopify E2 lf fp2 (mute_node n)).
Proof.
  intros Hfp Htr. unfold loopify. assert (n_info (mute_node n) = info_mute (n_info n)) as -> by (by destruct n).
  cbn [info_mute i_debug i_skip i_id]. destruct Hmute as [M1 M2]. rewrite M1, M2, Hn. cbn [orb].
  set (show := (e_stack E1 || i_debug (n_info n))%bool) in *. assert (show = true -> loggable) as Hlog by (intros H; by apply Htr in H as [_ H]).
  apply sm_bind; [by apply sm_log_if2|]. intros _. destruct (i_skip (n_info n)) eqn:ES.
  { assert (show = false) as HF. { destruct show; [|done]. destruct (Htr eq_refl) as [H _]. done. }
    rewrite HF. apply sm_posb. intros sp Hsp. apply sm_bind; [apply sm_emit|]. intros _.
    apply sm_bind; [exact Hfp|]. intros r. repeat sstep. }
  apply sm_bind; [apply sm_get_frame|]. intros a. apply sm_posb. intros sp Hsp. apply sm_frb. intros f0 _.
  apply sm_bind; [destruct (f_stage f0 <? 0)%Z; [apply sm_set_stage|apply sm_ret]|]. intros _. apply sm_frb. intros f Hf.
  destruct (f_stage f =? 0)%Z.
  { destruct (f_end f) as [e|] eqn:Ee.
    { apply sm_bind; [by apply sm_log_if2|]. intros _. apply sm_bind; [by apply sm_set_pos, Hf|]. intros _. apply sm_ret. }
    apply sm_bind; [apply sm_set_stage|]. intros _. apply sm_bind; [by apply sm_cache_set|]. intros _. apply sm_bind; [apply sm_emit|]. intros _.
    apply sm_bind; [exact Hfp|]. intros r. apply sm_frb. intros f' _. destruct (f_stage f' =? 1)%Z.
    { apply sm_bind; [apply sm_set_stage|]. intros _. apply sm_posb. intros p Hp. apply sm_bind; [apply sm_cache_set; by intros q [= <-]|]. intros _.
      apply sm_bind; [by apply sm_log_if2|]. intros _. apply sm_ret. }
    destruct (f_stage f' =? 2)%Z; [|apply sm_panic]. destruct r as [x|].
    2:{ apply sm_bind; [by apply sm_log_if2|]. intros _. apply sm_bind; [apply sm_set_stage|]. intros _. apply sm_ret. }
    apply sm_bind; [apply sm_set_stage|]. intros _.
    apply (sm_traced (fun y => B (snd (fst y))) (grow E1 lf fp1 show (i_id (n_info n)) a sp x) (grow E2 lf fp2 false (i_id (n_info n)) a sp x)
      (fun bres bpos bstash => do! _ := wipe_with a false in restore_with bstash ;! set_pos bpos ;! log_if E1 show ;! set_stage a 0 ;! ret (Some bres))
      (fun bres bpos bstash => do! _ := wipe_with a false in restore_with bstash ;! set_pos bpos ;! log_if E2 false ;! set_stage a 0 ;! ret (Some bres)));
      [by apply sm_grow|].
    intros bres bpos bstash Hb. cbn in Hb.
    apply sm_bind; [apply sm_wipe|]. intros _. apply sm_bind; [apply sm_restore|]. intros _. apply sm_bind; [by apply sm_set_pos|]. intros _.
    apply sm_bind; [by apply sm_log_if2|]. intros _. apply sm_bind; [apply sm_set_stage|]. intros _. apply sm_ret. }
  destruct ((f_stage f =? 1) || (f_stage f =? 2) || (f_stage f =? 3))%Z%bool; [|apply sm_panic].
  apply sm_bind; [destruct (f_stage f =? 1)%Z; [apply sm_set_stage|apply sm_ret]|]. intros _. apply sm_bind; [apply sm_emit|]. intros _.
  apply sm_bind; [by apply sm_log_if2|]. intros _. apply sm_frb. intros f1 _.
  apply sm_bind; [apply sm_gets; intros s1 s2 HS; apply HS|]. intros stk. apply sm_bind; [apply sm_mark|]. intros mask.
  apply sm_bind; [apply sm_set_mask|]. intros _. apply sm_frb. intros f2 Hf2.
  apply sm_bind; [destruct (f_end f2) eqn:E2e; [by apply sm_set_pos, Hf2|apply sm_ret]|]. intros _. apply sm_ret.
Qed.
Lemma sm_stack_ m1 m2 n : sm m1 m2 -> sm (stack_ m1 n) (stack_ m2 (mute_node n)).
Proof.
  intros Hm. unfold stack_, stack_push. assert (n_info (mute_node n) = info_mute (n_info n)) as -> by (by destruct n). cbn [info_mute i_id].
  apply sm_bind.
  { apply sm_bind; [apply sm_get_frame|]. intros a s1 s2 HS Hi. rewrite (sm_stack _ _ HS). destruct (_ <=? _); [done|].
    split; [done|]. split; [done|]. split; [|cbn; lia]. destruct HS. by split. }
  intros _. apply sm_bind; [done|]. intros r. apply sm_bind; [|intros _; apply sm_ret].
  intros s1 s2 HS Hi. cbn. split; [done|]. split; [done|]. split; [|lia]. destruct HS. split; cbn; try done. by f_equal.
Qed.

Section Body.
Variables rec1 rec2 : node -> M (option ast).
Notation ok n := (sm (rec1 n) (rec2 (mute_node n))).
Lemma mute_capture n : i_capture (n_info (mute_node n)) = i_capture (n_info n).
Proof. by destruct n. Qed.
Lemma mute_label n : i_label (n_info (mute_node n)) = i_label (n_info n).
Proof. by destruct n. Qed.
Lemma sm_seq_single l : (forall n, n ∈ l -> ok n) -> forall acc, sm (seq_single rec1 l acc) (seq_single rec2 (map mute_node l) acc).
Proof.
  induction l as [|c l IH]; intros Hrec acc; cbn [map seq_single]; [apply sm_ret|]. apply sm_bind; [apply Hrec; left|]. rewrite mute_capture.
  intros [a|]; [apply IH; intros n Hn'; apply Hrec; by right|apply sm_ret].
Qed.
Lemma sm_seq_array l : (forall n, n ∈ l -> ok n) -> forall acc, sm (seq_array rec1 l acc) (seq_array rec2 (map mute_node l) acc).
Proof.
  induction l as [|c l IH]; intros Hrec acc; cbn [map seq_array]; [apply sm_ret|]. apply sm_bind; [apply Hrec; left|]. rewrite mute_capture.
  intros [a|]; [apply IH; intros n Hn'; apply Hrec; by right|apply sm_ret].
Qed.
Lemma sm_seq_object l : (forall n, n ∈ l -> ok n) -> forall acc, sm (seq_object rec1 l acc) (seq_object rec2 (map mute_node l) acc).
Proof.
  induction l as [|c l IH]; intros Hrec acc; cbn [map seq_object]; [apply sm_ret|]. apply sm_bind; [apply Hrec; left|]. rewrite mute_label.
  intros [a|]; [|apply sm_ret]. apply sm_bind; [apply sm_add_labelled|]. intros acc'. apply IH. intros n Hn'. apply Hrec. by right.
Qed.
Lemma sm_choice l : (forall n, n ∈ l -> ok n) -> sm (choice_loop rec1 l) (choice_loop rec2 (map mute_node l)).
Proof.
  induction l as [|c l IH]; intros Hrec; cbn [map choice_loop]; [apply sm_ret|]. apply sm_posb. intros p Hp.
  apply sm_bind; [apply Hrec; left|]. intros [a|]; [apply sm_ret|]. apply sm_bind; [by apply sm_set_pos|]. intros _.
  apply IH. intros n Hn'. apply Hrec. by right.
Qed.
Lemma sm_pat v j mx lf : ok v -> (forall n, j = Some n -> ok n) -> forall acc,
  sm (pat_loop rec1 lf v j mx acc) (pat_loop rec2 lf (mute_node v) (option_map mute_node j) mx acc).
Proof.
  intros Hv Hj. induction lf as [|lf IH]; intros acc; cbn [pat_loop]; [apply sm_fuel|]. apply sm_posb. intros p Hp. apply sm_bind.
  { destruct j; cbn [option_map]; [|apply sm_ret]. apply sm_bind; [by apply Hj|]. intros ?. apply sm_ret. }
  intros []; [|repeat sstep]. apply sm_bind; [apply Hv|]. intros [a|]; [|repeat sstep]. cbn zeta. destruct (_ && _)%bool; [apply sm_ret|apply IH].
Qed.
Lemma sm_body lf n : reach E1 root n -> (forall m, m ∈ children n -> ok m) -> (forall name m, e_rule E1 name = Some m -> ok m) ->
  sm (body E1 rec1 lf n) (body E2 rec2 lf (mute_node n)).
Proof.
  intros Hreach Hrec Hru. unfold children in Hrec. unfold body. assert (n_kind (mute_node n) = map_kind mute_node (n_kind n)) as -> by (by destruct n).
  destruct (n_kind n) as [s0|re|name|ty l|l|v j mn mx|a|a|a|] eqn:EK; cbn [map_kind].
  - intros s1 s2 HS Hi. pose proof (sm_pos _ _ HS) as HP. rewrite !c_match_string_eq.
    2:{ unfold c_wf. rewrite (sm_code2 _ _ HS), c_with_pos_pos, c_with_pos_work, Hwork. apply (sm_pos _ _ HS). }
    2:{ unfold c_wf. rewrite (sm_code1 _ _ HS), c_with_pos_pos, c_with_pos_work. apply (sm_pos _ _ HS). }
    rewrite (sm_code1 _ _ HS), (sm_code2 _ _ HS), !c_with_pos_work, Hwork, !c_with_pos_pos, !c_with_pos_twice.
    destruct (bytes_eqb_spec s0 (take (length s0) (drop (st_pos s1) (c_work c1)))) as [EB|EB]; (split; [done|]; split; [done|]; split; [|cbn; lia]).
    + apply sim_code; [done|]. eapply B_str; [exact Hreach|exact EK|apply HS|done].
    + apply sim_code; [done|apply HS].
  - intros s1 s2 HS Hi. pose proof (sm_pos _ _ HS) as HP. rewrite Hrxe, !c_match_regexp_eq; try done.
    2:{ unfold c_wf. rewrite (sm_code2 _ _ HS), c_with_pos_pos, c_with_pos_work, Hwork. apply (sm_pos _ _ HS). }
    2:{ unfold c_wf. rewrite (sm_code1 _ _ HS), c_with_pos_pos, c_with_pos_work. apply (sm_pos _ _ HS). }
    rewrite (sm_code1 _ _ HS), (sm_code2 _ _ HS), !c_with_pos_work, Hwork, !c_with_pos_pos.
    destruct (e_rx E1 re (drop (st_pos s1) (c_work c1))) as [[[|k] b]|] eqn:EX; rewrite ?c_with_pos_twice; (split; [done|]; split; [done|]; split; [|cbn; lia]); [|apply sim_code; [done|apply HS]..].
    apply sim_code; [done|]. eapply B_rx; [exact Hreach|exact EK|apply HS|done].
  - rewrite Hrule. destruct (e_rule E1 name) as [t|] eqn:ER; cbn [option_map]; [|apply sm_panic]. apply sm_bind; [apply sm_peek|].
    intros _. by apply (Hru name).
  - destruct ty; [by apply sm_seq_single|by apply sm_seq_array|]. destruct l; [apply sm_ret|]. by apply (sm_seq_object (n0 :: l)).
  - by apply sm_choice.
  - apply sm_posb. intros p Hp. apply sm_bind; [apply Hrec; left|]. intros [a|]; [|repeat sstep].
    apply sm_bind; [apply sm_pat|].
    + apply Hrec. left.
    + intros m ->. apply Hrec. right. left.
    + intros ms. repeat sstep.
  - assert (ok a) by (apply Hrec; left). apply sm_posb. intros p Hp. apply sm_bind; [done|]. intros [x|]; repeat sstep.
  - assert (ok a) by (apply Hrec; left). apply sm_posb. intros p Hp. apply sm_bind; [done|]. intros x; repeat sstep.
  - assert (ok a) by (apply Hrec; left). apply sm_posb. intros p Hp. apply sm_bind; [done|]. intros x; repeat sstep.
  - apply sm_ret.
Qed.
End Body.

Lemma sm_parse : (forall n, reach E1 root n -> (e_stack E1 || i_debug (n_info n))%bool = true -> i_skip (n_info n) = false /\ loggable) ->
  forall fuel n, reach E1 root n -> sm (parse E1 fuel n) (parse E2 fuel (mute_node n)).
Proof.
  intros Hskip. induction fuel as [|fuel IH]; intros n Hr; cbn [parse]; [apply sm_fuel|].
  assert (sm (wrap E1 (parse E1 fuel) fuel n) (wrap E2 (parse E2 fuel) fuel (mute_node n))) as Hw.
  { assert (sm (body E1 (parse E1 fuel) fuel n) (body E2 (parse E2 fuel) fuel (mute_node n))) as Hb.
    { apply sm_body; [done| |].
      - intros m Hm. apply IH. by eapply reach_child.
      - intros name m Hm. apply IH. by eapply reach_rule. }
    pose proof (sm_prepare _ _ n Hb) as Hp. unfold wrap. assert (n_info (mute_node n) = info_mute (n_info n)) as -> by (by destruct n).
    cbn [info_mute i_isrule i_label i_wraps i_cb].
    destruct (i_isrule (n_info n)); [|destruct (_ || _)%bool; done].
    apply sm_stack_, sm_loopify; [done|]. by apply Hskip. }
  assert (n_kind (mute_node n) = map_kind mute_node (n_kind n)) as -> by (by destruct n).
  destruct (n_kind n); cbn [map_kind]; try exact Hw. apply sm_ret.
Qed.
End Sim.
