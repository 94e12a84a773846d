(** Simulation between the runs of two grammars that differ in names. *)
From Verif Require Import Base Helpers Utf8 Stream Native Engine Print ErrMsg SimSpec TwinSpec.

Section Twin.
Variables E1 E2 : env.
Variable R : string -> string -> Prop.
Hypothesis Hn : e_nrules E2 = e_nrules E1.
Hypothesis Hrule : forall nm nm', R nm nm' -> both_find R (e_rule E1 nm) (e_rule E2 nm').
Hypothesis Hrxe : e_rx E2 = e_rx E1.
Hypothesis Hcb : cb_like false (e_cb E1) (e_cb E2).
Hypothesis Hstk : e_stack E2 = e_stack E1.
Hypothesis Hloop : e_loop E2 = e_loop E1.
Hypothesis Hfil : e_filter E2 = e_filter E1.
Hypothesis Hskl : e_skiplog E2 = e_skiplog E1.

(** The states differ in the origins noted in the heap only. *)
Definition tsim (s1 s2 : st) : Prop := exists h, heap_like false (s_heap s1) h /\ s2 = set_heap s1 h.
Definition tout {A} (o1 o2 : outcome A) : Prop :=
  match o1, o2 with
  | Ok a1 s1, Ok a2 s2 => a1 = a2 /\ tsim s1 s2
  | Panic p1 s1, Panic p2 s2 => p1 = p2 /\ tsim s1 s2
  | OutOfFuel, OutOfFuel => True
  | _, _ => False
  end.
Definition tq {A} (m1 m2 : M A) : Prop := forall s1 s2, tsim s1 s2 -> tout (m1 s1) (m2 s2).

Lemma tq_bind {A C} (m1 m2 : M A) (k1 k2 : A -> M C) : tq m1 m2 -> (forall a, tq (k1 a) (k2 a)) -> tq (bind m1 k1) (bind m2 k2).
Proof.
  intros H1 H2 s1 s2 HS. unfold bind. specialize (H1 s1 s2 HS). destruct (m1 s1), (m2 s2); try done. destruct H1 as [-> HS1]. by apply H2.
Qed.
Lemma tq_ret {A} (a : A) : tq (ret a) (ret a).
Proof. intros s1 s2 HS. done. Qed.
Lemma tq_panic {A} p : tq (panic_ (A:=A) p) (panic_ p).
Proof. intros s1 s2 HS. done. Qed.
Lemma tq_fuel {A} : tq (out_of_fuel (A:=A)) out_of_fuel.
Proof. done. Qed.
Lemma tq_lift {A} (r : res A) : tq (lift r) (lift r).
Proof. intros s1 s2 HS. unfold lift. by destruct r. Qed.
Ltac pure := intros s1 s2 (h & HH & ->).
Ltac leaf := cbn; first [done | split; [done|]; eexists; split; [|reflexivity]; cbn; assumption].
Lemma tq_get_pos : tq get_pos get_pos.
Proof. pure. leaf. Qed.
Lemma tq_code : tq (gets s_code) (gets s_code).
Proof. pure. leaf. Qed.
Lemma tq_stk : tq (gets s_stack) (gets s_stack).
Proof. pure. leaf. Qed.
Lemma tq_set_pos p : tq (set_pos p) (set_pos p).
Proof. pure. unfold set_pos. cbn. destruct (c_set_pos (s_code s1) (Z.of_nat p)); leaf. Qed.
Lemma tq_emit e : tq (emit e) (emit e).
Proof. pure. leaf. Qed.
Lemma tq_alloc o : tq (alloc o) (alloc o).
Proof.
  pure. cbn. split; [by apply Forall2_length in HH|]. eexists. split; [|reflexivity]. cbn. apply Forall2_app; [done|]. by constructor.
Qed.
Lemma tq_read {C} a (k1 k2 : obj -> M C) : (forall o1 o2, obj_like false o1 o2 -> tq (k1 o1) (k2 o2)) ->
  tq (bind (read_obj a) k1) (bind (read_obj a) k2).
Proof.
  intros H s1 s2 HS. unfold bind, read_obj. pose proof HS as (h & HH & ->). cbn.
  destruct (s_heap s1 !! a) as [o1|] eqn:H1.
  - destruct (Forall2_lookup_l _ _ _ _ _ HH H1) as (o2 & -> & HO). by apply H.
  - destruct (h !! a) as [o2|] eqn:H2; [|done]. destruct (Forall2_lookup_r _ _ _ _ _ HH H2) as (o1 & H3 & _). congruence.
Qed.
Lemma tq_write a o1 o2 : obj_like false o1 o2 -> tq (write_obj a o1) (write_obj a o2).
Proof. intros HO. pure. cbn. split; [done|]. eexists. split; [|reflexivity]. cbn. by apply Forall2_insert. Qed.
Lemma tq_get_fr a : tq (get_fr a) (get_fr a).
Proof. pure. unfold get_fr. cbn. destruct (s_fheap s1 !! a); leaf. Qed.
Lemma tq_put_fr a f : tq (put_fr a f) (put_fr a f).
Proof. pure. leaf. Qed.
Lemma tq_peek : tq stack_peek stack_peek.
Proof. pure. unfold stack_peek, get_fr. cbn. destruct (s_stack s1) as [|a l]; [leaf|]. destruct (s_fheap s1 !! a); leaf. Qed.
Lemma tq_get_frame i : tq (get_frame i) (get_frame i).
Proof. pure. unfold get_frame, st_pos. cbn. destruct (table_get _ _ _) as [[a|]|]; leaf. Qed.

Ltac tstep := first
  [ apply tq_ret | apply tq_fuel | apply tq_get_pos | apply tq_get_fr | apply tq_put_fr | apply tq_set_pos | apply tq_alloc | apply tq_emit
  | apply tq_peek | apply tq_panic | apply tq_lift | apply tq_get_frame | apply tq_code | apply tq_stk
  | (apply tq_bind; [|intros ?])
  | match goal with
    | |- tq (match ?x with _ => _ end) _ => destruct x
    | |- tq (if ?x then _ else _) _ => destruct x
    | |- tq (let '(_, _) := ?x in _) _ => destruct x
    end ].

Lemma tq_set_stage a z : tq (set_stage a z) (set_stage a z).
Proof. unfold set_stage. repeat tstep. Qed.
Lemma tq_cache_set a r e : tq (cache_set a r e) (cache_set a r e).
Proof. unfold cache_set. repeat tstep. Qed.
Lemma tq_set_mask a m : tq (set_mask a m) (set_mask a m).
Proof. unfold set_mask. repeat tstep. Qed.
Lemma tq_wipe a b : tq (wipe_with a b) (wipe_with a b).
Proof.
  unfold wipe_with. apply tq_bind; [apply tq_get_fr|]. intros f. destruct (f_mask f); [|apply tq_panic].
  pure. cbn. destruct (s_frames s1 !! _); [|leaf]. destruct (negb _); leaf.
Qed.
Lemma tq_restore l : forall i, tq (restore_from i l) (restore_from i l).
Proof.
  induction l as [|o l IH]; intros i; cbn [restore_from]; [apply tq_ret|]. apply tq_bind; [|intros _; apply IH].
  destruct o as [a|]; [|apply tq_ret]. apply tq_bind; [apply tq_get_fr|]. intros f. pure. cbn. destruct (table_get _ _ _); leaf.
Qed.
Lemma tq_mark sp id : forall stk m, tq (mark stk sp id m) (mark stk sp id m).
Proof. induction stk as [|a stk IH]; intros m; cbn [mark]; repeat tstep. apply IH. Qed.
Lemma tq_push : tq loop_stack_push loop_stack_push.
Proof. pure. leaf. Qed.
Lemma tq_pop : tq loop_stack_pop loop_stack_pop.
Proof. pure. unfold loop_stack_pop. cbn. destruct (s_loopstack s1); leaf. Qed.

(** The native objects. *)
Lemma tq_merge_keys dst src ks : tq (merge_keys dst src ks) (merge_keys dst src ks).
Proof.
  induction ks as [|k ks IH]; cbn [merge_keys]; [apply tq_ret|]. apply tq_read. intros o1 o2 [HB _]. rewrite HB. apply tq_bind; [|intros _; apply IH].
  destruct (o_body o2) as [m|]; [|apply tq_panic]. apply tq_bind; [apply tq_lift|]. intros v. apply tq_read. intros d1 d2 [HD HA]. rewrite HD.
  destruct (o_body d2); [|apply tq_panic]. by apply tq_write.
Qed.
Lemma tq_merge_label dst m ks : tq (merge_label dst m ks) (merge_label dst m ks).
Proof.
  induction ks as [|k ks IH]; cbn [merge_label]; [apply tq_ret|]. apply tq_bind; [|intros _; apply IH].
  destruct (String.eqb k "label"); [|apply tq_panic]. apply tq_bind; [apply tq_lift|]. intros v. destruct v; try apply tq_panic.
  destruct dst as [a|]; [|apply tq_ret]. apply tq_read. intros d1 d2 [HD HA]. rewrite HD.
  destruct (o_body d2); [apply tq_panic|]. by apply tq_write.
Qed.
Lemma tq_type_of x : tq (type_of x) (type_of x).
Proof.
  unfold type_of. destruct x; try apply tq_ret. apply tq_read. intros o1 o2 [HB _]. rewrite HB. destruct (o_body o2); apply tq_ret.
Qed.
Lemma tq_merge x y : tq (merge x y) (merge x y).
Proof.
  unfold merge. apply tq_bind; [apply tq_type_of|]. intros [|a m|a|]; try apply tq_panic; [apply tq_ret| |];
    (apply tq_bind; [apply tq_type_of|]); intros [|b m'|b|]; repeat first [apply tq_merge_keys|apply tq_merge_label|tstep].
Qed.
Lemma tq_add_labelled l r x : tq (add_labelled l r x) (add_labelled l r x).
Proof.
  unfold add_labelled. destruct (String.eqb l "&").
  { destruct (is_undefined r); [apply tq_ret|]. destruct r; [|apply tq_ret]. apply tq_bind; [apply tq_merge|]. intros y. apply tq_ret. }
  destruct (String.eqb l "@").
  { destruct (is_undefined r); [apply tq_ret|]. destruct r; [|apply tq_ret]. apply tq_bind; [apply tq_merge|]. intros y. apply tq_ret. }
  destruct (String.eqb l ""); [apply tq_ret|]. destruct (is_undefined r); [apply tq_bind; [apply tq_alloc|]; intros y; apply tq_ret|].
  destruct r as [[| | | |a| |]|]; try apply tq_panic. apply tq_read. intros o1 o2 [HB HA]. rewrite HB. destruct (o_body o2); [|apply tq_panic].
  apply tq_bind; [|intros _; apply tq_ret]. by apply tq_write.
Qed.
Lemma twin_wraps i i' : info_twin i i' -> (negb (String.eqb (i_label i') "") && i_wraps i')%bool = (negb (String.eqb (i_label i) "") && i_wraps i)%bool.
Proof. intros (-> & H & _). destruct (String.eqb_spec (i_label i) "") as [E|E]; [done|]. by rewrite H. Qed.
Lemma tq_wrap_label i i' x : info_twin i i' -> tq (wrap_label i x) (wrap_label i' x).
Proof. intros H. unfold wrap_label. rewrite (twin_wraps i i' H). destruct H as [-> _]. repeat tstep. Qed.
Lemma tq_call i i' x : i_cb i' = i_cb i -> tq (call_cb E1 i x) (call_cb E2 i' x).
Proof.
  unfold call_cb. intros ->. destruct (i_cb i) as [c|]; [|apply tq_ret]. apply tq_bind; [apply tq_get_pos|]. intros p. apply tq_bind; [apply tq_emit|].
  intros _. pure. cbn. pose proof (Hcb c p (s_heap s1) h x HH) as HC. unfold cbres_like in HC.
  destruct (e_cb E1 c p (s_heap s1) x) as [h1 r1|t1], (e_cb E2 c p h x) as [h2 r2|t2]; try done.
  - destruct HC as [-> HC]. split; [done|]. exists h2. done.
  - subst. leaf.
Qed.
Lemma tq_origin y o1 o2 : tq (set_origin y o1) (set_origin y o2).
Proof. unfold set_origin. destruct y; try apply tq_ret. apply tq_read. intros b1 b2 [HB HA]. by apply tq_write. Qed.
Lemma tq_prepare fp1 fp2 n n' : info_twin (n_info n) (n_info n') -> tq fp1 fp2 -> tq (prepare_result E1 fp1 n) (prepare_result E2 fp2 n').
Proof.
  intros HI H. unfold prepare_result. apply tq_bind; [pure; leaf|].
  intros _. apply tq_bind; [done|]. intros [x|]; [|apply tq_ret]. apply tq_bind; [by apply tq_wrap_label|]. intros x1.
  apply tq_bind; [apply tq_call; by apply HI|]. intros [y|]; [|apply tq_ret]. apply tq_bind; [apply tq_peek|]. intros fr.
  apply tq_bind; [apply tq_get_pos|]. intros p. apply tq_bind; [apply tq_code|]. intros c. apply tq_bind; [apply tq_lift|]. intros line.
  apply tq_bind; [apply tq_origin|]. intros _. apply tq_ret.
Qed.
Lemma tq_log : tq (log_ E1) (log_ E2).
Proof. unfold log_. rewrite Hskl, Hfil. repeat tstep. Qed.
Lemma tq_log_if b : tq (log_if E1 b) (log_if E2 b).
Proof. unfold log_if. destruct b; [apply tq_log|apply tq_ret]. Qed.
Lemma tq_grow fp1 fp2 show id a sp lf : tq fp1 fp2 -> forall x, tq (grow E1 lf fp1 show id a sp x) (grow E2 lf fp2 show id a sp x).
Proof.
  intros Hfp. induction lf as [|lf IH]; intros x; cbn [grow]; [apply tq_fuel|].
  repeat first [apply IH|exact Hfp|apply tq_wipe|apply tq_cache_set|apply tq_log_if|tstep].
Qed.
Lemma tq_loopify fp1 fp2 lf n n' : i_id (n_info n') = i_id (n_info n) /\ i_skip (n_info n') = i_skip (n_info n) /\ i_debug (n_info n') = i_debug (n_info n) -> tq fp1 fp2 -> tq (loopify E1 lf fp1 n) (loopify E2 lf fp2 n').
Proof.
  intros (H1 & H2 & H3) Hfp. unfold loopify. rewrite H1, H2, H3, Hstk, Hn, Hloop, Hfil.
  repeat first [exact Hfp|apply tq_grow|apply tq_wipe|apply tq_restore|apply tq_cache_set|apply tq_set_stage|apply tq_set_mask|apply tq_mark|apply tq_log_if|apply tq_log|apply tq_push|apply tq_pop|tstep].
Qed.
Lemma tq_stack m1 m2 n n' : i_id (n_info n') = i_id (n_info n) -> tq m1 m2 -> tq (stack_ m1 n) (stack_ m2 n').
Proof.
  intros HI Hm. unfold stack_, stack_push. rewrite HI. apply tq_bind.
  { apply tq_bind; [apply tq_get_frame|]. intros a. pure. cbn [s_stack set_heap]. destruct (_ <=? _); leaf. }
  intros _. apply tq_bind; [done|]. intros r. apply tq_bind; [|intros _; apply tq_ret]. pure. leaf.
Qed.

Section Body.
Variables rec1 rec2 : node -> M (option ast).
Hypothesis Hrec : forall n n', twin R n n' -> tq (rec1 n) (rec2 n').
Lemma twin_info n n' : twin R n n' -> info_twin (n_info n) (n_info n').
Proof. by intros []. Qed.
Lemma twin_label n n' : twin R n n' -> i_label (n_info n') = i_label (n_info n).
Proof. intros H. apply (twin_info n n' H). Qed.
Notation items := (Forall2 (fun a a' => twin R a a' /\ i_capture (n_info a') = i_capture (n_info a))).
Lemma tq_seq_single l l' : items l l' -> forall acc, tq (seq_single rec1 l acc) (seq_single rec2 l' acc).
Proof.
  induction 1 as [|c c' l l' [Hc Hcc] _ IH]; intros acc; cbn [seq_single]; [apply tq_ret|]. apply tq_bind; [by apply Hrec|]. rewrite Hcc.
  intros [a|]; [apply IH|apply tq_ret].
Qed.
Lemma tq_seq_array l l' : items l l' -> forall acc, tq (seq_array rec1 l acc) (seq_array rec2 l' acc).
Proof.
  induction 1 as [|c c' l l' [Hc Hcc] _ IH]; intros acc; cbn [seq_array]; [apply tq_ret|]. apply tq_bind; [by apply Hrec|]. rewrite Hcc.
  intros [a|]; [apply IH|apply tq_ret].
Qed.
Lemma tq_seq_object l l' : items l l' -> forall acc, tq (seq_object rec1 l acc) (seq_object rec2 l' acc).
Proof.
  induction 1 as [|c c' l l' [Hc Hcc] _ IH]; intros acc; cbn [seq_object]; [apply tq_ret|]. apply tq_bind; [by apply Hrec|]. rewrite (twin_label c c' Hc).
  intros [a|]; [|apply tq_ret]. apply tq_bind; [apply tq_add_labelled|]. intros acc'. apply IH.
Qed.
Lemma tq_choice l l' : Forall2 (twin R) l l' -> tq (choice_loop rec1 l) (choice_loop rec2 l').
Proof.
  induction 1 as [|c c' l l' Hc _ IH]; cbn [choice_loop]; [apply tq_ret|]. apply tq_bind; [apply tq_get_pos|]. intros p.
  apply tq_bind; [by apply Hrec|]. intros [a|]; [apply tq_ret|]. apply tq_bind; [apply tq_set_pos|]. intros _. apply IH.
Qed.
Lemma tq_pat v v' j j' mx lf : twin R v v' -> option_Forall2 (twin R) j j' -> forall acc,
  tq (pat_loop rec1 lf v j mx acc) (pat_loop rec2 lf v' j' mx acc).
Proof.
  intros Hv Hj. induction lf as [|lf IH]; intros acc; cbn [pat_loop]; [apply tq_fuel|]. apply tq_bind; [apply tq_get_pos|]. intros p. apply tq_bind.
  { destruct Hj as [x y Hj|]; [|apply tq_ret]. apply tq_bind; [by apply Hrec|]. intros ?. apply tq_ret. }
  intros []; [|repeat tstep]. apply tq_bind; [by apply Hrec|]. intros [a|]; [|repeat tstep]. cbn zeta. destruct (_ && _)%bool; [apply tq_ret|apply IH].
Qed.
Lemma tq_body lf n n' : twin R n n' -> tq (body E1 rec1 lf n) (body E2 rec2 lf n').
Proof.
  unfold body. intros [i i' s HI|i i' s HI|i i' nm nm' HI HR|i i' t l l' HI HL|i i' l l' HI HL|i i' v v' j j' mn mx HI Hv Hj|i i' a a' HI Ha|i i' a a' HI Ha|i i' a a' HI Ha|i i' HI]; cbn [n_kind].
  - pure. cbn. destruct (c_match_string (s_code s1) s) as [[r c]| |]; leaf.
  - rewrite Hrxe. pure. cbn. destruct (c_match_regexp (s_code s1) (e_rx E1 s)) as [[r c]| |]; leaf.
  - specialize (Hrule nm nm' HR). unfold both_find in Hrule. destruct (e_rule E1 nm), (e_rule E2 nm'); try done.
    apply tq_bind; [apply tq_peek|]. intros _. by apply Hrec.
  - destruct t; [by apply tq_seq_single|by apply tq_seq_array|]. destruct HL as [|x y l l' Hx HL]; [apply tq_ret|]. apply tq_seq_object. by constructor.
  - by apply tq_choice.
  - apply tq_bind; [apply tq_get_pos|]. intros p. apply tq_bind; [by apply Hrec|]. intros [a|]; [|repeat tstep].
    apply tq_bind; [by apply tq_pat|]. intros ms. repeat tstep.
  - apply tq_bind; [apply tq_get_pos|]. intros p. apply tq_bind; [by apply Hrec|]. intros x. repeat tstep.
  - apply tq_bind; [apply tq_get_pos|]. intros p. apply tq_bind; [by apply Hrec|]. intros x. repeat tstep.
  - apply tq_bind; [apply tq_get_pos|]. intros p. apply tq_bind; [by apply Hrec|]. intros x. repeat tstep.
  - apply tq_ret.
Qed.
End Body.

Lemma tq_parse : forall fuel n n', twin R n n' -> tq (parse E1 fuel n) (parse E2 fuel n').
Proof.
  induction fuel as [|fuel IH]; intros n n' HT; cbn [parse]; [apply tq_fuel|].
  assert (tq (wrap E1 (parse E1 fuel) fuel n) (wrap E2 (parse E2 fuel) fuel n')) as Hw.
  { pose proof (tq_body (parse E1 fuel) (parse E2 fuel) IH fuel n n' HT) as Hb. pose proof (twin_info n n' HT) as HI.
    pose proof (tq_prepare _ _ n n' HI Hb) as Hp. unfold wrap.
    rewrite (twin_wraps _ _ HI). destruct HI as (_ & _ & -> & -> & HI).
    destruct (i_isrule (n_info n)); [|destruct (_ || _)%bool; done]. specialize (HI eq_refl). apply tq_stack; [by apply HI|]. by apply tq_loopify. }
  destruct HT; cbn [n_kind] in Hw |- *; try exact Hw. apply tq_ret.
Qed.
Lemma tq_get {C} (k : code -> list frame -> list (list (option nat)) -> M C) : (forall c f t, tq (k c f t) (k c f t)) ->
  tq (do! s := get in k (s_code s) (s_fheap s) (s_frames s)) (do! s := get in k (s_code s) (s_fheap s) (s_frames s)).
Proof. intros H s1 s2 HS. unfold bind, get. pose proof HS as (h & HH & ->). by apply H. Qed.
Lemma tq_finish r : tq (finish r) (finish r).
Proof.
  apply (tq_get (fun c f t => if c_pos c =? c_work_length c then ret r else
    let p := c_pos c in
    let '(att, succ) := scan_rows f (drop p t) p p p in
    do! _ := lift (c_pos_to_line c (Z.of_nat succ)) in
    do! _ := lift (c_pos_to_col c (Z.of_nat succ)) in
    do! _ := lift (c_peek_lines c [(-2)%Z]) in
    do! _ := lift (c_peek_runes c (Z.of_nat succ - Z.of_nat p)) in
    set_pos succ ;!
    do! c1 := gets s_code in
    do! _ := lift (c_peek_runes c1 (Z.of_nat att - Z.of_nat (c_pos c1))) in
    set_pos att ;!
    do! c2 := gets s_code in
    do! _ := lift (c_peek_lines c2 [2%Z]) in
    ret (Some (AErr succ)))).
  intros c f t. cbn zeta. repeat tstep.
Qed.
End Twin.

Lemma tout_like {A} (o1 o2 : outcome A) : tout o1 o2 -> outcome_like false o1 o2.
Proof.
  unfold tout, outcome_like. destruct o1, o2; try done.
  - intros [-> (h & HH & ->)]. done.
  - intros [-> (h & HH & ->)]. done.
Qed.
Lemma twins_parse R g g' fuel o rx cb1 cb2 c : twins R g g' -> cb_like false cb1 cb2 ->
  outcome_like false (fst (gram_parse fuel g o rx cb1 c)) (fst (gram_parse fuel g' o rx cb2 c)) /\
  snd (gram_parse fuel g o rx cb1 c) = snd (gram_parse fuel g' o rx cb2 c).
Proof.
  intros (H1 & H2 & H3 & H4 & HT & HR) HC. unfold gram_parse. rewrite H1.
  assert (tout (parse (mk_env g o rx cb1) fuel (g_rank g) (init_st c (g_nrules g))) (parse (mk_env g' o rx cb2) fuel (g_rank g') (init_st c (g_nrules g)))) as HP.
  { apply (tq_parse _ _ R); cbn; try done; [by rewrite H2|]. exists []. split; [constructor|done]. }
  destruct (parse (mk_env g o rx cb1) _ _ _) as [r1 s1|p1 s1|], (parse (mk_env g' o rx cb2) _ _ _) as [r2 s2|p2 s2|]; try done; cbn [fst snd].
  - destruct HP as [-> HP]. split; [|by rewrite H2]. by apply tout_like, tq_finish.
  - split; [by apply tout_like|by rewrite H2].
Qed.

(** The text of the error as well. *)
Lemma twins_message R g g' fuel o rx cb1 cb2 c : twins R g g' -> cb_like false cb1 cb2 ->
  parse_message fuel g o rx cb1 c = parse_message fuel g' o rx cb2 c.
Proof.
  intros (H1 & H2 & H3 & H4 & HT & HR) HC. unfold parse_message. rewrite H1.
  assert (tout (parse (mk_env g o rx cb1) fuel (g_rank g) (init_st c (g_nrules g))) (parse (mk_env g' o rx cb2) fuel (g_rank g') (init_st c (g_nrules g)))) as HP.
  { apply (tq_parse _ _ R); cbn; try done; [by rewrite H2|]. exists []. split; [constructor|done]. }
  destruct (parse (mk_env g o rx cb1) _ _ _) as [r1 s1|p1 s1|], (parse (mk_env g' o rx cb2) _ _ _) as [r2 s2|p2 s2|]; try done.
  destruct HP as [-> (h & HH & ->)]. done.
Qed.

(** A check, for examples. *)
Definition info_twin_b (i i' : info) : bool :=
  String.eqb (i_label i') (i_label i) && Bool.eqb (i_wraps i') (i_wraps i) && Bool.eqb (i_isrule i') (i_isrule i) && bool_decide (i_cb i' = i_cb i) &&
  Nat.eqb (i_id i') (i_id i) && Bool.eqb (i_skip i') (i_skip i) && Bool.eqb (i_debug i') (i_debug i).
Fixpoint all2b {A B} (f : A -> B -> bool) (l : list A) (l' : list B) : bool :=
  match l, l' with [], [] => true | x :: l, y :: l' => f x y && all2b f l l' | _, _ => false end.
Definition same_seq (t t' : seqtype) : bool := match t, t' with TSingle, TSingle | TArray, TArray | TObject, TObject => true | _, _ => false end.
Fixpoint twin_b (ps : list (string * string)) (d : nat) (n n' : node) : bool :=
  match d with
  | O => false
  | S d =>
      info_twin_b (n_info n) (n_info n') &&
      match n_kind n, n_kind n' with
      | KStr s, KStr s' | KRegex s, KRegex s' => bool_decide (s = s')
      | KRef nm, KRef nm' => bool_decide ((nm, nm') ∈ ps)
      | KSeq t l, KSeq t' l' => same_seq t t' && all2b (fun a a' => twin_b ps d a a' && Bool.eqb (i_capture (n_info a')) (i_capture (n_info a))) l l'
      | KChoice l, KChoice l' => all2b (twin_b ps d) l l'
      | KPat v j mn mx, KPat v' j' mn' mx' => twin_b ps d v v' && Z.eqb mn mn' && Z.eqb mx mx' &&
          match j, j' with Some x, Some y => twin_b ps d x y | None, None => true | _, _ => false end
      | KExist a, KExist a' | KLook a, KLook a' | KNot a, KNot a' => twin_b ps d a a'
      | KUndef, KUndef => true
      | _, _ => false
      end
  end%bool.
Definition twins_b (ps : list (string * string)) (d : nat) (g g' : gram) : bool :=
  (Nat.eqb (g_nrules g') (g_nrules g) && Bool.eqb (g_tstack g') (g_tstack g) && Bool.eqb (g_tloop g') (g_tloop g) && Z.eqb (g_tfilter g') (g_tfilter g) &&
  twin_b ps d (g_rank g) (g_rank g') &&
  forallb (fun p => match g_rule g (fst p), g_rule g' (snd p) with Some n, Some n' => twin_b ps d n n' | None, None => true | _, _ => false end) ps)%bool.
Lemma info_twin_ok i i' : info_twin_b i i' = true -> info_twin i i'.
Proof.
  unfold info_twin_b, info_twin. intros H. repeat (apply andb_true_iff in H as [H ?]).
  repeat match goal with H : Bool.eqb _ _ = true |- _ => apply eqb_prop in H | H : Nat.eqb _ _ = true |- _ => apply Nat.eqb_eq in H
    | H : bool_decide _ = true |- _ => apply bool_decide_eq_true in H | H : String.eqb _ _ = true |- _ => apply String.eqb_eq in H end.
  repeat split; congruence.
Qed.
Lemma all2b_ok {A B} (f : A -> B -> bool) (P : A -> B -> Prop) : (forall x y, f x y = true -> P x y) -> forall l l', all2b f l l' = true -> Forall2 P l l'.
Proof.
  intros H. induction l as [|x l IH]; intros [|y l']; cbn [all2b]; try done. intros [H1 H2]%andb_true_iff. constructor; auto.
Qed.
Lemma same_seq_ok t t' : same_seq t t' = true -> t = t'.
Proof. by destruct t, t'. Qed.
Lemma twin_ok ps d : forall n n', twin_b ps d n n' = true -> twin (fun a b => (a, b) ∈ ps) n n'.
Proof.
  induction d as [|d IH]; intros [i k] [i' k']; cbn [twin_b]; [done|]. intros [HI%info_twin_ok H]%andb_true_iff. cbn [n_info n_kind] in HI, H.
  destruct k, k'; try done.
  - apply bool_decide_eq_true in H as <-. by constructor.
  - apply bool_decide_eq_true in H as <-. by constructor.
  - apply bool_decide_eq_true in H. by constructor.
  - apply andb_true_iff in H as [<-%same_seq_ok H]. constructor; [done|]. eapply all2b_ok; [|exact H]. intros x y [Hx Hy%eqb_prop]%andb_true_iff. auto.
  - constructor; [done|]. by apply (all2b_ok (twin_b ps d)).
  - apply andb_true_iff in H as [H HJ]. apply andb_true_iff in H as [H <-%Z.eqb_eq]. apply andb_true_iff in H as [H <-%Z.eqb_eq].
    constructor; [done|auto|]. match goal with |- option_Forall2 _ ?a ?b => destruct a, b end; try done; [|constructor]. constructor. auto.
  - constructor; auto.
  - constructor; auto.
  - constructor; auto.
  - by constructor.
Qed.
Lemma twins_ok ps d g g' : twins_b ps d g g' = true -> twins (fun a b => (a, b) ∈ ps) g g'.
Proof.
  unfold twins_b. intros H. repeat (apply andb_true_iff in H as [H ?]).
  split; [by apply Nat.eqb_eq|]. split; [by apply eqb_prop|]. split; [by apply eqb_prop|]. split; [by apply Z.eqb_eq|].
  split; [by eapply twin_ok|]. intros nm nm' HR. match goal with H : forallb _ _ = true |- _ => rewrite forallb_forall in H; specialize (H (nm, nm') ltac:(by apply elem_of_list_In)); cbn in H; rename H into HF end.
  unfold both_find. destruct (g_rule g nm), (g_rule g' nm'); try done. by eapply twin_ok.
Qed.
