(** Relations between the states before and after a computation: what holds of
    the steps holds of the whole.  Used for properties of the ghost log. *)
From Verif Require Import Base Helpers HelpersProofs Utf8 Stream Native Engine EngSpec.

(** ** The streams do not raise user panics *)
Definition nup {A} (r : res A) : Prop := forall t, r <> RPanic (PUser t).
Lemma nup_bind {A B} (r : res A) (k : A -> res B) : nup r -> (forall a, nup (k a)) -> nup (rbind r k).
Proof. intros H1 H2 t. destruct r as [a|p|]; cbn; [apply H2| |done]. intros [= ->]. by apply (H1 t). Qed.
Lemma nup_ok {A} (a : A) : nup (ROk a).
Proof. done. Qed.
Lemma nup_rmap {A B} (f : A -> B) r : nup r -> nup (rmap f r).
Proof. intros H. apply nup_bind; [done|]. intros a. apply nup_ok. Qed.
Lemma nup_bisect l x : nup (bisect_right l x).
Proof. destruct (bisect_right_total l x) as (i & -> & _). apply nup_ok. Qed.
Lemma nup_index {A} (l : list A) i : nup (go_index l i).
Proof. intros t. unfold go_index. destruct (i <? 0)%Z; [done|]. by destruct (l !! _). Qed.
Lemma nup_slice s i j : nup (go_slice s i j).
Proof. intros t. unfold go_slice. by destruct (_ && _)%bool. Qed.
Lemma nup_coords t w : nup (ts_coords t w).
Proof. intros u. unfold ts_coords. destruct (ts_tokens t) eqn:E; [done|]. rewrite <- E. destruct (coords_loop _ _ _ _ _). by destruct (ts_tokens t !! n). Qed.
Lemma nup_line c : nup (c_line c).
Proof.
  destruct c as [r|t]; cbn.
  - apply nup_bind; [apply nup_bisect|intros; apply nup_ok].
  - apply nup_bind; [apply nup_coords|]. intros a. apply nup_bind; [apply nup_bisect|intros; apply nup_ok].
Qed.
Lemma nup_col c : nup (c_col c).
Proof.
  destruct c as [r|t]; cbn.
  - apply nup_bind; [apply (nup_line (CRune _))|]. intros a. apply nup_bind; [apply nup_index|intros; apply nup_ok].
  - apply nup_bind; [apply nup_coords|]. intros a. apply nup_bind; [apply (nup_line (CTok _))|].
    intros b. apply nup_bind; [apply nup_index|intros; apply nup_ok].
Qed.
Lemma nup_last_n n : forall s k, nup (last_n_runes_loop n s k).
Proof.
  induction n as [|n IH]; intros s k; cbn [last_n_runes_loop]; [apply nup_ok|]. destruct s as [|b s]; [apply nup_ok|].
  destruct (decode_last_rune (b :: s)) as [c sz]. destruct (c =? rune_error)%N; [done|apply IH].
Qed.
Lemma nup_peek c n : nup (c_peek_runes c n).
Proof.
  assert (forall b m, nup (last_n_runes b m)) as HL.
  { intros b m. unfold last_n_runes. apply nup_bind; [apply nup_last_n|]. intros k. by destruct (_ <? _). }
  destruct c as [r|t]; cbn; unfold rs_peek_runes, ts_peek_runes; destruct (n <=? 0)%Z; apply nup_bind; auto using nup_slice, nup_ok.
Qed.
Lemma nup_set_pos c z : nup (c_set_pos c z).
Proof. destruct c as [r|t]; cbn; apply nup_rmap; intros u; unfold rs_set_pos, ts_set_pos; by destruct (_ || _)%bool. Qed.
Lemma nup_match_string c s : nup (c_match_string c s).
Proof.
  destruct c as [r|t]; cbn; apply nup_rmap; unfold rs_match_string, ts_match_string; (apply nup_bind; [apply nup_slice|]);
    intros b; destruct (bytes_eqb _ _); apply nup_ok.
Qed.
Lemma nup_match_regexp c f : nup (c_match_regexp c f).
Proof.
  destruct c as [r|t]; cbn; apply nup_rmap; unfold rs_match_regexp, ts_match_regexp; (apply nup_bind; [apply nup_slice|]);
    intros b; (destruct (f b) as [[l0 l1]|]; [|apply nup_ok]); (destruct (negb _); [apply nup_ok|]);
    (apply nup_bind; [apply nup_slice|intros; apply nup_ok]).
Qed.
Lemma nup_get_or_panic m k : nup (nm_get_or_panic m k).
Proof. intros t. unfold nm_get_or_panic. by destruct (nm_get m k). Qed.

(** ** Relations *)
Section Pre.
Variable R : st -> st -> Prop.
Variable X : panic -> st -> st -> Prop.
Hypothesis Rrefl : forall s, R s s.
Hypothesis Rtrans : forall s1 s2 s3, R s1 s2 -> R s2 s3 -> R s1 s3.
Hypothesis XR : forall p s1 s2 s3, R s1 s2 -> X p s2 s3 -> X p s1 s3.
Hypothesis Xplain : forall p s s', (forall t, p <> PUser t) -> R s s' -> X p s s'.
Hypothesis Rcore : forall s s', s_frames s' = s_frames s -> s_fheap s' = s_fheap s -> s_stack s' = s_stack s ->
  s_log s' = s_log s -> R s s'.

Definition pre {A} (m : M A) : Prop := forall s,
  match m s with Ok _ s' => R s s' | Panic p s' => X p s s' | OutOfFuel => True end.

Lemma pre_ret {A} (a : A) : pre (ret a).
Proof. intros s. apply Rrefl. Qed.
Lemma pre_bind {A B} (m : M A) (k : A -> M B) : pre m -> (forall a, pre (k a)) -> pre (bind m k).
Proof.
  intros H1 H2 s. unfold bind. specialize (H1 s). destruct (m s) as [a s1|p s1|]; [|done|done].
  specialize (H2 a s1). destruct (k a s1) as [b s2|p s2|]; [by eapply Rtrans|by eapply XR|done].
Qed.
Lemma pre_panic {A} p : (forall t, p <> PUser t) -> pre (panic_ (A:=A) p).
Proof. intros H s. apply Xplain; [done|apply Rrefl]. Qed.
Lemma pre_fuel {A} : pre (out_of_fuel (A:=A)).
Proof. done. Qed.
Lemma pre_gets {A} (f : st -> A) : pre (gets f).
Proof. intros s. apply Rrefl. Qed.
Lemma pre_lift {A} (r : res A) : nup r -> pre (lift r).
Proof. intros H s. unfold lift. destruct r as [a|p|]; [apply Rrefl| |done]. apply Xplain; [|apply Rrefl]. intros t ->. by apply (H t). Qed.
Lemma pre_set_pos p : pre (set_pos p).
Proof.
  intros s. unfold set_pos. pose proof (nup_set_pos (s_code s) (Z.of_nat p)) as HN.
  destruct (c_set_pos _ _) as [c|q|]; [by apply Rcore| |done]. apply Xplain; [|apply Rrefl]. intros t ->. by apply (HN t).
Qed.
Lemma pre_alloc o : pre (alloc o).
Proof. intros s. by apply Rcore. Qed.
Lemma pre_read a : pre (read_obj a).
Proof. intros s. unfold read_obj. destruct (s_heap s !! a); [apply Rrefl|by apply Xplain]. Qed.
Lemma pre_write a o : pre (write_obj a o).
Proof. intros s. by apply Rcore. Qed.
Lemma pre_get_fr a : pre (get_fr a).
Proof. intros s. unfold get_fr. destruct (s_fheap s !! a); [apply Rrefl|by apply Xplain]. Qed.
Lemma pre_peek : pre stack_peek.
Proof. intros s. unfold stack_peek. destruct (s_stack s); [by apply Xplain|apply pre_get_fr]. Qed.

Ltac pstep := first
  [ apply pre_ret | apply pre_fuel | apply pre_gets | apply pre_set_pos | apply pre_alloc | apply pre_read | apply pre_write
  | apply pre_get_fr | apply pre_peek | (apply pre_panic; discriminate)
  | (apply pre_lift; first [apply nup_line|apply nup_col|apply nup_peek|apply nup_get_or_panic])
  | (apply pre_bind; [|intros ?])
  | match goal with
    | |- pre (match ?x with _ => _ end) => destruct x
    | |- pre (if ?x then _ else _) => destruct x
    | |- pre (let '(_, _) := ?x in _) => destruct x
    end ].
Ltac psteps := repeat pstep.

Lemma pre_merge_keys dst src ks : pre (merge_keys dst src ks).
Proof. induction ks as [|k ks IH]; cbn [merge_keys]; psteps. apply IH. Qed.
Lemma pre_merge_label dst m ks : pre (merge_label dst m ks).
Proof. induction ks as [|k ks IH]; cbn [merge_label]; psteps; apply IH. Qed.
Lemma pre_merge x y : pre (merge x y).
Proof. unfold merge, type_of. psteps; first [apply pre_merge_keys|apply pre_merge_label]. Qed.
Lemma pre_add_labelled l r x : pre (add_labelled l r x).
Proof. unfold add_labelled. repeat first [apply pre_merge|pstep]. Qed.
Lemma pre_set_origin x o : pre (set_origin x o).
Proof. unfold set_origin. psteps. Qed.
Lemma pre_wrap_label i x : pre (wrap_label i x).
Proof. unfold wrap_label. psteps. Qed.

Section Body.
Variable E : env.
Variable rec : node -> M (option ast).

Lemma pre_seq_single l : (forall n, n ∈ l -> pre (rec n)) -> forall acc, pre (seq_single rec l acc).
Proof.
  induction l as [|c l IH]; intros Hrec acc; cbn [seq_single]; [apply pre_ret|]. apply pre_bind; [apply Hrec; left|].
  intros [a|]; [apply IH; intros n Hn; apply Hrec; by right|apply pre_ret].
Qed.
Lemma pre_seq_array l : (forall n, n ∈ l -> pre (rec n)) -> forall acc, pre (seq_array rec l acc).
Proof.
  induction l as [|c l IH]; intros Hrec acc; cbn [seq_array]; [apply pre_ret|]. apply pre_bind; [apply Hrec; left|].
  intros [a|]; [apply IH; intros n Hn; apply Hrec; by right|apply pre_ret].
Qed.
Lemma pre_seq_object l : (forall n, n ∈ l -> pre (rec n)) -> forall acc, pre (seq_object rec l acc).
Proof.
  induction l as [|c l IH]; intros Hrec acc; cbn [seq_object]; [apply pre_ret|]. apply pre_bind; [apply Hrec; left|].
  intros [a|]; [|apply pre_ret]. apply pre_bind; [apply pre_add_labelled|]. intros acc'. apply IH. intros n Hn. apply Hrec. by right.
Qed.
Lemma pre_choice l : (forall n, n ∈ l -> pre (rec n)) -> pre (choice_loop rec l).
Proof.
  induction l as [|c l IH]; intros Hrec; cbn [choice_loop]; [apply pre_ret|]. apply pre_bind; [apply pre_gets|]. intros p.
  apply pre_bind; [apply Hrec; left|]. intros [a|]; [apply pre_ret|]. apply pre_bind; [apply pre_set_pos|]. intros _.
  apply IH. intros n Hn. apply Hrec. by right.
Qed.
Lemma pre_pat v j mx lf : pre (rec v) -> (forall n, j = Some n -> pre (rec n)) -> forall acc, pre (pat_loop rec lf v j mx acc).
Proof.
  intros Hv Hj. induction lf as [|lf IH]; intros acc; cbn [pat_loop]; [apply pre_fuel|]. apply pre_bind; [apply pre_gets|]. intros p. apply pre_bind.
  { destruct j; [|apply pre_ret]. apply pre_bind; [by apply Hj|]. intros ?. apply pre_ret. }
  intros []; [|psteps]. apply pre_bind; [apply Hv|]. intros [a|]; [|psteps]. cbn zeta. destruct (_ && _)%bool; [apply pre_ret|apply IH].
Qed.
Lemma pre_body_in lf n : (forall m, m ∈ children n -> pre (rec m)) -> (forall name m, e_rule E name = Some m -> pre (rec m)) ->
  pre (body E rec lf n).
Proof.
  intros Hrec Hru. unfold children in Hrec. unfold body. destruct (n_kind n) as [s0|re|name|ty l|l|v j mn mx|a|a|a|].
  - intros s. pose proof (nup_match_string (s_code s) s0) as HN. destruct (c_match_string _ _) as [[r c]|p|]; [by apply Rcore| |done].
    apply Xplain; [|apply Rrefl]. intros t ->. by apply (HN t).
  - intros s. pose proof (nup_match_regexp (s_code s) (e_rx E re)) as HN. destruct (c_match_regexp _ _) as [[r c]|p|]; [by apply Rcore| |done].
    apply Xplain; [|apply Rrefl]. intros t ->. by apply (HN t).
  - destruct (e_rule E name) eqn:ER; psteps. by apply (Hru name).
  - destruct ty; [by apply pre_seq_single|by apply pre_seq_array|]. destruct l; [apply pre_ret|by apply pre_seq_object].
  - by apply pre_choice.
  - apply pre_bind; [apply pre_gets|]. intros p. apply pre_bind; [apply Hrec; left|]. intros [a|]; [|psteps].
    apply pre_bind; [apply pre_pat|].
    + apply Hrec. left.
    + intros m ->. apply Hrec. right. left.
    + intros ms. psteps.
  - assert (pre (rec a)) by (apply Hrec; left). apply pre_bind; [apply pre_gets|]. intros p. apply pre_bind; [done|]. intros [x|]; psteps.
  - assert (pre (rec a)) by (apply Hrec; left). apply pre_bind; [apply pre_gets|]. intros p. apply pre_bind; [done|]. intros x; psteps.
  - assert (pre (rec a)) by (apply Hrec; left). apply pre_bind; [apply pre_gets|]. intros p. apply pre_bind; [done|]. intros x; psteps.
  - apply pre_ret.
Qed.
Lemma pre_body lf n : (forall n, pre (rec n)) -> pre (body E rec lf n).
Proof. intros H. apply pre_body_in; intros; apply H. Qed.
End Body.

Variable E : env.
Lemma pre_log : pre (log_ E).
Proof. unfold log_. psteps. Qed.
Lemma pre_log_if b : pre (log_if E b).
Proof. destruct b; [apply pre_log|apply pre_ret]. Qed.

Lemma pre_prepare fp n : pre fp -> (forall x, pre (call_cb E (n_info n) x)) -> pre (prepare_result E fp n).
Proof.
  intros H1 H2. unfold prepare_result. apply pre_bind; [intros s; by apply Rcore|]. intros _. apply pre_bind; [done|].
  intros [x|]; [|apply pre_ret]. apply pre_bind; [apply pre_wrap_label|]. intros x1. apply pre_bind; [apply H2|].
  intros [y|]; [|apply pre_ret]. repeat first [apply pre_set_origin|pstep].
Qed.

(** When the relation does not look at the stack. *)
Lemma pre_stack_free m n : (forall s s', s_log s' = s_log s -> R s s') -> pre m -> pre (stack_ m n).
Proof.
  intros Rf Hm. unfold stack_. apply pre_bind.
  { unfold stack_push. apply pre_bind.
    - intros s. unfold get_frame. destruct (table_get _ _ _) as [[a|]|]; [apply Rrefl|by apply Rf|by apply Xplain].
    - intros a s. destruct (_ <=? _); [by apply Xplain|by apply Rf]. }
  intros _. apply pre_bind; [done|]. intros r. apply pre_bind; [intros s; by apply Rf|]. intros _. apply pre_ret.
Qed.

(** When the relation does not look at the frames. *)
Section Free.
Hypothesis Rfree : forall s s', s_log s' = s_log s -> s_stack s' = s_stack s -> R s s'.
Hypothesis Remit : forall s e, (forall c p, e <> EvCb c p) -> R s (add_log s e).
Hypothesis Hcb : forall i x, pre (call_cb E i x).

Lemma pre_put a f : pre (put_fr a f).
Proof. intros s. by apply Rfree. Qed.
Lemma pre_set_stage a z : pre (set_stage a z).
Proof. unfold set_stage. psteps. apply pre_put. Qed.
Lemma pre_cache_set a r e : pre (cache_set a r e).
Proof. unfold cache_set. psteps. apply pre_put. Qed.
Lemma pre_set_mask a m : pre (set_mask a m).
Proof. unfold set_mask. psteps. apply pre_put. Qed.
Lemma pre_get_frame i : pre (get_frame i).
Proof. intros s. unfold get_frame. destruct (table_get _ _ _) as [[a|]|]; [apply Rrefl|by apply Rfree|by apply Xplain]. Qed.
Lemma pre_wipe a b : pre (wipe_with a b).
Proof.
  unfold wipe_with. apply pre_bind; [apply pre_get_fr|]. intros f. destruct (f_mask f); [|psteps].
  intros s. destruct (_ !! _); [|by apply Xplain]. destruct (negb _); [by apply Xplain|by apply Rfree].
Qed.
Lemma pre_restore l : forall i, pre (restore_from i l).
Proof.
  induction l as [|o l IH]; intros i; cbn [restore_from]; [apply pre_ret|]. apply pre_bind; [|intros _; apply IH].
  destruct o as [a|]; [|apply pre_ret]. apply pre_bind; [apply pre_get_fr|]. intros f s.
  destruct (table_get _ _ _); [by apply Rfree|by apply Xplain].
Qed.
Lemma pre_emit e : (forall c p, e <> EvCb c p) -> pre (emit e).
Proof. intros H s. by apply Remit. Qed.
Lemma pre_mark sp id : forall stk m, pre (mark stk sp id m).
Proof. induction stk as [|a stk IH]; intros m; cbn [mark]; psteps. apply IH. Qed.
Lemma pre_grow fp show id a sp lf : pre fp -> forall x, pre (grow E lf fp show id a sp x).
Proof.
  intros Hfp. induction lf as [|lf IH]; intros x; cbn [grow]; repeat first [apply pre_wipe|apply pre_cache_set|apply pre_log_if|(apply pre_emit; discriminate)|exact Hfp|apply IH|pstep].
Qed.
Lemma pre_loop_push : pre loop_stack_push.
Proof. intros s. by apply Rfree. Qed.
Lemma pre_loop_pop : pre loop_stack_pop.
Proof. intros s. unfold loop_stack_pop. destruct (s_loopstack s); [by apply Xplain|by apply Rfree]. Qed.
Lemma pre_loopify fp lf n : pre fp -> pre (loopify E lf fp n).
Proof.
  intros Hfp. unfold loopify. cbn zeta. 
  repeat first [apply pre_log_if|apply pre_log|(apply pre_emit; discriminate)|exact Hfp|apply pre_get_frame|apply pre_set_stage|apply pre_cache_set
      |apply pre_loop_push|apply pre_loop_pop|(apply pre_grow; exact Hfp)|apply pre_wipe|apply pre_restore|apply pre_mark|apply pre_set_mask|pstep].
Qed.
Lemma pre_parse : (forall m n, pre m -> pre (stack_ m n)) -> forall fuel n, pre (parse E fuel n).
Proof.
  intros Hstk. induction fuel as [|fuel IH]; intros n; cbn [parse]; [apply pre_fuel|].
  assert (pre (wrap E (parse E fuel) fuel n)) as Hw.
  { pose proof (pre_body E (parse E fuel) fuel n IH) as Hb.
    assert (pre (prepare_result E (body E (parse E fuel) fuel n) n)) as Hp by (apply pre_prepare; auto).
    unfold wrap. destruct (i_isrule (n_info n)); [|destruct (_ || _)%bool; done].
    by apply Hstk, pre_loopify. }
  destruct (n_kind n); try exact Hw. apply pre_ret.
Qed.
End Free.
End Pre.
