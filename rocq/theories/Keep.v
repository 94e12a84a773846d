(** Objects returned stay as they are when nothing merges, and what merging
    does. *)
From Verif Require Import Base Helpers HelpersProofs Utf8 Stream Native NativeSpec NativeProofs Engine EngSpec CombProofs KeepSpec.

Lemma kept_refl h : kept h h.
Proof. intros a o H. eauto. Qed.
Lemma kept_trans h1 h2 h3 : kept h1 h2 -> kept h2 h3 -> kept h1 h3.
Proof. intros H1 H2 a o H. destruct (H1 a o H) as (o1 & A1 & B1). destruct (H2 a o1 A1) as (o2 & A2 & B2). exists o2. split; [done|congruence]. Qed.
Lemma kept_app h l : kept h (h ++ l).
Proof. intros a o H. exists o. split; [|done]. by apply lookup_app_l_Some. Qed.

Definition kp {A} (m : M A) : Prop := forall s a s', m s = Ok a s' -> kept (s_heap s) (s_heap s').
Lemma kp_ret {A} (a : A) : kp (ret a).
Proof. intros s b s' [= _ <-]. apply kept_refl. Qed.
Lemma kp_bind {A B} (m : M A) (k : A -> M B) : kp m -> (forall a, kp (k a)) -> kp (bind m k).
Proof.
  intros H1 H2 s b s'. unfold bind. destruct (m s) as [a s1|p s1|] eqn:E1; [|done|done]. intros E2.
  eapply kept_trans; [by apply (H1 s a s1)|by apply (H2 a s1 b s')].
Qed.
(** Computations that leave the heap alone. *)
Lemma kp_same {A} (m : M A) : (forall s a s', m s = Ok a s' -> s_heap s' = s_heap s) -> kp m.
Proof. intros H s a s' E. rewrite (H s a s' E). apply kept_refl. Qed.
Lemma kp_panic {A} p : kp (panic_ (A:=A) p).
Proof. by intros s a s'. Qed.
Lemma kp_fuel {A} : kp (out_of_fuel (A:=A)).
Proof. by intros s a s'. Qed.
Lemma kp_gets {A} (f : st -> A) : kp (gets f).
Proof. apply kp_same. by intros s a s' [= _ <-]. Qed.
Lemma kp_lift {A} (r : res A) : kp (lift r).
Proof. apply kp_same. intros s a s'. unfold lift. destruct r; [|done|done]. by intros [= _ <-]. Qed.
Lemma kp_set_pos p : kp (set_pos p).
Proof. apply kp_same. intros s a s'. unfold set_pos. destruct (c_set_pos _ _); [|done|done]. by intros [= _ <-]. Qed.
Lemma kp_alloc o : kp (alloc o).
Proof. intros s a s' [= _ <-]. apply kept_app. Qed.
Lemma kp_read a : kp (read_obj a).
Proof. apply kp_same. intros s b s'. unfold read_obj. destruct (_ !! _); [|done]. by intros [= _ <-]. Qed.
Lemma kp_get_fr a : kp (get_fr a).
Proof. apply kp_same. intros s b s'. unfold get_fr. destruct (_ !! _); [|done]. by intros [= _ <-]. Qed.
Lemma kp_put_fr a f : kp (put_fr a f).
Proof. apply kp_same. by intros s b s' [= _ <-]. Qed.
Lemma kp_peek : kp stack_peek.
Proof. intros s a s'. unfold stack_peek. destruct (s_stack s); [done|apply kp_get_fr]. Qed.
Lemma kp_emit e : kp (emit e).
Proof. apply kp_same. by intros s b s' [= _ <-]. Qed.
Lemma kp_get_frame i : kp (get_frame i).
Proof. apply kp_same. intros s a s'. unfold get_frame. destruct (table_get _ _ _) as [[b|]|]; [by intros [= _ <-]|by intros [= _ <-]|done]. Qed.

Ltac kstep := first
  [ apply kp_ret | apply kp_fuel | apply kp_gets | apply kp_set_pos | apply kp_alloc | apply kp_read | apply kp_emit
  | apply kp_get_fr | apply kp_put_fr | apply kp_peek | apply kp_panic | apply kp_lift | apply kp_get_frame
  | (apply kp_bind; [|intros ?])
  | match goal with
    | |- kp (match ?x with _ => _ end) => destruct x
    | |- kp (if ?x then _ else _) => destruct x
    | |- kp (let '(_, _) := ?x in _) => destruct x
    end ].

Lemma kp_set_stage a z : kp (set_stage a z).
Proof. unfold set_stage. repeat kstep. Qed.
Lemma kp_cache_set a r e : kp (cache_set a r e).
Proof. unfold cache_set. repeat kstep. Qed.
Lemma kp_set_mask a m : kp (set_mask a m).
Proof. unfold set_mask. repeat kstep. Qed.
Lemma kp_wipe a b : kp (wipe_with a b).
Proof.
  unfold wipe_with. apply kp_bind; [apply kp_get_fr|]. intros f. destruct (f_mask f); [|apply kp_panic].
  apply kp_same. intros s x s'. destruct (_ !! _); [|done]. destruct (negb _); [done|]. by intros [= _ <-].
Qed.
Lemma kp_restore l : forall i, kp (restore_from i l).
Proof.
  induction l as [|o l IH]; intros i; cbn [restore_from]; [apply kp_ret|]. apply kp_bind; [|intros _; apply IH].
  destruct o as [a|]; [|apply kp_ret]. apply kp_bind; [apply kp_get_fr|]. intros f. apply kp_same. intros s x s'.
  destruct (table_get _ _ _); [|done]. by intros [= _ <-].
Qed.
Lemma kp_mark sp id : forall stk m, kp (mark stk sp id m).
Proof. induction stk as [|a stk IH]; intros m; cbn [mark]; repeat kstep. apply IH. Qed.
Lemma kp_loop_push : kp loop_stack_push.
Proof. apply kp_same. by intros s b s' [= _ <-]. Qed.
Lemma kp_loop_pop : kp loop_stack_pop.
Proof. apply kp_same. intros s b s'. unfold loop_stack_pop. destruct (s_loopstack s); [done|]. by intros [= _ <-]. Qed.
Lemma kp_set_origin x o : kp (set_origin x o).
Proof.
  unfold set_origin. destruct x; try apply kp_ret. intros s b s'. unfold bind, read_obj.
  destruct (s_heap s !! addr) as [ob|] eqn:E; [|done]. intros [= _ <-]. cbn. intros a o0 H.
  destruct (decide (a = addr)) as [->|Hne].
  - rewrite H in E. injection E as ->. eexists. split; [apply list_lookup_insert; by eapply lookup_lt_Some|done].
  - exists o0. split; [by rewrite list_lookup_insert_ne|done].
Qed.
Lemma kp_wrap_label i x : kp (wrap_label i x).
Proof. unfold wrap_label. repeat kstep. Qed.

Section Env.
Variable E : env.
Hypothesis Hcb : cb_keeps E.
Lemma kp_log : kp (log_ E).
Proof. unfold log_. repeat kstep. Qed.
Lemma kp_log_if b : kp (log_if E b).
Proof. destruct b; [apply kp_log|apply kp_ret]. Qed.
Lemma kp_call i x : kp (call_cb E i x).
Proof.
  unfold call_cb. destruct (i_cb i) as [c|]; [|apply kp_ret]. apply kp_bind; [apply kp_gets|]. intros p. apply kp_bind; [apply kp_emit|].
  intros _ s r s'. destruct (e_cb E c p (s_heap s) x) as [h r0|] eqn:EC; [|done]. intros [= _ <-]. by apply (Hcb c p _ x h r0).
Qed.
Lemma kp_prepare fp n : kp fp -> kp (prepare_result E fp n).
Proof.
  intros H. unfold prepare_result. apply kp_bind; [apply kp_same; by intros s a s' [= _ <-]|]. intros _.
  repeat first [exact H|apply kp_wrap_label|apply kp_call|apply kp_set_origin|kstep].
Qed.
Lemma kp_grow fp show id a sp lf : kp fp -> forall x, kp (grow E lf fp show id a sp x).
Proof.
  intros Hfp. induction lf as [|lf IH]; intros x; cbn [grow]; repeat first [apply kp_wipe|apply kp_cache_set|apply kp_log_if|exact Hfp|apply IH|kstep].
Qed.
Lemma kp_loopify fp lf n : kp fp -> kp (loopify E lf fp n).
Proof.
  intros Hfp. unfold loopify. cbn zeta.
  repeat first [apply kp_log_if|apply kp_log|exact Hfp|apply kp_set_stage|apply kp_cache_set
      |apply kp_loop_push|apply kp_loop_pop|(apply kp_grow; exact Hfp)|apply kp_wipe|apply kp_restore|apply kp_mark|apply kp_set_mask|kstep].
Qed.
Lemma kp_stack m n : kp m -> kp (stack_ m n).
Proof.
  intros Hm. unfold stack_, stack_push. apply kp_bind.
  { apply kp_bind; [apply kp_get_frame|]. intros a. apply kp_same. intros s b s'. destruct (_ <=? _); [done|]. by intros [= _ <-]. }
  intros _. apply kp_bind; [done|]. intros r. apply kp_bind; [apply kp_same; by intros s b s' [= _ <-]|]. intros _. apply kp_ret.
Qed.

Section Body.
Variable rec : node -> M (option ast).
Lemma kp_seq_single l : (forall n, n ∈ l -> kp (rec n)) -> forall acc, kp (seq_single rec l acc).
Proof.
  induction l as [|c l IH]; intros Hrec acc; cbn [seq_single]; [apply kp_ret|]. apply kp_bind; [apply Hrec; left|].
  intros [a|]; [apply IH; intros n Hn; apply Hrec; by right|apply kp_ret].
Qed.
Lemma kp_seq_array l : (forall n, n ∈ l -> kp (rec n)) -> forall acc, kp (seq_array rec l acc).
Proof.
  induction l as [|c l IH]; intros Hrec acc; cbn [seq_array]; [apply kp_ret|]. apply kp_bind; [apply Hrec; left|].
  intros [a|]; [apply IH; intros n Hn; apply Hrec; by right|apply kp_ret].
Qed.
(** The results of an object sequence so far: nothing, or a map made by it. *)
Definition fresh_acc (h0 : heap) (h : heap) (acc : option ast) : Prop :=
  acc = None \/ exists a, acc = Some (AObj a) /\ length h0 <= a < length h.
Lemma kept_len h h' : kept h h' -> length h <= length h'.
Proof.
  intros H. destruct (decide (length h = 0)); [lia|]. destruct (lookup_lt_is_Some_2 h (length h - 1)) as [o Ho]; [lia|].
  destruct (H _ _ Ho) as (o' & Ho' & _). apply lookup_lt_Some in Ho'. lia.
Qed.
Lemma kp_seq_object l : (forall n, n ∈ l -> kp (rec n)) -> (forall n, n ∈ l -> merges n = false) -> forall h0 acc s r s',
  kept h0 (s_heap s) -> fresh_acc h0 (s_heap s) acc -> seq_object rec l acc s = Ok r s' -> kept h0 (s_heap s').
Proof.
  induction l as [|c l IH]; intros Hrec Hm h0 acc s r s' HK HA; cbn [seq_object].
  { intros [= _ <-]. done. }
  unfold bind at 1. destruct (rec c s) as [[x|] s1|p s1|] eqn:EC; [| |done|done].
  2:{ intros [= _ <-]. eapply kept_trans; [exact HK|]. eapply (Hrec c); [left|exact EC]. }
  assert (kept (s_heap s) (s_heap s1)) as HK1 by (eapply (Hrec c); [left|exact EC]).
  assert (kept h0 (s_heap s1)) as HK2 by (by eapply kept_trans).
  assert (fresh_acc h0 (s_heap s1) acc) as HA1.
  { destruct HA as [HA|(a & HA & Ha)]; [by left|right]. exists a. split; [done|]. apply kept_len in HK1. lia. }
  assert (forall n, n ∈ l -> kp (rec n)) as Hrec' by (intros n Hn; apply Hrec; by right).
  assert (forall n, n ∈ l -> merges n = false) as Hm' by (intros n Hn; apply Hm; by right).
  specialize (Hm c ltac:(left)). unfold merges in Hm. apply orb_false_iff in Hm as [M1 M2].
  unfold bind. unfold add_labelled. rewrite M1, M2.
  destruct (String.eqb (i_label (n_info c)) "") eqn:EL; [cbn; by apply IH|].
  destruct HA1 as [->|(a & -> & Ha)]; cbn.
  - apply IH; [done|done| |].
    + cbn. eapply kept_trans; [exact HK2|apply kept_app].
    + right. eexists. split; [done|]. cbn. rewrite app_length. cbn. apply kept_len in HK2. lia.
  - unfold bind, read_obj. destruct (s_heap s1 !! a) as [o|] eqn:EO; [|done]. destruct (o_body o) as [m|t args lb] eqn:EB; [|done]. cbn.
    apply IH; [done|done| |].
    + cbn. intros b ob Hb. destruct (HK2 b ob Hb) as (o' & Ho' & Hbody). exists o'. split; [|done].
      rewrite list_lookup_insert_ne; [done|]. apply lookup_lt_Some in Hb. lia.
    + right. exists a. split; [done|]. cbn. rewrite insert_length. lia.
Qed.
Lemma kp_choice l : (forall n, n ∈ l -> kp (rec n)) -> kp (choice_loop rec l).
Proof.
  induction l as [|c l IH]; intros Hrec; cbn [choice_loop]; [apply kp_ret|]. apply kp_bind; [apply kp_gets|]. intros p.
  apply kp_bind; [apply Hrec; left|]. intros [a|]; [apply kp_ret|]. apply kp_bind; [apply kp_set_pos|]. intros _.
  apply IH. intros n Hn. apply Hrec. by right.
Qed.
Lemma kp_pat v j mx lf : kp (rec v) -> (forall n, j = Some n -> kp (rec n)) -> forall acc, kp (pat_loop rec lf v j mx acc).
Proof.
  intros Hv Hj. induction lf as [|lf IH]; intros acc; cbn [pat_loop]; [apply kp_fuel|]. apply kp_bind; [apply kp_gets|]. intros p. apply kp_bind.
  { destruct j; [|apply kp_ret]. apply kp_bind; [by apply Hj|]. intros ?. apply kp_ret. }
  intros []; [|repeat kstep]. apply kp_bind; [apply Hv|]. intros [a|]; [|repeat kstep]. cbn zeta. destruct (_ && _)%bool; [apply kp_ret|apply IH].
Qed.
Lemma kp_body lf n : (forall m, m ∈ children n -> kp (rec m)) -> (forall m, m ∈ children n -> merges m = false) ->
  (forall name m, n_kind n = KRef name -> e_rule E name = Some m -> kp (rec m)) -> kp (body E rec lf n).
Proof.
  intros Hrec Hm Hru. unfold children in Hrec, Hm. unfold body. destruct (n_kind n) as [s0|re|name|ty l|l|v j mn mx|a|a|a|].
  - apply kp_same. intros s a s'. destruct (c_match_string _ _) as [[r c]|p|]; [|done|done]. by intros [= _ <-].
  - apply kp_same. intros s a s'. destruct (c_match_regexp _ _) as [[r c]|p|]; [|done|done]. by intros [= _ <-].
  - destruct (e_rule E name) eqn:ER; repeat kstep. by apply (Hru name).
  - destruct ty; [by apply kp_seq_single|by apply kp_seq_array|]. destruct l as [|c l]; [apply kp_ret|].
    intros s r s'. apply kp_seq_object; [done|done|apply kept_refl|by left].
  - by apply kp_choice.
  - apply kp_bind; [apply kp_gets|]. intros p. apply kp_bind; [apply Hrec; left|]. intros [a|]; [|repeat kstep].
    apply kp_bind; [apply kp_pat|].
    + apply Hrec. left.
    + intros m ->. apply Hrec. right. left.
    + intros ms. repeat kstep.
  - assert (kp (rec a)) by (apply Hrec; left). apply kp_bind; [apply kp_gets|]. intros p. apply kp_bind; [done|]. intros [x|]; repeat kstep.
  - assert (kp (rec a)) by (apply Hrec; left). apply kp_bind; [apply kp_gets|]. intros p. apply kp_bind; [done|]. intros x; repeat kstep.
  - assert (kp (rec a)) by (apply Hrec; left). apply kp_bind; [apply kp_gets|]. intros p. apply kp_bind; [done|]. intros x; repeat kstep.
  - apply kp_ret.
Qed.
End Body.

Lemma kp_parse root fuel : merge_free E root -> forall n, uses E root n -> kp (parse E fuel n).
Proof.
  intros HF. induction fuel as [|fuel IH]; intros n Hn; cbn [parse]; [apply kp_fuel|].
  assert (kp (wrap E (parse E fuel) fuel n)) as Hw.
  { assert (kp (body E (parse E fuel) fuel n)) as Hb.
    { apply kp_body.
      - intros m Hm. apply IH. by eapply uses_child.
      - intros m Hm. by apply (HF n).
      - intros name m Hk Hm. apply IH. by eapply uses_ref. }
    pose proof (kp_prepare _ n Hb) as Hp. unfold wrap. destruct (i_isrule (n_info n)); [|destruct (_ || _)%bool; done].
    by apply kp_stack, kp_loopify. }
  destruct (n_kind n); try exact Hw. apply kp_ret.
Qed.
End Env.

(** ** Merging *)
Lemma vals_get_set m k v j : nm_get (nm_set m k v) j = if String.eqb j k then Some v else nm_get m j.
Proof. unfold nm_get, nm_set. cbn. done. Qed.
Lemma keys_set m k v j : j ∈ nm_keys (nm_set m k v) <-> j = k \/ j ∈ nm_keys m.
Proof.
  unfold nm_set. cbn. destruct (existsb (String.eqb k) (nm_keys m)) eqn:E.
  - split; [by right|]. intros [->|H]; [|done]. apply existsb_exists in E as (x & Hx & He). apply String.eqb_eq in He as <-. by apply elem_of_list_In.
  - rewrite elem_of_app, elem_of_list_singleton. tauto.
Qed.
Lemma merge_keys_union dst src m2 o2 (Hne : dst <> src) : map_ok m2 -> o_body o2 = OMap m2 ->
  forall ks m1 a1 s, (forall k, k ∈ ks -> k ∈ nm_keys m2) -> s_heap s !! src = Some o2 -> s_heap s !! dst = Some (Obj (OMap m1) a1) ->
  exists m3, merge_keys dst src ks s = Ok tt (set_heap s (<[dst := Obj (OMap m3) a1]> (s_heap s))) /\
    (forall k, k ∈ ks -> nm_get m3 k = nm_get m2 k) /\ (forall k, k ∉ ks -> nm_get m3 k = nm_get m1 k) /\
    (forall k, k ∈ nm_keys m3 <-> k ∈ nm_keys m1 \/ k ∈ ks).
Proof.
  intros Hok Ho. induction ks as [|k ks IH]; intros m1 a1 s Hks Hs Hd.
  { exists m1. cbn. split; [|split; [|split]].
    - unfold ret. rewrite list_insert_id by done. by destruct s.
    - intros k Hk. by apply elem_of_nil in Hk.
    - done.
    - intros k. rewrite elem_of_nil. tauto. }
  cbn [merge_keys]. destruct (nm_get m2 k) as [v|] eqn:EV; [|exfalso; apply (Hok k); [apply Hks; left|done]].
  set (s1 := set_heap s (<[dst := Obj (OMap (nm_set m1 k v)) a1]> (s_heap s))).
  destruct (IH (nm_set m1 k v) a1 s1) as (m3 & E3 & A3 & B3 & C3).
  { intros j Hj. apply Hks. by right. }
  { cbn. by rewrite list_lookup_insert_ne. }
  { cbn. apply list_lookup_insert. by eapply lookup_lt_Some. }
  exists m3. split; [|split; [|split]].
  - unfold bind at 1, read_obj at 1. rewrite Hs. unfold bind at 1. rewrite Ho. unfold bind at 1, lift at 1. unfold nm_get_or_panic. rewrite EV.
    unfold bind at 1, read_obj. rewrite Hd. cbn [o_body o_attr]. unfold write_obj. fold s1. rewrite E3. unfold s1, set_heap. cbn. by rewrite list_insert_insert.
  - intros j Hj. apply elem_of_cons in Hj. destruct (decide (j ∈ ks)) as [Hin|Hnin]; [by apply A3|].
    destruct Hj as [->|]; [|done]. rewrite (B3 k Hnin), vals_get_set, String.eqb_refl. done.
  - intros j Hj. apply not_elem_of_cons in Hj as [H1 H2]. rewrite (B3 j H2), vals_get_set. by apply String.eqb_neq in H1 as ->.
  - intros j. rewrite C3, keys_set, elem_of_cons. tauto.
Qed.

(** A sequence  k:c @:g , neither a rule, labelled nor with a callback. *)
Section Two.
Variables (E : env) (fuel : nat) (i : info) (c g : node) (k : string).
Hypothesis Hi : i_isrule i = false /\ i_label i = EmptyString /\ i_cb i = None.
Hypothesis Hk : k <> EmptyString /\ k <> "@"%string /\ k <> "&"%string.
Hypothesis Hc : i_label (n_info c) = k.
Hypothesis Hg : i_label (n_info g) = "@"%string.
Variables (s s1 s2 : st) (x : ast).
Hypothesis Pc : parse E fuel c s = Ok (Some x) s1.
Definition with_map : st := set_heap s1 (s_heap s1 ++ [Obj (OMap (nm_set nm_empty k x)) attr0]).
Definition the_map : nat := length (s_heap s1).

Lemma two_run y : parse E fuel g with_map = Ok (Some y) s2 ->
  parse E (S fuel) (Node i (KSeq TObject [c; g])) s = (do! z := merge (AObj the_map) y in ret (Some z)) s2.
Proof.
  destruct Hi as (H1 & H2 & H3), Hk as (K1 & K2 & K3). intros Pg. cbn [parse n_kind]. unfold wrap. cbn [n_info]. rewrite H1, H2, H3. cbn [String.eqb negb andb orb].
  cbn [body n_kind seq_object]. unfold bind at 1. rewrite Pc. unfold bind at 1. unfold add_labelled at 1. rewrite Hc.
  apply String.eqb_neq in K1, K2, K3. rewrite K1, K2, K3. cbn [is_undefined]. unfold bind at 1, alloc, ret at 1. fold with_map. fold the_map.
  unfold bind at 1. rewrite Pg. unfold add_labelled. rewrite Hg. cbn [String.eqb Ascii.eqb Bool.eqb is_undefined].
  unfold bind. destruct (merge (AObj the_map) y s2) as [z s3|p s3|] eqn:EM; done.
Qed.

Lemma two_absent : parse E fuel g with_map = Ok (Some AUndef) s2 ->
  parse E (S fuel) (Node i (KSeq TObject [c; g])) s = Ok (Some (AObj the_map)) s2.
Proof. intros Pg. by rewrite (two_run _ Pg). Qed.

Lemma two_present b m o : cb_keeps E -> merge_free E g ->
  parse E fuel g with_map = Ok (Some (AObj b)) s2 -> s_heap s2 !! b = Some o -> o_body o = OMap m -> map_ok m -> b <> the_map ->
  exists s3 m3 at3, parse E (S fuel) (Node i (KSeq TObject [c; g])) s = Ok (Some (AObj the_map)) s3 /\
    s_heap s3 !! the_map = Some (Obj (OMap m3) at3) /\ union_of (nm_single k x) m m3 /\
    kept (s_heap s1) (s_heap s3) /\ s_heap s3 !! b = Some o.
Proof.
  intros Hcb HF Pg Hb Ho Hm Hne. assert (kept (s_heap with_map) (s_heap s2)) as HK.
  { eapply (kp_parse E Hcb g fuel HF g); [constructor|exact Pg]. }
  destruct (HK the_map (Obj (OMap (nm_set nm_empty k x)) attr0)) as ([ob at3] & HM & HB).
  { cbn. unfold the_map. rewrite lookup_app_r by lia. by rewrite Nat.sub_diag. }
  cbn in HB. subst ob.
  destruct (merge_keys_union the_map b m o (not_eq_sym Hne) Hm Ho (nm_keys m) _ at3 s2 ltac:(done) Hb HM) as (m3 & E3 & A3 & B3 & C3).
  eexists _, m3, at3. rewrite (two_run _ Pg). split; [|split; [|split; [|split]]].
  - unfold merge, type_of. unfold bind at 1, bind at 1, bind at 1, read_obj at 1. rewrite Hb, Ho. unfold ret at 1. unfold bind at 1, bind at 1, read_obj at 1. rewrite HM.
    cbn [o_body]. unfold ret at 1. unfold bind at 1. rewrite E3. reflexivity.
  - cbn. apply list_lookup_insert. by eapply lookup_lt_Some.
  - split; [exact A3|]. split; [|exact C3]. intros j Hj. rewrite (B3 j Hj). done.
  - cbn. intros a oa Ha. assert (a < the_map) by (by eapply lookup_lt_Some).
    destruct (HK a oa) as (o' & Ho' & Hbody). { cbn. by apply lookup_app_l_Some. }
    exists o'. split; [|done]. rewrite list_lookup_insert_ne by lia. done.
  - cbn. rewrite list_lookup_insert_ne by done. done.
Qed.
End Two.
