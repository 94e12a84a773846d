(** Without left recursion in the grammar, a parse meets none. *)
From Verif Require Import Base Helpers Utf8 Stream StreamSpec StreamProofs Native Engine EngSpec EngInv CombProofs TermSpec Term
  LogSpec LogProofs Pre Linear WfSpec.

(** ** Partial correctness *)
Definition ok {A} (m : M A) (s : st) (Q : A -> st -> Prop) : Prop :=
  match m s with Ok a s' => Q a s' | Panic _ _ => True | OutOfFuel => True end.
Lemma ok_bind {A B} (m : M A) (k : A -> M B) s Q : ok m s (fun a s' => ok (k a) s' Q) -> ok (bind m k) s Q.
Proof. unfold ok, bind. by destruct (m s). Qed.
Lemma ok_weaken {A} (m : M A) s (Q Q' : A -> st -> Prop) : ok m s Q -> (forall a s', Q a s' -> Q' a s') -> ok m s Q'.
Proof. unfold ok. destruct (m s); auto. Qed.
Lemma ok_ret {A} (a : A) s (Q : A -> st -> Prop) : Q a s -> ok (ret a) s Q.
Proof. done. Qed.
Lemma ok_panic {A} p s (Q : A -> st -> Prop) : ok (panic_ p) s Q.
Proof. done. Qed.
Lemma ok_gets {A} (f : st -> A) s (Q : A -> st -> Prop) : Q (f s) s -> ok (gets f) s Q.
Proof. done. Qed.

Definition lg (s s' : st) : Prop := norec (s_log s) -> norec (s_log s').
Definition XT (p : panic) (s s' : st) : Prop := True.
Lemma lg_eq s s' : s_log s' = s_log s -> lg s s'.
Proof. unfold lg. by intros ->. Qed.
Ltac fx := solve [done|by intros ?|intros s1 s2 s3; unfold lg; auto|intros; by apply lg_eq].
Lemma ok_calm {A} (m : M A) s (Q : A -> st -> Prop) : inert m -> pre lg XT m -> (forall a s', same s s' -> lg s s' -> Q a s') -> ok m s Q.
Proof. intros H1 H2 HQ. specialize (H1 s). specialize (H2 s). unfold tot in H1. unfold ok. destruct (m s); [by apply HQ|done|done]. Qed.

Lemma lg_wrap_label i x : pre lg XT (wrap_label i x).
Proof. apply pre_wrap_label; fx. Qed.
Lemma lg_set_origin x o : pre lg XT (set_origin x o).
Proof. apply pre_set_origin; fx. Qed.
Lemma lg_add_labelled l r x : pre lg XT (add_labelled l r x).
Proof. apply pre_add_labelled; fx. Qed.
Lemma lg_peek : pre lg XT stack_peek.
Proof. apply pre_peek; fx. Qed.
Lemma lg_line c : pre lg XT (lift (c_line c)).
Proof. apply pre_lift; [fx..|apply nup_line]. Qed.
Lemma lg_log_if E b : pre lg XT (log_if E b).
Proof. apply pre_log_if; fx. Qed.
Lemma lg_emit e : (forall i p, e <> EvRec i p) -> pre lg XT (emit e).
Proof. intros H s. cbn. intros HN. cbn. by apply norec_cons. Qed.
Lemma lg_call_cb E i x : pre lg XT (call_cb E i x).
Proof.
  intros s. unfold call_cb. destruct (i_cb i) as [c|]; [|fx]. cbn. destruct (e_cb E c _ _ _); [|done].
  intros HN. cbn. by apply norec_cons.
Qed.

Section Wf.
Variable E : env.
Variable root : node.
Variable W : bytes.
Notation L := (length W).
Variable rxe : bytes -> bool.
Variable eats : node -> bool.
Hypothesis Heat : eating E root rxe eats.
Hypothesis Hrx : forall re, rx_ok (e_rx E re).
Hypothesis Huniq : ids_unique E root.
Hypothesis Hleft : no_left_recursion E root eats.
Notation TI := (TI E root W eats).
Notation fok := (fok E root eats).

Definition busy (f : frame) : Prop := (0 < f_stage f)%Z.
(** Rules in progress stay so, others do not become so. *)
Record steady (s s' : st) : Prop := {
  st_keep : keeps s s';
  st_on : forall a f, s_fheap s !! a = Some f -> busy f -> exists f', s_fheap s' !! a = Some f' /\ f_stage f' = f_stage f;
  st_off : forall a f', s_fheap s' !! a = Some f' -> busy f' ->
             exists f, s_fheap s !! a = Some f /\ busy f /\ f_pos f' = f_pos f /\ f_id f' = f_id f;
  st_lg : lg s s' }.
Lemma steady_eq s s' : s_fheap s' = s_fheap s -> lg s s' -> steady s s'.
Proof.
  intros H HL. split; [by apply keeps_eq|..|done].
  - intros a f Ha _. exists f. by rewrite H.
  - intros a f Ha Hb. exists f. by rewrite <- H.
Qed.
Lemma steady_trans s1 s2 s3 : steady s1 s2 -> steady s2 s3 -> steady s1 s3.
Proof.
  intros [A1 A2 A3 A4] [B1 B2 B3 B4]. split; [by eapply keeps_trans|..].
  - intros a f Ha Hb. destruct (A2 _ _ Ha Hb) as (f' & Hf' & Hs). assert (busy f') as Hb' by (unfold busy in *; lia).
    destruct (B2 _ _ Hf' Hb') as (f'' & ? & ?). exists f''. split; [done|congruence].
  - intros a f Ha Hb. destruct (B3 _ _ Ha Hb) as (f' & Hf' & Hb' & P & I). destruct (A3 _ _ Hf' Hb') as (f'' & ? & ? & ? & ?).
    exists f''. repeat split; congruence.
  - unfold lg in *. auto.
Qed.
Definition R (s s' : st) : Prop := TI s' /\ steady s s' /\ st_pos s <= st_pos s'.
Lemma R_refl s : TI s -> R s s.
Proof. intros. split; [done|]. split; [apply steady_eq; [done|by intros ?]|lia]. Qed.
Lemma R_trans s1 s2 s3 : R s1 s2 -> R s2 s3 -> R s1 s3.
Proof. intros (A1 & A2 & A3) (B1 & B2 & B3). split; [done|]. split; [by eapply steady_trans|lia]. Qed.
Lemma R_same s s' : TI s -> same s s' -> lg s s' -> R s s'.
Proof.
  intros HT HS HL. split; [by eapply TI_same|]. split; [|by rewrite (same_pos _ _ HS)]. apply steady_eq; [apply HS|done].
Qed.

Lemma ok_set_pos p s (Q : unit -> st -> Prop) : TI s ->
  (forall s', TI s' -> s_fheap s' = s_fheap s -> s_frames s' = s_frames s -> s_log s' = s_log s -> st_pos s' = p -> Q tt s') -> ok (set_pos p) s Q.
Proof.
  intros HT HQ. pose proof (tot_set_pos E root W eats Hrx p s (fun _ s' => TI s' /\ s_fheap s' = s_fheap s /\ s_frames s' = s_frames s /\ st_pos s' = p) HT
    ltac:(intros; cbn beta; auto)) as H. unfold tot, ok, set_pos in *. destruct (c_set_pos _ _) as [c| |]; [|done|done]. destruct H as (H1 & H2 & H3 & H4). by apply HQ.
Qed.
Lemma ok_back s0 s (Q : unit -> st -> Prop) : R s0 s -> (forall s', R s0 s' -> st_pos s' = st_pos s0 -> Q tt s') -> ok (set_pos (st_pos s0)) s Q.
Proof.
  intros (HT & HK & HP) HQ. apply ok_set_pos; [done|]. intros s' HT' E1 E2 E3 E4. apply HQ; [|done].
  split; [done|]. split; [eapply steady_trans; [done|apply steady_eq; [done|by apply lg_eq]]|lia].
Qed.

Definition post (n : node) (s : st) (r : option ast) (s' : st) : Prop :=
  R s s' /\ (eats n = true -> r <> None -> st_pos s < st_pos s').

(** ** Rules in progress *)
(** Those at the cursor lead to [n]. *)
Definition idle (n : node) (s : st) : Prop := forall a f, s_fheap s !! a = Some f -> busy f ->
  f_pos f < st_pos s \/ (f_pos f = st_pos s /\
    exists m, reach E root m /\ i_isrule (n_info m) = true /\ i_id (n_info m) = f_id f /\ leads E eats m n).
(** They lead to [n] or are [n]. *)
Definition inside (n : node) (s : st) : Prop := forall a f, s_fheap s !! a = Some f -> busy f ->
  f_pos f < st_pos s \/ (f_pos f = st_pos s /\
    exists m, reach E root m /\ i_isrule (n_info m) = true /\ i_id (n_info m) = f_id f /\ (m = n \/ leads E eats m n)).
Lemma idle_inside n s : idle n s -> inside n s.
Proof. intros H a f Ha Hb. destruct (H a f Ha Hb) as [|(Hp & m & ? & ? & ? & ?)]; [by left|]. right. split; [done|]. exists m. auto. Qed.
Lemma leads_trans n c m : leads E eats n c -> leads E eats c m -> leads E eats n m.
Proof. induction 1 as [n c H|n c m' H _ IH]; intros H2; [by eapply leads_more|]. eapply leads_more; [done|auto]. Qed.
Lemma inside_child n s0 s c : inside n s0 -> R s0 s -> c ∈ left E eats n \/ st_pos s0 < st_pos s -> idle c s.
Proof.
  intros HI (HT & HS & HP) Hc a f Ha Hb. destruct (st_off _ _ HS _ _ Ha Hb) as (f0 & Hf0 & Hb0 & -> & ->).
  destruct (HI _ _ Hf0 Hb0) as [|(Hp & m & Hm & Hr & Hi & Hl)]; [left; lia|].
  destruct (decide (st_pos s0 < st_pos s)) as [Hlt|Hge]; [left; lia|]. destruct Hc as [Hc|]; [|lia].
  right. split; [lia|]. exists m. split; [done|]. split; [done|]. split; [done|].
  destruct Hl as [->|Hl]; [by apply leads_one|]. eapply leads_trans; [done|by apply leads_one].
Qed.

(** ** Bodies *)
Section Body.
Variable P : node -> Prop.
Variable rec : node -> M (option ast).
Hypothesis Hrec : forall c s, P c -> TI s -> idle c s -> ok (rec c) s (post c s).
Variable n : node.
Variable s0 : st.
Hypothesis Hin : inside n s0.
Notation may c s := (c ∈ left E eats n \/ st_pos s0 < st_pos s).

Lemma ok_rec {B} c (k : option ast -> M B) s (Q : B -> st -> Prop) : P c -> R s0 s -> may c s ->
  (forall r s', R s0 s' -> R s s' -> (eats c = true -> r <> None -> st_pos s < st_pos s') -> ok (k r) s' Q) ->
  ok (bind (rec c) k) s Q.
Proof.
  intros HP HR Hc HQ. apply ok_bind. eapply ok_weaken; [apply Hrec; [done|apply HR|by eapply inside_child]|].
  cbn beta. intros r s' [H1 H2]. apply HQ; [by eapply R_trans|done|done].
Qed.

Definition seq_post (l : list node) (s : st) (r : option ast) (s' : st) : Prop :=
  R s0 s' /\ st_pos s <= st_pos s' /\ (existsb eats l = true -> r <> None -> st_pos s < st_pos s').
Lemma seq_step c l s s1 r s' : R s s1 -> (eats c = true -> st_pos s < st_pos s1) ->
  seq_post l s1 r s' -> seq_post (c :: l) s r s'.
Proof.
  intros (_ & _ & H1) H2 (H3 & H4 & H5). split; [done|]. split; [lia|]. cbn [existsb]. intros H Hr.
  apply orb_true_iff in H as [H|H]; [specialize (H2 H)|specialize (H5 H Hr)]; lia.
Qed.
Lemma seq_fail c l s s1 : R s0 s1 -> R s s1 -> seq_post (c :: l) s None s1.
Proof. intros H1 H2. split; [done|]. split; [apply H2|done]. Qed.
Notation mays l s := (st_pos s0 < st_pos s \/ forall c, c ∈ firsts eats l -> c ∈ left E eats n).
Lemma mays_here c l s : mays (c :: l) s -> may c s.
Proof. intros [H|H]; [by right|]. left. apply H. cbn [firsts]. by left. Qed.
Lemma mays_next c l s s1 : mays (c :: l) s -> R s s1 -> (eats c = true -> st_pos s < st_pos s1) -> st_pos s0 <= st_pos s -> mays l s1.
Proof.
  intros H (_ & _ & HP) He H0. destruct (eats c) eqn:EC; [left; specialize (He eq_refl); lia|]. destruct H as [H|H]; [left; lia|].
  right. intros d Hd. apply H. cbn [firsts]. rewrite EC. by right.
Qed.

Lemma ok_seq_single l : Forall P l -> forall acc s, R s0 s -> mays l s -> ok (seq_single rec l acc) s (seq_post l s).
Proof.
  induction 1 as [|c l Hc _ IH]; intros acc s HR Hm; cbn [seq_single].
  { apply ok_ret. split; [done|]. split; [lia|done]. }
  eapply ok_rec; [done|exact HR|by eapply mays_here|]. intros r s1 H1 H2 H3. destruct r as [x|].
  - assert (eats c = true -> st_pos s < st_pos s1) as H3' by (intros He; by apply H3).
    eapply ok_weaken; [apply IH; [done|]; eapply mays_next; [done..|apply HR]|]. cbn beta. intros r' s'. by eapply seq_step.
  - apply ok_ret. by apply seq_fail.
Qed.
Lemma ok_seq_array l : Forall P l -> forall acc s, R s0 s -> mays l s -> ok (seq_array rec l acc) s (seq_post l s).
Proof.
  induction 1 as [|c l Hc _ IH]; intros acc s HR Hm; cbn [seq_array].
  { apply ok_ret. split; [done|]. split; [lia|done]. }
  eapply ok_rec; [done|exact HR|by eapply mays_here|]. intros r s1 H1 H2 H3. destruct r as [x|].
  - assert (eats c = true -> st_pos s < st_pos s1) as H3' by (intros He; by apply H3).
    eapply ok_weaken; [apply IH; [done|]; eapply mays_next; [done..|apply HR]|]. cbn beta. intros r' s'. by eapply seq_step.
  - apply ok_ret. by apply seq_fail.
Qed.
Lemma ok_seq_object l : Forall P l -> forall acc s, R s0 s -> mays l s -> ok (seq_object rec l acc) s (seq_post l s).
Proof.
  induction 1 as [|c l Hc _ IH]; intros acc s HR Hm; cbn [seq_object].
  { apply ok_ret. split; [done|]. split; [lia|done]. }
  eapply ok_rec; [done|exact HR|by eapply mays_here|]. intros r s1 H1 H2 H3. destruct r as [x|].
  - apply ok_bind. apply ok_calm; [apply inert_add_labelled|apply lg_add_labelled|]. intros acc' s2 HS HL.
    assert (R s1 s2) as HR2 by (apply R_same; [apply H1|done..]). assert (R s s2) as HR02 by (by eapply R_trans).
    assert (eats c = true -> st_pos s < st_pos s2) as H3'.
    { intros He. rewrite (same_pos _ _ HS). by apply H3. }
    eapply ok_weaken; [apply IH; [by eapply R_trans|]; eapply mays_next; [done..|apply HR]|]. cbn beta. intros r' s'. by eapply seq_step.
  - apply ok_ret. by apply seq_fail.
Qed.
Lemma ok_choice l : Forall P l -> (forall c, c ∈ l -> c ∈ left E eats n) -> forall s, R s0 s -> st_pos s = st_pos s0 ->
  ok (choice_loop rec l) s (fun r s' => R s0 s' /\ (forallb eats l = true -> r <> None -> st_pos s0 < st_pos s')).
Proof.
  induction 1 as [|c l Hc _ IH]; intros Hl s HR Hp; cbn [choice_loop].
  { apply ok_ret. done. }
  apply ok_bind, ok_gets. eapply ok_rec; [done|exact HR|left; apply Hl; by left|]. intros r s1 H1 H2 H3. destruct r as [x|].
  - apply ok_ret. split; [done|]. cbn [forallb]. intros He _. apply andb_true_iff in He as [He _].
    rewrite <- Hp. by apply H3.
  - apply ok_bind. rewrite Hp. apply ok_back; [done|]. intros s2 HR2 Hp2.
    eapply ok_weaken; [apply IH; [|done|done]; intros d Hd; apply Hl; by right|]. cbn beta. intros r' s' [HA HB]. split; [done|]. cbn [forallb].
    intros He. apply andb_true_iff in He as [_ He]. auto.
Qed.
Lemma ok_pat v j mx : P v -> (forall x, j = Some x -> P x) -> v ∈ left E eats n ->
  forall lf acc s, R s0 s -> (forall x, j = Some x -> may x s) ->
  ok (pat_loop rec lf v j mx acc) s (fun _ s' => R s s').
Proof.
  intros Hv Hj Hl. induction lf as [|lf IH]; intros acc s HR Hm; [done|]. cbn [pat_loop].
  apply ok_bind, ok_gets. assert (TI s) as HT by apply HR. apply ok_bind.
  assert (ok (match j with None => ret true | Some jn => do! r := rec jn in ret (match r with None => false | Some _ => true end) end) s
    (fun b s' => R s s')) as HJ.
  { destruct j as [jn|].
    - eapply ok_rec; [by apply Hj|exact HR|by apply Hm|]. intros r s1 _ H1 H3. by apply ok_ret.
    - apply ok_ret. by apply R_refl. }
  eapply ok_weaken; [exact HJ|]. cbn beta. intros b s1 HR1. assert (R s0 s1) as HR01 by (by eapply R_trans). destruct b.
  - eapply ok_rec; [done|exact HR01|by left|]. intros r s2 H1 H2 H3. assert (R s s2) as HR2 by (by eapply R_trans). destruct r as [x|].
    + destruct (_ && _)%bool; [by apply ok_ret|]. eapply ok_weaken; [apply IH; [done|]|].
      { intros x' Hx. destruct (Hm x' Hx) as [|Hlt]; [by left|]. right. destruct HR2 as (_ & _ & ?). lia. }
      cbn beta. intros _ s'. by eapply R_trans.
    + apply ok_bind. apply ok_back; [done|]. intros s3 HR3 _. by apply ok_ret.
  - apply ok_bind. apply ok_back; [done|]. intros s3 HR3 _. by apply ok_ret.
Qed.

Lemma R_advance s k : TI s -> st_pos s + k <= L -> R s (set_code s (c_with_pos (s_code s) (c_pos (s_code s) + k))).
Proof.
  intros HT Hk. assert (st_pos (set_code s (c_with_pos (s_code s) (c_pos (s_code s) + k))) = st_pos s + k) as HP.
  { unfold st_pos. cbn. apply c_with_pos_pos. }
  destruct HT as [H1 H2 H3 H4]. split; [split; try done; [cbn; by rewrite c_with_pos_work|by rewrite HP]|].
  split; [apply steady_eq; [done|by intros ?]|]. rewrite HP. lia.
Qed.

Lemma ok_body lf : reach E root n -> Forall P (children n) ->
  (forall name t, n_kind n = KRef name -> e_rule E name = Some t -> P t) ->
  TI s0 -> ok (body E rec lf n) s0 (post n s0).
Proof.
  intros Hn Hch Href HT. pose proof (eat_ok _ _ _ _ Heat n Hn) as HA. unfold ate in HA.
  assert (forall P : Prop, P -> P) as _ by done.
  unfold body, post, children in *. pose proof (R_refl _ HT) as HR0.
  assert (left E eats n = left E eats n) as HLf by done. unfold left in HLf at 2.
  destruct (n_kind n) as [str|re|name|ty l|l|v j mn mx|a|a|a|] eqn:EK.
  - unfold ok. rewrite c_match_string_eq by (by eapply TI_wf).
    destruct (bytes_eqb_spec str (take (length str) (drop (c_pos (s_code s0)) (c_work (s_code s0))))) as [HE|HE].
    + assert (st_pos s0 + length str <= L) as HL.
      { rewrite HE. rewrite take_length, drop_length, (ti_work _ _ _ _ _ HT). pose proof (ti_pos _ _ _ _ _ HT). unfold st_pos in *. lia. }
      split; [by apply R_advance|]. intros He _. specialize (HA He). unfold st_pos. cbn. rewrite c_with_pos_pos.
      destruct (Nat.eqb_spec (length str) 0); [done|lia].
    + assert (set_code s0 (s_code s0) = s0) as -> by (by destruct s0). by split.
  - unfold ok. rewrite c_match_regexp_eq by (done || by eapply TI_wf).
    assert (set_code s0 (s_code s0) = s0) as HSS by (by destruct s0).
    destruct (e_rx E re _) as [[[|m] b]|] eqn:EX; [|rewrite HSS; by split..].
    pose proof (Hrx _ _ _ _ EX) as [_ HL]. rewrite drop_length, (ti_work _ _ _ _ _ HT) in HL. pose proof (ti_pos _ _ _ _ _ HT).
    split; [apply R_advance; [done|unfold st_pos in *; lia]|]. intros He _. specialize (HA He).
    pose proof (eat_rx _ _ _ _ Heat _ _ _ HA EX). unfold st_pos. cbn. rewrite c_with_pos_pos. lia.
  - destruct (e_rule E name) as [t|] eqn:ER; [|apply ok_panic].
    apply ok_bind. apply ok_calm; [apply inert_peek|apply lg_peek|]. intros fr s1 HS HL.
    assert (R s0 s1) as HR1 by (by apply R_same).
    eapply ok_weaken; [apply Hrec; [by eapply Href|by eapply TI_same|]|].
    { eapply inside_child; [done|done|]. left. rewrite HLf. by left. }
    cbn beta. intros r s' [H1 H2]. pose proof (same_pos _ _ HS) as HP. split; [by eapply R_trans|].
    rewrite <- HP. auto.
  - assert (mays l s0) as Hm by (right; by rewrite HLf).
    assert (ok (match ty with TSingle => seq_single rec l None | TArray => seq_array rec l [] | TObject => seq_object rec l None end) s0
      (seq_post l s0)) as HS.
    { destruct ty; [by apply ok_seq_single|by apply ok_seq_array|by apply ok_seq_object]. }
    assert (ok (match ty with TSingle => seq_single rec l None | TArray => seq_array rec l [] | TObject => match l with [] => ret (Some AUndef) | _ => seq_object rec l None end end) s0
      (seq_post l s0)) as HS2.
    { destruct ty, l; exact HS. }
    destruct ty, l; (eapply ok_weaken; [exact HS2|]); cbn beta; intros r s' (H1 & _ & H3); (split; [done|auto]).
  - eapply ok_weaken; [apply ok_choice; [done|by rewrite HLf|done|done]|]. cbn beta. intros r s' [H1 H2]. split; [done|auto].
  - apply Forall_cons in Hch as [Hv Hj].
    assert (forall x, j = Some x -> P x) as Hj'. { intros x ->. by apply Forall_cons in Hj as [? _]. }
    assert (v ∈ left E eats n) as Hvl by (rewrite HLf; by left).
    apply ok_bind, ok_gets. eapply ok_rec; [done|exact HR0|by left|]. intros r s1 H1 _ H3. destruct r as [x|].
    + apply ok_bind. eapply ok_weaken.
      { apply (ok_pat v j mx Hv Hj' Hvl); [done|]. intros y Hy. destruct (eats v) eqn:EV; [right; by apply H3|].
        left. rewrite HLf, Hy. right. by left. }
      cbn beta. intros ms s2 HR2. assert (R s0 s2) as HR02 by (by eapply R_trans).
      destruct ((-1 <? mn) && (Z.of_nat (length ms) <? mn))%Z%bool.
      * apply ok_bind. apply ok_back; [done|]. intros s3 HR3 _. apply ok_ret. by split.
      * apply ok_ret. split; [done|]. intros He _. specialize (HA He). apply andb_true_iff in HA as [_ HA].
        specialize (H3 HA ltac:(done)). destruct HR2 as (_ & _ & HR2). lia.
    + apply ok_bind. apply ok_back; [done|]. intros s3 HR3 _. destruct (0 <? mn)%Z eqn:EM; apply ok_ret; (split; [done|]); [done|].
      intros He. specialize (HA He). by rewrite ?EM in HA.
  - apply Forall_cons in Hch as [Ha _]. apply ok_bind, ok_gets. eapply ok_rec; [done|exact HR0|left; rewrite HLf; by left|]. intros r s1 H1 _ H3.
    destruct r as [x|].
    + apply ok_ret. split; [done|]. intros He. by specialize (HA He).
    + apply ok_bind. apply ok_back; [done|]. intros s3 HR3 _. apply ok_ret. split; [done|]. intros He. by specialize (HA He).
  - apply Forall_cons in Hch as [Ha _]. apply ok_bind, ok_gets. eapply ok_rec; [done|exact HR0|left; rewrite HLf; by left|]. intros r s1 H1 _ H3.
    apply ok_bind. apply ok_back; [done|]. intros s3 HR3 _. apply ok_ret. split; [done|]. intros He. by specialize (HA He).
  - apply Forall_cons in Hch as [Ha _]. apply ok_bind, ok_gets. eapply ok_rec; [done|exact HR0|left; rewrite HLf; by left|]. intros r s1 H1 _ H3.
    apply ok_bind. apply ok_back; [done|]. intros s3 HR3 _. apply ok_ret. split; [done|]. intros He. by specialize (HA He).
  - apply ok_ret. split; [done|]. intros He. by specialize (HA He).
Qed.
End Body.

(** ** Results and callbacks *)
Lemma ok_prepare m n s : TI s -> (forall s', same s s' -> lg s s' -> ok m s' (post n s')) -> ok (prepare_result E m n) s (post n s).
Proof.
  intros HT Hm. unfold prepare_result. apply ok_bind. unfold ok at 1.
  assert (same s (set_counter s (S (s_counter s)))) as HS by done.
  assert (lg s (set_counter s (S (s_counter s)))) as HL by (by intros ?). specialize (Hm _ HS HL).
  revert HS HL Hm. generalize (set_counter s (S (s_counter s))). intros s1 HS HL Hm.
  apply ok_bind. eapply ok_weaken; [exact Hm|]. cbn beta. intros r s2 [HR HE].
  assert (post n s r s2) as [HR2 HE2].
  { split; [eapply R_trans; [by apply R_same|done]|]. rewrite <- (same_pos _ _ HS). done. }
  clear HR HE. destruct r as [x|]; [|by apply ok_ret].
  assert (forall y s3, same s2 s3 -> lg s2 s3 -> post n s (Some y) s3) as Hgo.
  { intros y s3 H3 H4. split; [eapply R_trans; [done|apply R_same; [apply HR2|done..]]|]. rewrite (same_pos _ _ H3). intros He _. by apply HE2. }
  assert (forall s3, same s2 s3 -> lg s2 s3 -> post n s None s3) as HgoN.
  { intros s3 H3 H4. split; [eapply R_trans; [done|apply R_same; [apply HR2|done..]]|done]. }
  assert (forall a b c, lg a b -> lg b c -> lg a c) as LT by (unfold lg; auto).
  apply ok_bind. apply ok_calm; [apply inert_wrap_label|apply lg_wrap_label|]. intros x1 s3 H3 G3.
  apply ok_bind. apply ok_calm; [apply inert_call_cb|apply lg_call_cb|]. intros r2 s4 H4 G4. apply (same_trans _ _ _ H3) in H4. apply (LT _ _ _ G3) in G4.
  destruct r2 as [y|]; [|apply ok_ret; by apply HgoN].
  apply ok_bind. apply ok_calm; [apply inert_peek|apply lg_peek|]. intros fr s5 H5 G5. apply (same_trans _ _ _ H4) in H5. apply (LT _ _ _ G4) in G5.
  apply ok_bind, ok_gets. apply ok_bind, ok_gets.
  apply ok_bind. apply ok_calm; [apply inert_lift, c_line_fuel|apply lg_line|]. intros line s6 H6 G6. apply (same_trans _ _ _ H5) in H6. apply (LT _ _ _ G5) in G6.
  apply ok_bind. apply ok_calm; [apply inert_set_origin|apply lg_set_origin|]. intros [] s7 H7 G7. apply (same_trans _ _ _ H6) in H7. apply (LT _ _ _ G6) in G7.
  apply ok_ret. by apply Hgo.
Qed.

(** ** The cache *)
Lemma ok_get_fr a s (Q : frame -> st -> Prop) : (forall f, s_fheap s !! a = Some f -> Q f s) -> ok (get_fr a) s Q.
Proof. intros H. unfold ok, get_fr. destruct (s_fheap s !! a) eqn:Ea; [by apply H|done]. Qed.
Lemma ok_get_frame id s (Q : nat -> st -> Prop) : TI s ->
  (forall a s', R s s' -> st_pos s' = st_pos s -> at_ s' a (st_pos s) id -> Q a s') -> ok (get_frame id) s Q.
Proof.
  intros HT HQ. pose proof (tot_get_frame E root W eats Hrx id s (fun a s' => TI s' /\ keeps s s' /\ at_ s' a (st_pos s) id) HT
    ltac:(intros a s' (? & ? & ? & ?) ? ?; cbn beta; auto)) as H. unfold tot, ok, get_frame in *.
  destruct (table_get (s_frames s) (st_pos s) id) as [[a|]|] eqn:ET; [| |done]; destruct H as (H1 & H2 & H3).
  - apply HQ; [by apply R_refl|done|done].
  - apply HQ; [|done|done]. split; [done|]. split; [|done].
    assert (forall b g, s_fheap s !! b = Some g -> (s_fheap s ++ [new_frame (st_pos s) id]) !! b = Some g) as HE.
    { intros b g Hb. rewrite lookup_app_l; [done|by eapply lookup_lt_Some]. }
    split; [done|..|by intros ?].
    + intros b g Hb _. exists g. split; [|done]. by apply HE.
    + intros b g Hb Hbusy. exists g. cbn in Hb. apply lookup_app_Some in Hb as [Hb|[Hle Hb]]; [done|].
      apply list_lookup_singleton_Some in Hb as [_ <-]. unfold busy in Hbusy. cbn in Hbusy. lia.
Qed.
(** A frame rewritten. *)
Lemma put_steady s a f f' : TI s -> s_fheap s !! a = Some f -> f_pos f' = f_pos f -> f_id f' = f_id f -> fok f' ->
  (busy f \/ busy f' -> f_stage f' = f_stage f) ->
  R s (set_fheap s (<[a := f']> (s_fheap s))).
Proof.
  intros HT Ha Hp Hi Hf Hs. destruct (TI_put _ _ _ _ _ _ _ _ HT Ha Hp Hi Hf) as [H1 H2].
  split; [done|]. split; [|done]. split; [done|..|by intros ?]; cbn.
  - intros b g Hb Hg. destruct (decide (a = b)) as [<-|Hne].
    + rewrite list_lookup_insert by (by eapply lookup_lt_Some). exists f'. split; [done|]. simplify_eq. auto.
    + rewrite list_lookup_insert_ne by done. by exists g.
  - intros b g Hb Hg. destruct (decide (a = b)) as [<-|Hne].
    + rewrite list_lookup_insert in Hb by (by eapply lookup_lt_Some). injection Hb as <-. exists f. split; [done|].
      split; [|done]. specialize (Hs (or_intror Hg)). unfold busy in *. lia.
    + rewrite list_lookup_insert_ne in Hb by done. by exists g.
Qed.

Section Rule.
Variable n : node.
Hypothesis Hn : reach E root n.
Hypothesis Hrule : i_isrule (n_info n) = true.
Notation id := (i_id (n_info n)).
Variable fp : M (option ast).
Hypothesis Hfp : forall s, TI s -> inside n s -> ok fp s (post n s).

(** The rule is not in progress. *)
Lemma not_busy s a : idle n s -> at_ s a (st_pos s) id -> exists f, s_fheap s !! a = Some f /\ f_pos f = st_pos s /\ f_id f = id /\ ~ busy f.
Proof.
  intros HI (f & Hf & Hp & Hi). exists f. repeat split; [done..|]. intros Hb.
  destruct (HI _ _ Hf Hb) as [|(_ & m & Hm & Hr & Hmi & Hl)]; [lia|]. apply (Hleft _ _ Hm Hr Hrule Hl). congruence.
Qed.
Lemma eats_of m : reach E root m -> i_isrule (n_info m) = true -> i_id (n_info m) = id -> eats m = true -> eats n = true.
Proof.
  destruct Huniq as [RR HU]. intros Hm Hr Hi He. pose proof (HU _ Hm Hr) as H1. pose proof (HU _ Hn Hrule) as H2. congruence.
Qed.
Lemma idle_same s s' : idle n s -> R s s' -> st_pos s' = st_pos s -> idle n s'.
Proof.
  intros HI (_ & HS & _) HP a f Ha Hb. destruct (st_off _ _ HS _ _ Ha Hb) as (f0 & Hf0 & Hb0 & -> & ->). rewrite HP. by apply (HI a f0).
Qed.

Lemma ok_loopify lf s : TI s -> idle n s -> ok (loopify E lf fp n) s (post n s).
Proof.
  intros HT HI. unfold loopify.
  assert (forall a b c, lg a b -> lg b c -> lg a c) as LT by (unfold lg; auto).
  apply ok_bind. apply ok_calm; [apply inert_log_if|apply lg_log_if|]. intros _ s1 S1 G1.
  assert (R s s1) as R1 by (by apply R_same). assert (TI s1) as T1 by apply R1. pose proof (same_pos _ _ S1) as P1.
  assert (idle n s1) as I1 by (by eapply idle_same).
  destruct (i_skip (n_info n)).
  { apply ok_bind, ok_gets. apply ok_bind. apply ok_calm; [apply inert_emit|by apply lg_emit|]. intros _ s2 S2 G2.
    assert (R s1 s2) as R2 by (by apply R_same). pose proof (same_pos _ _ S2) as P2.
    apply ok_bind. eapply ok_weaken.
    { apply Hfp; [apply R2|]. apply idle_inside. by eapply idle_same. }
    cbn beta. intros r s3 [R3 E3]. assert (R s s3) as R03 by (eapply R_trans; [done|by eapply R_trans]).
    apply ok_bind. destruct (_ || _)%bool.
    - destruct r as [x|]; [|apply ok_panic]. apply ok_calm; [apply (inert_log_if E true)|apply (lg_log_if E true)|]. intros _ s4 S4 G4.
      apply ok_ret. pose proof (same_pos _ _ S4) as P4. split; [eapply R_trans; [done|apply R_same; [apply R03|done..]]|].
      intros He Hx. specialize (E3 He Hx). lia.
    - apply ok_ret. apply ok_ret. split; [done|]. intros He Hx. specialize (E3 He Hx). lia. }
  apply ok_bind. apply ok_get_frame; [done|]. intros a s2 R2 P2 A2. apply ok_bind, ok_gets.
  assert (idle n s2) as I2 by (by eapply idle_same). rewrite <- P2 in A2.
  destruct (not_busy _ _ I2 A2) as (f0 & Hf0 & Hp0 & Hi0 & Hb0).
  apply ok_bind, ok_get_fr. intros f0' Hf0'. assert (f0' = f0) as -> by congruence. clear Hf0'.
  assert (TI s2) as T2 by apply R2.
  (* the stage becomes 0 *)
  apply ok_bind.
  assert (ok (if (f_stage f0 <? 0)%Z then set_stage a 0 else ret tt) s2 (fun _ s3 => R s2 s3 /\ st_pos s3 = st_pos s2 /\
    exists f, s_fheap s3 !! a = Some f /\ f_stage f = 0%Z /\ f_pos f = st_pos s2 /\ f_id f = id)) as H3.
  { unfold busy in Hb0. destruct (Z.ltb_spec (f_stage f0) 0) as [Hs|Hs].
    - apply ok_bind, ok_get_fr. intros f1 Hf1. assert (f1 = f0) as -> by congruence. unfold ok, put_fr. split; [|split; [done|]].
      + apply (put_steady _ _ f0); [done..|by apply (TI_fr _ _ _ _ _ _ _ T2 Hf0)|]. unfold busy. cbn. lia.
      + exists (fr_stage f0 0). cbn. rewrite list_lookup_insert by (by eapply lookup_lt_Some). done.
    - apply ok_ret. split; [by apply R_refl|]. split; [done|]. exists f0. split; [done|]. split; [lia|done]. }
  eapply ok_weaken; [exact H3|]. clear H3. cbn beta. intros _ s3 (R3 & P3 & f & Hf & Hst & Hp & Hi). rewrite <- P3 in Hp.
  assert (R s s3) as R03 by (eapply R_trans; [done|by eapply R_trans]).
  assert (idle n s3) as I3 by (by eapply idle_same). assert (TI s3) as T3 by apply R3.
  assert (st_pos s3 = st_pos s) as P03 by lia.
  apply ok_bind, ok_get_fr. intros f' Hf'. assert (f' = f) as -> by congruence. clear Hf'. rewrite Hst. cbn [Z.eqb].
  pose proof (TI_fr _ _ _ _ _ _ _ T3 Hf) as [FK1 FK2].
  destruct (f_end f) as [e|] eqn:EE.
  { specialize (FK2 _ eq_refl) as [FKa FKb]. apply ok_bind. apply ok_calm; [apply inert_log_if|apply lg_log_if|]. intros _ s4 S4 G4.
    assert (R s s4) as R04 by (eapply R_trans; [done|by apply R_same]).
    apply ok_bind. apply ok_set_pos; [apply R04|]. intros s5 T5 F5 _ L5 P5. apply ok_ret. split.
    - split; [done|]. destruct R04 as (_ & ST & _). split; [eapply steady_trans; [done|apply steady_eq; [done|by apply lg_eq]]|lia].
    - intros He Hr. assert (f_pos f < e); [|lia]. apply FKb; [|done]. by exists n. }
  (* the body runs; the rule is in progress *)
  apply ok_bind. unfold set_stage. apply ok_bind, ok_get_fr. intros f' Hf'. assert (f' = f) as -> by congruence. clear Hf'.
  unfold ok at 1, put_fr.
  set (s4 := set_fheap s3 _).
  assert (s_fheap s4 !! a = Some (fr_stage f 1)) as Hf4 by (cbn; by rewrite list_lookup_insert by (by eapply lookup_lt_Some)).
  apply ok_bind. unfold cache_set. apply ok_bind, ok_get_fr. intros f' Hf'. assert (f' = fr_stage f 1) as -> by congruence. clear Hf'.
  unfold ok at 1, put_fr.
  set (g := fr_cache (fr_stage f 1) None None).
  set (s5 := set_fheap s4 _).
  assert (s_fheap s5 = <[a := g]> (s_fheap s3)) as HF5 by (cbn; by rewrite list_insert_insert).
  assert (TI s5 /\ keeps s3 s5) as [T5 K5].
  { assert (s5 = set_fheap s3 (<[a := g]> (s_fheap s3))) as ->.
    { unfold s5, s4. cbn. by rewrite list_insert_insert. }
    apply (TI_put _ _ _ _ _ _ f); [done|done|done|done|]. split; [done|]. by intros e [=]. }
  assert (st_pos s5 = st_pos s3) as P5 by done.
  apply ok_bind. apply ok_calm; [apply inert_emit|by apply lg_emit|]. intros _ s6 S6 G6.
  pose proof (same_pos _ _ S6) as P6.
  assert (s_fheap s6 = <[a := g]> (s_fheap s3)) as HF6 by (by rewrite <- HF5; apply S6).
  assert (inside n s6) as I6.
  { intros b h Hb Hbusy. rewrite HF6 in Hb. destruct (decide (a = b)) as [<-|Hne].
    - rewrite list_lookup_insert in Hb by (by eapply lookup_lt_Some). injection Hb as <-. right. cbn. split; [lia|].
      exists n. split; [done|]. split; [done|]. split; [by rewrite Hi|by left].
    - rewrite list_lookup_insert_ne in Hb by done. rewrite P6, P5. by apply (idle_inside _ _ I3 b h). }
  apply ok_bind. eapply ok_weaken; [apply Hfp; [by eapply TI_same|done]|]. cbn beta. intros r s7 [R7 E7].
  assert (s_fheap s6 !! a = Some g) as Hg6.
  { rewrite HF6. by rewrite list_lookup_insert by (by eapply lookup_lt_Some). }
  destruct R7 as (T7 & ST7 & P7).
  destruct (st_on _ _ ST7 _ _ Hg6 ltac:(done)) as (f7 & Hf7 & Hs7). cbn in Hs7.
  destruct (st_keep _ _ ST7 _ _ Hg6) as (f7' & Hf7' & Hp7 & Hi7). assert (f7' = f7) as -> by congruence. clear Hf7'. cbn in Hp7, Hi7.
  apply ok_bind, ok_get_fr. intros f' Hf'. assert (f' = f7) as -> by congruence. clear Hf'. rewrite Hs7. cbn [Z.eqb].
  apply ok_bind. unfold set_stage. apply ok_bind, ok_get_fr. intros f' Hf'. assert (f' = f7) as -> by congruence. clear Hf'.
  unfold ok at 1, put_fr. apply ok_bind, ok_gets.
  set (s8 := set_fheap s7 _).
  assert (s_fheap s8 !! a = Some (fr_stage f7 0)) as Hf8 by (cbn; by rewrite list_lookup_insert by (by eapply lookup_lt_Some)).
  apply ok_bind. unfold cache_set. apply ok_bind, ok_get_fr. intros f' Hf'. assert (f' = fr_stage f7 0) as -> by congruence. clear Hf'.
  unfold ok at 1, put_fr.
  set (h := fr_cache (fr_stage f7 0) r (Some (st_pos s8))).
  set (s9 := set_fheap s8 _).
  assert (st_pos s9 = st_pos s7) as P9 by done.
  assert (s_fheap s9 = <[a := h]> (s_fheap s7)) as HF9 by (cbn; by rewrite list_insert_insert).
  assert (s_fheap s9 !! a = Some h) as Hh9.
  { rewrite HF9. by rewrite list_lookup_insert by (by eapply lookup_lt_Some). }
  assert (TI s9 /\ keeps s7 s9) as [T9 K9].
  { assert (s9 = set_fheap s7 (<[a := h]> (s_fheap s7))) as ->.
    { unfold s9, s8. cbn. by rewrite list_insert_insert. }
    apply (TI_put _ _ _ _ _ _ f7); [done|done|done|done|]. split; [done|]. intros e [= <-]. cbn.
    change (st_pos s8) with (st_pos s7). split; [lia|]. intros (m & Hm & Hr & Hmi & He) Hx.
    enough (st_pos s6 < st_pos s7) by lia. apply E7; [|done]. eapply eats_of; [done|done| |done]. rewrite Hmi. congruence. }
  assert (R s3 s9) as R9.
  { split; [done|]. split; [|lia]. split.
    - eapply keeps_trans; [exact K5|]. eapply keeps_trans; [|exact K9]. eapply keeps_trans; [|apply ST7]. apply keeps_eq, S6.
    - intros b k Hb Hk. assert (a <> b) as Hne by (intros <-; assert (k = f) as -> by congruence; unfold busy in Hk; lia).
      destruct (st_on _ _ ST7 b k) as (k' & Hk' & Hks); [by rewrite HF6, list_lookup_insert_ne|done|].
      exists k'. by rewrite HF9, list_lookup_insert_ne.
    - intros b k Hb Hk. assert (a <> b) as Hne.
      { intros <-. rewrite Hh9 in Hb. injection Hb as <-. by unfold busy in Hk. }
      rewrite HF9, list_lookup_insert_ne in Hb by done. destruct (st_off _ _ ST7 b k Hb Hk) as (k0 & Hk0 & ? & ? & ?).
      exists k0. rewrite HF6, list_lookup_insert_ne in Hk0 by done. done.
    - intros HN. apply (st_lg _ _ ST7). by apply G6. }
  apply ok_bind. apply ok_calm; [apply inert_log_if|apply lg_log_if|]. intros _ s10 S10 G10. apply ok_ret.
  pose proof (same_pos _ _ S10) as P10. split.
  - eapply R_trans; [exact R03|]. eapply R_trans; [exact R9|by apply R_same].
  - intros He Hx. specialize (E7 He Hx). lia.
Qed.
End Rule.

Lemma ok_parse fuel : forall n s, reach E root n -> TI s -> idle n s -> ok (parse E fuel n) s (post n s).
Proof.
  induction fuel as [|fuel IH]; intros n s Hn HT HI; [done|]. cbn [parse].
  assert (forall s, TI s -> inside n s -> ok (body E (parse E fuel) fuel n) s (post n s)) as HB.
  { intros s' HT' HI'. apply (ok_body (reach E root) (parse E fuel)); try done.
    - apply Forall_forall. intros c Hc. by eapply reach_child.
    - intros name t _ Ht. by eapply reach_rule. }
  assert (forall s, TI s -> inside n s -> ok (prepare_result E (body E (parse E fuel) fuel n) n) s (post n s)) as HP.
  { intros s' HT' HI'. apply ok_prepare; [done|]. intros s'' HS HL. apply HB; [by eapply TI_same|].
    intros a f Ha Hb. rewrite (same_pos _ _ HS). apply (HI' a f); [|done]. destruct HS as (_ & _ & <- & _). done. }
  assert (ok (wrap E (parse E fuel) fuel n) s (post n s)) as HW.
  { unfold wrap. destruct (i_isrule (n_info n)) eqn:ER.
    - unfold stack_. apply ok_bind. unfold stack_push. apply ok_bind. apply ok_get_frame; [done|]. intros a s1 R1 P1 A1.
      unfold ok at 1. destruct (Nat.leb_spec stack_limit (length (s_stack s1))) as [Hlim|Hlim]; [done|].
      set (s2 := set_stack s1 (a :: s_stack s1)).
      assert (TI s2) as T2 by (by destruct (proj1 R1)).
      assert (R s s2) as R2.
      { split; [done|]. destruct R1 as (_ & ST & PP). split; [|done]. eapply steady_trans; [exact ST|]. apply steady_eq; [done|by intros ?]. }
      apply ok_bind. eapply ok_weaken.
      + apply (ok_loopify n Hn ER); [exact HP|exact T2|by eapply idle_same].
      + cbn beta. intros r s3 [R3 E3]. apply ok_bind. unfold ok at 1. cbn. unfold ok. cbn.
        assert (R s3 (set_stack s3 (tail (s_stack s3)))) as R4.
        { split; [by destruct (proj1 R3)|]. split; [|done]. apply steady_eq; [done|by intros ?]. }
        split; [eapply R_trans; [exact R2|]; by eapply R_trans|].
        change (st_pos (set_stack s3 (tail (s_stack s3)))) with (st_pos s3). change (st_pos s2) with (st_pos s1) in E3. rewrite <- P1. auto.
    - destruct (_ || _)%bool; [apply HP|apply HB]; by try apply idle_inside. }
  destruct (n_kind n) eqn:EK; try exact HW. apply ok_ret. split; [by apply R_refl|].
  intros He. pose proof (eat_ok _ _ _ _ Heat n Hn He) as H. unfold ate in H. by rewrite EK in H.
Qed.
End Wf.

Lemma no_recursion_met E root rxe eats c fuel r s' : eating E root rxe eats -> (forall re, rx_ok (e_rx E re)) -> ids_unique E root ->
  no_left_recursion E root eats -> c_pos c <= length (c_work c) ->
  parse E fuel root (init_st c (e_nrules E)) = Ok r s' -> norec (s_log s').
Proof.
  intros H1 H2 H3 H4 Hc HP.
  assert (idle E root eats root (init_st c (e_nrules E))) as HI by (by intros a f Ha).
  pose proof (ok_parse E root (c_work c) rxe eats H1 H2 H3 H4 fuel root _ (reach_root _ _) (init_TI _ _ _ _ _ Hc) HI) as H.
  unfold ok in H. rewrite HP in H. destruct H as [(_ & HS & _) _]. apply (st_lg _ _ HS). cbn. apply norec_nil.
Qed.

(** ** Seeing that a grammar has no left recursion *)
Lemma left_reach E root eats n c : reach E root n -> c ∈ left E eats n -> reach E root c.
Proof.
  intros Hn Hc. unfold left in Hc. destruct (n_kind n) as [str|re|name|ty l|l|v j mn mx|a|a|a|] eqn:EK;
    try (by apply elem_of_nil in Hc); try (apply (reach_child _ _ n); [done|]; unfold children; by rewrite EK).
  - destruct (e_rule E name) as [t|] eqn:ER; [|by apply elem_of_nil in Hc]. apply elem_of_list_singleton in Hc as ->. by eapply reach_rule.
  - apply (reach_child _ _ n); [done|]. unfold children. rewrite EK. clear EK. induction l as [|d l IH]; [done|]. cbn [firsts] in Hc.
    apply elem_of_cons in Hc as [->|Hc]; [by left|]. right. destruct (eats d); [by apply elem_of_nil in Hc|auto].
  - apply (reach_child _ _ n); [done|]. unfold children. rewrite EK. apply elem_of_cons in Hc as [->|Hc]; [by left|]. right.
    destruct j as [x|]; [|done]. destruct (eats v); [by apply elem_of_nil in Hc|done].
Qed.
Lemma leads_down E root eats ord n m : goes_down E root eats ord -> reach E root n -> leads E eats n m ->
  if i_isrule (n_info n) then ord m < ord n else ord m <= ord n.
Proof.
  intros HD Hn HL. induction HL as [n c H|n c m H HL IH]; [by apply HD|]. specialize (IH ltac:(by eapply left_reach)).
  pose proof (HD _ _ Hn H). destruct (i_isrule (n_info n)), (i_isrule (n_info c)); lia.
Qed.
Lemma leads_reach E root eats n m : reach E root n -> leads E eats n m -> reach E root m.
Proof. intros Hn HL. induction HL as [n c H|n c m H HL IH]; [by eapply left_reach|]. apply IH. by eapply left_reach. Qed.
Lemma down_no_left E root eats ord : ids_unique E root -> goes_down E root eats ord -> no_left_recursion E root eats.
Proof.
  intros [RR HU] HD n m Hn Hr Hr' HL Hid. assert (reach E root m) as Hm by (by eapply leads_reach).
  assert (m = n) as -> by (rewrite <- (HU _ Hm Hr'), <- (HU _ Hn Hr); congruence).
  pose proof (leads_down _ _ _ _ _ _ HD Hn HL) as H. rewrite Hr in H. lia.
Qed.
From Verif Require Import Toy.
Lemma down_check E root rules eats ord : e_rule E = look_up rules ->
  forallb (fun n => forallb (fun c => if i_isrule (n_info n) then ord c <? ord n else ord c <=? ord n) (left E eats n)) (all_nodes root rules) = true -> goes_down E root eats ord.
Proof.
  intros HE H n c Hn Hc. rewrite List.forallb_forall in H.
  specialize (H n ltac:(apply elem_of_list_In; by eapply reach_all)). rewrite List.forallb_forall in H.
  specialize (H c ltac:(by apply elem_of_list_In)). destruct (i_isrule (n_info n)); [by apply Nat.ltb_lt|by apply Nat.leb_le].
Qed.
