(** In a grammar that is in order, every parser has an outcome at every
    position. *)
From Verif Require Import Base Helpers Utf8 Stream StreamSpec StreamProofs Native Engine EngSpec TermSpec Term Peg PegStd Gives WfSpec Wf.

Section Total.
Variable E : env.
Variable root : node.
Variable cbf : nat -> nat -> val -> option (option val).
Variable rxe : bytes -> bool.
Variable eats : node -> bool.
Variable ord : node -> nat.
Variable K : nat.
Variable text : bytes.
Hypothesis Hrx : forall re, rx_ok (e_rx E re).
Hypothesis Hio : in_order E root cbf rxe eats ord K.
Notation L := (length text).
Notation gives := (gives (e_rule E) (e_rx E) cbf text).
Notation does := (does (e_rule E) (e_rx E) cbf text).
Notation singles := (singles (e_rule E) (e_rx E) cbf text).
Notation arrays := (arrays (e_rule E) (e_rx E) cbf text).
Notation objects := (objects (e_rule E) (e_rx E) cbf text).
Notation alts := (alts (e_rule E) (e_rx E) cbf text).
Notation loops := (loops (e_rule E) (e_rx E) cbf text).

(** Where an outcome ends. *)
Definition within (eat : bool) (p : nat) (r : result) : Prop :=
  match r with None => True | Some (_, e) => p <= e <= L /\ (eat = true -> p < e) end.
Definition has (d : nat) (n : node) (p : nat) : Prop := exists r, gives d n p r /\ within (eats n) p r.

(** ** Bodies *)
Section Body.
Variable n : node.
Variable p d : nat.
Hypothesis Hn : reach E root n.
Hypothesis Hp : p <= L.
Definition may (c : node) (q : nat) : Prop := p < q \/ (q = p /\ c ∈ left E eats n).
Hypothesis Hcall : forall c q, reach E root c -> q <= L -> may c q -> has d c q.

Definition mays (l : list node) (q : nat) : Prop := p < q \/ (q = p /\ forall c, c ∈ firsts eats l -> c ∈ left E eats n).
Lemma mays_here c l q : mays (c :: l) q -> may c q.
Proof. intros [H|[H1 H]]; [by left|]. right. split; [done|]. apply H. cbn [firsts]. by left. Qed.
Lemma mays_next c l q q1 : mays (c :: l) q -> q <= q1 -> (eats c = true -> q < q1) -> mays l q1.
Proof.
  intros H HP He. destruct (decide (q1 = p)) as [->|]; [|left; destruct H as [|[]]; lia]. destruct H as [H|[-> H]]; [lia|].
  destruct (eats c) eqn:EC; [specialize (He eq_refl); lia|]. right. split; [done|].
  intros x Hx. apply H. cbn [firsts]. rewrite EC. by right.
Qed.
Lemma within_next eat l q q1 r : q <= q1 -> (eat = true -> q < q1) -> within (existsb eats l) q1 r -> within (eat || existsb eats l)%bool q r.
Proof.
  unfold within. destruct r as [[v e]|]; [|done]. intros H1 H2 [H3 H4]. split; [lia|]. intros H.
  apply orb_true_iff in H as [H|H]; [specialize (H2 H)|specialize (H4 H)]; lia.
Qed.

Lemma has_single l : (forall c, c ∈ l -> reach E root c) -> forall acc q, q <= L -> mays l q ->
  exists r, singles d l acc q r /\ within (existsb eats l) q r.
Proof.
  induction l as [|c l IH]; intros Hl acc q Hq Hm.
  { eexists. split; [apply singles_nil|]. split; [lia|done]. }
  destruct (Hcall c q (Hl c ltac:(by left)) Hq (mays_here _ _ _ Hm)) as ([[v q1]|] & HG & HW).
  - destruct HW as [HW1 HW2]. destruct (IH ltac:(intros x Hx; apply Hl; by right) (if i_capture (n_info c) then Some v else acc) q1) as (r & HS & HSw).
    { lia. } { eapply mays_next; [done|lia|done]. }
    exists r. split; [by eapply singles_cons|]. cbn [existsb]. eapply within_next; [|done|done]. lia.
  - exists None. split; [by apply singles_fail|done].
Qed.
Lemma has_array l : (forall c, c ∈ l -> reach E root c) -> forall acc q, q <= L -> mays l q ->
  exists r, arrays d l acc q r /\ within (existsb eats l) q r.
Proof.
  induction l as [|c l IH]; intros Hl acc q Hq Hm.
  { eexists. split; [apply arrays_nil|]. split; [lia|done]. }
  destruct (Hcall c q (Hl c ltac:(by left)) Hq (mays_here _ _ _ Hm)) as ([[v q1]|] & HG & HW).
  - destruct HW as [HW1 HW2]. destruct (IH ltac:(intros x Hx; apply Hl; by right) (if i_capture (n_info c) then acc ++ [v] else acc) q1) as (r & HS & HSw).
    { lia. } { eapply mays_next; [done|lia|done]. }
    exists r. split; [by eapply arrays_cons|]. cbn [existsb]. eapply within_next; [|done|done]. lia.
  - exists None. split; [by apply arrays_fail|done].
Qed.
Lemma has_joined lb m v : lb <> "@"%string -> lb <> "&"%string -> (forall w, m <> MTook w) ->
  exists m', joined lb m v = Some m' /\ forall w, m' <> MTook w.
Proof.
  intros H1 H2 Hm. unfold joined. destruct (String.eqb lb ""); [by exists m|].
  destruct (String.eqb_spec lb "@"); [done|]. destruct (String.eqb_spec lb "&"); [done|]. cbn [orb].
  destruct m as [|kv|w]; [by eexists|by eexists|]. by destruct (Hm w).
Qed.
Lemma has_object l : (forall c, c ∈ l -> reach E root c) -> forall m q, (forall w, m <> MTook w) -> q <= L -> mays l q ->
  exists r, objects d l m q r /\ within (existsb eats l) q r.
Proof.
  induction l as [|c l IH]; intros Hl m q Hk Hq Hm.
  { eexists. split; [apply objects_nil|]. split; [lia|done]. }
  destruct (Hcall c q (Hl c ltac:(by left)) Hq (mays_here _ _ _ Hm)) as ([[v q1]|] & HG & HW).
  - destruct HW as [HW1 HW2]. destruct (io_labels _ _ _ _ _ _ _ Hio c (Hl c ltac:(by left))) as [Hl1 Hl2].
    destruct (has_joined _ m v Hl1 Hl2 Hk) as (m' & Hj & Hk').
    destruct (IH ltac:(intros x Hx; apply Hl; by right) m' q1 Hk') as (r & HS & HSw).
    { lia. } { eapply mays_next; [done|lia|done]. }
    exists r. split; [by eapply objects_cons|]. cbn [existsb]. eapply within_next; [|done|done]. lia.
  - exists None. split; [by apply objects_fail|done].
Qed.
Lemma has_alts l : (forall c, c ∈ l -> reach E root c /\ c ∈ left E eats n) ->
  exists r, alts d l p r /\ within (forallb eats l) p r.
Proof.
  induction l as [|c l IH]; intros Hl.
  { exists None. split; [apply alts_nil|done]. }
  destruct (Hl c ltac:(by left)) as [Hc1 Hc2]. destruct (Hcall c p Hc1 Hp ltac:(by right)) as ([[v q1]|] & HG & HW).
  - exists (Some (v, q1)). split; [by apply alts_take|]. destruct HW as [HW1 HW2]. split; [done|]. cbn [forallb]. intros H.
    apply andb_true_iff in H as [H _]. auto.
  - destruct (IH ltac:(intros x Hx; apply Hl; by right)) as (r & HA & HAw). exists r. split; [by apply alts_next|].
    destruct r as [[v e]|]; [|done]. destruct HAw as [H1 H2]. split; [done|]. cbn [forallb]. intros H. apply andb_true_iff in H as [_ H]. auto.
Qed.
Lemma loops_enough v mx acc q a q' : gives d v q (Some (a, q')) -> enough mx (S (length acc)) = true -> loops d v None mx acc q (acc ++ [a]) q'.
Proof. intros [f0 H] Hm. exists (S f0). intros f [|k] Hf Hk; [lia|]. cbn [std_loop]. rewrite H by lia. by rewrite Hm. Qed.
Lemma loops_join_enough v j mx acc q b q1 a q' : gives d j q (Some (b, q1)) -> gives d v q1 (Some (a, q')) -> enough mx (S (length acc)) = true ->
  loops d v (Some j) mx acc q (acc ++ [a]) q'.
Proof.
  intros [f0 H] [f1 H1] Hm. exists (S (f0 + f1)). intros f [|k] Hf Hk; [lia|]. cbn [std_loop]. rewrite H by lia. rewrite H1 by lia. by rewrite Hm.
Qed.
Lemma has_loop v j mx : reach E root v -> (forall x, j = Some x -> reach E root x) -> v ∈ left E eats n ->
  eats v = true \/ (exists x, j = Some x /\ eats x = true) ->
  forall k q acc, L - q <= k -> p <= q <= L -> (forall x, j = Some x -> may x q) ->
  exists l e, loops d v j mx acc q l e /\ q <= e <= L.
Proof.
  intros Hv Hj Hl He. assert (forall q, p <= q -> may v q) as Hmv.
  { intros q Hq. destruct (decide (p < q)); [by left|]. right. split; [lia|done]. }
  induction k as [k IH] using lt_wf_ind. intros q acc Hk Hq Hm. destruct j as [x|].
  - destruct (Hcall x q (Hj x eq_refl) ltac:(lia) (Hm x eq_refl)) as ([[b q1]|] & HG & HW); [|exists acc, q; split; [by apply loops_join_end|lia]].
    destruct HW as [HW1 HW2].
    destruct (Hcall v q1 Hv ltac:(lia) (Hmv q1 ltac:(lia))) as ([[a q2]|] & HG2 & HV); [|exists acc, q; split; [by eapply loops_join_back|lia]].
    destruct HV as [HV1 HV2].
    destruct (enough mx (S (length acc))) eqn:EN; [exists (acc ++ [a]), q2; split; [by eapply loops_join_enough|lia]|].
    assert (q < q2) as Hlt.
    { destruct He as [He|(x' & [= <-] & He)]; [specialize (HV2 He)|specialize (HW2 He)]; lia. }
    destruct (IH (L - q2) ltac:(lia) q2 (acc ++ [a]) ltac:(lia) ltac:(lia)) as (l & e & HL & Hle).
    { intros y [= <-]. left. lia. }
    exists l, e. split; [by eapply loops_join_more|lia].
  - destruct He as [He|(x & [=] & _)].
    destruct (Hcall v q Hv ltac:(lia) (Hmv q ltac:(lia))) as ([[a q2]|] & HG2 & HV); [|exists acc, q; split; [by apply loops_end|lia]].
    destruct HV as [HV1 HV2]. specialize (HV2 He).
    destruct (enough mx (S (length acc))) eqn:EN; [exists (acc ++ [a]), q2; split; [by eapply loops_enough|lia]|].
    destruct (IH (L - q2) ltac:(lia) q2 (acc ++ [a]) ltac:(lia) ltac:(lia)) as (l & e & HL & Hle).
    { intros y [=]. }
    exists l, e. split; [by eapply loops_more|lia].
Qed.

Lemma has_body : n_kind n <> KUndef -> exists r, does d n p r /\ within (eats n) p r.
Proof.
  intros HU. pose proof (eat_ok _ _ _ _ (io_eats _ _ _ _ _ _ _ Hio) n Hn) as HA. unfold ate in HA.
  assert (forall c, c ∈ children n -> reach E root c) as Hch by (intros c Hc; by eapply reach_child).
  assert (left E eats n = left E eats n) as HLf by done. unfold left in HLf at 2. unfold children in Hch.
  destruct (n_kind n) as [str|re|name|ty l|l|v j mn mx|a|a|a|] eqn:EK; [..|done].
  - exists (lit text str p). split; [by eapply does_lit|]. unfold lit, within.
    destruct (bool_decide_reflect (take (length str) (drop p text) = str)) as [HE|]; [|done].
    assert (p + length str <= L).
    { rewrite <- HE. rewrite take_length, drop_length. lia. }
    split; [lia|]. intros He. specialize (HA He). destruct (Nat.eqb_spec (length str) 0); [done|lia].
  - exists (rgx (e_rx E) text re p). split; [by eapply does_regex|]. unfold rgx, within.
    destruct (e_rx E re (drop p text)) as [[[|k] b]|] eqn:EX; [|done..].
    pose proof (Hrx _ _ _ _ EX) as [_ HL]. rewrite drop_length in HL. split; [lia|]. intros He. specialize (HA He).
    pose proof (eat_rx _ _ _ _ (io_eats _ _ _ _ _ _ _ Hio) _ _ _ HA EX). lia.
  - destruct (e_rule E name) as [t|] eqn:ER; [|by destruct (io_refs _ _ _ _ _ _ _ Hio n name Hn EK)].
    destruct (Hcall t p) as (r & HG & HW); [by eapply reach_rule|done|right; split; [done|]; rewrite HLf; by left|].
    exists r. split; [by eapply does_ref|]. destruct r as [[v e]|]; [|done]. destruct HW as [H1 H2]. split; [done|auto].
  - assert (mays l p) as Hm by (right; by rewrite HLf).
    assert (forall r, within (existsb eats l) p r -> within (eats n) p r) as Hgo.
    { intros [[v e]|]; [|done]. intros [H1 H2]. split; [done|auto]. }
    destruct ty.
    + destruct (has_single l Hch None p Hp Hm) as (r & H1 & H2). exists r. split; [by eapply does_single|auto].
    + destruct (has_array l Hch [] p Hp Hm) as (r & H1 & H2). exists r. split; [by eapply does_array|auto].
    + destruct (has_object l Hch MNone p ltac:(done) Hp Hm) as (r & H1 & H2). exists r. split; [by eapply does_object|auto].
  - destruct (has_alts l) as (r & H1 & H2).
    { intros c Hc. split; [auto|by rewrite HLf]. }
    exists r. split; [by eapply does_choice|]. destruct r as [[v e]|]; [|done]. destruct H2 as [H2 H3]. split; [done|auto].
  - assert (reach E root v) as Hv by (apply Hch; by left).
    assert (v ∈ left E eats n) as Hvl by (rewrite HLf; by left).
    assert (forall x, j = Some x -> reach E root x) as Hj by (intros x ->; apply Hch; right; by left).
    destruct (Hcall v p Hv Hp ltac:(by right)) as ([[a q]|] & HG & HW).
    + destruct HW as [HW1 HW2].
      destruct (has_loop v j mx Hv Hj Hvl (io_reps _ _ _ _ _ _ _ Hio _ _ _ _ _ Hn EK) (L - q) q [a]) as (l & e & HL & Hle); [lia|lia| |].
      { intros x ->. destruct (decide (p < q)); [by left|]. right. split; [lia|]. rewrite HLf. destruct (eats v); [specialize (HW2 eq_refl); lia|].
        right. by left. }
      exists (if too_few mn (length l) then None else Some (VArr l, e)). split; [by eapply does_pat_some|].
      destruct (too_few mn (length l)); [done|]. split; [lia|]. intros He. specialize (HA He). apply andb_true_iff in HA as [_ HA]. specialize (HW2 HA). lia.
    + exists (if (0 <? mn)%Z then None else Some (VArr [], p)). split; [by eapply does_pat_none|]. destruct (0 <? mn)%Z eqn:EM; [done|].
      split; [lia|]. intros He. by specialize (HA He).
  - destruct (Hcall a p) as ([[v e]|] & HG & HW); [apply Hch; by left|done|right; split; [done|]; rewrite HLf; by left|..].
    + exists (Some (v, e)). split; [by eapply does_exist_some|]. destruct HW as [HW _]. split; [done|]. intros He. by specialize (HA He).
    + exists (Some (VUndef, p)). split; [by eapply does_exist_none|]. split; [lia|]. intros He. by specialize (HA He).
  - destruct (Hcall a p) as ([[v e]|] & HG & HW); [apply Hch; by left|done|right; split; [done|]; rewrite HLf; by left|..].
    + exists (Some (v, p)). split; [by eapply does_look|]. split; [lia|]. intros He. by specialize (HA He).
    + exists None. split; [by eapply does_look_fail|done].
  - destruct (Hcall a p) as ([[v e]|] & HG & HW); [apply Hch; by left|done|right; split; [done|]; rewrite HLf; by left|..].
    + exists None. split; [by eapply does_not_fail|done].
    + exists (Some (VUndef, p)). split; [by eapply does_not|]. split; [lia|]. intros He. by specialize (HA He).
Qed.
Lemma has_prepared r : within (eats n) p r -> exists r', prepared cbf (n_info n) r = Some r' /\ within (eats n) p r'.
Proof.
  intros HW. destruct r as [[v e]|]; [|by exists None]. unfold prepared. destruct (i_cb (n_info n)) as [c|] eqn:EC; [|by eexists].
  pose proof (io_cb _ _ _ _ _ _ _ Hio n c e (labelled (n_info n) v) Hn EC). destruct (cbf c e _) as [[v'|]|]; [by eexists|by exists None|done].
Qed.
End Body.

(** ** The whole *)
Lemma is_undef n : n_kind n = KUndef \/ n_kind n <> KUndef.
Proof. destruct (n_kind n); (by left) || by right. Qed.
Lemma has_undef d n p : reach E root n -> p <= L -> n_kind n = KUndef -> has d n p.
Proof.
  intros Hn Hp HK. exists (Some (VUndef, p)). split.
  - exists 1. intros [|f] Hf; [lia|]. cbn [std]. by rewrite HK.
  - split; [lia|]. intros He. pose proof (eat_ok _ _ _ _ (io_eats _ _ _ _ _ _ _ Hio) n Hn He) as H. unfold ate in H. by rewrite HK in H.
Qed.
Definition deep (p : nat) (n : node) : nat := (L - p) * S K + ord n + 1.
Lemma deep_later p q m : p < q -> q <= L -> reach E root m -> deep q m <= (L - p) * S K.
Proof.
  intros H1 H2 Hm. unfold deep. pose proof (io_most _ _ _ _ _ _ _ Hio m Hm).
  replace (L - p) with (S (L - q) + (q - p - 1)) by lia. rewrite Nat.mul_add_distr_r, (Nat.mul_succ_l (L - q)).
  generalize ((L - q) * S K), ((q - p - 1) * S K). lia.
Qed.
Lemma has_outcome : forall k p n, L - p <= k -> p <= L -> reach E root n -> forall d, deep p n <= d -> has d n p.
Proof.
  induction k as [k IH1] using lt_wf_ind. intros p n Hk Hp Hn.
  assert (forall c q d, p < q -> q <= L -> reach E root c -> (L - p) * S K <= d -> has d c q) as Hlater.
  { intros c q d H1 H2 Hc Hd. apply (IH1 (L - q) ltac:(lia) q c (le_n _) H2 Hc). pose proof (deep_later p q c H1 H2 Hc). lia. }
  clear IH1. unfold deep. revert Hlater. generalize ((L - p) * S K). intros X Hlater. remember (ord n) as o eqn:Ho. assert (ord n <= o) as Ho' by lia. clear Ho. revert n Hn Ho'.
  induction o as [o IH2] using lt_wf_ind.
  assert (forall n, reach E root n -> ord n <= o -> i_isrule (n_info n) = true -> forall d, X + ord n + 1 <= d -> has d n p) as Hrule.
  { intros n Hn Ho Hr d Hd. destruct (is_undef n) as [HU|HU]; [by apply has_undef|].
    destruct d as [|d]; [lia|].
    destruct (has_body n p d Hn Hp) as (r & HD & HW); [|done|].
    - intros c q Hc Hq [Hlt|[-> Hl]]; [apply Hlater; [done..|lia]|].
      pose proof (io_down _ _ _ _ _ _ _ Hio n c Hn Hl) as Hlt. rewrite Hr in Hlt.
      apply (IH2 (ord c) ltac:(lia) c Hc (le_n _)). lia.
    - destruct (has_prepared n p Hn r HW) as (r' & HP & HW'). exists r'. split; [eapply gives_rule; [exact HU|exact Hr|exact HD|exact HP]|done]. }
  destruct (io_levels _ _ _ _ _ _ _ Hio) as (lvl & D & Hlv).
  intros n. remember (lvl n) as h eqn:Hh. revert n Hh. induction h as [h IH3] using lt_wf_ind. intros n Hh Hn Ho d Hd.
  destruct (is_undef n) as [HU|HU]; [by apply has_undef|].
  destruct (i_isrule (n_info n)) eqn:Hr; [apply Hrule; [done|lia|done|lia]|].
  destruct (has_body n p d Hn Hp) as (r & HD & HW); [|done|].
  - intros c q Hc Hq [Hlt|[-> Hl]]; [apply Hlater; [done..|lia]|].
    pose proof (io_down _ _ _ _ _ _ _ Hio n c Hn Hl) as Hle. rewrite Hr in Hle.
    destruct (i_isrule (n_info c)) eqn:Hrc; [apply Hrule; [done|lia|done|lia]|].
    assert (lvl c < lvl n) as Hcc.
    { destruct (Hlv n Hn) as (_ & Hlc & Hlr). unfold left in Hl. unfold children in Hlc. destruct (n_kind n) as [str|re|name|ty l|l|v j mn mx|a|a|a|] eqn:EK; try (by apply elem_of_nil in Hl); try (by apply Hlc).
      - destruct (e_rule E name) as [t|] eqn:ER; [|by apply elem_of_nil in Hl]. apply elem_of_list_singleton in Hl as ->.
        destruct (Hlr _ _ eq_refl ER); [congruence|done].
      - apply Hlc. clear -Hl. induction l as [|x l IHl]; [done|]. cbn [firsts] in Hl. apply elem_of_cons in Hl as [->|Hl]; [by left|].
        right. destruct (eats x); [by apply elem_of_nil in Hl|auto].
      - apply Hlc. apply elem_of_cons in Hl as [->|Hl]; [by left|]. right. destruct j as [x|]; [|done]. destruct (eats v); [by apply elem_of_nil in Hl|done]. }
    apply (IH3 (lvl c) ltac:(lia) c eq_refl Hc ltac:(lia)). lia.
  - destruct (has_prepared n p Hn r HW) as (r' & HP & HW'). exists r'. split; [eapply gives_plain; [exact HU|exact Hr|exact HD|exact HP]|done].
Qed.
End Total.
