(** The textbook semantics is the semantics of Peg.v where it has an outcome. *)
From Verif Require Import Base Native Engine EngSpec EngInv Peg PegProofs PegStd.

Section Proofs.
Variable E : env.
Variable cbf : nat -> nat -> val -> option (option val).
Variable R : nat -> node.
Variable text : bytes.
Notation rules := (e_rule E).
Notation rx := (e_rx E).
Notation std := (std rules rx cbf text).
Notation std_body := (std_body rules rx text).

Definition le_ev (e1 e2 : node -> nat -> option result) : Prop := forall n p r, e1 n p = Some r -> e2 n p = Some r.

Section Mono.
Variables e1 e2 : node -> nat -> option result.
Hypothesis He : le_ev e1 e2.
Ltac ev1 := match goal with |- context [match e1 ?n ?p with _ => _ end] =>
  let H := fresh in destruct (e1 n p) as [[[? ?]|]|] eqn:H; [apply He in H; rewrite H|apply He in H; rewrite H|discriminate] end.

Lemma mono_single l : forall acc p r, std_single e1 l acc p = Some r -> std_single e2 l acc p = Some r.
Proof. induction l as [|n l IH]; intros acc p r; cbn; [done|]. ev1; auto. Qed.
Lemma mono_array l : forall acc p r, std_array e1 l acc p = Some r -> std_array e2 l acc p = Some r.
Proof. induction l as [|n l IH]; intros acc p r; cbn; [done|]. ev1; auto. Qed.
Lemma mono_object l : forall acc p r, std_object e1 l acc p = Some r -> std_object e2 l acc p = Some r.
Proof.
  induction l as [|n l IH]; intros acc p r; cbn; [done|]. ev1; auto. destruct (joined _ _ _); auto.
Qed.
Lemma mono_alt l : forall p r, std_alt e1 l p = Some r -> std_alt e2 l p = Some r.
Proof. induction l as [|n l IH]; intros p r; cbn; [done|]. ev1; auto. Qed.
Lemma mono_loop k : forall k' v j mx acc p r, k <= k' -> std_loop e1 k v j mx acc p = Some r -> std_loop e2 k' v j mx acc p = Some r.
Proof.
  induction k as [|k IH]; intros k' v j mx acc p r Hk; [done|]. destruct k' as [|k']; [lia|]. cbn [std_loop].
  destruct j as [jn|].
  - ev1; auto. ev1; auto. destruct (enough _ _); auto. apply IH. lia.
  - ev1; auto. destruct (enough _ _); auto. apply IH. lia.
Qed.
Lemma mono_body k k' n p r : k <= k' -> std_body e1 k n p = Some r -> std_body e2 k' n p = Some r.
Proof.
  intros Hk. unfold PegStd.std_body. destruct (n_kind n) as [s|re|name|t l|l|v j mn mx|a|a|a|].
  all: try done.
  - destruct (rules name); [apply He|done].
  - destruct t; [apply mono_single|apply mono_array|apply mono_object].
  - apply mono_alt.
  - ev1; auto. destruct (std_loop e1 k v j mx _ _) as [[l e]|] eqn:EL; [|done]. by rewrite (mono_loop _ k' _ _ _ _ _ _ Hk EL).
  - ev1; auto.
  - ev1; auto.
  - ev1; auto.
Qed.
End Mono.

Lemma std_mono f : forall f' d d' n p r, f <= f' -> d <= d' -> std f d n p = Some r -> std f' d' n p = Some r.
Proof.
  induction f as [|f IH]; intros f' d d' n p r Hf Hd; [done|]. destruct f' as [|f']; [lia|]. cbn [PegStd.std].
  destruct (n_kind n) eqn:EK; try done;
  (destruct (i_isrule (n_info n));
    [destruct d as [|d]; [done|]; destruct d' as [|d']; [lia|];
     destruct (std_body (std f d) f n p) as [r0|] eqn:EB; [|done];
     rewrite (mono_body (std f d) (std f' d') ltac:(intros ? ? ? Hx; eapply IH; [| |exact Hx]; lia) f f' _ _ _ ltac:(lia) EB); done
    |destruct (std_body (std f d) f n p) as [r0|] eqn:EB; [|done];
     rewrite (mono_body (std f d) (std f' d') ltac:(intros ? ? ? Hx; eapply IH; [| |exact Hx]; lia) f f' _ _ _ ltac:(lia) EB); done]).
Qed.

Lemma std_least f d n p r : std f d n p = Some r ->
  exists f0, f0 < f /\ std (S f0) d n p = Some r /\ forall f', f' <= f0 -> std f' d n p = None.
Proof.
  induction f as [|f IH]; [done|]. intros H. destruct (std f d n p) as [r'|] eqn:EF.
  - assert (r' = r) as ->. { apply (std_mono _ (S f) d d) in EF; [|lia|lia]. congruence. }
    destruct (IH eq_refl) as (f0 & H1 & H2 & H3). exists f0. split; [lia|done].
  - exists f. split; [lia|]. split; [done|]. intros f' Hf'. destruct (std f' d n p) as [r'|] eqn:EF'; [|done].
    apply (std_mono _ f d d) in EF'; [|done|done]. congruence.
Qed.

(** ** From the evaluator to the relation *)
Variable par : nat -> option nat.
Notation peg := (peg rules rx cbf R par text).
Section Body.
Variable c : option ctx.
Variable d k : nat.
Variable ev : node -> nat -> option result.
Variable ok : node -> Prop.
Hypothesis Hrules : forall name m, rules name = Some m -> ok m.
Hypothesis Hev : forall n p r, ok n -> ev n p = Some r -> exists h, h <= d /\ peg c (JNode n) p false h r.

Ltac child Hn := match goal with |- context [match ev ?n ?p with _ => _ end] =>
  let H := fresh "EV" in destruct (ev n p) as [[[? ?]|]|] eqn:H;
  [apply (Hev _ _ _ Hn) in H as (?h & ? & ?)|apply (Hev _ _ _ Hn) in H as (?h & ? & ?)|discriminate] end.

Lemma std_single_peg l : Forall ok l -> forall acc p r, std_single ev l acc p = Some r -> exists h, h <= d /\ peg c (JSingle l acc) p false h r.
Proof.
  induction 1 as [|n l Hn Hl IH]; intros acc p r; cbn.
  - intros [= <-]. exists 0. split; [lia|constructor].
  - child Hn.
    + intros Hr. apply IH in Hr as (h' & ? & ?). exists (max h h'). split; [lia|].
      eapply (p_single_cons _ _ _ _ _ _ c n l acc p false false); eassumption.
    + intros [= <-]. exists h. split; [done|]. by apply p_single_fail.
Qed.
Lemma std_array_peg l : Forall ok l -> forall acc p r, std_array ev l acc p = Some r -> exists h, h <= d /\ peg c (JArray l acc) p false h r.
Proof.
  induction 1 as [|n l Hn Hl IH]; intros acc p r; cbn.
  - intros [= <-]. exists 0. split; [lia|constructor].
  - child Hn.
    + intros Hr. apply IH in Hr as (h' & ? & ?). exists (max h h'). split; [lia|].
      eapply (p_array_cons _ _ _ _ _ _ c n l acc p false false); eassumption.
    + intros [= <-]. exists h. split; [done|]. by apply p_array_fail.
Qed.
Lemma std_object_peg l : Forall ok l -> forall acc p r, std_object ev l acc p = Some r -> exists h, h <= d /\ peg c (JObject l acc) p false h r.
Proof.
  induction 1 as [|n l Hn Hl IH]; intros acc p r; cbn.
  - intros [= <-]. exists 0. split; [lia|constructor].
  - child Hn.
    + destruct (joined _ _ _) as [m'|] eqn:EJ; [|done]. intros Hr. apply IH in Hr as (h' & ? & ?). exists (max h h'). split; [lia|].
      eapply (p_object_cons _ _ _ _ _ _ c n l acc m' p false false); eassumption.
    + intros [= <-]. exists h. split; [done|]. by apply p_object_fail.
Qed.
Lemma std_alt_peg l : Forall ok l -> forall p r, std_alt ev l p = Some r -> exists h, h <= d /\ peg c (JAlt l) p false h r.
Proof.
  induction 1 as [|n l Hn Hl IH]; intros p r; cbn.
  - intros [= <-]. exists 0. split; [lia|constructor].
  - child Hn.
    + intros [= <-]. exists h. split; [done|]. by apply p_alt_take.
    + intros Hr. apply IH in Hr as (h' & ? & ?). exists (max h h'). split; [lia|].
      eapply (p_alt_next _ _ _ _ _ _ c n l p false false); eassumption.
Qed.
Lemma std_loop_peg v j mx : ok v -> Forall ok (opt_list j) -> forall k0 acc p l e, std_loop ev k0 v j mx acc p = Some (l, e) ->
  exists h, h <= d /\ peg c (JLoop v j mx acc) p false h (Some (VArr l, e)).
Proof.
  intros Hv Hj k0. induction k0 as [|k' IH]; intros acc p l e; [done|]. cbn [std_loop]. destruct j as [jn|].
  - assert (ok jn) as Hjn by (by apply Forall_cons in Hj as [? _]). child Hjn.
    + child Hv.
      * destruct (enough _ _) eqn:EN.
        -- intros [= <- <-]. exists (max h h0). split; [lia|].
           eapply (p_join_full _ _ _ _ _ _ c v jn mx acc p false false); eassumption.
        -- intros Hr. apply IH in Hr as (h' & ? & ?). exists (max h (max h0 h')). split; [lia|].
           eapply (p_join_more _ _ _ _ _ _ c v jn mx acc p false false false); eassumption.
      * intros [= <- <-]. exists (max h h0). split; [lia|]. eapply (p_join_back _ _ _ _ _ _ c v jn mx acc p false false); eassumption.
    + intros [= <- <-]. exists h. split; [lia|]. by eapply p_join_end.
  - child Hv.
    + destruct (enough _ _) eqn:EN.
      * intros [= <- <-]. exists h. split; [lia|]. by eapply p_loop_full.
      * intros Hr. apply IH in Hr as (h' & ? & ?). exists (max h h'). split; [lia|].
        eapply (p_loop_more _ _ _ _ _ _ c v mx acc p false false); eassumption.
    + intros [= <- <-]. exists h. split; [lia|]. by eapply p_loop_end.
Qed.
Lemma std_body_peg n p r : n_kind n <> KUndef -> Forall ok (children n) -> std_body ev k n p = Some r ->
  exists h, h <= d /\ peg c (JBody n) p false h r.
Proof.
  intros Hk Hc. unfold PegStd.std_body. unfold children in Hc. destruct (n_kind n) as [s|re|name|t l|l|v j mn mx|a|a|a|] eqn:EK; try done.
  - intros [= <-]. exists 0. split; [lia|]. by apply p_str.
  - intros [= <-]. exists 0. split; [lia|]. by apply p_regex.
  - destruct (rules name) as [m|] eqn:ER; [|done]. intros Hr. apply Hev in Hr as (h & ? & ?); [|by eapply Hrules].
    exists h. split; [done|]. by eapply p_ref.
  - destruct t; intros Hr.
    + apply std_single_peg in Hr as (h & ? & ?); [|done]. exists h. split; [done|]. by eapply p_single.
    + apply std_array_peg in Hr as (h & ? & ?); [|done]. exists h. split; [done|]. by eapply p_array.
    + apply std_object_peg in Hr as (h & ? & ?); [|done]. exists h. split; [done|]. by eapply p_object.
  - intros Hr. apply std_alt_peg in Hr as (h & ? & ?); [|done]. exists h. split; [done|]. by eapply p_choice.
  - apply Forall_cons in Hc as [Hv Hj]. child Hv.
    + destruct (std_loop ev k v j mx _ _) as [[l e]|] eqn:EL; [|done]. intros [= <-].
      apply std_loop_peg in EL as (h' & ? & ?); [|done|done]. exists (max h h'). split; [lia|].
      eapply (p_pat_some _ _ _ _ _ _ c n v j mn mx p false false); eassumption.
    + intros [= <-]. exists h. split; [done|]. by eapply p_pat_none.
  - apply Forall_cons in Hc as [Ha _]. child Ha; intros [= <-]; exists h; (split; [done|]); [by eapply p_exist_some|by eapply p_exist_none].
  - apply Forall_cons in Hc as [Ha _]. child Ha; intros [= <-]; exists h; (split; [done|]); [by eapply p_look|by eapply p_look_fail].
  - apply Forall_cons in Hc as [Ha _]. child Ha; intros [= <-]; exists h; (split; [done|]); [by eapply p_not_fail|by eapply p_not].
Qed.
End Body.

Variable root : node.
Notation reach := (reach E root).
Hypothesis HR : forall n, reach n -> is_rule n -> R (i_id (n_info n)) = n.
(** Alternatives evaluated as parts of their rank have no textbook meaning. *)
Hypothesis Hpar : forall i, par i <> None -> forall f d p, std f d (R i) p = None.

Definition clear (c : option ctx) (f d : nat) : Prop := forall x, c = Some x ->
  forall f' d', f' <= f -> d' <= d -> std f' d' (R (x_id x)) (x_pos x) = None.
Lemma clear_le c f d f' d' : clear c f d -> f' <= f -> d' <= d -> clear c f' d'.
Proof. intros H Hf Hd x Hx f'' d'' Hf' Hd'. apply (H x Hx); lia. Qed.

Lemma std_peg_gen f : forall d n p r c, reach n -> std f d n p = Some r -> clear c f d ->
  exists h, h <= d /\ peg c (JNode n) p false h r.
Proof.
  induction (lt_wf f) as [f _ IH]. intros d n p r c Hn Hs Hc.
  assert (Forall reach (children n)) as Hch.
  { rewrite Forall_forall. intros m Hm. by eapply reach_child. }
  assert (forall name m, rules name = Some m -> reach m) as Hru by (intros name m Hm; by eapply reach_rule).
  assert (n_kind n = KUndef \/ n_kind n <> KUndef) as [Hk|Hk] by (destruct (n_kind n); by (left + right)).
  { exists 0. split; [lia|]. destruct f as [|f]; [done|]. cbn [PegStd.std] in Hs. rewrite Hk in Hs. injection Hs as <-. by apply p_undef. }
  assert (forall g e, std (S g) e n p = match (if i_isrule (n_info n) then match e with O => None | S d => std_body (std g d) g n p end
                 else std_body (std g e) g n p) with | None => None | Some r => prepared cbf (n_info n) r end) as Hunf.
  { intros g e. cbn [PegStd.std]. by destruct (n_kind n). }
  destruct (i_isrule (n_info n)) eqn:Hir.
  - destruct (i_skip (n_info n)) eqn:Hsk.
    + destruct f as [|f]; [done|]. rewrite Hunf in Hs. destruct d as [|d]; [done|].
      destruct (std_body (std f d) f n p) as [r0|] eqn:EB; [|done].
      destruct (std_body_peg c d f (std f d) reach Hru) with (n := n) (p := p) (r := r0) as (h & Hh & Hp); [|done|done|done|].
      { intros m q rr Hm Hr. eapply (IH f); [lia|done|exact Hr|]. eapply clear_le; [exact Hc|lia|lia]. }
      exists (S h). split; [lia|]. by eapply p_skip.
    + destruct (std_least _ _ _ _ _ Hs) as (g & Hg & Hs' & Hmin). rewrite Hunf in Hs'. destruct d as [|d]; [done|].
      destruct (std_body (std g d) g n p) as [r0|] eqn:EB; [|done].
      set (id := i_id (n_info n)) in *. pose proof (HR n Hn Hir) as HRn. fold id in HRn.
      destruct (std_body_peg (Some (Ctx id p None false)) d g (std g d) reach Hru) with (n := n) (p := p) (r := r0) as (h & Hh & Hp); [|done|done|done|].
      { intros m q rr Hm Hr. eapply (IH g); [lia|done|exact Hr|]. intros x [= <-] f' d' Hf' Hd'. cbn. rewrite HRn.
        destruct (std f' d' n p) as [r1|] eqn:E1; [|done]. apply (std_mono _ f' d' (S d)) in E1; [|lia|lia].
        rewrite Hmin in E1 by lia. done. }
      exists (S h). split; [lia|]. apply p_rule; try done.
      * destruct c as [x|]; [|tauto]. cbn. intros [H1 H2].
        specialize (Hc x eq_refl f (S d) ltac:(lia) ltac:(lia)). fold id in H1. rewrite H1, H2, HRn in Hc. congruence.
      * fold id. destruct (par id) as [F|] eqn:EF; [|done]. exfalso. specialize (Hpar id ltac:(by rewrite EF) f (S d) p). rewrite HRn in Hpar. congruence.
      * fold id. rewrite <- HRn in Hir, Hsk, Hk, Hs'. eapply p_once; [exact Hir|exact Hsk|by rewrite HRn|exact Hk| |exact Hs'].
        by rewrite HRn.
  - destruct f as [|f]; [done|]. rewrite Hunf in Hs.
    destruct (std_body (std f d) f n p) as [r0|] eqn:EB; [|done].
    destruct (std_body_peg c d f (std f d) reach Hru) with (n := n) (p := p) (r := r0) as (h & Hh & Hp); [|done|done|done|].
    { intros m q rr Hm Hr. eapply (IH f); [lia|done|exact Hr|]. eapply clear_le; [exact Hc|lia|lia]. }
    exists h. split; [done|]. by eapply p_plain.
Qed.

Lemma std_peg f d n p r : reach n -> std f d n p = Some r -> exists h, h <= d /\ peg None (JNode n) p false h r.
Proof. intros Hn Hs. by eapply std_peg_gen. Qed.
End Proofs.
