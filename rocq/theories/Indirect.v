(** Left recursion through other rules in the semantics of Peg.v. *)
From Verif Require Import Base Native Engine EngSpec Peg PegProofs RunSpec PegLaws IndirectSpec.

Section Indirect.
Variable E : env.
Variable cbf : nat -> nat -> val -> option (option val).
Variable R : nat -> node.
Variable par : nat -> option nat.
Variable text : bytes.
Notation peg := (peg (e_rule E) (e_rx E) cbf R par text).
Notation B id p := (body_with E cbf R par text id p).
Variable id p : nat.
Variable arms : list arm.
Variable T : node.
Notation apart := (apart E cbf R par text id p).
Hypothesis Hid : plain_rule R par id.
Hypothesis Hk : n_kind (R id) = KChoice (map arm_alt arms ++ [T]).
Hypothesis Hlab : i_label (n_info (R id)) = EmptyString.
Hypothesis Hcb : i_cb (n_info (R id)) = None.
Hypothesis Harms : Forall (good_arm E cbf R par id) arms.

Lemma ind_prep r : prepared cbf (n_info (R id)) r = Some r.
Proof. destruct r as [[v e]|]; [|done]. unfold prepared, labelled. by rewrite Hcb, Hlab. Qed.

(** What an arm gives, as an alternative of E. *)
Lemma arm_node a sd t h r r' : good_arm E cbf R par id a ->
  (forall inn, peg (Some (Ctx id p sd inn)) (JBody (arm_rule a)) p t h r) -> prepared cbf (n_info (arm_rule a)) r = Some r' ->
  exists h', h' <= S h /\ peg (Some (Ctx id p sd false)) (JNode (arm_alt a)) p t h' r'.
Proof.
  intros (HA & _ & _ & _ & Hr) HB Hpr. assert (n_kind (arm_rule a) <> KUndef) as HnU by (by rewrite HA).
  destruct Hr as [[Hr ->]|(Hr & Hs & HRA & HpA & Halt)].
  - exists h. split; [lia|]. by eapply p_plain.
  - assert (peg (Some (Ctx id p sd false)) (JNode (arm_rule a)) p t (S h) r') as HP.
    { eapply (p_part _ _ _ _ _ _ (Ctx id p sd false)); try done.
      intros Heq. cbn in Heq. rewrite <- Heq in HpA. destruct Hid as (_ & _ & _ & _ & Hn). congruence. }
    exists (S h). split; [lia|]. destruct Halt as [-> |(H1 & H2 & H3 & name & H4 & H5)]; [done|].
    eapply p_plain; [by rewrite H4|done|by eapply p_ref|]. destruct r' as [[v e]|]; [|done]. unfold prepared, labelled. by rewrite H3, H2.
Qed.
Lemma left_node a sd inn : good_arm E cbf R par id a -> peg (Some (Ctx id p sd inn)) (JNode (arm_left a)) p true 1 sd.
Proof.
  intros (_ & (H1 & H2 & H3 & H4 & name & H5 & H6) & _). destruct Hid as (D1 & D2 & D3 & D4 & D5).
  eapply p_plain; [by rewrite H5|done| |].
  - eapply p_ref; [done|done|]. by apply (p_seed _ _ _ _ _ _ (Ctx id p sd inn)).
  - destruct sd as [[v e]|]; [|done]. unfold prepared, labelled. by rewrite H3, H2.
Qed.
Lemma arm_none a : good_arm E cbf R par id a -> exists h', h' <= 2 /\ peg (Some (Ctx id p None false)) (JNode (arm_alt a)) p true h' None.
Proof.
  intros Ha. apply (arm_node a None true 1 None None Ha); [|done]. intros inn. destruct (Ha) as (HA & _). eapply p_array; [exact HA|].
  apply p_array_fail. by apply left_node.
Qed.
Lemma arm_no_op a v q : good_arm E cbf R par id a -> apart (arm_op a) q None ->
  exists h', S h' <= stack_limit /\ peg (Some (Ctx id p (Some (v, q)) false)) (JNode (arm_alt a)) p true h' None.
Proof.
  intros Ha (h & Hh & HP). destruct (arm_node a (Some (v, q)) true (max 1 h) None None Ha) as (h' & Hh' & H); [|done|exists h'; split; [lia|done]].
  intros inn. destruct (Ha) as (HA & _). eapply p_array; [exact HA|]. change true with (true || false)%bool at 1. eapply p_array_cons; [by apply left_node|].
  apply p_array_fail, HP.
Qed.
Lemma arm_no_operand a v q o q1 : good_arm E cbf R par id a -> apart (arm_op a) q (Some (o, q1)) -> apart (arm_right a) q1 None ->
  exists h', S h' <= stack_limit /\ peg (Some (Ctx id p (Some (v, q)) false)) (JNode (arm_alt a)) p true h' None.
Proof.
  intros Ha (h & Hh & HP) (h1 & Hh1 & HP1).
  destruct (arm_node a (Some (v, q)) true (max 1 (max h h1)) None None Ha) as (h' & Hh' & H); [|done|exists h'; split; [lia|done]].
  intros inn. destruct (Ha) as (HA & _). eapply p_array; [exact HA|]. change true with (true || (false || false))%bool at 1.
  eapply p_array_cons; [by apply left_node|]. eapply p_array_cons; [apply HP|]. apply p_array_fail, HP1.
Qed.
Lemma arm_pair a v q o q1 w q2 : good_arm E cbf R par id a -> apart (arm_op a) q (Some (o, q1)) -> apart (arm_right a) q1 (Some (w, q2)) ->
  exists h', S h' <= stack_limit /\ peg (Some (Ctx id p (Some (v, q)) false)) (JNode (arm_alt a)) p true h' (Some (arm_comb a v o w, q2)).
Proof.
  intros Ha (h & Hh & HP) (h1 & Hh1 & HP1). destruct (Ha) as (HA & HE & HT & Hcomb & _).
  destruct (arm_node a (Some (v, q)) true (max 1 (max h (max h1 0)))
     (Some (VArr (v :: (if i_capture (n_info (arm_op a)) then [o; w] else [w])), q2)) (Some (arm_comb a v o w, q2)) Ha) as (h' & Hh' & H);
    [|apply Hcomb|exists h'; split; [lia|done]].
  intros inn. eapply p_array; [exact HA|]. change true with (true || (false || (false || false)))%bool at 1. eapply p_array_cons; [by apply left_node|].
  eapply p_array_cons; [apply HP|]. eapply p_array_cons; [apply HP1|]. rewrite HT.
  destruct HE as (_ & _ & _ & -> & _). cbn [app].
  assert (v :: (if i_capture (n_info (arm_op a)) then [o; w] else [w]) = (if i_capture (n_info (arm_op a)) then [v; o] else [v]) ++ [w]) as ->
    by (by destruct (i_capture (n_info (arm_op a)))).
  apply p_array_nil.
Qed.

(** The alternatives. *)
Lemma alts_none l r : Forall (good_arm E cbf R par id) l -> apart T p r ->
  exists t h, S h <= stack_limit /\ peg (Some (Ctx id p None false)) (JAlt (map arm_alt l ++ [T])) p t h r.
Proof.
  intros Hl (h1 & Hh1 & H1). induction Hl as [|a l Ha Hl (t & h & Hh & IH)]; cbn [map app].
  - destruct r as [[v e]|].
    + exists false, h1. split; [lia|]. apply p_alt_take, H1.
    + exists (false || false)%bool, (max h1 0). split; [lia|]. eapply p_alt_next; [apply H1|apply p_alt_nil].
  - destruct (arm_none a Ha) as (h' & Hh' & H). eexists _, (max h' h). split; [unfold stack_limit in *; lia|]. eapply p_alt_next; [exact H|exact IH].
Qed.
Lemma alts_step l v q x v0 q0 : Forall (good_arm E cbf R par id) l -> apart T p (Some (v0, q0)) -> arm_step apart l q x ->
  exists t h, S h <= stack_limit /\ peg (Some (Ctx id p (Some (v, q)) false)) (JAlt (map arm_alt l ++ [T])) p t h
    (match x with Some (f, q2) => Some (f v, q2) | None => Some (v0, q0) end).
Proof.
  intros Hl (h1 & Hh1 & H1) Hs. induction Hs as [q|a l q r Ho _ IH|a l q o q1 r Ho Ht _ IH|a l q o q1 w q2 Ho Ht]; cbn [map app].
  - exists false, h1. split; [lia|]. apply p_alt_take, H1.
  - apply List.Forall_cons_iff in Hl as [Ha Hl]. destruct (IH Hl) as (t & h & Hh & HP). destruct (arm_no_op a v q Ha Ho) as (h' & Hh' & H).
    eexists _, (max h' h). split; [lia|]. eapply p_alt_next; [exact H|exact HP].
  - apply List.Forall_cons_iff in Hl as [Ha Hl]. destruct (IH Hl) as (t & h & Hh & HP). destruct (arm_no_operand a v q o q1 Ha Ho Ht) as (h' & Hh' & H).
    eexists _, (max h' h). split; [lia|]. eapply p_alt_next; [exact H|exact HP].
  - apply List.Forall_cons_iff in Hl as [Ha Hl]. destruct (arm_pair a v q o q1 w q2 Ha Ho Ht) as (h' & Hh' & H).
    exists true, h'. split; [done|]. by apply p_alt_take.
Qed.
Lemma body_alts sd t h r : S h <= stack_limit -> peg (Some (Ctx id p sd false)) (JAlt (map arm_alt arms ++ [T])) p t h r -> B id p sd r.
Proof. intros Hh H. exists t, h, r. split; [done|]. split; [|apply ind_prep]. by eapply p_choice. Qed.

Lemma run_grows v0 q0 : apart T p (Some (v0, q0)) -> forall q fs e, arm_run apart arms q fs e ->
  forall v, q0 <= q -> exists ss, grows (B id p) (v, q) ss /\ List.last ss (v, q) = (fold_left (fun a f => f a) fs v, e).
Proof.
  intros HB q fs e Hr. induction Hr as [q Hs|q f q2 fs e Hs Hlt _ IH]; intros v Hq.
  - exists []. split; [|done]. destruct (alts_step arms v q _ v0 q0 Harms HB Hs) as (t & h & Hh & HP). exists (Some (v0, q0)). split.
    + by eapply body_alts.
    + by intros ?? [= <- <-].
  - destruct (IH (f v) ltac:(lia)) as (ss & Hg & Hl). exists ((f v, q2) :: ss). split.
    + destruct (alts_step arms v q _ v0 q0 Harms HB Hs) as (t & h & Hh & HP). split; [by eapply body_alts|]. by split.
    + rewrite last_cons_def. exact Hl.
Qed.
Lemma indirect v0 q0 fs e : apart T p (Some (v0, q0)) -> arm_run apart arms q0 fs e ->
  meaning E cbf R par text (R id) p (Some (fold_left (fun a f => f a) fs v0, e)).
Proof.
  intros HB Hr. destruct (run_grows v0 q0 HB q0 fs e Hr v0 (le_n _)) as (ss & Hg & Hl). rewrite <- Hl.
  apply grows_rule; [done| |done]. destruct (alts_none arms _ Harms HB) as (t & h & Hh & HP). by eapply body_alts.
Qed.
Lemma indirect_fail : apart T p None -> meaning E cbf R par text (R id) p None.
Proof. intros HB. apply fails_rule; [done|]. destruct (alts_none arms _ Harms HB) as (t & h & Hh & HP). by eapply body_alts. Qed.
End Indirect.
