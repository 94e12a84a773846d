(** Left recursion in the semantics of Peg.v. *)
From Verif Require Import Base Helpers Utf8 Stream Native Engine EngSpec Peg PegProofs RunSpec.

Lemma last_cons_def {A} (l : list A) : forall a d, List.last (a :: l) d = List.last l a.
Proof.
  induction l as [|b l IH]; intros a d; [done|].
  change (List.last (a :: b :: l) d) with (List.last (b :: l) d). by rewrite !IH.
Qed.

Section Laws.
Variable E : env.
Variable cbf : nat -> nat -> val -> option (option val).
Variable R : nat -> node.
Variable par : nat -> option nat.
Variable text : bytes.
Notation peg := (peg (e_rule E) (e_rx E) cbf R par text).
Notation B id p := (body_with E cbf R par text id p).

Definition plain_rule (id : nat) : Prop :=
  is_rule (R id) /\ i_skip (n_info (R id)) = false /\ i_id (n_info (R id)) = id /\ n_kind (R id) <> KUndef /\ par id = None.

Lemma grows_grow id p l : forall s, grows (B id p) s l -> exists h, S h <= stack_limit /\
  peg None (JGrow id s.1 s.2) p false h (Some (List.last l s)).
Proof.
  induction l as [|s' l IH]; intros [v e]; cbn [grows fst snd].
  - intros (r & (t & h & r0 & Hh & HP & Hpr) & Hl). exists h. split; [done|]. cbn.
    eapply p_grow_stop; [exact HP|exact Hpr|]. destruct r as [[v' e']|]; [|by intros []]. cbn. specialize (Hl v' e' eq_refl). lia.
  - intros ((t & h & r0 & Hh & HP & Hpr) & Hlt & Hg). destruct (IH s' Hg) as (h' & Hh' & HG). destruct s' as [v' e'].
    exists (max h h'). split; [lia|]. eapply p_grow_more; [exact HP|exact Hpr|exact Hlt|].
    by rewrite last_cons_def.
Qed.

Lemma peg_grow_same id p v e h r' : peg None (JGrow id v e) p false h r' ->
  forall t h0 r0 r1, peg (Some (Ctx id p None false)) (JBody (R id)) p t h0 r0 -> t = false ->
  prepared cbf (n_info (R id)) r0 = Some r1 -> r1 = Some (v, e) -> r' = Some (v, e).
Proof.
  intros HG t h0 r0 r1 HB -> Hpr ->. 
  assert (forall sd, peg (Some (Ctx id p sd false)) (JBody (R id)) p false h0 r0) as HS.
  { intros sd. exact (peg_seed _ _ _ _ _ _ _ _ _ _ _ _ HB eq_refl _ sd eq_refl). }
  inversion HG; subst; [done|]. 
  match goal with HA : peg (Some _) _ _ _ _ ?x, HC : prepared _ _ ?x = Some (Some (?v1, ?e1)), HD : e < _ |- _ =>
    destruct (peg_det _ _ _ _ _ _ _ _ _ _ _ _ HA _ _ _ (HS _)) as (_ & _ & ->); rewrite Hpr in HC; injection HC as -> ->; lia end.
Qed.

Lemma grows_rule id p s l : plain_rule id -> B id p None (Some s) -> grows (B id p) s l ->
  meaning E cbf R par text (R id) p (Some (List.last l s)).
Proof.
  intros (H1 & H2 & H3 & H4 & H5) (t & h & r0 & Hh & HP & Hpr) Hg. destruct (grows_grow _ _ _ _ Hg) as (h' & Hh' & HG).
  destruct s as [v e]. cbn [fst snd] in HG. destruct t.
  - exists false, (S (max h h')). split; [lia|]. apply p_rule; rewrite ?H3; try done; [by intros []|].
    eapply p_rec; try done.
  - exists false, (S h). split; [lia|]. apply p_rule; rewrite ?H3; try done; [by intros []|].
    rewrite (peg_grow_same _ _ _ _ _ _ HG _ _ _ _ HP eq_refl Hpr eq_refl). eapply p_once; try done.
Qed.

Lemma fails_rule id p : plain_rule id -> B id p None None -> meaning E cbf R par text (R id) p None.
Proof.
  intros (H1 & H2 & H3 & H4 & H5) (t & h & r0 & Hh & HP & Hpr). 
  exists false, (S h). split; [lia|]. apply p_rule; rewrite ?H3; try done; [by intros []|].
  destruct t; [by eapply p_rec_fail|by eapply p_once].
Qed.

(** ** E: E op T | T *)
Section Assoc.
Variable id p : nat.
Variable A T nE nop nT : node.
Variable comb : val -> val -> val -> val.
Notation apart := (apart E cbf R par text id p).
Hypothesis Hid : plain_rule id.
Hypothesis Hk : n_kind (R id) = KChoice [A; T].
Hypothesis Hlab : i_label (n_info (R id)) = EmptyString.
Hypothesis Hcb : i_cb (n_info (R id)) = None.
Hypothesis HA : n_kind A = KSeq TArray [nE; nop; nT].
Hypothesis HAr : i_isrule (n_info A) = false \/
  is_rule A /\ i_skip (n_info A) = false /\ R (i_id (n_info A)) = A /\ par (i_id (n_info A)) = Some id.
Hypothesis HE : refers E R nE id.
Hypothesis HT : i_capture (n_info nT) = true.
Hypothesis Hcomb : forall l o r e,
  prepared cbf (n_info A) (Some (VArr (l :: (if i_capture (n_info nop) then [o; r] else [r])), e)) = Some (Some (comb l o r, e)).

Lemma prep_id r : prepared cbf (n_info (R id)) r = Some r.
Proof. destruct r as [[v e]|]; [|done]. unfold prepared, labelled. by rewrite Hcb, Hlab. Qed.

Lemma A_node sd t h r r' :
  (forall inn, peg (Some (Ctx id p sd inn)) (JBody A) p t h r) -> prepared cbf (n_info A) r = Some r' ->
  exists h', h' <= S h /\ peg (Some (Ctx id p sd false)) (JNode A) p t h' r'.
Proof.
  intros HB Hpr. assert (n_kind A <> KUndef) as HnU by (by rewrite HA). destruct HAr as [Hr|(Hr & Hs & HRA & HpA)].
  - exists h. split; [lia|]. by eapply p_plain.
  - exists (S h). split; [lia|]. eapply (p_part _ _ _ _ _ _ (Ctx id p sd false)); try done.
    intros Heq. cbn in Heq. rewrite <- Heq in HpA. destruct Hid as (_ & _ & _ & _ & Hn). congruence.
Qed.

Lemma E_node sd inn : peg (Some (Ctx id p sd inn)) (JNode nE) p true 1 sd.
Proof.
  destruct HE as (H1 & H2 & H3 & H4 & name & H5 & H6). destruct Hid as (D1 & D2 & D3 & D4 & D5).
  eapply p_plain; [by rewrite H5|done| |].
  - eapply p_ref; [done|done|]. by apply (p_seed _ _ _ _ _ _ (Ctx id p sd inn)).
  - destruct sd as [[v e]|]; [|done]. unfold prepared, labelled. by rewrite H3, H2.
Qed.

Lemma A_none h : S h <= stack_limit -> exists h', h' <= 2 /\ peg (Some (Ctx id p None false)) (JNode A) p true h' None.
Proof.
  intros _. apply (A_node None true 1 None None); [|done]. intros inn. eapply p_array; [exact HA|].
  apply p_array_fail, E_node.
Qed.
Lemma A_no_op v q : apart nop q None -> exists h', S h' <= stack_limit /\ peg (Some (Ctx id p (Some (v, q)) false)) (JNode A) p true h' None.
Proof.
  intros (h & Hh & HP). destruct (A_node (Some (v, q)) true (max 1 h) None None) as (h' & Hh' & H); [|done|exists h'; split; [lia|done]].
  intros inn. eapply p_array; [exact HA|]. change true with (true || false)%bool at 1. eapply p_array_cons; [apply E_node|].
  apply p_array_fail, HP.
Qed.
Lemma A_no_operand v q o q1 : apart nop q (Some (o, q1)) -> apart nT q1 None ->
  exists h', S h' <= stack_limit /\ peg (Some (Ctx id p (Some (v, q)) false)) (JNode A) p true h' None.
Proof.
  intros (h & Hh & HP) (h1 & Hh1 & HP1).
  destruct (A_node (Some (v, q)) true (max 1 (max h h1)) None None) as (h' & Hh' & H); [|done|exists h'; split; [lia|done]].
  intros inn. eapply p_array; [exact HA|]. change true with (true || (false || false))%bool at 1. eapply p_array_cons; [apply E_node|].
  eapply p_array_cons; [apply HP|]. apply p_array_fail, HP1.
Qed.
Lemma A_pair v q o q1 w q2 : apart nop q (Some (o, q1)) -> apart nT q1 (Some (w, q2)) ->
  exists h', S h' <= stack_limit /\ peg (Some (Ctx id p (Some (v, q)) false)) (JNode A) p true h' (Some (comb v o w, q2)).
Proof.
  intros (h & Hh & HP) (h1 & Hh1 & HP1).
  destruct (A_node (Some (v, q)) true (max 1 (max h (max h1 0)))
     (Some (VArr (v :: (if i_capture (n_info nop) then [o; w] else [w])), q2)) (Some (comb v o w, q2))) as (h' & Hh' & H);
    [|apply Hcomb|exists h'; split; [lia|done]].
  intros inn. eapply p_array; [exact HA|]. change true with (true || (false || (false || false)))%bool at 1. eapply p_array_cons; [apply E_node|].
  eapply p_array_cons; [apply HP|]. eapply p_array_cons; [apply HP1|]. rewrite HT.
  destruct HE as (_ & _ & _ & -> & _). cbn [app].
  assert (v :: (if i_capture (n_info nop) then [o; w] else [w]) = (if i_capture (n_info nop) then [v; o] else [v]) ++ [w]) as ->
    by (by destruct (i_capture (n_info nop))).
  apply p_array_nil.
Qed.

Lemma body_take sd h v e : S h <= stack_limit -> peg (Some (Ctx id p sd false)) (JNode A) p true h (Some (v, e)) -> B id p sd (Some (v, e)).
Proof.
  intros Hh H. exists true, h, (Some (v, e)). split; [lia|]. split; [|apply prep_id].
  eapply p_choice; [exact Hk|]. by apply p_alt_take.
Qed.
Lemma body_next sd h r : S h <= stack_limit -> peg (Some (Ctx id p sd false)) (JNode A) p true h None -> apart T p r -> B id p sd r.
Proof.
  intros Hh H (h1 & Hh1 & H1). destruct r as [[v e]|].
  - exists (true || false)%bool, (max h h1), (Some (v, e)). split; [lia|]. split; [|apply prep_id].
    eapply p_choice; [exact Hk|]. eapply p_alt_next; [exact H|]. apply p_alt_take, H1.
  - exists (true || (false || false))%bool, (max h (max h1 0)), None. split; [lia|]. split; [|apply prep_id].
    eapply p_choice; [exact Hk|]. eapply p_alt_next; [exact H|]. eapply p_alt_next; [apply H1|apply p_alt_nil].
Qed.

Lemma tail_grows v0 q0 : apart T p (Some (v0, q0)) -> forall q l e, tail_run (apart nop) (apart nT) q l e ->
  forall v, q0 <= q -> exists ss, grows (B id p) (v, q) ss /\ List.last ss (v, q) = (fold_left (fun a '(o, w) => comb a o w) l v, e).
Proof.
  intros HB q l e Ht. induction Ht as [q Ho|q o q1 Ho Hn|q o q1 w q2 l e Ho Hn Hlt _ IH]; intros v Hq.
  - exists []. split; [|done]. destruct (A_no_op v q Ho) as (h & Hh & HP). exists (Some (v0, q0)). split.
    + by eapply body_next.
    + by intros ?? [= <- <-].
  - exists []. split; [|done]. destruct (A_no_operand v q o q1 Ho Hn) as (h & Hh & HP). exists (Some (v0, q0)). split.
    + by eapply body_next.
    + by intros ?? [= <- <-].
  - destruct (IH (comb v o w) ltac:(lia)) as (ss & Hg & Hl). exists ((comb v o w, q2) :: ss). split.
    + destruct (A_pair v q o q1 w q2 Ho Hn) as (h & Hh & HP). split; [by eapply body_take|]. by split.
    + rewrite last_cons_def. exact Hl.
Qed.

Lemma left_assoc v0 q0 l e : apart T p (Some (v0, q0)) -> tail_run (apart nop) (apart nT) q0 l e ->
  meaning E cbf R par text (R id) p (Some (fold_left (fun a '(o, w) => comb a o w) l v0, e)).
Proof.
  intros HB Ht. destruct (tail_grows v0 q0 HB q0 l e Ht v0 (le_n _)) as (ss & Hg & Hl). rewrite <- Hl.
  apply grows_rule; [done| |done]. destruct (A_none 1) as (h & Hh & HP); [unfold stack_limit; lia|].
  eapply (body_next None h); [|done|done]. unfold stack_limit. lia.
Qed.
Lemma left_assoc_fail : apart T p None -> meaning E cbf R par text (R id) p None.
Proof.
  intros HB. apply fails_rule; [done|]. destruct (A_none 1) as (h & Hh & HP); [unfold stack_limit; lia|].
  eapply (body_next None h); [|done|done]. unfold stack_limit. lia.
Qed.
End Assoc.
End Laws.
