(** Facts about the grammar semantics of Peg.v. *)
From Verif Require Import Base Native Engine Peg.

Section Facts.
Variable rules : string -> option node.
Variable rx : bytes -> bytes -> option (nat * nat).
Variable cbf : nat -> nat -> val -> option (option val).
Variable R : nat -> node.
Variable par : nat -> option nat.
Variable text : bytes.
Notation peg := (peg rules rx cbf R par text).

(** ** An evaluation has one outcome *)
Ltac det_step :=
  match goal with
  | IH : (forall t h r, peg ?c ?j ?p t h r -> _), H : peg ?c ?j ?p _ _ _ |- _ =>
      apply IH in H; destruct H as (? & ? & ?)
  | H : Some _ = Some _ |- _ => injection H; clear H; intros; subst
  end.
Lemma peg_det c j p t h r : peg c j p t h r -> forall t' h' r', peg c j p t' h' r' -> t = t' /\ h = h' /\ r = r'.
Proof.
  intros HP. induction HP; intros t_ h_ r_ Hother; inversion Hother; clear Hother; subst; unfold is_rule, is_skip in *; try congruence.
  all: repeat (det_step || match goal with
    | A : n_kind ?n = _, B : n_kind ?n = _ |- _ => rewrite A in B; injection B; clear B; intros
    | A : rules ?n = _, B : rules ?n = _ |- _ => rewrite A in B; injection B; clear B; intros
    | A : joined ?a ?b ?c = _, B : joined ?a ?b ?c = _ |- _ => rewrite A in B; injection B; clear B; intros
    | A : prepared _ ?n ?r = _, B : prepared _ ?n ?r = _ |- _ => rewrite A in B; injection B; clear B; intros
    end; subst; try congruence).
  all: try (split_and!; congruence).
  all: try (exfalso; match goal with H : ~ seeded _ _ _ |- _ => by apply H end).
  all: try done.
  all: try (exfalso; match goal with H : ~ longer _ _ |- _ => by apply H end).
Qed.

(** ** The seed only matters when it is consulted *)
Lemma peg_seed c j p t h r : peg c j p t h r -> t = false ->
  forall x s, c = Some x -> peg (Some (Ctx (x_id x) (x_pos x) s (x_in x))) j p t h r.
Proof.
  intros HP. induction HP; intros Ht y sd Hy; subst; try discriminate;
  repeat match goal with H : (_ || _)%bool = false |- _ => apply orb_false_iff in H as [? ?]; subst end.
  all: try (injection Hy as ->).
  all: try (econstructor; eauto; fail).
  all: try match goal with
    | IH1 : (false = false -> forall x s, _), IH2 : (false = false -> forall x s, _), IH3 : (false = false -> forall x s, _) |- _ =>
        specialize (IH1 eq_refl y sd eq_refl); specialize (IH2 eq_refl y sd eq_refl); specialize (IH3 eq_refl y sd eq_refl)
    | IH1 : (false = false -> forall x s, _), IH2 : (false = false -> forall x s, _) |- _ =>
        specialize (IH1 eq_refl y sd eq_refl); specialize (IH2 eq_refl y sd eq_refl)
    end.
  all: try (econstructor; eauto; fail).
  all: try (change false with (false || false)%bool; econstructor; eauto; fail).
  all: try (change false with (false || (false || false))%bool; econstructor; eauto; fail).
  specialize (IHHP eq_refl (Ctx (x_id y) (x_pos y) (x_seed y) true) sd eq_refl).
  eapply p_part with (r := r); [done|done|done|done|done|exact H4|exact H5|exact H6|exact IHHP|done].
Qed.

Lemma peg_grow_some id v e p t h r : peg None (JGrow id v e) p t h r -> r <> None.
Proof.
  remember None as c. remember (JGrow id v e) as j. intros HP. revert id v e Heqj Heqc.
  induction HP; intros; try discriminate. simplify_eq. eauto.
Qed.

Lemma peg_loop_arr c v j mx acc p t h r : peg c (JLoop v j mx acc) p t h r -> exists l e, r = Some (VArr l, e).
Proof.
  remember (JLoop v j mx acc) as jj. intros HP. revert acc Heqjj.
  induction HP; intros acc0 Hj; try discriminate; simplify_eq; eauto.
Qed.
End Facts.
