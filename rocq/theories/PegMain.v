(** The engine computes the semantics of Peg.v: the whole. *)
From stdpp Require Import sets.
From Verif Require Import Base Helpers Utf8 Utf8Proofs Stream StreamSpec StreamProofs Native NativeSpec NativeProofs
  Engine EngSpec EngInv EngMon Peg PegProofs PegRep PegInv PegBody PegCases PegRules PegGrow.

Section Main.
Variable E : env.
Variable c0 : code.
Variable root : node.
Variable cbf : nat -> nat -> val -> option (option val).
Variable R : nat -> node.
Variable par : nat -> option nat.
Notation N := (e_nrules E).
Notation L := (length (c_work c0)).
Notation G := (GI (fun _ _ => false) N c0).
Notation GR := (GR N c0 (fun _ _ => false)).
Notation peg := (peg (e_rule E) (e_rx E) cbf R par (c_work c0)).
Notation skips i := (i_skip (n_info (R i)) = true).
Notation Inv := (Inv E c0 cbf R par).
Notation reach := (reach E root).
Notation pre := (pre E c0 cbf R par).
Notation postx := (postx E c0 cbf R par).
Notation post := (postx []).
Notation ok := (ok E c0 root cbf R par).

Hypothesis Hrx : forall re, rx_ok (e_rx E re).
Hypothesis Hlines : code_lines_ok c0.
Hypothesis Hfit : ids_fit E root.
Hypothesis HR : forall n, reach n -> is_rule n -> R (i_id (n_info n)) = n.
Hypothesis Hpar : forall i F, par i = Some F -> par F = None /\ i_skip (n_info (R F)) = false.
Hypothesis Hcb : cb_pure E root cbf.
Hypothesis Hq1 : e_stack E = false.
Hypothesis Hq2 : e_loop E = false.
Hypothesis Hq3 : forall n, reach n -> i_debug (n_info n) = false.


Lemma peg_ok c j p t h r : peg c j p t h r -> ok c j p t h r.
Proof.
  intros HP. induction HP.
  - eapply ok_undef; eassumption.
  - eapply ok_plain; eassumption.
  - eapply ok_skip; eassumption.
  - eapply ok_seed; eassumption.
  - eapply ok_part; try eassumption. by eapply p_part.
  - eapply ok_rule; eassumption.
  - eapply ok_once; try eassumption. by eapply p_once.
  - eapply ok_rec_fail; try eassumption. by eapply p_rec_fail.
  - eapply ok_rec; try eassumption; [by eapply p_rec|by eapply peg_grow_some].
  - eapply ok_grow_stop; eassumption.
  - eapply ok_grow_more; eassumption.
  - eapply ok_str; eassumption.
  - eapply ok_regex; eassumption.
  - eapply ok_ref; eassumption.
  - eapply ok_single; eassumption.
  - eapply ok_array; eassumption.
  - eapply ok_object; eassumption.
  - eapply ok_single_nil; eassumption.
  - eapply ok_single_fail; eassumption.
  - eapply ok_single_cons; eassumption.
  - eapply ok_array_nil; eassumption.
  - eapply ok_array_fail; eassumption.
  - eapply ok_array_cons; eassumption.
  - eapply ok_object_nil; eassumption.
  - eapply ok_object_fail; eassumption.
  - eapply ok_object_cons; eassumption.
  - eapply ok_choice; eassumption.
  - eapply ok_alt_nil; eassumption.
  - eapply ok_alt_take; eassumption.
  - eapply ok_alt_next; eassumption.
  - eapply ok_pat_none; eassumption.
  - eapply ok_pat_some; eassumption.
  - eapply ok_loop_end; eassumption.
  - eapply ok_loop_full; eassumption.
  - eapply ok_loop_more; eassumption.
  - eapply ok_join_end; eassumption.
  - eapply ok_join_back; eassumption.
  - eapply ok_join_full; eassumption.
  - eapply ok_join_more; eassumption.
  - eapply ok_exist_none; eassumption.
  - eapply ok_exist_some; eassumption.
  - eapply ok_look_fail; eassumption.
  - eapply ok_look; eassumption.
  - eapply ok_not; eassumption.
  - eapply ok_not_fail; eassumption.
Qed.
End Main.
