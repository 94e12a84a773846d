(** A check of [renums], for examples. *)
From Verif Require Import Base Helpers Native Engine SimSpec RenumSpec.
Local Open Scope list_scope.

Definition info_renum_b (pi : nat -> nat) (n : nat) (i i' : info) : bool :=
  String.eqb (i_label i') (i_label i) && Bool.eqb (i_wraps i') (i_wraps i) && Bool.eqb (i_isrule i') (i_isrule i) && bool_decide (i_cb i' = i_cb i) &&
  (negb (i_isrule i) || (i_id i <? n)) && (negb (i_isrule i) || (i_id i' =? pi (i_id i))) && Bool.eqb (i_skip i') (i_skip i) && Bool.eqb (i_debug i') (i_debug i).
Fixpoint all2b {A B} (f : A -> B -> bool) (l : list A) (l' : list B) : bool :=
  match l, l' with [], [] => true | x :: l, y :: l' => f x y && all2b f l l' | _, _ => false end.
Definition same_seq (t t' : seqtype) : bool := match t, t' with TSingle, TSingle | TArray, TArray | TObject, TObject => true | _, _ => false end.
Fixpoint renum_b (pi : nat -> nat) (nr : nat) (ps : list (string * string)) (d : nat) (n n' : node) : bool :=
  match d with
  | O => false
  | S d =>
      info_renum_b pi nr (n_info n) (n_info n') &&
      match n_kind n, n_kind n' with
      | KStr s, KStr s' | KRegex s, KRegex s' => bool_decide (s = s')
      | KRef nm, KRef nm' => bool_decide ((nm, nm') ∈ ps)
      | KSeq t l, KSeq t' l' => same_seq t t' && all2b (fun a a' => renum_b pi nr ps d a a' && Bool.eqb (i_capture (n_info a')) (i_capture (n_info a))) l l'
      | KChoice l, KChoice l' => all2b (renum_b pi nr ps d) l l'
      | KPat v j mn mx, KPat v' j' mn' mx' => renum_b pi nr ps d v v' && Z.eqb mn mn' && Z.eqb mx mx' &&
          match j, j' with Some x, Some y => renum_b pi nr ps d x y | None, None => true | _, _ => false end
      | KExist a, KExist a' | KLook a, KLook a' | KNot a, KNot a' => renum_b pi nr ps d a a'
      | KUndef, KUndef => true
      | _, _ => false
      end
  end%bool.
Definition renums_b (pi : nat -> nat) (ps : list (string * string)) (d : nat) (g g' : gram) : bool :=
  (bool_decide (NoDup (map pi (seq 0 (g_nrules g)))) && forallb (fun i => pi i <? g_nrules g') (seq 0 (g_nrules g)) &&
  Bool.eqb (g_tstack g') (g_tstack g) && Bool.eqb (g_tloop g') (g_tloop g) && Z.eqb (g_tfilter g') (g_tfilter g) &&
  renum_b pi (g_nrules g) ps d (g_rank g) (g_rank g') &&
  forallb (fun p => match g_rule g (fst p), g_rule g' (snd p) with Some n, Some n' => renum_b pi (g_nrules g) ps d n n' | None, None => true | _, _ => false end) ps)%bool.
Lemma info_renum_ok pi nr i i' : info_renum_b pi nr i i' = true -> info_renum pi nr i i'.
Proof.
  unfold info_renum_b, info_renum. intros H. repeat (apply andb_true_iff in H as [H ?]).
  repeat match goal with H : Bool.eqb _ _ = true |- _ => apply eqb_prop in H
    | H : bool_decide _ = true |- _ => apply bool_decide_eq_true in H | H : String.eqb _ _ = true |- _ => apply String.eqb_eq in H end.
  split; [done|]. split; [done|]. split; [done|]. split; [done|]. intros Hr. rewrite Hr in *. cbn [negb orb] in *.
  repeat match goal with H : (_ <? _) = true |- _ => apply Nat.ltb_lt in H | H : (_ =? _) = true |- _ => apply Nat.eqb_eq in H end. done.
Qed.
Lemma all2b_ok {A B} (f : A -> B -> bool) (P : A -> B -> Prop) : (forall x y, f x y = true -> P x y) -> forall l l', all2b f l l' = true -> Forall2 P l l'.
Proof.
  intros H. induction l as [|x l IH]; intros [|y l']; cbn [all2b]; try done. intros [H1 H2]%andb_true_iff. constructor; auto.
Qed.
Lemma same_seq_ok t t' : same_seq t t' = true -> t = t'.
Proof. by destruct t, t'. Qed.
Lemma renum_ok pi nr ps d : forall n n', renum_b pi nr ps d n n' = true -> renum (fun a b => (a, b) ∈ ps) pi nr n n'.
Proof.
  induction d as [|d IH]; intros [i k] [i' k']; cbn [renum_b]; [done|]. intros [HI%info_renum_ok H]%andb_true_iff. cbn [n_info n_kind] in HI, H.
  destruct k, k'; try done.
  - apply bool_decide_eq_true in H as <-. by constructor.
  - apply bool_decide_eq_true in H as <-. by constructor.
  - apply bool_decide_eq_true in H. by constructor.
  - apply andb_true_iff in H as [<-%same_seq_ok H]. constructor; [done|]. eapply all2b_ok; [|exact H]. intros x y [Hx Hy%eqb_prop]%andb_true_iff. auto.
  - constructor; [done|]. by apply (all2b_ok (renum_b pi nr ps d)).
  - apply andb_true_iff in H as [H HJ]. apply andb_true_iff in H as [H <-%Z.eqb_eq]. apply andb_true_iff in H as [H <-%Z.eqb_eq].
    constructor; [done|auto|]. match goal with |- option_Forall2 _ ?a ?b => destruct a, b end; try done; [|constructor]. constructor. auto.
  - constructor; auto.
  - constructor; auto.
  - constructor; auto.
  - by constructor.
Qed.
Lemma renums_ok pi ps d g g' : renums_b pi ps d g g' = true -> renums (fun a b => (a, b) ∈ ps) pi g g'.
Proof.
  unfold renums_b. rewrite !andb_true_iff. intros ((((((H1 & H2) & H3) & H4) & H5) & H6) & H7).
  apply bool_decide_eq_true in H1. rewrite forallb_forall in H2, H7. constructor.
  - assert (HL : forall n k i, i < n -> map pi (seq k n) !! i = Some (pi (k + i))).
    { induction n as [|n IH]; intros k [|i] Hi; cbn; [lia|lia|by rewrite Nat.add_0_r|]. change (map pi (seq (S k) n) !! i = Some (pi (k + S i))). rewrite IH by lia. f_equal. f_equal. lia. }
    intros i j Hi Hj E. apply (NoDup_lookup _ i j (pi i) H1); rewrite HL by done; [done|by rewrite E].
  - intros i Hi. apply Nat.ltb_lt, H2. apply in_seq. lia.
  - by apply eqb_prop.
  - by apply eqb_prop.
  - by apply Z.eqb_eq.
  - by eapply renum_ok.
  - intros nm nm' HR. specialize (H7 (nm, nm') ltac:(by apply elem_of_list_In)). cbn in H7. unfold both_have. destruct (g_rule g nm), (g_rule g' nm'); try done. by eapply renum_ok.
Qed.
