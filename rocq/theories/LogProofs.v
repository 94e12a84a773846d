From Verif Require Import Base Helpers Utf8 Stream Native Engine EngSpec EngInv Pre LogSpec.

Lemma new_log_app s s' l : s_log s' = l ++ s_log s -> new_log s s' = l.
Proof. unfold new_log. intros ->. rewrite app_length. replace (_ + _ - _) with (length l) by lia. apply take_app. Qed.

(** ** The log only grows *)
Definition Rlog (s s' : st) : Prop := exists l, s_log s' = l ++ s_log s.
Lemma Rlog_refl s : Rlog s s.
Proof. by exists []. Qed.
Lemma Rlog_trans s1 s2 s3 : Rlog s1 s2 -> Rlog s2 s3 -> Rlog s1 s3.
Proof. intros [l1 H1] [l2 H2]. exists (l2 ++ l1). by rewrite H2, H1, app_assoc. Qed.
Lemma Rlog_same s s' : s_log s' = s_log s -> Rlog s s'.
Proof. by exists []. Qed.

(** ** Callbacks *)
Section Cb.
Variable E : env.
Definition Rcb (s s' : st) : Prop := exists l, s_log s' = l ++ s_log s /\ calls_return E l.
Definition Xcb (p : panic) (s s' : st) : Prop :=
  match p with
  | PUser t => exists c q l h x, s_log s' = EvCb c q :: l ++ s_log s /\ calls_return E l /\ e_cb E c q h x = CbPanic t
  | _ => Rcb s s'
  end.
Lemma Rcb_refl s : Rcb s s.
Proof. exists []. split; [done|]. intros c p H. by apply elem_of_nil in H. Qed.
Lemma calls_app l1 l2 : calls_return E l1 -> calls_return E l2 -> calls_return E (l2 ++ l1).
Proof. intros H1 H2 c p H. apply elem_of_app in H as [H|H]; eauto. Qed.
Lemma Rcb_trans s1 s2 s3 : Rcb s1 s2 -> Rcb s2 s3 -> Rcb s1 s3.
Proof. intros (l1 & H1 & C1) (l2 & H2 & C2). exists (l2 ++ l1). split; [by rewrite H2, H1, app_assoc|by apply calls_app]. Qed.
Lemma Xcb_R p s1 s2 s3 : Rcb s1 s2 -> Xcb p s2 s3 -> Xcb p s1 s3.
Proof.
  intros H1 H2. destruct p; cbn in *; try (by eapply Rcb_trans). destruct H1 as (l1 & H1 & C1). destruct H2 as (c & q & l & h & x & H2 & C2 & HP).
  exists c, q, (l ++ l1), h, x. split; [by rewrite H2, H1, app_assoc|]. split; [by apply calls_app|done].
Qed.
Lemma Rcb_free s s' : s_log s' = s_log s -> Rcb s s'.
Proof. intros H. exists []. split; [done|]. intros c p H'. by apply elem_of_nil in H'. Qed.
Lemma pre_call_cb i x : pre Rcb Xcb (call_cb E i x).
Proof.
  unfold call_cb. destruct (i_cb i) as [c|]; [|intros s; apply Rcb_refl]. intros s. unfold bind, get_pos, gets, emit.
  destruct (e_cb E c (st_pos s) _ x) as [h r|t] eqn:EC.
  - exists [EvCb c (st_pos s)]. split; [done|]. intros c' p' H. apply elem_of_list_singleton in H. injection H as -> ->. eauto.
  - exists c, (st_pos s), [], (s_heap s), x. split; [done|]. split; [|done]. intros c' p' H. by apply elem_of_nil in H.
Qed.
Lemma parse_calls fuel n s :
  match parse E fuel n s with Ok _ s' => Rcb s s' | Panic p s' => Xcb p s s' | OutOfFuel => True end.
Proof.
  assert (forall p s0 s', (forall t, p <> PUser t) -> Rcb s0 s' -> Xcb p s0 s') as Hpl.
  { intros p s0 s' Hp HR. destruct p; try exact HR. by destruct (Hp tag). }
  apply (pre_parse Rcb Xcb Rcb_refl Rcb_trans Xcb_R Hpl); [apply (fun s s' _ _ _ H => Rcb_free s s' H)|apply (fun s s' H _ => Rcb_free s s' H)| |apply pre_call_cb|].
  2: { intros m n0. apply (pre_stack_free Rcb Xcb Rcb_refl Rcb_trans Xcb_R Hpl). apply Rcb_free. }
  - intros s0 e He. exists [e]. split; [done|]. intros c p H. apply elem_of_list_singleton in H. by destruct (He c p).
Qed.
End Cb.

Lemma parse_panics E fuel n s t s' : parse E fuel n s = Panic (PUser t) s' ->
  exists c q l h x, s_log s' = EvCb c q :: l ++ s_log s /\ calls_return E l /\ e_cb E c q h x = CbPanic t.
Proof. intros H. pose proof (parse_calls E fuel n s) as HP. by rewrite H in HP. Qed.
Lemma parse_returns E fuel n s r s' : parse E fuel n s = Ok r s' ->
  exists l, s_log s' = l ++ s_log s /\ calls_return E l.
Proof. intros H. pose proof (parse_calls E fuel n s) as HP. by rewrite H in HP. Qed.
