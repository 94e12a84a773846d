(** A callback that panics less: as long as the first does not panic both runs
    are the same. *)
From Verif Require Import Base Helpers Utf8 Stream Native Engine.

(** [m] is [m'] unless a callback panics. *)
Definition ple {A} (m m' : M A) : Prop := forall s, (exists k s', m s = Panic (PUser k) s') \/ m s = m' s.
Lemma ple_refl {A} (m : M A) : ple m m.
Proof. intros s. by right. Qed.
Lemma ple_bind {A B} (m m' : M A) (k k' : A -> M B) : ple m m' -> (forall a, ple (k a) (k' a)) -> ple (bind m k) (bind m' k').
Proof.
  intros H1 H2 s. unfold bind. destruct (H1 s) as [(k1 & s' & ->)| ->]; [left; eauto|].
  destruct (m' s) as [a s'| |]; [|by right|by right]. apply H2.
Qed.

Definition braver (cb cb' : nat -> nat -> heap -> ast -> cbres) : Prop :=
  forall c p h x, (exists t, cb c p h x = CbPanic t) \/ cb c p h x = cb' c p h x.

Section Ple.
Variables E E' : env.
Hypothesis Hrules : e_rule E = e_rule E'.
Hypothesis Hrx : e_rx E = e_rx E'.
Hypothesis Hn : e_nrules E = e_nrules E'.
Hypothesis Hst : e_stack E = e_stack E'.
Hypothesis Hlo : e_loop E = e_loop E'.
Hypothesis Hfi : e_filter E = e_filter E'.
Hypothesis Hsk : e_skiplog E = e_skiplog E'.
Hypothesis Hcb : braver (e_cb E) (e_cb E').

Section Rec.
Variable rec rec' : node -> M (option ast).
Hypothesis Hrec : forall n, ple (rec n) (rec' n).

Lemma ple_seq_single l : forall acc, ple (seq_single rec l acc) (seq_single rec' l acc).
Proof. induction l as [|c l IH]; intros acc; cbn [seq_single]; [apply ple_refl|]. apply ple_bind; [apply Hrec|]. intros [a|]; [apply IH|apply ple_refl]. Qed.
Lemma ple_seq_array l : forall acc, ple (seq_array rec l acc) (seq_array rec' l acc).
Proof. induction l as [|c l IH]; intros acc; cbn [seq_array]; [apply ple_refl|]. apply ple_bind; [apply Hrec|]. intros [a|]; [apply IH|apply ple_refl]. Qed.
Lemma ple_seq_object l : forall acc, ple (seq_object rec l acc) (seq_object rec' l acc).
Proof.
  induction l as [|c l IH]; intros acc; cbn [seq_object]; [apply ple_refl|]. apply ple_bind; [apply Hrec|].
  intros [a|]; [|apply ple_refl]. apply ple_bind; [apply ple_refl|]. intros acc'. apply IH.
Qed.
Lemma ple_choice l : ple (choice_loop rec l) (choice_loop rec' l).
Proof.
  induction l as [|c l IH]; cbn [choice_loop]; [apply ple_refl|]. apply ple_bind; [apply ple_refl|]. intros p.
  apply ple_bind; [apply Hrec|]. intros [a|]; [apply ple_refl|]. apply ple_bind; [apply ple_refl|]. intros _. exact IH.
Qed.
Lemma ple_pat v j mx lf : forall acc, ple (pat_loop rec lf v j mx acc) (pat_loop rec' lf v j mx acc).
Proof.
  induction lf as [|lf IH]; intros acc; [apply ple_refl|]. cbn [pat_loop].
  apply ple_bind; [apply ple_refl|]. intros p. apply ple_bind.
  { destruct j; [|apply ple_refl]. apply ple_bind; [apply Hrec|]. intros ?. apply ple_refl. }
  intros []; [|apply ple_refl]. apply ple_bind; [apply Hrec|]. intros [a|]; [|apply ple_refl].
  destruct (_ && _)%bool; [apply ple_refl|apply IH].
Qed.
Lemma ple_body lf n : ple (body E rec lf n) (body E' rec' lf n).
Proof.
  unfold body. rewrite Hrules, Hrx. destruct (n_kind n) as [| |name|ty l|l|v j mn mx|a|a|a|]; try apply ple_refl.
  - destruct (e_rule E' name); [|apply ple_refl]. apply ple_bind; [apply ple_refl|]. intros _. apply Hrec.
  - destruct ty; [apply ple_seq_single|apply ple_seq_array|]. destruct l; [apply ple_refl|apply ple_seq_object].
  - apply ple_choice.
  - apply ple_bind; [apply ple_refl|]. intros p. apply ple_bind; [apply Hrec|]. intros [a|]; [|apply ple_refl].
    apply ple_bind; [by apply ple_pat|]. intros ms. apply ple_refl.
  - apply ple_bind; [apply ple_refl|]. intros p. apply ple_bind; [apply Hrec|]. intros r. apply ple_refl.
  - apply ple_bind; [apply ple_refl|]. intros p. apply ple_bind; [apply Hrec|]. intros r. apply ple_refl.
  - apply ple_bind; [apply ple_refl|]. intros p. apply ple_bind; [apply Hrec|]. intros r. apply ple_refl.
Qed.
End Rec.

Lemma log_same : log_ E = log_ E'.
Proof. unfold log_. by rewrite Hsk, Hfi. Qed.
Lemma log_if_same b : log_if E b = log_if E' b.
Proof. unfold log_if. by rewrite log_same. Qed.
Lemma ple_call i x : ple (call_cb E i x) (call_cb E' i x).
Proof.
  unfold call_cb. destruct (i_cb i) as [c|]; [|apply ple_refl]. apply ple_bind; [apply ple_refl|]. intros p. apply ple_bind; [apply ple_refl|]. intros _ s.
  destruct (Hcb c p (s_heap s) x) as [[t ->]| ->]; [left; eauto|by right].
Qed.
Lemma ple_prepare m m' n : ple m m' -> ple (prepare_result E m n) (prepare_result E' m' n).
Proof.
  intros H. unfold prepare_result. apply ple_bind; [apply ple_refl|]. intros _. apply ple_bind; [done|].
  intros [x|]; [|apply ple_refl]. apply ple_bind; [apply ple_refl|]. intros x1. apply ple_bind; [apply ple_call|]. intros r. apply ple_refl.
Qed.
Lemma ple_grow m m' show id a sp lf : ple m m' -> forall x, ple (grow E lf m show id a sp x) (grow E' lf m' show id a sp x).
Proof.
  intros H. induction lf as [|lf IH]; intros x; [apply ple_refl|]. cbn [grow]. rewrite log_if_same.
  apply ple_bind; [apply ple_refl|]. intros f. destruct (f_mask f); [|apply ple_refl].
  do 5 (apply ple_bind; [apply ple_refl|intros ?]). apply ple_bind; [apply ple_refl|]. intros _.
  apply ple_bind; [exact H|]. intros r. apply ple_bind; [apply ple_refl|]. intros p.
  destruct (p <=? _); [apply ple_refl|]. destruct r; [apply IH|apply ple_refl].
Qed.
Lemma ple_loopify m m' lf n : ple m m' -> ple (loopify E lf m n) (loopify E' lf m' n).
Proof.
  intros H. unfold loopify. rewrite !log_if_same, log_same, Hst, Hlo, Hfi, Hn. apply ple_bind; [apply ple_refl|]. intros _. destruct (i_skip (n_info n)).
  { do 2 (apply ple_bind; [apply ple_refl|intros ?]). apply ple_bind; [exact H|]. intros r. apply ple_refl. }
  do 5 (apply ple_bind; [apply ple_refl|intros ?]).
  destruct (_ =? 0)%Z; [|apply ple_refl]. destruct (f_end _); [apply ple_refl|].
  do 3 (apply ple_bind; [apply ple_refl|intros ?]). apply ple_bind; [exact H|]. intros r.
  apply ple_bind; [apply ple_refl|]. intros f'. destruct (_ =? 1)%Z; [apply ple_refl|]. destruct (_ =? 2)%Z; [|apply ple_refl].
  destruct r as [x|]; [|apply ple_refl]. do 2 (apply ple_bind; [apply ple_refl|intros ?]).
  apply ple_bind; [by apply ple_grow|]. intros b. apply ple_refl.
Qed.
Lemma ple_wrap rec rec' lf n : (forall n, ple (rec n) (rec' n)) -> ple (wrap E rec lf n) (wrap E' rec' lf n).
Proof.
  intros H. unfold wrap. destruct (i_isrule (n_info n)).
  - unfold stack_. apply ple_bind; [apply ple_refl|]. intros _. apply ple_bind; [|intros r; apply ple_refl].
    apply ple_loopify, ple_prepare, ple_body; done.
  - destruct (_ || _)%bool; [apply ple_prepare|]; by apply ple_body.
Qed.
Lemma ple_parse fuel : forall n, ple (parse E fuel n) (parse E' fuel n).
Proof.
  induction fuel as [|fuel IH]; intros n; [apply ple_refl|]. cbn [parse].
  assert (ple (wrap E (parse E fuel) fuel n) (wrap E' (parse E' fuel) fuel n)) as H by (by apply ple_wrap).
  destruct (n_kind n); try exact H. apply ple_refl.
Qed.
End Ple.

(** A whole parse. *)
Lemma ple_gram fuel g o rx cb cb' c : braver cb cb' ->
  (exists k s', fst (gram_parse fuel g o rx cb c) = Panic (PUser k) s') \/ fst (gram_parse fuel g o rx cb c) = fst (gram_parse fuel g o rx cb' c).
Proof.
  intros H. unfold gram_parse.
  destruct (ple_parse (mk_env g o rx cb) (mk_env g o rx cb') eq_refl eq_refl eq_refl eq_refl eq_refl eq_refl eq_refl H fuel (g_rank g) (init_st c (g_nrules g)))
    as [(k1 & s' & ->)| ->]; [left; cbn; eauto|by right].
Qed.
