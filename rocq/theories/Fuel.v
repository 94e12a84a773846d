(** More fuel does not change a result. *)
From Verif Require Import Base Helpers Utf8 Stream Native Engine.

(** [m] is [m'] unless it runs out of fuel. *)
Definition fle {A} (m m' : M A) : Prop := forall s, m s = OutOfFuel \/ m s = m' s.
Lemma fle_refl {A} (m : M A) : fle m m.
Proof. intros s. by right. Qed.
Lemma fle_out {A} (m : M A) : fle out_of_fuel m.
Proof. intros s. by left. Qed.
Lemma fle_bind {A B} (m m' : M A) (k k' : A -> M B) : fle m m' -> (forall a, fle (k a) (k' a)) -> fle (bind m k) (bind m' k').
Proof.
  intros H1 H2 s. unfold bind. destruct (H1 s) as [-> | ->]; [by left|].
  destruct (m' s) as [a s'| |]; [|by right|by right]. apply H2.
Qed.

Ltac flestep H := repeat first
  [ apply fle_refl | apply H | apply fle_bind; [|intros ?]
  | match goal with
    | |- fle (match ?x with _ => _ end) _ => destruct x
    | |- fle (if ?x then _ else _) _ => destruct x
    end ].

Section Le.
Variable E : env.
Variable rec rec' : node -> M (option ast).
Hypothesis Hrec : forall n, fle (rec n) (rec' n).

Lemma fle_seq_single l : forall acc, fle (seq_single rec l acc) (seq_single rec' l acc).
Proof. induction l as [|c l IH]; intros acc; cbn [seq_single]; [apply fle_refl|]. apply fle_bind; [apply Hrec|]. intros [a|]; [apply IH|apply fle_refl]. Qed.
Lemma fle_seq_array l : forall acc, fle (seq_array rec l acc) (seq_array rec' l acc).
Proof. induction l as [|c l IH]; intros acc; cbn [seq_array]; [apply fle_refl|]. apply fle_bind; [apply Hrec|]. intros [a|]; [apply IH|apply fle_refl]. Qed.
Lemma fle_seq_object l : forall acc, fle (seq_object rec l acc) (seq_object rec' l acc).
Proof.
  induction l as [|c l IH]; intros acc; cbn [seq_object]; [apply fle_refl|]. apply fle_bind; [apply Hrec|].
  intros [a|]; [|apply fle_refl]. apply fle_bind; [apply fle_refl|]. intros acc'. apply IH.
Qed.
Lemma fle_choice l : fle (choice_loop rec l) (choice_loop rec' l).
Proof.
  induction l as [|c l IH]; cbn [choice_loop]; [apply fle_refl|]. apply fle_bind; [apply fle_refl|]. intros p.
  apply fle_bind; [apply Hrec|]. intros [a|]; [apply fle_refl|]. apply fle_bind; [apply fle_refl|]. intros _. exact IH.
Qed.
Lemma fle_pat v j mx lf : forall lf' acc, lf <= lf' -> fle (pat_loop rec lf v j mx acc) (pat_loop rec' lf' v j mx acc).
Proof.
  induction lf as [|lf IH]; intros lf' acc Hl; [apply fle_out|]. destruct lf' as [|lf']; [lia|]. cbn [pat_loop].
  apply fle_bind; [apply fle_refl|]. intros p. apply fle_bind.
  { destruct j; [|apply fle_refl]. apply fle_bind; [apply Hrec|]. intros ?. apply fle_refl. }
  intros []; [|apply fle_refl]. apply fle_bind; [apply Hrec|]. intros [a|]; [|apply fle_refl].
  destruct (_ && _)%bool; [apply fle_refl|apply IH; lia].
Qed.
Lemma fle_body lf lf' n : lf <= lf' -> fle (body E rec lf n) (body E rec' lf' n).
Proof.
  intros Hlf.
  unfold body. destruct (n_kind n) as [| |name|ty l|l|v j mn mx|a|a|a|]; try apply fle_refl.
  - destruct (e_rule E name); [|apply fle_refl]. apply fle_bind; [apply fle_refl|]. intros _. apply Hrec.
  - destruct ty; [apply fle_seq_single|apply fle_seq_array|]. destruct l; [apply fle_refl|apply fle_seq_object].
  - apply fle_choice.
  - apply fle_bind; [apply fle_refl|]. intros p. apply fle_bind; [apply Hrec|]. intros [a|]; [|apply fle_refl].
    apply fle_bind; [by apply fle_pat|]. intros ms. apply fle_refl.
  - flestep Hrec.
  - flestep Hrec.
  - flestep Hrec.
Qed.
End Le.

Section LeWrap.
Variable E : env.
Lemma fle_prepare m m' n : fle m m' -> fle (prepare_result E m n) (prepare_result E m' n).
Proof.
  intros H. unfold prepare_result. apply fle_bind; [apply fle_refl|]. intros _. apply fle_bind; [done|].
  intros r. apply fle_refl.
Qed.
Lemma fle_grow m m' show id a sp lf : fle m m' -> forall lf' x, lf <= lf' -> fle (grow E lf m show id a sp x) (grow E lf' m' show id a sp x).
Proof.
  intros H. induction lf as [|lf IH]; intros lf' x Hl; [apply fle_out|]. destruct lf' as [|lf']; [lia|]. cbn [grow].
  apply fle_bind; [apply fle_refl|]. intros f. destruct (f_mask f); [|apply fle_refl].
  do 5 (apply fle_bind; [apply fle_refl|intros ?]). apply fle_bind; [apply fle_refl|]. intros _.
  apply fle_bind; [exact H|]. intros r. apply fle_bind; [apply fle_refl|]. intros p.
  destruct (p <=? _); [apply fle_refl|]. destruct r; [apply IH; lia|apply fle_refl].
Qed.
Lemma fle_loopify m m' lf lf' n : fle m m' -> lf <= lf' -> fle (loopify E lf m n) (loopify E lf' m' n).
Proof.
  intros H Hlf. unfold loopify. apply fle_bind; [apply fle_refl|]. intros _. destruct (i_skip (n_info n)).
  { do 2 (apply fle_bind; [apply fle_refl|intros ?]). apply fle_bind; [exact H|]. intros r. apply fle_refl. }
  do 5 (apply fle_bind; [apply fle_refl|intros ?]).
  destruct (_ =? 0)%Z; [|apply fle_refl]. destruct (f_end _); [apply fle_refl|].
  do 3 (apply fle_bind; [apply fle_refl|intros ?]). apply fle_bind; [exact H|]. intros r.
  apply fle_bind; [apply fle_refl|]. intros f'. destruct (_ =? 1)%Z; [apply fle_refl|]. destruct (_ =? 2)%Z; [|apply fle_refl].
  destruct r as [x|]; [|apply fle_refl]. do 2 (apply fle_bind; [apply fle_refl|intros ?]).
  apply fle_bind; [by apply fle_grow|]. intros b. apply fle_refl.
Qed.
Lemma fle_wrap rec rec' lf lf' n : (forall n, fle (rec n) (rec' n)) -> lf <= lf' -> fle (wrap E rec lf n) (wrap E rec' lf' n).
Proof.
  intros H Hlf. unfold wrap. destruct (i_isrule (n_info n)).
  - unfold stack_. apply fle_bind; [apply fle_refl|]. intros _. apply fle_bind; [|intros r; apply fle_refl].
    apply fle_loopify; [|done]. apply fle_prepare, fle_body; done.
  - destruct (_ || _)%bool; [apply fle_prepare|]; by apply fle_body.
Qed.
Lemma fle_parse fuel : forall fuel' n, fuel <= fuel' -> fle (parse E fuel n) (parse E fuel' n).
Proof.
  induction fuel as [|fuel IH]; intros fuel' n Hf; [apply fle_out|]. destruct fuel' as [|fuel']; [lia|]. cbn [parse].
  assert (fle (wrap E (parse E fuel) fuel n) (wrap E (parse E fuel') fuel' n)) as H.
  { apply fle_wrap; [|lia]. intros m. apply IH. lia. }
  destruct (n_kind n); try exact H. apply fle_refl.
Qed.
Lemma parse_fuel fuel fuel' n s r s' : fuel <= fuel' -> parse E fuel n s = Ok r s' -> parse E fuel' n s = Ok r s'.
Proof. intros Hf H. destruct (fle_parse fuel fuel' n Hf s) as [H'|H']; congruence. Qed.
Lemma parse_fuel_any fuel fuel' n s : parse E fuel n s <> OutOfFuel -> parse E fuel' n s <> OutOfFuel ->
  parse E fuel n s = parse E fuel' n s.
Proof.
  intros H1 H2. destruct (Nat.le_ge_cases fuel fuel') as [Hf|Hf].
  - by destruct (fle_parse fuel fuel' n Hf s).
  - by destruct (fle_parse fuel' fuel n Hf s).
Qed.
End LeWrap.
