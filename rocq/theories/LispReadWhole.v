(** What ParseString makes of a text of the lisp. *)
From Verif Require Import Base Helpers Utf8 Stream StreamSpec Native NativeSpec NativeProofs Engine EngSpec PegRep Peg RunSpec Build JoesonRun CalcSpec CalcPeg Brave
  LispRead LispReadRun LispReadSpec LispReadPeg LispReadText LispReadMain LispReadTop Gives.

Lemma lisp_with_braver t : braver lisp_cb (lisp_cb_with t).
Proof.
  intros f p h x. destruct t as [k|]; [|by right]. unfold lisp_cb_with. destruct (lisp_cb f p h x) as [?|?] eqn:E; [by right|]. left. eauto.
Qed.
(** Numbers of an expression stand in its text. *)
Lemma says_fit : (forall e s, says e s -> forall a b, numbers_fit (a ++ s ++ b) -> all_fit e = true) /\
  (forall l s, says_all l s -> forall a b, numbers_fit (a ++ s ++ b) -> forallb all_fit l = true).
Proof.
  apply says_both; cbn [all_fit forallb]; try done.
  - intros z s Hz a b Hf. by eapply Hf.
  - intros l w s w' _ _ _ IH a b Hf. apply (IH (a ++ [40%N] ++ w) (w' ++ [41%N] ++ b)).
    replace ((a ++ [40%N] ++ w) ++ s ++ w' ++ [41%N] ++ b) with (a ++ ([40%N] ++ w ++ s ++ w' ++ [41%N]) ++ b); [done|]. by rewrite <- !app_assoc.
  - intros e s _ IH a b Hf. by rewrite (IH a b Hf).
  - intros e s w e' l s' _ IH _ _ _ IH' a b Hf. apply andb_true_intro. split.
    + apply (IH a (w ++ s' ++ b)). by rewrite <- !app_assoc in Hf.
    + apply (IH' (a ++ s ++ w) b). rewrite <- !app_assoc in *. done.
Qed.
Lemma text_fit e text : says_text e text -> numbers_fit text -> all_fit e = true.
Proof. intros (w & s & w' & -> & _ & _ & He) Hf. by eapply (proj1 says_fit). Qed.

Lemma gives_same rules rx cbf text d d' n p r r' : gives rules rx cbf text d n p r -> gives rules rx cbf text d' n p r' -> r = r'.
Proof.
  intros H H'. apply (gives_deeper _ _ _ _ _ (max d d')) in H; [|lia]. apply (gives_deeper _ _ _ _ _ (max d d')) in H'; [|lia].
  destruct H as [f0 H]. destruct H' as [f1 H']. specialize (H (max f0 f1) ltac:(lia)). specialize (H' (max f0 f1) ltac:(lia)). congruence.
Qed.

Section Whole.
Variable o : popts.
Hypothesis Ho : po_debug o = false.
Notation parse fuel text := (fst (parse_string fuel (gram_of lisp) o lisp_rx lisp_cb text)).

Lemma lisp_reads e text : says_text e text -> nest e <= 510 -> all_fit e = true ->
  exists fuel0, forall fuel, fuel0 <= fuel -> exists s', parse fuel text = Ok (Some (sexp_ast e)) s'.
Proof.
  intros He Hn Hf. assert (S (2 * nest e + 3) <= stack_limit) as Hd by (unfold stack_limit; lia).
  pose proof (line_reads None o ltac:(done) text e (nest e) He ltac:(lia) (fun _ => Hf)) as HG.
  destruct (lisp_run None o Ho text _ _ HG Hd) as (f0 & H). exists f0. intros fuel Hl. specialize (H fuel Hl).
  cbv beta iota in H. rewrite Nat.eqb_refl in H. destruct H as (x & s' & Hx & Hr). exists s'.
  rewrite (rep_sexp _ _ _ Hf _ Hr) in Hx. exact Hx.
Qed.
Lemma lisp_panics e text : says_text e text -> nest e <= 510 -> all_fit e = false ->
  exists fuel0, forall fuel, fuel0 <= fuel -> exists k s', parse fuel text = Panic (PUser k) s'.
Proof.
  intros He Hn Hf. assert (S (2 * nest e + 3) <= stack_limit) as Hd by (unfold stack_limit; lia).
  assert (forall j, j <= 1 -> forall k, Some j = Some k -> k <= 1) as Hj by (by intros j Hj k [= <-]).
  pose proof (line_reads (Some 0) o (Hj 0 ltac:(lia)) text e (nest e) He ltac:(lia) ltac:(by intros)) as HG0.
  pose proof (line_reads (Some 1) o (Hj 1 ltac:(lia)) text e (nest e) He ltac:(lia) ltac:(by intros)) as HG1.
  destruct (lisp_run (Some 0) o Ho text _ _ HG0 Hd) as (f0 & H0). destruct (lisp_run (Some 1) o Ho text _ _ HG1 Hd) as (f1 & H1).
  exists (f0 + f1). intros fuel Hl. specialize (H0 fuel ltac:(lia)). specialize (H1 fuel ltac:(lia)).
  cbv beta iota in H0, H1. rewrite Nat.eqb_refl in H0, H1. destruct H0 as (x & s' & H0 & Hr0). destruct H1 as (x1 & s1 & H1 & Hr1).
  unfold parse_string in *.
  destruct (ple_gram fuel (gram_of lisp) o lisp_rx _ _ (CRune (new_rune_stream text)) (lisp_with_braver (Some 0))) as [|HA]; [done|].
  destruct (ple_gram fuel (gram_of lisp) o lisp_rx _ _ (CRune (new_rune_stream text)) (lisp_with_braver (Some 1))) as [|HB]; [done|].
  exfalso. rewrite HA, H0 in HB. rewrite H1 in HB. injection HB as <- <-. exact (rep_unfit _ _ _ Hf _ Hr0 Hr1).
Qed.
(** Any text: it is the text of an expression and read, or it is not and
    rejected. *)
Lemma lisp_exact text : opens text <= 510 -> numbers_fit text ->
  (exists e, says_text e text /\ exists fuel0, forall fuel, fuel0 <= fuel -> exists s', parse fuel text = Ok (Some (sexp_ast e)) s') \/
  ((forall e, ~ says_text e text) /\ exists fuel0, forall fuel, fuel0 <= fuel -> exists s',
     match text with [] => parse fuel text = Ok None s' | _ => exists k, parse fuel text = Ok (Some (AErr k)) s' /\ k <= length text end).
Proof.
  intros Hd Hf. destruct (line_total None o ltac:(done) text (fun _ => Hf)) as (r & HG & Hout).
  assert (S (2 * opens text + 3) <= stack_limit) as Hs by (unfold stack_limit; lia).
  destruct (lisp_run None o Ho text _ _ HG Hs) as (f0 & H).
  assert (forall e, says_text e text -> r = Some (sval 0 e, length text)) as Hin.
  { intros e He. eapply gives_same; [exact HG|]. apply (line_reads None o ltac:(done) text e (nest e) He ltac:(lia)). intros _. by eapply text_fit. }
  destruct r as [[v q]|].
  - destruct (Nat.eqb_spec q (length text)) as [-> |Hq].
    + left. destruct (Hout eq_refl) as (e & He & ->). exists e. split; [done|]. exists f0. intros fuel Hl. destruct (H fuel Hl) as (x & s' & Hx & Hr).
      exists s'. rewrite (rep_sexp _ _ _ (text_fit _ _ He Hf) _ Hr) in Hx. exact Hx.
    + right. split; [intros e He; specialize (Hin e He); congruence|]. exists f0. intros fuel Hl. destruct (H fuel Hl) as (k & s' & Hx & Hk).
      exists s'. destruct text as [|b text]; [cbn in Hk, Hq; lia|]. exists k. split; [exact Hx|lia].
  - right. split; [intros e He; specialize (Hin e He); congruence|]. exists f0. intros fuel Hl. specialize (H fuel Hl).
    destruct text as [|b text]; [exact H|]. destruct H as (k & s' & Hx & Hk). exists s', k. split; [exact Hx|exact Hk].
Qed.
End Whole.

(** ** Texts and expressions *)
Lemma sval_inj e : all_fit e = true -> forall e', all_fit e' = true -> sval 0 e = sval 0 e' -> e = e'.
Proof.
  induction e as [z|s|s|l IH] using sexp_ind2; intros Hf e' Hf' HE; destruct e' as [z'|s'|s'|l']; cbn [sval all_fit] in *; rewrite ?Hf, ?Hf' in HE; try done; try congruence.
  f_equal. injection HE as HE. revert l' Hf' HE. induction IH as [|e l He _ IHl]; intros [|e' l'] Hf' HE; cbn [fmap list_fmap] in HE; [done..|].
  cbn [forallb] in Hf, Hf'. apply andb_prop in Hf as [? ?], Hf' as [? ?]. injection HE as HE1 HE2. f_equal; [by apply He|by apply IHl].
Qed.
Lemma says_unique e e' text : says_text e text -> says_text e' text -> all_fit e = true -> all_fit e' = true -> e = e'.
Proof.
  intros He He' Hf Hf'. set (o := POpts false false false).
  pose proof (line_reads None o ltac:(done) text e (nest e) He ltac:(lia) (fun _ => Hf)) as H1.
  pose proof (line_reads None o ltac:(done) text e' (nest e') He' ltac:(lia) (fun _ => Hf')) as H2.
  pose proof (gives_same _ _ _ _ _ _ _ _ _ _ H1 H2) as HE. injection HE as HE. by apply sval_inj.
Qed.
Lemma decimal_value ds : decimal ds = digits_value ds.
Proof.
  unfold decimal, digits_value. generalize 0%Z. induction ds as [|b ds IH]; intros a; cbn [fold_left foldl]; [done|].
  rewrite IH. f_equal. lia.
Qed.
Lemma itoa_numeral z : exists s, numeral s z.
Proof.
  destruct (itoa_denotes z) as [ds [H1 H2]|ds [H1 H2]|ds [H1 H2]]; rewrite <- decimal_value; eexists.
  - by apply numeral_pos.
  - by apply numeral_pos.
  - by apply numeral_neg.
Qed.
Lemma sayable_said e : sayable e -> exists s, says e s.
Proof.
  induction e as [z|s|s|l IH] using sexp_ind2; intros Hs; inversion Hs as [|s0 Hq|s0 Hq|l0 Hl]; subst.
  - destruct (itoa_numeral z) as (s & Hz). exists s. by constructor.
  - eexists. by constructor.
  - exists s. destruct Hq as [Hq|(b & r & -> & Hb & Hr)]; by constructor.
  - assert (exists s, says_all l s) as [s Hl']; [|exists ([40%N] ++ [] ++ s ++ [] ++ [41%N]); constructor; [constructor|constructor|done]].
    clear Hs. induction IH as [|e l He _ IHl]; [exists []; constructor|]. apply Forall_cons in Hl as [H1 H2]. destruct (He H1) as [s Hse]. destruct (IHl H2) as [s' Hs'].
    destruct l as [|e' l]; [exists s; by constructor|]. exists (s ++ [32%N] ++ s'). apply says_more; [done|done| |done]. repeat constructor.
Qed.
