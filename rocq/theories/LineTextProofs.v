(** Proofs on the text of lines. *)
From Verif Require Import Base Helpers Native Engine Print Build BuildLines LineText LineTextSpec.
Local Open Scope list_scope.

Lemma feeds_app s t : feeds (s ++ t) = feeds s + feeds t.
Proof. unfold feeds. by rewrite List.filter_app, app_length. Qed.
Lemma feeds_coloured code s : feeds (s2b code) = 0 -> feeds (coloured code s) = feeds s.
Proof. intros H. unfold coloured. rewrite !feeds_app, H. change (feeds [27%N]) with 0. change (feeds (s2b "[0m")) with 0. lia. Qed.
Lemma feeds_escape s : feeds (escape_lf s) = 0.
Proof.
  induction s as [|c s IH]; [done|]. cbn [escape_lf]. rewrite feeds_app, IH. destruct (N.eqb_spec c 10) as [E|E]; [done|].
  unfold feeds. cbn [List.filter]. destruct (N.eqb_spec 10 c); [congruence|done].
Qed.
Lemma feeds_blanks n : feeds (blanks n) = 0.
Proof. induction n as [|n IH]; [done|]. cbn [blanks]. by rewrite feeds_app, IH. Qed.
Lemma skip_split s : exists a, Forall (fun c => c = 32%N) a /\ s = a ++ skip_blanks s /\ forall c t, skip_blanks s = c :: t -> c <> 32%N.
Proof.
  induction s as [|c s (a & H1 & H2 & H3)]; [exists []; cbn; split; [constructor|]; split; [done|]; done|].
  destruct (decide (c = 32%N)) as [->|Hc].
  - exists (32%N :: a). cbn [skip_blanks]. split; [by constructor|]. split; [by rewrite H2 at 1|done].
  - assert (skip_blanks (c :: s) = c :: s) as ->.
    { cbn [skip_blanks]. destruct c as [|p]; [done|]. repeat (destruct p as [p|p|]; try done). }
    exists []. split; [constructor|]. split; [done|]. congruence.
Qed.
Lemma feeds_all a : Forall (fun c => c = 32%N) a -> feeds a = 0.
Proof. induction 1 as [|c a -> H IH]; [done|]. exact IH. Qed.
Lemma feeds_skip s : feeds (skip_blanks s) = feeds s.
Proof. destruct (skip_split s) as (a & H1 & H2 & _). rewrite H2 at 2. by rewrite feeds_app, (feeds_all a H1). Qed.
Lemma squeeze_cases s : squeeze s = s \/ exists t, skip_blanks s = 111%N :: t /\ squeeze s = s2b "o " ++ skip_blanks t.
Proof.
  unfold squeeze. destruct (skip_blanks s) as [|c t]; [by left|]. destruct (decide (c = 111%N)) as [->|Hc]; [right; by exists t|left].
  destruct c as [|p]; [done|]. repeat (destruct p as [p|p|]; try done).
Qed.
Lemma feeds_squeeze s : feeds (squeeze s) = feeds s.
Proof.
  destruct (squeeze_cases s) as [->|(t & H1 & ->)]; [done|]. rewrite feeds_app, feeds_skip, <- (feeds_skip s), H1. done.
Qed.
Lemma feeds_mark o : feeds (cb_mark o) = 0.
Proof. unfold cb_mark. by destruct (lo_cb o). Qed.
Lemma feeds_lines show : (forall e, feeds (show e) = 0) -> forall l n, flat_names l -> feeds (string_indent show n l) = height l.
Proof.
  intros Hs l. induction l as [s|a e|ls IH|nm c o IH|nm c o IH] using line_ind2; intros n Hf; cbn [string_indent height flat_names] in *.
  - apply feeds_escape.
  - apply Hs.
  - rewrite !feeds_app, feeds_blanks. unfold bold_blue. rewrite !feeds_coloured by done.
    change (feeds (s2b "[" ++ line_feed)) with 1. change (feeds (s2b "]")) with 0.
    assert (feeds (concat (map (fun x => string_indent show (S n) x ++ line_feed) ls)) = list_sum (map (fun x => 1 + height x) ls)) as ->; [|lia].
    induction IH as [|x ls Hx IH IHl]; [done|]. cbn [map concat list_sum fold_right] in *. destruct Hf as [F1 F2]. rewrite !feeds_app, (Hx (S n) F1), (IHl F2).
    change (feeds line_feed) with 1. unfold list_sum. cbn [fold_right]. lia.
  - destruct Hf as [F1 F2]. rewrite !feeds_app, feeds_blanks, feeds_squeeze, feeds_mark, (IH n F2), F1. change (feeds (s2b "o")) with 0. change (feeds (s2b " ")) with 0. lia.
  - destruct Hf as [F1 F2]. rewrite !feeds_app, feeds_blanks, feeds_squeeze, feeds_mark, (IH n F2), F1. change (feeds (s2b "i")) with 0. change (feeds (s2b " ")) with 0. lia.
Qed.
Lemma feeds_message show ls : (forall e, feeds (show e) = 0) -> flat_names (LA ls) -> feeds (unknown_line show ls) = height (LA ls).
Proof.
  intros Hs Hf. unfold unknown_line. rewrite !feeds_app, (feeds_lines show Hs (LA ls) 0 Hf).
  change (feeds (s2b "Unknown type line, expected 'o' or 'i' line, got '")) with 0. change (feeds (s2b "' (joeson.ALine)")) with 0. lia.
Qed.

Lemma within_l s t u : within s t -> within s (u ++ t).
Proof. intros (a & z & ->). exists (u ++ a), z. by rewrite <- !app_assoc. Qed.
Lemma within_r s t u : within s t -> within s (t ++ u).
Proof. intros (a & z & ->). exists a, (z ++ u). by rewrite <- !app_assoc. Qed.
Lemma within_skip c s t : c <> 32%N -> within (c :: s) t -> within (c :: s) (skip_blanks t).
Proof.
  intros Hc (a & z & E). revert t E. induction a as [|x a IH]; intros t E; cbn [app] in E.
  - exists [], z. subst t. cbn [app]. destruct (skip_split (c :: s ++ z)) as (a & H1 & H2 & _). destruct H1 as [|x a -> H1]; [by rewrite H2 at 2|]. cbn in H2. congruence.
  - destruct (decide (x = 32%N)) as [->|Hx].
    + subst t. cbn [skip_blanks]. by apply IH.
    + exists (x :: a), z. destruct (skip_split t) as (b & H1 & H2 & _). destruct H1 as [|y b -> H1]; [cbn in H2; by rewrite <- H2|]. rewrite E in H2. cbn in H2. congruence.
Qed.
Lemma within_squeeze c s t : c <> 32%N -> c <> 111%N -> within (c :: s) t -> within (c :: s) (squeeze t).
Proof.
  intros H1 H2 H. destruct (squeeze_cases t) as [->|(u & E & ->)]; [done|]. apply within_l, within_skip; [done|].
  apply (within_skip c s t H1) in H. rewrite E in H. destruct H as (a & z & Ea). destruct a as [|x a]; cbn in Ea; [congruence|]. injection Ea as _ ->. by exists a, z.
Qed.
Lemma escape_same s : feeds s = 0 -> escape_lf s = s.
Proof.
  induction s as [|c s IH]; [done|]. unfold feeds. cbn [List.filter escape_lf]. intros H. destruct (N.eqb_spec 10 c) as [E|E]; [done|].
  destruct (N.eqb_spec c 10); [congruence|]. cbn [app]. f_equal. by apply IH.
Qed.
Lemma text_shown show s l : forall n, shown_whole s -> s ∈ rule_texts l -> within s (string_indent show n l).
Proof.
  induction l as [s0|a e|ls IH|nm c o IH|nm c o IH] using line_ind2; intros n Hs Hin; cbn [rule_texts string_indent] in *.
  - apply elem_of_list_singleton in Hin as ->. rewrite escape_same by apply Hs. exists [], []. by rewrite app_nil_r.
  - by apply not_elem_of_nil in Hin.
  - apply within_l, within_r. clear -IH Hs Hin. induction IH as [|x ls Hx IH IHl]; cbn [map concat] in *; [by apply not_elem_of_nil in Hin|].
    apply elem_of_app in Hin as [Hin|Hin]; [by apply within_r, within_r, Hx|by apply within_l, IHl].
  - specialize (IH n Hs Hin). destruct Hs as (_ & x & s' & -> & H1 & H2). do 5 apply within_l. apply within_r. by apply within_squeeze.
  - specialize (IH n Hs Hin). destruct Hs as (_ & x & s' & -> & H1 & H2). do 5 apply within_l. apply within_r. by apply within_squeeze.
Qed.
Lemma message_shown show s ls : shown_whole s -> s ∈ rule_texts (LA ls) -> within s (unknown_line show ls).
Proof. intros H1 H2. unfold unknown_line. apply within_l, within_r. by apply text_shown. Qed.
