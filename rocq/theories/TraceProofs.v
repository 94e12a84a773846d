From Verif Require Import Base Helpers HelpersProofs Stream StreamSpec StreamProofs Native NativeSpec NativeProofs Trace TraceSpec.

Lemma split_byte_app sep w : sep ∉ w -> split_byte sep w = [w] /\ forall s, split_byte sep (w ++ sep :: s) = w :: split_byte sep s.
Proof.
  induction w as [|b w IH]; intros Hw.
  - split; [done|]. intros s. cbn. by rewrite N.eqb_refl.
  - apply not_elem_of_cons in Hw as [Hb Hw]. destruct (IH Hw) as [H1 H2]. assert ((b =? sep)%N = false) as HB by (apply N.eqb_neq; congruence).
    cbn [split_byte app]. rewrite HB, H1. split; [done|]. intros s. by rewrite H2.
Qed.
Lemma split_comma s ws : comma_list s ws <-> split_byte 44 s = ws.
Proof.
  split.
  - induction 1 as [w Hw|w s ws Hw _ IH].
    + by apply split_byte_app.
    + destruct (split_byte_app 44 w Hw) as [_ ->]. by rewrite IH.
  - revert ws. induction s as [|b s IH]; intros ws H.
    + cbn in H. subst ws. constructor. apply not_elem_of_nil.
    + cbn [split_byte] in H. destruct (N.eqb_spec b 44) as [->|Hb].
      * subst ws. apply (cl_more []); [apply not_elem_of_nil|]. by apply IH.
      * destruct (split_byte 44 s) as [|w ws'] eqn:ES.
        { specialize (IH [] eq_refl). inversion IH. }
        subst ws. specialize (IH _ eq_refl). inversion IH as [w0 Hw|w0 s0 ws0 Hw Hs]; subst.
        -- constructor. apply not_elem_of_cons. done.
        -- apply (cl_more (b :: w)); [|done]. apply not_elem_of_cons. done.
Qed.
Lemma starts_with_spec p s : starts_with p s = true <-> exists r, s = p ++ r.
Proof.
  revert s. induction p as [|x p IH]; intros s; cbn [starts_with].
  - split; [by exists s|done].
  - destruct s as [|y s]; [split; [done|intros [r [=]]]|]. rewrite andb_true_iff, N.eqb_eq, IH. split.
    + intros [-> [r ->]]. by exists r.
    + intros [r [= -> ->]]. split; [done|by exists r].
Qed.
Lemma denotes_no_eq ds n : denotes ds n -> 61%N ∉ ds.
Proof.
  assert (forall l, is_digits l -> 61%N ∉ l) as H.
  { intros l [_ H] Hin. rewrite Forall_forall in H. apply H in Hin. lia. }
  intros []; rewrite ?not_elem_of_cons; auto.
Qed.
Lemma split_eq_name (w : bytes) (x : bytes) : 61%N ∉ w -> split_byte 61 ((w ++ [61%N]) ++ x) = w :: split_byte 61 x.
Proof. intros Hw. rewrite <- app_assoc. apply split_byte_app. done. Qed.
Lemma split_ne sep x : split_byte sep x <> [].
Proof. destruct x as [|b x]; cbn [split_byte]; [done|]. destruct (b =? sep)%N; [done|]. by destruct (split_byte sep x). Qed.
Lemma split_one x : forall n, split_byte 61 x = [n] -> n = x.
Proof.
  induction x as [|b x IH]; intros n; cbn [split_byte]; [by intros [= <-]|].
  destruct (b =? 61)%N. { intros [= _ H]. by apply split_ne in H. }
  destruct (split_byte 61 x) as [|w ws] eqn:ES; [by apply split_ne in ES|].
  intros [= <- ->]. f_equal. by apply IH.
Qed.

Lemma line_word v p z : 61%N ∉ p -> (exists r, v = (p ++ [61%N]) ++ r) ->
  (match split_byte 61 v with [_; n] => atoi n | _ => None end = Some z <->
   exists ds, v = (p ++ [61%N]) ++ ds /\ denotes ds z /\ (- 2 ^ 63 <= z < 2 ^ 63)%Z).
Proof.
  intros Hp [r ->]. rewrite split_eq_name by done. split.
  - destruct (split_byte 61 r) as [|n [|]] eqn:ES; try done. apply split_one in ES. subst n. intros HA%atoi_spec. by exists r.
  - intros (ds & HE%app_inv_head & HA). subst ds. pose proof (split_byte_app 61 r (denotes_no_eq _ _ (proj1 HA))) as [-> _]. by apply atoi_spec.
Qed.

Lemma trace_word_spec v o o' : trace_word o v = ROk o' <-> word_sets v o o'.
Proof.
  split.
  - unfold trace_word. destruct o as [st lo gr fi sk]. cbn [t_stack t_loop t_grammar t_filter t_skipsetup].
    repeat (match goal with |- context [bytes_eqb v ?w] => destruct (bytes_eqb_spec v w) as [->|_]; [intros [= <-]; constructor|] end).
    destruct (starts_with (s2b "line=") v) eqn:S1; [|destruct (starts_with (s2b "filterline=") v) eqn:S2; [|done]]; cbn [orb].
    + apply starts_with_spec in S1. pose proof (line_word v (s2b "line") ) as HL.
      destruct (split_byte 61 v) as [|x [|n [|]]] eqn:ES; try done. destruct (atoi n) as [z|] eqn:EA; [|done]. intros [= <-].
      specialize (HL z ltac:(vm_compute; by intros H; repeat (apply elem_of_cons in H as [H|H]; [done|]); apply elem_of_nil in H) S1).
      destruct HL as [HL _]. destruct (HL eq_refl) as (ds & -> & HD & HR). by apply (ws_line ds z).
    + apply starts_with_spec in S2. pose proof (line_word v (s2b "filterline") ) as HL.
      destruct (split_byte 61 v) as [|x [|n [|]]] eqn:ES; try done. destruct (atoi n) as [z|] eqn:EA; [|done]. intros [= <-].
      specialize (HL z ltac:(vm_compute; by intros H; repeat (apply elem_of_cons in H as [H|H]; [done|]); apply elem_of_nil in H) S2).
      destruct HL as [HL _]. destruct (HL eq_refl) as (ds & -> & HD & HR). by apply (ws_filterline ds z).
  - intros H. destruct H as [o|st lo gr fi sk|st lo gr fi sk|st lo gr fi sk|st lo gr fi sk|o|ds n st lo gr fi sk HD HR|ds n st lo gr fi sk HD HR]; try done.
    + assert (split_byte 61 (s2b "line=" ++ ds) = [s2b "line"; ds]) as HS.
      { change (s2b "line=" ++ ds) with ((s2b "line" ++ [61%N]) ++ ds). rewrite split_eq_name.
        - f_equal. apply split_byte_app. by eapply denotes_no_eq.
        - vm_compute. intros H. repeat (apply elem_of_cons in H as [H|H]; [done|]). by apply elem_of_nil in H. }
      unfold trace_word. rewrite HS. assert (atoi ds = Some n) as -> by (by apply atoi_spec). done.
    + assert (split_byte 61 (s2b "filterline=" ++ ds) = [s2b "filterline"; ds]) as HS.
      { change (s2b "filterline=" ++ ds) with ((s2b "filterline" ++ [61%N]) ++ ds). rewrite split_eq_name.
        - f_equal. apply split_byte_app. by eapply denotes_no_eq.
        - vm_compute. intros H. repeat (apply elem_of_cons in H as [H|H]; [done|]). by apply elem_of_nil in H. }
      unfold trace_word. rewrite HS. assert (atoi ds = Some n) as -> by (by apply atoi_spec). done.
Qed.
Lemma trace_word_total v o : (exists o', trace_word o v = ROk o') \/ (exists m, trace_word o v = RPanic (PMsg m)).
Proof.
  unfold trace_word. repeat (match goal with |- context [bytes_eqb v ?w] => destruct (bytes_eqb v w); [left; by eexists|] end).
  destruct (_ || _)%bool; [|right; by eexists]. destruct (split_byte 61 v) as [|x [|n [|]]]; try (right; by eexists).
  destruct (atoi n); [left|right]; by eexists.
Qed.
Lemma trace_words_spec ws : forall o o', trace_words o ws = ROk o' <-> words_set ws o o'.
Proof.
  induction ws as [|w ws IH]; intros o o'; cbn [trace_words].
  - split; [intros [= <-]; constructor|intros H; by inversion H].
  - destruct (trace_word_total w o) as [[o1 H1]|[m Hm]]; rewrite ?H1, ?Hm; cbn [rbind].
    + rewrite IH. apply trace_word_spec in H1 as Hw. split; [intros H; by eapply wss_cons|].
      intros H. inversion H as [|? ? ? o2 ? HA HB]; subst. apply trace_word_spec in HA. congruence.
    + split; [done|]. intros H. inversion H as [|? ? ? o2 ? HA HB]; subst. apply trace_word_spec in HA. congruence.
Qed.
Lemma trace_words_total ws : forall o, (exists o', trace_words o ws = ROk o') \/ (exists m, trace_words o ws = RPanic (PMsg m)).
Proof.
  induction ws as [|w ws IH]; intros o; cbn [trace_words]; [left; by eexists|].
  destruct (trace_word_total w o) as [[o1 ->]|[m ->]]; cbn [rbind]; [apply IH|right; by eexists].
Qed.

Lemma environment_spec env default v ws : trace_var env v -> v <> [] -> comma_list v ws ->
  (forall o, from_environment_or_use env default = ROk o <-> words_set ws topts_mute o) /\
  ((exists o, from_environment_or_use env default = ROk o) \/ exists m, from_environment_or_use env default = RPanic (PMsg m)).
Proof.
  intros HV Hv HC%split_comma. assert (from_environment_or_use env default = trace_words topts_mute ws) as HE.
  { unfold from_environment_or_use, check_environment. destruct HV as [[-> _]|[-> ->]].
    - destruct (bytes_eqb_spec v []); [done|]. cbn zeta. destruct (bytes_eqb_spec v []); [done|]. by rewrite HC.
    - cbn zeta. change (bytes_eqb [] []) with true. cbn iota. destruct (bytes_eqb_spec v []); [done|]. by rewrite HC. }
  rewrite HE. split; [intros o; apply trace_words_spec|apply trace_words_total].
Qed.
Lemma comma_list_total v : exists ws, comma_list v ws.
Proof. exists (split_byte 44 v). by apply split_comma. Qed.
Lemma comma_list_join v ws : comma_list v ws -> forall u, comma_list v u -> u = ws.
Proof. intros <-%split_comma u <-%split_comma. done. Qed.
Lemma environment_unset env default : env "TRACE"%string = [] -> env "trace"%string = [] ->
  from_environment_or_use env default = ROk topts_mute /\ default_trace_options env = ROk topts_mute.
Proof. intros H1 H2. unfold default_trace_options, from_environment_or_use, check_environment. rewrite H1, H2. done. Qed.
