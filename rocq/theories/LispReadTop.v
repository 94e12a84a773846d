(** ParseString with the lisp grammar. *)
From Verif Require Import Base Helpers Utf8 Utf8Proofs Stream StreamSpec Native Engine EngSpec EngInv Toy Peg PegProofs PegRep PegBody PegStd PegStdProofs
  RunSpec PegLaws PegRun Build BuildSpec BuildMain Joeson JoesonSpec JoesonRun Calc CalcRun CalcSpec CalcPeg Brave LispRead LispReadRun LispReadSpec
  LispReadPeg LispReadText LispReadMain Gives.

Lemma leftmost_in (m : bytes -> option nat) : (forall s n, m s = Some n -> n <= length s) -> forall fuel s i a b,
  leftmost m fuel s i = Some (a, b) -> a <= b <= i + length s.
Proof.
  intros Hm. induction fuel as [|f IH]; intros s i a b; cbn [leftmost]; [done|]. destruct (m s) as [n|] eqn:E.
  - intros [= <- <-]. apply Hm in E. lia.
  - destruct s as [|c s]; [done|]. intros H%IH. rewrite drop_length in H. pose proof (decode_rune_width (c :: s) ltac:(done)). lia.
Qed.
Lemma lisp_rx_ok re : rx_ok (lisp_rx re).
Proof.
  assert (forall m, (forall s n, m s = Some n -> n <= length s) -> forall s a b, leftmost m (S (length s)) s 0 = Some (a, b) -> a <= b <= length s) as H.
  { intros m Hm s a b HL%leftmost_in; [lia|done]. }
  intros s a b. unfold lisp_rx. destruct (bytes_eqb re re_unquote); [|destruct (bytes_eqb re re_signed); [|destruct (bytes_eqb re re_ident); [|done]]]; apply H; clear.
  - intros [|c s] n; [done|]. unfold m_unquote. destruct (c =? 34)%N; [done|]. pose proof (fun k (H : Some k = Some n) => f_equal (fun x => match x with Some y => y | None => 0 end) H) as HI.
    intros H. apply HI in H. cbv beta iota in H. rewrite <- H. pose proof (decode_rune_width (c :: s) ltac:(done)) as [_ H']. exact H'.
  - intros s n Hn. apply signed_some in Hn as (u & rest & z & -> & -> & _). rewrite app_length. lia.
  - intros s n Hn. apply ident_some in Hn as (b & u & rest & -> & -> & _). cbn. rewrite app_length. lia.
Qed.

(** ** The callbacks *)
Lemma strs_rep P h l l' s : reps P h l l' -> strs l' = Some s -> concat_arr (fun _ => []) 1 h l = ROk s.
Proof.
  intros H. revert s. induction H as [|x v l l' Hx Hl IH]; intros s; cbn [strs]; [intros [= <-]; done|].
  destruct Hx as [| | |b| | | |]; try done. destruct (strs l') as [r|] eqn:E; [|done]. intros [= <-]. specialize (IH r eq_refl). clear E.
  cbn [concat_arr] in *. cbn [mapr]. revert IH. destruct (mapr _ l) as [xs| |]; try done. cbn [rbind]. intros [= <-]. done.
Qed.
Lemma exprs_rep P h l l' : reps P h l l' -> forallb is_expr_v l' = true -> forallb is_expr l = true.
Proof.
  induction 1 as [|x v l l' Hx Hl IH]; [done|]. cbn [forallb]. intros [H1 H2]%andb_prop. rewrite IH by done. rewrite andb_true_r.
  destruct Hx; try done.
Qed.
Section Pure.
Variable t : option nat.
Lemma lisp_cb_val f p h x v P : rep P h x v ->
  match lisp_val f v with
  | None => True
  | Some None => exists k, lisp_cb f p h x = CbPanic k
  | Some (Some v') => exists y, lisp_cb f p h x = CbRet h (Some y) /\ rep P h y v'
  end.
Proof.
  intros Hr. destruct f as [|[|[|[|f]]]]; [| | | |by destruct v].
  - destruct Hr as [| | | |l l' Hl| | |]; try done. cbn [lisp_val]. destruct (forallb is_expr_v l') eqn:E; [|done].
    cbn [lisp_cb]. rewrite (exprs_rep _ _ _ _ Hl E). eexists. split; [reflexivity|]. by constructor.
  - destruct Hr as [| | | |l l' Hl| | |]; try done. cbn [lisp_val]. destruct (strs l') as [s|] eqn:E; [|done].
    cbn [lisp_cb]. rewrite (strs_rep _ _ _ _ _ Hl E). eexists. split; [reflexivity|]. repeat constructor.
  - destruct Hr as [| | |s| | | |]; try done. cbn [lisp_val lisp_cb native_int_from]. destruct (atoi s) as [z|]; cbn.
    + eexists. split; [reflexivity|]. repeat constructor.
    + eexists. reflexivity.
  - destruct Hr as [| | |s| | | |]; try done. cbn [lisp_val lisp_cb]. eexists. split; [reflexivity|]. repeat constructor.
Qed.
Lemma lisp_pure E root : e_cb E = lisp_cb_with t -> cb_pure E root (lisp_cbf t).
Proof.
  intros HE f. left. intros p h x v P Hr _. rewrite HE. pose proof (lisp_cb_val f p h x v P Hr) as H. unfold lisp_cbf, lisp_cb_with.
  destruct (lisp_val f v) as [[v'|]|]; [| |done].
  - destruct H as (y & -> & Hy). exists h, (Some y). split; [by destruct t|]. split; [apply hext_refl|]. by exists y.
  - destruct H as (k & ->). destruct t as [k'|]; [|done]. exists h, (Some (AUser k' [])). split; [done|]. split; [apply hext_refl|].
    exists (AUser k' []). split; [done|]. constructor. constructor.
Qed.

(** ** The grammar *)
Variable o : popts.
Hypothesis Ho : po_debug o = false.
Notation g := (gram_of lisp).
Notation E := (mk_env g o lisp_rx (lisp_cb_with t)).
Lemma lisp_reach n : reach E nl_top n -> n ∈ all_nodes nl_top (snd lisp).
Proof.
  intros H. induction H as [|n c _ IH Hc|name n H].
  - apply elem_of_flat_map. exists nl_top. split; [left|apply subnodes_self].
  - apply elem_of_flat_map in IH as (m & Hm & IH). apply elem_of_flat_map. exists m. split; [done|]. by eapply subnodes_child.
  - apply last_of_split in H as (i & Hi & _). apply elem_of_list_lookup_2 in Hi.
    apply elem_of_flat_map. exists n. split; [right; apply elem_of_list_fmap; by exists (name, n)|apply subnodes_self].
Qed.
Lemma lisp_ready : ids_fit E nl_top /\ ids_unique E nl_top /\ top_rank nl_top.
Proof.
  pose proof (ready lisp_compile 300 "lisp" lisp_lines lisp lisp_eq lisp_names_once lisp_no_singles ltac:(done) ltac:(by vm_compute) o lisp_rx (lisp_cb_with t))
    as (H1 & H2 & H3 & _). rewrite lisp_nodes. done.
Qed.
Lemma lisp_quiet : quiet E nl_top.
Proof.
  split; [done|]. split; [done|]. intros n Hn%lisp_reach.
  assert (forallb (fun n => negb (i_debug (n_info n))) (all_nodes nl_top (snd lisp)) = true) as H by (vm_compute; reflexivity).
  rewrite forallb_forall in H. apply elem_of_list_In in Hn. specialize (H n Hn). by destruct (i_debug (n_info n)).
Qed.
Lemma lisp_grammar : pure_grammar E nl_top (lisp_cbf t).
Proof. destruct lisp_ready as (H1 & H2 & H3). split; [apply lisp_rx_ok|done|done|apply lisp_quiet|by apply lisp_pure]. Qed.

(** ** Whole texts *)
Hypothesis Ht : forall k, t = Some k -> k <= 1.
Section Text.
Variable text : bytes.
Notation rules := (g_rule (gram_of lisp)).
Notation gives := (gives rules lisp_rx (lisp_cbf t) text).
Notation sv := (sval (default 0 t)).

Lemma top_gives d r : gives d nr_line 0 r -> d <= stack_limit -> textbook E (lisp_cbf t) text nl_top 0 r.
Proof.
  intros H Hd. apply (gives_deeper _ _ _ _ _ stack_limit) in H; [|done].
  assert (gives stack_limit nl_top 0 r) as [f0 H0].
  { apply gives_bare; [done|done|by split; [|left]|]. eapply does_choice; [done|]. destruct r as [[]|]; [by apply alts_take|]. apply alts_next; [done|apply alts_nil]. }
  exists f0. by apply H0.
Qed.
Lemma line_reads e n : says_text e text -> nest e <= n -> fine t e -> gives (S (2 * n + 3)) nr_line 0 (Some (sv e, length text)).
Proof.
  intros (w & s & w' & Htx & Hw & Hw' & He) Hn Hf.
  assert (Gives.at_ text 0 (w ++ s ++ w')) as Hp by (unfold Gives.at_; by rewrite <- Htx).
  apply gives_bare_rule; [done|done|by split; [|left]|]. eapply does_single; [done|].
  destruct (sp t text (2 * n + 1) w (s ++ w') 0 Hw (proj1 (says_solid e s w' He)) Hp) as [v1 H1]. replace (S (S (2 * n + 1))) with (2 * n + 3) in H1 by lia.
  apply at_app in Hp. cbn [Nat.add] in *.
  pose proof (proj1 (says_reads t text Ht) e s He n (length w) w' Hn Hf) as H2.
  assert (ends w') as Hew. { destruct Hw' as [|b w'' Hb Hw']; [done|]. intros c [= <-]. tauto. }
  specialize (H2 Hew Hp). apply at_app in Hp. rewrite <- (app_nil_r w') in Hp.
  destruct (sp t text (2 * n + 1) w' [] _ Hw' ltac:(by intros b) Hp) as [v3 H3]. replace (S (S (2 * n + 1))) with (2 * n + 3) in H3 by lia.
  eapply singles_cons; [exact H1|]. cbn [i_capture n_info nd ns_ref].
  eapply singles_cons; [eapply ref_to; [reflexivity|exact H2]|]. cbn [i_capture n_info nd rf].
  eapply singles_cons; [exact H3|]. cbn [i_capture n_info nd ns_ref].
  replace (length text) with (length w + length s + length w') by (rewrite Htx, !app_length; lia). apply singles_nil.
Qed.
(** The outcome for any text. *)
Definition outcome (r : result) : Prop :=
  match r with
  | None => True
  | Some (v, q) => q = length text -> exists e, says_text e text /\ v = sv e
  end.
Lemma line_total : (t = None -> numbers_fit text) -> exists r, gives (S (2 * opens text + 3)) nr_line 0 r /\ outcome r.
Proof.
  intros Hfit. destruct (split_space text) as (w & s & Htx & Hw & Hs).
  assert (Gives.at_ text 0 (w ++ s)) as Hp by (unfold Gives.at_; by rewrite <- Htx). set (D := 2 * opens text + 3).
  destruct (sp t text (2 * opens text + 1) w s 0 Hw Hs Hp) as [v1 H1]. replace (S (S (2 * opens text + 1))) with D in H1 by (unfold D; lia).
  apply at_app in Hp. cbn [Nat.add] in *.
  assert (2 * opens s + 3 <= D) as HD. { unfold D. rewrite Htx at 1. rewrite opens_app. lia. }
  destruct (reader_all t text Ht Hfit (length s) D s ltac:(lia) HD _ Hp) as (r & Hr & Hsnd). destruct r as [[v q]|].
  - destruct Hsnd as (e & u & rest & -> & -> & -> & He). destruct (split_space rest) as (w' & s2 & -> & Hw' & Hs2).
    apply at_app in Hp. destruct (sp t text (2 * opens text + 1) w' s2 _ Hw' Hs2 Hp) as [v3 H3]. replace (S (S (2 * opens text + 1))) with D in H3 by (unfold D; lia).
    exists (Some (sv e, length w + length u + length w')). split.
    + apply gives_bare_rule; [done|done|by split; [|left]|]. eapply does_single; [done|].
      eapply singles_cons; [exact H1|]. cbn [i_capture n_info nd ns_ref].
      eapply singles_cons; [eapply ref_to; [reflexivity|exact Hr]|]. cbn [i_capture n_info nd rf].
      eapply singles_cons; [exact H3|]. cbn [i_capture n_info nd ns_ref]. apply singles_nil.
    + intros Hq. exists e. split; [|done]. exists w, u, w'. split; [|done]. rewrite Htx in Hq. rewrite !app_length in Hq.
      destruct s2 as [|b s2]; [by rewrite app_nil_r in Htx|cbn in Hq; lia].
  - exists None. split; [|done]. apply gives_bare_rule; [done|done|by split; [|left]|]. eapply does_single; [done|].
    eapply singles_cons; [exact H1|]. apply singles_fail. eapply ref_to; [reflexivity|exact Hr].
Qed.

Definition c_text : code := CRune (new_rune_stream text).
Lemma lisp_run d r : gives d nr_line 0 r -> d <= stack_limit -> exists fuel0, forall fuel, fuel0 <= fuel ->
  match r with
  | Some (v, e) =>
      if e =? length text then exists x s', fst (parse_string fuel g o lisp_rx (lisp_cb_with t) text) = Ok (Some x) s' /\ rep [] (s_heap s') x v
      else exists k s', fst (parse_string fuel g o lisp_rx (lisp_cb_with t) text) = Ok (Some (AErr k)) s' /\ e <= k <= length text
  | None =>
      if 0 =? length text then exists s', fst (parse_string fuel g o lisp_rx (lisp_cb_with t) text) = Ok None s'
      else exists k s', fst (parse_string fuel g o lisp_rx (lisp_cb_with t) text) = Ok (Some (AErr k)) s' /\ k <= length text
  end.
Proof.
  intros HG Hd. destruct lisp_ready as (H1 & [R HR] & H3).
  pose proof (textbook_meaning E nl_top c_text (lisp_cbf t) R nl_top 0 _ HR ltac:(constructor) (top_gives d r HG Hd)) as HM.
  exact (gram_meaning g lisp_rx (lisp_cb_with t) o (lisp_cbf t) lisp_grammar H3 R (fun _ => None) HR ltac:(done) c_text _ (rune_code_ok _) eq_refl HM).
Qed.
End Text.
End Pure.

(** ** Values *)
Lemma rep_user_inv P h x k l' : rep P h x (VUser k l') -> exists l, x = AUser k l /\ reps P h l l'.
Proof. inversion 1; subst. eauto. Qed.
Lemma rep_sexp h k e : all_fit e = true -> forall x, rep [] h x (sval k e) -> x = sexp_ast e.
Proof.
  induction e as [z|s|s|l IH] using sexp_ind2; intros Hf x; cbn [sval sexp_ast].
  - cbn in Hf. rewrite Hf. inversion 1; subst. repeat match goal with H : reps _ _ _ _ |- _ => inversion H; subst; clear H end.
    match goal with H : rep _ _ _ (VInt _) |- _ => inversion H; subst end. done.
  - inversion 1; subst. repeat match goal with H : reps _ _ _ _ |- _ => inversion H; subst; clear H end.
    match goal with H : rep _ _ _ (VStr _) |- _ => inversion H; subst end. done.
  - inversion 1; subst. repeat match goal with H : reps _ _ _ _ |- _ => inversion H; subst; clear H end.
    match goal with H : rep _ _ _ (VStr _) |- _ => inversion H; subst end. done.
  - intros H. destruct (rep_user_inv _ _ _ _ _ H) as (l1 & -> & Hl). f_equal. cbn [all_fit] in Hf. clear H. revert l1 Hl. induction IH as [|e l He _ IHl]; intros l1 Hl.
    + by inversion Hl.
    + inversion Hl as [|x v l2 l' Hx Hl2]; subst. cbn [forallb] in Hf. apply andb_prop in Hf as [Hf1 Hf2]. cbn [fmap list_fmap].
      rewrite (He Hf1 x Hx). f_equal. by apply IHl.
Qed.
(** Two stand-ins for numbers that do not fit show. *)
Lemma rep_unfit h h' e : all_fit e = false -> forall x, rep [] h x (sval 0 e) -> rep [] h' x (sval 1 e) -> False.
Proof.
  induction e as [z|s|s|l IH] using sexp_ind2; intros Hf x; cbn [sval]; try done.
  - cbn in Hf. rewrite Hf. intros H1 H2. inversion H1; subst. inversion H2.
  - intros H1 H2. destruct (rep_user_inv _ _ _ _ _ H1) as (l1 & -> & Hl1). destruct (rep_user_inv _ _ _ _ _ H2) as (l2 & E2 & Hl2). injection E2 as <-. cbn [all_fit] in Hf. clear H1 H2.
    revert l1 Hl1 Hl2. induction IH as [|e l He _ IHl]; intros l1 Hl1 Hl2; [done|].
    inversion Hl1; subst. inversion Hl2; subst. cbn [forallb] in Hf. apply andb_false_iff in Hf as [Hf|Hf]; [by eapply He|by eapply IHl].
Qed.
