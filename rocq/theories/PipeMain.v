(** Vertical bars before the first and behind the last alternative: what is compiled. *)
From Verif Require Import Base Helpers Utf8 Stream StreamSpec Native Engine EngSpec EngInv Toy Peg PegRep PegStd RunSpec PegLaws PegRun
  Build BuildMain Joeson JoesonSpec JoesonRun Erase JoesonMark Gives TextSpec TextNodes TextPrim TextHeads TextMain TextRun LookSpec LookMain LookOpen PipeSpec.

(** What may stand behind the last alternative. *)
Definition stops (rest : bytes) : Prop := f_alter rest \/ exists w r, rest = w ++ 124%N :: r /\ gap w /\ f_sequ r.
Lemma gap_app w w' : gap w -> gap w' -> gap (w ++ w').
Proof. intros. by apply Forall_app. Qed.
Lemma f_sequ_gap w r : gap w -> f_sequ r -> f_sequ (w ++ r).
Proof. intros Hw (w' & r' & -> & Hw' & Hr). exists (w ++ w'), r'. split; [by rewrite app_assoc|]. split; [by apply gap_app|done]. Qed.
Lemma bars_f_sequ qs r : bars qs -> f_sequ r -> f_sequ (qs ++ r).
Proof.
  intros [|w s Hw Hs] Hr; [done|]. rewrite <- !app_assoc. cbn [app]. exists w, (124%N :: s ++ r). split; [done|]. split; [done|]. unfold hd_in. cbn. pick.
Qed.
Lemma bars_stops qs r : bars qs -> f_alter r -> stops (qs ++ r).
Proof.
  intros [|w s Hw Hs] Hr; [by left|]. right. exists w, (s ++ r). rewrite <- !app_assoc. split; [done|]. split; [done|]. apply bars_f_sequ; [done|]. by apply f_alter_sequ.
Qed.
Lemma stops_sequ r : stops r -> f_sequ r.
Proof. intros [H|(w & r' & -> & Hw & Hr)]; [by apply f_alter_sequ|by apply pipe_f_sequ]. Qed.

Section Text.
Variable re_ok : bytes -> bool.
Variable text : bytes.
Notation G := (gives jrules joeson_rx (jcbf re_ok none_at) text).
Notation L := (loops jrules joeson_rx (jcbf re_ok none_at) text).
Notation at_ := (Gives.at_ text).

Lemma seq_end d rest p : f_sequ rest -> at_ p rest -> G (10 + d) j_SEQ p None.
Proof.
  intros Hr Hp. pose proof (unit_end re_ok none_at text d rest p Hr Hp) as HU. cbn [Nat.add]. apply g_ru; [done|]. eapply does_choice; [done|].
  apply alts_next; [|apply alts_next; [|apply alts_nil]].
  - apply g_ru_no; [done|]. apply (does_pat_none _ _ _ _ _ j_S0 (rw "UNIT") None 2 (-1)); [done|]. by apply unit_ref.
  - eapply gives_deeper; [exact HU|lia].
Qed.
Lemma join_stops d rest p acc : stops rest -> at_ p rest -> L (10 + d) (rw "SEQUENCE") (Some (rcw "_PIPE")) (-1) acc p acc p.
Proof.
  intros [Hr|(w & r & -> & Hw & Hr)] Hp.
  - apply loops_join_end. by eapply pipe_end.
  - destruct (pipe_yes re_ok none_at text (10 + d) w r p Hw Hp) as [v Hv]. eapply loops_join_back; [exact Hv|]. apply seq_ref. eapply seq_end; [exact Hr|].
    apply at_app in Hp. by apply at_cons in Hp.
Qed.
Lemma bars_loops d qs : bars qs -> forall rest p acc, at_ p (qs ++ rest) -> G d (rcw "_PIPE") (p + length qs) None ->
  exists l, L d (rcw "_PIPE") None (-1) acc p l (p + length qs).
Proof.
  induction 1 as [|w s Hw Hs IH]; intros rest p acc Hp HN.
  - exists acc. cbn [length] in *. rewrite Nat.add_0_r in *. by apply loops_end.
  - rewrite <- !app_assoc in Hp. cbn [app] in Hp. destruct (pipe_yes re_ok none_at text d w (s ++ rest) p Hw Hp) as [v Hv].
    rewrite !app_length in *. cbn [length] in *. replace (p + (length w + (1 + length s))) with (S (p + length w) + length s) in * by lia.
    destruct (IH rest (S (p + length w)) (acc ++ [v])) as [l Hl]; [apply at_app in Hp; by apply at_cons in Hp|exact HN|].
    exists l. eapply loops_more; [exact Hv|done|exact Hl].
Qed.
Lemma bars_run d qs rest p : bars qs -> at_ p (qs ++ rest) -> G d (rcw "_PIPE") (p + length qs) None -> exists v, G d j_pipes p (Some (v, p + length qs)).
Proof. intros Hb Hp HN. destruct (bars_loops d qs Hb rest p [] Hp HN) as [l Hl]. exists (VArr l). apply loops_pat; [by left|exact Hl]. Qed.

(** The alternatives, bars behind them. *)
Lemma sequs_stops n l s : plain re_ok false n (Sequs l) s -> forall d rest w pw, gap w -> at_ pw (w ++ s ++ rest) -> stops rest -> 14 * n + 10 <= d ->
  exists x l' q, l = x :: l' /\ G d j_SEQ pw (Some (pval x, q)) /\
    forall acc, L d (rw "SEQUENCE") (Some (rcw "_PIPE")) (-1) (acc ++ [pval x]) q (acc ++ map pval l) (pw + length w + length s).
Proof.
  intros H. remember false as o0 eqn:Eo. remember (Sequs l) as f eqn:Ef. revert l Ef.
  induction H as [| | | | | | | | | | | | | | | | | | | | |o1 n e s H _|o1 n e l1 s w1 w2 s1 H _ Hw1 Hw2 H1 IH1| | | |]; intros l0 [=]; subst; intros d rest w pw Hw Hat Hst Hd.
  - eexists e, [], _. split; [done|]. split; [eapply (plain_parses re_ok _ _ _ _ H text); [exact Hw|reflexivity|exact Hat|by apply stops_sequ|lia]|].
    intros acc. cbn [map]. replace d with (10 + (d - 10)) by lia. eapply join_stops; [exact Hst|]. exact (at_app _ _ _ _ (at_app _ _ _ _ Hat)).
  - rewrite !app_length. cbn [length]. rewrite <- !app_assoc in Hat. cbn [app] in Hat.
    replace (pw + length w + (length s + (length w1 + (1 + (length w2 + length s1))))) with (S (pw + length w + length s + length w1) + length w2 + length s1) by lia.
    pose proof (at_app _ _ _ _ (at_app _ _ _ _ Hat)) as Hat2. pose proof (at_cons _ _ _ _ (at_app _ _ _ _ Hat2)) as Hat4.
    eexists e, l1, _. split; [done|]. split; [eapply (plain_parses re_ok _ _ _ _ H text); [exact Hw|reflexivity|exact Hat|by apply pipe_f_sequ|lia]|]. intros acc.
    destruct (IH1 eq_refl _ eq_refl d rest w2 _ Hw2 Hat4 Hst ltac:(lia)) as (x & l' & q & -> & HG & HLL).
    destruct (pipe_yes re_ok none_at text d w1 (w2 ++ s1 ++ rest) _ Hw1 Hat2) as [u Hu].
    eapply loops_join_more; [exact Hu|apply seq_ref; exact HG|done|].
    pose proof (HLL (acc ++ [pval e])) as HLa. rewrite <- !app_assoc in HLa. cbn [app map] in HLa |- *. rewrite <- app_assoc. exact HLa.
Qed.
(** Bars, then something that is no bar. *)
Lemma bars_first d ps w s p : bars ps -> gap w -> nb s -> head s <> Some 124%N -> at_ p (ps ++ w ++ s) -> exists v, G d j_pipes p (Some (v, p + length ps)).
Proof. intros Hb Hw Hn Hh Hp. eapply bars_run; [exact Hb|exact Hp|]. eapply pipe_no; [exact Hw|exact Hn|exact Hh|by apply at_app in Hp]. Qed.

Section Bars.
Context (n : nat) (l : list pexp) (ps w s qs w' r : bytes).
Hypotheses (Hs : plain re_ok false n (Sequs l) s) (Hps : bars ps) (Hqs : bars qs) (Hw : gap w) (Hw' : gap w').
Hypotheses (Hr : nb r) (Hr' : head r <> Some 124%N) (Hst : stops (qs ++ w' ++ r)).
Hypothesis Ht : text = ps ++ w ++ s ++ qs ++ w' ++ r.
Hypothesis Hn : n <= 72.
Lemma at0 : at_ 0 (ps ++ w ++ s ++ qs ++ w' ++ r).
Proof. exact Ht. Qed.
Lemma at1 : at_ (length ps) (w ++ s ++ qs ++ w' ++ r).
Proof. exact (at_app _ _ _ _ at0). Qed.
Lemma bars_alts : exists x l' q, l = x :: l' /\ G 1020 j_SEQ (length ps) (Some (pval x, q)) /\
    forall acc, L 1020 (rw "SEQUENCE") (Some (rcw "_PIPE")) (-1) (acc ++ [pval x]) q (acc ++ map pval l) (length ps + length w + length s).
Proof. eapply sequs_stops; [exact Hs|exact Hw|exact at1|exact Hst|lia]. Qed.
Lemma bars_choice : 2 <= length l -> G 1022 j_CHOICE 0 (Some (pval (PExp "" (KChoice l)), length ps + length w + length s + length qs)).
Proof.
  intros Hl. destruct bars_alts as (x & l' & q & El & HG & HL). destruct (loose_heads _ _ _ _ _ Hs I (qs ++ w' ++ r)) as (Hh1 & Hh2 & _).
  pose proof (at_app _ _ _ _ (at_app _ _ _ _ at1)) as Hat3.
  assert (forallb v_parser (map pval l) = true) as HV by apply pvals_parser.
  apply g_ru; [done|]. eapply does_choice; [done|]. apply alts_take. eapply g_ru_cb; [done| |].
  - eapply does_single; [done|]. destruct (bars_first 1020 ps w _ 0 Hps Hw Hh1 Hh2 at0) as [y Hy]. eapply singles_cons; [exact Hy|]. cbn [i_capture n_info an j_pipes Nat.add].
    assert (G 1020 j_seqs (length ps) (Some (VArr (map pval l), length ps + length w + length s))) as HS.
    { apply g_an; [done|by left|].
      pose proof (does_pat_some _ _ _ _ 1020 j_seqs (rw "SEQUENCE") (Some (rcw "_PIPE")) 2 (-1) (length ps) _ q _ _ eq_refl (seq_ref _ _ _ _ _ _ HG) (HL [])) as HD.
      assert (too_few 2 (length (map pval l)) = false) as HT by (rewrite map_length; unfold too_few; lia). cbn [app] in HD. rewrite HT in HD. exact HD. }
    eapply singles_cons; [exact HS|]. cbn [i_capture n_info an j_seqs].
    destruct (bars_run 1020 qs (w' ++ r) (length ps + length w + length s) Hqs Hat3) as [z Hz].
    { eapply pipe_no; [exact Hw'|exact Hr|exact Hr'|by apply at_app in Hat3]. }
    eapply singles_cons; [exact Hz|]. cbn [i_capture n_info an j_pipes]. apply (singles_nil _ _ _ _ 1020 (Some (VArr (map pval l)))).
  - unfold jcbf. cbn [jval default id]. by rewrite HV.
Qed.
Lemma expr_gap d p v q w0 r0 : G d j_CHOICE p (Some (v, q)) -> gap w0 -> nb r0 -> at_ q (w0 ++ r0) -> G (2 + d) j_EXPR p (Some (v, q + length w0)).
Proof.
  intros HC Hw0 Hr0 Hq. destruct (g_gap re_ok none_at text d w0 r0 q Hw0 Hr0 Hq) as [y Hy].
  cbn [Nat.add]. apply g_ru; [done|]. eapply does_choice; [done|]. apply alts_take. apply g_ru; [done|]. eapply does_single; [done|].
  eapply singles_cons; [eapply g_ref; [by left|apply rule_CHOICE|exact HC]|]. cbn [i_capture n_info an rf].
  eapply singles_cons; [exact Hy|]. cbn [i_capture n_info an rc]. apply (singles_nil _ _ _ _ d (Some v)).
Qed.
Lemma bars_expr : 2 <= length l -> G 1024 j_EXPR 0 (Some (pval (PExp "" (KChoice l)), length (ps ++ w ++ s ++ qs ++ w'))).
Proof.
  intros Hl. rewrite !app_length. replace (length ps + _) with (length ps + length w + length s + length qs + length w') by lia.
  eapply (expr_gap 1022); [by apply bars_choice|done|exact Hr|].
  exact (at_app _ _ _ _ (at_app _ _ _ _ (at_app _ _ _ _ at1))).
Qed.
(** One alternative: the choice needs two. *)
Lemma one_choice0 : length l = 1 -> G 1021 j_C0 0 None.
Proof.
  intros Hl. destruct bars_alts as (x & l' & q & El & HG & HL). destruct (loose_heads _ _ _ _ _ Hs I (qs ++ w' ++ r)) as (Hh1 & Hh2 & _).
  apply g_ru_no; [done|]. eapply does_single; [done|]. destruct (bars_first 1020 ps w _ 0 Hps Hw Hh1 Hh2 at0) as [y Hy]. eapply singles_cons; [exact Hy|]. cbn [i_capture n_info an j_pipes Nat.add].
  apply singles_fail. apply g_an; [done|by left|].
  pose proof (does_pat_some _ _ _ _ 1020 j_seqs (rw "SEQUENCE") (Some (rcw "_PIPE")) 2 (-1) (length ps) _ q _ _ eq_refl (seq_ref _ _ _ _ _ _ HG) (HL [])) as HD.
  cbn [app] in HD. rewrite map_length, Hl in HD. exact HD.
Qed.
Lemma one_before : length l = 1 -> ps <> [] -> G 1024 j_EXPR 0 None.
Proof.
  intros Hl Hp. assert (f_sequ (ps ++ w ++ s ++ qs ++ w' ++ r)) as Hf.
  { destruct Hps as [|w0 s0 Hw0 Hs0]; [done|]. rewrite <- !app_assoc. by apply pipe_f_sequ. }
  pose proof (seq_end 1010 _ 0 Hf at0) as HS.
  assert (G 1022 j_CHOICE 0 None) as HC.
  { apply g_ru; [done|]. eapply does_choice; [done|]. apply alts_next; [by apply one_choice0|]. apply alts_next; [eapply gives_deeper; [exact HS|lia]|apply alts_nil]. }
  apply g_ru; [done|]. eapply does_choice; [done|]. apply alts_next; [|apply alts_next; [|apply alts_nil]].
  - apply g_ru; [done|]. eapply does_single; [done|]. apply singles_fail. eapply g_ref; [by left|apply rule_CHOICE|exact HC].
  - eapply gives_deeper; [exact HC|lia].
Qed.
Lemma one_behind : length l = 1 -> ps = [] -> qs <> [] -> exists v q, G 1024 j_EXPR 0 (Some (v, q)) /\ q < length text.
Proof.
  intros Hl Hp Hq. pose proof one_choice0 Hl as H0. destruct bars_alts as (x & l' & q & El & HG & HL). rewrite Hp in HG, HL. cbn [length] in HG, HL.
  assert (l' = []) as -> by (destruct l'; [done|by rewrite El in Hl]). subst l.
  assert (q = length w + length s) as Eq.
  { destruct (HL []) as [f Hf]. pose proof (Hf f (S f) ltac:(lia) ltac:(lia)) as H1. 
    assert (plain re_ok false n (Sequ x) s) as HX by (inversion Hs as [| | | | | | | | | | | | | | | | | | | | |o1 n1 e1 s1 H|o1 n1 e1 l1 s1 w1 w2 s2 HH1 Hw1 Hw2 H2| | | |]; subst; [done|]; by apply sequs_some in H2).
    assert (G 1020 j_SEQ 0 (Some (pval x, length w + length s))) as HG'.
    { eapply (plain_parses re_ok _ _ _ _ HX text (length w)); [exact Hw|reflexivity|pose proof at1 as Ha; rewrite Hp in Ha; exact Ha| |lia]. apply stops_sequ; exact Hst. }
    destruct HG as [f1 HG1]. destruct HG' as [f2 HG2]. pose proof (HG1 (max f1 f2) ltac:(lia)) as E1. pose proof (HG2 (max f1 f2) ltac:(lia)) as E2. rewrite E1 in E2. by injection E2. }
  assert (G 1022 j_CHOICE 0 (Some (pval x, q))) as HC.
  { apply g_ru; [done|]. eapply does_choice; [done|]. apply alts_next; [exact H0|]. apply alts_take. eapply gives_deeper; [exact HG|lia]. }
  pose proof (at_app _ _ _ _ (at_app _ _ _ _ at1)) as Hat3. clear H0 HL.
  assert (exists w0 s0, gap w0 /\ qs = w0 ++ 124%N :: s0) as (w0 & s0 & Hw0 & Eqs) by (destruct Hqs as [|w0 s0 Hw0 Hs0]; [done|by exists w0, s0]).
  rewrite Hp, Eqs in Hat3. cbn [length Nat.add] in Hat3. rewrite <- Eq in Hat3. rewrite <- !app_assoc in Hat3. cbn [app] in Hat3.
  exists (pval x), (q + length w0). split; [eapply (expr_gap 1022); [exact HC|exact Hw0| |exact Hat3]; done|].
  rewrite Ht, Eqs, !app_length, Eq. cbn [length]. lia.
Qed.
End Bars.
End Text.

(** What is read only in part panics. *)
Lemma compile_short re_ok s v q : q < length s -> gives jrules joeson_rx (jcbf re_ok none_at) s 1024 j_EXPR 0 (Some (v, q)) ->
  exists f0, forall fuel, f0 <= fuel -> compile_with re_ok fuel (gram_of hand) s = RPanic (PMsg "Error parsing").
Proof.
  intros Hs HE. set (mk := none_at) in *.
  assert (textbook (mk_env (gram_of hand) (POpts false false false) joeson_rx (mcb re_ok mk)) (jcbf re_ok mk) s j_top 0 (Some (v, q))) as HT.
  { assert (gives jrules joeson_rx (jcbf re_ok mk) s 1024 j_top 0 (Some (v, q))) as [f Hf].
    { apply g_ot; [done|]. eapply does_choice; [done|]. by apply alts_take. }
    exists f. by apply Hf. }
  pose proof (hand_grammar re_ok mk) as Hpure. pose proof Hpure as [_ _ [R HR] _ _].
  pose proof (textbook_meaning _ j_top (CRune (new_rune_stream s)) (jcbf re_ok mk) R j_top 0 _ HR ltac:(constructor) HT) as HM.
  destruct (gram_meaning (gram_of hand) joeson_rx (mcb re_ok mk) (POpts false false false) (jcbf re_ok mk) Hpure hand_top R (fun _ => None) HR ltac:(done)
    (CRune (new_rune_stream s)) _ (rune_code_ok _) eq_refl HM) as (f0 & Hf).
  exists f0. intros fuel Hl. specialize (Hf fuel ltac:(lia)). cbn [c_work] in Hf.
  assert ((q =? length s) = false) as Eq by (apply Nat.eqb_neq; lia). change (rs_text (new_rune_stream s)) with s in Hf. rewrite Eq in Hf.
  destruct Hf as (x & s' & Hx & Hr).
  pose proof (com_gram fuel (gram_of hand) (POpts false false false) joeson_rx (mcb re_ok mk) (joeson_cb re_ok) (CRune (new_rune_stream s)) (er_mcb re_ok mk)) as HC.
  rewrite Hx in HC. unfold compile_with, parse_string. rewrite HC. done.
Qed.

Lemma gap_alter w' : gap w' -> f_alter w'.
Proof. intros Hw'. rewrite <- (app_nil_r w'). by apply f_expr_alter. Qed.
Theorem compile_bars re_ok n l ps w s qs w' : plain re_ok false n (Sequs l) s -> 2 <= length l -> bars ps -> bars qs -> gap w -> gap w' -> n <= 72 ->
  exists f0, forall fuel, f0 <= fuel -> compile_with re_ok fuel (gram_of hand) (ps ++ w ++ s ++ qs ++ w') = ROk (PExp "" (KChoice l)).
Proof.
  intros Hs Hl Hps Hqs Hw Hw' Hn. eapply (compile_parsed _ none_at); [|apply rd_choice; exact (plain_reads _ _ _ _ _ Hs)].
  apply (bars_expr re_ok (ps ++ w ++ s ++ qs ++ w') n l ps w s qs w' []); try done; rewrite app_nil_r; [|done]. apply bars_stops; [done|by apply gap_alter].
Qed.
Theorem compile_one_bars re_ok n e ps w s qs w' : plain re_ok false n (Sequ e) s -> bars ps -> bars qs -> ps ++ qs <> [] -> gap w -> gap w' -> n <= 72 ->
  exists f0, forall fuel, f0 <= fuel -> compile_with re_ok fuel (gram_of hand) (ps ++ w ++ s ++ qs ++ w') = RPanic (PMsg "Error parsing").
Proof.
  intros Hs Hps Hqs Hne Hw Hw' Hn. pose proof (p_sequs_one _ _ _ _ _ Hs) as Hs1.
  assert (stops (qs ++ w' ++ [])) as Hst by (rewrite app_nil_r; apply bars_stops; [done|by apply gap_alter]).
  destruct (decide (ps = [])) as [->|Hp].
  - destruct (one_behind re_ok ([] ++ w ++ s ++ qs ++ w') n [e] [] w s qs w' []) as (v & q & HG & Hq); try done; [by rewrite app_nil_r|]. by eapply compile_short.
  - apply compile_refused; [by destruct ps|]. eapply (one_before re_ok _ n [e] ps w s qs w' []); try done. by rewrite app_nil_r.
Qed.
(** Two bars in the middle. *)
Theorem compile_two_bars re_ok n l ps w s w1 w2 qs w' r : plain re_ok false n (Sequs l) s -> bars ps -> bars qs -> gap w -> gap w1 -> gap w2 -> gap w' ->
  nb r -> head r <> Some 124%N -> r <> [] -> n <= 72 ->
  exists f0, forall fuel, f0 <= fuel -> compile_with re_ok fuel (gram_of hand) (ps ++ w ++ s ++ (w1 ++ [124%N] ++ w2 ++ [124%N] ++ qs) ++ w' ++ r) = RPanic (PMsg "Error parsing").
Proof.
  intros Hs Hps Hqs Hw Hw1 Hw2 Hw' Hr1 Hr2 Hr Hn. set (qq := w1 ++ [124%N] ++ w2 ++ [124%N] ++ qs).
  assert (bars qq) as Hqq by (by repeat apply bars_one).
  assert (stops (qq ++ w' ++ r)) as Hst.
  { right. exists w1, (w2 ++ 124%N :: qs ++ w' ++ r). split; [unfold qq; by rewrite <- !app_assoc|]. split; [done|by apply pipe_f_sequ]. }
  assert (qq <> []) as Hne by (unfold qq; by destruct w1).
  destruct (decide (2 <= length l)) as [Hl|Hl].
  - eapply compile_short; [|apply (bars_expr re_ok _ n l ps w s qq w' r); done]. rewrite !app_length. destruct r; [done|]. cbn [length]. lia.
  - assert (length l = 1) as Hl1 by (apply sequs_some in Hs; destruct l; [done|]; cbn in *; lia). destruct (decide (ps = [])) as [->|Hp].
    + destruct (one_behind re_ok ([] ++ w ++ s ++ qq ++ w' ++ r) n l [] w s qq w' r) as (v & q & HG & Hq); try done. by eapply compile_short.
    + apply compile_refused; [by destruct ps|]. eapply (one_before re_ok _ n l ps w s qq w' r); done.
Qed.
