(** A group written directly behind a name. *)
From Verif Require Import Base Helpers Utf8 Stream StreamSpec Native Engine EngSpec EngInv Toy Peg PegRep PegStd RunSpec PegLaws PegRun
  Build BuildMain Joeson JoesonSpec JoesonRun Erase JoesonMark Gives TextSpec TextNodes TextPrim TextHeads TextMain TextRun LookSpec LookMain.

(** The reference that is made, its argument kept. *)
Definition call (nm : string) (v : val) : val := VParser (mark_tag None t_ref) [VStr (s2b nm); v] "".

Section Text.
Variable re_ok : bytes -> bool.
Variable text : bytes.
Notation G := (gives jrules joeson_rx (jcbf re_ok none_at) text).
Notation L := (loops jrules joeson_rx (jcbf re_ok none_at) text).
Notation at_ := (Gives.at_ text).

Lemma prim_call d nm t rest p q v : name nm -> at_ p (s2b nm ++ 40%N :: t) -> G d j_EXPR (S (p + length (s2b nm))) (Some (v, q)) -> v_parser v = true ->
  at_ q (41%N :: rest) -> G (S (S d)) j_PRIM p (Some (call nm v, S q)).
Proof.
  intros Hn Hp HE Hv Hq. apply g_ru; [done|]. eapply does_choice; [done|]. apply alts_take. eapply g_ru_cb; [done| |].
  - eapply does_array; [done|]. eapply arrays_cons; [eapply word_ref; [by left|done| |exact Hp]; done|]. cbn [i_capture n_info an rf].
    eapply arrays_cons; [eapply g_lit1; [by left|by apply at_app in Hp]|]. cbn [i_capture n_info an lt].
    eapply arrays_cons; [eapply g_ref; [by left|apply rule_EXPR|exact HE]|]. cbn [i_capture n_info an rf].
    eapply arrays_cons; [eapply g_lit1; [by left|exact Hq]|]. cbn [i_capture n_info an lt app]. apply arrays_nil.
  - unfold jcbf. cbn [jval]. unfold call, none_at. destruct (name_split nm Hn) as (b & r & -> & _). by rewrite Hv.
Qed.
Lemma unit_call d nm t rest w p q v : name nm -> gap w -> at_ p (w ++ s2b nm ++ 40%N :: t) -> G d j_EXPR (S (p + length w + length (s2b nm))) (Some (v, q)) -> v_parser v = true ->
  at_ q (41%N :: rest) -> f_unit rest -> G (8 + d) j_UNIT p (Some (call nm v, S q)).
Proof.
  intros Hn Hw Hp HE Hv Hq Hr. pose proof (at_app _ _ _ _ Hp) as Hp1. destruct (name_head nm Hn) as (b & r & Hb & Hl).
  assert (head (s2b nm ++ 40%N :: t) = Some b) as Hh by (by rewrite Hb).
  cbn [Nat.add].
  eapply unit_yes; [exact Hw| |exact Hp|].
  { unfold nb. rewrite Hh. unfold letter in Hl. split; intros [= ->]; lia. }
  eapply labeled_plain; [done| |exact Hp1|].
  { right. exists nm, (40%N :: t). done. }
  eapply amp_prim; [eapply prim_call; [exact Hn|exact Hp1|exact HE|exact Hv|exact Hq]|exact Hp1|by apply at_cons in Hq|by destruct Hr|..].
  - rewrite Hh. unfold letter in Hl. intros [= ->]. lia.
  - rewrite Hh. unfold letter in Hl. intros [= ->]. lia.
  - rewrite Hb. cbn. unfold letter in Hl. destruct (r ++ _); intros [= -> ?]; lia.
Qed.
(** Units before other ones. *)
Lemma units_then n us a : plain re_ok false n (Units us) a -> forall d w rest p acc l e, gap w -> at_ p (w ++ a ++ rest) -> f_unit rest -> 14 * n + 8 <= d ->
  L d (rw "UNIT") None (-1) (acc ++ map pval us) (p + length w + length a) l e -> L d (rw "UNIT") None (-1) acc p l e.
Proof.
  intros H. remember false as o0 eqn:Eo. remember (Units us) as f eqn:Ef. revert us Ef.
  induction H as [| | | | | | | | | | | | | | | | |o1 n e0 s H _|o1 n e0 l1 s w1 s1 H _ Hw1 Hw10 H1 IH1| | | | | | | |]; intros us0 [=]; subst; intros d w rest p acc l e Hw Hat Hf Hd HL.
  - eapply loops_more; [apply unit_ref; eapply (plain_parses re_ok _ _ _ _ H text); [exact Hw|done|exact Hat|done|lia]|done|]. exact HL.
  - rewrite <- !app_assoc in Hat.
    eapply loops_more; [apply unit_ref; eapply (plain_parses re_ok _ _ _ _ H text); [exact Hw|done|exact Hat| |lia]|done|].
    + cbn [after follows]. destruct (loose_heads _ _ _ _ _ H1 I rest) as (Hh1 & _ & Hh3). by apply gap_f_unit.
    + eapply (IH1 eq_refl _ eq_refl d w1 rest); [exact Hw1| |exact Hf|lia|].
      * exact (at_app _ _ _ _ (at_app _ _ _ _ Hat)).
      * rewrite !app_length in HL. cbn [map] in HL. rewrite <- app_assoc. cbn [app].
        replace (p + length w + length s + length w1 + length s1) with (p + length w + (length s + (length w1 + length s1))) by lia. exact HL.
Qed.
End Text.

(** ** Reading the result back *)
Definition stands (v : val) (e : pexp) : Prop := v_parser v = true /\ (exists t args l, v = VParser t args l) /\
  exists f0, forall h x fuel, rep [] h x v -> f0 <= fuel -> read_parser fuel (er_heap h) x = Some e.
Lemma stands_pval e : readable e -> stands (pval e) e.
Proof. intros H. split; [apply pval_parser|]. split; [|exact H]. destruct e. cbn. eauto. Qed.
Lemma rep_made h x t args : no_bang t = true -> rep [] h x (VParser (mark_tag None t) args "") ->
  exists a xs at_, x = AObj a /\ er_heap h !! a = Some (Obj (OParser t xs "") at_) /\ reps [] h xs args.
Proof.
  intros Ht H. inversion H as [| | | | | | |a t' xs l' lb lb' at0 Hnp Ha Hargs Hl Hx Hv]; subst.
  apply (label_own t lb "" Ht) in Hl as ->.
  exists a, xs, at0. split; [done|]. split; [|done].
  rewrite er_heap_lookup, Ha. cbn. do 3 f_equal. unfold er_obj. cbn. pose proof (er_mark None t Ht) as E. cbn in E. by rewrite E.
Qed.
Lemma stands_call nm v : name nm -> v_parser v = true -> stands (call nm v) (PExp "" (KRef nm)).
Proof.
  intros Hn Hv. split; [done|]. split; [unfold call; eauto|]. exists 1. intros h x [|f] H Hf; [lia|].
  apply rep_made in H as (a & xs & at0 & -> & Ha & Hargs); [|done]. inversion Hargs as [|y v' xs' l' Hy Hxs]; subst. inversion Hy; subst.
  cbn [read_parser]. rewrite Ha. change (Some (PExp "" (KRef (b2s (s2b nm)))) = Some (PExp "" (KRef nm))). by rewrite b2s_s2b.
Qed.
Lemma read_alls vs es : Forall2 stands vs es -> exists f0, forall h xs fuel, reps [] h xs vs -> f0 <= fuel -> mapM (read_parser fuel (er_heap h)) xs = Some es.
Proof.
  induction 1 as [|v e vs es (_ & _ & f1 & H1) Hl [f2 H2]].
  - exists 0. intros h xs fuel. inversion 1; subst. done.
  - exists (max f1 f2). intros h xs fuel. inversion 1 as [|x v' xs' l' Hx Hxs]; subst. intros Hf. change (mapM (read_parser fuel (er_heap h)) (x :: xs')) with
      (y ← read_parser fuel (er_heap h) x; k ← mapM (read_parser fuel (er_heap h)) xs'; Some (y :: k)). erewrite H1, H2 by (done || lia). done.
Qed.
Lemma stands_seq vs es : Forall2 stands vs es -> stands (VParser (mark_tag None t_seq) vs "") (PExp "" (KSeq TSingle es)).
Proof.
  intros H. split; [done|]. split; [eauto|]. destruct (read_alls vs es H) as [f0 H0]. exists (S f0). intros h x [|f] Hr Hf; [lia|].
  apply rep_made in Hr as (a & xs & at0 & -> & Ha & Hargs); [|done]. cbn [read_parser]. rewrite Ha.
  change (match mapM (read_parser f (er_heap h)) xs with Some l0 => Some (PExp "" (KSeq TSingle l0)) | None => None end = Some (PExp "" (KSeq TSingle es))).
  by rewrite (H0 h xs f Hargs) by lia.
Qed.
Lemma stands_all l : Forall readable l -> Forall2 stands (map pval l) l.
Proof. induction 1; cbn [map]; constructor; [by apply stands_pval|done]. Qed.

Lemma compile_stands re_ok s v e : gives jrules joeson_rx (jcbf re_ok none_at) s 1024 j_EXPR 0 (Some (v, length s)) -> stands v e ->
  exists f0, forall fuel, f0 <= fuel -> compile_with re_ok fuel (gram_of hand) s = ROk e.
Proof.
  intros HE (_ & (t & args & l & Hv) & f1 & Hread). set (mk := none_at) in *.
  assert (textbook (mk_env (gram_of hand) (POpts false false false) joeson_rx (mcb re_ok mk)) (jcbf re_ok mk) s j_top 0 (Some (v, length s))) as HT.
  { assert (gives jrules joeson_rx (jcbf re_ok mk) s 1024 j_top 0 (Some (v, length s))) as [f Hf].
    { apply g_ot; [done|]. eapply does_choice; [done|]. by apply alts_take. }
    exists f. by apply Hf. }
  pose proof (hand_grammar re_ok mk) as Hpure. pose proof Hpure as [_ _ [R HR] _ _].
  pose proof (textbook_meaning _ j_top (CRune (new_rune_stream s)) (jcbf re_ok mk) R j_top 0 _ HR ltac:(constructor) HT) as HM.
  destruct (gram_meaning (gram_of hand) joeson_rx (mcb re_ok mk) (POpts false false false) (jcbf re_ok mk) Hpure hand_top R (fun _ => None) HR ltac:(done)
    (CRune (new_rune_stream s)) _ (rune_code_ok _) eq_refl HM) as (f0 & Hf).
  exists (max f0 f1). intros fuel Hl. specialize (Hf fuel ltac:(lia)). cbn [c_work] in Hf. rewrite Nat.eqb_refl in Hf.
  destruct Hf as (x & s' & Hx & Hr).
  pose proof (com_gram fuel (gram_of hand) (POpts false false false) joeson_rx (mcb re_ok mk) (joeson_cb re_ok) (CRune (new_rune_stream s)) (er_mcb re_ok mk)) as HC.
  rewrite Hx in HC. unfold compile_with, parse_string. rewrite HC. cbn [er_out]. rewrite (Hread _ _ _ Hr) by lia.
  rewrite Hv in Hr. inversion Hr; subst. done.
Qed.

(** ** The two shapes *)
Section Call.
Context (re_ok : bytes -> bool) (n : nat) (nm : string) (e : pexp) (s : bytes).
Hypotheses (Hn : name nm) (He : plain re_ok false n (Expr e) s).
Notation ref := (PExp "" (KRef nm)).
Notation text := (s2b nm ++ [40%N] ++ s ++ [41%N]).

Lemma call_unit t d w rest p : gap w -> Gives.at_ t p (w ++ text ++ rest) -> f_unit rest -> 14 * n + 22 <= d ->
  gives jrules joeson_rx (jcbf re_ok none_at) t d j_UNIT p (Some (call nm (pval e), p + length w + length text)).
Proof.
  intros Hw Hat Hf Hd. rewrite <- !app_assoc in Hat. cbn [app] in Hat. eapply (gives_deeper _ _ _ _ (8 + (14 * n + 14))); [|lia].
  pose proof (at_cons _ _ _ _ (at_app _ _ _ _ (at_app _ _ _ _ Hat))) as Hat2.
  rewrite !app_length. cbn [length]. replace (p + length w + (length (s2b nm) + (1 + (length s + 1)))) with (S (S (p + length w + length (s2b nm)) + length s)) by lia.
  eapply unit_call; [exact Hn|exact Hw|exact Hat| |apply pval_parser|by apply at_app in Hat2|exact Hf].
  eapply (plain_parses re_ok _ _ _ _ He); [exact Hat2|unfold f_expr; cbn; pick|lia].
Qed.
Lemma expr_whole t w v w' : gap w -> gap w' ->
  (forall d p, 14 * n + 22 <= d -> Gives.at_ t p (w ++ text ++ w') -> gives jrules joeson_rx (jcbf re_ok none_at) t d j_UNIT p (Some (v, p + length w + length text))) ->
  t = w ++ text ++ w' -> n <= 68 -> gives jrules joeson_rx (jcbf re_ok none_at) t 1024 j_EXPR 0 (Some (v, length t)).
Proof.
  intros Hw Hw' HU Ht Hn'. assert (Gives.at_ t 0 (w ++ text ++ w')) as Hat by exact Ht. destruct (name_head nm Hn) as (b & r & Hb & Hl).
  assert (f_expr []) as Hfe by done. assert (f_alter w') as Hfa by (rewrite <- (app_nil_r w'); by apply f_expr_alter).
  rewrite Ht at 2. rewrite !app_length. replace (length w + _) with (0 + length w + length text + length w') by (rewrite !app_length; lia).
  eapply (gives_deeper _ _ _ _ (2 + (2 + (10 + (14 * n + 22))))); [|lia].
  pose proof (at_app _ _ _ _ (at_app _ _ _ _ Hat)) as Hat2.
  eapply (expr_yes _ _ _ _ _ _ _ w' []); [|exact Hw'|done|by rewrite app_nil_r].
  assert (head (text ++ w') = Some b) as Hh by (by rewrite Hb).
  unfold letter in Hl. eapply choice_one; [exact Hw|split; rewrite Hh; intros [= ->]; lia|rewrite Hh; intros [= ->]; lia|exact Hat| |exact Hat2|exact Hfa].
  eapply seq_one; [|exact Hat2|by apply f_alter_sequ]. eapply gives_deeper; [apply (HU (14 * n + 22) 0); [lia|exact Hat]|lia].
Qed.
End Call.

(** Alone. *)
Theorem compile_call re_ok n nm e s w w' : name nm -> plain re_ok false n (Expr e) s -> gap w -> gap w' -> n <= 68 ->
  exists f0, forall fuel, f0 <= fuel -> compile_with re_ok fuel (gram_of hand) (w ++ s2b nm ++ [40%N] ++ s ++ [41%N] ++ w') = ROk (PExp "" (KRef nm)).
Proof.
  intros Hn He Hw Hw' Hl. eapply compile_stands; [|apply (stands_call nm (pval e)); [done|apply pval_parser]].
  eapply (expr_whole re_ok n nm s Hn _ w _ w'); [done|done| |by rewrite <- !app_assoc|done].
  intros d p Hd Hat. eapply call_unit; [done|exact He|exact Hw|exact Hat| |exact Hd].
  rewrite <- (app_nil_r w'). apply f_sequ_unit, f_alter_sequ. by apply f_expr_alter.
Qed.
(** Among the parts of a sequence. *)
Theorem compile_call_seq re_ok o n us nm e vs a w s w1 b : plain re_ok false n (Units us) a -> gap w -> w <> [] -> name nm -> plain re_ok false n (Expr e) s ->
  gap w1 -> w1 <> [] -> plain re_ok o n (Units vs) b -> n <= 68 ->
  exists f0, forall fuel, f0 <= fuel ->
    compile_with re_ok fuel (gram_of hand) (a ++ w ++ s2b nm ++ [40%N] ++ s ++ [41%N] ++ w1 ++ b) = ROk (PExp "" (KSeq TSingle (us ++ [PExp "" (KRef nm)] ++ vs))).
Proof.
  intros Ha Hw Hw0 Hn He Hw1 Hw10 Hb Hl. set (c := s2b nm ++ [40%N] ++ s ++ [41%N]).
  replace (a ++ w ++ s2b nm ++ [40%N] ++ s ++ [41%N] ++ w1 ++ b) with (a ++ w ++ c ++ w1 ++ b) by (unfold c; by rewrite <- !app_assoc).
  set (t := a ++ w ++ c ++ w1 ++ b). destruct (name_head nm Hn) as (x & r & Hx & Hlx). unfold letter in Hlx.
  assert (head (c ++ w1 ++ b) = Some x) as Hhc by (unfold c; by rewrite Hx).
  set (vals := map pval us ++ call nm (pval e) :: map pval vs).
  assert (Gives.at_ t 0 ([] ++ a ++ w ++ c ++ w1 ++ b)) as Hat by done.
  pose proof (at_app _ _ _ _ (at_app _ _ _ _ Hat)) as Hat2. pose proof (at_app _ _ _ _ (at_app _ _ _ _ Hat2)) as Hat3.
  destruct (loose_heads _ _ _ _ _ Hb I []) as (Hb1 & _ & Hb3). rewrite app_nil_r in Hb1, Hb3.
  assert (f_unit (w1 ++ b)) as Hfu by (by apply gap_f_unit).
  assert (after o (Units vs) []) as Hao. { destruct o; [done|]. exists [], []. split; [done|]. by split; [constructor|]. }
  assert (loops jrules joeson_rx (jcbf re_ok none_at) t 1000 (rw "UNIT") None (-1) [] 0 vals (length t)) as HL.
  { eapply (units_then re_ok t n us a Ha 1000 [] (w ++ c ++ w1 ++ b)); [constructor|exact Hat| |lia|].
    - apply gap_f_unit; [done|done|..]; [unfold nb; rewrite Hhc; split; intros [= ->]; lia|rewrite Hhc; intros [= ->]; lia].
    - cbn [app]. eapply loops_more; [apply unit_ref; eapply (call_unit re_ok n nm e s Hn He t); [exact Hw|exact Hat2|exact Hfu|lia]|done|].
      unfold vals. replace (map pval us ++ call nm (pval e) :: map pval vs) with ((map pval us ++ [call nm (pval e)]) ++ map pval vs) by (by rewrite <- app_assoc).
      pose proof (plain_parses re_ok _ _ _ _ Hb t (0 + length (@nil N) + length a + length w + length c + length w1) 1000 [] w1 _
        (map pval us ++ [call nm (pval e)]) Hw1 eq_refl) as HP. rewrite app_nil_r in HP. specialize (HP Hat3 Hao ltac:(lia)).
      replace (length t) with (0 + length (@nil N) + length a + length w + length c + length w1 + length b); [exact HP|]. unfold t. rewrite !app_length. cbn. lia. }
  pose proof (stands_all us (plain_reads _ _ _ _ _ Ha)) as Sa. pose proof (stands_all vs (plain_reads _ _ _ _ _ Hb)) as Sb.
  assert (Forall2 stands vals (us ++ [PExp "" (KRef nm)] ++ vs)) as HS.
  { apply Forall2_app; [done|]. constructor; [apply stands_call; [done|apply pval_parser]|done]. }
  assert (forallb v_parser vals = true) as HV.
  { clear -HS. induction HS as [|v y l l' (Hv & _) _ IH]; [done|]. cbn. by rewrite Hv. }
  eapply compile_stands; [|by apply stands_seq].
  assert (2 <= length vals) as Hlen.
  { unfold vals. rewrite app_length. cbn [length]. pose proof (units_some _ _ _ _ _ Ha). rewrite map_length. destruct us; [done|]. cbn. lia. }
  pose proof (seq_loops re_ok none_at t 1000 0 vals (length t) HV Hlen HL) as HQ.
  destruct (plain_begins _ _ _ _ _ Ha) as [(y & r' & Hy & Hyb) _]. cbn in Hyb.
  rewrite <- (Nat.add_0_r (length t)) at 1. eapply (gives_deeper _ _ _ _ (2 + (2 + 1002))); [|lia].
  assert (Gives.at_ t (length t) []) as Hend by (unfold Gives.at_; by rewrite drop_all).
  eapply (expr_yes _ _ _ _ _ _ _ [] []); [|constructor|done|exact Hend].
  destruct (loose_heads _ _ _ _ _ Ha I (w ++ c ++ w1 ++ b)) as (Ha1 & Ha2 & _).
  eapply (choice_one _ _ _ _ [] t); [constructor|exact Ha1|exact Ha2|exact Hat|exact HQ|exact Hend|].
  exists [], []. split; [done|]. by split; [constructor|].
Qed.
