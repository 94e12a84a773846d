(** A string, regular expression or class that is opened and not closed. *)
From Verif Require Import Base Helpers Utf8 Utf8Spec Stream StreamSpec Native Engine EngSpec EngInv Toy Peg PegRep PegStd RunSpec PegLaws PegRun
  Build BuildMain Joeson JoesonSpec JoesonRun Erase JoesonMark Gives TextSpec TextNodes TextPrim TextHeads TextMain TextRun LookSpec LookMain.

Section Text.
Variable re_ok : bytes -> bool.
Variable text : bytes.
Notation G := (gives jrules joeson_rx (jcbf re_ok none_at) text).
Notation D := (does jrules joeson_rx (jcbf re_ok none_at) text).
Notation L := (loops jrules joeson_rx (jcbf re_ok none_at) text).
Notation at_ := (Gives.at_ text).

Lemma g_ch_end d stop esc m p : jrules esc = Some m -> (m = j_ESC1 \/ m = j_ESC2) -> at_ p [] -> G d (j_ch stop esc) p None.
Proof.
  intros Hm Hmm Hp. apply g_an; [done|by left|]. eapply does_single; [done|].
  eapply singles_cons; [apply g_an; [done|by left|]; eapply does_not; [done|]; eapply g_lit_no; [by left|exact Hp|done]|].
  cbn [i_capture n_info an]. apply singles_fail. apply g_an; [done|by left|]. eapply does_choice; [done|]. apply alts_next; [|apply alts_next; [|apply alts_nil]].
  - eapply g_ref; [by left|exact Hm|].
    assert (D d m p None) as HD.
    { destruct Hmm as [-> | ->]; (eapply does_single; [done|]); apply singles_fail; (eapply g_lit_no; [by left|exact Hp|done]). }
    destruct Hmm as [-> | ->]; [by apply g_ot|]. by eapply (gives_plain _ _ _ _ _ _ _ None).
  - eapply g_ref; [by left|apply rule_any|]. apply g_ot; [done|]. eapply does_regex; [done|]. unfold rgx. by rewrite Hp.
Qed.
Lemma open_loops d stop esc m t : jrules esc = Some m -> (m = j_ESC1 \/ m = j_ESC2) -> before stop t -> (stop < 92)%N \/ (stop = 93)%N -> forall acc p, at_ p t ->
  exists l, L d (j_ch stop esc) None (-1) acc p (acc ++ l) (p + length t).
Proof.
  intros Hm Hmm H Hst. induction H as [|r b t Hu H1 H2 Hq IH|r b t Hu Hq IH]; intros acc p Hp.
  - exists []. rewrite app_nil_r, Nat.add_0_r. apply loops_end. by eapply g_ch_end.
  - destruct (IH (acc ++ [VStr b]) (p + length b)) as (l & Hl); [by apply at_app in Hp|].
    exists (VStr b :: l). rewrite app_length, Nat.add_assoc. rewrite <- app_assoc in Hl.
    eapply loops_more; [|done|exact Hl]. eapply g_ch_plain; [exact Hm|exact Hmm|lia|done|done|done|exact Hp].
  - destruct (IH (acc ++ [VStr (esc_val m b)]) (p + S (length b))) as (l & Hl); [by apply at_app in Hp|].
    exists (VStr (esc_val m b) :: l). rewrite app_length, Nat.add_assoc. rewrite <- app_assoc in Hl.
    eapply loops_more; [|done|exact Hl]. eapply (g_ch_esc re_ok none_at text d stop esc m); [exact Hm|exact Hmm|lia|done|exact Hp].
Qed.
(** The openings and what closes them. *)
Inductive opening : N -> N -> Prop := op_string : opening 39 39 | op_regex : opening 47 47 | op_class : opening 91 93.
Lemma open_prim d c stop t p : opening c stop -> before stop t -> at_ p (c :: t) -> G (S (S d)) j_PRIM p None.
Proof.
  intros Ho Ht Hp. pose proof (at_cons _ _ _ _ Hp) as Hp1. apply g_ru; [done|]. eapply does_choice; [done|].
  assert (at_ (S p + length t) []) as Hpe by (rewrite <- (app_nil_r t) in Hp1; by apply at_app in Hp1).
  apply alts_next; [eapply P0_no; [|exact Hp]; by destruct Ho|]. apply alts_next; [eapply P1_no; [|exact Hp]; by destruct Ho|]. apply alts_next; [eapply P2_no; [|exact Hp]; by destruct Ho|].
  apply alts_next; [|apply alts_next; [|apply alts_next; [|apply alts_nil]]].
  - destruct Ho; [|eapply P3_no; [|exact Hp]; done..].
    destruct (open_loops d 39 "ESC1" j_ESC1 t ltac:(apply rule_ESC1) ltac:(by left) Ht ltac:(by left) [] (S p) Hp1) as (l & Hl).
    apply g_ru_no; [done|]. eapply does_single; [done|]. eapply singles_cons; [eapply g_lit1; [by left|exact Hp]|]. cbn [i_capture n_info an lt].
    eapply singles_cons; [eapply loops_pat; [by left|exact Hl]|]. cbn [i_capture n_info an lt j_chs]. apply singles_fail. eapply g_lit_no; [by left|exact Hpe|done].
  - destruct Ho; [eapply P4_no; [|exact Hp]; done| |eapply P4_no; [|exact Hp]; done].
    destruct (open_loops d 47 "ESC2" j_ESC2 t ltac:(apply rule_ESC2) ltac:(by right) Ht ltac:(by left) [] (S p) Hp1) as (l & Hl).
    apply g_ru_no; [done|]. eapply does_single; [done|]. eapply singles_cons; [eapply g_lit1; [by left|exact Hp]|]. cbn [i_capture n_info an lt].
    eapply singles_cons; [eapply loops_pat; [by left|exact Hl]|]. cbn [i_capture n_info an lt j_chs]. apply singles_fail. eapply g_lit_no; [by left|exact Hpe|done].
  - destruct Ho; [eapply P5_no; [|exact Hp]; done..|].
    destruct (open_loops d 93 "ESC2" j_ESC2 t ltac:(apply rule_ESC2) ltac:(by right) Ht ltac:(by right) [] (S p) Hp1) as (l & Hl).
    apply g_ru_no; [done|]. eapply does_single; [done|]. eapply singles_cons; [eapply g_lit1; [by left|exact Hp]|]. cbn [i_capture n_info an lt].
    eapply singles_cons; [eapply loops_pat; [by left|exact Hl]|]. cbn [i_capture n_info an lt j_chs]. apply singles_fail. eapply g_lit_no; [by left|exact Hpe|done].
Qed.
Lemma open_labeled d c stop t p : opening c stop -> before stop t -> at_ p (c :: t) -> G (S (S (S (S (S (S d)))))) j_LABELED p None.
Proof.
  intros Ho Ht Hp. pose proof (open_prim d c stop t p Ho Ht Hp) as HN.
  assert (G (S (S (S (S d)))) j_DECO p None) as HD.
  { apply g_ru; [done|]. eapply does_choice; [done|].
    apply alts_next; [by apply D0_none|]. apply alts_next; [by apply D1_none|]. apply alts_next; [by apply D2_none|]. apply alts_next; [by apply D3_none|].
    apply alts_next; [eapply D4_no; [exact Hp|by destruct Ho]|]. apply alts_next; [eapply D5_no; [exact Hp|by destruct Ho, t|by destruct Ho]|apply alts_nil]. }
  assert (G (S (S (S (S d)))) j_amp p None) as HA.
  { apply g_an; [done|by right|]. eapply does_choice; [done|]. apply alts_next; [eapply g_ref; [by left|apply rule_DECO|exact HD]|].
    apply alts_next; [eapply g_ref; [by left|apply rule_PRIM|]; eapply gives_deeper; [exact HN|lia]|]. apply alts_nil. }
  apply g_ru; [done|]. eapply does_choice; [done|]. apply alts_next; [|apply alts_next; [|apply alts_next; [|apply alts_nil]]].
  - apply g_ru; [done|]. eapply does_object; [done|]. eapply objects_cons; [eapply lab_no; [|exact Hp]; left; by destruct Ho|reflexivity|]. by apply objects_fail.
  - eapply gives_deeper; [exact HD|lia].
  - eapply gives_deeper; [exact HN|lia].
Qed.
Lemma open_unit d c stop w t p : opening c stop -> before stop t -> gap w -> at_ p (w ++ c :: t) -> G (S (S (S (S (S (S (S (S d)))))))) j_UNIT p None.
Proof.
  intros Ho Ht Hw Hp. assert (nb (c :: t)) as Hnb by (by destruct Ho). pose proof (at_app _ _ _ _ Hp) as Hp1.
  apply g_ru; [done|]. eapply does_choice; [done|]. apply alts_next; [|apply alts_next; [|apply alts_nil]].
  - apply g_ru; [done|]. eapply does_single; [done|]. destruct (g_gap re_ok none_at text (S (S (S (S (S (S d)))))) w (c :: t) p Hw Hnb Hp) as [x Hx]. eapply singles_cons; [exact Hx|].
    apply singles_fail. eapply g_ref; [by left|apply rule_LABELED|]. by eapply open_labeled.
  - destruct Hw as [|b w [-> | ->] Hw].
    + eapply gives_deeper; [by eapply (open_labeled 0)|lia].
    + eapply gives_deeper; [eapply (labeled_no re_ok none_at text 0); [|exact Hp]; done|lia].
    + eapply gives_deeper; [eapply (labeled_no re_ok none_at text 0); [|exact Hp]; done|lia].
Qed.
Lemma open_expr c stop w t : opening c stop -> before stop t -> gap w -> text = w ++ c :: t -> G 1024 j_EXPR 0 None.
Proof.
  intros Ho Ht Hw Htext. assert (at_ 0 (w ++ c :: t)) as Hp by exact Htext. assert (nb (c :: t)) as Hnb by (by destruct Ho).
  pose proof (open_unit 0 c stop w t 0 Ho Ht Hw Hp) as HU.
  assert (G 10 j_SEQ 0 None) as HS.
  { apply g_ru; [done|]. eapply does_choice; [done|]. apply alts_next; [|apply alts_next; [|apply alts_nil]].
    - apply g_ru_no; [done|]. apply (does_pat_none _ _ _ _ 8 j_S0 (rw "UNIT") None 2 (-1)); [done|]. by apply unit_ref.
    - eapply gives_deeper; [exact HU|lia]. }
  assert (G 12 j_CHOICE 0 None) as HC.
  { apply g_ru; [done|]. eapply does_choice; [done|]. apply alts_next; [|apply alts_next; [|apply alts_nil]].
    - apply g_ru_no; [done|]. eapply does_single; [done|]. destruct (pipes_none re_ok none_at text 10 0) as [x Hx]; [eapply pipe_no; [exact Hw|exact Hnb|by destruct Ho|exact Hp]|].
      eapply singles_cons; [exact Hx|]. apply singles_fail. apply g_an; [done|by left|].
      apply (does_pat_none _ _ _ _ 10 j_seqs (rw "SEQUENCE") (Some (rcw "_PIPE")) 2 (-1)); [done|]. by apply seq_ref.
    - eapply gives_deeper; [exact HS|lia]. }
  eapply (gives_deeper _ _ _ _ 14); [|lia]. apply g_ru; [done|]. eapply does_choice; [done|]. apply alts_next; [|apply alts_next; [|apply alts_nil]].
  - apply g_ru; [done|]. eapply does_single; [done|]. apply singles_fail. eapply g_ref; [by left|apply rule_CHOICE|exact HC].
  - eapply gives_deeper; [exact HC|lia].
Qed.
End Text.

(** What the joeson grammar does not parse panics. *)
Lemma compile_refused re_ok s : s <> [] -> gives jrules joeson_rx (jcbf re_ok none_at) s 1024 j_EXPR 0 None ->
  exists f0, forall fuel, f0 <= fuel -> compile_with re_ok fuel (gram_of hand) s = RPanic (PMsg "Error parsing").
Proof.
  intros Hs HE. set (mk := none_at) in *.
  assert (textbook (mk_env (gram_of hand) (POpts false false false) joeson_rx (mcb re_ok mk)) (jcbf re_ok mk) s j_top 0 None) as HT.
  { assert (gives jrules joeson_rx (jcbf re_ok mk) s 1024 j_top 0 None) as [f Hf].
    { apply g_ot; [done|]. eapply does_choice; [done|]. apply alts_next; [done|apply alts_nil]. }
    exists f. by apply Hf. }
  pose proof (hand_grammar re_ok mk) as Hpure. pose proof Hpure as [_ _ [R HR] _ _].
  pose proof (textbook_meaning _ j_top (CRune (new_rune_stream s)) (jcbf re_ok mk) R j_top 0 _ HR ltac:(constructor) HT) as HM.
  destruct (gram_meaning (gram_of hand) joeson_rx (mcb re_ok mk) (POpts false false false) (jcbf re_ok mk) Hpure hand_top R (fun _ => None) HR ltac:(done)
    (CRune (new_rune_stream s)) _ (rune_code_ok _) eq_refl HM) as (f0 & Hf).
  exists f0. intros fuel Hl. specialize (Hf fuel ltac:(lia)). cbn [c_work] in Hf. destruct s as [|b s]; [done|]. cbn in Hf.
  destruct Hf as (x & s' & Hx & Hr).
  pose proof (com_gram fuel (gram_of hand) (POpts false false false) joeson_rx (mcb re_ok mk) (joeson_cb re_ok) (CRune (new_rune_stream (b :: s))) (er_mcb re_ok mk)) as HC.
  rewrite Hx in HC. unfold compile_with, parse_string. rewrite HC. done.
Qed.
Theorem compile_open re_ok c stop w t : opening c stop -> before stop t -> gap w ->
  exists f0, forall fuel, f0 <= fuel -> compile_with re_ok fuel (gram_of hand) (w ++ c :: t) = RPanic (PMsg "Error parsing").
Proof. intros Ho Ht Hw. apply compile_refused; [by destruct w|]. by eapply open_expr. Qed.
