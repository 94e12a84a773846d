(** A text that writes a parser, lookaheads open at the end included, compiles to that parser. *)
From Verif Require Import Base Helpers Utf8 Stream StreamSpec Native Engine EngSpec EngInv Toy Peg PegRep PegStd RunSpec PegLaws PegRun
  Build BuildMain Joeson JoesonSpec JoesonRun Erase JoesonMark Gives TextSpec TextNodes TextPrim TextHeads TextMain TextRun LookSpec.

Definition none_at : nat -> nat -> option string := fun _ _ => None.

(** ** How the texts begin *)
Definition after (o : bool) (f : form) : bytes -> Prop := if o then f_expr else follows f.
Definition bad (o : bool) (f : form) : list N := if o then [32; 10; 124; 45]%N else head_bad f.
Definition begins (o : bool) (f : form) (s : bytes) : Prop :=
  match f with
  | Join _ => True
  | _ => (exists b r, s = b :: r /\ b ∉ bad o f) /\
         forall rest, after o f rest -> match f with Prim _ | Deco _ => no_label (s ++ rest) | _ => no_inline (s ++ rest) end
  end.
Lemma f_expr_sequ r : f_expr r -> f_sequ r.
Proof. intros H. apply f_alter_sequ. by apply (f_expr_alter []); [constructor|]. Qed.
Lemma f_expr_alter0 r : f_expr r -> f_alter r.
Proof. intros H. by apply (f_expr_alter []); [constructor|]. Qed.

Lemma plain_begins re_ok o n f s : plain re_ok o n f s -> begins o f s.
Proof.
  induction 1 as [n nm Hn|n s t Hq|n t Hq Hre|n t Hq Hre|n e s H IH|n|n e s H IH|n e s H IH|n e s H IH|n e j s s' H IH H' IH'
    |n e j mn mx s s' t H IH H' IH' Hr|n e j s s' H IH H' IH'|n e mn mx s t H IH Hr|n e s H IH|n e s H IH|n e s H IH|o n e s H IH
    |o n e s H IH|o n e l s w s' H IH Hw Hw0 H' IH'|o n e s H IH|o n l s H IH Hlen|o n e s H IH|o n e l s w w' s' H IH Hw Hw' H' IH'|o n e s H IH|o n l s H IH Hlen
    |n e w s w' H IH Hw Hw'|n e w s H IH Hw Hq];
    cbn [begins bad after head_bad follows] in *.
  - destruct (name_head nm Hn) as (b & r & Hb & Hl). split; [exists b, r; split; [done|by apply letter_out]|].
    intros rest Hf. apply name_no_label; [done|by apply f_prim_no_alnum|]. destruct Hf as [_ Hf]. eapply hd_not; [exact Hf|notin].
  - split; [eexists _, _; split; [reflexivity|out]|]. intros rest _. by left.
  - split; [eexists _, _; split; [reflexivity|out]|]. intros rest _. by left.
  - split; [eexists _, _; split; [reflexivity|out]|]. intros rest _. by left.
  - split; [eexists _, _; split; [reflexivity|out]|]. intros rest _. by left.
  - done.
  - done.
  - destruct IH as [IH1 IH2]. split; [eapply head_sub; [exact IH1|sub]|]. intros rest Hf. apply IH2. by apply f_join_prim, f_unit_join.
  - destruct IH as [IH1 IH2]. split; [apply app_head_l; eapply head_sub; [exact IH1|sub]|]. intros rest Hf. rewrite <- app_assoc. apply IH2. apply op_f_prim. pick.
  - destruct IH as [IH1 IH2]. split; [apply app_head_l; eapply head_sub; [exact IH1|sub]|]. intros rest Hf. rewrite <- app_assoc. apply IH2. apply op_f_prim. pick.
  - destruct IH as [IH1 IH2]. split; [apply app_head_l; eapply head_sub; [exact IH1|sub]|]. intros rest Hf. rewrite <- app_assoc. apply IH2. apply op_f_prim. pick.
  - destruct IH as [IH1 IH2]. split; [apply app_head_l; eapply head_sub; [exact IH1|sub]|]. intros rest Hf. rewrite <- app_assoc. apply IH2. apply op_f_prim. pick.
  - destruct IH as [IH1 IH2]. split; [apply app_head_l; eapply head_sub; [exact IH1|sub]|]. intros rest Hf. rewrite <- app_assoc. apply IH2.
    destruct (range_head mn mx t Hr) as [r ->]. apply op_f_prim. pick.
  - split; [eexists _, _; split; [reflexivity|out]|]. intros rest _. by left.
  - split; [eexists _, _; split; [reflexivity|out]|]. intros rest _. by left.
  - split; [eexists _, _; split; [reflexivity|out]|]. intros rest _. by left.
  - destruct IH as [IH1 IH2]. split; [by destruct o|]. intros rest Hf. apply no_label_inline, IH2. by destruct o.
  - destruct IH as [IH1 IH2]. split; [by destruct o|]. intros rest Hf. apply IH2. destruct o; [done|]. by apply f_sequ_unit.
  - destruct IH as [IH1 IH2], IH' as [IH1' _]. split; [apply app_head_l; destruct o; [eapply head_sub; [exact IH1|sub]|exact IH1]|]. intros rest Hf. rewrite <- !app_assoc. apply IH2.
    assert (exists b r, s' = b :: r /\ b ∉ [32; 10; 124; 45]%N) as HB by (destruct o; [exact IH1'|eapply head_sub; [exact IH1'|sub]]).
    apply gap_f_unit; [done|done|split; eapply head_ne; [exact HB|pick|exact HB|pick]|eapply head_ne; [exact HB|pick]].
  - destruct IH as [IH1 IH2]. split; [by destruct o|]. intros rest Hf. apply IH2. destruct o; [done|]. by apply f_sequ_unit.
  - destruct o; exact IH.
  - destruct IH as [IH1 IH2]. split; [by destruct o|]. intros rest Hf. apply IH2. destruct o; [done|]. by apply f_alter_sequ.
  - destruct IH as [IH1 IH2]. split; [apply app_head_l; destruct o; [eapply head_sub; [exact IH1|sub]|exact IH1]|]. intros rest Hf. rewrite <- !app_assoc. apply IH2. by apply pipe_f_sequ.
  - destruct IH as [IH1 IH2]. split; [by destruct o|]. intros rest Hf. apply IH2. destruct o; [done|]. by apply f_alter_sequ.
  - destruct o; exact IH.
  - destruct IH as [IH1 IH2]. split.
    + destruct Hw as [|b w [-> | ->] Hw]; [|eexists _, _; split; [reflexivity|out]..]. rewrite app_nil_l. apply app_head_l. eapply head_sub; [exact IH1|sub].
    + intros rest Hf. destruct (decide (w = [])) as [-> |Hne]; [|rewrite <- app_assoc; left; by apply gap_no_letter].
      rewrite app_nil_l, <- app_assoc. apply IH2. by apply f_expr_alter.
  - destruct IH as [IH1 IH2]. split.
    + destruct Hw as [|b w [-> | ->] Hw]; [|eexists _, _; split; [reflexivity|out]..]. rewrite app_nil_l. destruct Hq as [Hq|Hq]; [done|].
      destruct IH1 as (b & r & -> & Hb). exists b, r. split; [done|]. intros Hb'. apply elem_of_list_singleton in Hb' as ->. by apply Hq.
    + intros rest Hf. destruct (decide (w = [])) as [-> |Hne]; [|rewrite <- app_assoc; left; by apply gap_no_letter].
      rewrite app_nil_l. by apply IH2.
Qed.
Lemma plain_len re_ok o n f s : plain re_ok o n f s -> match f with Join _ => True | _ => 0 < length s end.
Proof. intros H. pose proof (plain_begins _ _ _ _ _ H) as H1. destruct f; try done; destruct H1 as [(b & r & -> & _) _]; cbn; lia. Qed.
Lemma begins_ne o f s rest c : begins o f s -> (forall j, f <> Join j) -> c ∈ bad o f -> head (s ++ rest) <> Some c.
Proof. intros H Hj Hc. destruct f; try (by edestruct Hj); destruct H as [H _]; by eapply head_ne. Qed.
Lemma loose_heads re_ok o n f s : plain re_ok o n f s -> match f with Prim _ | Join _ | Expr _ => False | _ => True end -> forall rest,
  nb (s ++ rest) /\ head (s ++ rest) <> Some 124%N /\ head (s ++ rest) <> Some 45%N.
Proof.
  intros H Hf rest. pose proof (plain_begins _ _ _ _ _ H) as H1.
  repeat split; (eapply begins_ne; [exact H1|by destruct f|]); (destruct o; [cbn; pick|destruct f; try done; cbn; pick]).
Qed.

Section Main.
Variable re_ok : bytes -> bool.
Notation G text := (gives jrules joeson_rx (jcbf re_ok none_at) text).
Notation L text := (loops jrules joeson_rx (jcbf re_ok none_at) text).
Notation at_ := Gives.at_.

(** What is parsed, for each form. *)
Definition parses (o : bool) (n : nat) (f : form) (s : bytes) : Prop := forall text p,
  let e := p + length s in
  match f with
  | Prim x => forall d rest, at_ text p (s ++ rest) -> f_prim rest -> 14 * n + 2 <= d -> G text d j_PRIM p (Some (pval x, e))
  | Join j => forall d rest, at_ text p (s ++ rest) -> f_join rest -> 14 * n + 2 <= d ->
      G text d j_join p (Some (match j with Some x => pval x | None => VUndef end, e))
  | Deco x => forall d rest, at_ text p (s ++ rest) -> after o f rest -> 14 * n + 4 <= d -> G text d j_amp p (Some (pval x, e))
  | Unit x => forall d rest w pw, gap w -> p = pw + length w -> at_ text pw (w ++ s ++ rest) -> after o f rest -> 14 * n + 8 <= d ->
      G text d j_UNIT pw (Some (pval x, e))
  | Units l => forall d rest w pw acc, gap w -> p = pw + length w -> at_ text pw (w ++ s ++ rest) -> after o f rest -> 14 * n + 8 <= d ->
      L text d (rw "UNIT") None (-1) acc pw (acc ++ map pval l) e
  | Sequ x => forall d rest w pw, gap w -> p = pw + length w -> at_ text pw (w ++ s ++ rest) -> after o f rest -> 14 * n + 10 <= d ->
      G text d j_SEQ pw (Some (pval x, e))
  | Sequs l => forall d rest w pw, gap w -> p = pw + length w -> at_ text pw (w ++ s ++ rest) -> after o f rest -> 14 * n + 10 <= d ->
      exists x l' q, l = x :: l' /\ G text d j_SEQ pw (Some (pval x, q)) /\
        forall acc, L text d (rw "SEQUENCE") (Some (rcw "_PIPE")) (-1) (acc ++ [pval x]) q (acc ++ map pval l) e
  | Alter x => forall d rest w pw, gap w -> p = pw + length w -> at_ text pw (w ++ s ++ rest) -> after o f rest -> 14 * n + 12 <= d ->
      G text d j_CHOICE pw (Some (pval x, e))
  | Expr x => forall d rest, at_ text p (s ++ rest) -> f_expr rest -> 14 * n + 14 <= d -> G text d j_EXPR p (Some (pval x, e))
  end.
Ltac dn k d := let H := fresh in let d' := fresh "d" in assert (k <= d) as H by lia; destruct (down k d H) as [d' ->]; clear H; cbn [Nat.iter nat_rect] in *.
Lemma pval_some e : pval e <> VUndef.
Proof. by destruct e. Qed.
Lemma j_parser (j : option pexp) : match j with Some x => pval x | None => VUndef end = VUndef \/ v_parser match j with Some x => pval x | None => VUndef end = true.
Proof. destruct j; [right; apply pval_parser|by left]. Qed.

Theorem plain_parses o n f s : plain re_ok o n f s -> parses o n f s.
Proof.
  induction 1 as [n nm Hn|n s t Hq|n t Hq Hre|n t Hq Hre|n e s H IH|n|n e s H IH|n e s H IH|n e s H IH|n e j s s' H IH H' IH'
    |n e j mn mx s s' t H IH H' IH' Hr|n e j s s' H IH H' IH'|n e mn mx s t H IH Hr|n e s H IH|n e s H IH|n e s H IH|o n e s H IH
    |o n e s H IH|o n e l s w s' H IH Hw Hw0 H' IH'|o n e s H IH|o n l s H IH Hlen|o n e s H IH|o n e l s w w' s' H IH Hw Hw' H' IH'|o n e s H IH|o n l s H IH Hlen
    |n e w s w' H IH Hw Hw'|n e w s H IH Hw Hq];
    intros text p; cbn [parses after follows]; cbv zeta.
  - intros d rest Hat Hf Hd. dn 2 d. exact (prim_name re_ok none_at text _ nm rest p Hn Hf Hat).
  - intros d rest Hat Hf Hd. dn 2 d. exact (prim_string re_ok none_at text _ s t rest p Hq Hat).
  - intros d rest Hat Hf Hd. dn 2 d. exact (prim_regex re_ok none_at text _ t rest p Hq Hre Hat).
  - intros d rest Hat Hf Hd. dn 2 d. exact (prim_class re_ok none_at text _ t rest p Hq Hre Hat).
  - (* paren *)
    rewrite !app_length. cbn [length]. intros d rest Hat Hf Hd. dn 2 d.
    rewrite <- app_assoc in Hat. cbn [app] in Hat. rewrite <- app_assoc in Hat. cbn [app] in Hat. pose proof (at_cons _ _ _ _ Hat) as Hat1.
    assert (f_expr (41%N :: rest)) as Hfe by (unfold f_expr; cbn; pick).
    replace (p + (1 + (length s + 1))) with (S (S p + length s)) by lia.
    destruct (plain_begins _ _ _ _ _ H) as [_ Hi]. eapply prim_paren; [exact Hat|exact (Hi _ Hfe)|apply (IH text (S p) _ (41%N :: rest) Hat1 Hfe); lia|by apply at_app in Hat1|]. by destruct Hf.
  - intros d rest Hat [Hf1 Hf2] Hd. dn 2 d. cbn [length]. rewrite Nat.add_0_r. by eapply join_none.
  - intros d rest Hat Hf Hd. apply f_join_prim in Hf. eapply join_some; [eapply (IH text p); [exact Hat|exact Hf|exact Hd]| |exact Hat].
    pose proof (plain_begins _ _ _ _ _ H) as HB. split; (eapply begins_ne; [exact HB|done|cbn; pick]).
  - (* primary alone *)
    intros d rest Hat Hf Hd. dn 3 d. assert (f_prim rest) as Hfp by (by apply f_join_prim, f_unit_join). pose proof (plain_begins _ _ _ _ _ H) as HB.
    eapply amp_prim; [eapply (IH text p); [exact Hat|exact Hfp|lia]|exact Hat|by apply at_app in Hat|by destruct Hf
      |(eapply begins_ne; [exact HB|done|cbn; pick])|(eapply begins_ne; [exact HB|done|cbn; pick])|].
    inversion H; subst; try (cbn; congruence).
    + destruct (name_head nm) as (b & r & Hb & Hlb); [done|]. rewrite Hb. cbn. intros [= ->]. unfold letter in Hlb. lia.
    + match goal with H0 : plain _ _ _ (Expr _) _ |- _ => pose proof (plain_begins _ _ _ _ _ H0) as HE end.
      rewrite <- !app_assoc. cbn [app take]. intros [= HE']. apply (begins_ne _ _ _ (41%N :: rest) 63%N HE); [done|cbn; pick|].
      destruct (s0 ++ 41%N :: rest); [done|]. cbn in HE' |- *. congruence.
  - rewrite app_length. cbn [length]. intros d rest Hat Hf Hd. rewrite <- app_assoc in Hat. cbn [app] in Hat. dn 2 d. rewrite Nat.add_assoc, Nat.add_1_r. apply amp_deco.
    eapply (deco_option re_ok none_at); [apply pval_parser| |by apply at_app in Hat]. eapply (IH text p); [exact Hat|apply op_f_prim; pick|lia].
  - (* star *)
    rewrite app_length. cbn [length app]. replace (p + (length s + S (length s'))) with (S (p + length s) + length s') by lia.
    intros d rest Hat Hf Hd. rewrite <- app_assoc in Hat. cbn [app] in Hat. pose proof (at_app _ _ _ _ Hat) as Hat1. pose proof (at_cons _ _ _ _ Hat1) as Hat2.
    pose proof (at_app _ _ _ _ Hat2) as Hat3. dn 3 d. apply amp_deco.
    eapply (deco_star re_ok none_at); [apply pval_parser| |eapply (IH text p); [exact Hat|apply op_f_prim; pick|lia]|exact Hat1|eapply (IH' text (S (p + length s))); [exact Hat2|by apply f_unit_join|lia]|exact Hat3|].
    + destruct j; [apply pval_parser|done].
    + destruct Hf as [_ Hf]. eapply hd_not; [exact Hf|notin].
  - (* star with range *)
    destruct (range_head _ _ _ Hr) as [t' Ht'].
    rewrite app_length. cbn [length app]. rewrite app_length. replace (p + (length s + S (length s' + length t))) with (S (p + length s) + length s' + length t) by lia.
    intros d rest Hat Hf Hd. rewrite <- app_assoc in Hat. cbn [app] in Hat. rewrite <- app_assoc in Hat.
    pose proof (at_app _ _ _ _ Hat) as Hat1. pose proof (at_cons _ _ _ _ Hat1) as Hat2. pose proof (at_app _ _ _ _ Hat2) as Hat3. dn 3 d. apply amp_deco.
    eapply (deco_star_range re_ok none_at); [apply pval_parser| |eapply (IH text p); [exact Hat|apply op_f_prim; pick|lia]|exact Hat1|eapply (IH' text (S (p + length s))); [exact Hat2| |lia]|exact Hr|exact Hat3].
    + destruct j; [apply pval_parser|done].
    + rewrite Ht'. apply brace_f_join.
  - (* plus *)
    rewrite app_length. cbn [length app]. replace (p + (length s + S (length s'))) with (S (p + length s) + length s') by lia.
    intros d rest Hat Hf Hd. rewrite <- app_assoc in Hat. cbn [app] in Hat. pose proof (at_app _ _ _ _ Hat) as Hat1. pose proof (at_cons _ _ _ _ Hat1) as Hat2. dn 3 d. apply amp_deco.
    eapply (deco_plus re_ok none_at); [apply pval_parser| |eapply (IH text p); [exact Hat|apply op_f_prim; pick|lia]|exact Hat1|eapply (IH' text (S (p + length s))); [exact Hat2|by apply f_unit_join|lia]].
    destruct j; [apply pval_parser|done].
  - (* range *)
    destruct (range_head _ _ _ Hr) as [t' Ht']. rewrite app_length, Nat.add_assoc.
    intros d rest Hat Hf Hd. rewrite <- app_assoc in Hat. pose proof (at_app _ _ _ _ Hat) as Hat1. dn 3 d. apply amp_deco.
    eapply (deco_range re_ok none_at); [apply pval_parser|eapply (IH text p); [exact Hat| |lia]|exact Hr|exact Hat1]. rewrite Ht'. apply op_f_prim. pick.
  - (* not *)
    rewrite app_length. cbn [length]. replace (p + (1 + length s)) with (S p + length s) by lia.
    intros d rest Hat Hf Hd. cbn [app] in Hat. pose proof (at_cons _ _ _ _ Hat) as Hat1. dn 4 d. apply amp_deco.
    eapply (deco_not re_ok none_at); [apply pval_parser|exact Hat|]. eapply (IH text (S p)); [exact Hat1|by apply f_join_prim, f_unit_join|lia].
  - (* look *)
    rewrite !app_length. cbn [length]. replace (p + (2 + (length s + 1))) with (S (S (S p) + length s)) by lia.
    intros d rest Hat Hf Hd. rewrite <- app_assoc in Hat. cbn [app] in Hat. rewrite <- app_assoc in Hat. cbn [app] in Hat.
    pose proof (at_cons _ _ _ _ (at_cons _ _ _ _ Hat)) as Hat2. pose proof (at_app _ _ _ _ Hat2) as Hat3.
    assert (f_expr (41%N :: rest)) as Hfe by (unfold f_expr; cbn; pick). dn 3 d. apply amp_deco.
    destruct (prim_look re_ok none_at text (14 * n + 12) p (pval e) (S (S p) + length s) (s ++ 41%N :: rest) rest) as [w Hw];
      [apply pval_parser|exact Hat|eapply (IH text (S (S p))); [exact Hat2|exact Hfe|lia]|exact Hat3|by destruct Hf|].
    eapply (deco_look re_ok none_at); [apply pval_parser|exact Hat|eapply (IH text (S (S p))); [exact Hat2|exact Hfe|lia]|exact Hat3|eapply gives_deeper; [exact Hw|lia]|by destruct Hf].
  - (* open look *)
    rewrite app_length. cbn [length]. replace (p + (1 + length s)) with (S p + length s) by lia.
    intros d rest Hat Hf Hd. cbn [app] in Hat. pose proof (at_cons _ _ _ _ Hat) as Hat1. dn 4 d. apply amp_deco.
    eapply (deco_bare_look re_ok none_at); [apply pval_parser|exact Hat|]. eapply (IH text (S p)); [exact Hat1|exact Hf|lia].
  - (* unit *)
    intros d rest w pw Hw -> Hat Hf Hd. pose proof (at_app _ _ _ _ Hat) as Hat1. destruct (plain_begins _ _ _ _ _ H) as [_ HB].
    destruct (loose_heads _ _ _ _ _ H I rest) as [Hnb _]. dn 4 d.
    eapply unit_yes; [exact Hw|exact Hnb|exact Hat|]. eapply labeled_plain; [apply pval_some|exact (HB _ Hf)|exact Hat1|]. eapply (IH text); [exact Hat1|exact Hf|lia].
  - (* one of the units *)
    intros d rest w pw acc Hw -> Hat Hf Hd. pose proof (at_app _ _ _ _ (at_app _ _ _ _ Hat)) as Hat2. cbn [map].
    eapply loops_more; [apply unit_ref; eapply (IH text); [exact Hw|done|exact Hat| |lia]|done|]; [destruct o; [done|by apply f_sequ_unit]|].
    apply loops_end. apply unit_ref. dn 8 d. eapply unit_end; [|exact Hat2]. destruct o; [by apply f_expr_sequ|done].
  - (* units *)
    rewrite !app_length. replace (p + (length s + (length w + length s'))) with (p + length s + length w + length s') by lia.
    intros d rest w0 pw acc Hw0' -> Hat Hf Hd. rewrite <- !app_assoc in Hat. pose proof (at_app _ _ _ _ (at_app _ _ _ _ Hat)) as Hat2.
    destruct (loose_heads _ _ _ _ _ H' I rest) as (Hh1 & _ & Hh3).
    eapply loops_more; [apply unit_ref; eapply (IH text); [exact Hw0'|done|exact Hat|by apply gap_f_unit|lia]|done|].
    cbn [map]. replace (acc ++ pval e :: map pval l) with ((acc ++ [pval e]) ++ map pval l) by (by rewrite <- app_assoc).
    eapply (IH' text); [exact Hw|done|exact Hat2|exact Hf|lia].
  - (* one unit *)
    intros d rest w pw Hw -> Hat Hf Hd. pose proof (at_app _ _ _ _ (at_app _ _ _ _ Hat)) as Hat2. dn 10 d.
    eapply seq_one; [eapply (IH text); [exact Hw|done|exact Hat| |lia]|exact Hat2|]; (destruct o; [by try apply f_expr_sequ|by try apply f_sequ_unit]).
  - (* sequence *)
    intros d rest w pw Hw -> Hat Hf Hd. dn 2 d.
    apply (seq_loops re_ok none_at); [apply pvals_parser|by rewrite map_length|]. eapply (IH text _ _ rest w pw []); [exact Hw|done|exact Hat|exact Hf|lia].
  - (* one of the sequences *)
    intros d rest w pw Hw -> Hat Hf Hd. pose proof (at_app _ _ _ _ (at_app _ _ _ _ Hat)) as Hat2. eexists e, [], _. split; [done|]. cbn [map].
    split; [eapply (IH text); [exact Hw|done|exact Hat| |lia]; destruct o; [done|by apply f_alter_sequ]|]. intros acc. apply loops_join_end. eapply pipe_end; [|exact Hat2].
    destruct o; [by apply f_expr_alter0|done].
  - (* sequences *)
    rewrite !app_length. cbn [length]. replace (p + (length s + (length w + (1 + (length w' + length s'))))) with (S (p + length s + length w) + length w' + length s') by lia.
    intros d rest w0 pw Hw0' -> Hat Hf Hd.
    rewrite <- !app_assoc in Hat. cbn [app] in Hat. pose proof (at_app _ _ _ _ (at_app _ _ _ _ Hat)) as Hat2. pose proof (at_app _ _ _ _ Hat2) as Hat3. pose proof (at_cons _ _ _ _ Hat3) as Hat4.
    eexists e, l, _. split; [done|]. split; [eapply (IH text); [exact Hw0'|done|exact Hat|by apply pipe_f_sequ|lia]|]. intros acc.
    destruct (IH' text _ d rest w' _ Hw' eq_refl Hat4 Hf ltac:(lia)) as (x & l' & q & -> & HG & HLL).
    destruct (pipe_yes re_ok none_at text d w (w' ++ s' ++ rest) _ Hw Hat2) as [u Hu].
    eapply loops_join_more; [exact Hu|apply seq_ref; exact HG|done|].
    pose proof (HLL (acc ++ [pval e])) as HLa. rewrite <- !app_assoc in HLa. cbn [app map] in HLa |- *. rewrite <- app_assoc. exact HLa.
  - (* one sequence *)
    intros d rest w pw Hw -> Hat Hf Hd. pose proof (at_app _ _ _ _ (at_app _ _ _ _ Hat)) as Hat2. dn 2 d. destruct (loose_heads _ _ _ _ _ H I rest) as (Hh1 & Hh2 & _).
    eapply choice_one; [exact Hw|exact Hh1|exact Hh2|exact Hat|eapply (IH text); [exact Hw|done|exact Hat| |lia]|exact Hat2|]; (destruct o; [by try apply f_expr_alter0|by try apply f_alter_sequ]).
  - (* choice *)
    intros d rest w pw Hw -> Hat Hf Hd. assert (exists d1, d = S (S d1) /\ 14 * n + 10 <= d1) as (d1 & -> & Hd1) by (exists (d - 2); lia).
    pose proof (at_app _ _ _ _ (at_app _ _ _ _ Hat)) as Hat2. destruct (loose_heads _ _ _ _ _ H I rest) as (Hh1 & Hh2 & _).
    destruct (IH text _ d1 rest w pw Hw eq_refl Hat Hf Hd1) as (x & l' & q & -> & HG & HLL).
    change (pval (PExp "" (KChoice (x :: l')))) with (made_at none_at 0 (pw + length w + length s) t_choice (pval x :: map pval l')).
    eapply choice_many; [apply (pvals_parser (x :: l'))| |exact Hw|exact Hh1|exact Hh2|exact Hat|exact HG|exact (HLL [])|exact Hat2|].
    + destruct l'; [cbn in Hlen; lia|done].
    + destruct o; [by apply f_expr_alter0|done].
  - (* expression *)
    rewrite !app_length. replace (p + (length w + (length s + length w'))) with (p + length w + length s + length w') by lia.
    intros d rest Hat Hf Hd. dn 2 d. rewrite <- !app_assoc in Hat. pose proof (at_app _ _ _ _ (at_app _ _ _ _ Hat)) as Hat2.
    eapply expr_yes; [eapply (IH text _ _ (w' ++ rest) w p); [exact Hw|done|exact Hat|by apply f_expr_alter|lia]|exact Hw'|exact Hf|exact Hat2].
  - (* expression with an open end *)
    rewrite !app_length. replace (p + (length w + length s)) with (p + length w + length s + @length N []) by (cbn; lia).
    intros d rest Hat Hf Hd. dn 2 d. rewrite <- !app_assoc in Hat. pose proof (at_app _ _ _ _ (at_app _ _ _ _ Hat)) as Hat2.
    eapply (expr_yes _ _ _ _ _ _ _ [] rest); [eapply (IH text _ _ rest w p); [exact Hw|done|exact Hat|exact Hf|lia]|constructor|exact Hf|exact Hat2].
Qed.

(** A whole text: an alternation with space around. *)
Lemma plain_text o n e w s : plain re_ok o n (Alter e) s -> gap w -> 14 * n + 14 <= 1024 ->
  G (w ++ s) 1024 j_EXPR 0 (Some (pval e, length (w ++ s))).
Proof.
  intros H Hw Hn. rewrite app_length. replace (length w + length s) with (0 + length w + length s + @length N []) by (cbn; lia).
  assert (at_ (w ++ s) 0 (w ++ s ++ [])) as Hat by (unfold Gives.at_; by rewrite app_nil_r).
  eapply (expr_yes _ _ _ _ _ _ _ [] []); [eapply (plain_parses o n _ s H _ _ _ [] w 0); [exact Hw|done|exact Hat| |lia]|constructor|done|].
  - destruct o; [done|]. exists [], []. split; [done|]. by split; [constructor|].
  - exact (at_app _ _ _ _ (at_app _ _ _ _ Hat)).
Qed.
End Main.

(** ** Reading the result back *)
Lemma plain_reads re_ok o n f s : plain re_ok o n f s -> reads f.
Proof.
  induction 1 as [n nm Hn|n s t Hq|n t Hq Hre|n t Hq Hre|n e s H IH|n|n e s H IH|n e s H IH|n e s H IH|n e j s s' H IH H' IH'
    |n e j mn mx s s' t H IH H' IH' Hr|n e j s s' H IH H' IH'|n e mn mx s t H IH Hr|n e s H IH|n e s H IH|n e s H IH|o n e s H IH
    |o n e s H IH|o n e l s w s' H IH Hw Hw0 H' IH'|o n e s H IH|o n l s H IH Hlen|o n e s H IH|o n e l s w w' s' H IH Hw Hw' H' IH'|o n e s H IH|o n l s H IH Hlen
    |n e w s w' H IH Hw Hw'|n e w s H IH Hw Hq]; cbn [reads] in *.
  - apply rd_ref.
  - apply rd_str.
  - apply rd_regex.
  - apply rd_regex.
  - exact IH.
  - done.
  - by intros e' [= <-].
  - exact IH.
  - apply (rd_one KExist); [by left|exact IH].
  - by apply rd_pat.
  - by apply rd_pat.
  - by apply rd_pat.
  - by apply rd_pat.
  - apply (rd_one KNot); [by right; right|exact IH].
  - apply (rd_one KLook); [by right; left|exact IH].
  - apply (rd_one KLook); [by right; left|exact IH].
  - exact IH.
  - by repeat constructor.
  - by constructor.
  - exact IH.
  - by apply rd_seq.
  - by repeat constructor.
  - by constructor.
  - exact IH.
  - by apply rd_choice.
  - exact IH.
  - exact IH.
Qed.

(** What the joeson grammar parses and can be read back is what is compiled. *)
Lemma compile_parsed re_ok mk s e : gives jrules joeson_rx (jcbf re_ok mk) s 1024 j_EXPR 0 (Some (pval e, length s)) -> readable e ->
  exists f0, forall fuel, f0 <= fuel -> compile_with re_ok fuel (gram_of hand) s = ROk e.
Proof.
  intros HE Hread.
  assert (textbook (mk_env (gram_of hand) (POpts false false false) joeson_rx (mcb re_ok mk)) (jcbf re_ok mk) s j_top 0 (Some (pval e, length s))) as HT.
  { assert (gives jrules joeson_rx (jcbf re_ok mk) s 1024 j_top 0 (Some (pval e, length s))) as [f Hf].
    { apply g_ot; [done|]. eapply does_choice; [done|]. by apply alts_take. }
    exists f. by apply Hf. }
  pose proof (hand_grammar re_ok mk) as Hpure. pose proof Hpure as [_ _ [R HR] _ _].
  pose proof (textbook_meaning _ j_top (CRune (new_rune_stream s)) (jcbf re_ok mk) R j_top 0 _ HR ltac:(constructor) HT) as HM.
  destruct (gram_meaning (gram_of hand) joeson_rx (mcb re_ok mk) (POpts false false false) (jcbf re_ok mk) Hpure hand_top R (fun _ => None) HR ltac:(done)
    (CRune (new_rune_stream s)) _ (rune_code_ok _) eq_refl HM) as (f0 & Hf).
  destruct Hread as [f1 Hread]. exists (max f0 f1). intros fuel Hl. specialize (Hf fuel ltac:(lia)). cbn [c_work] in Hf. rewrite Nat.eqb_refl in Hf.
  destruct Hf as (x & s' & Hx & Hr).
  pose proof (com_gram fuel (gram_of hand) (POpts false false false) joeson_rx (mcb re_ok mk) (joeson_cb re_ok) (CRune (new_rune_stream s)) (er_mcb re_ok mk)) as HC.
  rewrite Hx in HC. unfold compile_with, parse_string. rewrite HC. cbn [er_out]. rewrite (Hread _ _ _ Hr) by lia.
  destruct e as [l k]. apply rep_obj in Hr as (a & ? & ? & -> & _). done.
Qed.

Theorem compile_plain re_ok o n e w s : plain re_ok o n (Alter e) s -> gap w -> n <= 72 ->
  exists f0, forall fuel, f0 <= fuel -> compile_with re_ok fuel (gram_of hand) (w ++ s) = ROk e.
Proof.
  intros H Hw Hn. eapply compile_parsed; [eapply plain_text; [exact H|exact Hw|lia]|]. exact (plain_reads _ _ _ _ _ H).
Qed.
Theorem compile_plain_expr re_ok n e s : plain re_ok false n (Expr e) s -> n <= 72 ->
  exists f0, forall fuel, f0 <= fuel -> compile_with re_ok fuel (gram_of hand) s = ROk e.
Proof.
  intros H Hn. eapply (compile_parsed _ none_at); [|exact (plain_reads _ _ _ _ _ H)].
  apply (plain_parses re_ok _ _ _ _ H s 0 _ []); [unfold Gives.at_; by rewrite app_nil_r|done|lia].
Qed.

(** ** Grouping *)
Lemma units_app re_ok o n l l' a w b : plain re_ok false n (Units l) a -> gap w -> w <> [] -> plain re_ok o n (Units l') b ->
  plain re_ok o n (Units (l ++ l')) (a ++ w ++ b).
Proof.
  intros H Hw Hw0 H'. remember false as o0 eqn:Eo. remember (Units l) as f eqn:Ef. revert l Ef.
  induction H as [| | | | | | | | | | | | | | | | |o1 n e s H _|o1 n e l1 s w1 s1 H _ Hw1 Hw10 H1 IH1| | | | | | | |]; intros l0 [=]; subst.
  - cbn [app]. by apply p_units.
  - rewrite <- !app_assoc. cbn [app]. apply p_units; [done|done|done|]. by apply IH1.
Qed.
Lemma plain_more re_ok o n f s : plain re_ok o n f s -> forall m, n <= m -> plain re_ok o m f s.
Proof.
  induction 1; intros m Hm; try (by econstructor; eauto).
  - destruct m as [|m]; [lia|]. apply p_paren. apply IHplain. lia.
  - destruct m as [|[|m]]; [lia|lia|]. apply p_look. apply IHplain. lia.
  - destruct m as [|m]; [lia|]. apply p_open. apply IHplain. lia.
Qed.

Definition look (e : pexp) : pexp := PExp "" (KLook e).
Definition seq_of (l : list pexp) : pexp := match l with [e] => e | _ => PExp "" (KSeq TSingle l) end.
Definition choice_of (l : list pexp) : pexp := match l with [e] => e | _ => PExp "" (KChoice l) end.
Lemma units_some re_ok o n l s : plain re_ok o n (Units l) s -> l <> [].
Proof. by inversion 1. Qed.
Lemma sequ_of re_ok o n l s : plain re_ok o n (Units l) s -> plain re_ok o n (Sequ (seq_of l)) s.
Proof.
  intros H. pose proof (units_some _ _ _ _ _ H) as Hl. destruct l as [|e [|e' l]]; [done| |apply p_sequ; [done|cbn; lia]].
  cbn. apply p_one_unit. inversion H as [| | | | | | | | | | | | | | | | |o1 n1 e1 s1 H1|o1 n1 e1 l1 s1 w1 s2 H1 Hw1 Hw2 H2| | | | | | | |]; subst; [done|]. by apply units_some in H2.
Qed.
Lemma sequs_some re_ok o n l s : plain re_ok o n (Sequs l) s -> l <> [].
Proof. by inversion 1. Qed.
Lemma alter_of re_ok o n l s : plain re_ok o n (Sequs l) s -> plain re_ok o n (Alter (choice_of l)) s.
Proof.
  intros H. pose proof (sequs_some _ _ _ _ _ H) as Hl. destruct l as [|e [|e' l]]; [done| |apply p_alter; [done|cbn; lia]].
  cbn. apply p_one_sequ. inversion H as [| | | | | | | | | | | | | | | | | | | | |o1 n1 e1 s1 H1|o1 n1 e1 l1 s1 w1 w2 s2 H1 Hw1 Hw2 H2| | | |]; subst; [done|]. by apply sequs_some in H2.
Qed.
Lemma app_length2 {A} (l : list A) x : l <> [] -> 2 <= length (l ++ [x]).
Proof. destruct l; [done|]. intros _. rewrite app_length. cbn. lia. Qed.

Section Group.
Context (re_ok : bytes -> bool) (n : nat) (us os bs : list pexp) (a w om w1 w2 b : bytes).
Hypotheses (Ha : plain re_ok false n (Units us) a) (Ho : plain re_ok false n (Units os) om) (Hb : plain re_ok false n (Sequs bs) b)
  (Hw : gap w) (Hw0 : w <> []) (Hw1 : gap w1) (Hw2 : gap w2).
Notation inner := (om ++ w1 ++ [124%N] ++ w2 ++ b).
Lemma inner_alter : plain re_ok false n (Alter (PExp "" (KChoice (seq_of os :: bs)))) inner.
Proof.
  apply p_alter; [|destruct bs; [by apply sequs_some in Hb|cbn; lia]]. apply p_sequs; [by apply sequ_of|done..].
Qed.
Lemma inner_expr : plain re_ok false n (Expr (PExp "" (KChoice (seq_of os :: bs)))) inner.
Proof. rewrite <- (app_nil_r inner). apply (p_expr re_ok n _ []); [exact inner_alter|constructor|constructor]. Qed.
Lemma group_open : plain re_ok true (S n) (Alter (PExp "" (KSeq TSingle (us ++ [look (PExp "" (KChoice (seq_of os :: bs)))])))) (a ++ w ++ [63%N] ++ inner).
Proof.
  apply p_one_sequ, p_sequ; [|apply app_length2; by eapply units_some]. apply units_app; [apply (plain_more re_ok _ n); [done|lia]|done|done|].
  apply p_units_one, p_unit, p_open, inner_expr.
Qed.
Lemma group_paren : plain re_ok false (S (S n)) (Alter (PExp "" (KSeq TSingle (us ++ [look (PExp "" (KChoice (seq_of os :: bs)))])))) (a ++ w ++ [40; 63]%N ++ inner ++ [41%N]).
Proof.
  apply p_one_sequ, p_sequ; [|apply app_length2; by eapply units_some]. apply units_app; [apply (plain_more re_ok _ n); [done|lia]|done|done|].
  apply p_units_one, p_unit, p_look, inner_expr.
Qed.
Lemma group_explicit : plain re_ok false (S (S n)) (Alter (PExp "" (KChoice (PExp "" (KSeq TSingle (us ++ [look (seq_of os)])) :: bs))))
  (a ++ w ++ [40; 63]%N ++ om ++ [41%N] ++ w1 ++ [124%N] ++ w2 ++ b).
Proof.
  apply p_alter; [|destruct bs; [by apply sequs_some in Hb|cbn; lia]].
  replace (a ++ w ++ [40; 63]%N ++ om ++ [41%N] ++ w1 ++ [124%N] ++ w2 ++ b) with ((a ++ w ++ [40; 63]%N ++ om ++ [41%N]) ++ w1 ++ [124%N] ++ w2 ++ b) by (by rewrite <- !app_assoc).
  apply p_sequs; [|done|done|apply (plain_more re_ok _ n); [done|lia]].
  apply p_sequ; [|apply app_length2; by eapply units_some]. apply units_app; [apply (plain_more re_ok _ n); [done|lia]|done|done|].
  apply p_units_one, p_unit, p_look. rewrite <- (app_nil_r om). apply (p_expr re_ok n _ []); [|constructor|constructor]. by apply p_one_sequ, sequ_of.
Qed.
End Group.
(** [α ?(Ω) β]: what follows the parentheses belongs to the lookahead. *)
Lemma group_after re_ok n us e bs a w om w1 b : plain re_ok false n (Units us) a -> plain re_ok false n (Expr e) om -> plain re_ok false n (Units bs) b ->
  gap w -> w <> [] -> gap w1 -> w1 <> [] ->
  plain re_ok true (S (S n)) (Alter (PExp "" (KSeq TSingle (us ++ [look (PExp "" (KSeq TSingle (e :: bs)))])))) (a ++ w ++ [63; 40]%N ++ om ++ [41%N] ++ w1 ++ b).
Proof.
  intros Ha Ho Hb Hw Hw0 Hw1 Hw10.
  apply p_one_sequ, p_sequ; [|apply app_length2; by eapply units_some]. apply units_app; [apply (plain_more re_ok _ n); [done|lia]|done|done|].
  apply p_units_one, p_unit.
  replace ([63; 40]%N ++ om ++ [41%N] ++ w1 ++ b) with ([63%N] ++ (([40%N] ++ om ++ [41%N]) ++ w1 ++ b)) by (by rewrite <- !app_assoc).
  apply p_open. rewrite <- (app_nil_r (([40%N] ++ om ++ [41%N]) ++ w1 ++ b)). apply (p_expr re_ok _ _ []); [|constructor|constructor].
  apply p_one_sequ, p_sequ; [|destruct bs; [by apply units_some in Hb|cbn; lia]].
  apply p_units; [by apply p_unit, p_prim, p_paren|done|done|]. apply (plain_more re_ok _ n); [done|lia].
Qed.
(** [α !Ω | β]: the alternatives stay outside. *)
Lemma group_not re_ok o n us e bs a w om w1 w2 b : plain re_ok false n (Units us) a -> plain re_ok false n (Prim e) om -> plain re_ok o n (Sequs bs) b ->
  gap w -> w <> [] -> gap w1 -> gap w2 ->
  plain re_ok o n (Alter (PExp "" (KChoice (PExp "" (KSeq TSingle (us ++ [PExp "" (KNot e)])) :: bs)))) (a ++ w ++ [33%N] ++ om ++ w1 ++ [124%N] ++ w2 ++ b).
Proof.
  intros Ha Ho Hb Hw Hw0 Hw1 Hw2. apply p_alter; [|destruct bs; [by apply sequs_some in Hb|cbn; lia]].
  replace (a ++ w ++ [33%N] ++ om ++ w1 ++ [124%N] ++ w2 ++ b) with ((a ++ w ++ [33%N] ++ om) ++ w1 ++ [124%N] ++ w2 ++ b) by (by rewrite <- !app_assoc).
  apply p_sequs; [|done|done|done]. apply p_sequ; [|apply app_length2; by eapply units_some]. apply units_app; [done|done|done|].
  by apply p_units_one, p_unit, p_not.
Qed.
