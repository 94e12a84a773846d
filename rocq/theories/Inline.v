(** A reference can be replaced by the parser of its rule. *)
From Verif Require Import Base Helpers Utf8 Stream StreamSpec Native Engine EngSpec EngInv Peg PegRep PegBody PegStd RunSpec PegRun
  Build BuildSpec BuildWalk BuildLines BuildMono BuildPrep BuildProofs BuildMain MeansSpec MeansBuild Means MeansLaws ReadsSpec Reads.
Local Open Scope list_scope.

Lemma rd_deeper rules rx text d t p r : rd rules rx text d t p r -> forall d', d <= d' -> rd rules rx text d' t p r.
Proof.
  induction 1; intros d' Hd; try (by econstructor; eauto).
  destruct d' as [|d']; [lia|]. eapply rd_ref; [done|]. apply IHrd. lia.
Qed.
Lemma rd_label rules rx text d e e' p r : e_kind e = e_kind e' -> rd rules rx text d (RNode e) p r -> rd rules rx text d (RNode e') p r.
Proof. destruct e as [lb k], e' as [lb' k']. cbn [e_kind]. intros <- H. inversion H; subst; by econstructor; eauto. Qed.

Section Inline.
Variables rules rules' : string -> option pexp.
Variable rx : bytes -> bytes -> option (nat * nat).
Variable text : bytes.
Variables (lb nm : string) (x e' : pexp).
Notation e := (PExp lb (KRef nm)).
Hypothesis Hx : rules nm = Some x.
Hypothesis Hk : e_kind x = e_kind e'.
Lemma near_cases a a' : near e e' a a' -> one_step (near e e') a a' \/ a = e /\ a' = e'.
Proof.
  intros [<-|Hp]; [left; apply near_self|]. destruct Hp; [by right|left..].
  - constructor. by apply near_put.
  - constructor. by apply near_put.
  - constructor; [by right|]. destruct j; constructor. by left.
  - constructor; [by left|]. constructor. by right.
  - constructor. by right.
  - constructor. by right.
  - constructor. by right.
Qed.
Ltac step Hl := destruct (near_cases _ _ Hl) as [Hs|[Ee Ee']]; [|try discriminate Ee];
  [match type of Hs with one_step _ _ ?y => destruct y as [lb' k'] end; unfold one_step in Hs; cbn [e_kind] in Hs; inversion Hs; subst| ..].
Lemma inline_to d t p r : (forall n y, rules n = Some y -> exists y', rules' n = Some y' /\ near e e' y y') -> rd rules rx text d t p r -> forall t', task_like (near e e') t t' -> rd rules' rx text d t' p r.
Proof.
  intros Hrules. induction 1; intros t0 Hl; destruct t0 as [a9|l9|l9|j9|v9 j9 mn9 mx9 k9]; cbn [task_like] in *; try done.
  - step Hl. constructor.
  - step Hl. constructor.
  - step Hl.
    + match goal with H : rules _ = Some _ |- _ => destruct (Hrules _ _ H) as (y' & Hy & Hyy) end. eapply rd_ref; [exact Hy|]. by apply IHrd.
    + injection Ee as -> ->. subst a9. match goal with H : rules nm = Some ?y |- _ => tryif constr_eq y x then fail else (assert (y = x) as -> by congruence) end. apply (rd_deeper _ _ _ d); [|lia]. eapply rd_label; [exact Hk|]. apply IHrd. by left.
  - step Hl. constructor.
  - step Hl. apply rd_seq. by apply IHrd.
  - step Hl. apply rd_choice. by apply IHrd.
  - step Hl. apply rd_first_fail. by apply IHrd.
  - step Hl. eapply rd_first; [by apply IHrd1|]. by apply IHrd2.
  - step Hl. apply rd_exist. by apply IHrd.
  - step Hl. apply rd_exist_not. by apply IHrd.
  - step Hl. eapply rd_look. by apply IHrd.
  - step Hl. apply rd_look_not. by apply IHrd.
  - step Hl. eapply rd_not. by apply IHrd.
  - step Hl. apply rd_not_not. by apply IHrd.
  - inversion Hl; subst. constructor.
  - inversion Hl; subst. apply rd_seq_fail. by apply IHrd.
  - inversion Hl; subst. eapply rd_seq_next; [by apply IHrd1|by apply IHrd2].
  - inversion Hl; subst. constructor.
  - inversion Hl; subst. apply rd_alt_this. by apply IHrd.
  - inversion Hl; subst. apply rd_alt_next; [by apply IHrd1|by apply IHrd2].
  - inversion Hl; subst. constructor.
  - inversion Hl; subst. constructor. by apply IHrd.
  - destruct Hl as (H1 & H2 & <- & <- & <-). apply rd_more_join. by apply IHrd.
  - destruct Hl as (H1' & H2 & <- & <- & <-). eapply rd_more_end; [by apply IHrd1|by apply IHrd2].
  - destruct Hl as (H1' & H2 & <- & <- & <-). eapply rd_more_full; [by apply IHrd1|by apply IHrd2|done].
  - destruct Hl as (H1' & H3 & <- & <- & <-). eapply rd_more_next; [by apply IHrd1|by apply IHrd2|done|by apply IHrd3].
Qed.
(** Back: the rules are nested deeper. *)
Definition some (t : rtask) (p : nat) (r : option nat) : Prop := exists d, rd rules rx text d t p r.
Definition strict (t t' : rtask) : Prop :=
  match t, t' with
  | RNode a, RNode a' => one_step (near e e') a a'
  | RNode _, _ => False
  | _, _ => task_like (near e e') t t'
  end.
Lemma lift a a' p r : (forall t, strict t (RNode a') -> some t p r) -> near e e' a a' -> some (RNode a) p r.
Proof.
  intros H Hn. destruct (near_cases _ _ Hn) as [Hs|[-> ->]]; [by apply H|].
  destruct (H (RNode e')) as [d Hd]; [apply near_self|]. exists (S d). eapply rd_ref; [exact Hx|]. eapply rd_label; [symmetry; exact Hk|done].
Qed.
Ltac node' := match goal with Hs : strict ?t (RNode _) |- _ => destruct t as [[lb' k']|l9|l9|j9|v9 j9 mn9 mx9 k9]; cbn [strict task_like] in Hs; try done; unfold one_step in Hs; cbn [e_kind] in Hs; inversion Hs; subst end.
Ltac list' := match goal with Hs : strict ?t _ |- _ => destruct t as [a9|l9|l9|j9|v9 j9 mn9 mx9 k9]; cbn [strict task_like] in Hs; try done; try (inversion Hs; subst) end.
Ltac deeper := eapply rd_deeper; [eassumption|lia].
Lemma inline_from d t' p r : (forall n y', rules' n = Some y' -> exists y, rules n = Some y /\ near e e' y y') -> rd rules' rx text d t' p r -> forall t, strict t t' -> some t p r.
Proof.
  intros Hrules'. induction 1; intros t0 Hst.
  - node'. exists 0. constructor.
  - node'. exists 0. constructor.
  - node'. match goal with H : rules' _ = Some _ |- _ => destruct (Hrules' _ _ H) as (y & Hy & Hyy) end. destruct (lift _ _ _ _ IHrd Hyy) as [d1 H1]. exists (S d1). by eapply rd_ref.
  - node'. exists 0. constructor.
  - node'. match goal with HF : Forall2 _ ?l _ |- _ => destruct (IHrd (RSeq l) HF) as [d1 H1] end. exists d1. by constructor.
  - node'. match goal with HF : Forall2 _ ?l _ |- _ => destruct (IHrd (RAlt l) HF) as [d1 H1] end. exists d1. by constructor.
  - node'. match goal with HF : near _ _ ?l _ |- _ => destruct (lift _ _ _ _ IHrd HF) as [d1 H1] end. exists d1. by constructor.
  - node'. match goal with HF : near _ _ ?l _, HJ : option_Forall2 _ ?j0 _ |- _ => destruct (lift _ _ _ _ IHrd1 HF) as [d1 H1]; destruct (IHrd2 (RMore l j0 mn mx 1)) as [d2 H2]; [by repeat split|] end.
    exists (d1 + d2). eapply rd_first; deeper.
  - node'. match goal with HF : near _ _ ?l _ |- _ => destruct (lift _ _ _ _ IHrd HF) as [d1 H1] end. exists d1. by constructor.
  - node'. match goal with HF : near _ _ ?l _ |- _ => destruct (lift _ _ _ _ IHrd HF) as [d1 H1] end. exists d1. by constructor.
  - node'. match goal with HF : near _ _ ?l _ |- _ => destruct (lift _ _ _ _ IHrd HF) as [d1 H1] end. exists d1. by econstructor.
  - node'. match goal with HF : near _ _ ?l _ |- _ => destruct (lift _ _ _ _ IHrd HF) as [d1 H1] end. exists d1. by constructor.
  - node'. match goal with HF : near _ _ ?l _ |- _ => destruct (lift _ _ _ _ IHrd HF) as [d1 H1] end. exists d1. by econstructor.
  - node'. match goal with HF : near _ _ ?l _ |- _ => destruct (lift _ _ _ _ IHrd HF) as [d1 H1] end. exists d1. by constructor.
  - list'. exists 0. constructor.
  - list'. match goal with HF : near _ _ ?l _ |- _ => destruct (lift _ _ _ _ IHrd HF) as [d1 H1] end. exists d1. by constructor.
  - list'. match goal with HF : near _ _ ?l _, HL : Forall2 _ ?l1 _ |- _ => destruct (lift _ _ _ _ IHrd1 HF) as [d1 H1]; destruct (IHrd2 (RSeq l1) HL) as [d2 H2] end.
    exists (d1 + d2). eapply rd_seq_next; deeper.
  - list'. exists 0. constructor.
  - list'. match goal with HF : near _ _ ?l _ |- _ => destruct (lift _ _ _ _ IHrd HF) as [d1 H1] end. exists d1. by constructor.
  - list'. match goal with HF : near _ _ ?l _, HL : Forall2 _ ?l1 _ |- _ => destruct (lift _ _ _ _ IHrd1 HF) as [d1 H1]; destruct (IHrd2 (RAlt l1) HL) as [d2 H2] end.
    exists (d1 + d2). eapply rd_alt_next; deeper.
  - list'. exists 0. constructor.
  - list'. match goal with HF : near _ _ ?l _ |- _ => destruct (lift _ _ _ _ IHrd HF) as [d1 H1] end. exists d1. by constructor.
  - destruct t0 as [a9|l9|l9|j9|v9 j9 mn9 mx9 k9]; try done. destruct Hst as (Hv & Hj & -> & -> & ->). destruct (IHrd (RJoin j9) Hj) as [d1 H1]. exists d1. by constructor.
  - destruct t0 as [a9|l9|l9|j9|v9 j9 mn9 mx9 k9]; try done. destruct Hst as (Hv & Hj & -> & -> & ->). destruct (IHrd1 (RJoin j9) Hj) as [d1 H1].
    destruct (lift _ _ _ _ IHrd2 Hv) as [d2 H2]. exists (d1 + d2). eapply rd_more_end; deeper.
  - destruct t0 as [a9|l9|l9|j9|v9 j9 mn9 mx9 k9]; try done. destruct Hst as (Hv & Hj & -> & -> & ->). destruct (IHrd1 (RJoin j9) Hj) as [d1 H1'].
    destruct (lift _ _ _ _ IHrd2 Hv) as [d2 H2]. exists (d1 + d2). eapply rd_more_full; [deeper|deeper|done].
  - destruct t0 as [a9|l9|l9|j9|v9 j9 mn9 mx9 k9]; try done. destruct Hst as (Hv & Hj & -> & -> & ->). destruct (IHrd1 (RJoin j9) Hj) as [d1 H1'].
    destruct (lift _ _ _ _ IHrd2 Hv) as [d2 H2']. destruct (IHrd3 (RMore v9 j9 mn mx (S k))) as [d3 H3]; [by repeat split|]. exists (d1 + d2 + d3). eapply rd_more_next; [deeper|deeper|done|deeper].
Qed.
End Inline.

(** ** Lines *)
Section Lines.
Variable compile : bytes -> res pexp.
Variables (name lb nm : string) (ls ls' : list line) (x e' : pexp).
Hypothesis Hx : rules_read compile (decls name ls) nm = Some x.
Hypothesis Hk : e_kind x = e_kind e'.
Hypothesis Hput : put_in compile (PExp lb (KRef nm)) e' (LA ls) (LA ls').
Lemma put_both : Forall2 (read_near compile (PExp lb (KRef nm)) e') (decls name ls) (decls name ls') /\ o_names name ls 0 = o_names name ls' 0.
Proof.
  inversion Hput as [|l1 l l' l2 Hl E1 E2| |]; subst. pose proof (put_decls compile _ _ l l' Hl) as (_ & H2 & H3). split.
  - rewrite !decls_eq. apply Forall2_app; [apply H2|apply H3].
  - by apply (o_names_put compile _ _ l l' Hl).
Qed.
Lemma rules_to n y : rules_read compile (decls name ls) n = Some y -> exists y', rules_read compile (decls name ls') n = Some y' /\ near (PExp lb (KRef nm)) e' y y'.
Proof. exact (put_rules compile _ _ _ _ (proj1 put_both) n y). Qed.
Lemma rules_from n y' : rules_read compile (decls name ls') n = Some y' -> exists y, rules_read compile (decls name ls) n = Some y /\ near (PExp lb (KRef nm)) e' y y'.
Proof.
  pose proof (proj1 put_both) as H. clear Hx Hput. unfold rules_read. induction H as [|d d' ds ds' [Hn Hd] HF IH]; [done|]. cbn [List.find]. rewrite <- Hn.
  destruct (String.eqb (d_name d) n); [|done]. intros E. rewrite E in Hd. destruct (decl_read compile d) as [y|]; [eauto|done].
Qed.
Lemma inline_reads rx depth text r : reads_to compile name ls rx depth text r -> reads_to compile name ls' rx depth text r.
Proof. unfold reads_to. rewrite <- (proj2 put_both). intros H. eapply inline_to; [exact Hx|exact Hk|exact rules_to|exact H|by left]. Qed.
Lemma inline_back rx depth text r : reads_to compile name ls' rx depth text r -> exists depth', reads_to compile name ls rx depth' text r.
Proof. unfold reads_to. rewrite <- (proj2 put_both). intros H. eapply inline_from; [exact Hx|exact Hk|exact rules_from|exact H|apply near_self]. Qed.
End Lines.
Lemma inline_parse compile fuel fuel' name lb nm ls ls' x e' b b' :
  rules_read compile (decls name ls) nm = Some x -> e_kind x = e_kind e' -> put_in compile (PExp lb (KRef nm)) e' (LA ls) (LA ls') ->
  build compile fuel name ls = ROk b -> build compile fuel' name ls' = ROk b' ->
  in_words compile name ls -> in_words compile name ls' -> only_texts compile name ls -> only_texts compile name ls' ->
  forall o rx cb cbf text e, (forall re, rx_ok (rx re)) -> (forall c, cb_keeps (mk_env (gram_of b) o rx cb) cbf c) ->
  (forall c, cb_keeps (mk_env (gram_of b') o rx cb) cbf c) -> po_debug o = false ->
  reads_to compile name ls rx stack_limit text e ->
  exists fuel0, forall f, fuel0 <= f -> takes text e (fst (parse_string f (gram_of b) o rx cb text)) /\
    takes text e (fst (parse_string f (gram_of b') o rx cb text)).
Proof.
  intros Hx Hk Hp Hb Hb' Hw Hw' Ho Ho' o rx cb cbf text e Hrx Hcb Hcb' Hd H1.
  pose proof (inline_reads compile name lb nm ls ls' x e' Hx Hk Hp rx _ _ _ H1) as H2.
  destruct (reads_parse _ _ _ _ _ Hb Hw Ho o rx cb cbf text e Hrx Hcb Hd H1) as [f1 F1].
  destruct (reads_parse _ _ _ _ _ Hb' Hw' Ho' o rx cb cbf text e Hrx Hcb' Hd H2) as [f2 F2].
  exists (f1 + f2). intros f Hf. split; [apply F1|apply F2]; lia.
Qed.
