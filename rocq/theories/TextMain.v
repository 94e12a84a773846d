(** A text that writes a parser is parsed to that parser, as values. *)
From Verif Require Import Base Helpers Native Engine EngSpec EngInv Peg PegStd
  Build BuildMain Joeson JoesonSpec JoesonRun Erase JoesonMark Gives TextSpec TextNodes TextPrim TextHeads.

(** ** The value of a parser *)
Definition tag_of {A} (k : kind A) : string :=
  match k with
  | KStr _ => t_str | KRegex _ => t_regex | KRef _ => t_ref | KSeq _ _ => t_seq | KChoice _ => t_choice
  | KPat _ _ _ _ => t_pat | KExist _ => t_exist | KLook _ => t_look | KNot _ => t_not | _ => ""%string
  end.
Definition mark_of (l : string) : option string := if String.eqb l "" then None else Some l.
Fixpoint pval (e : pexp) : val :=
  match e with
  | PExp l k =>
      VParser (mark_tag (mark_of l) (tag_of k))
        match k with
        | KStr s | KRegex s => [VStr s]
        | KRef nm => [VStr (s2b nm)]
        | KSeq _ es | KChoice es => map pval es
        | KPat e j mn mx => [pval e; match j with Some x => pval x | None => VUndef end; VInt mn; VInt mx]
        | KExist e | KLook e | KNot e => [pval e]
        | _ => []
        end l
  end.
Definition kargs (k : kind pexp) : list val :=
  match k with
  | KStr s | KRegex s => [VStr s]
  | KRef nm => [VStr (s2b nm)]
  | KSeq _ es | KChoice es => map pval es
  | KPat e j mn mx => [pval e; match j with Some x => pval x | None => VUndef end; VInt mn; VInt mx]
  | KExist e | KLook e | KNot e => [pval e]
  | _ => []
  end.
(** With a mark of one's choice outside. *)
Definition pv (m : option string) (e : pexp) : val := match e with PExp l k => VParser (mark_tag m (tag_of k)) (kargs k) l end.
Definition lab_of (e : pexp) : option string := match e with PExp l _ => mark_of l end.
Definition okl (m : option string) (e : pexp) : Prop := match e with PExp l _ => l = ""%string \/ m = Some l end.
Lemma pval_pv e : pval e = pv (lab_of e) e.
Proof. destruct e as [l k]. by destruct k. Qed.
Lemma okl_own e : okl (lab_of e) e.
Proof. destruct e as [l k]. cbn. unfold mark_of. destruct (String.eqb_spec l ""); [by left|by right]. Qed.
Lemma pv_parser m e : v_parser (pv m e) = true.
Proof. by destruct e. Qed.
Lemma pval_parser e : v_parser (pval e) = true.
Proof. rewrite pval_pv. apply pv_parser. Qed.
Lemma pvals_parser l : forallb v_parser (map pval l) = true.
Proof. induction l as [|e l IH]; [done|]. cbn [map forallb]. by rewrite pval_parser, IH. Qed.
Lemma pv_some m e : pv m e <> VUndef.
Proof. by destruct e. Qed.

(** ** Which marks stand where *)
Notation key := (nat * nat)%type.
Definition marks := list (key * option string).
Definition agrees (mk : nat -> nat -> option string) (ms : marks) : Prop := Forall (fun x => mk x.1.1 x.1.2 = x.2) ms.
Definition within (m a b : nat) (ks : list key) : Prop :=
  NoDup ks /\ Forall (fun k => a < k.2 <= b /\ (k.2 = b -> m <= k.1)) ks.
Lemma within_weaken m a b m' a' b' ks : within m a b ks -> a' <= a -> (b < b' \/ (b = b' /\ m' <= m)) -> within m' a' b' ks.
Proof. intros [H1 H2] Ha Hb. split; [done|]. eapply Forall_impl; [exact H2|]. cbn. intros k. lia. Qed.
Lemma within_nil m a b : within m a b [].
Proof. split; [by apply NoDup_nil|by apply Forall_nil]. Qed.
Lemma within_app m' m a b c e ks ks' : within m' a b ks -> within m c e ks' -> b <= c -> b < e -> a <= c -> within m a e (ks ++ ks').
Proof.
  intros [H1 H2] [H3 H4] Hbc Hbe Hac. rewrite Forall_forall in H2, H4. split.
  - apply NoDup_app. split; [done|]. split; [|done]. intros k Hk Hk'. specialize (H2 k Hk). specialize (H4 k Hk'). cbn in *. lia.
  - apply Forall_app. split; apply Forall_forall; intros k Hk; [specialize (H2 k Hk)|specialize (H4 k Hk)]; cbn in *; lia.
Qed.
Lemma within_cons c m a b ks : within (S c) a b ks -> a < b -> m <= c -> within m a b ((c, b) :: ks).
Proof.
  intros [H1 H2] Hab Hm. rewrite Forall_forall in H2. split.
  - apply NoDup_cons. split; [|done]. intros Hk. specialize (H2 _ Hk). cbn in *. lia.
  - apply Forall_cons. split; [cbn; lia|]. apply Forall_forall. intros k Hk. specialize (H2 k Hk). cbn in *. lia.
Qed.

(** [P] holds for all marks that agree with some list of marks between [a] and [b]. *)
Definition many (m a b : nat) (P : (nat -> nat -> option string) -> Prop) : Prop :=
  exists ms : marks, within m a b ms.*1 /\ forall mk, agrees mk ms -> P mk.
(** The same with the mark of [e] itself left open. *)
Definition one (m a b : nat) (e : pexp) (P : (nat -> nat -> option string) -> option string -> Prop) : Prop :=
  exists (k : key) (ms : marks), within m a b (k :: ms.*1) /\ forall mk, agrees mk ms -> okl (mk k.1 k.2) e -> P mk (mk k.1 k.2).
Lemma many_imp m a b m' a' b' (P Q : _ -> Prop) : many m a b P -> a' <= a -> (b < b' \/ (b = b' /\ m' <= m)) -> (forall mk, P mk -> Q mk) -> many m' a' b' Q.
Proof. intros (ms & H1 & H2) Ha Hb HPQ. exists ms. split; [by eapply within_weaken|]. auto. Qed.
Lemma one_imp m a b e m' a' b' e' (P Q : _ -> _ -> Prop) : one m a b e P -> a' <= a -> (b < b' \/ (b = b' /\ m' <= m)) ->
  (forall l, okl l e' -> okl l e) -> (forall mk l, okl l e' -> P mk l -> Q mk l) -> one m' a' b' e' Q.
Proof. intros (k & ms & H1 & H2) Ha Hb He HPQ. exists k, ms. split; [by eapply within_weaken|]. auto. Qed.
Lemma many_one m a b e (P : _ -> _ -> Prop) : one m a b e P -> many m a b (fun mk => P mk (lab_of e)).
Proof.
  intros (k & ms & H1 & H2). exists ((k, lab_of e) :: ms). split; [exact H1|]. intros mk Ha. apply Forall_cons in Ha as [Hk Ha]. cbn in Hk.
  rewrite <- Hk. apply H2; [done|]. rewrite Hk. apply okl_own.
Qed.
Lemma many_none m a b (P : _ -> Prop) : (forall mk, P mk) -> many m a b P.
Proof. intros H. exists []. split; [apply within_nil|]. auto. Qed.
Lemma many_app m' m a b c e (P Q : _ -> Prop) : many m' a b P -> many m c e Q -> b <= c -> b < e -> a <= c -> many m a e (fun mk => P mk /\ Q mk).
Proof.
  intros (ms & H1 & H2) (ms' & H3 & H4) Hbc Hbe Hac. exists (ms ++ ms'). split; [rewrite fmap_app; by eapply within_app|].
  intros mk Ha. apply Forall_app in Ha as [Ha Ha']. auto.
Qed.
Lemma one_new c m a b e (P : _ -> Prop) (Q : _ -> _ -> Prop) : many (S c) a b P -> a < b -> m <= c -> (forall mk, P mk -> Q mk (mk c b)) -> one m a b e Q.
Proof.
  intros (ms & H1 & H2) Hab Hm HQ. exists (c, b), ms. split; [by apply within_cons|]. intros mk Ha _. apply HQ. auto.
Qed.

Section Main.
Variable re_ok : bytes -> bool.
Notation G mk text := (gives jrules joeson_rx (jcbf re_ok mk) text).
Notation L mk text := (loops jrules joeson_rx (jcbf re_ok mk) text).
Notation at_ := Gives.at_.

(** What is parsed, for each form: the node, and how deep the parse goes. *)
Definition good (n : nat) (f : form) (s : bytes) : Prop := forall p,
  let e := p + length s in
  match f with
  | Prim x => one 7 p e x (fun mk lab => forall text d rest, at_ text p (s ++ rest) -> f_prim rest -> 14 * n + 2 <= d ->
      G mk text d j_PRIM p (Some (pv lab x, e)))
  | Join j => many 7 p e (fun mk => forall text d rest, at_ text p (s ++ rest) -> f_join rest -> 14 * n + 2 <= d ->
      G mk text d j_join p (Some (match j with Some x => pval x | None => VUndef end, e)))
  | Deco x => one 2 p e x (fun mk lab => forall text d rest, at_ text p (s ++ rest) -> f_unit rest -> 14 * n + 4 <= d ->
      G mk text d j_amp p (Some (pv lab x, e)))
  | Unit x => one 2 p e x (fun mk lab => forall text d rest w pw, gap w -> p = pw + length w -> at_ text pw (w ++ s ++ rest) -> f_unit rest -> 14 * n + 8 <= d ->
      G mk text d j_UNIT pw (Some (pv lab x, e)))
  | Units l => many 2 p e (fun mk => forall text d rest w pw acc, gap w -> p = pw + length w -> at_ text pw (w ++ s ++ rest) -> f_sequ rest -> 14 * n + 8 <= d ->
      L mk text d (rw "UNIT") None (-1) acc pw (acc ++ map pval l) e)
  | Sequ x => one 1 p e x (fun mk lab => forall text d rest w pw, gap w -> p = pw + length w -> at_ text pw (w ++ s ++ rest) -> f_sequ rest -> 14 * n + 10 <= d ->
      G mk text d j_SEQ pw (Some (pv lab x, e)))
  | Sequs l => many 1 p e (fun mk => forall text d rest w pw, gap w -> p = pw + length w -> at_ text pw (w ++ s ++ rest) -> f_alter rest -> 14 * n + 10 <= d ->
      exists x l' q, l = x :: l' /\ G mk text d j_SEQ pw (Some (pval x, q)) /\
        forall acc, L mk text d (rw "SEQUENCE") (Some (rcw "_PIPE")) (-1) (acc ++ [pval x]) q (acc ++ map pval l) e)
  | Alter x => one 0 p e x (fun mk lab => forall text d rest w pw, gap w -> p = pw + length w -> at_ text pw (w ++ s ++ rest) -> f_alter rest -> 14 * n + 12 <= d ->
      G mk text d j_CHOICE pw (Some (pv lab x, e)))
  | Expr x => one 0 p e x (fun mk lab => forall text d rest, at_ text p (s ++ rest) -> f_expr rest -> 14 * n + 14 <= d ->
      G mk text d j_EXPR p (Some (pv lab x, e)))
  end.

Lemma down k d : k <= d -> exists d', d = Nat.iter k S d'.
Proof. intros H. exists (d - k). assert (forall i x, Nat.iter i S x = i + x) as E by (induction i as [|i IHi]; intros x; [done|]; cbn; by rewrite <- IHi). rewrite E. lia. Qed.
Ltac dn k d := let H := fresh in let d' := fresh "d" in assert (k <= d) as H by lia; destruct (down k d H) as [d' ->]; clear H; cbn [Nat.iter nat_rect] in *.
Lemma name_len nm : name nm -> 0 < length (s2b nm).
Proof. unfold name. destruct (s2b nm); [done|]. cbn. lia. Qed.
Lemma head_len (l : list N) (s : bytes) : (exists b r, s = b :: r /\ b ∉ l) -> 0 < length s.
Proof. intros (b & r & -> & _). cbn. lia. Qed.
Lemma writes_len n f s : writes re_ok n f s -> match f with Join _ => True | _ => 0 < length s end.
Proof. intros H. pose proof (writes_heads _ _ _ _ H) as H1. destruct f; try done; destruct H1 as [H1 _]; by eapply head_len. Qed.
Lemma range_len mn mx t : range_text mn mx t -> 0 < length t.
Proof. intros H. destruct (range_head _ _ _ H) as [r ->]. cbn. lia. Qed.

Ltac own := intros mk0 HP text d rest Hat Hf Hd.

Theorem writes_good n f s : writes re_ok n f s -> good n f s.
Proof.
  induction 1 as [n nm Hn|n s t Hq|n t Hq Hre|n t Hq Hre|n e s H IH|n|n e s H IH|n e s H IH|n e s H IH|n e j s s' H IH H' IH'
    |n e j mn mx s s' t H IH H' IH' Hr|n e j s s' H IH H' IH'|n e mn mx s t H IH Hr|n e s H IH|n e s H IH|n e s H IH|n l k s H IH Hl
    |n e s H IH|n e l s w s' H IH Hw Hw0 H' IH'|n e s H IH|n l s H IH Hlen|n e s H IH|n e l s w w' s' H IH Hw Hw' H' IH'|n e s H IH|n l s H IH Hlen|n e w s w' H IH Hw Hw'];
    intros p; cbn [good]; cbv zeta.
  - (* name *)
    apply (one_new 7 _ _ _ _ (fun _ => True)); [by apply many_none|pose proof (name_len nm Hn); lia|lia|]. own. dn 2 d.
    exact (prim_name re_ok mk0 text _ nm rest p Hn Hf Hat).
  - (* string *)
    apply (one_new 9 _ _ _ _ (fun _ => True)); [by apply many_none|cbn; lia|lia|]. own. dn 2 d.
    exact (prim_string re_ok mk0 text _ s t rest p Hq Hat).
  - apply (one_new 10 _ _ _ _ (fun _ => True)); [by apply many_none|cbn; lia|lia|]. own. dn 2 d.
    exact (prim_regex re_ok mk0 text _ t rest p Hq Hre Hat).
  - apply (one_new 11 _ _ _ _ (fun _ => True)); [by apply many_none|cbn; lia|lia|]. own. dn 2 d.
    exact (prim_class re_ok mk0 text _ t rest p Hq Hre Hat).
  - (* paren *)
    rewrite !app_length. cbn [length]. eapply one_imp; [exact (IH (S p))|lia|lia|done|]. cbv beta. intros mk lab Hok HP text d rest Hat Hf Hd.
    dn 2 d. rewrite <- app_assoc in Hat. cbn [app] in Hat. rewrite <- app_assoc in Hat. cbn [app] in Hat. pose proof (at_cons _ _ _ _ Hat) as Hat1.
    assert (f_expr (41%N :: rest)) as Hfe by (unfold f_expr; cbn; pick).
    replace (p + (1 + (length s + 1))) with (S (S p + length s)) by lia.
    destruct (expr_heads e H _ Hfe) as [Hi _]. eapply prim_paren; [exact Hat|exact Hi|apply (HP text _ (41%N :: rest) Hat1 Hfe); lia|by apply at_app in Hat1|]. by destruct Hf.
  - (* no join *)
    apply many_none. intros mk text d rest Hat [Hf1 Hf2] Hd. dn 2 d. cbn [length]. rewrite Nat.add_0_r. by eapply join_none.
  - (* join *)
    pose proof (many_one _ _ _ _ _ (IH p)) as IH'. eapply many_imp; [exact IH'|lia|lia|]. cbv beta. intros mk HP text d rest Hat Hf Hd.
    rewrite pval_pv. apply f_join_prim in Hf. destruct (prim_heads e H _ Hf) as (_ & Hnb & _). eapply join_some; [eapply HP; [exact Hat|exact Hf|exact Hd]|exact Hnb|exact Hat].
  - (* primary alone *)
    eapply one_imp; [exact (IH p)|lia|lia|done|]. cbv beta. intros mk lab Hok HP text d rest Hat Hf Hd. dn 3 d.
    assert (f_prim rest) as Hfp by (by apply f_join_prim, f_unit_join). destruct (prim_heads e H rest Hfp) as (_ & _ & H33 & H63).
    eapply amp_prim; [eapply HP; [exact Hat|exact Hfp|lia]|exact Hat|by apply at_app in Hat|by destruct Hf|done|done|].
    inversion H; subst; try (cbn; congruence).
    + destruct (name_head nm) as (b & r & Hb & Hlb); [done|]. rewrite Hb. cbn. intros [= ->]. unfold letter in Hlb. lia.
    + match goal with H0 : writes _ _ (Expr _) _ |- _ => pose proof (expr_heads _ H0 (41%N :: rest)) as [_ HE] end; [unfold f_expr; cbn; pick|].
      rewrite <- !app_assoc. cbn [app take]. intros [= HE']. apply HE. cbn [app]. destruct (s0 ++ 41%N :: rest); [done|]. cbn in HE' |- *. congruence.
  - (* option *)
    rewrite app_length. cbn [length]. pose proof (writes_len _ _ _ H) as Hs. cbn in Hs. pose proof (many_one _ _ _ _ _ (IH p)) as IH1.
    apply (one_new 2 _ _ _ _ (fun mk => forall text d rest, at_ text p (s ++ rest) -> f_prim rest -> 14 * n + 2 <= d -> G mk text d j_PRIM p (Some (pval e, p + length s))));
      [eapply many_imp; [exact IH1|lia|lia|]; intros mk HP; rewrite pval_pv; exact HP|lia|lia|].
    own. rewrite <- app_assoc in Hat. cbn [app] in Hat. dn 2 d. rewrite Nat.add_assoc, Nat.add_1_r. apply amp_deco. eapply deco_option; [apply pval_parser| |by apply at_app in Hat].
    eapply HP; [exact Hat|apply op_f_prim; pick|lia].
  - (* star *)
    pose proof (writes_len _ _ _ H) as Hs. cbn in Hs. pose proof (many_one _ _ _ _ _ (IH p)) as IH1. pose proof (IH' (S (p + length s))) as IH2. cbn [good] in IH2. cbv zeta in IH2.
    rewrite app_length. cbn [length app]. replace (p + (length s + S (length s'))) with (S (p + length s) + length s') by lia.
    eapply (one_new 3); [eapply many_imp; [eapply many_app; [exact IH1|exact IH2|lia|lia|lia]|lia|lia|intros mk HP; exact HP]|lia|lia|].
    intros mk [HP HJ] text d rest Hat Hf Hd. rewrite <- app_assoc in Hat. cbn [app] in Hat. pose proof (at_app _ _ _ _ Hat) as Hat1. pose proof (at_cons _ _ _ _ Hat1) as Hat2.
    pose proof (at_app _ _ _ _ Hat2) as Hat3. dn 3 d. apply amp_deco. cbn [pv kargs tag_of]. rewrite pval_pv.
    eapply deco_star; [apply pv_parser| |eapply HP; [exact Hat|apply op_f_prim; pick|lia]|exact Hat1|eapply HJ; [exact Hat2|by apply f_unit_join|lia]|exact Hat3|].
    + destruct j; [apply pval_parser|done].
    + destruct Hf as [_ Hf]. eapply hd_not; [exact Hf|notin].
  - (* star with range *)
    pose proof (writes_len _ _ _ H) as Hs. cbn in Hs. pose proof (many_one _ _ _ _ _ (IH p)) as IH1. pose proof (IH' (S (p + length s))) as IH2. cbn [good] in IH2. cbv zeta in IH2.
    pose proof (range_len _ _ _ Hr) as Ht. destruct (range_head _ _ _ Hr) as [t' Ht'].
    rewrite app_length. cbn [length app]. rewrite app_length. replace (p + (length s + S (length s' + length t))) with (S (p + length s) + length s' + length t) by lia.
    eapply (one_new 3); [eapply many_imp; [eapply many_app; [exact IH1|exact IH2|lia|lia|lia]|lia|lia|intros mk HP; exact HP]|lia|lia|].
    intros mk [HP HJ] text d rest Hat Hf Hd. rewrite <- app_assoc in Hat. cbn [app] in Hat. rewrite <- app_assoc in Hat.
    pose proof (at_app _ _ _ _ Hat) as Hat1. pose proof (at_cons _ _ _ _ Hat1) as Hat2.
    pose proof (at_app _ _ _ _ Hat2) as Hat3. dn 3 d. apply amp_deco. cbn [pv kargs tag_of]. rewrite pval_pv.
    eapply deco_star_range; [apply pv_parser| |eapply HP; [exact Hat|apply op_f_prim; pick|lia]|exact Hat1|eapply HJ; [exact Hat2| |lia]|exact Hr|exact Hat3].
    + destruct j; [apply pval_parser|done].
    + rewrite Ht'. apply brace_f_join.
  - (* plus *)
    pose proof (writes_len _ _ _ H) as Hs. cbn in Hs. pose proof (many_one _ _ _ _ _ (IH p)) as IH1. pose proof (IH' (S (p + length s))) as IH2. cbn [good] in IH2. cbv zeta in IH2.
    rewrite app_length. cbn [length app]. replace (p + (length s + S (length s'))) with (S (p + length s) + length s') by lia.
    eapply (one_new 4); [eapply many_imp; [eapply many_app; [exact IH1|exact IH2|lia|lia|lia]|lia|lia|intros mk HP; exact HP]|lia|lia|].
    intros mk [HP HJ] text d rest Hat Hf Hd. rewrite <- app_assoc in Hat. cbn [app] in Hat. pose proof (at_app _ _ _ _ Hat) as Hat1. pose proof (at_cons _ _ _ _ Hat1) as Hat2.
    dn 3 d. apply amp_deco. cbn [pv kargs tag_of]. rewrite pval_pv.
    eapply deco_plus; [apply pv_parser| |eapply HP; [exact Hat|apply op_f_prim; pick|lia]|exact Hat1|eapply HJ; [exact Hat2|by apply f_unit_join|lia]].
    destruct j; [apply pval_parser|done].
  - (* range *)
    pose proof (writes_len _ _ _ H) as Hs. cbn in Hs. pose proof (many_one _ _ _ _ _ (IH p)) as IH1. pose proof (range_len _ _ _ Hr) as Ht. destruct (range_head _ _ _ Hr) as [t' Ht'].
    rewrite app_length, Nat.add_assoc.
    eapply (one_new 3); [eapply many_imp; [exact IH1|lia|lia|intros mk HP; exact HP]|lia|lia|].
    intros mk HP text d rest Hat Hf Hd. rewrite <- app_assoc in Hat. pose proof (at_app _ _ _ _ Hat) as Hat1.
    dn 3 d. apply amp_deco. cbn [pv kargs tag_of]. rewrite pval_pv.
    eapply deco_range; [apply pv_parser|eapply HP; [exact Hat| |lia]|exact Hr|exact Hat1]. rewrite Ht'. apply op_f_prim. pick.
  - (* not *)
    pose proof (writes_len _ _ _ H) as Hs. cbn in Hs. pose proof (many_one _ _ _ _ _ (IH (S p))) as IH1.
    rewrite app_length. cbn [length]. replace (p + (1 + length s)) with (S p + length s) by lia.
    eapply (one_new 5); [eapply many_imp; [exact IH1|lia|lia|intros mk HP; exact HP]|lia|lia|].
    intros mk HP text d rest Hat Hf Hd. cbn [app] in Hat. pose proof (at_cons _ _ _ _ Hat) as Hat1.
    dn 4 d. apply amp_deco. cbn [pv kargs tag_of]. rewrite pval_pv.
    eapply deco_not; [apply pv_parser|exact Hat|]. eapply HP; [exact Hat1|by apply f_join_prim, f_unit_join|lia].
  - (* look *)
    pose proof (writes_len _ _ _ H) as Hs. cbn in Hs. pose proof (many_one _ _ _ _ _ (IH (S (S p)))) as IH1.
    rewrite !app_length. cbn [length]. replace (p + (2 + (length s + 1))) with (S (S (S p) + length s)) by lia.
    eapply (one_new 6); [eapply many_imp; [exact IH1|lia|lia|intros mk HP; exact HP]|lia|lia|].
    intros mk HP text d rest Hat Hf Hd. rewrite <- app_assoc in Hat. cbn [app] in Hat. rewrite <- app_assoc in Hat. cbn [app] in Hat.
    pose proof (at_cons _ _ _ _ (at_cons _ _ _ _ Hat)) as Hat2. pose proof (at_app _ _ _ _ Hat2) as Hat3.
    assert (f_expr (41%N :: rest)) as Hfe by (unfold f_expr; cbn; pick).
    dn 3 d. apply amp_deco. cbn [pv kargs tag_of]. rewrite pval_pv.
    destruct (prim_look re_ok mk text (14 * n + 12) p (pv (lab_of e) e) (S (S p) + length s) (s ++ 41%N :: rest) rest) as [w Hw];
      [apply pv_parser|exact Hat|eapply HP; [exact Hat2|exact Hfe|lia]|exact Hat3|by destruct Hf|].
    eapply deco_look; [apply pv_parser|exact Hat|eapply HP; [exact Hat2|exact Hfe|lia]|exact Hat3|eapply gives_deeper; [exact Hw|lia]|by destruct Hf].
  - (* unit *)
    eapply one_imp; [exact (IH p)|lia|lia|done|]. cbv beta. intros mk lab Hok HP text d rest w pw Hw -> Hat Hf Hd.
    pose proof (at_app _ _ _ _ Hat) as Hat1. destruct (deco_heads e H rest Hf) as [Hh1 Hh2]. dn 4 d.
    eapply unit_yes; [exact Hw|exact Hh2|exact Hat|]. eapply labeled_plain; [apply pv_some|exact Hh1|exact Hat1|]. eapply HP; [exact Hat1|exact Hf|lia].
  - (* label *)
    rewrite !app_length. cbn [length]. replace (p + (length (s2b l) + (1 + length s))) with (S (p + length (s2b l)) + length s) by lia.
    eapply one_imp; [exact (IH (S (p + length (s2b l))))|lia|lia| |].
    { intros lab _. by left. }
    cbv beta. intros mk lab Hok HP text d rest w pw Hw -> Hat Hf Hd.
    assert (lab = Some l) as ->. { destruct Hok as [-> |?]; [|done]. destruct Hl as [?|[?|Hn]]; [done|done|]. by apply name_len, Nat.lt_irrefl in Hn. }
    rewrite <- app_assoc in Hat. cbn [app] in Hat. pose proof (at_app _ _ _ _ Hat) as Hat1. pose proof (at_app _ _ _ _ Hat1) as Hat2. pose proof (at_cons _ _ _ _ Hat2) as Hat3.
    dn 4 d. eapply unit_yes; [exact Hw| |exact Hat|].
    { destruct Hl as [-> |[-> |Hn]]; [done|done|]. destruct (name_head l Hn) as (b & r & Hb & Hlb). rewrite Hb. unfold nb, letter in *. cbn. split; intros [= ->]; lia. }
    eapply labeled_label; [|exact Hl|exact Hat1|]; [by destruct k|]. eapply HP; [exact Hat3|exact Hf|lia].
  - (* one of the units *)
    pose proof (many_one _ _ _ _ _ (IH p)) as IH1. eapply many_imp; [exact IH1|lia|lia|]. cbv beta. intros mk HP text d rest w pw acc Hw -> Hat Hf Hd.
    pose proof (at_app _ _ _ _ (at_app _ _ _ _ Hat)) as Hat2. cbn [map]. rewrite pval_pv. eapply loops_more; [apply unit_ref; eapply HP; [exact Hw|done|exact Hat|by apply f_sequ_unit|lia]|done|].
    apply loops_end. apply unit_ref. dn 8 d. by eapply unit_end.
  - (* units *)
    pose proof (many_one _ _ _ _ _ (IH p)) as IH1. pose proof (IH' (p + length s + length w)) as IH2. cbn [good] in IH2. cbv zeta in IH2. pose proof (writes_len _ _ _ H') as Hs'. cbn in Hs'.
    rewrite !app_length. replace (p + (length s + (length w + length s'))) with (p + length s + length w + length s') by lia.
    eapply many_imp; [eapply many_app; [exact IH1|exact IH2|lia|lia|lia]|lia|lia|]. intros mk [HP HL] text d rest w0 pw acc Hw0' -> Hat Hf Hd.
    rewrite <- !app_assoc in Hat. pose proof (at_app _ _ _ _ (at_app _ _ _ _ Hat)) as Hat2.
    destruct (unit_heads _ H' ltac:(right; by eauto) rest) as (Hh1 & _ & Hh3 & _).
    eapply loops_more; [apply unit_ref; eapply HP; [exact Hw0'|done|exact Hat|by apply gap_f_unit|lia]|done|].
    rewrite <- pval_pv. cbn [map]. replace (acc ++ pval e :: map pval l) with ((acc ++ [pval e]) ++ map pval l) by (by rewrite <- app_assoc).
    eapply HL; [exact Hw|done|exact Hat2|exact Hf|lia].
  - (* one unit *)
    eapply one_imp; [exact (IH p)|lia|lia|done|]. cbv beta. intros mk lab Hok HP text d rest w pw Hw -> Hat Hf Hd.
    pose proof (at_app _ _ _ _ (at_app _ _ _ _ Hat)) as Hat2. dn 10 d.
    eapply seq_one; [eapply HP; [exact Hw|done|exact Hat|by apply f_sequ_unit|lia]|exact Hat2|exact Hf].
  - (* sequence *)
    pose proof (writes_len _ _ _ H) as Hs. cbn in Hs.
    eapply (one_new 1); [exact (IH p)|lia|lia|]. intros mk HL text d rest w pw Hw -> Hat Hf Hd. dn 2 d. cbn [pv kargs tag_of].
    apply seq_loops; [apply pvals_parser|by rewrite map_length|]. eapply (HL text _ rest w pw []); [exact Hw|done|exact Hat|exact Hf|lia].
  - (* one of the sequences *)
    pose proof (many_one _ _ _ _ _ (IH p)) as IH1. eapply many_imp; [exact IH1|lia|lia|]. cbv beta. intros mk HP text d rest w pw Hw -> Hat Hf Hd.
    pose proof (at_app _ _ _ _ (at_app _ _ _ _ Hat)) as Hat2. eexists e, [], _. split; [done|]. cbn [map]. rewrite pval_pv.
    split; [eapply HP; [exact Hw|done|exact Hat|by apply f_alter_sequ|lia]|]. intros acc. apply loops_join_end. by eapply pipe_end.
  - (* sequences *)
    pose proof (many_one _ _ _ _ _ (IH p)) as IH1. pose proof (IH' (S (p + length s + length w) + length w')) as IH2. cbn [good] in IH2. cbv zeta in IH2.
    pose proof (writes_len _ _ _ H') as Hs'. cbn in Hs'. pose proof (writes_len _ _ _ H) as Hs. cbn in Hs.
    rewrite !app_length. cbn [length]. replace (p + (length s + (length w + (1 + (length w' + length s'))))) with (S (p + length s + length w) + length w' + length s') by lia.
    eapply many_imp; [eapply many_app; [exact IH1|exact IH2|lia|lia|lia]|lia|lia|]. intros mk [HP HL] text d rest w0 pw Hw0' -> Hat Hf Hd.
    rewrite <- !app_assoc in Hat. cbn [app] in Hat. pose proof (at_app _ _ _ _ (at_app _ _ _ _ Hat)) as Hat2. pose proof (at_app _ _ _ _ Hat2) as Hat3. pose proof (at_cons _ _ _ _ Hat3) as Hat4.
    eexists e, l, _. split; [done|]. split; [rewrite pval_pv; eapply HP; [exact Hw0'|done|exact Hat|by apply pipe_f_sequ|lia]|]. intros acc.
    destruct (HL text d rest w' _ Hw' eq_refl Hat4 Hf ltac:(lia)) as (x & l' & q & -> & HG & HLL).
    destruct (pipe_yes re_ok mk text d w (w' ++ s' ++ rest) _ Hw Hat2) as [u Hu].
    eapply loops_join_more; [exact Hu|apply seq_ref; exact HG|done|].
    pose proof (HLL (acc ++ [pval e])) as HLa. rewrite <- !app_assoc in HLa. cbn [app map] in HLa |- *. rewrite <- app_assoc. exact HLa.
  - (* one sequence *)
    eapply one_imp; [exact (IH p)|lia|lia|done|]. cbv beta. intros mk lab Hok HP text d rest w pw Hw -> Hat Hf Hd.
    pose proof (at_app _ _ _ _ (at_app _ _ _ _ Hat)) as Hat2. dn 2 d. destruct (unit_heads _ H ltac:(left; by eauto) rest) as (Hh1 & Hh2 & _).
    eapply choice_one; [exact Hw|exact Hh1|exact Hh2|exact Hat|eapply HP; [exact Hw|done|exact Hat|by apply f_alter_sequ|lia]|exact Hat2|exact Hf].
  - (* choice *)
    pose proof (writes_len _ _ _ H) as Hs. cbn in Hs.
    eapply (one_new 0); [exact (IH p)|lia|lia|]. intros mk HL text d rest w pw Hw -> Hat Hf Hd. assert (exists d1, d = S (S d1) /\ 14 * n + 10 <= d1) as (d1 & -> & Hd1) by (exists (d - 2); lia). cbn [pv kargs tag_of].
    pose proof (at_app _ _ _ _ (at_app _ _ _ _ Hat)) as Hat2. destruct (unit_heads _ H ltac:(right; by eauto) rest) as (Hh1 & Hh2 & _).
    destruct (HL text d1 rest w pw Hw eq_refl Hat Hf Hd1) as (x & l' & q & -> & HG & HLL).
    cbn [map]. eapply choice_many; [apply (pvals_parser (x :: l'))| |exact Hw|exact Hh1|exact Hh2|exact Hat|exact HG|exact (HLL [])|exact Hat2|exact Hf].
    destruct l'; [cbn in Hlen; lia|done].
  - (* expression *)
    rewrite !app_length. pose proof (IH (p + length w)) as IH1. cbn [good] in IH1. cbv zeta in IH1. replace (p + (length w + (length s + length w'))) with (p + length w + length s + length w') by lia.
    eapply one_imp; [exact IH1|lia|lia|done|]. intros mk lab Hok HP text d rest Hat Hf Hd. dn 2 d.
    rewrite <- !app_assoc in Hat. pose proof (at_app _ _ _ _ (at_app _ _ _ _ Hat)) as Hat2.
    eapply expr_yes; [eapply (HP text _ (w' ++ rest) w p); [exact Hw|done|exact Hat|by apply f_expr_alter|lia]|exact Hw'|exact Hf|exact Hat2].
Qed.
End Main.
