(** Rules that nothing refers to can be left out. *)
From Verif Require Import Base Helpers Utf8 Stream StreamSpec Native Engine EngSpec EngInv Peg PegRep PegBody PegStd RunSpec PegRun
  Build BuildSpec BuildWalk BuildLines BuildMono BuildPrep BuildProofs BuildMain MeansSpec MeansBuild Means MeansLaws RenameSpec Rename ReadsSpec UnusedSpec.
Local Open Scope list_scope.

Section Unused.
Variable compile : bytes -> res pexp.
Definition same_decl (d d' : decl) : Prop := d_name d = d_name d' /\ rule_said compile d = rule_said compile d'.
Inductive fewer : list decl -> list decl -> Prop :=
| fw_nil : fewer [] []
| fw_keep d d' ds ds' : same_decl d d' -> fewer ds ds' -> fewer (d :: ds) (d' :: ds')
| fw_drop d ds ds' : fewer ds ds' -> fewer (d :: ds) ds'.
Lemma fewer_refl ds : fewer ds ds.
Proof. induction ds; by constructor. Qed.
Lemma fewer_app a a' b b' : fewer a a' -> fewer b b' -> fewer (a ++ b) (a' ++ b').
Proof. intros H1 H2. induction H1; cbn [app]; try done; by constructor. Qed.
Lemma fewer_drop a : fewer a [].
Proof. induction a; by constructor. Qed.
Lemma fewer_then a b : fewer a b -> forall c, fewer b c -> fewer a c.
Proof.
  induction 1 as [|d d' ds ds' Hd HF IH|d ds ds' HF IH]; intros c Hc; [done| |].
  - inversion Hc as [|x x' l l' Hx Hl|x l l' Hl]; subst; [|by apply fw_drop, IH]. apply fw_keep; [|by apply IH].
    destruct Hd as [E1 E2], Hx as [E3 E4]. split; congruence.
  - by apply fw_drop, IH.
Qed.
Lemma o_names_without l l' : without l l' -> forall l1 l2 parent i, o_names parent (l1 ++ l :: l2) i = o_names parent (l1 ++ l' :: l2) i.
Proof.
  intros H. induction l1 as [|x l1 IH]; intros l2 parent i.
  - destruct H; done.
  - cbn [app o_names]. destruct x; rewrite ?IH; done.
Qed.
Lemma o_names_i l1 nm c o : forall l2 parent i, o_names parent (l1 ++ LI nm c o :: l2) i = o_names parent (l1 ++ l2) i.
Proof. induction l1 as [|x l1 IH]; intros l2 parent i; [done|]. cbn [app o_names]. destruct x; rewrite ?IH; done. Qed.
Lemma without_decls l l' : without l l' ->
  (forall nm o, fewer (decls_of nm o l) (decls_of nm o l')) /\
  (forall l1 l2, fewer (i_decls (l1 ++ l :: l2)) (i_decls (l1 ++ l' :: l2))) /\
  (forall parent l1 l2 i, fewer (o_decls parent (l1 ++ l :: l2) i) (o_decls parent (l1 ++ l' :: l2) i)).
Proof.
  assert (Hi : forall l l', (forall l2, fewer (i_decls (l :: l2)) (i_decls (l' :: l2))) ->
    forall l1 l2, fewer (i_decls (l1 ++ l :: l2)) (i_decls (l1 ++ l' :: l2))).
  { intros l0 l0' H. induction l1 as [|x l1 IH]; intros l2; [apply H|]. cbn [app i_decls]. destruct x; try apply IH. apply fewer_app; [apply fewer_refl|apply IH]. }
  assert (Ho : forall parent l l', (forall l2 i, fewer (o_decls parent (l :: l2) i) (o_decls parent (l' :: l2) i)) ->
    forall l1 l2 i, fewer (o_decls parent (l1 ++ l :: l2) i) (o_decls parent (l1 ++ l' :: l2) i)).
  { intros parent l0 l0' H. induction l1 as [|x l1 IH]; intros l2 i; [apply H|]. cbn [app o_decls]. destruct x; try apply IH. apply fewer_app; [apply fewer_refl|apply IH]. }
  induction 1 as [l1 nm' c o' l2|l1 l l' l2 H (I1 & I2 & I3)|nm' c c' o' H (I1 & I2 & I3)|nm' c c' o' H (I1 & I2 & I3)].
  - split; [|split; [apply Hi|intros parent; apply Ho]].
    + intros nm o. rewrite !decls_of_rank. apply fewer_app; [apply fewer_app|].
      * induction l1 as [|x l1 IH]; cbn [app i_decls]; [apply (fewer_app _ [] _ _ (fewer_drop _)), fewer_refl|]. destruct x; try apply IH. apply fewer_app; [apply fewer_refl|apply IH].
      * assert (HE : forall i, o_decls nm (l1 ++ LI nm' c o' :: l2) i = o_decls nm (l1 ++ l2) i).
        { induction l1 as [|x l1 IH]; intros i; cbn [app o_decls]; [done|]. destruct x; rewrite ?IH; done. }
        rewrite HE. apply fewer_refl.
      * constructor; [|constructor]. split; [done|]. cbn [rule_said d_what d_name d_opts]. by rewrite o_names_i.
    + intros l3. apply fewer_refl.
    + intros l3 i. apply fewer_refl.
  - split; [|split; [apply Hi|intros parent; apply Ho]].
    + intros nm o. rewrite !decls_of_rank. apply fewer_app; [apply fewer_app; [apply I2|apply I3]|]. constructor; [|constructor].
      split; [done|]. cbn [rule_said d_what d_name d_opts]. by rewrite (o_names_without l l' H).
    + intros l3. apply fewer_refl.
    + intros l3 i. apply fewer_refl.
  - split; [|split; [apply Hi|intros parent; apply Ho]].
    + intros nm o. apply I1.
    + intros l2. apply fewer_refl.
    + intros l2 i. cbn [o_decls]. apply fewer_app; [apply I1|apply fewer_refl].
  - split; [|split; [apply Hi|intros parent; apply Ho]].
    + intros nm o. constructor.
    + intros l2. cbn [i_decls]. apply fewer_app; [apply I1|apply fewer_refl].
    + intros l2 i. apply fewer_refl.
Qed.
Lemma without_top name ls ls' : without (LA ls) (LA ls') -> fewer (decls name ls) (decls name ls') /\ o_names name ls 0 = o_names name ls' 0.
Proof.
  intros H. pose proof (without_decls _ _ H) as (H1 & _ & _). specialize (H1 name no_opts). rewrite !decls_of_rank, <- !decls_eq in H1. split.
  - assert (HL : forall ds ds' d d', fewer (ds ++ [d]) (ds' ++ [d']) -> fewer ds ds').
    { clear. induction ds as [|x ds IH]; intros ds' d d' H; cbn [app] in H.
      - inversion H as [|y y' l l' Hy Hl Ed Ed'|y l l' Hl]; subst; [|inversion Hl; by destruct ds']. inversion Hl; subst. destruct ds' as [|? []]; try done.
      - inversion H as [|y y' l l' Hy Hl Ed Ed'|y l l' Hl]; subst; [|apply fw_drop; by eapply IH].
        destruct ds' as [|z ds']; cbn [app] in Ed'; injection Ed' as -> ->; [apply fewer_drop|]. apply fw_keep; [done|by eapply IH]. }
    by eapply HL.
  - inversion H; subst; [apply o_names_i|by apply o_names_without].
Qed.
Lemma without_all_top name ls ls' : without_all ls ls' -> fewer (decls name ls) (decls name ls') /\ o_names name ls 0 = o_names name ls' 0.
Proof.
  induction 1 as [ls|ls ls1 ls' H [I1 I2] Hw]; [split; [apply fewer_refl|done]|]. destruct (without_top name _ _ Hw) as [J1 J2]. split; [by eapply fewer_then|congruence].
Qed.
Lemma fewer_in ds ds' : fewer ds ds' -> forall d', d' ∈ ds' -> exists d, d ∈ ds /\ same_decl d d'.
Proof.
  induction 1 as [|d d' ds ds' Hd HF IH|d ds ds' HF IH]; intros x Hx.
  - by apply elem_of_nil in Hx.
  - apply elem_of_cons in Hx as [->|Hx]; [exists d; split; [left|done]|]. destruct (IH _ Hx) as (y & Hy & Hs). exists y. split; [by right|done].
  - destruct (IH _ Hx) as (y & Hy & Hs). exists y. split; [by right|done].
Qed.
Lemma find_in ds d : NoDup (d_name <$> ds) -> d ∈ ds -> List.find (fun x => String.eqb (d_name x) (d_name d)) ds = Some d.
Proof. intros Hn Hd. apply elem_of_list_lookup_1 in Hd as [i Hi]. by eapply find_at. Qed.

(** ** References in reach *)
Section Reach.
Variable S : string -> Prop.
Definition R (a b : string) : Prop := a = b /\ S a.
Lemma reach_self e : Forall S (refers e) -> renamed R e e.
Proof.
  induction e as [lb k IH] using pexp_ind2. intros Hr.
  assert (HL : forall l, Forall (fun e => Forall S (refers e) -> renamed R e e) l -> Forall S (flat_map refers l) -> Forall2 (renamed R) l l).
  { induction l as [|a l IHl]; intros Hl Hf; [constructor|]. apply Forall_cons in Hl as [H1 H2]. cbn [flat_map] in Hf. apply Forall_app in Hf as [F1 F2]. constructor; auto. }
  destruct k as [s|s|s|ty l|l|v j mn mx|a|a|a|]; cbn [refers kids] in *.
  - apply rn_node; [done|constructor].
  - apply rn_node; [done|constructor].
  - apply Forall_cons in Hr as [Hr _]. by apply rn_ref.
  - apply rn_node; [done|]. constructor. by apply HL.
  - apply rn_node; [done|]. constructor. by apply HL.
  - apply Forall_app in Hr as [F1 F2]. apply Forall_cons in IH as [I1 I2]. apply rn_node; [done|]. constructor; [by apply I1|]. destruct j as [x|]; constructor.
    apply Forall_cons in I2 as [I2 _]. by apply I2.
  - apply Forall_cons in IH as [I1 _]. apply rn_node; [done|]. constructor. by apply I1.
  - apply Forall_cons in IH as [I1 _]. apply rn_node; [done|]. constructor. by apply I1.
  - apply Forall_cons in IH as [I1 _]. apply rn_node; [done|]. constructor. by apply I1.
  - apply rn_node; [done|constructor].
Qed.
Lemma names_self names : Forall S names -> Forall2 R names names.
Proof. induction 1; constructor; done. Qed.
Lemma refers_names names : flat_map refers (map to_name names) = names.
Proof. induction names as [|x l IH]; [done|]. cbn [map flat_map]. by rewrite IH. Qed.
Lemma rule_self d e : decl_read compile d = Some e -> Forall S (refers e) -> exists n, rule_said compile d = Some n /\ ren R n n.
Proof.
  unfold decl_read, rule_said. destruct (d_what d) as [s|a x|ls].
  - destruct (compile s) as [x| |]; [|done..]. intros [= ->] Hr. eexists. split; [done|]. by apply as_rule_ren, stand_ren, reach_self.
  - intros [= ->] Hr. eexists. split; [done|]. by apply as_rule_ren, stand_ren, reach_self.
  - intros [= <-] Hr. eexists. split; [done|]. cbn [refers] in Hr. rewrite refers_names in Hr. by apply as_rule_ren, choice_ren, names_self.
Qed.
End Reach.
Lemma unused_said name ls ls' rx cbf depth text r : without_all ls ls' -> complete compile name ls' -> NoDup (d_name <$> decls name ls) ->
  said compile name ls rx cbf depth text r <-> said compile name ls' rx cbf depth text r.
Proof.
  intros Hw [Hc Ht] Hn. destruct (without_all_top name _ _ Hw) as [HF HO]. set (S := fun x => x ∈ (d_name <$> decls name ls')).
  assert (Hn' : NoDup (d_name <$> decls name ls')).
  { clear -Hn HF. revert Hn. induction HF as [|d d' ds ds' [Hd _] HF IH|d ds ds' HF IH]; cbn [fmap list_fmap]; [done| |].
    - rewrite !NoDup_cons. intros [H1 H2]. split; [|by apply IH]. rewrite <- Hd. intros H3. apply H1. apply elem_of_list_fmap in H3 as (x & E & Hx).
      destruct (fewer_in _ _ HF _ Hx) as (y & Hy & [Ey _]). apply elem_of_list_fmap. exists y. split; [congruence|done].
    - rewrite NoDup_cons. intros [H1 H2]. by apply IH. }
  assert (HR : forall a b, R S a b -> exists m m', rules_said compile (decls name ls) a = Some m /\ rules_said compile (decls name ls') b = Some m' /\ ren (R S) m m').
  { intros a b [<- Ha]. unfold S in Ha. apply elem_of_list_fmap in Ha as (d' & -> & Hd'). destruct (fewer_in _ _ HF _ Hd') as (d & Hd & [E1 E2]).
    unfold rules_said. rewrite (find_in _ _ Hn' Hd'). rewrite <- E1, (find_in _ _ Hn Hd), E2.
    destruct (proj1 (Forall_forall _ _) Hc _ Hd') as (e & He & Hr). destruct (rule_self S d' e He Hr) as (n & -> & Hs). by exists n, n. }
  unfold said. rewrite HO. split; intros [f Hf]; exists f.
  - exact (ren_to _ _ _ rx cbf text HR f _ _ _ _ _ (choice_ren _ _ _ (names_self S _ Ht)) Hf).
  - exact (ren_from _ _ _ rx cbf text HR f _ _ _ _ _ (choice_ren _ _ _ (names_self S _ Ht)) Hf).
Qed.
Lemma unused_answers fuel fuel' name ls ls' b b' : without_all ls ls' -> complete compile name ls' ->
  build compile fuel name ls = ROk b -> build compile fuel' name ls' = ROk b' -> in_words compile name ls -> in_words compile name ls' ->
  forall o rx cb cbf text r, (forall re, rx_ok (rx re)) -> (forall c, cb_keeps (mk_env (gram_of b) o rx cb) cbf c) ->
  (forall c, cb_keeps (mk_env (gram_of b') o rx cb) cbf c) -> po_debug o = false ->
  said compile name ls rx cbf stack_limit text r \/ said compile name ls' rx cbf stack_limit text r ->
  exists fuel0, forall f, fuel0 <= f -> answer text r (fst (parse_string f (gram_of b) o rx cb text)) /\
    answer text r (fst (parse_string f (gram_of b') o rx cb text)).
Proof.
  intros Hwo Hc Hb Hb' Hw Hw' o rx cb cbf text r Hrx Hcb Hcb' Hd Hs.
  pose proof (unused_said name ls ls' rx cbf stack_limit text r Hwo Hc (iw_names _ _ _ Hw)) as HE.
  assert (said compile name ls rx cbf stack_limit text r /\ said compile name ls' rx cbf stack_limit text r) as [H1 H2] by tauto.
  destruct (parses_as_said _ _ _ _ _ Hb Hw o rx cb cbf text r Hrx Hcb Hd H1) as [f1 F1].
  destruct (parses_as_said _ _ _ _ _ Hb' Hw' o rx cb cbf text r Hrx Hcb' Hd H2) as [f2 F2].
  exists (f1 + f2). intros f Hf. split; [apply F1|apply F2]; lia.
Qed.
End Unused.
(** A computed check of [complete]. *)
Definition complete_check (compile : bytes -> res pexp) (name : string) (ls : list line) : bool :=
  let names := d_name <$> decls name ls in
  let known x := existsb (String.eqb x) names in
  (forallb (fun d => match decl_read compile d with Some e => forallb known (refers e) | None => false end) (decls name ls) && forallb known (o_names name ls 0))%bool.
Lemma complete_checked compile name ls : complete_check compile name ls = true -> complete compile name ls.
Proof.
  assert (HK : forall names l, forallb (fun x => existsb (String.eqb x) names) l = true -> Forall (fun x => x ∈ names) l).
  { intros names. induction l as [|x l IH]; [constructor|]. cbn [forallb]. intros [H1 H2]%andb_true_iff. constructor; [|by apply IH].
    apply existsb_exists in H1 as (y & Hy & E). apply String.eqb_eq in E. subst y. by apply elem_of_list_In. }
  unfold complete_check, complete. intros [H1 H2]%andb_true_iff. split; [|by apply HK]. clear H2. revert H1. generalize (d_name <$> decls name ls) as names. intros names.
  generalize (decls name ls) as dl. intros dl. induction dl as [|d ds IH]; [constructor|]. cbn [forallb]. intros [H1 H3]%andb_true_iff. constructor; [|by apply IH].
  destruct (decl_read compile d) as [e|]; [|done]. exists e. split; [done|]. by apply HK.
Qed.
