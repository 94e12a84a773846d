(** Choices of one alternative: what their removal keeps, and that without any
    there is nothing to remove. *)
From Verif Require Import Base Helpers Native Engine EngSpec Build BuildSpec BuildWalk BuildLines.

Lemma kids_kmap {A B} (f : A -> B) k : kids (kmap f k) = map f (kids k).
Proof. by destruct k as [s|s|s|ty l|l|v [x|] mn mx|a|a|a|]. Qed.
Lemma kmap_id {A} (f : A -> A) k : Forall (fun c => f c = c) (kids k) -> kmap f k = k.
Proof.
  assert (Hm : forall l, Forall (fun c => f c = c) l -> map f l = l).
  { induction l as [|c l IH]; intros HF; [done|]. apply Forall_cons in HF as [H1 HF]. cbn. by rewrite H1, IH. }
  destruct k as [s|s|s|ty l|l|v [x|] mn mx|a|a|a|]; cbn [kids kmap]; rewrite ?Forall_cons; intros HF; try done; try by rewrite Hm.
  - destruct HF as (-> & -> & _). done.
  - destruct HF as (-> & _). done.
  - destruct HF as (-> & _). done.
  - destruct HF as (-> & _). done.
  - destruct HF as (-> & _). done.
Qed.

(** ** The shape is kept *)
Lemma once_mono n m : once n -> mono n = Some m -> once m.
Proof.
  destruct n as [i rs k]. intros Ho H. inversion Ho as [? ? ? Hnd Hfl Hor Hok]; subst. cbn [mono] in H.
  destruct k as [s|s|s|ty l|[|[im rm km] [|? ?]]|v j mn mx|a|a|a|]; try done.
  destruct (pi_rank i || pi_wrap i)%bool eqn:Hb; [done|]. injection H as <-.
  apply orb_false_iff in Hb as [Hr _]. rewrite (Hfl Hr), app_nil_r.
  cbn [kids] in Hok. apply Forall_cons in Hok as [Hm _]. inversion Hm as [? ? ? Hnd' Hfl' Hor' Hok']; subst. by constructor.
Qed.
Lemma once_children f n : (forall c, once c -> once (f c)) -> once n -> once (on_children f n).
Proof.
  intros Hf. destruct n as [i rs k]. intros Ho. inversion Ho as [? ? ? Hnd Hfl Hor Hok]; subst. cbn [on_children]. constructor.
  - unfold on_rules. change (map ?g rs) with (g <$> rs). rewrite <- list_fmap_compose. exact Hnd.
  - intros Hr. by rewrite (Hfl Hr).
  - unfold on_rules. apply Forall_map. eapply Forall_impl; [exact Hor|]. intros [nm c] Hc. cbn. by apply Hf.
  - rewrite kids_kmap. apply Forall_map. eapply Forall_impl; [exact Hok|]. intros c Hc. by apply Hf.
Qed.
Lemma once_walk_mono fuel : forall n, once n -> once (walk_mono fuel n).
Proof.
  induction fuel as [|fuel IH]; intros n Ho; [done|]. cbn [walk_mono]. apply once_children; [done|]. apply once_children; [|done].
  intros c Hc. destruct (mono c) as [m|] eqn:Hm; [by eapply once_mono|by apply IH].
Qed.
Lemma once_optimize n : once n -> once (optimize n).
Proof.
  intros Ho. unfold optimize. apply once_walk_mono. destruct (mono n) as [m|] eqn:Hm; [by eapply once_mono|by apply once_walk_mono].
Qed.

(** ** Nothing to remove *)
Inductive bare : pn -> Prop :=
| bare_node i rs k : mono (Pn i rs k) = None -> Forall (fun q => bare (snd q)) rs -> Forall bare (kids k) -> bare (Pn i rs k).
Lemma children_id f n : Forall (fun q => f (snd q) = snd q) (pn_rules n) -> Forall (fun c => f c = c) (kids (pn_kind n)) -> on_children f n = n.
Proof.
  destruct n as [i rs k]. cbn [pn_rules pn_kind on_children]. intros Hr Hk. rewrite kmap_id by done. f_equal.
  unfold on_rules. induction rs as [|[nm c] rs IH]; [done|]. apply Forall_cons in Hr as [H1 Hr]. cbn in *. by rewrite H1, IH.
Qed.
Lemma bare_mono n : bare n -> mono n = None.
Proof. by intros []. Qed.
Lemma walk_mono_id fuel : forall n, bare n -> walk_mono fuel n = n.
Proof.
  induction fuel as [|fuel IH]; intros n Hb; [done|]. cbn [walk_mono]. inversion Hb as [i rs k Hm Hr Hk]; subst.
  assert (on_children (fun c => match mono c with Some m => m | None => walk_mono fuel c end) (Pn i rs k) = Pn i rs k) as ->.
  { apply children_id; cbn [pn_rules pn_kind]; eapply Forall_impl; [exact Hr| |exact Hk|]; cbn; intros c Hc;
      rewrite (bare_mono _ Hc); by apply IH. }
  apply children_id; cbn [pn_rules pn_kind]; eapply Forall_impl; [exact Hr| |exact Hk|]; cbn; intros c Hc; by apply IH.
Qed.
Lemma optimize_id n : bare n -> optimize n = n.
Proof.
  intros Hb. unfold optimize. assert (mono n = None) as Hm by (by inversion Hb). rewrite Hm, (walk_mono_id _ n Hb). by apply walk_mono_id.
Qed.

Lemma plant_bare e : no_single e = true -> bare (plant e).
Proof.
  induction e as [lb k IH] using pexp_ind2. intros H. cbn [plant]. constructor.
  - destruct k as [s|s|s|ty l|l|v [x|] mn mx|a|a|a|]; try done. cbn [kmap]. destruct l as [|c [|? ?]]; [done| |cbn; by destruct (plant _)].
    cbn in H. done.
  - constructor.
  - rewrite kids_kmap. apply Forall_map.
    assert (Hk : Forall (fun c => no_single c = true) (kids k)).
    { cbn [no_single] in H. destruct k as [s|s|s|ty l|l|v [x|] mn mx|a|a|a|]; cbn [kids]; rewrite ?Forall_cons; try done.
      - rewrite forallb_forall in H. rewrite Forall_forall. intros c Hc%elem_of_list_In. by apply H.
      - apply andb_prop in H as [_ H]. rewrite forallb_forall in H. rewrite Forall_forall. intros c Hc%elem_of_list_In. by apply H.
      - apply andb_prop in H as [H1 H2]. done.
      - apply andb_prop in H as [H1 H2]. done. }
    rewrite Forall_forall in IH, Hk |- *. intros c Hc. by apply IH; [|apply Hk].
Qed.
(** Whether there is one alternative to merge does not depend on name, label,
    options. *)
Lemma bare_relabel i i' rs k : pi_rank i = false -> pi_wrap i = false -> bare (Pn i rs k) -> bare (Pn i' rs k).
Proof.
  intros H1 H2 Hb. inversion Hb as [? ? ? Hm Hr Hk]; subst. constructor; [|done..]. cbn [mono] in *. rewrite H1, H2 in Hm.
  destruct k as [s|s|s|ty l|[|[im rm km] [|? ?]]|v j mn mx|a|a|a|]; done.
Qed.
Lemma bare_rank i rs k : pi_rank i = true -> Forall (fun q => bare (snd q)) rs -> Forall bare (kids k) -> bare (Pn i rs k).
Proof.
  intros H Hr Hk. constructor; [|done..]. cbn [mono]. rewrite H.
  destruct k as [s|s|s|ty l|[|[im rm km] [|? ?]]|v j mn mx|a|a|a|]; done.
Qed.

Lemma written_inside P compile ls : written P compile (LA ls) -> Forall (written P compile) ls.
Proof.
  unfold written. cbn [parsers texts]. intros [H1 H2]. induction ls as [|l ls IH]; [constructor|]. cbn [flat_map] in H1, H2.
  apply Forall_app in H1 as [H1 H1']. apply Forall_app in H2 as [H2 H2']. constructor; [done|]. by apply IH.
Qed.
Section Lines.
Variable compile : bytes -> res pexp.
Definition tame (l : line) : Prop := written no_single compile l.
Definition stays (l : line) : Prop := forall name parent o x, get_rule compile l name parent o = ROk x -> tame l -> bare x.
Lemma tame_inside ls : tame (LA ls) -> Forall tame ls.
Proof. apply written_inside. Qed.
Lemma bare_loop ls : Forall (fun l => match l with LO _ c _ | LI _ c _ => stays c /\ tame c | _ => True end) ls ->
  forall r r', rank_lines compile ls r = ROk r' -> pi_rank (pn_info r) = true ->
  Forall (fun q => bare (snd q)) (pn_rules r) -> Forall bare (kids (pn_kind r)) -> bare r' /\ pi_rank (pn_info r') = true.
Proof.
  induction ls as [|l ls IH]; intros HF [i rs k] r' H Hrank Hr Hk; cbn [rank_lines] in H.
  - injection H as <-. split; [by apply bare_rank|done].
  - apply Forall_cons in HF as [H1 HF]. destruct l as [s|a p|l|nm c o|nm c o]; try done.
    + destruct (get_rule _ _ _ _ _) as [x| |] eqn:Hg in H; [|done..]. cbn [rbind] in H. destruct H1 as [Hs Ht].
      apply IH in H; [done|done|done|done|]. cbn [rank_append pn_kind kids] in *. apply Forall_app. split; [done|].
      constructor; [|constructor]. by eapply Hs.
    + destruct (get_rule _ _ _ _ _) as [x| |] eqn:Hg in H; [|done..]. cbn [rbind] in H. destruct H1 as [Hs Ht].
      apply IH in H; [done|done|done| |done]. cbn [rank_include pn_rules] in *. apply Forall_app. split; [done|].
      constructor; [|constructor]. by eapply Hs.
Qed.
Lemma all_stay l : stays l /\ match l with LO _ c _ | LI _ c _ => stays c | _ => True end.
Proof.
  induction l as [s|a e|ls IH|nm c o [IH _]|nm c o [IH _]] using line_ind2; (split; [|done]).
  - intros name parent o x H [Ht _]. cbn [get_rule] in H. destruct (compile s) as [e| |] eqn:He; [|done..]. cbn [rbind] in H.
    cbn [texts] in Ht. apply Forall_cons in Ht as [Ht _]. apply register_ok in H as [-> _]. pose proof (plant_bare e (Ht _ He)) as Hb. destruct e as [lb k].
    cbn [plant set_name set_opts set_reg_cb] in *. by eapply bare_relabel; [..|exact Hb].
  - intros name parent o x H [_ Ht]. cbn [get_rule] in H. cbn [parsers] in Ht. apply Forall_cons in Ht as [Ht _].
    apply register_ok in H as [-> _]. pose proof (plant_bare e Ht) as Hb. destruct e as [lb k].
    cbn [plant set_name set_wrap set_reg_cb] in *. by eapply bare_relabel; [..|exact Hb].
  - intros name parent o x H Ht. apply tame_inside in Ht.
    change (get_rule compile (LA ls) name parent o) with
      (rbind (rank_lines compile ls (empty_rank name)) (fun r => register name o r)) in H.
    destruct (rank_lines compile ls (empty_rank name)) as [r| |] eqn:Hr; [|done..]. cbn [rbind] in H.
    apply register_ok in H as [-> Hname]. apply bare_loop in Hr as [Hb Hrank]; [|..|done|constructor|constructor].
    + destruct r as [i rs k]. inversion Hb as [? ? ? Hm Hrs Hk]; subst. cbn [set_reg_cb]. by apply bare_rank.
    + rewrite Forall_forall in IH, Ht |- *. intros l Hl. specialize (IH l Hl). specialize (Ht l Hl).
      destruct l; try done; split; [apply IH|exact Ht|apply IH|exact Ht].
  - intros name parent o' x H Ht. cbn [get_rule] in H. destruct (get_rule compile c _ parent o') as [y| |] eqn:Hg in H; [|done..].
    cbn [rbind] in H. pose proof (IH _ _ _ _ Hg Ht) as Hb. clear Hg. apply register_ok in H as [-> _].
    assert (forall i i' rs k, pi_rank i = pi_rank i' -> pi_wrap i = pi_wrap i' -> bare (Pn i rs k) -> bare (Pn i' rs k)) as Hre.
    { intros i i' rs k E1 E2 Hb'. inversion Hb' as [? ? ? Hm Hrs Hk]; subst. constructor; [|done..]. cbn [mono] in *. rewrite E1, E2 in Hm.
      destruct k as [s|s|s|ty l|[|[im rm km] [|? ?]]|v j mn mx|a|a|a|]; try done. by destruct (_ || _)%bool. }
    destruct y as [i rs k]. destruct (String.eqb _ _); cbn [set_name set_reg_cb]; (eapply Hre; [| |exact Hb]; done).
  - intros name parent o' x H. done.
Qed.

Lemma lines_bare name ls r : rank_from_lines compile name ls = ROk r -> tame (LA ls) -> bare r.
Proof.
  intros H Ht. apply tame_inside in Ht. unfold rank_from_lines in H. eapply bare_loop in H as [Hb _]; [exact Hb| |done|constructor|constructor].
  rewrite Forall_forall in Ht |- *. intros l Hl. specialize (Ht l Hl).
  destruct (all_stay l) as [_ Hs]. destruct l; done.
Qed.
End Lines.
