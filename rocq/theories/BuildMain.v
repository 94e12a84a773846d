(** The theorems on grammars made from lines. *)
From Verif Require Import Base Helpers Native Engine EngSpec TermSpec RunSpec Build BuildSpec BuildWalk BuildLines BuildMono BuildPrep BuildProofs.

(** ** The top rank *)
Section Lines.
Variable compile : bytes -> res pexp.

Lemma once_loop ls : Forall good ls -> forall r r', rank_lines compile ls r = ROk r' -> pi_rank (pn_info r) = true ->
  Forall (fun q => once (snd q)) (pn_rules r) -> Forall once (kids (pn_kind r)) ->
  pi_rank (pn_info r') = true /\ fst <$> pn_rules r' = (fst <$> pn_rules r) ++ i_names ls /\
  Forall (fun q => once (snd q)) (pn_rules r') /\ Forall once (kids (pn_kind r')).
Proof.
  induction ls as [|l ls IH]; intros HF [i rs k] r' H Hrank Hr Hk; cbn [rank_lines] in H.
  - injection H as <-. cbn [i_names]. by rewrite app_nil_r.
  - apply Forall_cons in HF as [H1 HF]. destruct l as [s|a p|l|nm c o|nm c o]; try done.
    + destruct (get_rule _ _ _ _ _) as [x| |] eqn:Hg in H; [|done..]. cbn [rbind] in H.
      apply IH in H; [done|done|done|done|]. cbn [rank_append pn_kind kids] in *. apply Forall_app. split; [done|].
      constructor; [|constructor]. destruct (all_plant compile (LO nm c o)) as [_ Hp]. by eapply Hp.
    + destruct (get_rule _ _ _ _ _) as [x| |] eqn:Hg in H; [|done..]. cbn [rbind] in H.
      apply IH in H as (E1 & E2 & E3 & E4); [|done|done| |done].
      * split; [done|]. split; [|done]. rewrite E2. cbn [rank_include pn_rules]. rewrite fmap_app, <- app_assoc. done.
      * cbn [rank_include pn_rules] in *. apply Forall_app. split; [done|].
        constructor; [|constructor]. destruct (all_plant compile (LI nm c o)) as [_ Hp]. by eapply Hp.
Qed.
Lemma lines_once name ls r : rank_from_lines compile name ls = ROk r -> names_once ls -> once r.
Proof.
  intros H Hn. apply good_inside in Hn as [Hnd Hg]. apply once_loop in H as (E1 & E2 & E3 & E4); [|done|done|constructor|constructor].
  destruct r as [i rs k]. cbn [pn_info pn_rules pn_kind] in *. constructor; [by rewrite E2|by rewrite E1|done|done].
Qed.
Lemma lines_rank name ls r : rank_from_lines compile name ls = ROk r -> name <> EmptyString ->
  exists xs ys, r = Pn (PInfo name "" false false true no_opts) xs (KChoice ys) /\ rr compile name ls 0 xs ys.
Proof.
  intros H Hne. pose proof (rank_name compile _ _ _ H Hne) as Hnm. apply rank_loop in H as (Hi & xs & ys & Hxs & Hys & Hrr); [|done|by eexists].
  exists xs, ys. destruct r as [i rs k]. cbn in *. by subst.
Qed.

(** ** No reference labelled [@] *)
Inductive plainp : pn -> Prop :=
| plain_node i rs k : match k with KRef _ => pi_label i <> "@"%string | _ => True end ->
    Forall (fun q => plainp (snd q)) rs -> Forall plainp (kids k) -> plainp (Pn i rs k).
Lemma plainp_at n : plainp n -> plain_at (unplant n) = true.
Proof.
  induction n as [i rs k _ IHk] using pn_ind2. intros H. inversion H as [? ? ? Hl _ Hk]; subst.
  assert (Hall : Forall (fun c => plain_at (unplant c) = true) (kids k)).
  { rewrite Forall_forall in IHk, Hk |- *. intros c Hc. by apply IHk; [|apply Hk]. }
  assert (Hm : forall l, Forall (fun c => plain_at (unplant c) = true) l -> forallb plain_at (map unplant l) = true).
  { induction l as [|c l IH]; intros HF; [done|]. apply Forall_cons in HF as [E1 E2]. cbn. by rewrite E1, IH. }
  cbn [unplant]. destruct k as [s|s|s|ty l|l|v [x|] mn mx|a|a|a|]; cbn [kmap kids plain_at] in *; try done; try (by apply Hm).
  - apply negb_true_iff. by apply String.eqb_neq.
  - apply Forall_cons in Hall as [-> Hall]. by apply Forall_cons in Hall as [-> _].
  - by apply Forall_cons in Hall as [-> _].
  - by apply Forall_cons in Hall as [-> _].
  - by apply Forall_cons in Hall as [-> _].
  - by apply Forall_cons in Hall as [-> _].
Qed.
Lemma plant_plainp e : plain_at e = true -> plainp (plant e).
Proof.
  induction e as [lb k IH] using pexp_ind2. intros H. cbn [plant]. constructor; [|constructor|].
  - destruct k; try done. cbn in *. apply negb_true_iff in H. by apply String.eqb_neq.
  - rewrite kids_kmap. apply Forall_map.
    assert (Hk : Forall (fun c => plain_at c = true) (kids k)).
    { cbn [plain_at] in H. destruct k as [s|s|s|ty l|l|v [x|] mn mx|a|a|a|]; cbn [kids]; rewrite ?Forall_cons; try done.
      - rewrite forallb_forall in H. rewrite Forall_forall. intros c Hc%elem_of_list_In. by apply H.
      - rewrite forallb_forall in H. rewrite Forall_forall. intros c Hc%elem_of_list_In. by apply H.
      - apply andb_prop in H as [H1 H2]. done.
      - apply andb_prop in H as [H1 H2]. done. }
    rewrite Forall_forall in IH, Hk |- *. intros c Hc. by apply IH; [|apply Hk].
Qed.
Lemma plainp_info i i' rs k : pi_label i = pi_label i' -> plainp (Pn i rs k) -> plainp (Pn i' rs k).
Proof. intros Hl H. inversion H; subst. constructor; [|done..]. by rewrite <- Hl. Qed.
Definition clear (l : line) : Prop := written plain_at compile l.
Definition stays_plain (l : line) : Prop := forall name parent o x, get_rule compile l name parent o = ROk x -> clear l -> plainp x.
Lemma clear_inside ls : clear (LA ls) -> Forall clear ls.
Proof. apply written_inside. Qed.
Lemma plain_loop ls : Forall (fun l => match l with LO _ c _ | LI _ c _ => stays_plain c /\ clear c | _ => True end) ls ->
  forall r r', rank_lines compile ls r = ROk r' -> plainp r -> (exists l, pn_kind r = KChoice l) -> plainp r'.
Proof.
  induction ls as [|l ls IH]; intros HF [i rs k] r' H Hp [al Hal]; cbn [rank_lines] in H.
  - by injection H as <-.
  - apply Forall_cons in HF as [H1 HF]. cbn [pn_kind] in Hal. subst k. inversion Hp as [? ? ? Hl Hr Hk]; subst.
    destruct l as [s|a p|l|nm c o|nm c o]; try done.
    + destruct (get_rule _ _ _ _ _) as [x| |] eqn:Hg in H; [|done..]. cbn [rbind] in H. destruct H1 as [Hs Ht].
      apply IH in H; [done|done| |by eexists]. cbn [rank_append]. constructor; [done|done|]. cbn [kids] in *. apply Forall_app. split; [done|].
      constructor; [|constructor]. by eapply Hs.
    + destruct (get_rule _ _ _ _ _) as [x| |] eqn:Hg in H; [|done..]. cbn [rbind] in H. destruct H1 as [Hs Ht].
      apply IH in H; [done|done| |by eexists]. cbn [rank_include]. constructor; [done| |done]. apply Forall_app. split; [done|].
      constructor; [|constructor]. by eapply Hs.
Qed.
Lemma plainp_empty name : plainp (empty_rank name).
Proof. constructor; [done|constructor|constructor]. Qed.
Lemma all_stay_plain l : stays_plain l /\ match l with LO _ c _ | LI _ c _ => stays_plain c | _ => True end.
Proof.
  induction l as [s|a e|ls IH|nm c o [IH _]|nm c o [IH _]] using line_ind2; (split; [|done]).
  - intros name parent o x H [Ht _]. cbn [get_rule] in H. destruct (compile s) as [e| |] eqn:He; [|done..]. cbn [rbind] in H.
    cbn [texts] in Ht. apply Forall_cons in Ht as [Ht _]. apply register_ok in H as [-> _]. pose proof (plant_plainp e (Ht _ He)) as Hb. destruct e as [lb k].
    cbn [plant set_name set_opts set_reg_cb] in *. by eapply plainp_info; [|exact Hb].
  - intros name parent o x H [_ Ht]. cbn [get_rule] in H. cbn [parsers] in Ht. apply Forall_cons in Ht as [Ht _].
    apply register_ok in H as [-> _]. pose proof (plant_plainp e Ht) as Hb. destruct e as [lb k].
    cbn [plant set_name set_wrap set_reg_cb] in *. by eapply plainp_info; [|exact Hb].
  - intros name parent o x H Ht. apply clear_inside in Ht.
    change (get_rule compile (LA ls) name parent o) with
      (rbind (rank_lines compile ls (empty_rank name)) (fun r => register name o r)) in H.
    destruct (rank_lines compile ls (empty_rank name)) as [r| |] eqn:Hr; [|done..]. cbn [rbind] in H.
    apply register_ok in H as [-> Hname]. apply plain_loop in Hr as Hb; [|..|apply plainp_empty|by eexists].
    + destruct r as [i rs k]. cbn [set_reg_cb]. by eapply plainp_info; [|exact Hb].
    + rewrite Forall_forall in IH, Ht |- *. intros l Hl. specialize (IH l Hl). specialize (Ht l Hl).
      destruct l; try done; split; [apply IH|exact Ht|apply IH|exact Ht].
  - intros name parent o' x H Ht. cbn [get_rule] in H. destruct (get_rule compile c _ parent o') as [y| |] eqn:Hg in H; [|done..].
    cbn [rbind] in H. pose proof (IH _ _ _ _ Hg Ht) as Hb. apply register_ok in H as [-> _].
    destruct y as [i rs k]. destruct (String.eqb _ _); cbn [set_name set_reg_cb]; by eapply plainp_info; [|exact Hb].
  - intros name parent o' x H. done.
Qed.
Lemma lines_plain name ls r : rank_from_lines compile name ls = ROk r -> clear (LA ls) -> plainp r.
Proof.
  intros H Ht. apply clear_inside in Ht. unfold rank_from_lines in H. eapply plain_loop in H; [exact H| |apply plainp_empty|by eexists].
  rewrite Forall_forall in Ht |- *. intros l Hl. specialize (Ht l Hl).
  destruct (all_stay_plain l) as [_ Hs]. destruct l; done.
Qed.
Lemma plainp_walk n : once n -> plainp n -> forall p ph v, v ∈ posts (walk p ph n) -> plain_at (unplant (v_node v)) = true.
Proof.
  induction n as [i rs k IHr IHk] using pn_ind2. intros Ho Hp p ph v Hv. inversion Ho as [? ? ? Hnd Hfl Hor Hok]; subst.
  apply (walk_in _ _ _ _ _ _ Hnd) in Hv as [(m & q & Hq & Hv)|[(m & c' & Hc & Hv)| ->]]; [..|by apply plainp_at]; inversion Hp as [? ? ? _ Hpr Hpk]; subst.
  - rewrite Forall_lookup in IHr, Hor, Hpr. by eapply IHr; eauto.
  - rewrite Forall_lookup in IHk, Hok, Hpk. by eapply IHk; eauto.
Qed.
End Lines.

(** ** Heights *)
Lemma list_max_in l (x : nat) : x ∈ l -> x <= list_max l.
Proof. intros H%elem_of_list_In. pose proof (proj1 (list_max_le l _) (Nat.le_refl _)) as HF. rewrite List.Forall_forall in HF. by apply HF. Qed.
Lemma freeze_height regs fuel ps n : forall p ph, TermSpec.height (freeze regs fuel ps p ph n) <= Build.height n.
Proof.
  induction n as [i rs k _ IHk] using pn_ind2. intros p ph. rewrite freeze_eq. cbn [pn_kind]. generalize (handles ph (Pn i rs k)). intros h.
  assert (Hl : forall l, kids k = l -> fold_right (fun c m => Nat.max (TermSpec.height c) m) 0 (fgo regs fuel ps p h 0 l) <= list_max (map Build.height l)).
  { intros l. generalize 0 at 2. generalize (kids k) IHk. intros ks HF j ->. revert j HF. induction l as [|c l IH]; intros j HF; [done|].
    apply Forall_cons in HF as [H1 HF]. cbn [fgo fold_right map]. specialize (H1 (SKid j :: p) h). specialize (IH (S j) HF).
    change (list_max (?a :: ?b)) with (Nat.max a (list_max b)). lia. }
  destruct k as [s|s|s|ty l|l|v [x|] mn mx|a|a|a|]; cbn [kids] in *; rewrite ?Forall_cons in IHk; cbn [TermSpec.height Build.height].
  all: try lia.
  - specialize (Hl l eq_refl). lia.
  - specialize (Hl l eq_refl). lia.
  - destruct IHk as (H1 & H2 & _). specialize (H1 (SKid 0 :: p) h). specialize (H2 (SKid 1 :: p) h). lia.
  - destruct IHk as (H1 & _). specialize (H1 (SKid 0 :: p) h). lia.
  - destruct IHk as (H1 & _). specialize (H1 (SKid 0 :: p) h). lia.
  - destruct IHk as (H1 & _). specialize (H1 (SKid 0 :: p) h). lia.
  - destruct IHk as (H1 & _). specialize (H1 (SKid 0 :: p) h). lia.
Qed.
Lemma walk_height n : once n -> forall p ph v, v ∈ posts (walk p ph n) -> Build.height (v_node v) <= Build.height n.
Proof.
  induction n as [i rs k IHr IHk] using pn_ind2. intros Ho p ph v Hv. inversion Ho as [? ? ? Hnd Hfl Hor Hok]; subst.
  apply (walk_in _ _ _ _ _ _ Hnd) in Hv as [(m & q & Hq & Hv)|[(m & c' & Hc & Hv)| ->]]; [..|done].
  - rewrite Forall_lookup in IHr, Hor. assert (Hle : Build.height (v_node v) <= Build.height (snd q)) by (by eapply IHr; eauto).
    assert (Hin : Build.height (snd q) <= list_max (map (fun p => Build.height (snd p)) rs)).
    { apply list_max_in. apply elem_of_list_fmap. exists q. split; [done|]. by eapply elem_of_list_lookup_2. }
    cbn [Build.height]. lia.
  - rewrite Forall_lookup in IHk, Hok. assert (Hle : Build.height (v_node v) <= Build.height c') by (by eapply IHk; eauto).
    assert (Hin : forall l, kids k = l -> Build.height c' <= list_max (map Build.height l)).
    { intros l Hl. apply list_max_in. apply elem_of_list_fmap. exists c'. split; [done|]. rewrite <- Hl. by eapply elem_of_list_lookup_2. }
    destruct k as [s|s|s|ty l|l|e [x|] mn mx|a|a|a|]; cbn [kids] in *; cbn [Build.height]; try done;
      try (specialize (Hin l eq_refl)); try (specialize (Hin _ eq_refl); cbn [map] in Hin; unfold list_max in Hin; cbn [fold_right] in Hin); lia.
Qed.

(** ** Numbering *)
Lemma build_parts compile fuel name ls b : build compile fuel name ls = ROk b -> exists rank ps,
  rank_from_lines compile name ls = ROk rank /\ postinit fuel rank = ROk b /\
  prepare_all (regs_of (optimize rank)) fuel (gm_walk (regs_of (optimize rank)) (walk [] false (optimize rank))) pst0 = ROk ps /\
  types (regs_of (optimize rank)) fuel ps (walk [] false (optimize rank)) = ROk tt /\
  b = out fuel rank ps.
Proof.
  unfold build. intros H. destruct (rank_from_lines compile name ls) as [rank| |]; [|done..]. cbn [rbind] in H.
  pose proof (postinit_parts _ _ _ H) as (ps & H1 & H2 & H3). exists rank, ps. split; [done|]. split; [done|]. split; [done|]. split; [done|]. exact H3.
Qed.
Lemma numbered compile fuel name ls b : build compile fuel name ls = ROk b -> names_once ls ->
  (forall i nm n, snd b !! i = Some (nm, n) -> i_id (n_info n) = i /\ i_name (n_info n) = nm) /\
  forall o rx cb n, reach (mk_env (gram_of b) o rx cb) (g_rank (gram_of b)) n -> i_isrule (n_info n) = true ->
    snd b !! i_id (n_info n) = Some (i_name (n_info n), n).
Proof.
  intros H Hn. apply build_parts in H as (rank & ps & H1 & _ & _ & _ & ->).
  pose proof (once_optimize _ (lines_once _ _ _ _ H1 Hn)) as Ho. split.
  - intros i nm n. by apply table_fz.
  - intros o rx cb n. by apply rule_fz.
Qed.
Lemma finite compile fuel name ls b : build compile fuel name ls = ROk b -> names_once ls ->
  exists D, forall o rx cb, heights (mk_env (gram_of b) o rx cb) (g_rank (gram_of b)) D.
Proof.
  intros H Hn. apply build_parts in H as (rank & ps & H1 & _ & _ & _ & ->).
  pose proof (once_optimize _ (lines_once _ _ _ _ H1 Hn)) as Ho. exists (Build.height (optimize rank)). intros o rx cb n Hr.
  apply reach_fz in Hr as (v & Hv & ->); [|done]. unfold fz. etrans; [apply freeze_height|]. by eapply walk_height.
Qed.

Lemma posts_concat {A} (f : A -> list wev) l v : v ∈ posts (concat (map f l)) -> exists q, q ∈ l /\ v ∈ posts (f q).
Proof.
  induction l as [|q l IH]; cbn [map concat]; [by intros ?%elem_of_nil|]. rewrite posts_app, elem_of_app. intros [H|H].
  - exists q. split; [apply elem_of_list_here|done].
  - apply IH in H as (q' & Hq' & H). exists q'. split; [by apply elem_of_list_further|done].
Qed.

Lemma Forall2_impl_in {A B} (P Q : A -> B -> Prop) l k : Forall2 P l k -> (forall x y, x ∈ l -> y ∈ k -> P x y -> Q x y) -> Forall2 Q l k.
Proof.
  induction 1 as [|x y l k H HF IH]; intros HQ; [constructor|]. constructor; [apply HQ; [apply elem_of_list_here..|done]|].
  apply IH. intros x' y' Hx Hy. apply HQ; by apply elem_of_list_further.
Qed.

(** ** Names *)
Section Named.
Variables (compile : bytes -> res pexp) (fuel : nat) (name : string) (ls : list line) (b : node * list (string * node)).
Hypothesis Hb : build compile fuel name ls = ROk b.
Hypothesis Hnames : names_once ls.
Hypothesis Hsingle : no_singles compile ls.
Hypothesis Hne : name <> EmptyString.

Lemma named_parts : exists xs ys ps, let r := Pn (PInfo name "" false false true no_opts) xs (KChoice ys) in
  rank_from_lines compile name ls = ROk r /\ optimize r = r /\ once r /\
  b = out fuel r ps /\ labels_kept r ps /\
  prepare_all (regs_of r) fuel (gm_walk (regs_of r) (walk [] false r)) pst0 = ROk ps /\
  types (regs_of r) fuel ps (walk [] false r) = ROk tt /\
  pi_name ∘ pn_info <$> ys = o_names name ls 0 /\ Forall (fun y => pi_reg (pn_info y) = true) ys /\
  Forall2 (fun d v => made compile d (v_node v)) (decls name ls) (regs_at [] false r).
Proof.
  pose proof (build_parts _ _ _ _ _ Hb) as (rank & ps & H1 & H2 & H3 & H4 & H5).
  pose proof (lines_once _ _ _ _ H1 Hnames) as Ho.
  pose proof (optimize_id _ (lines_bare compile _ _ _ H1 Hsingle)) as Hopt.
  destruct (lines_rank _ _ _ _ H1 Hne) as (xs & ys & -> & Hrr). exists xs, ys, ps. cbn zeta. rewrite Hopt in *.
  apply good_inside in Hnames as [Hnd Hg].
  destruct (rr_once _ _ _ _ _ _ Hrr) as (E1 & E2 & E3 & E4 & E5 & E6).
  { rewrite Forall_forall in Hg |- *. intros l Hl. specialize (Hg l Hl). destruct (all_plant compile l) as [_ Hp]. destruct l; done. }
  split; [done|]. split; [done|]. split; [done|]. split; [done|]. split.
  { eapply prepare_all_label; [done| | |exact H3].
    - intros v Hv. unfold gm_walk in Hv. rewrite posts_app, elem_of_app in Hv. destruct Hv as [Hv|Hv]; [|done].
      apply posts_concat in Hv as (q & Hq & Hv). destruct (last_of (regs_of _) (fst q)) as [v'|] eqn:Hl; [|by apply elem_of_nil in Hv].
      apply last_of_in in Hl. apply reg_in in Hl as (_ & Hv' & _). by eapply walk_sub.
    - intros v x _ Hx. done. }
  split; [done|]. split; [done|]. split; [done|]. split; [done|].
  inversion Ho; subst. rewrite regs_at_eq by done. cbn [pi_reg kids]. rewrite app_nil_r, decls_eq. apply Forall2_app; [apply E5|apply E6].
Qed.

Lemma made_rule d v (r : pn) ps : once r -> labels_kept r ps -> v ∈ posts (walk [] false r) -> optimize r = r -> made compile d (v_node v) ->
  rule_of compile (snd (out fuel r ps)) d (freeze (regs_of r) fuel ps (v_path v) (v_ph v) (v_node v)).
Proof.
  intros Ho Hk Hv Hopt (M1 & M2 & M3 & M4). unfold rule_of. rewrite freeze_info. cbn [finfo i_name i_cb i_isrule i_skip i_debug i_label].
  split; [done|]. split; [done|]. destruct (d_what d) as [s|a e|ls'].
  - destruct M4 as (e & G1 & G2 & G3 & G4 & G5 & G6 & G7 & G8). exists e. split; [done|]. split; [by eapply spells_fz|].
    rewrite M2, G5. done.
  - destruct M4 as (G2 & G3 & G4 & G5 & G6 & G7 & G8). split; [by eapply spells_fz|]. rewrite M2, G5. done.
  - destruct M4 as (G1 & G2 & G3 & G4 & G5 & alts & G6 & G7 & Hkids).
    split. { pose proof (label_fz fuel r ps (regs_of r) Hk v Hv) as Hl. rewrite freeze_info in Hl. cbn [finfo i_label] in Hl.
      rewrite G1, G6 in Hl. cbn in Hl. destruct Hl as [?|[_ [a Ha]]]; [done|]. done. }
    rewrite M2, G2. split; [done|]. split; [done|]. split; [done|].
    rewrite freeze_eq. cbn [n_kind]. rewrite G6. eexists. split; [done|]. split.
    + rewrite <- G7. clear. generalize 0. induction alts as [|c l IH]; intros j; [done|]. cbn [fgo fmap list_fmap]. rewrite IH. f_equal.
      unfold compose. by rewrite freeze_info.
    + rewrite Forall_lookup. intros m x Hx. rewrite fgo_lookup in Hx. destruct (alts !! m) as [c|] eqn:Hc; [|done]. injection Hx as <-.
      cbn [Nat.add].
      assert (Hin : Visit (SKid m :: v_path v) (handles (v_ph v) (v_node v)) c ∈ posts (walk [] false r)) by (apply walk_kid; [done|done|by rewrite G6]).
      rewrite freeze_info. cbn [finfo i_name]. unfold out, fz. cbn [snd]. rewrite Hopt. apply elem_of_list_fmap.
      exists (pi_name (pn_info c), Visit (SKid m :: v_path v) (handles (v_ph v) (v_node v)) c). split; [done|].
      apply (in_reg r (Visit (SKid m :: v_path v) (handles (v_ph v) (v_node v)) c)); [done|]. rewrite Forall_lookup in Hkids. by eapply Hkids.
Qed.

Lemma named : Forall2 (fun d q => fst q = d_name d /\ rule_of compile (snd b) d (snd q)) (decls name ls) (snd b) /\
  exists alts, n_kind (fst b) = KChoice alts /\ i_name ∘ n_info <$> alts = o_names name ls 0 /\
    Forall (fun a => (i_name (n_info a), a) ∈ snd b) alts /\
    i_isrule (n_info (fst b)) = false /\ i_label (n_info (fst b)) = EmptyString /\ i_cb (n_info (fst b)) = None.
Proof.
  destruct named_parts as (xs & ys & ps & H1 & Hopt & Ho & -> & Hk & H3 & H4 & H5 & H6 & H7).
  set (r := Pn (PInfo name "" false false true no_opts) xs (KChoice ys)) in *. split.
  - assert (Hsnd : snd (out fuel r ps) = (fun v => (pi_name (pn_info (v_node v)), freeze (regs_of r) fuel ps (v_path v) (v_ph v) (v_node v))) <$> regs_at [] false r).
    { unfold out, fz. cbn [snd]. rewrite Hopt. change (map reg_of ?l) with (reg_of <$> l). change (map ?f (reg_of <$> ?l)) with (f <$> (reg_of <$> l)).
      rewrite <- list_fmap_compose. done. }
    assert (forall l, l = snd (out fuel r ps) -> Forall2 (fun d q => fst q = d_name d /\ rule_of compile (snd (out fuel r ps)) d (snd q)) (decls name ls) l) as Hall; [|by apply Hall].
    intros l Hl. rewrite Hsnd in Hl. subst l. apply Forall2_fmap_r. eapply Forall2_impl_in; [exact H7|]. intros d v _ Hv Hm. cbn [fst snd]. split; [by apply Hm|].
    apply made_rule; [done|done| |done|done]. apply elem_of_list_In in Hv. apply filter_In in Hv as [Hv _]. by apply elem_of_list_In.
  - unfold out, fz. cbn [fst snd v_path v_ph v_node]. rewrite Hopt. rewrite freeze_eq. cbn [n_kind n_info]. subst r. cbn [pn_kind].
    set (r := Pn (PInfo name "" false false true no_opts) xs (KChoice ys)) in *. eexists. split; [done|]. split; [|split; [|split; [|split]]].
    + rewrite <- H5. generalize 0. generalize (regs_of r), (handles false r). clear. intros regs h. induction ys as [|c l IH]; intros j; [done|]. cbn [fgo fmap list_fmap]. rewrite IH. f_equal.
      unfold compose. by rewrite freeze_info.
    + rewrite Forall_lookup. intros m x Hx. rewrite fgo_lookup in Hx. destruct (ys !! m) as [c|] eqn:Hc; [|done]. injection Hx as <-.
      assert (Hself : Visit [] false r ∈ posts (walk [] false r)) by (by apply walk_self).
      assert (Hin : Visit [SKid m] (handles false r) c ∈ posts (walk [] false r)) by (apply (walk_kid r Ho [] false (Visit [] false r) m c Hself); done).
      rewrite freeze_info. cbn [finfo i_name]. apply elem_of_list_fmap.
      exists (pi_name (pn_info c), Visit [SKid m] (handles false r) c). split; [done|].
      apply (in_reg r (Visit [SKid m] (handles false r) c)); [done|]. rewrite Forall_lookup in H6. by eapply H6.
    + done.
    + cbn. unfold label_at. destruct (ps_label ps []) as [x|] eqn:Hx; [|done].
      apply (Hk (Visit [] false r)) in Hx as (_ & _ & a & Ha); [done|by apply walk_self].
    + done.
Qed.
Lemma counted : g_nrules (gram_of b) = length (decls name ls).
Proof. destruct named as [H _]. apply Forall2_length in H. by rewrite H. Qed.

Lemma last_of_app {A} (l l' : list (string * A)) nm : last_of (l ++ l') nm = match last_of l' nm with Some x => Some x | None => last_of l nm end.
Proof.
  unfold last_of. rewrite filter_app_bool, last_app. destruct (last (List.filter _ l')); done.
Qed.
Lemma last_of_split {A} (l : list (string * A)) nm x : last_of l nm = Some x -> exists i, l !! i = Some (nm, x) /\ forall j y, i < j -> l !! j = Some y -> fst y <> nm.
Proof.
  induction l as [|[nm' y] l IH] using rev_ind; [done|]. rewrite last_of_app.
  assert (last_of [(nm', y)] nm = if String.eqb nm nm' then Some y else None) as -> by (unfold last_of; cbn; by destruct (String.eqb nm nm')).
  destruct (String.eqb_spec nm nm') as [->|Hnn].
  - intros [= ->]. exists (length l). rewrite list_lookup_middle by done. split; [done|]. intros j z Hj Hz. apply lookup_lt_Some in Hz. rewrite app_length in Hz. cbn in Hz. lia.
  - intros (i & Hi & Hlast)%IH. exists i. split; [by apply lookup_app_l_Some|]. intros j z Hj Hz.
    apply lookup_app_Some in Hz as [Hz|[Hle Hz]]; [by eapply Hlast|]. apply list_lookup_singleton_Some in Hz as [_ <-]. cbn. congruence.
Qed.
Lemma looked_up nm : 
  match g_rule (gram_of b) nm with
  | None => nm ∉ d_name <$> decls name ls
  | Some n => exists i d, decls name ls !! i = Some d /\ d_name d = nm /\ snd b !! i = Some (nm, n) /\ rule_of compile (snd b) d n /\
      forall j d', i < j -> decls name ls !! j = Some d' -> d_name d' <> nm
  end.
Proof.
  destruct named as [HF _]. cbn [gram_of g_rule]. destruct (last_of (snd b) nm) as [n|] eqn:Hl.
  - apply last_of_split in Hl as (i & Hi & Hlast). destruct (Forall2_lookup_r _ _ _ _ _ HF Hi) as (d & Hd & Hn & Hrule). cbn [fst snd] in *.
    exists i, d. split; [done|]. split; [done|]. split; [done|]. split; [done|]. intros j d' Hj Hd'.
    destruct (Forall2_lookup_l _ _ _ _ _ HF Hd') as (q & Hq & Hn' & _). rewrite <- Hn'. by eapply Hlast.
  - apply last_of_none in Hl. intros Hin. apply Hl. apply elem_of_list_fmap in Hin as (d & -> & Hd). apply elem_of_list_lookup in Hd as [i Hi].
    destruct (Forall2_lookup_l _ _ _ _ _ HF Hi) as (q & Hq & <- & _). apply elem_of_list_fmap. exists q. split; [done|]. by eapply elem_of_list_lookup_2.
Qed.

(** ** Ready for the theorems on parsing *)
Lemma no_parser_decls l : forall nm o, parsers l = [] -> Forall (fun d => match d_what d with WParser _ _ => False | _ => True end) (decls_of nm o l).
Proof.
  assert (H : (forall nm o, parsers l = [] -> Forall (fun d => match d_what d with WParser _ _ => False | _ => True end) (decls_of nm o l)) /\
    match l with LO _ c _ | LI _ c _ => forall nm o, parsers c = [] -> Forall (fun d => match d_what d with WParser _ _ => False | _ => True end) (decls_of nm o c) | _ => True end); [|by apply H].
  induction l as [s|a e|l IH|nm c o [IH _]|nm c o [IH _]] using line_ind2; (split; [|done]); intros nm' o' Hp; cbn [parsers] in Hp.
  - by repeat constructor.
  - done.
  - rewrite decls_of_rank. apply Forall_app. split; [|by repeat constructor].
    assert (Hpl : Forall (fun l => parsers l = []) l).
    { clear -Hp. induction l as [|x l IHl]; [constructor|]. cbn [flat_map] in Hp. apply app_eq_nil in Hp as [H1 H2]. constructor; [done|]. by apply IHl. }
    apply Forall_app. split.
    + clear Hp. induction l as [|x l IHl]; [constructor|]. apply Forall_cons in IH as [[_ H1] IH]. apply Forall_cons in Hpl as [Hx Hpl].
      destruct x; cbn [i_decls]; try (by apply IHl). apply Forall_app. split; [by apply H1|by apply IHl].
    + clear Hp. generalize 0. induction l as [|x l IHl]; intros j; [constructor|]. apply Forall_cons in IH as [[_ H1] IH]. apply Forall_cons in Hpl as [Hx Hpl].
      destruct x; cbn [o_decls]; try (by apply IHl). apply Forall_app. split; [by apply H1|by apply IHl].
  - cbn [decls_of]. by apply IH.
  - constructor.
Qed.
Lemma text_rules : parsers (LA ls) = [] -> Forall (fun q => i_isrule (n_info (snd q)) = true) (snd b).
Proof.
  intros Hp. destruct named as [HF _]. pose proof (no_parser_decls (LA ls) name no_opts Hp) as Hd. rewrite decls_of_rank, <- decls_eq in Hd.
  apply Forall_app in Hd as [Hd _]. clear -HF Hd. revert HF Hd. generalize (snd b) at 1. intros tbl HF Hd.
  induction HF as [|d q ds qs [_ Hr] HF IH]; [constructor|]. apply Forall_cons in Hd as [H1 Hd]. constructor; [|by apply IH].
  destruct Hr as (_ & _ & Hr). destruct (d_what d); [|done|]; [destruct Hr as (e & _ & _ & ? & _); done|by destruct Hr as (_ & ? & _)].
Qed.
Lemma ready : parsers (LA ls) = [] -> forall o rx cb, let E := mk_env (gram_of b) o rx cb in
  ids_fit E (g_rank (gram_of b)) /\ ids_unique E (g_rank (gram_of b)) /\ top_rank (g_rank (gram_of b)) /\ refs_to_rules E /\
  exists D, heights E (g_rank (gram_of b)) D.
Proof.
  intros Hp o rx cb E. pose proof (numbered _ _ _ _ _ Hb Hnames) as [Hn1 Hn2]. pose proof (text_rules Hp) as Ht. rewrite Forall_forall in Ht.
  split; [|split; [|split; [|split]]].
  - intros n Hr Hi. specialize (Hn2 o rx cb n Hr Hi). by apply lookup_lt_Some in Hn2.
  - exists (fun i => snd (default (EmptyString, fst b) (snd b !! i))). intros n Hr Hi. by rewrite (Hn2 o rx cb n Hr Hi).
  - destruct named as [_ (alts & H1 & _ & H3 & H4 & H5 & H6)]. split; [done|]. split; [done|]. split; [done|]. exists alts. split; [done|].
    rewrite Forall_forall in H3 |- *. intros a Ha. apply (Ht (i_name (n_info a), a)). by apply H3.
  - intros nm t H. cbn in H. apply last_of_in in H. by apply Ht in H.
  - destruct (finite _ _ _ _ _ Hb Hnames) as [D HD]. exists D. apply HD.
Qed.

(** ** Captures and types *)
Lemma concat_omap (g : string -> option visit) (l : list (string * visit)) :
  concat (map (fun q => match g (fst q) with Some v => walk (v_path v) (v_ph v) (v_node v) | None => [] end) l) =
  concat (map (fun v => walk (v_path v) (v_ph v) (v_node v)) (omap (fun q => g (fst q)) l)).
Proof. induction l as [|q l IH]; [done|]. cbn. rewrite IH. by destruct (g (fst q)). Qed.
Lemma captured : plain_labels compile ls ->
  Forall2 (fun d q => typed_as compile d (snd q)) (decls name ls) (snd b).
Proof.
  intros Hp. destruct named_parts as (xs & ys & ps & H1 & Hopt & Ho & -> & Hk & H3 & H4 & H5 & H6 & H7).
  set (r := Pn (PInfo name "" false false true no_opts) xs (KChoice ys)) in *.
  pose proof (lines_plain compile _ _ _ H1 Hp) as Hpl. pose proof (plainp_walk r Ho Hpl [] false) as Hplain.
  assert (inv r ps /\ forall v, v ∈ posts (walk [] false r) -> done_ ps v) as [Hi Hd].
  { unfold gm_walk in H3. rewrite prepare_all_app in H3. destruct (prepare_all _ _ (concat _) _) as [s1| |] eqn:Hs1 in H3; [|done..]. cbn [rbind] in H3.
    assert (concat (map (fun q => match last_of (regs_of r) (fst q) with Some v => walk (v_path v) (v_ph v) (v_node v) | None => [] end) (regs_of r)) =
      concat (map (fun v => walk (v_path v) (v_ph v) (v_node v)) (omap (fun q => last_of (regs_of r) (fst q)) (regs_of r)))) as Heq.
    { apply (concat_omap (last_of (regs_of r))). }
    rewrite Heq in Hs1. eapply prepare_regs in Hs1 as [Hi1 _]; [|exact Ho|exact Hplain| |apply inv0].
    2: { intros v Hv. apply elem_of_list_omap in Hv as (q & _ & Hl). apply last_of_in in Hl. by apply reg_in in Hl as (_ & ? & _). }
    eapply (prepare_walk _ r Ho Hplain fuel r (Visit [] false r)) in H3 as (E1 & E2 & E3); [|done|by apply walk_self|done].
    split; [done|]. exact E3. }
  assert (Hsnd : snd (out fuel r ps) = (fun v => (pi_name (pn_info (v_node v)), freeze (regs_of r) fuel ps (v_path v) (v_ph v) (v_node v))) <$> regs_at [] false r).
  { unfold out, fz. cbn [snd]. rewrite Hopt. change (map reg_of ?l) with (reg_of <$> l). change (map ?f (reg_of <$> ?l)) with (f <$> (reg_of <$> l)).
    rewrite <- list_fmap_compose. done. }
  rewrite Hsnd. apply Forall2_fmap_r. eapply Forall2_impl_in; [exact H7|]. intros d v _ Hv Hm. cbn [fst snd].
  apply elem_of_list_In in Hv. apply filter_In in Hv as [Hv _]. apply elem_of_list_In in Hv.
  pose proof (typed_fz fuel r ps (regs_of r) Ho Hplain Hi Hd H4 _ v eq_refl Hv) as Hty.
  destruct Hm as (M1 & M2 & M3 & M4). unfold typed_as. destruct (d_what d) as [s|a e|ls'].
  - destruct M4 as (e & G1 & G2 & G3 & G4 & _). exists e. split; [done|]. rewrite unplant_kind, G3, G4, kmap_kmap in Hty.
    rewrite kmap_id in Hty; [by destruct e|]. rewrite Forall_forall. intros c _. apply unplant_plant.
  - destruct M4 as (G2 & G3 & G4 & _). rewrite unplant_kind, G3, G4, kmap_kmap in Hty.
    rewrite kmap_id in Hty; [by destruct e|]. rewrite Forall_forall. intros c _. apply unplant_plant.
  - destruct M4 as (G1 & G2 & G3 & G4 & G5 & alts & G6 & G7 & Hkids).
    unfold compose. cbn [fst snd]. rewrite (freeze_eq _ _ _ _ _ (v_node v)). cbn [n_kind n_info]. rewrite G6. eexists. split; [done|].
    cbn [finfo i_capture]. rewrite (cap_at_ok r) by (try done; by apply Hd). rewrite unplant_kind, G6. cbn [kmap]. rewrite w_capture_choice.
    assert (forall l j, (forall m c, l !! m = Some c -> alts !! (j + m) = Some c) ->
      forallb w_capture (map unplant l) = forallb (fun a => i_capture (n_info a)) (fgo (regs_of r) fuel ps (v_path v) (handles (v_ph v) (v_node v)) j l)) as Hgo; [|by apply Hgo].
    induction l as [|c l IH]; intros j Hsub; [done|]. cbn [map forallb fgo]. f_equal.
    + rewrite freeze_info. cbn [finfo i_capture]. symmetry. apply (cap_at_ok r ps (Visit (SKid j :: v_path v) (handles (v_ph v) (v_node v)) c)); [done| |apply Hd];
        (apply walk_kid; [done|done|]; rewrite G6; cbn [kids]; rewrite <- (Nat.add_0_r j); by apply (Hsub 0)).
    + apply IH. intros m c' Hc'. rewrite Nat.add_succ_l, <- Nat.add_succ_r. by apply (Hsub (S m)).
Qed.
End Named.
