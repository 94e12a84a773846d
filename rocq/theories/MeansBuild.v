(** The rules of a grammar made from lines are those the lines say. *)
From Verif Require Import Base Helpers Utf8 Stream Native Engine EngSpec Peg PegStd PegRep Build BuildSpec BuildWalk BuildLines BuildMono BuildPrep
  BuildProofs BuildMain MeansSpec.

(** ** Rules stand at ranks *)
Inductive flat : pn -> Prop :=
| flat_rank i rs l : Forall (fun q => flat (snd q)) rs -> Forall flat l -> flat (Pn i rs (KChoice l))
| flat_leaf i k : Forall (fun c => exists e, c = plant e) (kids k) -> flat (Pn i [] k).

Lemma flat_info i i' rs k : flat (Pn i rs k) -> flat (Pn i' rs k).
Proof. intros H. inversion H; subst; by constructor. Qed.
Lemma flat_plant e : flat (plant e).
Proof.
  destruct e as [lb k]. cbn [plant]. apply flat_leaf. rewrite kids_kmap. apply Forall_map. apply Forall_forall. intros c _. by exists c.
Qed.
Lemma flat_ph x : once x -> flat x -> forall p v, v ∈ regs_at p false x -> v_ph v = false.
Proof.
  induction x as [i rs k IHr IHk] using pn_ind2. intros Ho Hf p v Hv. unfold regs_at in Hv. apply elem_of_list_In, filter_In in Hv as [Hv Hreg]. apply elem_of_list_In in Hv.
  inversion Ho as [? ? ? Hnd _ Hor Hok]; subst.
  apply (walk_in _ _ _ _ _ _ Hnd) in Hv as [(m & q & Hq & Hv)|[(m & c' & Hc & Hv)| ->]]; [..|done]; inversion Hf as [? ? l Hr Hl|? ? Hl]; subst.
  - rewrite Forall_lookup in IHr, Hor, Hr. eapply (IHr _ _ Hq); [by eapply Hor|by eapply Hr|]. apply elem_of_list_In, filter_In. split; [|done]. apply elem_of_list_In. exact Hv.
  - by rewrite lookup_nil in Hq.
  - cbn [kids] in *. rewrite Forall_lookup in IHk, Hok, Hl. eapply (IHk _ _ Hc); [by eapply Hok|by eapply Hl|]. apply elem_of_list_In, filter_In. split; [|done]. apply elem_of_list_In. exact Hv.
  - rewrite Forall_lookup in Hl. destruct (Hl _ _ Hc) as [e ->]. exfalso.
    assert (v ∈ regs_at (SKid m :: p) (handles false (Pn i [] k)) (plant e)) as H0 by (apply elem_of_list_In, filter_In; split; [by apply elem_of_list_In|done]).
    rewrite plant_regs in H0. by apply elem_of_nil in H0.
Qed.
Section Flat.
Variable compile : bytes -> res pexp.
Definition lies_flat (l : line) : Prop := forall name parent o x, get_rule compile l name parent o = ROk x -> flat x.
Lemma flat_loop ls : Forall (fun l => match l with LO _ c _ | LI _ c _ => lies_flat c | _ => True end) ls ->
  forall r r', rank_lines compile ls r = ROk r' -> (exists i rs l, r = Pn i rs (KChoice l) /\ Forall (fun q => flat (snd q)) rs /\ Forall flat l) -> flat r'.
Proof.
  induction ls as [|l ls IH]; intros HF r r' H (i & rs & al & -> & Hr & Hl); cbn [rank_lines] in H.
  - injection H as <-. by constructor.
  - apply Forall_cons in HF as [H1 HF]. destruct l as [s|a p|l|nm c o|nm c o]; try done.
    + destruct (get_rule _ _ _ _ _) as [x| |] eqn:Hg in H; [|done..]. cbn [rbind] in H.
      eapply IH; [done|exact H|]. cbn [rank_append kids]. eexists _, _, _. split; [done|]. split; [done|]. apply Forall_app. split; [done|].
      constructor; [|constructor]. by eapply H1.
    + destruct (get_rule _ _ _ _ _) as [x| |] eqn:Hg in H; [|done..]. cbn [rbind] in H.
      eapply IH; [done|exact H|]. cbn [rank_include]. eexists _, _, _. split; [done|]. split; [|done]. apply Forall_app. split; [done|].
      constructor; [|constructor]. by eapply H1.
Qed.
Lemma all_flat l : lies_flat l /\ match l with LO _ c _ | LI _ c _ => lies_flat c | _ => True end.
Proof.
  induction l as [s|a e|ls IH|nm c o [IH _]|nm c o [IH _]] using line_ind2; (split; [|done]).
  - intros name parent o x H. cbn [get_rule] in H. destruct (compile s) as [e| |] eqn:He; [|done..]. cbn [rbind] in H.
    apply register_ok in H as [-> _]. pose proof (flat_plant e) as Hb. destruct e as [lb k].
    cbn [plant set_name set_opts set_reg_cb] in *. by eapply flat_info.
  - intros name parent o x H. cbn [get_rule] in H.
    apply register_ok in H as [-> _]. pose proof (flat_plant e) as Hb. destruct e as [lb k].
    cbn [plant set_name set_wrap set_reg_cb] in *. by eapply flat_info.
  - intros name parent o x H.
    change (get_rule compile (LA ls) name parent o) with
      (rbind (rank_lines compile ls (empty_rank name)) (fun r => register name o r)) in H.
    destruct (rank_lines compile ls (empty_rank name)) as [r| |] eqn:Hr; [|done..]. cbn [rbind] in H.
    apply register_ok in H as [-> Hname]. apply flat_loop in Hr as Hb.
    + destruct r as [i rs k]. cbn [set_reg_cb]. by eapply flat_info.
    + rewrite Forall_forall in IH |- *. intros l Hl. specialize (IH l Hl). destruct l; try done; apply IH.
    + eexists _, _, _. split; [done|]. split; constructor.
  - intros name parent o' x H. cbn [get_rule] in H. destruct (get_rule compile c _ parent o') as [y| |] eqn:Hg in H; [|done..].
    cbn [rbind] in H. pose proof (IH _ _ _ _ Hg) as Hb. apply register_ok in H as [-> _].
    destruct y as [i rs k]. destruct (String.eqb _ _); cbn [set_name set_reg_cb]; by eapply flat_info.
  - intros name parent o' x H. done.
Qed.
Lemma lines_flat name ls r : rank_from_lines compile name ls = ROk r -> flat r.
Proof.
  intros H. unfold rank_from_lines in H. eapply flat_loop in H; [exact H| |eexists _, _, _; split; [done|split; constructor]].
  rewrite Forall_forall. intros l Hl. destruct (all_flat l) as [_ Hs]. by destruct l.
Qed.
End Flat.

(** ** Alike nodes *)
Definition same_type {A B} (k : kind A) (k' : kind B) : Prop :=
  match k, k' with KSeq t _, KSeq t' _ => t = t' | _, _ => True end.
Inductive alike : node -> node -> Prop :=
| alike_node i i' k k' : i_label i = i_label i' -> i_capture i = i_capture i' -> i_wraps i = i_wraps i' ->
    i_isrule i = i_isrule i' -> i_cb i = i_cb i' -> same_kind alike k k' -> same_type k k' -> alike (Node i k) (Node i' k').

Lemma stand_kids used lb k : n_kind (stand used (PExp lb k)) =
  match k with KSeq _ l => KSeq (w_type l) (map (stand true) l) | k => kmap (stand (uses_labels used k)) k end.
Proof. by destruct k. Qed.

Section Stands.
Variables (fuel : nat) (r : pn) (ps : pst) (regs : list (string * visit)).
Hypothesis Honce : once r.
Notation W := (posts (walk [] false r)).
Hypothesis Hplain : forall v, v ∈ W -> plain_at (unplant (v_node v)) = true.
Hypothesis Hinv : inv r ps.
Hypothesis Hdone : forall v, v ∈ W -> done_ ps v.
Hypothesis Htypes : types regs fuel ps (walk [] false r) = ROk tt.
Notation frz v := (freeze regs fuel ps (v_path v) (v_ph v) (v_node v)).

Lemma label_said v : v ∈ W -> label_at ps (v_path v) (v_node v) = w_label (unplant (v_node v)).
Proof.
  intros Hv. unfold label_at. destruct (ps_label ps (v_path v)) as [x|] eqn:Hx; cbn [default].
  - pose proof (i_mark _ _ Hinv v x Hv Hx) as Hm. apply (i_kept _ _ Hinv v x Hv) in Hx as (-> & He & a & Ha).
    rewrite unplant_kind, He, Ha in Hm |- *. cbn [kmap w_label String.eqb] in *. cbn in Hm. by destruct (w_labels (unplant a)).
  - pose proof (Hdone v Hv) as Hd. unfold done_ in Hd. rewrite unplant_kind.
    destruct (pn_kind (v_node v)) as [s|s|s|ty l|l|e j mn mx|a|a|a|] eqn:Hk; try done. cbn [kmap w_label].
    destruct (String.eqb_spec (pi_label (pn_info (v_node v))) "") as [He|]; [|done].
    destruct Hd as (_ & _ & _ & Hd). specialize (Hd He). rewrite unplant_kind, Hk, He in Hd. cbn in Hd. rewrite He.
    destruct (w_labels (unplant a)); [done|]. exfalso. by apply Hd.
Qed.
Lemma handles_said ph (n : pn) : handles ph n = uses_labels ph (kmap unplant (pn_kind n)).
Proof. unfold handles. by destruct (pn_kind n). Qed.
(** The content of the node of a written parser. *)
Lemma fz_said e : forall v, v ∈ W -> pi_label (pn_info (v_node v)) = e_label e -> pn_kind (v_node v) = kmap plant (e_kind e) ->
  i_label (n_info (frz v)) = w_label e /\ i_capture (n_info (frz v)) = w_capture e /\ i_wraps (n_info (frz v)) = negb (v_ph v) /\
  same_kind alike (n_kind (frz v)) (n_kind (stand (v_ph v) e)) /\ same_type (n_kind (frz v)) (n_kind (stand (v_ph v) e)).
Proof.
  induction e as [lb k IH] using pexp_ind2. intros v Hv Hl Hk. cbn [e_label e_kind] in *.
  assert (Hun : unplant (v_node v) = PExp lb k).
  { rewrite unplant_kind, Hl, Hk, kmap_kmap, kmap_id; [done|]. rewrite Forall_forall. intros c _. apply unplant_plant. }
  split. { rewrite freeze_info. cbn [finfo i_label]. rewrite label_said by done. by rewrite Hun. }
  split. { rewrite freeze_info. cbn [finfo i_capture]. rewrite (cap_at_ok r) by (try done; by apply Hdone). by rewrite Hun. }
  split. { by rewrite freeze_info. }
  assert (Hh : handles (v_ph v) (v_node v) = uses_labels (v_ph v) k).
  { rewrite handles_said, Hk, kmap_kmap. by destruct k. }
  assert (HR : forall j c, kids k !! j = Some c ->
    alike (freeze regs fuel ps (SKid j :: v_path v) (handles (v_ph v) (v_node v)) (plant c)) (stand (uses_labels (v_ph v) k) c)).
  { intros j c Hj.
    assert (Hin : Visit (SKid j :: v_path v) (handles (v_ph v) (v_node v)) (plant c) ∈ W).
    { apply walk_kid; [done|done|]. rewrite Hk, kids_kmap. change (map plant ?l) with (plant <$> l). by rewrite list_lookup_fmap, Hj. }
    rewrite Forall_lookup in IH. destruct (IH j c Hj _ Hin) as (E1 & E2 & E3 & E4 & E5); [by destruct c..|].
    cbn [v_path v_ph v_node] in *. rewrite <- Hh.
    assert (i_isrule (n_info (freeze regs fuel ps (SKid j :: v_path v) (handles (v_ph v) (v_node v)) (plant c))) = false /\
      i_cb (n_info (freeze regs fuel ps (SKid j :: v_path v) (handles (v_ph v) (v_node v)) (plant c))) = None) as [F1 F2].
    { rewrite freeze_info. by destruct c. }
    destruct (freeze regs fuel ps _ _ (plant c)) as [i' k'] eqn:He. cbn [n_info n_kind] in *.
    destruct c as [lb' kc]. destruct (stand (handles (v_ph v) (v_node v)) (PExp lb' kc)) as [i2 k2] eqn:Hs. cbn [n_kind] in *. cbn [stand] in Hs. injection Hs as <- _.
    by constructor. }
  rewrite freeze_eq. cbn [n_kind]. rewrite Hk.
  assert (Hlist : forall l u, kids k = l -> uses_labels (v_ph v) k = u ->
    Forall2 alike (fgo regs fuel ps (v_path v) (handles (v_ph v) (v_node v)) 0 (map plant l)) (map (stand u) l)).
  { intros l u Hl2 Hu. apply Forall2_same_length_lookup. split.
    - clear. generalize 0. induction l as [|c l IH]; intros j; [done|]. cbn. by rewrite <- (IH (S j)).
    - intros m x y Hx Hy. rewrite fgo_lookup in Hx. change (map plant l) with (plant <$> l) in Hx. change (map (stand u) l) with (stand u <$> l) in Hy. rewrite list_lookup_fmap in Hx. rewrite list_lookup_fmap in Hy.
      destruct (l !! m) as [c|] eqn:Hm; [|done]. injection Hx as <-. injection Hy as <-. subst u. apply HR. by rewrite Hl2. }
  destruct k as [s|s|s|ty l|l|e [x|] mn mx|a|a|a|]; cbn [kmap stand n_kind]; (split; [|try done]); try constructor.
  - by apply Hlist.
  - cbn. rewrite (type_fz fuel r ps regs Honce Hplain Hinv Hdone Htypes v ty (map plant l)) by done.
    f_equal. rewrite map_map. erewrite map_ext; [apply map_id|]. intros c. apply unplant_plant.
  - by apply Hlist.
  - by apply (HR 0).
  - constructor. by apply (HR 1).
  - by apply (HR 0).
  - constructor.
  - by apply (HR 0).
  - by apply (HR 0).
  - by apply (HR 0).
Qed.
End Stands.
