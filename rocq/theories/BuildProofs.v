(** Grammars made from lines: numbering, names, captures. *)
From Verif Require Import Base Helpers Native Engine EngSpec TermSpec Build BuildSpec BuildWalk BuildLines BuildMono BuildPrep.

(** ** Frozen nodes *)
Section Freeze.
Variable regs : list (string * visit).
Variable fuel : nat.
Variable ps : pst.
Notation frz := (freeze regs fuel ps).
Section FGo.
Variables (p : path) (h : bool).
Fixpoint fgo (j : nat) (l : list pn) : list node :=
  match l with [] => [] | c :: l' => frz (SKid j :: p) h c :: fgo (S j) l' end.
End FGo.
Lemma fgo_lookup p h l : forall j m, fgo p h j l !! m = (fun c => frz (SKid (j + m) :: p) h c) <$> l !! m.
Proof.
  induction l as [|c l IH]; intros j m; [by rewrite !lookup_nil|]. destruct m as [|m]; cbn [fgo lookup list_lookup].
  - cbn. by rewrite Nat.add_0_r.
  - change (list_lookup m ?x) with (x !! m). rewrite IH. cbn. by rewrite Nat.add_succ_r.
Qed.
Definition finfo (p : path) (ph : bool) (n : pn) : info :=
  let i := pn_info n in
  Info (pi_name i) (label_at ps p n) (cap_at ps p n) (pi_reg i && negb (pi_wrap i)) (id_of regs p) (negb ph)
    (lo_cb (pi_opts i)) (lo_skip (pi_opts i)) (lo_debug (pi_opts i)).
Lemma freeze_eq p ph n : frz p ph n = Node (finfo p ph n)
  match pn_kind n with
  | KStr x => KStr x
  | KRegex x => KRegex x
  | KRef x => KRef x
  | KSeq _ l => KSeq (type_at regs fuel ps p n) (fgo p (handles ph n) 0 l)
  | KChoice l => KChoice (fgo p (handles ph n) 0 l)
  | KPat v j mn mx =>
      KPat (frz (SKid 0 :: p) (handles ph n) v)
        (match j with Some x => Some (frz (SKid 1 :: p) (handles ph n) x) | None => None end) mn mx
  | KExist a => KExist (frz (SKid 0 :: p) (handles ph n) a)
  | KLook a => KLook (frz (SKid 0 :: p) (handles ph n) a)
  | KNot a => KNot (frz (SKid 0 :: p) (handles ph n) a)
  | KUndef => KUndef
  end.
Proof. destruct n as [i rs k]. by destruct k. Qed.
Lemma freeze_info p ph n : n_info (frz p ph n) = finfo p ph n.
Proof. by rewrite freeze_eq. Qed.
Lemma freeze_children p ph n c : c ∈ children (frz p ph n) ->
  exists j c0, kids (pn_kind n) !! j = Some c0 /\ c = frz (SKid j :: p) (handles ph n) c0.
Proof.
  rewrite freeze_eq. unfold children. cbn [n_kind].
  assert (Hl : forall l, c ∈ fgo p (handles ph n) 0 l -> exists j c0, l !! j = Some c0 /\ c = frz (SKid j :: p) (handles ph n) c0).
  { intros l [m Hm]%elem_of_list_lookup. rewrite fgo_lookup in Hm. destruct (l !! m) as [c0|] eqn:Hc; [|done]. injection Hm as <-. by exists m, c0. }
  destruct (pn_kind n) as [s|s|s|ty l|l|v [x|] mn mx|a|a|a|]; cbn [kids opt_list]; intros Hc;
    try (by apply Hl in Hc); rewrite ?elem_of_cons, ?elem_of_nil in Hc; try done.
  - destruct Hc as [->|[->|[]]]; [by exists 0, v|by exists 1, x].
  - destruct Hc as [->|[]]. by exists 0, v.
  - destruct Hc as [->|[]]. by exists 0, a.
  - destruct Hc as [->|[]]. by exists 0, a.
  - destruct Hc as [->|[]]. by exists 0, a.
Qed.
Lemma freeze_kind (R : pexp -> node -> Prop) p ph (n : pn) (k : kind pexp) (f : pexp -> pn) : pn_kind n = kmap f k ->
  (forall j c, kids k !! j = Some c -> R c (frz (SKid j :: p) (handles ph n) (f c))) ->
  same_kind R k (n_kind (frz p ph n)).
Proof.
  intros Hk HR. rewrite freeze_eq. cbn [n_kind]. rewrite Hk.
  assert (Hl : forall l, kids k = l -> Forall2 R l (fgo p (handles ph n) 0 (map f l))).
  { intros l Hl. apply Forall2_same_length_lookup. split.
    - clear. generalize 0. induction l as [|c l IH]; intros j; [done|]. cbn. by rewrite <- IH.
    - intros i x y Hx Hy. rewrite fgo_lookup in Hy. change (map f l) with (f <$> l) in Hy. rewrite list_lookup_fmap, Hx in Hy. injection Hy as <-.
      apply HR. by rewrite Hl. }
  destruct k as [s|s|s|ty l|l|v [x|] mn mx|a|a|a|]; cbn [kmap]; try constructor; try (by apply Hl).
  - by apply (HR 0).
  - constructor. by apply (HR 1).
  - by apply (HR 0).
  - constructor.
  - by apply (HR 0).
  - by apply (HR 0).
  - by apply (HR 0).
Qed.
End Freeze.

(** ** What [postinit] does *)
Notation regs_of r := (map reg_of (List.filter is_reg (posts (walk [] false r)))).
Lemma postinit_parts fuel rank b : postinit fuel rank = ROk b ->
  let r := optimize rank in exists ps,
    prepare_all (regs_of r) fuel (gm_walk (regs_of r) (walk [] false r)) pst0 = ROk ps /\
    types (regs_of r) fuel ps (walk [] false r) = ROk tt /\
    b = (freeze (regs_of r) fuel ps [] false r,
         map (fun q => (fst q, freeze (regs_of r) fuel ps (v_path (snd q)) (v_ph (snd q)) (v_node (snd q)))) (regs_of r)).
Proof.
  intros H r. unfold postinit in H. fold r in H. destruct (connect (Conn [] []) (walk [] false r)) as [cn| |] eqn:Hc; [|done..].
  cbn [rbind] in H. apply connect_regs in Hc. cbn [cn_regs app] in Hc. rewrite Hc in H.
  destruct (prepare_all _ _ _ _) as [ps| |] in H |- *; [|done..]. cbn [rbind] in H. exists ps. split; [done|].
  destruct (types _ _ _ _) as [[]| |] in H |- *; [|done..]. cbn [rbind] in H. split; [done|]. by injection H as <-.
Qed.

Lemma reg_in r nm v : (nm, v) ∈ regs_of r -> nm = pi_name (pn_info (v_node v)) /\ v ∈ posts (walk [] false r) /\ is_reg v = true.
Proof.
  intros H. apply elem_of_list_fmap in H as (v' & [= -> ->] & H). apply elem_of_list_In in H. apply filter_In in H as [H1 H2].
  apply elem_of_list_In in H1. done.
Qed.
Lemma in_reg r v : v ∈ posts (walk [] false r) -> is_reg v = true -> (pi_name (pn_info (v_node v)), v) ∈ regs_of r.
Proof.
  intros Hv Hi. apply elem_of_list_fmap. exists v. split; [done|]. apply elem_of_list_In. apply filter_In. split; [|done]. by apply elem_of_list_In.
Qed.
Lemma last_of_in {A} (l : list (string * A)) nm x : last_of l nm = Some x -> (nm, x) ∈ l.
Proof.
  unfold last_of. intros H. destruct (last _) as [[nm' y]|] eqn:Hl; [|done]. cbn in H. injection H as <-.
  apply last_Some_elem_of in Hl. apply elem_of_list_In in Hl. apply filter_In in Hl as [Hl He]. cbn in He. apply String.eqb_eq in He as ->.
  by apply elem_of_list_In.
Qed.
Lemma last_of_none {A} (l : list (string * A)) nm : last_of l nm = None <-> nm ∉ fst <$> l.
Proof.
  unfold last_of. induction l as [|[nm' y] l IH]; cbn [List.filter fst fmap list_fmap].
  - cbn. split; [intros _ H; by apply elem_of_nil in H|done].
  - rewrite not_elem_of_cons. destruct (String.eqb_spec nm nm') as [->|Hne].
    + split; [|by intros [? _]]. destruct (List.filter _ l) as [|q l']; cbn; [done|]. 
      destruct (last (q :: l')) eqn:Hq; [done|]. apply last_None in Hq. done.
    + rewrite IH. naive_solver.
Qed.

Section Built.
Variables (fuel : nat) (rank : pn) (ps : pst).
Let r := optimize rank.
Hypothesis Honce : once r.
Notation regs := (regs_of r).
Notation W := (posts (walk [] false r)).
Definition fz (v : visit) : node := freeze regs fuel ps (v_path v) (v_ph v) (v_node v).
Definition out : node * list (string * node) := (fz (Visit [] false r), map (fun q => (fst q, fz (snd q))) regs).

Lemma reach_fz o rx cb n : let E := mk_env (gram_of out) o rx cb in
  reach E (g_rank (gram_of out)) n -> exists v, v ∈ W /\ n = fz v.
Proof.
  intros E H. induction H as [|n c H IH Hc|nm n H].
  - exists (Visit [] false r). split; [by apply walk_self|done].
  - destruct IH as (v & Hv & ->). apply freeze_children in Hc as (j & c0 & Hj & ->).
    exists (Visit (SKid j :: v_path v) (handles (v_ph v) (v_node v)) c0). split; [|done]. by apply walk_kid.
  - cbn in H. apply last_of_in in H. apply elem_of_list_fmap in H as ([nm' v] & [= -> ->] & H). apply reg_in in H as (_ & Hv & _).
    exists v. done.
Qed.
Lemma id_fz m nm v : regs !! m = Some (nm, v) -> i_id (n_info (fz v)) = m.
Proof. intros H. unfold fz. rewrite freeze_info. cbn. by eapply regs_id. Qed.
Lemma table_fz m nm n : snd out !! m = Some (nm, n) -> i_id (n_info n) = m /\ i_name (n_info n) = nm.
Proof.
  intros H. cbn [snd out] in H. change (map ?f regs) with (f <$> regs) in H. rewrite list_lookup_fmap in H.
  destruct (regs !! m) as [[nm' v]|] eqn:Hm; [|done]. injection H as <- <-. cbn [fst snd].
  split; [by eapply id_fz|]. apply elem_of_list_lookup_2 in Hm. apply reg_in in Hm as (-> & _). unfold fz. by rewrite freeze_info.
Qed.
Lemma rule_fz o rx cb n : let E := mk_env (gram_of out) o rx cb in
  reach E (g_rank (gram_of out)) n -> i_isrule (n_info n) = true -> snd out !! i_id (n_info n) = Some (i_name (n_info n), n).
Proof.
  intros E H Hr. apply reach_fz in H as (v & Hv & ->).
  assert (Hreg : is_reg v = true). { unfold fz in Hr. rewrite freeze_info in Hr. cbn in Hr. by apply andb_prop in Hr as [? _]. }
  pose proof (in_reg r v Hv Hreg) as H. apply elem_of_list_lookup in H as [m Hm]. erewrite id_fz by done. cbn [snd out].
  change (map ?f regs) with (f <$> regs). rewrite list_lookup_fmap, Hm. unfold fz. rewrite freeze_info. done.
Qed.

(** Grammars are finite. *)
Fixpoint pheight (n : pn) : nat :=
  match n with
  | Pn _ _ k =>
      S match k with
        | KSeq _ l | KChoice l => list_max (map pheight l)
        | KPat v j _ _ => Nat.max (pheight v) (match j with Some x => pheight x | None => 0 end)
        | KExist a | KLook a | KNot a => pheight a
        | KStr _ | KRegex _ | KRef _ | KUndef => 0
        end
  end.
End Built.

(** Labels and types stay as prepared: [spells]. *)
Section Spells.
Variables (fuel : nat) (r : pn) (ps : pst) (regs : list (string * visit)).
Hypothesis Honce : once r.
Notation W := (posts (walk [] false r)).
Hypothesis Hkept : labels_kept r ps.
Notation frz v := (freeze regs fuel ps (v_path v) (v_ph v) (v_node v)).
Lemma label_fz v : v ∈ W -> label_kept (pi_label (pn_info (v_node v))) (pn_kind (v_node v)) (i_label (n_info (frz v))).
Proof.
  intros Hv. rewrite freeze_info. cbn. unfold label_at, label_kept. destruct (ps_label ps (v_path v)) as [x|] eqn:Hx; cbn [default].
  - apply Hkept in Hx as (-> & -> & Hx); [|done]. cbn. by right.
  - destruct (String.eqb_spec (pi_label (pn_info (v_node v))) ""); [by left|done].
Qed.
Lemma spells_fz e : forall v, v ∈ W -> pi_label (pn_info (v_node v)) = e_label e -> pn_kind (v_node v) = kmap plant (e_kind e) ->
  spells e (frz v).
Proof.
  induction e as [lb k IH] using pexp_ind2. intros v Hv Hl Hk. cbn [e_label e_kind] in *.
  pose proof (label_fz v Hv) as Hlab. rewrite Hl, Hk in Hlab.
  assert (Hkind : same_kind (fun e n => spells e n /\ inner (n_info n)) k (n_kind (frz v))).
  { eapply freeze_kind; [exact Hk|]. intros j c Hj.
    assert (Hin : Visit (SKid j :: v_path v) (handles (v_ph v) (v_node v)) (plant c) ∈ W).
    { apply walk_kid; [done|done|]. rewrite Hk, kids_kmap. change (map plant ?l) with (plant <$> l). by rewrite list_lookup_fmap, Hj. }
    rewrite Forall_lookup in IH. split.
    - apply (IH j c Hj _ Hin); by destruct c.
    - rewrite freeze_info. by destruct c. }
  destruct (frz v) as [i k'] eqn:He. cbn [n_info n_kind] in *. constructor; [|done].
  unfold label_kept in *. destruct (String.eqb lb ""); [|done]. destruct Hlab as [?|[? [a Ha]]]; [by left|right].
  split; [done|]. destruct k; try done. by eexists.
Qed.
End Spells.

Section Typed.
Variables (fuel : nat) (r : pn) (ps : pst) (regs : list (string * visit)).
Hypothesis Honce : once r.
Notation W := (posts (walk [] false r)).
Hypothesis Hplain : forall v, v ∈ W -> plain_at (unplant (v_node v)) = true.
Hypothesis Hinv : inv r ps.
Hypothesis Hdone : forall v, v ∈ W -> done_ ps v.
Hypothesis Htypes : types regs fuel ps (walk [] false r) = ROk tt.
Notation frz v := (freeze regs fuel ps (v_path v) (v_ph v) (v_node v)).
Lemma types_ok l : types regs fuel ps l = ROk tt -> forall v ty ks, v ∈ posts l -> pn_kind (v_node v) = KSeq ty ks ->
  exists t, seq_type regs fuel ps (v_path v) (v_node v) = ROk t.
Proof.
  induction l as [|[v|v] l IH]; intros H v' ty ks Hv' Hk; cbn [types posts] in H, Hv'.
  - by apply elem_of_nil in Hv'.
  - by eapply IH.
  - apply elem_of_cons in Hv' as [->|Hv'].
    + rewrite Hk in H. destruct (seq_type _ _ _ _ _) as [t| |]; [by exists t|done..].
    + eapply IH; [|done..]. destruct (pn_kind (v_node v)); try done. by destruct (seq_type _ _ _ _ _).
Qed.
Lemma all_done_W v : v ∈ W -> all_done ps v.
Proof. intros Hv v' Hv'. apply Hdone. by eapply walk_sub. Qed.
Lemma type_fz v ty ks : v ∈ W -> pn_kind (v_node v) = KSeq ty ks -> type_at regs fuel ps (v_path v) (v_node v) = w_type (map unplant ks).
Proof.
  intros Hv Hk. unfold type_at. destruct (types_ok _ Htypes v ty ks Hv Hk) as [t Ht]. rewrite Ht.
  unfold seq_type in Ht. destruct (get_labels regs fuel (v_path v) (v_node v) ps) as [[l s']| |] eqn:Hl; [|done..]. cbn [rbind fst] in Ht.
  apply get_labels_ok with (r := r) in Hl as (E & _ & _); [|done|done|done|done|by apply all_done_W].
  destruct (get_caps_ok r Honce Hplain (v_node v) v ps eq_refl Hv Hinv (all_done_W v Hv)) as (s2 & Hc & _). rewrite Hc in Ht. cbn [fst] in Ht.
  rewrite unplant_kind, Hk in E, Ht. cbn [kmap w_labels w_captures] in E, Ht. unfold w_type. rewrite E in Ht.
  destruct (flat_map w_labels (map unplant ks)); by injection Ht as <-.
Qed.
Lemma typed_fz n : forall v, v_node v = n -> v ∈ W -> typed (unplant n) (frz v).
Proof.
  induction n as [i rs k _ IHk] using pn_ind2. intros v Hn Hv. rewrite unplant_kind. cbn [pn_info pn_kind].
  assert (Hkind : same_kind typed (kmap unplant k) (n_kind (frz v))).
  { rewrite freeze_eq. cbn [n_kind]. rewrite Hn. cbn [pn_kind].
    assert (HR : forall j c, kids k !! j = Some c -> typed (unplant c) (freeze regs fuel ps (SKid j :: v_path v) (handles (v_ph v) (Pn i rs k)) c)).
    { intros j c Hj. rewrite Forall_lookup in IHk. rewrite <- Hn. apply (IHk j c Hj (Visit (SKid j :: v_path v) (handles (v_ph v) (v_node v)) c)); [done|].
      apply walk_kid; [done|done|]. by rewrite Hn. }
    assert (Hl : forall l, kids k = l -> Forall2 typed (map unplant l) (fgo regs fuel ps (v_path v) (handles (v_ph v) (Pn i rs k)) 0 l)).
    { intros l Hl. apply Forall2_same_length_lookup. split.
      - clear. generalize 0. induction l as [|c l IH]; intros j; [done|]. cbn. by rewrite <- IH.
      - intros m x y Hx Hy. rewrite fgo_lookup in Hy. change (map unplant l) with (unplant <$> l) in Hx. rewrite list_lookup_fmap in Hx.
        destruct (l !! m) as [c|] eqn:Hm; [|done]. injection Hx as <-. injection Hy as <-. apply HR. by rewrite Hl. }
    destruct k as [s|s|s|ty l|l|e [x|] mn mx|a|a|a|]; cbn [kmap]; try constructor; try (by apply Hl).
    - by apply (HR 0).
    - constructor. by apply (HR 1).
    - by apply (HR 0).
    - constructor.
    - by apply (HR 0).
    - by apply (HR 0).
    - by apply (HR 0). }
  assert (Hcap : i_capture (n_info (frz v)) = w_capture (PExp (pi_label i) (kmap unplant k))).
  { rewrite freeze_info. cbn. rewrite (cap_at_ok r) by (try done; by apply Hdone). by rewrite Hn. }
  assert (Hty : match kmap unplant k, n_kind (frz v) with KSeq _ l, KSeq ty _ => ty = w_type l | _, _ => True end).
  { rewrite freeze_eq. cbn [n_kind]. rewrite Hn. cbn [pn_kind]. destruct k; try done. cbn [kmap]. rewrite <- Hn. eapply type_fz; [done|]. by rewrite Hn. }
  destruct (frz v) as [i' k'] eqn:He. cbn [n_info n_kind] in *. by constructor.
Qed.
End Typed.
