(** Walks of a tree of parsers: what is met, in which order, and the numbering. *)
From Verif Require Import Base Helpers Native Engine EngSpec Build BuildSpec.

(** ** Induction on parsers *)
Section PnInd.
Variable P : pn -> Prop.
Hypothesis HP : forall i rs k, Forall (fun q => P (snd q)) rs -> Forall P (kids k) -> P (Pn i rs k).
Fixpoint pn_ind2 (n : pn) : P n :=
  match n with
  | Pn i rs k =>
      HP i rs k
        ((fix go (l : list (string * pn)) : Forall (fun q => P (snd q)) l :=
            match l with [] => Forall_nil_2 _ | q :: l' => Forall_cons_2 _ q l' (pn_ind2 (snd q)) (go l') end) rs)
        (let many := (fix go (l : list pn) : Forall P l :=
            match l with [] => Forall_nil_2 _ | c :: l' => Forall_cons_2 _ c l' (pn_ind2 c) (go l') end) in
         let one a := Forall_cons_2 P a [] (pn_ind2 a) (Forall_nil_2 _) in
         match k as k0 return Forall P (kids k0) with
         | KSeq _ l | KChoice l => many l
         | KPat v j _ _ => Forall_cons_2 P v _ (pn_ind2 v)
             (match j as j0 return Forall P (match j0 with Some x => [x] | None => [] end) with
              | Some x => one x | None => Forall_nil_2 _ end)
         | KExist a | KLook a | KNot a => one a
         | KStr _ | KRegex _ | KRef _ | KUndef => Forall_nil_2 _
         end)
  end.
End PnInd.
Section PexpInd.
Variable P : pexp -> Prop.
Hypothesis HP : forall lb k, Forall P (kids k) -> P (PExp lb k).
Fixpoint pexp_ind2 (n : pexp) : P n :=
  match n with
  | PExp lb k =>
      HP lb k
        (let many := (fix go (l : list pexp) : Forall P l :=
            match l with [] => Forall_nil_2 _ | c :: l' => Forall_cons_2 _ c l' (pexp_ind2 c) (go l') end) in
         let one a := Forall_cons_2 P a [] (pexp_ind2 a) (Forall_nil_2 _) in
         match k as k0 return Forall P (kids k0) with
         | KSeq _ l | KChoice l => many l
         | KPat v j _ _ => Forall_cons_2 P v _ (pexp_ind2 v)
             (match j as j0 return Forall P (match j0 with Some x => [x] | None => [] end) with
              | Some x => one x | None => Forall_nil_2 _ end)
         | KExist a | KLook a | KNot a => one a
         | KStr _ | KRegex _ | KRef _ | KUndef => Forall_nil_2 _
         end)
  end.
End PexpInd.

(** ** The walk, when no rank includes two rules of the same name *)
Inductive once : pn -> Prop :=
| once_node i rs k : NoDup (fst <$> rs) -> (pi_rank i = false -> rs = []) -> Forall (fun q => once (snd q)) rs -> Forall once (kids k) -> once (Pn i rs k).

Section Under.
Variable p : path.
Variable h : bool.
Fixpoint wkids (j : nat) (l : list pn) : list wev :=
  match l with [] => [] | c :: l' => walk (SKid j :: p) h c ++ wkids (S j) l' end.
Fixpoint wrules (j : nat) (l : list (string * pn)) : list wev :=
  match l with [] => [] | q :: l' => walk (SRule j :: p) h (snd q) ++ wrules (S j) l' end.
Fixpoint named_walks (j : nat) (l : list (string * pn)) : list (string * list wev) :=
  match l with [] => [] | (nm, c) :: l' => (nm, walk (SRule j :: p) h c) :: named_walks (S j) l' end.
End Under.

Lemma last_of_nodup {A} (l : list (string * A)) i nm x : NoDup (fst <$> l) -> l !! i = Some (nm, x) -> last_of l nm = Some x.
Proof.
  unfold last_of. revert i. induction l as [|[nm' y] l IH]; intros i Hnd Hi; [done|].
  cbn [fmap list_fmap fst] in Hnd. apply NoDup_cons in Hnd as [Hni Hnd]. cbn [List.filter fst].
  destruct i as [|i].
  - cbn in Hi. injection Hi as -> ->. rewrite String.eqb_refl.
    assert (List.filter (fun p : string * A => String.eqb nm (fst p)) l = []) as ->; [|done].
    clear -Hni. induction l as [|[a b] l IH]; [done|]. cbn [List.filter fst].
    cbn [fmap list_fmap fst] in Hni. apply not_elem_of_cons in Hni as [H1 H2].
    destruct (String.eqb_spec nm a); [done|]. by apply IH.
  - cbn in Hi. destruct (String.eqb_spec nm nm') as [->|_].
    + exfalso. apply Hni. apply elem_of_list_fmap. exists (nm', x). split; [done|]. by eapply elem_of_list_lookup_2.
    + by eapply IH.
Qed.

Lemma named_walks_fst p h j l : fst <$> named_walks p h j l = fst <$> l.
Proof. revert j. induction l as [|[nm c] l IH]; intros j; [done|]. cbn. by rewrite <- (IH (S j)). Qed.
Lemma named_walks_snd p h j l : concat (snd <$> named_walks p h j l) = wrules p h j l.
Proof. revert j. induction l as [|[nm c] l IH]; intros j; [done|]. cbn. by rewrite <- (IH (S j)). Qed.
Lemma resolved {A} (l : list (string * list A)) : NoDup (fst <$> l) ->
  map (fun q => default [] (last_of l (fst q))) l = snd <$> l.
Proof.
  intros Hnd. apply list_eq. intros i. rewrite list_lookup_fmap. change (map ?f l) with (f <$> l). rewrite list_lookup_fmap.
  destruct (l !! i) as [[nm x]|] eqn:Hi; [|done]. cbn [fmap option_fmap option_map fst snd].
  by erewrite last_of_nodup by done.
Qed.

Lemma walk_eq p ph i rs k : NoDup (fst <$> rs) ->
  walk p ph (Pn i rs k) =
  WPre (Visit p ph (Pn i rs k)) :: wrules p (handles ph (Pn i rs k)) 0 rs ++
    wkids p (handles ph (Pn i rs k)) 0 (kids k) ++ [WPost (Visit p ph (Pn i rs k))].
Proof.
  intros Hnd. cbn [walk]. f_equal. f_equal.
  - change ((fix go (j : nat) (l : list (string * pn)) : list (string * list wev) :=
       match l with [] => [] | (nm, c) :: l' => (nm, walk (SRule j :: p) (handles ph (Pn i rs k)) c) :: go (S j) l' end) 0 rs)
      with (named_walks p (handles ph (Pn i rs k)) 0 rs).
    rewrite resolved; [by rewrite named_walks_snd|]. by rewrite named_walks_fst.
  - destruct k as [s|s|s|ty l|l|v [x|] mn mx|a|a|a|]; cbn [kids wkids]; rewrite ?app_nil_r, <- ?app_assoc; done.
Qed.

(** ** What is met *)
Fixpoint posts (l : list wev) : list visit :=
  match l with [] => [] | WPost v :: l' => v :: posts l' | WPre _ :: l' => posts l' end.
Lemma posts_app a b : posts (a ++ b) = posts a ++ posts b.
Proof. induction a as [|[v|v] a IH]; [done|done|]. cbn. by rewrite IH. Qed.

Lemma wkids_in p h j l v : v ∈ posts (wkids p h j l) <-> exists m c, l !! m = Some c /\ v ∈ posts (walk (SKid (j + m) :: p) h c).
Proof.
  revert j. induction l as [|c l IH]; intros j; cbn [wkids posts].
  - split; [by intros ?%elem_of_nil|]. by intros (m & c & [=] & _).
  - rewrite posts_app, elem_of_app, IH. split.
    + intros [H|(m & c' & Hm & H)].
      * exists 0, c. rewrite Nat.add_0_r. done.
      * exists (S m), c'. rewrite Nat.add_succ_r. done.
    + intros (m & c' & Hm & H). destruct m as [|m]; cbn in Hm.
      * injection Hm as ->. rewrite Nat.add_0_r in H. by left.
      * rewrite Nat.add_succ_r in H. right. by exists m, c'.
Qed.
Lemma wrules_in p h j l v : v ∈ posts (wrules p h j l) <-> exists m q, l !! m = Some q /\ v ∈ posts (walk (SRule (j + m) :: p) h (snd q)).
Proof.
  revert j. induction l as [|c l IH]; intros j; cbn [wrules posts].
  - split; [by intros ?%elem_of_nil|]. by intros (m & c & [=] & _).
  - rewrite posts_app, elem_of_app, IH. split.
    + intros [H|(m & c' & Hm & H)].
      * exists 0, c. rewrite Nat.add_0_r. done.
      * exists (S m), c'. rewrite Nat.add_succ_r. done.
    + intros (m & c' & Hm & H). destruct m as [|m]; cbn in Hm.
      * injection Hm as ->. rewrite Nat.add_0_r in H. by left.
      * rewrite Nat.add_succ_r in H. right. by exists m, c'.
Qed.
Lemma walk_in p ph i rs k v : NoDup (fst <$> rs) ->
  v ∈ posts (walk p ph (Pn i rs k)) <->
  (exists m q, rs !! m = Some q /\ v ∈ posts (walk (SRule m :: p) (handles ph (Pn i rs k)) (snd q))) \/
  (exists m c, kids k !! m = Some c /\ v ∈ posts (walk (SKid m :: p) (handles ph (Pn i rs k)) c)) \/
  v = Visit p ph (Pn i rs k).
Proof.
  intros Hnd. rewrite walk_eq by done. cbn [posts]. rewrite !posts_app, !elem_of_app, wkids_in, wrules_in. cbn [posts].
  rewrite elem_of_list_singleton. done.
Qed.

(** The node itself, its children and its included rules are met. *)
Lemma walk_self n p ph : once n -> Visit p ph n ∈ posts (walk p ph n).
Proof. intros H. inversion H; subst. apply walk_in; [done|]. by right; right. Qed.
Lemma walk_kid n : once n -> forall p ph v j c, v ∈ posts (walk p ph n) -> kids (pn_kind (v_node v)) !! j = Some c ->
  Visit (SKid j :: v_path v) (handles (v_ph v) (v_node v)) c ∈ posts (walk p ph n).
Proof.
  induction n as [i rs k IHr IHk] using pn_ind2. intros Ho p ph v j c Hv Hj. inversion Ho as [? ? ? Hnd Hfl Hor Hok]; subst.
  apply walk_in; [done|]. apply (walk_in _ _ _ _ _ _ Hnd) in Hv as [(m & q & Hq & Hv)|[(m & c' & Hc & Hv)| ->]].
  - left. exists m, q. split; [done|]. rewrite Forall_lookup in IHr, Hor. by eapply IHr; eauto.
  - right. left. exists m, c'. split; [done|]. rewrite Forall_lookup in IHk, Hok. by eapply IHk; eauto.
  - cbn [v_path v_ph v_node pn_kind] in *. right. left. exists j, c. split; [done|]. apply walk_self.
    rewrite Forall_lookup in Hok. by eapply Hok.
Qed.
Lemma walk_once n : once n -> forall p ph v, v ∈ posts (walk p ph n) -> once (v_node v).
Proof.
  induction n as [i rs k IHr IHk] using pn_ind2. intros Ho p ph v Hv. inversion Ho as [? ? ? Hnd Hfl Hor Hok]; subst.
  apply (walk_in _ _ _ _ _ _ Hnd) in Hv as [(m & q & Hq & Hv)|[(m & c' & Hc & Hv)| ->]]; [..|exact Ho].
  - rewrite Forall_lookup in IHr, Hor. by eapply IHr; eauto.
  - rewrite Forall_lookup in IHk, Hok. by eapply IHk; eauto.
Qed.

(** Places are below the place where the walk starts, and all different. *)
Lemma walk_below n : once n -> forall p ph v, v ∈ posts (walk p ph n) -> exists q, v_path v = q ++ p.
Proof.
  induction n as [i rs k IHr IHk] using pn_ind2. intros Ho p ph v Hv. inversion Ho as [? ? ? Hnd Hfl Hor Hok]; subst.
  apply (walk_in _ _ _ _ _ _ Hnd) in Hv as [(m & q & Hq & Hv)|[(m & c' & Hc & Hv)| ->]].
  - rewrite Forall_lookup in IHr, Hor. edestruct IHr as [q' Hq']; [done|by eapply Hor|done|]. exists (q' ++ [SRule m]). by rewrite <- app_assoc.
  - rewrite Forall_lookup in IHk, Hok. edestruct IHk as [q' Hq']; [done|by eapply Hok|done|]. exists (q' ++ [SKid m]). by rewrite <- app_assoc.
  - by exists [].
Qed.
Lemma two_below (q q' p : path) (s s' : step) : q ++ s :: p = q' ++ s' :: p -> s = s'.
Proof.
  intros H. change (s :: p) with ([s] ++ p) in H. change (s' :: p) with ([s'] ++ p) in H. rewrite !app_assoc in H.
  apply app_inv_tail in H. by apply app_inj_tail in H as [_ H].
Qed.
Lemma not_above (q : path) s (p : path) : q ++ s :: p <> p.
Proof. intros H%(f_equal length). rewrite app_length in H. cbn in H. lia. Qed.

Lemma wkids_nodup p h l : Forall once l ->
  Forall (fun c => forall p ph, NoDup (v_path <$> posts (walk p ph c))) l ->
  forall j, NoDup (v_path <$> posts (wkids p h j l)).
Proof.
  intros Ho HP. induction l as [|c l IH]; intros j; cbn [wkids posts]; [apply NoDup_nil_2|].
  apply Forall_cons in Ho as [Hc Ho]. apply Forall_cons in HP as [H1 HP].
  rewrite posts_app, fmap_app. apply NoDup_app. split; [done|]. split; [|by apply IH].
  intros x Hx Hx'. apply elem_of_list_fmap in Hx as (v & -> & Hv). apply elem_of_list_fmap in Hx' as (v' & He & Hv').
  apply wkids_in in Hv' as (m & c' & Hm & Hv'). apply walk_below in Hv as [q Hq]; [|done].
  apply walk_below in Hv' as [q' Hq']; [|by rewrite Forall_lookup in Ho; eapply Ho].
  rewrite Hq, Hq' in He. apply two_below in He. injection He as He. lia.
Qed.
Lemma wrules_nodup p h l : Forall (fun q => once (snd q)) l ->
  Forall (fun q => forall p ph, NoDup (v_path <$> posts (walk p ph (snd q : pn)))) l ->
  forall j, NoDup (v_path <$> posts (wrules p h j l)).
Proof.
  intros Ho HP. induction l as [|c l IH]; intros j; cbn [wrules posts]; [apply NoDup_nil_2|].
  apply Forall_cons in Ho as [Hc Ho]. apply Forall_cons in HP as [H1 HP].
  rewrite posts_app, fmap_app. apply NoDup_app. split; [done|]. split; [|by apply IH].
  intros x Hx Hx'. apply elem_of_list_fmap in Hx as (v & -> & Hv). apply elem_of_list_fmap in Hx' as (v' & He & Hv').
  apply wrules_in in Hv' as (m & c' & Hm & Hv'). apply walk_below in Hv as [q Hq]; [|done].
  apply walk_below in Hv' as [q' Hq']; [|by rewrite Forall_lookup in Ho; eapply Ho].
  rewrite Hq, Hq' in He. apply two_below in He. injection He as He. lia.
Qed.
Lemma walk_nodup n : once n -> forall p ph, NoDup (v_path <$> posts (walk p ph n)).
Proof.
  induction n as [i rs k IHr IHk] using pn_ind2. intros Ho p ph. inversion Ho as [? ? ? Hnd Hfl Hor Hok]; subst.
  rewrite walk_eq by done. cbn [posts]. rewrite !posts_app, !fmap_app. cbn [posts fmap list_fmap v_path].
  set (h := handles ph (Pn i rs k)).
  apply NoDup_app. split; [|split].
  - apply wrules_nodup; [done|]. rewrite Forall_lookup in IHr, Hor |- *. intros m q Hq. by eapply IHr; eauto.
  - intros x Hx. apply elem_of_list_fmap in Hx as (v & -> & Hv). apply wrules_in in Hv as (m & q & Hq & Hv).
    apply walk_below in Hv as [q1 Hq1]; [|by rewrite Forall_lookup in Hor; eapply Hor]. rewrite Hq1.
    rewrite elem_of_app. intros [Hx|Hx].
    + apply elem_of_list_fmap in Hx as (v' & He & Hv'). apply wkids_in in Hv' as (m' & c & Hc & Hv').
      apply walk_below in Hv' as [q2 Hq2]; [|by rewrite Forall_lookup in Hok; eapply Hok]. rewrite Hq2 in He.
      by apply two_below in He.
    + apply elem_of_list_singleton in Hx. by apply not_above in Hx.
  - apply NoDup_app. split; [|split; [|by apply NoDup_singleton]].
    + apply wkids_nodup; [done|]. rewrite Forall_lookup in IHk, Hok |- *. intros m c Hc. by eapply IHk; eauto.
    + intros x Hx. apply elem_of_list_fmap in Hx as (v & -> & Hv). apply wkids_in in Hv as (m' & c & Hc & Hv).
      apply walk_below in Hv as [q2 Hq2]; [|by rewrite Forall_lookup in Hok; eapply Hok]. rewrite Hq2.
      intros Hx%elem_of_list_singleton. by apply not_above in Hx.
Qed.
Lemma walk_fun n p ph v v' : once n -> v ∈ posts (walk p ph n) -> v' ∈ posts (walk p ph n) -> v_path v = v_path v' -> v = v'.
Proof.
  intros Ho Hv Hv' He. apply elem_of_list_lookup in Hv as [a Ha]. apply elem_of_list_lookup in Hv' as [b Hb].
  pose proof (walk_nodup n Ho p ph) as Hnd. rewrite NoDup_alt in Hnd.
  assert (a = b) as ->; [|congruence]. eapply (Hnd a b (v_path v)); rewrite list_lookup_fmap.
  - by rewrite Ha.
  - rewrite Hb, He. done.
Qed.

(** ** Numbering *)
Definition is_reg (v : visit) : bool := pi_reg (pn_info (v_node v)).
Definition reg_of (v : visit) : string * visit := (pi_name (pn_info (v_node v)), v).
Lemma connect_regs l : forall s s', connect s l = ROk s' ->
  cn_regs s' = cn_regs s ++ map reg_of (List.filter is_reg (posts l)).
Proof.
  induction l as [|[v|v] l IH]; intros s s' H; cbn [connect] in H.
  - injection H as <-. by rewrite app_nil_r.
  - cbn [connect1] in H. destruct (_ && _)%bool in H; [done|]. cbn [rbind] in H. apply IH in H. done.
  - cbn [connect1] in H. cbn [posts List.filter]. change (pi_reg (pn_info (v_node v))) with (is_reg v) in H.
    destruct (is_reg v); cbn in H; apply IH in H; rewrite H; [|done]. cbn [cn_regs map]. by rewrite <- app_assoc.
Qed.

Lemma last_index_spec p l : forall i acc,
  (forall m q, l !! m = Some q -> v_path (snd q) <> p) -> last_index p l i acc = acc.
Proof.
  induction l as [|[nm v] l IH]; intros i acc H; [done|]. cbn [last_index].
  destruct (decide (v_path v = p)) as [He|_]; [by destruct (H 0 (nm, v))|].
  apply IH. intros m q Hq. by apply (H (S m)).
Qed.
Lemma last_index_nodup p l : forall i acc m q, NoDup ((v_path ∘ snd) <$> l) -> l !! m = Some q -> v_path (snd q) = p ->
  last_index p l i acc = i + m.
Proof.
  induction l as [|[nm v] l IH]; intros i acc m q Hnd Hm Hq; [done|]. cbn [fmap list_fmap] in Hnd.
  apply NoDup_cons in Hnd as [Hni Hnd]. cbn [last_index]. destruct m as [|m]; cbn in Hm.
  - injection Hm as <-. cbn [snd] in Hq. rewrite decide_True by done. rewrite last_index_spec; [lia|].
    intros m q Hm Heq. apply Hni. apply elem_of_list_fmap. exists q. split; [cbn; congruence|]. by eapply elem_of_list_lookup_2.
  - rewrite IH with (m := m) (q := q); [lia|done..].
Qed.

Lemma nodup_filter {A B} (f : A -> B) (c : A -> bool) l : NoDup (f <$> l) -> NoDup (f <$> List.filter c l).
Proof.
  induction l as [|x l IH]; [done|]. cbn [fmap list_fmap List.filter]. intros [Hni Hnd]%NoDup_cons.
  destruct (c x); [|by apply IH]. cbn [fmap list_fmap]. apply NoDup_cons. split; [|by apply IH].
  intros H. apply Hni. apply elem_of_list_fmap in H as (y & -> & Hy). apply elem_of_list_fmap. exists y. split; [done|].
  apply elem_of_list_In in Hy. apply elem_of_list_In. by apply filter_In in Hy as [? _].
Qed.
(** The registered nodes: numbered by their place in the list. *)
Lemma regs_id n p ph : once n -> let regs := map reg_of (List.filter is_reg (posts (walk p ph n))) in
  forall m nm v, regs !! m = Some (nm, v) -> id_of regs (v_path v) = m.
Proof.
  intros Ho regs m nm v Hm. unfold id_of. rewrite last_index_nodup with (m := m) (q := (nm, v)); [lia| |done|done].
  subst regs. change (map reg_of ?l) with (reg_of <$> l). rewrite <- list_fmap_compose.
  apply nodup_filter. by apply walk_nodup.
Qed.
