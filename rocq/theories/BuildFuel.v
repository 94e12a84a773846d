(** More fuel does not change the grammar. *)
From Verif Require Import Base Helpers Native Engine EngSpec Build BuildSpec BuildWalk BuildLines BuildMono BuildPrep BuildProofs BuildMain BuildsSpec Builds.
Local Open Scope list_scope.

Section Fuel.
Variable regs : list (string * visit).
Lemma get_labels_more f : forall f' p n s q, get_labels regs f p n s = ROk q -> f <= f' -> get_labels regs f' p n s = ROk q.
Proof.
  induction f as [|f IH]; intros f' p n s q H Hf; [done|]. destruct f' as [|f']; [lia|]. apply le_S_n in Hf. rewrite get_labels_eq in H |- *.
  destruct (ps_labels s p); [done|].
  assert (Hgo : forall l i acc s q, labels_go regs p f i l acc s = ROk q -> labels_go regs p f' i l acc s = ROk q).
  { clear -IH Hf. induction l as [|c l IHl]; intros i acc s q H; cbn [labels_go] in *; [done|].
    destruct (get_labels regs f _ c s) as [q1| |] eqn:Hc; [|done..]. rewrite (IH f' _ _ _ _ Hc Hf). by apply IHl. }
  destruct (pn_kind n) as [x|x|x|ty ll|ll|v j mn mx|a|a|a|]; try done.
  - destruct (String.eqb _ _); [|done]. destruct (last_of regs x) as [v|]; [|done].
    destruct (get_labels regs f _ _ s) as [q1| |] eqn:Hc; [|done..]. by rewrite (IH f' _ _ _ _ Hc Hf).
  - destruct (labels_go regs p f 0 ll [] s) as [q1| |] eqn:Hg; [|done..]. by rewrite (Hgo _ _ _ _ _ Hg).
Qed.
Lemma prepare_more f f' v s s' : prepare regs f v s = ROk s' -> f <= f' -> prepare regs f' v s = ROk s'.
Proof.
  intros H Hf. unfold prepare in *. destruct (pn_kind (v_node v)) as [x|x|x|ty ll|ll|e j mn mx|it|a|a|]; try done.
  destruct (_ || _)%bool; [|done]. destruct (get_labels regs f _ _ s) as [q1| |] eqn:Hc; [|done..]. by rewrite (get_labels_more f f' _ _ _ _ Hc Hf).
Qed.
Lemma prepare_all_more f f' l : forall s s', prepare_all regs f l s = ROk s' -> f <= f' -> prepare_all regs f' l s = ROk s'.
Proof.
  induction l as [|[v|v] l IH]; intros s s' H Hf; cbn [prepare_all] in *; [done|by apply IH|].
  destruct (prepare regs f v s) as [s1| |] eqn:Hc; [|done..]. rewrite (prepare_more f f' _ _ _ Hc Hf). by apply IH.
Qed.
Lemma seq_type_more f f' s p n t : seq_type regs f s p n = ROk t -> f <= f' -> seq_type regs f' s p n = ROk t.
Proof.
  intros H Hf. unfold seq_type in *. destruct (get_labels regs f _ _ s) as [q1| |] eqn:Hc; [|done..]. by rewrite (get_labels_more f f' _ _ _ _ Hc Hf).
Qed.
Lemma types_more f f' s l : types regs f s l = ROk tt -> f <= f' -> types regs f' s l = ROk tt /\
  forall v, v ∈ posts l -> match pn_kind (v_node v) with KSeq _ _ => True | _ => False end -> type_at regs f' s (v_path v) (v_node v) = type_at regs f s (v_path v) (v_node v).
Proof.
  intros H Hf. induction l as [|[v|v] l IH]; cbn [types posts] in *; [split; [done|]; intros v Hv; by apply elem_of_nil in Hv|by apply IH|].
  assert (exists x, (match pn_kind (v_node v) with KSeq _ _ => exists t, seq_type regs f s (v_path v) (v_node v) = ROk t | _ => True end) /\ types regs f s l = ROk x) as ([] & Hv & Hl).
  { destruct (pn_kind (v_node v)); try (by exists tt). destruct (seq_type regs f s (v_path v) (v_node v)) as [t| |]; [|done..]. exists tt. split; [by exists t|done]. }
  destruct (IH Hl) as [I1 I2]. split.
  - destruct (pn_kind (v_node v)); try done. destruct Hv as [t Ht]. by rewrite (seq_type_more f f' _ _ _ _ Ht Hf).
  - intros v' [->|Hv']%elem_of_cons Hk; [|by apply I2]. destruct (pn_kind (v_node v)); try done. destruct Hv as [t Ht].
    unfold type_at. by rewrite Ht, (seq_type_more f f' _ _ _ _ Ht Hf).
Qed.

Variable r : pn.
Hypothesis Hr : once r.
Notation W := (posts (walk [] false r)).
Lemma freeze_more f f' s : types regs f s (walk [] false r) = ROk tt -> f <= f' ->
  forall n p ph, Visit p ph n ∈ W -> freeze regs f' s p ph n = freeze regs f s p ph n.
Proof.
  intros Ht Hf. apply (types_more f f' s _) in Ht as [_ Ht]; [|done].
  induction n as [i rs k _ IHk] using pn_ind2. intros p ph Hv.
  assert (Hkid : forall j c, kids k !! j = Some c -> freeze regs f' s (SKid j :: p) (handles ph (Pn i rs k)) c = freeze regs f s (SKid j :: p) (handles ph (Pn i rs k)) c).
  { intros j c Hj. rewrite Forall_lookup in IHk. apply (IHk j c Hj). exact (walk_kid r Hr [] false (Visit p ph (Pn i rs k)) j c Hv Hj). }
  assert (Hgo : forall l j, (forall m c, l !! m = Some c -> kids k !! (j + m) = Some c) ->
    fgo regs f' s p (handles ph (Pn i rs k)) j l = fgo regs f s p (handles ph (Pn i rs k)) j l).
  { clear -Hkid. induction l as [|c l IH]; intros j Hl; [done|]. cbn [fgo]. rewrite IH; [|intros m c' Hc'; rewrite Nat.add_succ_l, <- Nat.add_succ_r; by apply (Hl (S m))].
    rewrite Hkid; [done|]. rewrite <- (Nat.add_0_r j). by apply (Hl 0). }
  rewrite !freeze_eq. cbn [pn_kind]. f_equal.
  destruct k as [x|x|x|ty l|l|e [jn|] mn mx|it|a|a|]; try done; cbn [kids] in *.
  - pose proof (Ht (Visit p ph (Pn i rs (KSeq ty l))) Hv I) as E. cbn [v_path v_node] in E. rewrite E. by rewrite (Hgo l 0).
  - by rewrite (Hgo l 0).
  - by rewrite (Hkid 0 e), (Hkid 1 jn).
  - by rewrite (Hkid 0 e).
  - by rewrite (Hkid 0 it).
  - by rewrite (Hkid 0 a).
  - by rewrite (Hkid 0 a).
Qed.
End Fuel.

Lemma walk_self n : once n -> forall p ph, Visit p ph n ∈ posts (walk p ph n).
Proof. intros Ho p ph. destruct n as [i rs k]. inversion Ho; subst. apply walk_in; [done|]. by right; right. Qed.

Lemma postinit_more f f' rank b : once (optimize rank) -> postinit f rank = ROk b -> f <= f' -> postinit f' rank = ROk b.
Proof.
  intros Ho H Hf. pose proof (postinit_parts _ _ _ H) as (ps & H1 & H2 & ->). unfold postinit in *.
  destruct (connect (Conn [] []) (walk [] false (optimize rank))) as [cn| |] eqn:Hc; [|done..]. cbn [rbind] in *.
  apply connect_regs in Hc. cbn [cn_regs app] in Hc. rewrite Hc. rewrite (prepare_all_more _ _ _ _ _ _ H1 Hf). cbn [rbind].
  pose proof (types_more _ _ _ _ _ H2 Hf) as [-> _]. cbn [rbind].
  rewrite (freeze_more _ _ Ho _ _ _ H2 Hf _ _ _ (walk_self _ Ho _ _)). do 2 f_equal.
  apply map_ext_in. intros [nm v] Hv. apply elem_of_list_In in Hv. apply reg_in in Hv as (_ & Hv & _). cbn [fst snd]. f_equal.
  destruct v as [p ph n]. by apply (freeze_more _ _ Ho _ _ _ H2 Hf).
Qed.
Lemma build_more compile f f' name ls b : names_once ls -> build compile f name ls = ROk b -> f <= f' -> build compile f' name ls = ROk b.
Proof.
  intros Hn H Hf. unfold build in *. destruct (rank_from_lines compile name ls) as [r| |] eqn:Hr; [|done..]. cbn [rbind] in *.
  eapply postinit_more; [|done|done]. apply once_optimize. by eapply lines_once.
Qed.
Lemma build_one compile name ls : rule_shape (LA ls) = true -> Forall (fun s => exists e, compile s = ROk e) (texts (LA ls)) ->
  names_once ls -> no_singles compile ls -> plain_labels compile ls -> name <> EmptyString ->
  exists fuel0 b, forall fuel, fuel0 <= fuel -> build compile fuel name ls = ROk b.
Proof.
  intros H1 H2 H3 H4 H5 H6. destruct (build_can compile name ls H1 H2 H3 H4 H5 H6) as [f0 H].
  destruct (H f0 (le_n _)) as [b Hb]. exists f0, b. intros f Hf. by apply (build_more _ _ _ _ _ _ H3 Hb).
Qed.
