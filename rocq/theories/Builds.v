(** When a grammar can be built from its lines. *)
From Verif Require Import Base Helpers Utf8 Stream Native Engine Build BuildSpec BuildWalk BuildPrep BuildMono BuildProofs BuildLines BuildMain BuildsSpec.

(** ** The rank *)
Definition in_shape (l : line) : bool :=
  match l with
  | LO _ c _ => rule_shape c
  | LI nm c _ => (negb (String.eqb nm "") && rule_shape c)%bool
  | _ => false
  end.

Section Rank.
Variable compile : bytes -> res pexp.
Notation compiles l := (Forall (fun s => exists e, compile s = ROk e) (texts l)).

Lemma register_ok name o x : pi_name (pn_info x) = name -> register name o x = ROk (set_reg_cb x (lo_cb o)).
Proof. intros H. unfold register. by rewrite H, String.eqb_refl, andb_false_r. Qed.
Lemma o_name_ne own by_ parent i : o_name own by_ parent i <> EmptyString.
Proof.
  unfold o_name. destruct (String.eqb_spec own ""); [|done]. destruct (String.eqb_spec by_ ""); [|done]. cbn.
  by destruct parent.
Qed.
Definition can (l : line) : Prop := rule_shape l = true -> compiles l -> forall name parent o, name <> EmptyString ->
  exists x, get_rule compile l name parent o = ROk x /\ pi_name (pn_info x) = name.
Lemma can_loop ls : Forall (fun l => match l with LO _ c _ | LI _ c _ => can c | _ => True end) ls ->
  forallb in_shape ls = true -> Forall (fun l => compiles l) ls -> forall r, pi_name (pn_info r) <> EmptyString ->
  exists r', rank_lines compile ls r = ROk r' /\ pi_name (pn_info r') = pi_name (pn_info r).
Proof.
  induction ls as [|l ls IH]; intros HF Hs Hc r Hn; [by eexists|]. apply Forall_cons in HF as [H1 HF]. cbn [forallb] in Hs.
  apply andb_prop in Hs as [Hs1 Hs]. apply Forall_cons in Hc as [Hc1 Hc]. cbn [rank_lines].
  destruct l as [s|a p|l|nm c o|nm c o]; try done; cbn [in_shape] in Hs1; cbn [texts] in Hc1.
  - destruct (H1 Hs1 Hc1 (o_name nm "" (pi_name (pn_info r)) (length (choices r))) (pi_name (pn_info r)) o) as (x & -> & _); [apply o_name_ne|].
    cbn [rbind]. destruct r as [i rs k]. exact (IH HF Hs Hc (rank_append (Pn i rs k) x) Hn).
  - apply andb_prop in Hs1 as [Hn1 Hs1]. apply negb_true_iff, String.eqb_neq in Hn1.
    destruct (H1 Hs1 Hc1 nm (pi_name (pn_info r)) o Hn1) as (x & -> & _).
    destruct r as [i rs k]. cbn [pn_info] in *. apply String.eqb_neq in Hn as Hn2.
    cbn [rbind]. pose proof (IH HF Hs Hc (rank_include (Pn i rs k) nm x)) as H. cbn [rank_include pn_info pi_name] in H |- *. rewrite Hn2 in H |- *. by apply H.
Qed.
Lemma get_rule_LA ls name parent o : get_rule compile (LA ls) name parent o = let* r := rank_lines compile ls (empty_rank name) in register name o r.
Proof.
  reflexivity.
Qed.
Lemma texts_in ls : compiles (LA ls) -> Forall (fun l => compiles l) ls.
Proof.
  cbn [texts]. induction ls as [|l ls IH]; intros H; [constructor|]. cbn [flat_map] in H. apply Forall_app in H as [H1 H2].
  constructor; [done|by apply IH].
Qed.
Lemma set_name_name x nm : pi_name (pn_info (set_name x nm)) = nm.
Proof. by destruct x. Qed.
Lemma reg_name x cb : pi_name (pn_info (set_reg_cb x cb)) = pi_name (pn_info x).
Proof. by destruct x. Qed.
Lemma all_can l : can l /\ match l with LO _ c _ | LI _ c _ => can c | _ => True end.
Proof.
  induction l as [s|a p|l IH|nm c o IH|nm c o IH] using line_ind2.
  - split; [|done]. intros _ Hc name parent o Hn. cbn [texts] in Hc. apply Forall_cons in Hc as [[e He] _].
    cbn [get_rule]. rewrite He. cbn [rbind]. rewrite register_ok by (by destruct (plant e)). eexists. split; [done|]. rewrite reg_name. by destruct (plant e).
  - split; [|done]. intros _ _ name parent o Hn. cbn [get_rule]. rewrite register_ok by (by destruct (plant p)). eexists. split; [done|]. rewrite reg_name. by destruct (plant p).
  - split; [|done]. intros Hs Hc name parent o Hn. rewrite get_rule_LA.
    destruct (can_loop l) with (r := empty_rank name) as (r' & Hr & Hr'); [|exact Hs|by apply texts_in|done|].
    { eapply Forall_impl; [exact IH|]. by intros x [_ Hx]. }
    rewrite Hr. cbn [rbind]. cbn [pn_info empty_rank pi_name] in Hr'. rewrite register_ok by done. eexists. split; [done|]. by rewrite reg_name.
  - split; [|apply IH]. intros Hs Hc name parent o' Hn. cbn [rule_shape] in Hs. apply andb_prop in Hs as [He Hs]. apply String.eqb_eq in He as ->.
    cbn [texts] in Hc. cbn [get_rule]. assert (o_name "" name parent 0 = name) as ->.
    { unfold o_name. cbn. apply String.eqb_neq in Hn. by rewrite Hn. }
    destruct IH as [IH _]. destruct (IH Hs Hc name parent o' Hn) as (x & -> & Hx). cbn [rbind]. apply String.eqb_neq in Hn as Hn'. rewrite Hx, Hn'.
    rewrite register_ok by done. eexists. split; [done|]. by rewrite reg_name.
  - split; [done|apply IH].
Qed.
Lemma rank_can ls name : rule_shape (LA ls) = true -> compiles (LA ls) -> name <> EmptyString -> exists r, rank_from_lines compile name ls = ROk r.
Proof.
  intros Hs Hc Hn. destruct (can_loop ls) with (r := empty_rank name) as (r' & Hr & _); [|exact Hs|by apply texts_in|done|by eexists].
  rewrite Forall_forall. intros l _. destruct (all_can l) as [_ H]. exact H.
Qed.
End Rank.

(** ** Connecting *)
Fixpoint pres (l : list wev) : list visit :=
  match l with [] => [] | WPre v :: l' => v :: pres l' | WPost _ :: l' => pres l' end.
Lemma pres_app a b : pres (a ++ b) = pres a ++ pres b.
Proof. induction a as [|[v|v] a IH]; [done| |done]. cbn. by rewrite IH. Qed.
Lemma pres_posts n : once n -> forall p ph, pres (walk p ph n) ≡ₚ posts (walk p ph n).
Proof.
  induction n as [i rs k IHr IHk] using pn_ind2. intros Ho p ph. inversion Ho as [? ? ? Hnd Hfl Hor Hok]; subst.
  assert (Hrs : forall h j, pres (wrules p h j rs) ≡ₚ posts (wrules p h j rs)).
  { clear Hnd Hfl Ho IHk Hok. intros h. induction rs as [|q rs IH]; intros j; [done|]. apply Forall_cons in IHr as [H1 IHr]. apply Forall_cons in Hor as [O1 Hor].
    cbn [wrules]. rewrite pres_app, posts_app, (IH IHr Hor). by rewrite (H1 O1). }
  assert (Hks : forall h j, pres (wkids p h j (kids k)) ≡ₚ posts (wkids p h j (kids k))).
  { clear Ho Hrs IHr Hor. revert IHk Hok. generalize (kids k). intros l IHk Hok h. induction l as [|c l IH]; intros j; [done|].
    apply Forall_cons in IHk as [H1 IHk]. apply Forall_cons in Hok as [O1 Hok].
    cbn [wkids]. rewrite pres_app, posts_app, (IH IHk Hok). by rewrite (H1 O1). }
  rewrite walk_eq by done. cbn [pres posts]. rewrite !pres_app, !posts_app. cbn [pres posts]. rewrite app_nil_r, Hrs, Hks.
  rewrite app_assoc. by rewrite Permutation_cons_append.
Qed.
Lemma connect_can l : forall s, NoDup (v_path <$> pres l) -> (forall v, v ∈ pres l -> v_path v ∉ cn_seen s) -> exists s', connect s l = ROk s'.
Proof.
  induction l as [|[v|v] l IH]; intros s Hnd Hs; cbn [connect pres] in *; [by eexists|..].
  - cbn [fmap list_fmap] in Hnd. apply NoDup_cons in Hnd as [Hni Hnd]. cbn [connect1].
    rewrite (bool_decide_eq_false_2 (v_path v ∈ cn_seen s)) by (apply Hs; apply elem_of_list_here). rewrite andb_false_r. cbn [rbind].
    apply IH; [done|]. cbn [cn_seen]. intros v' Hv' [He|Hx]%elem_of_cons.
    + apply Hni. rewrite <- He. apply elem_of_list_fmap. by exists v'.
    + revert Hx. apply Hs. by apply elem_of_list_further.
  - cbn [connect1]. destruct (pi_reg _); cbn [rbind]; by apply IH.
Qed.

(** ** Labels and types *)
Lemma height_kid i rs k c : c ∈ kids k -> height c < height (Pn i rs k).
Proof.
  intros Hc. cbn [height]. assert (forall l, c ∈ l -> height c <= List.list_max (map height l)) as Hl.
  { induction l as [|x l IH]; intros H; [by apply elem_of_nil in H|]. change (List.list_max (map height (x :: l))) with (Nat.max (height x) (List.list_max (map height l))).
    apply elem_of_cons in H as [->|H]; [lia|]. specialize (IH H). lia. }
  destruct k as [s|s|s|ty l|l|v [x|] mn mx|a|a|a|]; cbn [kids] in Hc; try (by apply elem_of_nil in Hc).
  - apply Hl in Hc. lia.
  - apply Hl in Hc. lia.
  - rewrite !elem_of_cons in Hc. destruct Hc as [->|[->|Hc]]; [lia|lia|by apply elem_of_nil in Hc].
  - apply elem_of_list_singleton in Hc as ->. lia.
  - apply elem_of_list_singleton in Hc as ->. lia.
  - apply elem_of_list_singleton in Hc as ->. lia.
  - apply elem_of_list_singleton in Hc as ->. lia.
Qed.

Section Total.
Variable regs : list (string * visit).
Variable r : pn.
Hypothesis Hr : once r.
Notation W := (posts (walk [] false r)).
Hypothesis Hplain : forall v, v ∈ W -> plain_at (unplant (v_node v)) = true.

Lemma labels_can fuel : forall v s, v ∈ W -> labels_kept r s -> height (v_node v) < fuel ->
  exists l s', get_labels regs fuel (v_path v) (v_node v) s = ROk (l, s').
Proof.
  induction fuel as [|fuel IH]; intros v s Hv Hk Hf; [lia|]. rewrite get_labels_eq.
  destruct (ps_labels s (v_path v)); [by eexists _, _|].
  assert (Hown : forall l, exists l0 s', (let* q := ROk (l, s) in ROk (fst q, set_ps_labels (snd q) (v_path v) (fst q))) = ROk (l0, s')) by (intros l; by eexists _, _).
  destruct (pn_kind (v_node v)) as [x|x|x|ty l|l|e j mn mx|it|a|a|] eqn:Hkind; try apply Hown.
  - assert (String.eqb (label_at s (v_path v) (v_node v)) "@" = false) as ->; [|apply Hown].
    unfold label_at. destruct (ps_label s (v_path v)) as [y|] eqn:Hy.
    + apply Hk in Hy as (_ & _ & a & Ha); [|done]. congruence.
    + unfold default, id. specialize (Hplain v Hv). destruct (v_node v) as [i rs k]. cbn [pn_kind] in Hkind. subst k. cbn in Hplain |- *.
      by apply negb_true_iff in Hplain.
  - assert (Hgo : forall l' j acc s, (forall m c, l' !! m = Some c -> l !! (j + m) = Some c) -> labels_kept r s ->
      exists q, labels_go regs (v_path v) fuel j l' acc s = ROk q).
    { clear Hown s Hk. induction l' as [|c l' IHl]; intros j acc s Hsub Hk; cbn [labels_go]; [by eexists|].
      assert (Hj : kids (pn_kind (v_node v)) !! j = Some c).
      { rewrite Hkind. cbn [kids]. rewrite <- (Nat.add_0_r j). by apply (Hsub 0). }
      pose proof (walk_kid r Hr [] false v j c Hv Hj) as Hin.
      destruct (IH (Visit (SKid j :: v_path v) (handles (v_ph v) (v_node v)) c) s Hin Hk) as (l1 & s1 & Hg).
      { cbn [v_node]. apply elem_of_list_lookup_2 in Hj. destruct (v_node v) as [i rs k]. cbn [pn_kind] in Hj. apply (height_kid i rs) in Hj. lia. }
      cbn [v_path v_node] in Hg. rewrite Hg. cbn [rbind fst snd]. apply IHl.
      + intros m c' Hc'. rewrite Nat.add_succ_l, <- Nat.add_succ_r. by apply (Hsub (S m)).
      + apply get_labels_keeps in Hg as (He & _). unfold labels_kept. by rewrite He. }
    destruct (Hgo l 0 [] s) as [q ->]; [done|done|]. cbn [rbind]. by eexists _, _.
Qed.
Lemma prepare_can fuel v s : v ∈ W -> labels_kept r s -> height (v_node v) <= fuel -> exists s', prepare regs fuel v s = ROk s'.
Proof.
  intros Hv Hk Hf. unfold prepare. destruct (pn_kind (v_node v)) as [x|x|x|ty l|l|e j mn mx|it|a|a|] eqn:Hkind; try by eexists.
  destruct (_ || _)%bool; [|by eexists].
  assert (Hj : kids (pn_kind (v_node v)) !! 0 = Some it) by (by rewrite Hkind).
  pose proof (walk_kid r Hr [] false v 0 it Hv Hj) as Hin.
  destruct (labels_can fuel (Visit (SKid 0 :: v_path v) (handles (v_ph v) (v_node v)) it) s Hin Hk) as (l1 & s1 & Hg).
  { cbn [v_node]. apply elem_of_list_lookup_2 in Hj. destruct (v_node v) as [i rs k]. cbn [pn_kind] in Hj. apply (height_kid i rs) in Hj. lia. }
  cbn [v_path v_node] in Hg. rewrite Hg. cbn [rbind]. by eexists.
Qed.
Lemma prepare_all_can fuel l : forall s, (forall v, v ∈ posts l -> v ∈ W /\ height (v_node v) <= fuel) -> labels_kept r s ->
  exists s', prepare_all regs fuel l s = ROk s'.
Proof.
  induction l as [|[v|v] l IH]; intros s Hl Hk; cbn [prepare_all]; [by eexists|by apply IH|].
  destruct (Hl v) as [Hv Hf]; [apply elem_of_list_here|]. destruct (prepare_can fuel v s Hv Hk Hf) as [s1 Hs1]. rewrite Hs1. cbn [rbind]. apply IH.
  - intros v' Hv'. apply Hl. by apply elem_of_list_further.
  - by eapply prepare_label.
Qed.
Lemma types_can fuel l s : (forall v, v ∈ posts l -> v ∈ W /\ height (v_node v) < fuel) -> labels_kept r s -> types regs fuel s l = ROk tt.
Proof.
  induction l as [|[v|v] l IH]; intros Hl Hk; cbn [types]; [done|by apply IH|].
  assert (types regs fuel s l = ROk tt) as -> by (apply IH; [|done]; intros v' Hv'; apply Hl; by apply elem_of_list_further).
  destruct (Hl v) as [Hv Hf]; [apply elem_of_list_here|]. destruct (pn_kind (v_node v)); try done.
  unfold seq_type. destruct (labels_can fuel v s Hv Hk Hf) as (l1 & s1 & ->). cbn [rbind fst]. by destruct l1.
Qed.
End Total.

Lemma height_walk n : once n -> forall p ph v, v ∈ posts (walk p ph n) -> height (v_node v) <= height n.
Proof.
  induction n as [i rs k IHr IHk] using pn_ind2. intros Ho p ph v Hv. inversion Ho as [? ? ? Hnd Hfl Hor Hok]; subst.
  apply (walk_in _ _ _ _ _ _ Hnd) in Hv as [(m & q & Hq & Hv)|[(m & c' & Hc & Hv)| ->]]; [..|done].
  - rewrite Forall_lookup in IHr, Hor. specialize (IHr _ _ Hq (Hor _ _ Hq) _ _ _ Hv). etransitivity; [exact IHr|]. cbn [height].
    assert (height (snd q) <= List.list_max (map (fun p => height (snd p)) rs)); [|lia].
    clear -Hq. revert m Hq. induction rs as [|x rs IH]; intros m Hq; [done|].
    change (List.list_max (map (fun p => height (snd p)) (x :: rs))) with (Nat.max (height (snd x)) (List.list_max (map (fun p : string * pn => height (snd p)) rs))).
    destruct m as [|m]; cbn in Hq; [injection Hq as ->; lia|]. apply IH in Hq. lia.
  - rewrite Forall_lookup in IHk, Hok. specialize (IHk _ _ Hc (Hok _ _ Hc) _ _ _ Hv). apply elem_of_list_lookup_2 in Hc. apply (height_kid i rs) in Hc. lia.
Qed.

Lemma postinit_can r : once r -> plainp r -> optimize r = r -> forall fuel, height r < fuel -> exists b, postinit fuel r = ROk b.
Proof.
  intros Ho Hp Hopt fuel Hf. unfold postinit. rewrite Hopt.
  destruct (connect_can (walk [] false r) (Conn [] [])) as [cn Hc].
  { rewrite (pres_posts r Ho). by apply walk_nodup. }
  { intros v _ H. by apply elem_of_nil in H. }
  rewrite Hc. cbn [rbind]. apply connect_regs in Hc. cbn [cn_regs app] in Hc. rewrite Hc.
  pose proof (plainp_walk r Ho Hp [] false) as Hplain.
  assert (Hall : forall v, v ∈ posts (gm_walk (map reg_of (List.filter is_reg (posts (walk [] false r)))) (walk [] false r)) -> v ∈ posts (walk [] false r)).
  { intros v Hv. unfold gm_walk in Hv. rewrite posts_app, elem_of_app in Hv. destruct Hv as [Hv|Hv]; [|done].
    apply posts_concat in Hv as (q & Hq & Hv). destruct (last_of _ (fst q)) as [v'|] eqn:Hl in Hv; [|by apply elem_of_nil in Hv].
    apply last_of_in in Hl. apply reg_in in Hl as (_ & Hv' & _). by eapply walk_sub. }
  assert (labels_kept r pst0) as Hk0 by (intros v x _ Hx; done).
  destruct (prepare_all_can (map reg_of (List.filter is_reg (posts (walk [] false r)))) r Ho Hplain fuel _ pst0
    (fun v Hv => conj (Hall v Hv) (Nat.le_trans _ _ _ (height_walk r Ho [] false v (Hall v Hv)) (Nat.lt_le_incl _ _ Hf))) Hk0) as [ps Hps].
  rewrite Hps. cbn [rbind]. rewrite (types_can _ r Ho Hplain); [cbn [rbind]; by eexists|..].
  - intros v Hv. split; [done|]. apply (height_walk r Ho) in Hv. lia.
  - eapply prepare_all_label; [done|exact Hall|exact Hk0|exact Hps].
Qed.

Lemma build_can compile name ls : rule_shape (LA ls) = true -> Forall (fun s => exists e, compile s = ROk e) (texts (LA ls)) ->
  names_once ls -> no_singles compile ls -> plain_labels compile ls -> name <> EmptyString ->
  exists fuel0, forall fuel, fuel0 <= fuel -> exists b, build compile fuel name ls = ROk b.
Proof.
  intros H1 H2 H3 H4 H5 H6. destruct (rank_can compile ls name H1 H2 H6) as [r Hr].
  pose proof (lines_once _ _ _ _ Hr H3) as Ho. pose proof (optimize_id _ (lines_bare compile _ _ _ Hr H4)) as Hopt.
  pose proof (lines_plain compile _ _ _ Hr H5) as Hp.
  exists (S (height r)). intros fuel Hf. unfold build. rewrite Hr. cbn [rbind]. by apply postinit_can.
Qed.

(** A test for texts that compile. *)
Definition compiles (compile : bytes -> res pexp) (s : bytes) : bool := match compile s with ROk _ => true | _ => false end.
Lemma compiles_all compile l : forallb (compiles compile) l = true -> Forall (fun s => exists e, compile s = ROk e) l.
Proof.
  induction l as [|s l IH]; intros H; [by apply List.Forall_nil|]. cbn [forallb] in H. apply andb_prop in H as [H1 H2].
  apply List.Forall_cons; [|by apply IH]. unfold compiles in H1. destruct (compile s) as [e| |]; [by exists e|done..].
Qed.
