(** A grammar made from lines parses as the lines say. *)
From Verif Require Toy.
From Verif Require Import Base Helpers Utf8 Stream StreamSpec StreamProofs Native NativeSpec Engine EngSpec EngInv Peg PegProofs PegRep PegBody PegStd PegStdProofs RunSpec PegRun
  Build BuildSpec BuildWalk BuildLines BuildMono BuildPrep BuildProofs BuildMain MeansSpec MeansBuild.

(** ** Evaluations of alike parsers *)
Section Body.
Variables rules rules' : string -> option node.
Variable rx : bytes -> bytes -> option (nat * nat).
Variable text : bytes.
Variables ev ev' : node -> nat -> option result.
Variable R : node -> node -> Prop.
Hypothesis Hev : forall a a' p r, R a a' -> ev a p = Some r -> ev' a' p = Some r.
Hypothesis Hcap : forall a a', R a a' -> i_capture (n_info a) = i_capture (n_info a') /\ i_label (n_info a) = i_label (n_info a').

Lemma alt_sim l l' p r : Forall2 (fun a a' => forall p r, ev a p = Some r -> ev' a' p = Some r) l l' -> std_alt ev l p = Some r -> std_alt ev' l' p = Some r.
Proof.
  induction 1 as [|a a' l l' Ha HF IH]; [done|]. cbn [std_alt]. destruct (ev a p) as [x|] eqn:E; [|done]. rewrite (Ha _ _ E).
  destruct x as [[v e]|]; done.
Qed.
Lemma single_sim l l' : Forall2 R l l' -> forall acc p r, std_single ev l acc p = Some r -> std_single ev' l' acc p = Some r.
Proof.
  induction 1 as [|a a' l l' Ha HF IH]; intros acc p r; [done|]. cbn [std_single]. destruct (ev a p) as [x|] eqn:E; [|done]. rewrite (Hev _ _ _ _ Ha E).
  destruct x as [[v e]|]; [|done]. destruct (Hcap _ _ Ha) as [-> _]. apply IH.
Qed.
Lemma array_sim l l' : Forall2 R l l' -> forall acc p r, std_array ev l acc p = Some r -> std_array ev' l' acc p = Some r.
Proof.
  induction 1 as [|a a' l l' Ha HF IH]; intros acc p r; [done|]. cbn [std_array]. destruct (ev a p) as [x|] eqn:E; [|done]. rewrite (Hev _ _ _ _ Ha E).
  destruct x as [[v e]|]; [|done]. destruct (Hcap _ _ Ha) as [-> _]. apply IH.
Qed.
Lemma object_sim l l' : Forall2 R l l' -> forall m p r, std_object ev l m p = Some r -> std_object ev' l' m p = Some r.
Proof.
  induction 1 as [|a a' l l' Ha HF IH]; intros acc p r; [done|]. cbn [std_object]. destruct (ev a p) as [x|] eqn:E; [|done]. rewrite (Hev _ _ _ _ Ha E).
  destruct x as [[v e]|]; [|done]. destruct (Hcap _ _ Ha) as [_ ->]. destruct (joined _ _ _); [apply IH|done].
Qed.
Lemma loop_sim v v' j j' : R v v' -> option_Forall2 R j j' -> forall f f' mx acc p r, f <= f' ->
  std_loop ev f v j mx acc p = Some r -> std_loop ev' f' v' j' mx acc p = Some r.
Proof.
  intros Hv Hj. induction f as [|f IH]; intros f' mx acc p r Hf; [done|]. destruct f' as [|f']; [lia|]. cbn [std_loop].
  destruct Hj as [jn jn' Hj|].
  - destruct (ev jn p) as [x|] eqn:E; [|done]. rewrite (Hev _ _ _ _ Hj E). destruct x as [[w q]|]; [|done].
    destruct (ev v q) as [y|] eqn:E2; [|done]. rewrite (Hev _ _ _ _ Hv E2). destruct y as [[w' q']|]; [|done].
    destruct (enough mx _); [done|]. apply IH. lia.
  - destruct (ev v p) as [y|] eqn:E2; [|done]. rewrite (Hev _ _ _ _ Hv E2). destruct y as [[w' q']|]; [|done].
    destruct (enough mx _); [done|]. apply IH. lia.
Qed.
Lemma body_sim f f' n n' p r : f <= f' ->
  (forall nm m p r, n_kind n = KRef nm -> rules nm = Some m -> ev m p = Some r -> exists m', rules' nm = Some m' /\ ev' m' p = Some r) ->
  same_kind R (n_kind n) (n_kind n') -> same_type (n_kind n) (n_kind n') ->
  std_body rules rx text ev f n p = Some r -> std_body rules' rx text ev' f' n' p = Some r.
Proof.
  intros Hf Href Hk Ht. unfold std_body. destruct Hk as [s|s|s|t t' l l' HF|l l' HF|v v' j j' mn mx Hv Hj|a a' Ha|a a' Ha|a a' Ha|]; cbn [same_type] in Ht.
  - done.
  - done.
  - destruct (rules s) as [m|] eqn:Em; [|done]. intros He. destruct (Href _ _ _ _ eq_refl Em He) as (m' & -> & E). exact E.
  - subst t'. destruct t; [by apply single_sim|by apply array_sim|by apply object_sim].
  - apply alt_sim. eapply Forall2_impl; [exact HF|]. intros a a' Ha p0 r0. by apply Hev.
  - destruct (ev v p) as [x|] eqn:E; [|done]. rewrite (Hev _ _ _ _ Hv E). destruct x as [[w q]|]; [|done].
    destruct (std_loop ev f v j mx [w] q) as [[l e]|] eqn:El; [|done]. by rewrite (loop_sim _ _ _ _ Hv Hj _ _ _ _ _ _ Hf El).
  - destruct (ev a p) as [x|] eqn:E; [|done]. rewrite (Hev _ _ _ _ Ha E). by destruct x.
  - destruct (ev a p) as [x|] eqn:E; [|done]. rewrite (Hev _ _ _ _ Ha E). by destruct x.
  - destruct (ev a p) as [x|] eqn:E; [|done]. rewrite (Hev _ _ _ _ Ha E). by destruct x.
  - done.
Qed.
End Body.

Lemma same_kind_flip {A B} (R : A -> B -> Prop) k k' : same_kind R k k' -> same_kind (flip R) k' k.
Proof.
  intros H. destruct H as [s|s|s|t t' l l' HF|l l' HF|v v' j j' mn mx Hv Hj|a a' Ha|a a' Ha|a a' Ha|]; constructor; try done.
  - by apply Forall2_flip.
  - by apply Forall2_flip.
  - by destruct Hj; constructor.
Qed.

Section Sim.
Variables rules rules' : string -> option node.
Variable rx : bytes -> bytes -> option (nat * nat).
Variable cbf : nat -> nat -> val -> option (option val).
Variable text : bytes.

Definition E_of (rs : string -> option node) : env := Env 0 rs rx (fun _ _ h _ => CbPanic 0) false false 0 false.
Lemma mono rs f f' d d' n p r : f <= f' -> d <= d' -> std rs rx cbf text f d n p = Some r -> std rs rx cbf text f' d' n p = Some r.
Proof. exact (std_mono (E_of rs) cbf (fun _ => Node (Info "" "" false false 0 false None false false) KUndef) text f f' d d' n p r). Qed.

(** A rank and the choice of references to its alternatives. *)
Record ranks_alike (n n' : node) : Prop := {
  ra_label : i_label (n_info n) = EmptyString;
  ra_label' : i_label (n_info n') = EmptyString;
  ra_cb : i_cb (n_info n) = i_cb (n_info n');
  ra_rule : i_isrule (n_info n) = i_isrule (n_info n');
  ra_alts : exists alts names, n_kind n = KChoice alts /\ n_kind n' = KChoice (map to_rule names) /\
    Forall2 (fun a x => rules x = Some a) alts names }.
Definition rule_alike (n n' : node) : Prop := alike n n' \/ ranks_alike n n'.
Hypothesis Hrules : forall nm, match rules nm, rules' nm with
  | Some n, Some n' => rule_alike n n'
  | None, None => True
  | _, _ => False
  end.

Lemma prepared_alike i i' r : i_label i = i_label i' -> i_wraps i = i_wraps i' \/ i_label i = EmptyString -> i_cb i = i_cb i' ->
  prepared cbf i r = prepared cbf i' r.
Proof.
  intros Hl Hw Hc. unfold prepared, labelled. rewrite <- Hl, <- Hc. destruct Hw as [<- | ->]; done.
Qed.

Lemma std_S rs f d n p : std rs rx cbf text (S f) d n p =
  match n_kind n with
  | KUndef => Some (Some (VUndef, p))
  | _ =>
      match (if i_isrule (n_info n) then match d with O => None | S d => std_body rs rx text (std rs rx cbf text f d) f n p end
             else std_body rs rx text (std rs rx cbf text f d) f n p) with
      | None => None
      | Some r => prepared cbf (n_info n) r
      end
  end.
Proof. done. Qed.
Lemma to_rule_eq f d x p : std rules' rx cbf text (S f) d (to_rule x) p = match rules' x with Some m => std rules' rx cbf text f d m p | None => None end.
Proof.
  cbn [std to_rule n_kind n_info i_isrule std_body]. unfold std_body. cbn [n_kind]. destruct (rules' x) as [m|]; [|done].
  destruct (std rules' rx cbf text f d m p) as [r|]; [|done]. destruct r as [[v e]|]; done.
Qed.

Lemma sim_to f : forall d n n' p r, rule_alike n n' -> std rules rx cbf text f d n p = Some r -> std rules' rx cbf text (2 * f) d n' p = Some r.
Proof.
  induction f as [|f IH]; intros d n n' p r Hal; [done|]. replace (2 * S f) with (S (S (2 * f))) by lia.
  assert (IH1 : forall d n n' p r, rule_alike n n' -> std rules rx cbf text f d n p = Some r -> std rules' rx cbf text (S (2 * f)) d n' p = Some r).
  { intros d0 n0 n0' p0 r0 Ha He. eapply mono; [|reflexivity|eapply IH; [exact Ha|exact He]]. lia. }
  destruct Hal as [Hal|[E1 E2 E3 E4 (alts & names & K1 & K2 & HF)]].
  - destruct Hal as [i i' k k' E1 E2 E3 E4 E5 Hk Ht].
    assert (Hb : forall d0 r0, std_body rules rx text (std rules rx cbf text f d0) f (Node i k) p = Some r0 ->
      std_body rules' rx text (std rules' rx cbf text (S (2 * f)) d0) (S (2 * f)) (Node i' k') p = Some r0).
    { intros d0 r0. apply (body_sim _ _ _ _ _ _ alike); [|..|lia| |exact Hk|exact Ht].
      - intros a a' p0 r1 Ha. apply IH1. by left.
      - intros a a' [] . done.
      - intros nm m p0 r1 _ Hm He. specialize (Hrules nm). rewrite Hm in Hrules. destruct (rules' nm) as [m'|]; [|done]. exists m'. split; [done|]. by eapply IH1. }
    rewrite !std_S. cbn [n_kind n_info]. rewrite <- E4.
    assert (Hpr : forall r0, prepared cbf i r0 = prepared cbf i' r0) by (intros r0; apply prepared_alike; auto).
    assert (Hu : k = KUndef <-> k' = KUndef) by (destruct Hk; split; done).
    assert (HH : forall x, match (if i_isrule i then match d with O => None | S d0 => std_body rules rx text (std rules rx cbf text f d0) f (Node i k) p end
              else std_body rules rx text (std rules rx cbf text f d) f (Node i k) p) with None => None | Some r0 => prepared cbf i r0 end = Some x ->
      match (if i_isrule i then match d with O => None | S d0 => std_body rules' rx text (std rules' rx cbf text (S (2 * f)) d0) (S (2 * f)) (Node i' k') p end
              else std_body rules' rx text (std rules' rx cbf text (S (2 * f)) d) (S (2 * f)) (Node i' k') p) with None => None | Some r0 => prepared cbf i' r0 end = Some x).
    { intros x. destruct (i_isrule i).
      - destruct d as [|d0]; [done|]. destruct (std_body rules _ _ _ _ _ _) as [r0|] eqn:Eb; [|done]. rewrite (Hb _ _ Eb). by rewrite Hpr.
      - destruct (std_body rules _ _ _ _ _ _) as [r0|] eqn:Eb; [|done]. rewrite (Hb _ _ Eb). by rewrite Hpr. }
    destruct Hk; first [exact (HH r)|done].
  - assert (Hb : forall d0 r0, std_body rules rx text (std rules rx cbf text f d0) f n p = Some r0 ->
      std_body rules' rx text (std rules' rx cbf text (S (2 * f)) d0) (S (2 * f)) n' p = Some r0).
    { intros d0 r0. unfold std_body. rewrite K1, K2. apply alt_sim. apply Forall2_fmap_r. eapply Forall2_impl; [exact HF|].
      intros a x Ha p0 r1 He. cbn beta in Ha. rewrite to_rule_eq. specialize (Hrules x). rewrite Ha in Hrules. destruct (rules' x) as [m'|]; [|done]. by eapply IH. }
    rewrite !std_S, K1, K2, <- E4.
    assert (Hpr : forall r0, prepared cbf (n_info n) r0 = prepared cbf (n_info n') r0) by (intros r0; apply prepared_alike; [congruence|by right|done]).
    destruct (i_isrule (n_info n)).
    + destruct d as [|d0]; [done|]. destruct (std_body rules _ _ _ _ _ _) as [r0|] eqn:Eb; [|done]. rewrite (Hb _ _ Eb). by rewrite Hpr.
    + destruct (std_body rules _ _ _ _ _ _) as [r0|] eqn:Eb; [|done]. rewrite (Hb _ _ Eb). by rewrite Hpr.
Qed.

Lemma sim_from f : forall d n n' p r, rule_alike n n' -> std rules' rx cbf text f d n' p = Some r -> std rules rx cbf text f d n p = Some r.
Proof.
  induction f as [|f IH]; intros d n n' p r Hal; [done|].
  destruct Hal as [Hal|[E1 E2 E3 E4 (alts & names & K1 & K2 & HF)]].
  - destruct Hal as [i i' k k' E1 E2 E3 E4 E5 Hk Ht].
    assert (Hb : forall d0 r0, std_body rules' rx text (std rules' rx cbf text f d0) f (Node i' k') p = Some r0 ->
      std_body rules rx text (std rules rx cbf text f d0) f (Node i k) p = Some r0).
    { intros d0 r0. apply (body_sim _ _ _ _ _ _ (flip alike)); [|..|lia| |by apply same_kind_flip|by destruct Hk].
      - intros a a' p0 r1 Ha. apply IH. by left.
      - intros a a' []. done.
      - intros nm m p0 r1 _ Hm He. specialize (Hrules nm). rewrite Hm in Hrules. destruct (rules nm) as [m'|]; [|done]. exists m'. split; [done|]. by eapply IH. }
    rewrite !std_S. cbn [n_kind n_info]. rewrite <- E4.
    assert (Hpr : forall r0, prepared cbf i r0 = prepared cbf i' r0) by (intros r0; apply prepared_alike; auto).
    assert (HH : forall x, match (if i_isrule i then match d with O => None | S d0 => std_body rules' rx text (std rules' rx cbf text f d0) f (Node i' k') p end
              else std_body rules' rx text (std rules' rx cbf text f d) f (Node i' k') p) with None => None | Some r0 => prepared cbf i' r0 end = Some x ->
      match (if i_isrule i then match d with O => None | S d0 => std_body rules rx text (std rules rx cbf text f d0) f (Node i k) p end
              else std_body rules rx text (std rules rx cbf text f d) f (Node i k) p) with None => None | Some r0 => prepared cbf i r0 end = Some x).
    { intros x. destruct (i_isrule i).
      - destruct d as [|d0]; [done|]. destruct (std_body rules' _ _ _ _ _ _) as [r0|] eqn:Eb; [|done]. rewrite (Hb _ _ Eb). by rewrite Hpr.
      - destruct (std_body rules' _ _ _ _ _ _) as [r0|] eqn:Eb; [|done]. rewrite (Hb _ _ Eb). by rewrite Hpr. }
    destruct Hk; first [exact (HH r)|done].
  - assert (Hb : forall d0 r0, std_body rules' rx text (std rules' rx cbf text f d0) f n' p = Some r0 ->
      std_body rules rx text (std rules rx cbf text f d0) f n p = Some r0).
    { intros d0 r0. unfold std_body. rewrite K1, K2. apply alt_sim. apply Forall2_fmap_l. eapply Forall2_flip, Forall2_impl; [exact HF|].
      intros a x Ha p0 r1 He. cbn beta in Ha. destruct f as [|f']; [done|]. rewrite to_rule_eq in He. specialize (Hrules x). rewrite Ha in Hrules.
      destruct (rules' x) as [m'|]; [|done]. eapply mono in He; [|apply (Nat.le_succ_diag_r f')|reflexivity]. by eapply IH. }
    rewrite !std_S, K1, K2, <- E4.
    assert (Hpr : forall r0, prepared cbf (n_info n) r0 = prepared cbf (n_info n') r0) by (intros r0; apply prepared_alike; [congruence|by right|done]).
    destruct (i_isrule (n_info n)).
    + destruct d as [|d0]; [done|]. destruct (std_body rules' _ _ _ _ _ _) as [r0|] eqn:Eb; [|done]. rewrite (Hb _ _ Eb). by rewrite Hpr.
    + destruct (std_body rules' _ _ _ _ _ _) as [r0|] eqn:Eb; [|done]. rewrite (Hb _ _ Eb). by rewrite Hpr.
Qed.
End Sim.

(** ** The grammar made from lines *)
Section Built.
Variables (compile : bytes -> res pexp) (fuel : nat) (name : string) (ls : list line) (b : node * list (string * node)).
Hypothesis Hb : build compile fuel name ls = ROk b.
Hypothesis Hw : in_words compile name ls.
Let Hnames : names_once ls := iw_once _ _ _ Hw.
Let Hsingle : no_singles compile ls := iw_single _ _ _ Hw.
Let Hne : name <> EmptyString := iw_name _ _ _ Hw.
Notation rules := (g_rule (gram_of b)).

(** Texts. *)
Lemma built_texts : Forall2 (fun d q => match d_what d with
    | WText s => exists e, compile s = ROk e /\ alike (snd q) (as_rule (d_name d) (lo_cb (d_opts d)) (stand false e))
    | _ => True
    end) (decls name ls) (snd b).
Proof.
  pose proof (iw_plain _ _ _ Hw) as Hp.
  destruct (named_parts _ _ _ _ _ Hb Hnames Hsingle Hne) as (xs & ys & ps & H1 & Hopt & Ho & Hbe & Hk & H3 & H4 & H5 & H6 & H7).
  set (r := Pn (PInfo name "" false false true no_opts) xs (KChoice ys)) in *.
  pose proof (lines_plain compile _ _ _ H1 Hp) as Hpl. pose proof (plainp_walk r Ho Hpl [] false) as Hplain.
  pose proof (lines_flat _ _ _ _ H1) as Hflat.
  assert (inv r ps /\ forall v, v ∈ posts (walk [] false r) -> done_ ps v) as [Hi Hd].
  { unfold gm_walk in H3. rewrite prepare_all_app in H3. destruct (prepare_all _ _ (concat _) _) as [s1| |] eqn:Hs1 in H3; [|done..]. cbn [rbind] in H3.
    rewrite (concat_omap (last_of (regs_of r))) in Hs1. eapply prepare_regs in Hs1 as [Hi1 _]; [|exact Ho|exact Hplain| |apply inv0].
    2: { intros v Hv. apply elem_of_list_omap in Hv as (q & _ & Hl). apply last_of_in in Hl. by apply reg_in in Hl as (_ & ? & _). }
    eapply (prepare_walk _ r Ho Hplain fuel r (Visit [] false r)) in H3 as (E1 & E2 & E3); [|done|by apply walk_self|done].
    split; [done|]. exact E3. }
  assert (Hsnd : snd b = (fun v => (pi_name (pn_info (v_node v)), freeze (regs_of r) fuel ps (v_path v) (v_ph v) (v_node v))) <$> regs_at [] false r).
  { rewrite Hbe. unfold out, fz. cbn [snd]. rewrite Hopt. change (map reg_of ?l) with (reg_of <$> l). change (map ?f (reg_of <$> ?l)) with (f <$> (reg_of <$> l)).
    rewrite <- list_fmap_compose. done. }
  rewrite Hsnd. apply Forall2_fmap_r. eapply Forall2_impl_in; [exact H7|]. intros d v _ Hv Hm. cbn [fst snd].
  pose proof (flat_ph r Ho Hflat [] v Hv) as Hph.
  apply elem_of_list_In in Hv. apply filter_In in Hv as [Hv _]. apply elem_of_list_In in Hv.
  destruct Hm as (M1 & M2 & M3 & M4). destruct (d_what d) as [s|a e|ls']; [|done..].
  destruct M4 as (e & G1 & G2 & G3 & G4 & G5 & _). exists e. split; [done|].
  destruct (fz_said fuel r ps (regs_of r) Ho Hplain Hi Hd H4 e v Hv G4 G3) as (F1 & F2 & F3 & F4 & F5). rewrite Hph in *.
  assert (i_isrule (n_info (freeze (regs_of r) fuel ps (v_path v) false (v_node v))) = true /\
    i_cb (n_info (freeze (regs_of r) fuel ps (v_path v) false (v_node v))) = lo_cb (d_opts d)) as [F6 F7].
  { rewrite freeze_info. cbn [finfo i_isrule i_cb]. by rewrite M2, G5. }
  destruct (freeze (regs_of r) fuel ps (v_path v) false (v_node v)) as [i k]. cbn [n_info n_kind] in *.
  destruct (stand false e) as [i' k'] eqn:Hs. cbn [as_rule n_kind] in *.
  destruct e as [lb ke]. cbn [stand] in Hs. injection Hs as <- _. constructor; done.
Qed.
Lemma table_names : fst <$> snd b = d_name <$> decls name ls.
Proof.
  destruct (named _ _ _ _ _ Hb Hnames Hsingle Hne) as [HF _]. revert HF. generalize (snd b) at 1. intros tbl HF.
  induction HF as [|d q ds qs [Hq _] HF IH]; [done|]. cbn. by rewrite IH, Hq.
Qed.
Lemma table_rule nm n : (nm, n) ∈ snd b -> rules nm = Some n.
Proof.
  intros Hin. cbn [gram_of g_rule]. pose proof (iw_names _ _ _ Hw) as Hnd. rewrite <- table_names in Hnd.
  destruct (last_of (snd b) nm) as [m|] eqn:Hl.
  - apply last_of_in in Hl. apply elem_of_list_lookup in Hin as [i Hi]. apply elem_of_list_lookup in Hl as [j Hj].
    assert (i = j) as <-. { eapply NoDup_lookup; [exact Hnd|by rewrite list_lookup_fmap, Hi|by rewrite list_lookup_fmap, Hj]. }
    congruence.
  - apply last_of_none in Hl. destruct Hl. apply elem_of_list_fmap. by exists (nm, n).
Qed.
Lemma alts_named alts names : i_name ∘ n_info <$> alts = names -> Forall (fun a => (i_name (n_info a), a) ∈ snd b) alts ->
  Forall2 (fun a x => rules x = Some a) alts names.
Proof. intros <- HF. apply Forall2_fmap_r. induction HF as [|a l Ha HF IH]; constructor; [by apply table_rule|done]. Qed.

Lemma find_named (ds : list decl) nm : match List.find (fun d => String.eqb (d_name d) nm) ds with
  | Some d => exists i, ds !! i = Some d /\ d_name d = nm
  | None => nm ∉ d_name <$> ds
  end.
Proof.
  induction ds as [|d ds IH]; cbn [List.find]; [apply not_elem_of_nil|]. destruct (String.eqb_spec (d_name d) nm) as [He|He].
  - by exists 0.
  - destruct (List.find _ ds) as [d'|]; [destruct IH as (i & Hi & Hd); by exists (S i)|].
    rewrite fmap_cons, not_elem_of_cons. split; [congruence|done].
Qed.
Lemma built_rules nm : match rules nm, rules_said compile (decls name ls) nm with
  | Some n, Some n' => rule_alike rules n n'
  | None, None => True
  | _, _ => False
  end.
Proof.
  unfold rules_said. pose proof (find_named (decls name ls) nm) as Hf.
  destruct (named _ _ _ _ _ Hb Hnames Hsingle Hne) as [HF _].
  destruct (List.find _ (decls name ls)) as [d|].
  - destruct Hf as (i & Hi & Hd).
    destruct (Forall2_lookup_l _ _ _ _ _ HF Hi) as ([nm' n] & Hq & Hn & Hrule). cbn [fst snd] in *. subst nm'. rewrite Hd in Hq.
    rewrite (table_rule nm n) by (by eapply elem_of_list_lookup_2).
    destruct (Forall2_lookup_l _ _ _ _ _ built_texts Hi) as (q' & Hq' & Htext). rewrite Hq in Hq'. injection Hq' as <-. cbn [snd] in Htext.
    destruct Hrule as (R1 & R2 & R3). unfold rule_said.
    assert (Hnp : match d_what d with WParser _ _ => False | _ => True end).
    { pose proof (no_parser_decls (LA ls) name no_opts (iw_texts _ _ _ Hw)) as Hall. rewrite decls_of_rank, <- decls_eq in Hall.
      apply Forall_app in Hall as [Hall _]. rewrite Forall_lookup in Hall. by apply (Hall i). }
    destruct (d_what d) as [s|a e|ls']; [|done|].
    + destruct Htext as (e & -> & Hal). by left.
    + right. destruct R3 as (L1 & L2 & _ & _ & alts & L3 & L4 & L5). constructor; [done|done|done|done|].
      exists alts, (o_names (d_name d) ls' 0). split; [done|]. split; [done|]. by apply alts_named.
  - destruct (rules nm) as [n|] eqn:Hr; [|done]. cbn [gram_of g_rule] in Hr. apply last_of_in in Hr. apply Hf. rewrite <- table_names.
    apply elem_of_list_fmap. by exists (nm, n).
Qed.
Lemma built_top : rule_alike rules (fst b) (choice_of (o_names name ls 0)).
Proof.
  right. destruct (named _ _ _ _ _ Hb Hnames Hsingle Hne) as [_ (alts & H1 & H2 & H3 & H4 & H5 & H6)].
  constructor; [done|done|done|done|]. exists alts, (o_names name ls 0). split; [done|]. split; [done|]. by apply alts_named.
Qed.

(** The built grammar and the lines give the same outcomes. *)
Lemma built_said o rx cb cbf text r : textbook (mk_env (gram_of b) o rx cb) cbf text (g_rank (gram_of b)) 0 r <->
  said compile name ls rx cbf stack_limit text r.
Proof.
  unfold textbook, said. cbn [gram_of g_rank mk_env e_rule e_rx]. split; intros [f Hf].
  - exists (2 * f). eapply sim_to; [exact built_rules|exact built_top|exact Hf].
  - exists f. eapply sim_from; [exact built_rules|exact built_top|exact Hf].
Qed.

(** ** ParseString *)
Definition inside (n : node) : Prop := exists e, spells e n /\ inner (n_info n).
Lemma spells_inside e n c : spells e n -> c ∈ children n -> inside c.
Proof.
  intros He Hc. destruct He as [lb k i k' _ Hk]. unfold children in Hc. cbn [n_kind] in Hc.
  destruct Hk as [s|s|s|t t' l l' HF|l l' HF|v v' j j' mn mx Hv Hj|a a' Ha|a a' Ha|a a' Ha|]; cbn in Hc; try (by apply elem_of_nil in Hc).
  - apply elem_of_list_lookup in Hc as [m Hm]. destruct (Forall2_lookup_r _ _ _ _ _ HF Hm) as (e & _ & He). by exists e.
  - apply elem_of_list_lookup in Hc as [m Hm]. destruct (Forall2_lookup_r _ _ _ _ _ HF Hm) as (e & _ & He). by exists e.
  - apply elem_of_cons in Hc as [->|Hc]; [by exists v|]. destruct Hj as [x y Hxy|]; [|by apply elem_of_nil in Hc].
    apply elem_of_list_singleton in Hc as ->. by exists x.
  - apply elem_of_list_singleton in Hc as ->. by exists a.
  - apply elem_of_list_singleton in Hc as ->. by exists a.
  - apply elem_of_list_singleton in Hc as ->. by exists a.
Qed.
Lemma top_debug : i_debug (n_info (fst b)) = false.
Proof.
  destruct (named_parts _ _ _ _ _ Hb Hnames Hsingle Hne) as (xs & ys & ps & _ & Hopt & _ & -> & _).
  unfold out, fz. cbn [fst v_path v_ph v_node]. rewrite Hopt, freeze_info. done.
Qed.
Lemma table_shape nm n : (nm, n) ∈ snd b -> i_debug (n_info n) = false /\ forall c, c ∈ children n -> inside c \/ exists nm', (nm', c) ∈ snd b.
Proof.
  intros Hin. destruct (named _ _ _ _ _ Hb Hnames Hsingle Hne) as [HF _]. apply elem_of_list_lookup in Hin as [i Hi].
  destruct (Forall2_lookup_r _ _ _ _ _ HF Hi) as (d & Hd & _ & Hr). cbn [snd] in Hr.
  pose proof (iw_debug _ _ _ Hw) as Hdb. rewrite Forall_lookup in Hdb. specialize (Hdb _ _ Hd).
  destruct Hr as (_ & _ & Hr). destruct (d_what d) as [s|a e|ls'].
  - destruct Hr as (e & _ & He & _ & _ & ->). split; [done|]. intros c Hc. left. by eapply spells_inside.
  - destruct Hr as (He & _ & _ & ->). split; [done|]. intros c Hc. left. by eapply spells_inside.
  - destruct Hr as (_ & _ & _ & -> & alts & Hk & _ & Hal). split; [done|]. intros c Hc. right. unfold children in Hc. rewrite Hk in Hc.
    rewrite Forall_forall in Hal. eexists. by apply Hal.
Qed.
Lemma reach_shape o rx cb n : reach (mk_env (gram_of b) o rx cb) (g_rank (gram_of b)) n ->
  n = fst b \/ (exists nm, (nm, n) ∈ snd b) \/ inside n.
Proof.
  induction 1 as [|n c _ IH Hc|nm n Hn].
  - by left.
  - right. destruct IH as [->|[[nm Hn]|[e [He _]]]].
    + left. destruct (named _ _ _ _ _ Hb Hnames Hsingle Hne) as [_ (alts & H1 & _ & H3 & _)]. unfold children in Hc. rewrite H1 in Hc.
      rewrite Forall_forall in H3. eexists. by apply H3.
    + destruct (table_shape nm n Hn) as [_ Hk]. destruct (Hk c Hc); [by right|by left].
    + right. by eapply spells_inside.
  - right. left. exists nm. by apply last_of_in in Hn.
Qed.
Lemma built_pure o rx cb cbf : (forall re, rx_ok (rx re)) -> (forall c, cb_keeps (mk_env (gram_of b) o rx cb) cbf c) ->
  po_debug o = false ->
  pure_grammar (mk_env (gram_of b) o rx cb) (g_rank (gram_of b)) cbf.
Proof.
  intros Hrx Hcb Hs. destruct (ready _ _ _ _ _ Hb Hnames Hsingle Hne (iw_texts _ _ _ Hw) o rx cb) as (R1 & R2 & R3 & R4 & R5).
  constructor; [done|done|done| |intros c; left; apply Hcb]. split; [exact Hs|]. split; [done|]. intros n Hn.
  apply reach_shape in Hn as [->|[[nm Hn]|[e [_ Hi]]]]; [apply top_debug|by apply (table_shape nm)|apply Hi].
Qed.
Lemma parses_as_said o rx cb cbf text r : (forall re, rx_ok (rx re)) -> (forall c, cb_keeps (mk_env (gram_of b) o rx cb) cbf c) ->
  po_debug o = false ->
  said compile name ls rx cbf stack_limit text r ->
  exists fuel0, forall f, fuel0 <= f -> answer text r (fst (parse_string f (gram_of b) o rx cb text)).
Proof.
  intros Hrx Hcb Hs Hr. apply (built_said o rx cb) in Hr. pose proof (built_pure o rx cb cbf Hrx Hcb Hs) as Hg.
  destruct (ready _ _ _ _ _ Hb Hnames Hsingle Hne (iw_texts _ _ _ Hw) o rx cb) as (_ & [R HR] & Ht & _).
  pose proof (textbook_meaning _ _ (CRune (new_rune_stream text)) cbf R _ 0 _ HR ltac:(constructor) Hr) as HM.
  exact (gram_meaning (gram_of b) rx cb o cbf Hg Ht R (fun _ => None) HR ltac:(done) (CRune (new_rune_stream text)) _ (Toy.rune_code_ok _) eq_refl HM).
Qed.
End Built.
