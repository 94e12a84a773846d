(** The same declarations in another place: the built grammars. *)
From Verif Require Toy.
From Verif Require Import Base Helpers Utf8 Stream StreamSpec Native Engine EngSpec EngInv Peg PegRep PegBody PegStd RunSpec PegRun
  Build BuildSpec BuildWalk BuildLines BuildMono BuildPrep BuildProofs BuildMain MeansSpec MeansBuild Means MeansLaws RenameSpec Rename ReadsSpec UnusedSpec Unused
  Print ErrMsg SimSpec RenumSpec Renum RenumLinesSpec.
Local Open Scope list_scope.

Section Texts.
Variables (R : string -> string -> Prop) (pi : nat -> nat) (nr : nat).
Lemma stand_plain used e : i_isrule (n_info (stand used e)) = false.
Proof. by destruct e. Qed.
Definition kinds_renum (e : pexp) : Prop := forall used e' k k' i i', renamed R e e' ->
  same_kind alike k (n_kind (stand used e)) -> same_type k (n_kind (stand used e)) ->
  same_kind alike k' (n_kind (stand used e')) -> same_type k' (n_kind (stand used e')) -> info_renum pi nr i i' -> renum R pi nr (Node i k) (Node i' k').
Lemma kid_renum e : kinds_renum e -> forall used e' n n', renamed R e e' -> alike n (stand used e) -> alike n' (stand used e') ->
  renum R pi nr n n' /\ i_capture (n_info n') = i_capture (n_info n).
Proof.
  intros IH used e' n n' Hr H1 H2. destruct (stand_infos R used e e' Hr) as (E1 & E2 & E3 & E4 & E5). pose proof (stand_plain used e) as Hp.
  pose proof (IH used e' (n_kind n) (n_kind n') (n_info n) (n_info n') Hr) as HK. clear IH.
  revert H1 H2 E1 E2 E3 E4 E5 Hp HK. destruct (stand used e) as [j q]. destruct (stand used e') as [j' q']. intros H1 H2.
  inversion H1 as [i1 i2 k1 k2 A1 A2 A3 A4 A5 A6 A7]; subst. inversion H2 as [i3 i4 k3 k4 B1 B2 B3 B4 B5 B6 B7]; subst. cbn [n_info n_kind].
  intros E1 E2 E3 E4 E5 Hp HK. split; [|congruence]. apply HK; try done. repeat split; try congruence; intros; congruence.
Qed.
Lemma kids_renum u l l' m m' : Forall kinds_renum l -> Forall2 (renamed R) l l' -> Forall2 alike m (map (stand u) l) -> Forall2 alike m' (map (stand u) l') ->
  Forall2 (fun a a' => renum R pi nr a a' /\ i_capture (n_info a') = i_capture (n_info a)) m m'.
Proof.
  intros HP HF. revert m m'. induction HF as [|x x' l l' Hx HF IH]; intros m m' H1 H2; cbn [map] in *.
  - inversion H1; inversion H2; subst. constructor.
  - apply Forall_cons in HP as [P1 P2]. inversion H1; inversion H2; subst. constructor; [by eapply kid_renum|by apply IH].
Qed.
Lemma renum_kinds e : kinds_renum e.
Proof.
  induction e as [lb k0 IH] using pexp_ind2. intros used e' k k' i i' Hr. pose proof (looks R _ _ Hr) as _.
  inversion Hr as [lb0 nm nm' Hn Hu|lb0 k1 k1' Hnr Hk]; subst.
  - cbn [stand n_kind kmap]. intros H1 _ H2 _ HI. inversion H1; inversion H2; subst. by constructor.
  - destruct Hk as [s|s|s|t t' l l' HF|l l' HF|v v' j j' mn mx Hv Hj|a a' Ha|a a' Ha|a a' Ha|]; cbn [kids] in IH; try done; rewrite !stand_kids; cbn [kmap uses_labels].
    + intros H1 _ H2 _ HI. inversion H1; inversion H2; subst. by constructor.
    + intros H1 _ H2 _ HI. inversion H1; inversion H2; subst. by constructor.
    + assert (w_type l = w_type l') as <-.
      { unfold w_type. assert (flat_map w_labels l = flat_map w_labels l' /\ map w_captures l = map w_captures l') as [-> ->]; [|done].
        clear -HF. induction HF as [|a a' l l' Ha HF [I1 I2]]; [done|]. destruct (looks R _ _ Ha) as (G1 & G2 & _). cbn [flat_map map]. by rewrite I1, I2, G1, G2. }
      intros H1 T1 H2 T2 HI. inversion H1; inversion H2; subst. cbn [same_type] in T1, T2. subst. constructor; [done|]. by eapply kids_renum.
    + intros H1 _ H2 _ HI. inversion H1; inversion H2; subst. constructor; [done|].
      eapply Forall2_impl; [by eapply kids_renum|]. by intros ? ? [? _].
    + apply Forall_cons in IH as [I1 I2]. intros H1 _ H2 _ HI. inversion H1; inversion H2; subst. constructor; [done|by eapply kid_renum|].
      destruct Hj as [x x' Hx|].
      * apply Forall_cons in I2 as [I2 _]. cbn in *.
        repeat match goal with H : option_Forall2 alike _ (Some _) |- _ => inversion H; clear H; subst end. constructor. by eapply kid_renum.
      * cbn in *. repeat match goal with H : option_Forall2 alike _ None |- _ => inversion H; clear H; subst end. constructor.
    + apply Forall_cons in IH as [I1 I2]. intros H1 _ H2 _ HI. inversion H1; inversion H2; subst. constructor; [done|by eapply kid_renum].
    + apply Forall_cons in IH as [I1 I2]. intros H1 _ H2 _ HI. inversion H1; inversion H2; subst. constructor; [done|by eapply kid_renum].
    + apply Forall_cons in IH as [I1 I2]. intros H1 _ H2 _ HI. inversion H1; inversion H2; subst. constructor; [done|by eapply kid_renum].
    + intros H1 _ H2 _ HI. inversion H1; inversion H2; subst. by constructor.
Qed.
Lemma renum_text e e' nm nm' cb n n' : renamed R e e' -> alike n (as_rule nm cb (stand false e)) -> alike n' (as_rule nm' cb (stand false e')) ->
  i_id (n_info n) < nr -> i_id (n_info n') = pi (i_id (n_info n)) -> i_skip (n_info n') = i_skip (n_info n) -> i_debug (n_info n') = i_debug (n_info n) -> renum R pi nr n n'.
Proof.
  intros Hr H1 H2 N0 N1 N2 N3. destruct (stand_infos R false e e' Hr) as (E1 & E2 & E3 & E4 & E5).
  pose proof (renum_kinds e false e' (n_kind n) (n_kind n') (n_info n) (n_info n') Hr) as HK.
  revert H1 H2 E1 E2 E3 E4 E5 HK. destruct (stand false e) as [j q]. destruct (stand false e') as [j' q']. cbn [as_rule]. intros H1 H2.
  inversion H1 as [i1 i2 k1 k2 A1 A2 A3 A4 A5 A6 A7]; subst. inversion H2 as [i3 i4 k3 k4 B1 B2 B3 B4 B5 B6 B7]; subst. cbn [n_info n_kind] in *.
  intros E1 E2 E3 E4 E5 HK. cbn in A1, A3, A4, A5, B1, B3, B4, B5. apply HK; try done. repeat split; try congruence; intros; congruence.
Qed.
End Texts.


Fixpoint place (l : list string) (x : string) : nat := match l with [] => 0 | y :: l' => if String.eqb x y then 0 else S (place l' x) end.
Lemma place_in l x : x ∈ l -> l !! place l x = Some x.
Proof.
  induction l as [|y l IH]; intros H; [by apply not_elem_of_nil in H|]. cbn [place]. destruct (String.eqb_spec x y) as [->|Hne]; [done|].
  apply elem_of_cons in H as [?|H]; [done|]. by apply IH.
Qed.

Section Both.
Variables (compile : bytes -> res pexp) (fuel fuel' : nat) (name : string) (ls : list line) (name' : string) (ls' : list line).
Variables b b' : node * list (string * node).
Hypothesis Hpart : part_of compile name ls name' ls'.
Hypothesis Hcomp : complete compile name ls.
Hypothesis Hb : build compile fuel name ls = ROk b.
Hypothesis Hb' : build compile fuel' name' ls' = ROk b'.
Hypothesis Hw : in_words compile name ls.
Hypothesis Hw' : in_words compile name' ls'.
Definition here (x : string) : Prop := x ∈ (d_name <$> decls name ls).
Definition to (i : nat) : nat := match (d_name <$> decls name ls) !! i with Some x => place (d_name <$> decls name' ls') x | None => 0 end.
Notation nr := (g_nrules (gram_of b)).
Notation RR := (R here).
Notation rn := (renum RR to nr).
Lemma rules_b : nr = length (decls name ls).
Proof. apply (counted _ _ _ _ _ Hb); [apply Hw|apply Hw|apply Hw]. Qed.
Lemma rules_b' : g_nrules (gram_of b') = length (decls name' ls').
Proof. apply (counted _ _ _ _ _ Hb'); [apply Hw'|apply Hw'|apply Hw']. Qed.
Lemma to_at i d : decls name ls !! i = Some d -> exists d', decls name' ls' !! to i = Some d' /\ same_rule compile d d'.
Proof.
  intros Hd. destruct Hpart as [HP _]. rewrite Forall_forall in HP. destruct (HP d) as (d' & Hd' & HS); [by eapply elem_of_list_lookup_2|].
  exists d'. split; [|done]. unfold to. rewrite list_lookup_fmap, Hd. cbn [fmap option_fmap option_map]. pose proof HS as [HN _].
  assert (Hin : d_name d ∈ (d_name <$> decls name' ls')) by (rewrite HN; by apply elem_of_list_fmap_1).
  pose proof (place_in _ _ Hin) as Hpl. apply elem_of_list_lookup in Hd' as [j Hj].
  assert (place (d_name <$> decls name' ls') (d_name d) = j) as ->; [|done].
  eapply NoDup_lookup; [exact (iw_names _ _ _ Hw')|exact Hpl|]. by rewrite list_lookup_fmap, Hj, HN.
Qed.
Lemma to_in i : i < nr -> to i < g_nrules (gram_of b').
Proof.
  rewrite rules_b, rules_b'. intros Hi. destruct (lookup_lt_is_Some_2 _ _ Hi) as [d Hd]. destruct (to_at _ _ Hd) as (d' & Hd' & _). by eapply lookup_lt_Some.
Qed.
Lemma to_inj i j : i < nr -> j < nr -> to i = to j -> i = j.
Proof.
  rewrite rules_b. intros Hi Hj E. destruct (lookup_lt_is_Some_2 _ _ Hi) as [d Hd]. destruct (lookup_lt_is_Some_2 _ _ Hj) as [e He].
  destruct (to_at _ _ Hd) as (d' & Hd' & N1 & _). destruct (to_at _ _ He) as (e' & He' & N2 & _).
  eapply NoDup_lookup; [exact (iw_names _ _ _ Hw)|by rewrite list_lookup_fmap, Hd|]. rewrite list_lookup_fmap, He. cbn. f_equal. rewrite E in Hd'. congruence.
Qed.
Lemma row_at (c : node * list (string * node)) nm0 ls0 f i d a : build compile f nm0 ls0 = ROk c -> in_words compile nm0 ls0 ->
  decls nm0 ls0 !! i = Some d -> (d_name d, a) ∈ snd c -> snd c !! i = Some (d_name d, a).
Proof.
  intros HB HW Hi Ha. apply elem_of_list_lookup in Ha as [j Hj]. pose proof (table_names _ _ _ _ _ HB HW) as HT. pose proof (iw_names _ _ _ HW) as Hnd.
  assert (i = j) as ->; [|done]. eapply NoDup_lookup; [exact Hnd| |rewrite <- HT; rewrite list_lookup_fmap, Hj; reflexivity]. by rewrite list_lookup_fmap, Hi.
Qed.
Definition rows_renum (m : node) : Prop := forall i nm nm' m', snd b !! i = Some (nm, m) -> snd b' !! to i = Some (nm', m') -> rn m m'.
Lemma alts_renum alts alts' names : Forall here names -> i_name ∘ n_info <$> alts = names -> i_name ∘ n_info <$> alts' = names ->
  Forall (fun a => (i_name (n_info a), a) ∈ snd b) alts -> Forall (fun a => (i_name (n_info a), a) ∈ snd b') alts' ->
  (forall a, a ∈ alts -> rows_renum a) -> Forall2 rn alts alts'.
Proof.
  intros HN E1 E2. assert (HF : Forall2 (fun a a' => here (i_name (n_info a)) /\ i_name (n_info a) = i_name (n_info a')) alts alts').
  { subst names. revert alts' E2. induction alts as [|a l IH]; intros [|a' l'] E2; try done. cbn in E2, HN. injection E2 as E3 E4. apply Forall_cons in HN as [N1 N2].
    constructor; [split; [exact N1|by symmetry]|by apply IH]. }
  clear E1 E2 HN. intros H1 H2 HP. induction HF as [|a a' l l' [Ha Hn] HF IH]; [constructor|].
  apply Forall_cons in H1 as [A1 H1]. apply Forall_cons in H2 as [A2 H2]. constructor.
  - apply elem_of_list_fmap in Ha as (d & Ed & Hd). apply elem_of_list_lookup in Hd as [i Hi]. destruct (to_at _ _ Hi) as (d' & Hd' & N & _).
    assert (J1 : snd b !! i = Some (d_name d, a)) by (eapply row_at; [exact Hb|exact Hw|exact Hi|by rewrite <- Ed]).
    assert (J2 : snd b' !! to i = Some (d_name d', a')) by (eapply row_at; [exact Hb'|exact Hw'|exact Hd'|by rewrite <- N, <- Ed, Hn]).
    by eapply (HP a); [left|exact J1|exact J2].
  - apply IH; [done|done|]. intros x Hx. apply HP. by right.
Qed.
Lemma here_refers d e : d ∈ decls name ls -> decl_read compile d = Some e -> Forall here (refers e).
Proof. intros Hd He. destruct Hcomp as [HC _]. rewrite Forall_forall in HC. destruct (HC d Hd) as (e' & E & HF). rewrite He in E. by injection E as <-. Qed.
Lemma all_renum : forall m, rows_renum m.
Proof.
  destruct (named _ _ _ _ _ Hb (iw_once _ _ _ Hw) (iw_single _ _ _ Hw) (iw_name _ _ _ Hw)) as [HF _].
  destruct (named _ _ _ _ _ Hb' (iw_once _ _ _ Hw') (iw_single _ _ _ Hw') (iw_name _ _ _ Hw')) as [HF' _].
  destruct (numbered _ _ _ _ _ Hb (iw_once _ _ _ Hw)) as [HI _]. destruct (numbered _ _ _ _ _ Hb' (iw_once _ _ _ Hw')) as [HI' _].
  pose proof (built_texts _ _ _ _ _ Hb Hw) as HT. pose proof (built_texts _ _ _ _ _ Hb' Hw') as HT'.
  intros m. induction m as [m IH] using Toy.node_ind2. intros i nm nm' m' Hm Hm'.
  destruct (Forall2_lookup_r _ _ _ _ _ HF Hm) as (d & Hd & N1 & C1 & C2 & C3). destruct (to_at _ _ Hd) as (d' & Hd' & Nd & Ho & Hs).
  destruct (Forall2_lookup_lr _ _ _ _ _ _ HF' Hd' Hm') as (N1' & C1' & C2' & C3').
  pose proof (Forall2_lookup_lr _ _ _ _ _ _ HT Hd Hm) as T. pose proof (Forall2_lookup_lr _ _ _ _ _ _ HT' Hd' Hm') as T'.
  destruct (HI _ _ _ Hm) as [I1 _]. destruct (HI' _ _ _ Hm') as [I1' _]. pose proof (here_refers d) as HRef. specialize (fun e => HRef e (elem_of_list_lookup_2 _ _ _ Hd)).
  assert (Hlt : i_id (n_info m) < nr). { rewrite rules_b, I1. by eapply lookup_lt_Some. }
  unfold decl_read in HRef. cbn [fst snd] in *. destruct (d_what d) as [s|a e|l], (d_what d') as [s'|a' e'|l']; try done.
  - destruct Hs as (e & K1 & K2). destruct T as (e0 & K4 & K5). destruct T' as (e0' & K4' & K5'). rewrite K1 in K4, HRef. rewrite K2 in K4'.
    injection K4 as <-. injection K4' as <-. destruct C3 as (_ & _ & _ & S1 & S2 & S3). destruct C3' as (_ & _ & _ & S1' & S2' & S3').
    rewrite <- Ho in *. eapply renum_text; [apply reach_self, HRef; reflexivity|exact K5|exact K5'|done| | |]; congruence.
  - destruct C3 as (L1 & L2 & L3 & L4 & alts & L5 & L6 & L7). destruct C3' as (L1' & L2' & L3' & L4' & alts' & L5' & L6' & L7').
    assert (Forall2 rn alts alts') as HA.
    { eapply (alts_renum alts alts' (o_names (d_name d) l 0)); [|done|congruence|done|done|].
      - specialize (HRef _ eq_refl). cbn [refers] in HRef. by rewrite refers_names in HRef.
      - intros x Hx. apply IH. unfold children. by rewrite L5. }
    destruct m as [j k], m' as [j' k']. cbn [n_info n_kind] in *. subst k k'. constructor; [|done]. rewrite Ho in *. repeat split; try congruence; intros; congruence.
Qed.
Lemma lines_renums : renums RR to (gram_of b) (gram_of b').
Proof.
  destruct (named _ _ _ _ _ Hb (iw_once _ _ _ Hw) (iw_single _ _ _ Hw) (iw_name _ _ _ Hw)) as [HF (alts & L1 & L2 & L3 & L4 & L5 & L6)].
  destruct (named _ _ _ _ _ Hb' (iw_once _ _ _ Hw') (iw_single _ _ _ Hw') (iw_name _ _ _ Hw')) as [HF' (alts' & L1' & L2' & L3' & L4' & L5' & L6')].
  constructor; try done.
  - exact to_inj.
  - exact to_in.
  - cbn [gram_of g_rank]. destruct Hpart as [_ HO]. destruct Hcomp as [_ HC]. assert (Forall2 rn alts alts') as HA.
    { eapply (alts_renum alts alts' (o_names name ls 0)); [exact HC|done|congruence|done|done|]. intros x _. apply all_renum. }
    destruct (fst b) as [j k], (fst b') as [j' k']. cbn [n_info n_kind] in *. subst k k'. constructor; [|done]. repeat split; try congruence; intros; congruence.
  - intros nm nm' [<- Hh]. apply elem_of_list_fmap in Hh as (d & -> & Hd). apply elem_of_list_lookup in Hd as [i Hi]. destruct (to_at _ _ Hi) as (d' & Hd' & N & _).
    destruct (Forall2_lookup_l _ _ _ _ _ HF Hi) as ([x m] & Q1 & Q2 & _). destruct (Forall2_lookup_l _ _ _ _ _ HF' Hd') as ([x' m'] & Q1' & Q2' & _).
    cbn [fst] in Q2, Q2'. subst x x'. unfold both_have.
    rewrite (table_rule _ _ _ _ _ Hb Hw (d_name d) m) by (by eapply elem_of_list_lookup_2).
    rewrite N, (table_rule _ _ _ _ _ Hb' Hw' (d_name d') m') by (by eapply elem_of_list_lookup_2). by eapply all_renum.
Qed.
End Both.
Lemma part_outcome compile fuel fuel' name ls name' ls' b b' : part_of compile name ls name' ls' -> complete compile name ls ->
  build compile fuel name ls = ROk b -> build compile fuel' name' ls' = ROk b' -> in_words compile name ls -> in_words compile name' ls' ->
  exists pi, (forall i d, decls name ls !! i = Some d -> exists d', decls name' ls' !! pi i = Some d' /\ d_name d' = d_name d) /\
  forall f o rx cb cb' c, cb_like false cb cb' ->
  outcome_renum pi (fst (gram_parse f (gram_of b) o rx cb c)) (fst (gram_parse f (gram_of b') o rx cb' c)) /\
  snd (gram_parse f (gram_of b) o rx cb c) = snd (gram_parse f (gram_of b') o rx cb' c) /\
  parse_message f (gram_of b) o rx cb c = parse_message f (gram_of b') o rx cb' c.
Proof.
  intros HP HC Hb Hb' Hw Hw'. exists (to name ls name' ls'). split.
  - intros i d Hd. destruct (to_at compile name ls name' ls' HP Hw' i d Hd) as (d' & H1 & H2 & _). by exists d'.
  - intros f o rx cb cb' c HK. eapply renums_parse; [by eapply lines_renums|done].
Qed.
