(** Lines under other names make grammars that differ in names only. *)
From Verif Require Toy.
From Verif Require Import Base Helpers Utf8 Stream StreamSpec Native Engine EngSpec EngInv Peg PegRep PegBody PegStd RunSpec PegRun
  Build BuildSpec BuildWalk BuildLines BuildMono BuildPrep BuildProofs BuildMain MeansSpec MeansBuild Means MeansLaws RenameSpec Rename
  Print ErrMsg SimSpec TwinSpec Twin.
Local Open Scope list_scope.

Section Texts.
Variable R : string -> string -> Prop.
Lemma stand_plain used e : i_isrule (n_info (stand used e)) = false.
Proof. by destruct e. Qed.
Definition kinds_twin (e : pexp) : Prop := forall used e' k k' i i', renamed R e e' ->
  same_kind alike k (n_kind (stand used e)) -> same_type k (n_kind (stand used e)) ->
  same_kind alike k' (n_kind (stand used e')) -> same_type k' (n_kind (stand used e')) -> info_twin i i' -> twin R (Node i k) (Node i' k').
Lemma kid_twin e : kinds_twin e -> forall used e' n n', renamed R e e' -> alike n (stand used e) -> alike n' (stand used e') ->
  twin R n n' /\ i_capture (n_info n') = i_capture (n_info n).
Proof.
  intros IH used e' n n' Hr H1 H2. destruct (stand_infos R used e e' Hr) as (E1 & E2 & E3 & E4 & E5). pose proof (stand_plain used e) as Hp.
  pose proof (IH used e' (n_kind n) (n_kind n') (n_info n) (n_info n') Hr) as HK. clear IH.
  revert H1 H2 E1 E2 E3 E4 E5 Hp HK. destruct (stand used e) as [j q]. destruct (stand used e') as [j' q']. intros H1 H2.
  inversion H1 as [i1 i2 k1 k2 A1 A2 A3 A4 A5 A6 A7]; subst. inversion H2 as [i3 i4 k3 k4 B1 B2 B3 B4 B5 B6 B7]; subst. cbn [n_info n_kind].
  intros E1 E2 E3 E4 E5 Hp HK. split; [|congruence]. apply HK; try done. repeat split; try congruence; intros; congruence.
Qed.
Lemma kids_twin u l l' m m' : Forall kinds_twin l -> Forall2 (renamed R) l l' -> Forall2 alike m (map (stand u) l) -> Forall2 alike m' (map (stand u) l') ->
  Forall2 (fun a a' => twin R a a' /\ i_capture (n_info a') = i_capture (n_info a)) m m'.
Proof.
  intros HP HF. revert m m'. induction HF as [|x x' l l' Hx HF IH]; intros m m' H1 H2; cbn [map] in *.
  - inversion H1; inversion H2; subst. constructor.
  - apply Forall_cons in HP as [P1 P2]. inversion H1; inversion H2; subst. constructor; [by eapply kid_twin|by apply IH].
Qed.
Lemma twin_kinds e : kinds_twin e.
Proof.
  induction e as [lb k0 IH] using pexp_ind2. intros used e' k k' i i' Hr. pose proof (looks R _ _ Hr) as _.
  inversion Hr as [lb0 nm nm' Hn Hu|lb0 k1 k1' Hnr Hk]; subst.
  - cbn [stand n_kind kmap]. intros H1 _ H2 _ HI. inversion H1; inversion H2; subst. by constructor.
  - destruct Hk as [s|s|s|t t' l l' HF|l l' HF|v v' j j' mn mx Hv Hj|a a' Ha|a a' Ha|a a' Ha|]; cbn [kids] in IH; try done; rewrite !stand_kids; cbn [kmap uses_labels].
    + intros H1 _ H2 _ HI. inversion H1; inversion H2; subst. by constructor.
    + intros H1 _ H2 _ HI. inversion H1; inversion H2; subst. by constructor.
    + assert (w_type l = w_type l') as <-.
      { unfold w_type. assert (flat_map w_labels l = flat_map w_labels l' /\ map w_captures l = map w_captures l') as [-> ->]; [|done].
        clear -HF. induction HF as [|a a' l l' Ha HF [I1 I2]]; [done|]. destruct (looks R _ _ Ha) as (G1 & G2 & _). cbn [flat_map map]. by rewrite I1, I2, G1, G2. }
      intros H1 T1 H2 T2 HI. inversion H1; inversion H2; subst. cbn [same_type] in T1, T2. subst. constructor; [done|]. by eapply kids_twin.
    + intros H1 _ H2 _ HI. inversion H1; inversion H2; subst. constructor; [done|].
      eapply Forall2_impl; [by eapply kids_twin|]. by intros ? ? [? _].
    + apply Forall_cons in IH as [I1 I2]. intros H1 _ H2 _ HI. inversion H1; inversion H2; subst. constructor; [done|by eapply kid_twin|].
      destruct Hj as [x x' Hx|].
      * apply Forall_cons in I2 as [I2 _]. cbn in *.
        repeat match goal with H : option_Forall2 alike _ (Some _) |- _ => inversion H; clear H; subst end. constructor. by eapply kid_twin.
      * cbn in *. repeat match goal with H : option_Forall2 alike _ None |- _ => inversion H; clear H; subst end. constructor.
    + apply Forall_cons in IH as [I1 I2]. intros H1 _ H2 _ HI. inversion H1; inversion H2; subst. constructor; [done|by eapply kid_twin].
    + apply Forall_cons in IH as [I1 I2]. intros H1 _ H2 _ HI. inversion H1; inversion H2; subst. constructor; [done|by eapply kid_twin].
    + apply Forall_cons in IH as [I1 I2]. intros H1 _ H2 _ HI. inversion H1; inversion H2; subst. constructor; [done|by eapply kid_twin].
    + intros H1 _ H2 _ HI. inversion H1; inversion H2; subst. by constructor.
Qed.
Lemma twin_text e e' nm nm' cb n n' : renamed R e e' -> alike n (as_rule nm cb (stand false e)) -> alike n' (as_rule nm' cb (stand false e')) ->
  i_id (n_info n') = i_id (n_info n) -> i_skip (n_info n') = i_skip (n_info n) -> i_debug (n_info n') = i_debug (n_info n) -> twin R n n'.
Proof.
  intros Hr H1 H2 N1 N2 N3. destruct (stand_infos R false e e' Hr) as (E1 & E2 & E3 & E4 & E5).
  pose proof (twin_kinds e false e' (n_kind n) (n_kind n') (n_info n) (n_info n') Hr) as HK.
  revert H1 H2 E1 E2 E3 E4 E5 HK. destruct (stand false e) as [j q]. destruct (stand false e') as [j' q']. cbn [as_rule]. intros H1 H2.
  inversion H1 as [i1 i2 k1 k2 A1 A2 A3 A4 A5 A6 A7]; subst. inversion H2 as [i3 i4 k3 k4 B1 B2 B3 B4 B5 B6 B7]; subst. cbn [n_info n_kind] in *.
  intros E1 E2 E3 E4 E5 HK. cbn in A1, A3, A4, A5, B1, B3, B4, B5. apply HK; try done. repeat split; try congruence; intros; congruence.
Qed.
End Texts.

Section Decls.
Variable R : string -> string -> Prop.
Variable compile : bytes -> res pexp.
Notation rline := (renamed_line compile R).
Definition decl_twin (d d' : decl) : Prop := R (d_name d) (d_name d') /\ d_opts d = d_opts d' /\
  match d_what d, d_what d' with
  | WText s, WText s' => exists e e', compile s = ROk e /\ compile s' = ROk e' /\ renamed R e e'
  | WRank ls, WRank ls' => Forall2 R (o_names (d_name d) ls 0) (o_names (d_name d') ls' 0)
  | _, _ => False
  end.
Definition made_twin (l : line) : Prop := forall l' nm nm' o, rline false l l' -> Forall2 (nmR R) (decls_of nm o l) (decls_of nm' o l') -> Forall2 decl_twin (decls_of nm o l) (decls_of nm' o l').
Lemma rank_twin ls ls' : Forall (inner_line made_twin) ls -> Forall2 (rline true) ls ls' ->
  (Forall2 (nmR R) (i_decls ls) (i_decls ls') -> Forall2 decl_twin (i_decls ls) (i_decls ls')) /\
  (forall nm nm' i, Forall2 (nmR R) (o_decls nm ls i) (o_decls nm' ls' i) -> Forall2 decl_twin (o_decls nm ls i) (o_decls nm' ls' i)).
Proof.
  intros Hl HF. induction HF as [|l l' ls ls' H HF IHF]; [split; intros; constructor|]. apply Forall_cons in Hl as [H1 H2]. destruct (IHF H2) as [I1 I2].
  inversion H; subst; cbn [i_decls o_decls inner_line] in *; split; try done.
  - intros nm0 nm0' i Hd. apply app_both in Hd as [D1 D2]; [|by eapply len_decls]. apply Forall2_app; [by apply H1|by apply I2].
  - intros Hd. apply app_both in Hd as [D1 D2]; [|by eapply len_decls]. apply Forall2_app; [by apply H1|by apply I1].
Qed.
Lemma decls_twin l : made_twin l /\ inner_line made_twin l.
Proof.
  induction l as [s|a e|ls IH|nm c o [IH _]|nm c o [IH _]] using line_ind2; (split; [|try done]); intros l' nm0 nm0' o0 H HF; inversion H; subst.
  - apply Forall2_cons in HF as [HF _]. constructor; [|constructor]. split; [exact HF|]. split; [done|]. cbn [d_what]. eauto 10.
  - rewrite !decls_of_rank in *. destruct (len_rank R compile _ _ ltac:(eassumption)) as [E1 E2]. apply app_both in HF as [D1 D2]; [|rewrite !app_length, E1; by rewrite (E2 nm0 nm0')].
    apply app_both in D1 as [D1 D3]; [|done]. destruct (rank_twin ls ls') as [R1 R2]; [|done|].
    { eapply Forall_impl; [exact IH|]. by intros x [_ Hx]. }
    apply Forall2_app; [apply Forall2_app; [by apply R1|by apply R2]|]. constructor; [|constructor]. apply Forall2_cons in D2 as [D2 _]. split; [exact D2|]. split; [done|].
    cbn [d_what d_name]. by eapply o_names_ren.
  - cbn [decls_of] in *. by apply IH.
Qed.
Lemma top_twin name ls name' ls' : rline false (LA ls) (LA ls') -> Forall2 (nmR R) (decls name ls) (decls name' ls') ->
  Forall2 decl_twin (decls name ls) (decls name' ls') /\ Forall2 R (o_names name ls 0) (o_names name' ls' 0).
Proof.
  intros H HF. inversion H; subst. rewrite !decls_eq in *. destruct (len_rank R compile _ _ ltac:(eassumption)) as [E1 E2]. apply app_both in HF as [D1 D2]; [|done].
  destruct (rank_twin ls ls') as [R1 R2]; [|done|].
  { apply Forall_true. intros x. apply decls_twin. }
  split; [apply Forall2_app; [by apply R1|by apply R2]|]. by eapply o_names_ren.
Qed.
End Decls.

Section Both.
Variables (compile : bytes -> res pexp) (fuel fuel' : nat) (name : string) (ls : list line) (name' : string) (ls' : list line).
Variables b b' : node * list (string * node).
Hypothesis Hren : renamed_lines compile name ls name' ls'.
Hypothesis Hb : build compile fuel name ls = ROk b.
Hypothesis Hb' : build compile fuel' name' ls' = ROk b'.
Hypothesis Hw : in_words compile name ls.
Hypothesis Hw' : in_words compile name' ls'.
Let R := stands_for name ls name' ls'.
Lemma same_row (c : node * list (string * node)) nm0 ls0 f i d a : build compile f nm0 ls0 = ROk c -> in_words compile nm0 ls0 ->
  decls nm0 ls0 !! i = Some d -> (d_name d, a) ∈ snd c -> snd c !! i = Some (d_name d, a).
Proof.
  intros HB HW Hi Ha. apply elem_of_list_lookup in Ha as [j Hj]. pose proof (table_names _ _ _ _ _ HB HW) as HT. pose proof (iw_names _ _ _ HW) as Hnd.
  assert (i = j) as ->; [|done]. eapply NoDup_lookup; [exact Hnd| |rewrite <- HT; rewrite list_lookup_fmap, Hj; reflexivity]. by rewrite list_lookup_fmap, Hi.
Qed.
Definition rows_twin (m : node) : Prop := forall i nm nm' m', snd b !! i = Some (nm, m) -> snd b' !! i = Some (nm', m') -> twin R m m'.
Lemma alts_twin alts alts' names names' : Forall2 R names names' -> i_name ∘ n_info <$> alts = names -> i_name ∘ n_info <$> alts' = names' ->
  Forall (fun a => (i_name (n_info a), a) ∈ snd b) alts -> Forall (fun a => (i_name (n_info a), a) ∈ snd b') alts' ->
  (forall a, a ∈ alts -> rows_twin a) -> Forall2 (twin R) alts alts'.
Proof.
  intros HF <- <- H1 H2 HP. apply Forall2_fmap_1 in HF. induction HF as [|a a' l l' Ha HF IH]; [constructor|].
  apply Forall_cons in H1 as [A1 H1]. apply Forall_cons in H2 as [A2 H2]. constructor.
  - destruct Ha as (j & d & d' & J1 & J2 & J3 & J4). cbn in J3, J4. rewrite <- J3 in A1. rewrite <- J4 in A2.
    eapply (HP a); [by left|by eapply same_row|by eapply same_row].
  - apply IH; [done|done|]. intros x Hx. apply HP. by right.
Qed.
Lemma all_rows : forall m, rows_twin m.
Proof.
  assert (HN : Forall2 (nmR R) (decls name ls) (decls name' ls')).
  { apply Forall2_same_length_lookup_2; [by eapply top_len|]. intros i d d' H1 H2. by exists i, d, d'. }
  destruct (top_twin R compile name ls name' ls' Hren HN) as [HD _]. clear HN.
  destruct (named _ _ _ _ _ Hb (iw_once _ _ _ Hw) (iw_single _ _ _ Hw) (iw_name _ _ _ Hw)) as [HF _].
  destruct (named _ _ _ _ _ Hb' (iw_once _ _ _ Hw') (iw_single _ _ _ Hw') (iw_name _ _ _ Hw')) as [HF' _].
  destruct (numbered _ _ _ _ _ Hb (iw_once _ _ _ Hw)) as [HI _]. destruct (numbered _ _ _ _ _ Hb' (iw_once _ _ _ Hw')) as [HI' _].
  pose proof (built_texts _ _ _ _ _ Hb Hw) as HT. pose proof (built_texts _ _ _ _ _ Hb' Hw') as HT'.
  intros m. induction m as [m IH] using Toy.node_ind2. intros i nm nm' m' Hm Hm'.
  destruct (Forall2_lookup_r _ _ _ _ _ HF Hm) as (d & Hd & N1 & C1 & C2 & C3). destruct (Forall2_lookup_r _ _ _ _ _ HF' Hm') as (d' & Hd' & N1' & C1' & C2' & C3').
  pose proof (Forall2_lookup_lr _ _ _ _ _ _ HT Hd Hm) as T. pose proof (Forall2_lookup_lr _ _ _ _ _ _ HT' Hd' Hm') as T'.
  destruct (Forall2_lookup_lr _ _ _ _ _ _ HD Hd Hd') as (_ & Ho & Hs). destruct (HI _ _ _ Hm) as [I1 _]. destruct (HI' _ _ _ Hm') as [I1' _].
  cbn [fst snd] in *. destruct (d_what d) as [s|a e|l], (d_what d') as [s'|a' e'|l']; try done.
  - destruct Hs as (e & e' & K1 & K2 & K3). destruct T as (e0 & K4 & K5). destruct T' as (e0' & K4' & K5'). rewrite K1 in K4. rewrite K2 in K4'.
    injection K4 as <-. injection K4' as <-. destruct C3 as (_ & _ & _ & S1 & S2 & S3). destruct C3' as (_ & _ & _ & S1' & S2' & S3').
    rewrite Ho in *. eapply twin_text; [exact K3|exact K5|exact K5'| | |]; congruence.
  - destruct C3 as (L1 & L2 & L3 & L4 & alts & L5 & L6 & L7). destruct C3' as (L1' & L2' & L3' & L4' & alts' & L5' & L6' & L7').
    assert (Forall2 (twin R) alts alts') as HA.
    { eapply alts_twin; [exact Hs|done|done|done|done|]. intros x Hx. apply IH. unfold children. by rewrite L5. }
    destruct m as [j k], m' as [j' k']. cbn [n_info n_kind] in *. subst k k'. constructor; [|done]. rewrite Ho in *. repeat split; try congruence; intros; congruence.
Qed.
Lemma lines_twins : twins R (gram_of b) (gram_of b').
Proof.
  assert (HN : Forall2 (nmR R) (decls name ls) (decls name' ls')).
  { apply Forall2_same_length_lookup_2; [by eapply top_len|]. intros i d d' H1 H2. by exists i, d, d'. }
  destruct (top_twin R compile name ls name' ls' Hren HN) as [_ HO].
  destruct (named _ _ _ _ _ Hb (iw_once _ _ _ Hw) (iw_single _ _ _ Hw) (iw_name _ _ _ Hw)) as [HF (alts & L1 & L2 & L3 & L4 & L5 & L6)].
  destruct (named _ _ _ _ _ Hb' (iw_once _ _ _ Hw') (iw_single _ _ _ Hw') (iw_name _ _ _ Hw')) as [HF' (alts' & L1' & L2' & L3' & L4' & L5' & L6')].
  split; [|split; [done|split; [done|split; [done|split]]]].
  - cbn [gram_of g_nrules]. rewrite <- (Forall2_length _ _ _ HF), <- (Forall2_length _ _ _ HF'). symmetry. by eapply Forall2_length.
  - cbn [gram_of g_rank]. assert (Forall2 (twin R) alts alts') as HA.
    { eapply alts_twin; [exact HO|done|done|done|done|]. intros x _. apply all_rows. }
    destruct (fst b) as [j k], (fst b') as [j' k']. cbn [n_info n_kind] in *. subst k k'. constructor; [|done]. repeat split; try congruence; intros; congruence.
  - intros nm nm' (i & d & d' & H1 & H2 & <- & <-).
    destruct (Forall2_lookup_l _ _ _ _ _ HF H1) as ([x m] & Q1 & Q2 & _). destruct (Forall2_lookup_l _ _ _ _ _ HF' H2) as ([x' m'] & Q1' & Q2' & _).
    cbn [fst] in Q2, Q2'. subst x x'. unfold both_find.
    rewrite (table_rule _ _ _ _ _ Hb Hw (d_name d) m) by (by eapply elem_of_list_lookup_2).
    rewrite (table_rule _ _ _ _ _ Hb' Hw' (d_name d') m') by (by eapply elem_of_list_lookup_2). by eapply all_rows.
Qed.
Lemma lines_outcome f o rx cb cb' c : cb_like false cb cb' ->
  outcome_like false (fst (gram_parse f (gram_of b) o rx cb c)) (fst (gram_parse f (gram_of b') o rx cb' c)) /\
  snd (gram_parse f (gram_of b) o rx cb c) = snd (gram_parse f (gram_of b') o rx cb' c) /\
  parse_message f (gram_of b) o rx cb c = parse_message f (gram_of b') o rx cb' c.
Proof.
  intros HC. destruct (twins_parse R _ _ f o rx cb cb' c lines_twins HC) as [H1 H2]. split; [done|]. split; [done|].
  exact (twins_message R _ _ f o rx cb cb' c lines_twins HC).
Qed.
End Both.
