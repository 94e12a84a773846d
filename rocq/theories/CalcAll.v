(** The calculator on texts that are not expressions. *)
From stdpp Require Import sets.
From Verif Require Import Base Helpers Utf8 Stream StreamSpec Native Engine EngSpec EngInv Toy Peg PegRep PegBody PegStd PegStdProofs RunSpec PegRun Build BuildSpec BuildMain
  Joeson JoesonSpec JoesonRun Calc CalcRun CalcSpec CalcPeg CalcMain Brave Gives LispReadWhole CalcAllSpec.
Local Open Scope list_scope.

Lemma prints_deeper l d e s : prints l d e s -> forall d', d <= d' -> prints l d' e s.
Proof.
  induction 1 as [d z s H|d e s w w' Hw Hw' H IH|l d e s H IH|l d o a b s w w' s' Ho Hw Hw' Ha IHa Hb IHb]; intros d' Hd.
  - by constructor.
  - destruct d' as [|d']; [lia|]. constructor; [done..|]. apply IH. lia.
  - constructor. by apply IH.
  - constructor; try done; [by apply IHa|by apply IHb].
Qed.
Lemma opens_app a b : opens (a ++ b) = opens a + opens b.
Proof. unfold opens. by rewrite filter_app, app_length. Qed.
Lemma opens_paren s : opens (40%N :: s) = S (opens s).
Proof. done. Qed.
Lemma split_blank s : exists w r, s = w ++ r /\ blank w /\ not_blank r.
Proof.
  induction s as [|b s IH]; [exists [], []; split; [done|]; split; [constructor|by intros ?]|]. destruct (blank_b b) eqn:E.
  - destruct IH as (w & r & -> & Hw & Hr). exists (b :: w), r. split; [done|]. split; [|done]. constructor; [|done].
    unfold blank_b in E. apply orb_prop in E as [E|E]; apply N.eqb_eq in E; tauto.
  - exists [], (b :: s). split; [done|]. split; [constructor|]. by intros c [= <-].
Qed.
Lemma digit_bool b : digit_b b = true -> is_digit b.
Proof. unfold digit_b, is_digit. intros [H1 H2]%andb_prop. apply N.leb_le in H1, H2. lia. Qed.
Lemma split_digits s : exists u r, s = u ++ r /\ Forall is_digit u /\ (forall b, head r = Some b -> ~ is_digit b) /\ run_len digit_b s = length u.
Proof.
  induction s as [|b s IH]; [by exists [], []|]. destruct (digit_b b) eqn:E.
  - destruct IH as (u & r & -> & Hu & Hr & HL). exists (b :: u), r. split; [done|]. split; [constructor; [by apply digit_bool|done]|].
    split; [done|]. cbn. by rewrite E, HL.
  - exists [], (b :: s). split; [done|]. split; [constructor|]. split; [|cbn; by rewrite E]. intros c [= <-] Hd. unfold is_digit in Hd. unfold digit_b in E.
    apply andb_false_iff in E as [E|E]; apply N.leb_gt in E; lia.
Qed.
(** A number at the start of a text, or none. *)
Lemma split_number s : (exists u z r, s = u ++ r /\ numeral u z /\ forall b, head r = Some b -> ~ is_digit b) \/ calc_rx re_number s = None.
Proof.
  assert (forall k ds, (match run_len digit_b ds with O => None | n => Some (0, k + n) end = None) \/
    exists u r, ds = u ++ r /\ u <> [] /\ Forall is_digit u /\ forall b, head r = Some b -> ~ is_digit b) as HD.
  { intros k ds. destruct (split_digits ds) as (u & r & -> & Hu & Hr & ->). destruct u as [|b u]; [by left|right]. by exists (b :: u), r. }
  destruct (decide (head s = Some 45%N)) as [H|H].
  - destruct s as [|b s]; [done|]. injection H as ->. destruct (HD 1 s) as [H|(u & r & -> & Hn & Hu & Hr)].
    + right. exact H.
    + left. exists (45%N :: u), (- decimal u)%Z, r. split; [done|]. split; [by constructor|done].
  - destruct (HD 0 s) as [H0|(u & r & -> & Hn & Hu & Hr)].
    + right. unfold calc_rx. change (bytes_eqb re_number re_blank) with false. change (bytes_eqb re_number re_number) with true. cbv iota.
      rewrite <- H0. destruct s as [|[|c] s]; try reflexivity. do 6 (try (destruct c as [c|c|])); try reflexivity. done.
    + left. exists u, (decimal u), r. split; [done|]. split; [by constructor|done].
Qed.

Lemma sign_cases l b : (exists o, level o = S l /\ b = sign o) \/ forall o, level o = S l -> b <> sign o.
Proof.
  assert (forall o, level o = S l /\ b = sign o \/ ~ (level o = S l /\ b = sign o)) as HD.
  { intros o. destruct (decide (level o = S l)); [|right; tauto]. destruct (decide (b = sign o)); [left|right]; tauto. }
  destruct (HD APlus), (HD AMinus), (HD ATimes), (HD AOver); try (left; eexists; eassumption). right. intros [] Ho Hb; tauto.
Qed.
Section Text.
Variable t : option nat.
Variable text : bytes.
(** Expressions in the text have values, or the callbacks never panic. *)
Hypothesis Hval : forall e a u b d, text = a ++ u ++ b -> prints 2 d e u -> exists v, val_of t e = Some v.
Notation rules := (g_rule (gram_of calc)).
Notation gives := (Gives.gives rules calc_rx (calc_cbf t) text).
Notation at_ := (Gives.at_ text).

Lemma prints_up l d e u : prints l d e u -> l <= 2 -> prints 2 d e u.
Proof. intros H Hl. destruct l as [|[|[|l]]]; [by apply pr_up, pr_up|by apply pr_up|done|lia]. Qed.
Lemma val_some l d e u p rest : at_ p (u ++ rest) -> l <= 2 -> prints l d e u -> exists v, val_of t e = Some v.
Proof.
  intros Hp Hl H. eapply (Hval e (take p text) u rest d); [|by eapply prints_up]. unfold Gives.at_ in Hp. by rewrite <- Hp, take_drop.
Qed.

(** What an outcome says of the text. *)
Definition sound (l p : nat) (s : bytes) (r : result) : Prop :=
  match r with
  | None => True
  | Some (v, q) => exists e u rest, s = u ++ rest /\ q = p + length u /\ prints l (opens u) e u /\ val_of t e = Some v
  end.

(** ** Operators and operands in turn *)
Section Chain.
Variables (l D n : nat) (opd : string) (m : node).
Hypothesis Hl : l < 2.
Hypothesis Hm : rules opd = Some m.
Variable need : nat.
Hypothesis Hopd : forall s p, length s <= n -> 3 * opens s + need <= S D -> at_ p s -> exists r, gives (S D) m p r /\ sound l p s r.

Lemma no_sign b p s : at_ p (b :: s) -> (forall o, level o = S l -> b <> sign o) -> gives (S D) (op_rule l) p None.
Proof.
  intros Hp Hb. assert (forall c, b <> c -> gives D (n_lit c) p None) as Hno.
  { intros c Hc. eapply (gives_no_lit t text D "" false true c p); [by left|exact Hp|]. cbn. congruence. }
  destruct l as [|[|]]; [| |lia]; (apply (gives_rl t text); [discriminate|]); eapply (alt_second t text); apply Hno.
  - by apply (Hb ATimes).
  - by apply (Hb AOver).
  - by apply (Hb APlus).
  - by apply (Hb AMinus).
Qed.
Lemma no_sign_end p : at_ p [] -> gives (S D) (op_rule l) p None.
Proof.
  intros Hp. assert (forall c, gives D (n_lit c) p None) as Hno.
  { intros c. eapply (gives_no_lit t text D "" false true c p); [by left|exact Hp|]. done. }
  destruct l as [|[|]]; [| |lia]; (apply (gives_rl t text); [discriminate|]); eapply (alt_second t text); apply Hno.
Qed.
Lemma sign_or_not p s : at_ p s -> (exists o s', s = sign o :: s' /\ level o = S l) \/ gives (S D) (op_rule l) p None.
Proof.
  intros Hp. destruct s as [|b s]; [right; by apply no_sign_end|].
  destruct (sign_cases l b) as [(o & Ho & ->)|H].
  - left. by exists o, s.
  - right. eapply no_sign; [exact Hp|]. intros o Ho ->. by eapply H.
Qed.
(** One more, or none. *)
Lemma pair_total p s : length s <= n -> 3 * opens s + need <= S D -> at_ p s ->
  gives (S D) (n_pair (op_name l) opd) p None \/
  exists i v rest, s = it_text i ++ rest /\ it_ok l (opens (it_text i)) i /\ it_val t i v /\
    gives (S D) (n_pair (op_name l) opd) p (Some (it_pair i v, p + length (it_text i))).
Proof.
  intros Hn HD Hp. destruct (split_blank s) as (w & r & -> & Hw & Hr).
  destruct (gives_sp t text D w r p Hw Hr Hp) as [v1 H1]. pose proof (Gives.at_app _ _ _ _ Hp) as Hp1.
  destruct (sign_or_not _ _ Hp1) as [(o & s1 & -> & Ho)|H2].
  2:{ left. eapply (gives_no_pair t text); [apply op_rules|exact H1|exact H2]. }
  pose proof (gives_op t text D l o _ _ Ho Hp1) as H2. apply Gives.at_cons in Hp1.
  destruct (split_blank s1) as (w' & s2 & -> & Hw' & Hs2).
  destruct (gives_sp t text D w' s2 _ Hw' Hs2 Hp1) as [v3 H3]. apply Gives.at_app in Hp1.
  destruct (Hopd s2 _ ltac:(rewrite !app_length in Hn; cbn in Hn; rewrite app_length in Hn; lia)
    ltac:(rewrite opens_app in HD; change (sign o :: w' ++ s2) with ([sign o] ++ w' ++ s2) in HD; rewrite !opens_app in HD; lia) Hp1) as (rr & H4 & Hs).
  destruct rr as [[v q]|].
  - right. destruct Hs as (e & u & rest & -> & -> & Hpr & Hv). exists (w, o, w', e, u), v, rest. cbn [it_text it_ok it_val it_pair].
    split; [by rewrite <- !app_assoc|]. split.
    { split; [done|]. split; [done|]. split; [done|]. eapply prints_deeper; [exact Hpr|]. rewrite !opens_app. lia. }
    split; [done|].
    replace (p + length (w ++ [sign o] ++ w' ++ u)) with (S (p + length w) + length w' + length u) by (rewrite !app_length; cbn; lia).
    eapply (gives_pair t text); [apply op_rules|exact Hm|exact H1|exact H2|exact H3|exact H4].
  - left. apply gives_bare; [done|done|by split; [|left]|]. eapply does_array; [reflexivity|].
    eapply arrays_cons; [exact H1|]. cbn [n_info nd n_sp i_capture].
    eapply arrays_cons; [eapply (gives_ref t text (S D) "" true false); [by left|apply op_rules|exact H2]|]. cbn [n_info nd rf i_capture].
    eapply arrays_cons; [exact H3|]. cbn [n_info nd n_sp i_capture].
    apply arrays_fail. eapply (gives_ref t text (S D) "" true false); [by left|exact Hm|exact H4].
Qed.
Lemma it_nonempty i : 0 < length (it_text i).
Proof. destruct i as [[[[w o] w'] e] u]. cbn [it_text]. rewrite !app_length. cbn. lia. Qed.
Lemma it_ok_deeper d d' i : d <= d' -> it_ok l d i -> it_ok l d' i.
Proof. destruct i as [[[[w o] w'] e] u]. cbn. intros Hd (? & ? & ? & ?). repeat split; try done. by eapply prints_deeper. Qed.

Lemma loops_total j : forall p s acc, length s <= j -> length s <= n -> 3 * opens s + need <= S D -> at_ p s ->
  exists its vs rest, s = mjoin (it_text <$> its) ++ rest /\ Forall (it_ok l (opens (mjoin (it_text <$> its)))) its /\ Forall2 (it_val t) its vs /\
    Gives.loops rules calc_rx (calc_cbf t) text (S D) (n_pair (op_name l) opd) None (-1) acc p (acc ++ zip_with it_pair its vs) (p + length (mjoin (it_text <$> its))).
Proof.
  induction j as [|j IH]; intros p s acc Hj Hn HD Hp; (destruct (pair_total p s Hn HD Hp) as [H|(i & v & rest & -> & Hok & Hv & H)];
    [exists [], [], s; split; [done|]; split; [constructor|]; split; [constructor|]; cbn; rewrite app_nil_r, Nat.add_0_r; by apply Gives.loops_end|]).
  { rewrite app_length in Hj. pose proof (it_nonempty i). lia. }
  apply Gives.at_app in Hp. rewrite app_length in Hj, Hn. rewrite opens_app in HD. pose proof (it_nonempty i).
  destruct (IH _ rest (acc ++ [it_pair i v]) ltac:(lia) ltac:(lia) ltac:(lia) Hp) as (its & vs & rest' & -> & Hoks & Hvs & HL).
  exists (i :: its), (v :: vs), rest'. cbn [fmap list_fmap mjoin list_join zip_with]. split; [by rewrite <- app_assoc|].
  split.
  { constructor; [eapply it_ok_deeper; [|exact Hok]; rewrite opens_app; apply Nat.le_add_r|]. eapply Forall_impl; [exact Hoks|]. intros x. apply it_ok_deeper. rewrite opens_app. apply Nat.le_add_l. }
  split; [by constructor|]. rewrite app_length, Nat.add_assoc. eapply Gives.loops_more; [exact H|done|].
  rewrite <- app_assoc in HL. exact HL.
Qed.
Lemma rest_total p s : length s <= n -> 3 * opens s + need <= S D -> at_ p s ->
  exists its vs rest, s = mjoin (it_text <$> its) ++ rest /\ Forall (it_ok l (opens (mjoin (it_text <$> its)))) its /\ Forall2 (it_val t) its vs /\
    gives (S D) (n_rest (op_name l) opd) p (Some (VArr (zip_with it_pair its vs), p + length (mjoin (it_text <$> its)))).
Proof.
  intros Hn HD Hp. destruct (pair_total p s Hn HD Hp) as [H|(i & v & rest & -> & Hok & Hv & H)].
  - exists [], [], s. split; [done|]. split; [constructor|]. split; [constructor|]. cbn. rewrite Nat.add_0_r.
    apply gives_bare; [done|done|by split; [|right]|]. exact (does_pat_none _ _ _ _ _ (n_rest (op_name l) opd) _ _ _ _ _ eq_refl H).
  - apply Gives.at_app in Hp. rewrite app_length in Hn. rewrite opens_app in HD. pose proof (it_nonempty i).
    destruct (loops_total (length rest) _ rest [it_pair i v] ltac:(lia) ltac:(lia) ltac:(lia) Hp) as (its & vs & rest' & -> & Hoks & Hvs & HL).
    exists (i :: its), (v :: vs), rest'. cbn [fmap list_fmap mjoin list_join zip_with]. split; [by rewrite <- app_assoc|].
    split.
    { constructor; [eapply it_ok_deeper; [|exact Hok]; rewrite opens_app; apply Nat.le_add_r|]. eapply Forall_impl; [exact Hoks|]. intros x. apply it_ok_deeper. rewrite opens_app. apply Nat.le_add_l. }
    split; [by constructor|]. rewrite app_length, Nat.add_assoc.
    apply gives_bare; [done|done|by split; [|right]|]. exact (does_pat_some _ _ _ _ _ (n_rest (op_name l) opd) _ _ _ _ _ _ _ _ _ eq_refl H HL).
Qed.
(** The tree of operands and operators. *)
Lemma chain_prints its : forall d e0 s0, Forall (it_ok l d) its -> prints (S l) d e0 s0 ->
  prints (S l) d (fold_left it_join its e0) (s0 ++ mjoin (it_text <$> its)).
Proof.
  induction its as [|[[[[w o] w'] e] u] its IH]; intros d e0 s0 Hok H0; cbn [fold_left fmap list_fmap mjoin list_join]; [by rewrite app_nil_r|].
  apply Forall_cons in Hok as [(Hw & Hw' & Ho & He) Hok]. rewrite app_assoc. apply IH; [done|]. cbn [it_join it_text]. by constructor.
Qed.
End Chain.

(** ** Terms, expressions, factors *)
Definition all_factors (n : nat) : Prop := forall D s p, length s <= n -> 3 * opens s + 2 <= D -> at_ p s -> exists r, gives D r_factor p r /\ sound 0 p s r.
Definition all_terms (n : nat) : Prop := forall D s p, length s <= n -> 3 * opens s + 3 <= D -> at_ p s -> exists r, gives D r_term p r /\ sound 1 p s r.
Definition esound (p : nat) (s : bytes) (r : result) : Prop :=
  match r with
  | None => True
  | Some (v, q) => exists e w u w' rest, s = (w ++ u ++ w') ++ rest /\ q = p + length (w ++ u ++ w') /\ blank w /\ blank w' /\ prints 2 (opens u) e u /\ val_of t e = Some v
  end.
Definition all_exprs (n : nat) : Prop := forall D s p, length s <= n -> 3 * opens s + 4 <= D -> at_ p s -> exists r, gives D r_expr p r /\ esound p s r.

Lemma terms_total n : all_factors n -> all_terms n.
Proof.
  intros HF D s p Hn HD Hp. destruct D as [|[|D]]; [lia..|].
  assert (forall s p, length s <= n -> 3 * opens s + 2 <= S D -> at_ p s -> exists r, gives (S D) r_factor p r /\ sound 0 p s r) as HF' by (intros; by apply HF).
  destruct (HF' s p Hn ltac:(lia) Hp) as (r & H1 & Hs). apply (gives_ref t text (S D) "first" true false "Factor") in H1; [|by right|done].
  destruct r as [[v0 q]|].
  2:{ exists None. split; [|done]. eapply (gives_rule _ _ _ _ _ _ _ None); [done|done| |done]. eapply does_object; [reflexivity|]. apply objects_fail. exact H1. }
  destruct Hs as (e0 & u & rest & -> & -> & Hpr & Hv0). pose proof (Gives.at_app _ _ _ _ Hp) as Hp1. rewrite app_length in Hn. rewrite opens_app in HD.
  destruct (rest_total 0 D n "Factor" r_factor ltac:(lia) eq_refl 2 HF' _ rest ltac:(lia) ltac:(lia) Hp1) as (its & vs & rest' & -> & Hok & Hvs & H2).
  assert (prints 1 (opens (u ++ mjoin (it_text <$> its))) (fold_left it_join its e0) (u ++ mjoin (it_text <$> its))) as HP.
  { rewrite opens_app. apply (chain_prints 0); [eapply Forall_impl; [exact Hok|]; intros x; apply it_ok_deeper; lia|].
    constructor. eapply prints_deeper; [exact Hpr|lia]. }
  rewrite app_assoc in Hp. destruct (val_some 1 _ _ _ _ _ Hp ltac:(lia) HP) as [v Hv].
  exists (Some (v, p + length u + length (mjoin (it_text <$> its)))). split.
  - eapply gives_rule; [done|done| |].
    + eapply does_object; [reflexivity|]. eapply objects_cons; [exact H1|reflexivity|]. eapply objects_cons; [exact H2|reflexivity|]. apply objects_nil.
    + unfold prepared. cbn [n_info r_term rl i_cb]. by rewrite (fold_cb t its vs e0 v0 v _ Hvs Hv0 Hv).
  - exists (fold_left it_join its e0), (u ++ mjoin (it_text <$> its)), rest'. split; [by rewrite <- app_assoc|]. split; [rewrite app_length; lia|]. done.
Qed.
Lemma exprs_total n : all_terms n -> all_exprs n.
Proof.
  intros HT D s p Hn HD Hp. destruct D as [|[|D]]; [lia..|].
  assert (forall s p, length s <= n -> 3 * opens s + 3 <= S D -> at_ p s -> exists r, gives (S D) r_term p r /\ sound 1 p s r) as HT' by (intros; by apply HT).
  destruct (split_blank s) as (w & s1 & -> & Hw & Hs1). destruct (gives_sp t text D w s1 p Hw Hs1 Hp) as [v1 H0].
  apply Gives.at_app in Hp. rewrite app_length in Hn. rewrite opens_app in HD.
  destruct (HT' s1 _ ltac:(lia) ltac:(lia) Hp) as (r & H1 & Hs). apply (gives_ref t text (S D) "first" true false "Term") in H1; [|by right|done].
  destruct r as [[v0 q]|].
  2:{ exists None. split; [|done]. eapply (gives_rule _ _ _ _ _ _ _ None); [done|done| |done]. eapply does_object; [reflexivity|]. eapply objects_cons; [exact H0|reflexivity|]. apply objects_fail. exact H1. }
  destruct Hs as (e0 & u & rest & -> & -> & Hpr & Hv0). pose proof Hp as Hp0. apply Gives.at_app in Hp. rewrite app_length in Hn. rewrite opens_app in HD.
  destruct (rest_total 1 D n "Term" r_term ltac:(lia) eq_refl 3 HT' _ rest ltac:(lia) ltac:(lia) Hp) as (its & vs & rest' & -> & Hok & Hvs & H2).
  assert (prints 2 (opens (u ++ mjoin (it_text <$> its))) (fold_left it_join its e0) (u ++ mjoin (it_text <$> its))) as HP.
  { rewrite opens_app. apply (chain_prints 1); [eapply Forall_impl; [exact Hok|]; intros x; apply it_ok_deeper; lia|].
    constructor. eapply prints_deeper; [exact Hpr|lia]. }
  rewrite app_assoc in Hp0. destruct (val_some 2 _ _ _ _ _ Hp0 ltac:(lia) HP) as [v Hv].
  apply Gives.at_app in Hp. destruct (split_blank rest') as (w' & rest & -> & Hw' & Hr). destruct (gives_sp t text D w' rest _ Hw' Hr Hp) as [v3 H3].
  exists (Some (v, p + length w + length u + length (mjoin (it_text <$> its)) + length w')). split.
  - eapply gives_rule; [done|done| |].
    + eapply does_object; [reflexivity|]. eapply objects_cons; [exact H0|reflexivity|]. eapply objects_cons; [exact H1|reflexivity|]. eapply objects_cons; [exact H2|reflexivity|].
      eapply objects_cons; [exact H3|reflexivity|]. apply objects_nil.
    + unfold prepared. cbn [n_info r_expr rl i_cb]. by rewrite (fold_cb t its vs e0 v0 v _ Hvs Hv0 Hv).
  - exists (fold_left it_join its e0), w, (u ++ mjoin (it_text <$> its)), w', rest. split; [by rewrite <- !app_assoc|]. split; [rewrite !app_length; lia|]. done.
Qed.
Lemma integer_total D s p : at_ p s -> exists r, gives (S D) r_integer p r /\ sound 0 p s r /\ (head s = Some 40%N -> r = None).
Proof.
  intros Hp. destruct (split_number s) as [(u & z & r & -> & Hn & Hr)|H].
  - destruct (val_some 0 0 (Num z) u _ _ Hp ltac:(lia) ltac:(by constructor)) as [v Hv]. exists (Some (v, p + length u)). split; [|split].
    + eapply (gives_rl_cb t text); [discriminate| |].
      * exists 0. intros f _. cbn [std_body rl n_kind]. unfold rgx. unfold Gives.at_ in Hp. rewrite Hp.
        rewrite (rx_number u z) by done. rewrite take_app. reflexivity.
      * unfold calc_cbf, calc_val. rewrite (atoi_numeral u z Hn). unfold val_of in Hv. cbn [value] in Hv. destruct (fits z); cbn; [by injection Hv as <-|].
        destruct t; [by injection Hv as <-|done].
    + exists (Num z), u, r. split; [done|]. split; [done|]. split; [by constructor|done].
    + intros Hh. exfalso. by eapply numeral_head in Hh.
  - exists None. split; [|done]. eapply (gives_rule _ _ _ _ _ _ _ None); [done|done| |done]. eapply does_regex; [reflexivity|]. unfold rgx. unfold Gives.at_ in Hp. by rewrite Hp, H.
Qed.
Lemma factors_total n : (forall n', n' < n -> all_exprs n') -> all_factors n.
Proof.
  intros IH D s p Hn HD Hp. destruct D as [|[|D]]; [lia..|].
  destruct (integer_total D s p Hp) as (ri & HI & Hsi & Hh). apply (gives_ref t text (S D) "" true true "Integer") in HI; [|by left|done].
  assert (gives (S D) n_paren p None -> exists r, gives (S (S D)) r_factor p r /\ sound 0 p s r) as Hnot.
  { intros H1. exists ri. split; [|done]. apply gives_bare_rule; [done|done|by split; [|left]|]. eapply does_choice; [reflexivity|].
    apply alts_next; [exact H1|]. destruct ri as [[]|]; [apply alts_take|apply alts_next; [|apply alts_nil]]; exact HI. }
  destruct (decide (head s = Some 40%N)) as [Hs|Hs].
  2:{ apply Hnot. eapply (gives_no_paren t text); [exact Hp|done]. }
  destruct s as [|b s]; [done|]. injection Hs as ->.
  pose proof (gives_lit t text (S D) "" false false [40%N] p s (or_introl eq_refl) Hp) as H1. rewrite Nat.add_1_r in H1.
  pose proof (Gives.at_cons _ _ _ _ Hp) as Hp1. cbn [length] in Hn. rewrite opens_paren in HD.
  destruct (IH (length s) ltac:(lia) (S D) s (S p) ltac:(lia) ltac:(lia) Hp1) as (r & H2 & He). apply (gives_ref t text (S D) "" true false "Expr") in H2; [|by left|done].
  destruct r as [[v q]|].
  2:{ apply Hnot. apply gives_bare; [done|done|by split; [|left]|]. eapply does_single; [reflexivity|]. eapply singles_cons; [exact H1|]. apply singles_fail. exact H2. }
  destruct He as (e & w & u & w' & rest & -> & -> & Hw & Hw' & Hpr & Hv). apply Gives.at_app in Hp1.
  destruct (decide (head rest = Some 41%N)) as [Hc|Hc].
  - destruct rest as [|b rest]; [done|]. injection Hc as ->.
    pose proof (gives_lit t text (S D) "" false false [41%N] _ rest (or_introl eq_refl) Hp1) as H3.
    exists (Some (v, S p + length (w ++ u ++ w') + 1)). split.
    + apply gives_bare_rule; [done|done|by split; [|left]|]. eapply does_choice; [reflexivity|]. apply alts_take.
      apply (gives_single3 t text (S D) _ _ _ _ _ _ _ _ _ _ _ _ H1 H2 H3).
    + exists e, ([40%N] ++ w ++ u ++ w' ++ [41%N]), rest. split; [cbn; by rewrite <- !app_assoc|]. split; [rewrite !app_length; cbn; rewrite ?app_length; cbn; lia|]. split; [|done].
      eapply prints_deeper; [constructor; [exact Hw|exact Hw'|exact Hpr]|]. cbn [app]. rewrite opens_paren, !opens_app. lia.
  - apply Hnot. pose proof (gives_no_lit t text (S D) "" false false 41 _ rest (or_introl eq_refl) Hp1 Hc) as H3.
    apply gives_bare; [done|done|by split; [|left]|]. eapply does_single; [reflexivity|]. eapply singles_cons; [exact H1|].
    eapply singles_cons; [exact H2|]. apply singles_fail. exact H3.
Qed.
Lemma every_expr n : all_exprs n.
Proof. induction n as [n IH] using lt_wf_ind. by apply exprs_total, terms_total, factors_total. Qed.
End Text.

(** ** Whole texts *)
Section Whole.
Variable t : option nat.
Variable text : bytes.
Variable o : popts.
Hypothesis Ho : po_debug o = false.
Notation g := (gram_of calc).
Notation E := (mk_env g o calc_rx (calc_cb_with t)).
Notation gives := (Gives.gives (g_rule g) calc_rx (calc_cbf t) text).

Lemma expr_run d r : gives d r_expr 0 r -> d <= stack_limit -> exists fuel0, forall fuel, fuel0 <= fuel ->
  match r with
  | Some (v, e) =>
      if e =? length text then exists x s', fst (parse_string fuel g o calc_rx (calc_cb_with t) text) = Ok (Some x) s' /\ rep [] (s_heap s') x v
      else exists k s', fst (parse_string fuel g o calc_rx (calc_cb_with t) text) = Ok (Some (AErr k)) s' /\ e <= k <= length text
  | None =>
      if 0 =? length text then exists s', fst (parse_string fuel g o calc_rx (calc_cb_with t) text) = Ok None s'
      else exists k s', fst (parse_string fuel g o calc_rx (calc_cb_with t) text) = Ok (Some (AErr k)) s' /\ k <= length text
  end.
Proof.
  intros HG Hd. destruct (calc_ready t o) as (H1 & [R HR] & H3).
  assert (textbook E (calc_cbf t) text n_top 0 r) as HT.
  { apply (Gives.gives_deeper _ _ _ _ _ stack_limit) in HG; [|done].
    assert (gives stack_limit n_top 0 r) as [f0 H].
    { apply gives_bare; [done|done|by split; [|left]|]. eapply does_choice; [reflexivity|]. destruct r as [[]|]; [by apply alts_take|].
      apply alts_next; [done|]. apply alts_nil. }
    exists f0. apply H. lia. }
  pose proof (textbook_meaning E n_top (CRune (new_rune_stream text)) (calc_cbf t) R n_top 0 _ HR ltac:(constructor) HT) as HM.
  exact (gram_meaning g calc_rx (calc_cb_with t) o (calc_cbf t) (calc_grammar t o Ho) H3 R (fun _ => None) HR ltac:(done) _ _ (rune_code_ok _) eq_refl HM).
Qed.
Lemma reads_text e v : calc_text e text -> val_of t e = Some v -> exists d, gives d r_expr 0 (Some (v, length text)).
Proof.
  intros (d & w & s & w' & Htx & Hw & Hw' & Hp) Hv. exists (3 * d + 4).
  pose proof (exprs_all t text d e s v 0 w w' [] Hp Hw Hw' Hv) as H. rewrite app_nil_r in H.
  rewrite Htx at 2. exact (H Htx ltac:(done)).
Qed.
Hypothesis Hval : forall e a u b d, text = a ++ u ++ b -> prints 2 d e u -> exists v, val_of t e = Some v.
Lemma whole_total : exists r, gives (3 * opens text + 4) r_expr 0 r /\
  (forall v, r = Some (v, length text) -> exists e, calc_text e text /\ val_of t e = Some v) /\
  (forall e, calc_text e text -> exists v, r = Some (v, length text) /\ val_of t e = Some v).
Proof.
  destruct (every_expr t text Hval (length text) (3 * opens text + 4) text 0 ltac:(lia) ltac:(lia) eq_refl) as (r & HG & Hs).
  exists r. split; [done|]. split.
  - intros v ->. destruct Hs as (e & w & u & w' & rest & Htx & HL & Hw & Hw' & Hp & Hv). exists e. split; [|done].
    exists (opens u), w, u, w'. split; [|done].
    assert (rest = []) as ->; [|by rewrite app_nil_r in Htx]. apply nil_length_inv. apply (f_equal length) in Htx. rewrite app_length in Htx. lia.
  - intros e He. destruct (He) as (d & w & s & w' & Htx & _ & _ & Hp). destruct (Hval e w s w' d Htx Hp) as [v Hv].
    exists v. split; [|done]. destruct (reads_text e v He Hv) as [d' H]. eapply gives_same; [exact HG|exact H].
Qed.
End Whole.

Lemma some_val k e : exists v, val_of (Some k) e = Some v.
Proof. unfold val_of. destruct (value e); eauto. Qed.
Section Exact.
Variable o : popts.
Hypothesis Ho : po_debug o = false.
Notation parse fuel text := (fst (parse_string fuel (gram_of calc) o calc_rx calc_cb text)).

Lemma calc_unique e e' text : calc_text e text -> calc_text e' text -> value e = value e'.
Proof.
  intros He He'. destruct (some_val 0 e) as [v Hv]. destruct (some_val 0 e') as [v' Hv'].
  destruct (reads_text (Some 0) text e v He Hv) as [d H]. destruct (reads_text (Some 0) text e' v' He' Hv') as [d' H'].
  pose proof (gives_same _ _ _ _ _ _ _ _ _ _ H H') as [= ->]. unfold val_of in Hv, Hv'. destruct (value e), (value e'); congruence.
Qed.
Lemma not_text text : opens text <= 340 -> (forall e, ~ calc_text e text) -> exists fuel0, forall fuel, fuel0 <= fuel -> exists s',
  (exists k, parse fuel text = Panic (Base.PUser k) s') \/
  match text with [] => parse fuel text = Ok None s' | _ => exists k, parse fuel text = Ok (Some (AErr k)) s' /\ k <= length text end.
Proof.
  intros Hd Hno. destruct (whole_total (Some 0) text o ltac:(intros; apply some_val)) as (r & HG & H1 & _).
  destruct (expr_run (Some 0) text o Ho _ _ HG ltac:(unfold stack_limit; lia)) as (f0 & H). exists f0. intros fuel Hl. specialize (H fuel Hl).
  assert (forall y s', fst (parse_string fuel (gram_of calc) o calc_rx (calc_cb_with (Some 0)) text) = Ok y s' ->
    (exists k s'', parse fuel text = Panic (Base.PUser k) s'') \/ parse fuel text = Ok y s') as HB.
  { intros y s' HE. unfold parse_string in *. destruct (ple_gram fuel (gram_of calc) o calc_rx _ _ (CRune (new_rune_stream text)) (calc_with_braver (Some 0))) as [HA|HA]; [left; exact HA|].
    right. by rewrite HA. }
  destruct r as [[v q]|].
  - destruct (Nat.eqb_spec q (length text)) as [-> |Hq].
    { destruct (H1 v eq_refl) as (e & He & _). by destruct (Hno e). }
    destruct H as (k & s' & Hx & Hk). destruct (HB _ _ Hx) as [(k' & s'' & HP)|HP]; [eauto|]. exists s'. right.
    destruct text as [|b text]; [cbn in Hk, Hq; lia|]. exists k. split; [exact HP|lia].
  - destruct text as [|b text].
    + destruct H as (s' & Hx). destruct (HB _ _ Hx) as [(k' & s'' & HP)|HP]; [eauto|]. exists s'. by right.
    + destruct H as (k & s' & Hx & Hk). destruct (HB _ _ Hx) as [(k' & s'' & HP)|HP]; [eauto|]. exists s'. right. by exists k.
Qed.
Lemma not_text_valued text : opens text <= 340 -> (forall e, ~ calc_text e text) -> valued text -> exists fuel0, forall fuel, fuel0 <= fuel -> exists s',
  match text with [] => parse fuel text = Ok None s' | _ => exists k, parse fuel text = Ok (Some (AErr k)) s' /\ k <= length text end.
Proof.
  intros Hd Hno Hv. destruct (whole_total None text o) as (r & HG & H1 & _).
  { intros e a u b d Htx Hp. destruct (Hv e a u b d Htx Hp) as [z Hz]. exists (VInt z). unfold val_of. by rewrite Hz. }
  destruct (expr_run None text o Ho _ _ HG ltac:(unfold stack_limit; lia)) as (f0 & H). exists f0. intros fuel Hl. specialize (H fuel Hl).
  destruct r as [[v q]|].
  - destruct (Nat.eqb_spec q (length text)) as [-> |Hq].
    { destruct (H1 v eq_refl) as (e & He & _). by destruct (Hno e). }
    destruct H as (k & s' & Hx & Hk). exists s'.
    destruct text as [|b text]; [cbn in Hk, Hq; lia|]. exists k. split; [exact Hx|lia].
  - destruct text as [|b text].
    + destruct H as (s' & Hx). by exists s'.
    + destruct H as (k & s' & Hx & Hk). exists s'. by exists k.
Qed.
Lemma text_or_not text : (exists e, calc_text e text) \/ (forall e, ~ calc_text e text).
Proof.
  destruct (whole_total (Some 0) text o ltac:(intros; apply some_val)) as (r & _ & H1 & H2). destruct r as [[v q]|].
  - destruct (decide (q = length text)) as [-> |Hq]; [left; destruct (H1 v eq_refl) as (e & He & _); by exists e|].
    right. intros e He. destruct (H2 e He) as (v' & [= _ ?] & _). done.
  - right. intros e He. by destruct (H2 e He) as (v' & ? & _).
Qed.
(** The nesting of a text is at most its opening parentheses. *)
Lemma text_shallow e text : calc_text e text -> exists e', value e' = value e /\ exists d w s w', text = w ++ s ++ w' /\ blank w /\ blank w' /\ prints 2 d e' s /\ d <= opens text.
Proof.
  intros He. destruct (every_expr (Some 0) text ltac:(intros; apply some_val) (length text) (3 * opens text + 4) text 0 ltac:(lia) ltac:(lia) eq_refl) as (r & HG & Hs).
  destruct (some_val 0 e) as [v Hv]. destruct (reads_text (Some 0) text e v He Hv) as [d' H].
  pose proof (gives_same _ _ _ _ _ _ _ _ _ _ HG H) as ->. destruct Hs as (e' & w & u & w' & rest & Htx & HL & Hw & Hw' & Hp & Hv').
  assert (rest = []) as ->. { apply nil_length_inv. apply (f_equal length) in Htx. rewrite app_length in Htx. lia. }
  rewrite app_nil_r in Htx. exists e'. split.
  { apply (calc_unique e' e text); [|done]. by exists (opens u), w, u, w'. }
  exists (opens u), w, u, w'. repeat split; try done. rewrite Htx, !opens_app. lia.
Qed.
Lemma is_text text e : opens text <= 340 -> calc_text e text -> exists fuel0, forall fuel, fuel0 <= fuel -> exists s',
  match value e with Some z => parse fuel text = Ok (Some (AInt z)) s' | None => exists k, parse fuel text = Panic (Base.PUser k) s' end.
Proof.
  intros Hd He. destruct (text_shallow e text He) as (e' & <- & d & w & s & w' & -> & Hw & Hw' & Hp & Hd').
  destruct (value e') as [z|] eqn:Hv.
  - exact (calc_values o Ho d e' s w w' z Hp Hw Hw' ltac:(lia) Hv).
  - destruct (calc_panics o Ho d e' s w w' Hp Hw Hw' ltac:(lia) Hv) as (f0 & H). exists f0. intros fuel Hl. destruct (H fuel Hl) as (k & s' & HP). eauto.
Qed.
Lemma calc_exact text : opens text <= 340 ->
  (exists e, calc_text e text /\ exists fuel0, forall fuel, fuel0 <= fuel -> exists s',
     match value e with Some z => parse fuel text = Ok (Some (AInt z)) s' | None => exists k, parse fuel text = Panic (Base.PUser k) s' end) \/
  ((forall e, ~ calc_text e text) /\ exists fuel0, forall fuel, fuel0 <= fuel -> exists s',
     (exists k, parse fuel text = Panic (Base.PUser k) s') \/
     match text with [] => parse fuel text = Ok None s' | _ => exists k, parse fuel text = Ok (Some (AErr k)) s' /\ k <= length text end).
Proof.
  intros Hd. destruct (text_or_not text) as [[e He]|Hno]; [left; exists e; split; [done|]; by apply is_text|].
  right. split; [done|]. by apply not_text.
Qed.
End Exact.

(** ** Some texts *)
Lemma decimal_bound ds : Forall is_digit ds -> forall a, (0 <= a -> 0 <= fold_left (fun n b => 10 * n + (Z.of_N b - 48)) ds a < (a + 1) * 10 ^ Z.of_nat (length ds))%Z.
Proof.
  induction 1 as [|b ds Hb _ IH]; intros a Ha; cbn [fold_left length]; [rewrite Z.mul_1_r; lia|].
  unfold is_digit in Hb. specialize (IH (10 * a + (Z.of_N b - 48))%Z ltac:(lia)).
  replace (Z.of_nat (S (length ds))) with (Z.succ (Z.of_nat (length ds))) by lia. rewrite Z.pow_succ_r by lia.
  pose proof (Z.pow_pos_nonneg 10 (Z.of_nat (length ds)) ltac:(lia) ltac:(lia)). nia.
Qed.
Lemma numeral_fits s z : numeral s z -> length s <= 18 -> fits z = true.
Proof.
  assert (forall ds, Forall is_digit ds -> length ds <= 18 -> (0 <= decimal ds < 2 ^ 63)%Z) as HD.
  { intros ds Hd Hl. pose proof (decimal_bound ds Hd 0%Z ltac:(lia)) as H. fold (decimal ds) in H.
    assert (10 ^ Z.of_nat (length ds) <= 10 ^ 18)%Z by (apply Z.pow_le_mono_r; lia). lia. }
  intros [ds _ Hd|ds _ Hd] Hl; cbn in Hl; specialize (HD ds Hd ltac:(lia)); unfold fits; apply andb_true_intro; split; [apply Z.leb_le|apply Z.ltb_lt|apply Z.leb_le|apply Z.ltb_lt]; lia.
Qed.
Lemma prints_valued l d e u : prints l d e u -> 47%N ∉ u -> length u <= 18 -> exists z, value e = Some z.
Proof.
  induction 1 as [d z s H|d e s w w' Hw Hw' H IH|l d e s H IH|l d o a b s w w' s' Ho Hw Hw' Ha IHa Hb IHb]; intros Hu HL.
  - exists z. cbn [value]. by rewrite (numeral_fits s z H HL).
  - apply IH; [set_solver|]. rewrite !app_length in HL. cbn in HL. lia.
  - by apply IH.
  - rewrite !app_length in HL. destruct IHa as [x Hx]; [set_solver|lia|]. destruct IHb as [y Hy]; [set_solver|lia|].
    cbn [value]. rewrite Hx, Hy. destruct o; try (eexists; reflexivity). set_solver.
Qed.
(** No slash and at most 18 characters: nothing to panic about. *)
Lemma short_valued text : 47%N ∉ text -> length text <= 18 -> valued text.
Proof. intros Hs Hl e a u b d -> Hp. rewrite !app_length in Hl. eapply prints_valued; [exact Hp|set_solver|lia]. Qed.
Lemma no_text text v q : std (g_rule (gram_of calc)) calc_rx (calc_cbf (Some 0)) text 60 60 r_expr 0 = Some (Some (v, q)) -> q <> length text ->
  forall e, ~ calc_text e text.
Proof.
  intros H Hq e He. destruct (some_val 0 e) as [v' Hv]. destruct (reads_text (Some 0) text e v' He Hv) as [d HG].
  assert (Gives.gives (g_rule (gram_of calc)) calc_rx (calc_cbf (Some 0)) text 60 r_expr 0 (Some (v, q))) as H'.
  { exists 60. intros f Hf. exact (std_mono (mk_env (gram_of calc) (POpts false false false) calc_rx calc_cb) (calc_cbf (Some 0)) (fun _ => r_expr) text 60 f 60 60 r_expr 0 _ Hf (le_n _) H). }
  pose proof (gives_same _ _ _ _ _ _ _ _ _ _ H' HG) as [= _ ?]. done.
Qed.
