(** A monitored run in which no check fails is the plain run; consequences of
    the invariants of EngInv.v. *)
From Verif Require Import Base Helpers Utf8 Utf8Proofs Stream StreamSpec StreamProofs Native Engine EngSpec EngInv.

(** [m] is [m'] unless a check fails. *)
Definition le {A} (m m' : M A) : Prop := forall s, (exists s', m s = Panic violated s') \/ m s = m' s.
Lemma le_refl {A} (m : M A) : le m m.
Proof. intros s. by right. Qed.
Lemma le_bind {A B} (m m' : M A) (k k' : A -> M B) : le m m' -> (forall a, le (k a) (k' a)) -> le (bind m k) (bind m' k').
Proof.
  intros H1 H2 s. unfold bind. destruct (H1 s) as [[s' ->]| ->]; [left; by exists s'|].
  destruct (m' s) as [a s'| |]; [|by right|by right]. apply H2.
Qed.

Ltac lestep H := repeat first
  [ apply le_refl | apply H | apply le_bind; [|intros ?]
  | match goal with
    | |- le (match ?x with _ => _ end) _ => destruct x
    | |- le (if ?x then _ else _) _ => destruct x
    end ].

Section Le.
Variable E : env.
Variable rec rec' : node -> M (option ast).
Hypothesis Hrec : forall n, le (rec n) (rec' n).

Lemma le_seq_single l : forall acc, le (seq_single rec l acc) (seq_single rec' l acc).
Proof. induction l as [|c l IH]; intros acc; cbn [seq_single]; [apply le_refl|]. apply le_bind; [apply Hrec|]. intros [a|]; [apply IH|apply le_refl]. Qed.
Lemma le_seq_array l : forall acc, le (seq_array rec l acc) (seq_array rec' l acc).
Proof. induction l as [|c l IH]; intros acc; cbn [seq_array]; [apply le_refl|]. apply le_bind; [apply Hrec|]. intros [a|]; [apply IH|apply le_refl]. Qed.
Lemma le_seq_object l : forall acc, le (seq_object rec l acc) (seq_object rec' l acc).
Proof.
  induction l as [|c l IH]; intros acc; cbn [seq_object]; [apply le_refl|]. apply le_bind; [apply Hrec|].
  intros [a|]; [|apply le_refl]. apply le_bind; [apply le_refl|]. intros acc'. apply IH.
Qed.
Lemma le_choice l : le (choice_loop rec l) (choice_loop rec' l).
Proof.
  induction l as [|c l IH]; cbn [choice_loop]; [apply le_refl|]. apply le_bind; [apply le_refl|]. intros p.
  apply le_bind; [apply Hrec|]. intros [a|]; [apply le_refl|]. apply le_bind; [apply le_refl|]. intros _. exact IH.
Qed.
Lemma le_pat v j mx lf : forall acc, le (pat_loop rec lf v j mx acc) (pat_loop rec' lf v j mx acc).
Proof.
  induction lf as [|lf IH]; intros acc; cbn [pat_loop]; [apply le_refl|].
  apply le_bind; [apply le_refl|]. intros p. apply le_bind.
  { destruct j; [|apply le_refl]. apply le_bind; [apply Hrec|]. intros ?. apply le_refl. }
  intros []; [|apply le_refl]. apply le_bind; [apply Hrec|]. intros [a|]; [|apply le_refl].
  destruct (_ && _)%bool; [apply le_refl|apply IH].
Qed.
Lemma le_body lf n : le (body E rec lf n) (body E rec' lf n).
Proof.
  unfold body. destruct (n_kind n) as [| |name|ty l|l|v j mn mx|a|a|a|]; try apply le_refl.
  - destruct (e_rule E name); [|apply le_refl]. apply le_bind; [apply le_refl|]. intros _. apply Hrec.
  - destruct ty; [apply le_seq_single|apply le_seq_array|]. destruct l; [apply le_refl|apply le_seq_object].
  - apply le_choice.
  - apply le_bind; [apply le_refl|]. intros p. apply le_bind; [apply Hrec|]. intros [a|]; [|apply le_refl].
    apply le_bind; [apply le_pat|]. intros ms. apply le_refl.
  - lestep Hrec.
  - lestep Hrec.
  - lestep Hrec.
Qed.
End Le.

Section LeWrap.
Variable E : env.
Lemma le_prepare m m' n : le m m' -> le (prepare_result E m n) (prepare_result E m' n).
Proof.
  intros H. unfold prepare_result. apply le_bind; [apply le_refl|]. intros _. apply le_bind; [done|].
  intros r. apply le_refl.
Qed.
Lemma le_grow m m' show id a sp lf : le m m' -> forall x, le (grow E lf m show id a sp x) (grow E lf m' show id a sp x).
Proof.
  intros H. induction lf as [|lf IH]; intros x; cbn [grow]; [apply le_refl|].
  apply le_bind; [apply le_refl|]. intros f. destruct (f_mask f); [|apply le_refl].
  do 5 (apply le_bind; [apply le_refl|intros ?]). apply le_bind; [apply le_refl|]. intros _.
  apply le_bind; [exact H|]. intros r. apply le_bind; [apply le_refl|]. intros p.
  destruct (p <=? _); [apply le_refl|]. destruct r; [apply IH|apply le_refl].
Qed.
Lemma le_loopify m m' lf n : le m m' -> le (loopify E lf m n) (loopify E lf m' n).
Proof.
  intros H. unfold loopify. apply le_bind; [apply le_refl|]. intros _. destruct (i_skip (n_info n)).
  { do 2 (apply le_bind; [apply le_refl|intros ?]). apply le_bind; [exact H|]. intros r. apply le_refl. }
  do 5 (apply le_bind; [apply le_refl|intros ?]).
  destruct (_ =? 0)%Z; [|apply le_refl]. destruct (f_end _); [apply le_refl|].
  do 3 (apply le_bind; [apply le_refl|intros ?]). apply le_bind; [exact H|]. intros r.
  apply le_bind; [apply le_refl|]. intros f'. destruct (_ =? 1)%Z; [apply le_refl|]. destruct (_ =? 2)%Z; [|apply le_refl].
  destruct r as [x|]; [|apply le_refl]. do 2 (apply le_bind; [apply le_refl|intros ?]).
  apply le_bind; [by apply le_grow|]. intros b. apply le_refl.
Qed.
Lemma le_wrap rec rec' lf n : (forall n, le (rec n) (rec' n)) -> le (wrap E rec lf n) (wrap E rec' lf n).
Proof.
  intros H. unfold wrap. destruct (i_isrule (n_info n)).
  - unfold stack_. apply le_bind; [apply le_refl|]. intros _. apply le_bind; [|intros r; apply le_refl].
    apply le_loopify, le_prepare, le_body, H.
  - destruct (_ || _)%bool; [apply le_prepare|]; apply le_body, H.
Qed.
Lemma le_checked pre post m m' n : le m m' -> le (checked pre post m n) m'.
Proof.
  intros H s. unfold checked. destruct (pre n s); [|left; by eexists]. destruct (H s) as [[s' ->]| ->]; [left; by eexists|].
  destruct (m' s) as [r s'| |]; [|by right|by right]. destruct (post n s r s'); [by right|left; by eexists].
Qed.
Lemma le_parse_mon pre post fuel : forall n, le (parse_mon E pre post fuel n) (parse E fuel n).
Proof.
  induction fuel as [|fuel IH]; intros n; cbn [parse_mon parse]; apply le_checked; [apply le_refl|].
  destruct (n_kind n); try (by apply le_wrap). apply le_refl.
Qed.
End LeWrap.

(** ** Lines of the streams *)
Lemma coords_total t w : exists n o, ts_coords t w = ROk (n, o) /\
  ((forall k tok, ts_tokens t !! k = Some tok ->
     tk_work tok = Z.of_nat (work_start (tk_repr <$> ts_tokens t) k) /\ (0 <= tk_orig tok)%Z) -> (0 <= w)%Z -> (0 <= o)%Z).
Proof.
  unfold ts_coords. destruct (ts_tokens t) as [|t0 toks] eqn:ET; [exists 0, 0%Z; split; [done|lia]|].
  rewrite <- ET. set (all := ts_tokens t).
  assert (forall toks n tok, drop n all = toks -> n < length all ->
    let '(n', tok') := coords_loop toks n tok w (length all) in
    n' < length all /\
    ((forall k tk, all !! k = Some tk -> tk_work tk = Z.of_nat (work_start (tk_repr <$> all) k) /\ (0 <= tk_orig tk)%Z) ->
     (Z.of_nat (work_start (tk_repr <$> all) n) <= w)%Z -> (tk_work tok <= w)%Z -> (tk_work tok' <= w)%Z)) as Hgo.
  { clear. induction toks as [|t0 toks IH]; intros n tok Hd Hn.
    { split; [done|auto]. }
    cbn [coords_loop]. destruct (Nat.leb_spec (length all - 1) n); [split; [done|auto]|].
    assert (all !! n = Some t0) as Hn0. { rewrite <- (Nat.add_0_r n), <- lookup_drop, Hd. done. }
    destruct (Z.ltb_spec w (tk_work t0 + Z.of_nat (length (tk_repr t0)))).
    - split; [done|]. intros Hl Hw _. rewrite (proj1 (Hl _ _ Hn0)). done.
    - specialize (IH (S n) t0). rewrite <- (Nat.add_1_r n), <- drop_drop, Hd in IH. specialize (IH eq_refl ltac:(lia)).
      rewrite Nat.add_1_r in IH. destruct (coords_loop toks (S n) t0 w (length all)) as [n' tok'].
      destruct IH as [IH1 IH2]. split; [done|]. intros Hl Hw Hw'.
      assert ((tk_repr <$> all) !! n = Some (tk_repr t0)) as HR by (by rewrite list_lookup_fmap, Hn0).
      rewrite (work_start_S _ _ _ HR) in IH2. pose proof (proj1 (Hl _ _ Hn0)). apply IH2; [done|lia|lia]. }
  specialize (Hgo all 0 zero_token eq_refl ltac:(unfold all; rewrite ET; cbn; lia)).
  destruct (coords_loop all 0 zero_token w (length all)) as [n tok]. destruct Hgo as [Hn Hw].
  destruct (lookup_lt_is_Some_2 all n Hn) as [tn Htn]. rewrite Htn. eexists _, _. split; [done|].
  intros Hl H0. specialize (Hw Hl). cbn in Hw. specialize (Hw H0 H0). pose proof (proj2 (Hl _ _ Htn)). lia.
Qed.

Lemma code_ok_lines c : code_ok c -> code_lines_ok c.
Proof.
  intros Hc p Hp. destruct c as [r|t]; cbn in *.
  - destruct (pos_to_line_col (rs_with_pos r p) p) as [H1 (k & H2 & _)]; [done|].
    unfold rs_line, rs_col. cbn [rs_with_pos rs_pos]. split; eauto.
  - destruct Hc as [HL Ht]. unfold ts_line, ts_col. cbn [ts_with_pos ts_pos].
    destruct (coords_total (ts_with_pos t p) (Z.of_nat p)) as (n & o & Ho & Hpos).
    specialize (Hpos Ht ltac:(lia)).
    destruct (ts_pos_to_line_col (ts_with_pos t p) (Z.to_nat o) (Z.of_nat p) n HL) as [H1 (k & H2 & _)].
    { by rewrite Z2Nat.id. }
    split; eauto.
Qed.

(** ** Whole parses *)
Section Top.
Variable E : env.
Variable root : node.
Variable c : code.
Hypothesis Hrx : forall re, rx_ok (e_rx E re).
Hypothesis Hc : code_ok c.
Hypothesis Hcp : c_pos c <= length (c_work c).
Hypothesis Hfit : ids_fit E root.
Hypothesis Htop : top_ok root.

Lemma mon_eq gb pre post fuel :
  (forall n b, reach E root n -> i_isrule (n_info n) = true -> gb (i_id (n_info n)) b = true -> stays n b = true) ->
  (forall n s, reach E root n -> GI gb (e_nrules E) c s -> pre n s = true) ->
  (forall n s r s', reach E root n -> GI gb (e_nrules E) c s -> post_ok (e_nrules E) c gb n s r s' -> post n s r s' = true) ->
  parse_mon E pre post fuel root (init_st c (e_nrules E)) = parse E fuel root (init_st c (e_nrules E)) /\
  tr (parse E fuel root) (init_st c (e_nrules E)) (post_ok (e_nrules E) c gb root (init_st c (e_nrules E))) (XP c E).
Proof.
  intros Hgb Hpre Hpost.
  pose proof (parse_mon_top (e_nrules E) c gb E eq_refl Hrx (code_ok_lines c Hc) root Hfit Htop Hgb pre post Hpre Hpost fuel
    (init_st c (e_nrules E)) (init_G _ _ _ Hcp)) as HT.
  destruct (le_parse_mon E pre post fuel root (init_st c (e_nrules E))) as [[s' HV]|HV].
  - exfalso. unfold tr in HT. rewrite HV in HT. destruct HT as [HT _]. apply HT. left.
  - split; [done|]. unfold tr in *. by rewrite <- HV.
Qed.

Lemma cursor_inv fuel :
  parse_mon E (cursor_in c) (cursor_after c) fuel root (init_st c (e_nrules E)) =
  parse E fuel root (init_st c (e_nrules E)).
Proof.
  apply (mon_eq (fun _ _ => false)); [done| |].
  - intros n s _ HG. unfold cursor_in. apply Nat.leb_le, HG.
  - intros n s r s' _ HG ((HG' & _ & Hp) & _). unfold cursor_after. rewrite (proj2 (Nat.leb_le _ _) Hp).
    apply Nat.leb_le, HG'.
Qed.

Lemma stack_bal fuel :
  parse_mon E (fun _ _ => true) stack_same fuel root (init_st c (e_nrules E)) =
  parse E fuel root (init_st c (e_nrules E)).
Proof.
  apply (mon_eq (fun _ _ => false)); [done|done|].
  intros n s r s' _ HG (HR & _). unfold stack_same. apply bool_decide_eq_true_2. by apply HR.
Qed.

Lemma cursor_back_inv fuel : ids_unique E root ->
  parse_mon E (fun _ _ => true) cursor_back fuel root (init_st c (e_nrules E)) =
  parse E fuel root (init_st c (e_nrules E)).
Proof.
  intros [R HR]. apply (mon_eq (fun i b => stays (R i) b)); [|done|].
  - intros n b Hn Hr. by rewrite HR.
  - intros n s r s' Hn HG (_ & H1 & H2). unfold cursor_back.
    assert (gives_cursor_back n r = stays n (success r)) as ->.
    { unfold gives_cursor_back, stays. destruct (n_kind n); try done; destruct r, (i_cb (n_info n)); done. }
    destruct (stays n (success r)) eqn:ES; [|done]. cbn. apply Nat.eqb_eq.
    destruct (i_isrule (n_info n)) eqn:ER; [apply H1; [done|by rewrite HR]|by apply H2].
Qed.

Lemma no_internal fuel p s' : parse E fuel root (init_st c (e_nrules E)) = Panic p s' ->
  p ∉ internal_panics /\ (p = PIndex -> e_loop E = false -> stack_limit <= length (s_stack s')).
Proof.
  intros HP. destruct (mon_eq (fun _ _ => false) (fun _ _ => true) (fun _ _ _ _ => true) fuel) as [_ HT]; [done..|].
  unfold tr in HT. rewrite HP in HT. destruct HT as (H1 & H2 & _). split.
  - intros H. apply H1. by right.
  - intros HI HL. destruct (H2 HI) as [H|H]; [done|congruence].
Qed.

Lemma final_state fuel r s' : parse E fuel root (init_st c (e_nrules E)) = Ok r s' ->
  c_pos c <= st_pos s' <= length (c_work c) /\ s_code s' = c_with_pos c (st_pos s') /\ s_stack s' = [] /\
  Forall (fun e => ev_pos e <= length (c_work c)) (s_log s').
Proof.
  intros HP. destruct (mon_eq (fun _ _ => false) (fun _ _ => true) (fun _ _ _ _ => true) fuel) as [_ HT]; [done..|].
  unfold tr in HT. rewrite HP in HT. destruct HT as ((HG & HE & Hpos) & _).
  split; [split; [exact Hpos|apply HG]|]. split; [apply HG|]. split; [apply HE|apply HG].
Qed.
End Top.
