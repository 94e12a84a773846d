(** Lemmas on the rules of the lisp grammar, for every text. *)
From Verif Require Import Base Helpers Utf8 Utf8Proofs Stream StreamSpec Native Engine EngSpec EngInv Peg PegProofs PegRep PegBody PegStd PegStdProofs
  Build BuildSpec Joeson Calc CalcSpec CalcPeg LispRead LispReadRun LispReadSpec LispReadPeg Gives.

(** ** Decoding stops before a quote *)
Lemma decode_inside s i b : 1 <= i < snd (decode_rune s) -> s !! i = Some b -> (128 <= b)%N.
Proof.
  destruct s as [|b0 s]; [done|]. cbn [decode_rune]. destruct (b0 <? 128)%N; [cbn; lia|].
  destruct (first_info b0) as [[[sz lo] hi]|] eqn:EF; [|cbn; lia].
  assert (128 <= lo)%N as Hlo.
  { revert EF. unfold first_info. repeat (match goal with |- context [if ?c then _ else _] => destruct c end; [intros [= <- <- <-]; lia|]). done. }
  destruct (length (b0 :: s) <? sz); [cbn; lia|].
  destruct s as [|b1 s]; [cbn; lia|].
  destruct (negb (in_range lo hi b1)) eqn:E1; [cbn; lia|]. apply negb_false_iff in E1. unfold in_range in E1.
  assert (128 <= b1)%N by (apply andb_prop in E1 as [E1 _]; apply N.leb_le in E1; lia).
  destruct (sz <=? 2).
  { cbn. intros Hi. assert (i = 1) as -> by lia. cbn. by intros [= <-]. }
  destruct s as [|b2 s]; [cbn; lia|].
  destruct (negb (in_range _ _ b2)) eqn:E2; [cbn; lia|]. apply negb_false_iff in E2. unfold in_range in E2.
  assert (128 <= b2)%N by (apply andb_prop in E2 as [E2 _]; by apply N.leb_le in E2).
  destruct (sz <=? 3).
  { cbn. intros Hi. assert (i = 1 \/ i = 2) as [-> | ->] by lia; cbn; by intros [= <-]. }
  destruct s as [|b3 s]; [cbn; lia|].
  destruct (negb (in_range _ _ b3)) eqn:E3; [cbn; lia|]. apply negb_false_iff in E3. unfold in_range in E3.
  assert (128 <= b3)%N by (apply andb_prop in E3 as [E3 _]; by apply N.leb_le in E3).
  cbn. intros Hi. assert (i = 1 \/ i = 2 \/ i = 3) as [-> |[-> | ->]] by lia; cbn; by intros [= <-].
Qed.
(** The end of a string: nothing, or a quote. *)
Definition shut (rest : bytes) : Prop := rest = [] \/ head rest = Some 34%N.
Lemma decode_before u rest : u <> [] -> shut rest -> 1 <= snd (decode_rune (u ++ rest)) <= length u.
Proof.
  intros Hu Hr. pose proof (decode_rune_width (u ++ rest)) as HW. destruct HW as [H1 H2]; [by destruct u|]. split; [done|].
  destruct (decide (snd (decode_rune (u ++ rest)) <= length u)) as [|Hn]; [done|]. exfalso.
  destruct Hr as [-> |Hr]; [rewrite app_nil_r in *; lia|]. destruct rest as [|b rest]; [done|]. injection Hr as ->.
  assert ((u ++ 34%N :: rest) !! length u = Some 34%N) as HL by by rewrite lookup_app_r, Nat.sub_diag.
  apply decode_inside in HL; [lia|]. destruct u; [done|]. cbn [length] in *. lia.
Qed.
Lemma split_quote (s : bytes) : exists u rest, s = u ++ rest /\ (34%N ∉ u) /\ shut rest.
Proof.
  induction s as [|b s (u & rest & -> & Hu & Hr)].
  - exists [], []. split; [done|]. split; [apply not_elem_of_nil|by left].
  - destruct (decide (b = 34%N)) as [-> |Hb].
    + exists [], (34%N :: u ++ rest). split; [done|]. split; [apply not_elem_of_nil|by right].
    + exists (b :: u), rest. split; [done|]. split; [|done]. apply not_elem_of_cons. split; [congruence|done].
Qed.

(** ** Space *)
Definition spaces : list N := [32%N; 9%N; 10%N].
Definition solid (s : bytes) : Prop := forall b, head s = Some b -> ~ (b = 32 \/ b = 9 \/ b = 10)%N.
Lemma split_space (s : bytes) : exists w rest, s = w ++ rest /\ space w /\ solid rest.
Proof.
  induction s as [|b s (w & rest & -> & Hw & Hr)].
  - exists [], []. split; [done|]. split; [constructor|]. by intros b.
  - destruct (decide (b = 32 \/ b = 9 \/ b = 10)%N) as [Hb|Hb].
    + exists (b :: w), rest. split; [done|]. split; [by constructor|done].
    + exists [], (b :: w ++ rest). split; [done|]. split; [constructor|]. by intros c [= <-].
Qed.

(** ** Words and numbers *)
Lemma word_letter b : word_b b = true <-> letter b.
Proof. unfold word_b, letter. lia. Qed.
Lemma word2_letter b : word2_b b = true <-> letter2 b.
Proof. unfold word2_b, letter2. rewrite !orb_true_iff, word_letter. unfold digit_b, is_digit. rewrite andb_true_iff, !N.leb_le, N.eqb_eq. tauto. Qed.
Lemma run_split f s : exists u rest, s = u ++ rest /\ run_len f s = length u /\ Forall (fun b => f b = true) u /\ (forall b, head rest = Some b -> f b = false).
Proof.
  induction s as [|b s (u & rest & -> & Hl & Hu & Hr)]; [by exists [], []|]. cbn [run_len]. destruct (f b) eqn:E.
  - exists (b :: u), rest. cbn. rewrite Hl. split; [done|]. split; [done|]. split; [by constructor|done].
  - exists [], (b :: u ++ rest). split; [done|]. split; [done|]. split; [constructor|]. by intros c [= <-].
Qed.
Lemma run_exact f u rest : Forall (fun b => f b = true) u -> (forall b, head rest = Some b -> f b = false) -> run_len f (u ++ rest) = length u.
Proof.
  intros Hu Hr. induction Hu as [|b u Hb Hu IH]; cbn.
  - destruct rest as [|b rest]; [done|]. cbn. by rewrite (Hr b eq_refl).
  - by rewrite Hb, IH.
Qed.
Lemma ident_yes b u rest : letter b -> Forall letter2 u -> (forall c, head rest = Some c -> ~ letter2 c) ->
  m_ident (b :: u ++ rest) = Some (S (length u)).
Proof.
  intros Hb Hu Hr. cbn [m_ident]. rewrite (proj2 (word_letter b) Hb). rewrite run_exact; [done| |].
  - eapply Forall_impl; [exact Hu|]. intros c. apply word2_letter.
  - intros c Hc. destruct (word2_b c) eqn:E; [|done]. apply word2_letter in E. by apply Hr in E.
Qed.
Lemma ident_some s n : m_ident s = Some n -> exists b u rest, s = b :: u ++ rest /\ n = S (length u) /\ letter b /\ Forall letter2 u.
Proof.
  destruct s as [|b s]; [done|]. cbn [m_ident]. destruct (word_b b) eqn:E; [|done]. intros [= <-].
  destruct (run_split word2_b s) as (u & rest & -> & -> & Hu & _). exists b, u, rest. split; [done|]. split; [done|].
  split; [by apply word_letter|]. eapply Forall_impl; [exact Hu|]. intros c. apply word2_letter.
Qed.
Lemma digit_bool b : digit_b b = true <-> is_digit b.
Proof. unfold digit_b, is_digit. lia. Qed.
Definition no_digit (rest : bytes) : Prop := forall b, head rest = Some b -> ~ is_digit b.
Lemma no_digit_bool rest : no_digit rest -> forall b, head rest = Some b -> digit_b b = false.
Proof. intros H b Hb. destruct (digit_b b) eqn:E; [|done]. apply digit_bool in E. by apply H in E. Qed.
Lemma signed_yes s z rest : numeral s z -> no_digit rest -> m_signed (s ++ rest) = Some (length s).
Proof.
  intros Hn Hr0. pose proof (no_digit_bool _ Hr0) as Hr. destruct Hn as [ds Hn Hf|ds Hn Hf].
  - destruct Hf as [|b ds Hb Hf]; [done|]. unfold m_signed. cbn [app]. assert ((b =? 45)%N = false) as -> by (unfold is_digit in Hb; lia).
    change (b :: ds ++ rest) with ((b :: ds) ++ rest). rewrite run_exact; [done| |done].
    constructor; [by apply digit_bool|]. eapply Forall_impl; [exact Hf|]. intros c. apply digit_bool.
  - unfold m_signed. cbn [app]. change ((45 =? 45)%N) with true. cbv iota. rewrite run_exact; [by destruct ds| |done].
    eapply Forall_impl; [exact Hf|]. intros c. apply digit_bool.
Qed.
Lemma signed_some s n : m_signed s = Some n -> exists u rest z, s = u ++ rest /\ n = length u /\ numeral u z.
Proof.
  unfold m_signed. destruct s as [|b s]; [done|]. destruct (N.eqb_spec b 45) as [-> |Hb].
  - destruct (run_split digit_b s) as (u & rest & -> & -> & Hu & _). destruct u as [|c u]; [done|]. cbn [length]. intros [= <-].
    exists (45%N :: c :: u), rest, (- decimal (c :: u))%Z. split; [done|]. split; [done|]. apply numeral_neg; [done|].
    eapply Forall_impl; [exact Hu|]. intros x. apply digit_bool.
  - destruct (run_split digit_b (b :: s)) as (u & rest & E & -> & Hu & _). rewrite E. destruct u as [|c u]; [done|]. cbn [length]. intros [= <-].
    exists (c :: u), rest, (decimal (c :: u))%Z. split; [done|]. split; [done|]. apply numeral_pos; [done|].
    eapply Forall_impl; [exact Hu|]. intros x. apply digit_bool.
Qed.
Lemma signed_no s : no_digit s -> head s <> Some 45%N -> m_signed s = None.
Proof.
  intros H0 Hh. pose proof (no_digit_bool _ H0) as H. unfold m_signed. destruct s as [|b s]; [done|]. destruct (N.eqb_spec b 45) as [-> |_]; [done|].
  cbn [run_len]. by rewrite (H b eq_refl).
Qed.
Lemma signed_minus s : no_digit s -> m_signed (45%N :: s) = None.
Proof. intros H0. pose proof (no_digit_bool _ H0) as H. unfold m_signed. change ((45 =? 45)%N) with true. cbv iota. destruct s as [|b s]; [done|]. cbn [run_len]. by rewrite (H b eq_refl). Qed.

(** ** The rules *)
Section Text.
Variable t : option nat.
Variable text : bytes.
Notation rules := (g_rule (gram_of lisp)).
Notation gives := (gives rules lisp_rx (lisp_cbf t) text).
Notation does := (does rules lisp_rx (lisp_cbf t) text).
Notation loops := (Gives.loops rules lisp_rx (lisp_cbf t) text).
Notation alts := (Gives.alts rules lisp_rx (lisp_cbf t) text).
Notation singles := (Gives.singles rules lisp_rx (lisp_cbf t) text).
Notation at_ := (Gives.at_ text).

Lemma at_zero p s : at_ p s -> at_ (p + 0) s.
Proof. by rewrite Nat.add_0_r. Qed.
Lemma lit_yes d cap wr s p rest : at_ p (s ++ rest) -> gives d (nd "" cap wr (KStr s)) p (Some (VStr s, p + length s)).
Proof. intros Hp. apply gives_bare; [done|done|by split; [|left]|]. eapply does_lit; [done|]. by eapply lit_here. Qed.
Lemma lit_no d cap wr b s p rest : at_ p rest -> head rest <> Some b -> gives d (nd "" cap wr (KStr (b :: s))) p None.
Proof. intros Hp Hh. apply gives_bare; [done|done|by split; [|left]|]. eapply does_lit; [done|]. by eapply lit_not. Qed.
Lemma ref_to d cap wr nm m p r : rules nm = Some m -> gives d m p r -> gives d (nd "" cap wr (KRef nm)) p r.
Proof. intros Hm H. apply gives_bare; [done|done|by split; [|left]|]. by eapply does_ref. Qed.

(** A choice between literals: the first that is here. *)
Definition first_lit (l : list bytes) (s : bytes) : option bytes := List.find (fun x => bool_decide (take (length x) s = x)) l.
Lemma lits d l p s : at_ p s -> alts d (nc_lit <$> l) p (match first_lit l s with Some x => Some (VStr x, p + length x) | None => None end).
Proof.
  intros Hp. induction l as [|x l IH]; [apply alts_nil|]. cbn [fmap list_fmap]. unfold first_lit in *. cbn [List.find]. case_bool_decide as Hx.
  - apply alts_take. apply (lit_yes d false true x p (drop (length x) s)). unfold Gives.at_ in *. rewrite Hp. rewrite <- Hx at 1. symmetry. apply take_drop.
  - apply alts_next; [|exact IH]. apply gives_bare; [done|done|by split; [|left]|]. eapply does_lit; [done|]. unfold lit. unfold Gives.at_ in Hp. rewrite Hp.
    by rewrite bool_decide_false.
Qed.

(** Space. *)
Lemma space_yes d b s p : at_ p (b :: s) -> (b = 32 \/ b = 9 \/ b = 10)%N -> exists v, gives (S d) n_space p (Some (v, S p)).
Proof.
  intros Hp Hb. exists (VStr [b]). eapply ref_to; [reflexivity|]. apply gives_bare_rule; [done|done|by split; [|left]|]. eapply does_choice; [done|].
  pose proof (lits d [[32%N]; [9%N]; [10%N]] p _ Hp) as H. rewrite <- Nat.add_1_r. by destruct Hb as [-> |[-> | ->]].
Qed.
Lemma space_no d s p : at_ p s -> solid s -> gives (S d) n_space p None.
Proof.
  intros Hp Hs. eapply ref_to; [reflexivity|]. apply gives_bare_rule; [done|done|by split; [|left]|]. eapply does_choice; [done|].
  pose proof (lits d [[32%N]; [9%N]; [10%N]] p _ Hp) as H. destruct s as [|b s]; [done|]. specialize (Hs b eq_refl).
  assert (first_lit [[32%N]; [9%N]; [10%N]] (b :: s) = None) as E.
  { unfold first_lit. cbn [List.find length take firstn]. rewrite !bool_decide_false; [done|intros [= ->]; lia..]. }
  rewrite E in H. exact H.
Qed.
Lemma space_loops d w rest : space w -> solid rest -> forall acc p, at_ p (w ++ rest) ->
  exists l, loops (S d) n_space None (-1) acc p l (p + length w) /\ length acc <= length l.
Proof.
  intros Hw Hr. induction Hw as [|b w Hb Hw IH]; intros acc p Hp.
  - exists acc. rewrite Nat.add_0_r. split; [|done]. apply loops_end. by eapply space_no.
  - cbn [app length] in *. destruct (space_yes d b _ p Hp Hb) as [v Hv]. destruct (IH (acc ++ [v]) (S p)) as (l & Hl & HL); [by apply at_cons in Hp|].
    exists l. rewrite Nat.add_succ_r. split; [|rewrite app_length in HL; cbn in HL; lia]. eapply loops_more; [exact Hv|done|exact Hl].
Qed.
Lemma sp d w rest p : space w -> solid rest -> at_ p (w ++ rest) -> exists v, gives (S (S d)) (ns_ref "_") p (Some (v, p + length w)).
Proof.
  intros Hw Hr Hp.
  assert (exists v, gives (S (S d)) nr_sp p (Some (v, p + length w))) as [v Hv]; [|exists v; by eapply ref_to].
  destruct Hw as [|b w Hb Hw].
  - exists (VArr []). cbn [length]. rewrite Nat.add_0_r. apply gives_bare_rule; [done|done|by split; [|left]|].
    eapply (does_pat_none _ _ _ _ _ _ n_space None (-1) (-1)); [done|]. by eapply space_no.
  - cbn [app length] in *. destruct (space_yes d b _ p Hp Hb) as [v Hv].
    destruct (space_loops d w rest Hw Hr [v] (S p)) as (l & Hl & _); [by apply at_cons in Hp|].
    exists (VArr l). rewrite Nat.add_succ_r. apply gives_bare_rule; [done|done|by split; [|left]|].
    eapply (does_pat_some _ _ _ _ _ _ n_space None (-1) (-1)); [done|exact Hv|exact Hl].
Qed.
Lemma gap_yes d w rest p : w <> [] -> space w -> solid rest -> at_ p (w ++ rest) -> exists v, gives (S (S d)) n_apart p (Some (v, p + length w)).
Proof.
  intros Hn Hw Hr Hp.
  assert (exists v, gives (S (S d)) nr_gap p (Some (v, p + length w))) as [v Hv]; [|exists v; by eapply ref_to].
  destruct Hw as [|b w Hb Hw]; [done|].
  cbn [app length] in *. destruct (space_yes d b _ p Hp Hb) as [v Hv].
  destruct (space_loops d w rest Hw Hr [v] (S p)) as (l & Hl & HL); [by apply at_cons in Hp|].
  exists (VArr l). rewrite Nat.add_succ_r. apply gives_bare_rule; [done|done|by split; [|left]|].
  pose proof (does_pat_some rules lisp_rx (lisp_cbf t) text (S d) nr_gap n_space None 1 (-1) p v (S p) l _ eq_refl Hv Hl) as H.
  cbn [length] in HL. assert (too_few 1 (length l) = false) as E by (unfold too_few; lia). rewrite E in H. exact H.
Qed.
Lemma gap_no d rest p : solid rest -> at_ p rest -> gives (S (S d)) n_apart p None.
Proof.
  intros Hr Hp. eapply ref_to; [reflexivity|]. apply gives_bare_rule; [done|done|by split; [|left]|].
  eapply (does_pat_none _ _ _ _ _ _ n_space None 1 (-1)); [done|]. by eapply space_no.
Qed.

(** Strings. *)
Lemma char_yes d u rest p : u <> [] -> (34%N ∉ u) -> shut rest -> at_ p (u ++ rest) ->
  exists k, 1 <= k <= length u /\ gives d n_char p (Some (VStr (take k u), p + k)).
Proof.
  intros Hu Hq Hr Hp. pose proof (decode_before u rest Hu Hr) as Hk. exists (snd (decode_rune (u ++ rest))). split; [done|].
  apply gives_bare; [done|done|by split; [|left]|]. eapply does_regex; [done|]. rewrite lisp_rgx. unfold Gives.at_ in Hp. rewrite Hp.
  change (m_of re_unquote) with m_unquote. rewrite <- (take_app_le u rest) by lia. destruct u as [|b u]; [done|].
  remember (snd (decode_rune ((b :: u) ++ rest))) as k eqn:E. cbn [app m_unquote]. change (b :: u ++ rest) with ((b :: u) ++ rest). rewrite <- E.
  apply not_elem_of_cons in Hq as [Hq _]. destruct (N.eqb_spec b 34); [congruence|]. done.
Qed.
Lemma char_no d rest p : shut rest -> at_ p rest -> gives d n_char p None.
Proof.
  intros Hr Hp. apply gives_bare; [done|done|by split; [|left]|]. eapply does_regex; [done|]. rewrite lisp_rgx. unfold Gives.at_ in Hp. rewrite Hp.
  change (m_of re_unquote) with m_unquote. destruct Hr as [-> |Hr]; [done|]. destruct rest as [|b rest]; [done|]. injection Hr as ->. done.
Qed.
Lemma chars d n : forall u rest p acc, length u <= n -> (34%N ∉ u) -> shut rest -> at_ p (u ++ rest) ->
  exists l, strs l = Some u /\ loops d n_char None (-1) acc p (acc ++ l) (p + length u).
Proof.
  induction n as [|n IH]; intros u rest p acc Hn Hu Hr Hp.
  - destruct u; [|cbn in Hn; lia]. exists []. split; [done|]. rewrite app_nil_r, Nat.add_0_r. apply loops_end. by eapply char_no.
  - destruct u as [|b u]; [exists []; split; [done|]; rewrite app_nil_r, Nat.add_0_r; apply loops_end; by eapply char_no|].
    destruct (char_yes d (b :: u) rest p ltac:(done) Hu Hr Hp) as (k & Hk & Hg). set (a := b :: u) in *.
    destruct (IH (drop k a) rest (p + k) (acc ++ [VStr (take k a)])) as (l & Hl & HL).
    + rewrite drop_length. lia.
    + intros H. apply Hu. rewrite <- (take_drop k a). apply elem_of_app. by right.
    + done.
    + rewrite <- (take_drop k a) in Hp. rewrite <- app_assoc in Hp. apply at_app in Hp. rewrite take_length in Hp. by rewrite Nat.min_l in Hp by lia.
    + exists (VStr (take k a) :: l). split; [cbn [strs]; by rewrite Hl, take_drop|].
      eapply loops_more; [exact Hg|done|]. rewrite <- app_assoc in HL. cbn [app] in HL. rewrite drop_length in HL.
      by replace (p + k + (length a - k)) with (p + length a) in HL by lia.
Qed.
Lemma chars_all d u rest p : (34%N ∉ u) -> shut rest -> at_ p (u ++ rest) ->
  exists l, strs l = Some u /\ gives d n_chars p (Some (VArr l, p + length u)).
Proof.
  intros Hu Hr Hp. destruct u as [|b u].
  - exists []. split; [done|]. cbn [length]. rewrite Nat.add_0_r. apply gives_bare; [done|done|by split; [|left]|].
    eapply (does_pat_none _ _ _ _ _ _ n_char None (-1) (-1)); [done|]. by eapply char_no.
  - destruct (char_yes d (b :: u) rest p ltac:(done) Hu Hr Hp) as (k & Hk & Hg). set (a := b :: u) in *.
    destruct (chars d (length (drop k a)) (drop k a) rest (p + k) [VStr (take k a)]) as (l & Hl & HL); [done| |done| |].
    + intros H. apply Hu. rewrite <- (take_drop k a). apply elem_of_app. by right.
    + rewrite <- (take_drop k a) in Hp. rewrite <- app_assoc in Hp. apply at_app in Hp. rewrite take_length in Hp. by rewrite Nat.min_l in Hp by lia.
    + exists (VStr (take k a) :: l). split; [cbn [strs]; by rewrite Hl, take_drop|].
      rewrite drop_length in HL. replace (p + k + (length a - k)) with (p + length a) in HL by lia.
      apply gives_bare; [done|done|by split; [|left]|].
      eapply (does_pat_some _ _ _ _ _ _ n_char None (-1) (-1)); [done|exact Hg|exact HL].
Qed.
Lemma string_yes d u rest p : (34%N ∉ u) -> at_ p ([34%N] ++ u ++ [34%N] ++ rest) ->
  gives (S d) nr_string p (Some (VUser 0 [VStr u], p + length ([34%N] ++ u ++ [34%N]))).
Proof.
  intros Hu Hp.
  assert (exists l, strs l = Some u /\ does d nr_string p (Some (VArr l, p + length ([34%N] ++ u ++ [34%N])))) as (l & Hl & H).
  { pose proof (at_app _ _ _ _ Hp) as Hp1. cbn [length] in Hp1.
    destruct (chars_all d u ([34%N] ++ rest) (p + 1) Hu ltac:(by right) Hp1) as (l & Hl & HL). apply at_app in Hp1.
    exists l. split; [done|]. eapply does_single; [done|].
    eapply singles_cons; [by eapply lit_yes|]. cbn [i_capture n_info nd ns_lit length].
    eapply singles_cons; [exact HL|]. cbn [i_capture n_info nd n_chars].
    eapply singles_cons; [eapply lit_yes; exact Hp1|]. cbn [i_capture n_info nd ns_lit length].
    replace (p + length ([34%N] ++ u ++ [34%N])) with (p + 1 + length u + 1) by (rewrite !app_length; cbn; lia). apply singles_nil. }
  eapply gives_rule; [done|done|exact H|]. cbn. unfold lisp_cbf, lisp_val. by rewrite Hl.
Qed.
Lemma string_no d s p : at_ p s -> head s <> Some 34%N -> gives (S d) nr_string p None.
Proof.
  intros Hp Hh. eapply (gives_rule _ _ _ _ _ _ _ None); [done|done| |done]. eapply does_single; [done|]. apply singles_fail. by eapply lit_no.
Qed.
Lemma string_open d u p : (34%N ∉ u) -> at_ p (34%N :: u) -> gives (S d) nr_string p None.
Proof.
  intros Hu Hp. eapply (gives_rule _ _ _ _ _ _ _ None); [done|done| |done]. eapply does_single; [done|].
  pose proof (at_app _ p [34%N] u Hp) as Hp1. cbn [length] in Hp1.
  destruct (chars_all d u [] (p + 1) Hu ltac:(by left) ltac:(by rewrite app_nil_r)) as (l & Hl & HL).
  eapply singles_cons; [by apply (lit_yes d false false [34%N] p u)|]. cbn [length].
  eapply singles_cons; [exact HL|]. apply singles_fail. eapply (lit_no _ _ _ _ _ _ []); [|done].
  rewrite <- (app_nil_r u) in Hp1. by apply at_app in Hp1.
Qed.

(** Numbers and operators. *)
Lemma number_rule d p s : at_ p s ->
  does d nr_number p (match m_signed s with Some n => Some (VStr (take n s), p + n) | None => None end).
Proof. intros Hp. eapply does_regex; [done|]. rewrite lisp_rgx. unfold Gives.at_ in Hp. by rewrite Hp. Qed.
Lemma number_no d p s : at_ p s -> m_signed s = None -> gives (S d) nr_number p None.
Proof. intros Hp Hm. eapply (gives_rule _ _ _ _ _ _ _ None); [done|done| |done]. pose proof (number_rule d p s Hp) as H. by rewrite Hm in H. Qed.
Lemma number_yes d p u rest z : at_ p (u ++ rest) -> m_signed (u ++ rest) = Some (length u) -> numeral u z ->
  (t = None -> fits z = true) -> gives (S d) nr_number p (Some (sval (default 0 t) (SNum z), p + length u)).
Proof.
  intros Hp Hm Hn Hf. pose proof (number_rule d p _ Hp) as H. rewrite Hm, take_app in H.
  eapply gives_rule; [done|done|exact H|]. cbn. unfold lisp_cbf, lisp_val. rewrite (atoi_numeral u z Hn).
  destruct (fits z) eqn:E; [done|]. cbn. destruct t; [done|]. by specialize (Hf eq_refl).
Qed.
Lemma word_rule d p s : at_ p s -> gives (S d) nr_word p (match m_ident s with Some n => Some (VStr (take n s), p + n) | None => None end).
Proof.
  intros Hp. apply gives_bare_rule; [done|done|by split; [|left]|]. eapply does_regex; [done|]. rewrite lisp_rgx. unfold Gives.at_ in Hp. by rewrite Hp.
Qed.
(** What the operator at the start of a text is. *)
Definition op_here (s : bytes) : option bytes :=
  match m_ident s with Some n => Some (take n s) | None => first_lit symbols s end.
Lemma op_here_len s x : op_here s = Some x -> exists rest, s = x ++ rest.
Proof.
  unfold op_here. destruct (m_ident s) as [n|].
  - intros [= <-]. exists (drop n s). by rewrite take_drop.
  - unfold first_lit. intros H%List.find_some. destruct H as [_ H]. apply bool_decide_eq_true in H. exists (drop (length x) s). rewrite <- H at 1. by rewrite take_drop.
Qed.
Lemma op_rule d p s : at_ p s ->
  gives (S (S d)) nr_operator p (match op_here s with Some x => Some (VUser 3 [VStr x], p + length x) | None => None end).
Proof.
  intros Hp. pose proof (word_rule d p s Hp) as HW. pose proof (lits (S d) symbols p s Hp) as HL.
  assert (alts (S d) (n_word :: (nc_lit <$> symbols)) p (match op_here s with Some x => Some (VStr x, p + length x) | None => None end)) as HA.
  { unfold op_here. destruct (m_ident s) as [n|] eqn:E.
    - apply alts_take. eapply ref_to; [reflexivity|]. apply ident_some in E as (b & u & rest & -> & -> & _).
      assert (length (take (S (length u)) (b :: u ++ rest)) = S (length u)) as ->; [|exact HW]. rewrite take_length. cbn. rewrite app_length. lia.
    - apply alts_next; [by eapply ref_to|exact HL]. }
  destruct (op_here s) as [x|].
  - eapply gives_rule; [done|done|eapply does_choice; [done|exact HA]|done].
  - eapply (gives_rule _ _ _ _ _ _ _ None); [done|done|eapply does_choice; [done|exact HA]|done].
Qed.
Lemma op_here_says s x : op_here s = Some x -> says (SOp x) x.
Proof.
  unfold op_here. destruct (m_ident s) as [n|] eqn:E.
  - intros [= <-]. apply ident_some in E as (b & u & rest & -> & -> & Hb & Hu). cbn [take firstn].
    change (firstn (length u) (u ++ rest)) with (take (length u) (u ++ rest)). rewrite take_app. by constructor.
  - intros H%List.find_some. destruct H as [H _]. apply says_symbol. by apply elem_of_list_In.
Qed.
End Text.
