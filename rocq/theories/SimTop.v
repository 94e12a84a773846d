(** The simulation of Sim.v for whole parses. *)
From Verif Require Import Base Helpers HelpersProofs Utf8 Stream StreamSpec StreamProofs Native Engine EngSpec EngInv EngMon CombProofs
  Utf8Spec Utf8Proofs Term SkipSpec SimSpec Sim FinishProofs RunSpec PegRun.

(** ** Relations *)
Lemma obj_like_refl b o : obj_like b o o.
Proof. done. Qed.
Lemma heap_like_refl b h : heap_like b h h.
Proof. induction h; constructor; [done|done]. Qed.
Lemma heap_like_eq h1 h2 : heap_like true h1 h2 -> h1 = h2.
Proof.
  intros H. induction H as [|[b1 a1] [b2 a2] h1 h2 [HB HA] _ ->]; [done|]. cbn in HB, HA. by rewrite HB, (HA eq_refl).
Qed.
Lemma heap_like_weak b h1 h2 : heap_like true h1 h2 -> heap_like b h1 h2.
Proof. intros ->%heap_like_eq. apply heap_like_refl. Qed.
Lemma heap_like_sym b h1 h2 : heap_like b h1 h2 -> heap_like b h2 h1.
Proof. intros H. induction H as [|o1 o2 h1 h2 [HB HA] _ IH]; constructor; [|done]. split; [done|]. intros Hb. by rewrite HA. Qed.
Lemma heap_like_trans b h1 h2 h3 : heap_like b h1 h2 -> heap_like b h2 h3 -> heap_like b h1 h3.
Proof.
  intros H. revert h3. induction H as [|o1 o2 h1 h2 [HB HA] _ IH]; intros h3 H3; inversion H3 as [|? o3 ? h3' [HB2 HA2] HT]; subst; constructor.
  - split; [congruence|]. intros Hb. by rewrite HA, HA2.
  - by apply IH.
Qed.
Lemma outcome_like_weak {A} b (o1 o2 : outcome A) : outcome_like true o1 o2 -> outcome_like b o1 o2.
Proof. unfold outcome_like. destruct o1, o2; try done. intros (-> & H & H1 & H2). split; [done|]. split; [by apply heap_like_weak|done]. Qed.
Lemma outcome_like_sym {A} b (o1 o2 : outcome A) : outcome_like b o1 o2 -> outcome_like b o2 o1.
Proof.
  unfold outcome_like. destruct o1, o2; try done.
  - intros (-> & H & H1 & H2). split; [done|]. split; [by apply heap_like_sym|done].
  - intros (-> & H). done.
Qed.
Lemma outcome_like_trans {A} b (o1 o2 o3 : outcome A) : outcome_like b o1 o2 -> outcome_like b o2 o3 -> outcome_like b o1 o3.
Proof.
  unfold outcome_like. destruct o1, o2, o3; try done.
  - intros (-> & H & H1 & H2) (-> & K & K1 & K2). split; [done|]. split; [by eapply heap_like_trans|]. split; congruence.
  - intros (-> & H) (-> & K). split; [done|congruence].
Qed.
Lemma cb_like_strict cb : cb_like true cb cb.
Proof.
  intros c p h1 h2 x ->%heap_like_eq. unfold cbres_like. destruct (cb c p h2 x); [|done]. split; [done|apply heap_like_refl].
Qed.

(** ** Muted grammars *)
Lemma mute_info n : n_info (mute_node n) = info_mute (n_info n).
Proof. by destruct n. Qed.
Lemma mute_kind n : n_kind (mute_node n) = map_kind mute_node (n_kind n).
Proof. by destruct n. Qed.
Lemma mute_children n : children (mute_node n) = map mute_node (children n).
Proof.
  unfold children. rewrite mute_kind. destruct (n_kind n) as [| | | | |v [j|]| | | |]; done.
Qed.
Lemma mute_reach E1 E2 root m : (forall name, e_rule E2 name = option_map mute_node (e_rule E1 name)) ->
  reach E2 (mute_node root) m -> exists n, m = mute_node n /\ reach E1 root n.
Proof.
  intros HR H. induction H as [|m c _ (n & -> & IH) Hc|name m Hm].
  - exists root. split; [done|constructor].
  - rewrite mute_children in Hc. apply elem_of_list_In, in_map_iff in Hc as (c' & <- & Hc'). exists c'. split; [done|].
    eapply reach_child; [exact IH|]. by apply elem_of_list_In.
  - rewrite HR in Hm. destruct (e_rule E1 name) as [t|] eqn:ER; [|done]. injection Hm as <-. exists t. split; [done|]. by eapply reach_rule.
Qed.
Lemma mute_fit E1 E2 root : (forall name, e_rule E2 name = option_map mute_node (e_rule E1 name)) -> e_nrules E2 = e_nrules E1 ->
  ids_fit E1 root -> ids_fit E2 (mute_node root).
Proof.
  intros HR HN H m Hm Hi. destruct (mute_reach E1 E2 root m HR Hm) as (n & -> & Hn). rewrite mute_info in Hi |- *. cbn in Hi |- *.
  rewrite HN. by apply H.
Qed.
Lemma mute_top root : top_ok root -> top_ok (mute_node root).
Proof.
  intros [H|(l & H1 & H2 & H3 & H4)].
  - left. by rewrite mute_info.
  - right. exists (map mute_node l). rewrite mute_kind, H1, mute_info. split; [done|]. split; [done|]. split; [done|].
    apply Forall_forall. intros c Hc. apply elem_of_list_In, in_map_iff in Hc as (c' & <- & Hc'). rewrite mute_info. cbn.
    rewrite Forall_forall in H4. apply H4. by apply elem_of_list_In.
Qed.

(** ** Whole parses *)
Lemma reach_env E1 E2 root n : (forall name, e_rule E2 name = e_rule E1 name) -> reach E1 root n -> reach E2 root n.
Proof.
  intros HR H. induction H as [|m c _ IH Hc|name m Hm].
  - constructor.
  - by eapply reach_child.
  - eapply reach_rule. rewrite HR. exact Hm.
Qed.

Lemma bind_inv {A B} (m : M A) (k : A -> M B) s b s' : bind m k s = Ok b s' -> exists a t, m s = Ok a t /\ k a t = Ok b s'.
Proof. unfold bind. destruct (m s) as [a t| |]; [|done|done]. eauto. Qed.
Lemma lift_inv {A} (r : res A) s a t : lift r s = Ok a t -> t = s.
Proof. unfold lift. destruct r; [|done|done]. by intros [= _ ->]. Qed.
Lemma set_pos_inv p s t : set_pos p s = Ok tt t -> s_heap t = s_heap s /\ s_log t = s_log s /\ st_pos t = p.
Proof.
  unfold set_pos. rewrite c_set_pos_eq. destruct (_ || _)%bool; [done|]. intros [= <-]. split; [done|]. split; [done|].
  unfold st_pos. cbn. rewrite c_with_pos_pos. by rewrite Nat2Z.id.
Qed.
Lemma finish_inv r s x s' : finish r s = Ok x s' -> st_pos s <> length (c_work (s_code s)) ->
  x = Some (AErr (snd (scan_rows (s_fheap s) (drop (st_pos s) (s_frames s)) (st_pos s) (st_pos s) (st_pos s)))) /\
  s_heap s' = s_heap s /\ s_log s' = s_log s /\
  st_pos s' = fst (scan_rows (s_fheap s) (drop (st_pos s) (s_frames s)) (st_pos s) (st_pos s) (st_pos s)).
Proof.
  unfold finish. intros H Hp. apply bind_inv in H as (s0 & t0 & [= <- <-] & H).
  assert (c_work_length (s_code s) = length (c_work (s_code s))) as HW by (by destruct (s_code s)). rewrite HW in H.
  change (c_pos (s_code s)) with (st_pos s) in H. rewrite (proj2 (Nat.eqb_neq _ _) Hp) in H.
  destruct (scan_rows _ _ _ _ _) as [att succ]. cbn [fst snd].
  apply bind_inv in H as (? & t & ->%lift_inv & H). apply bind_inv in H as (? & t & ->%lift_inv & H).
  apply bind_inv in H as (? & t & ->%lift_inv & H). apply bind_inv in H as (? & t & ->%lift_inv & H).
  apply bind_inv in H as ([] & t & H1 & H). apply set_pos_inv in H1 as (A1 & A2 & A3).
  apply bind_inv in H as (? & t' & [= _ <-] & H). apply bind_inv in H as (? & t' & ->%lift_inv & H).
  apply bind_inv in H as ([] & u & H1 & H). apply set_pos_inv in H1 as (B1 & B2 & B3).
  apply bind_inv in H as (? & u' & [= _ <-] & H). apply bind_inv in H as (? & u' & ->%lift_inv & H).
  injection H as <- <-. rewrite B1, B2, B3, A1, A2. done.
Qed.

Section Top.
Variable strict : bool.
Variable g : gram.
Variable rx : bytes -> bytes -> option (nat * nat).
Variables cb1 cb2 : nat -> nat -> heap -> ast -> cbres.
Variable o : popts.
Variables c1 c2 : code.
Notation E1 := (mk_env g o rx cb1).
Notation E2 := (mk_env (mute_gram g) (POpts false false false) rx cb2).
Hypothesis Hrx : forall re, rx_ok (rx re).
Hypothesis Hfit : ids_fit E1 (g_rank g).
Hypothesis Htop : top_ok (g_rank g).
Hypothesis Hok1 : code_ok c1.
Hypothesis Hok2 : code_ok c2.
Hypothesis Hwork : c_work c2 = c_work c1.
Hypothesis Hpos : c_pos c2 = c_pos c1.
Hypothesis Hstrict : strict = true -> c1 = c2.
Hypothesis Hcb : cb_like strict cb1 cb2.

Lemma gram_sim_B B fuel : walks g rx c1 B ->
  (forall n, in_gram g n -> traced g o n -> i_skip (n_info n) = false /\ forall p, B p -> loggable_at c1 p) ->
  (g_tloop g = true -> (g_tfilter g < 0)%Z) ->
  outcome_like strict (fst (gram_parse fuel g o rx cb1 c1)) (fst (gram_parse fuel (mute_gram g) (POpts false false false) rx cb2 c2)).
Proof.
  intros HW Htr Hloop. assert (c_pos c1 <= length (c_work c1)) as Hle by (apply HW, HW).
  assert (forall n, reach E1 (g_rank g) n -> in_gram g n) as Hin by (intros n; by apply reach_env).
  assert (sim strict c1 c2 B (init_st c1 (g_nrules g)) (init_st c2 (g_nrules g))) as HS.
  { split; cbn; try done.
    - apply HW.
    - unfold st_pos. cbn. by destruct c1 as [[]|[]].
    - unfold st_pos. cbn. rewrite <- Hpos. by destruct c2 as [[]|[]].
    - unfold c_work_length. assert (c_work_length c2 = c_work_length c1) as HX; [|unfold c_work_length in HX; by rewrite HX].
      destruct c1, c2; cbn in *; congruence.
    - constructor. }
  assert (forall fuel, simq strict c1 c2 B 0 0 (fun _ => True) (parse E1 fuel (g_rank g)) (parse E2 fuel (mute_node (g_rank g)))) as HP.
  { intros f. apply (sm_parse strict c1 c2) with (root := g_rank g); try done.
    - by apply code_ok_lines.
    - by apply code_ok_lines.
    - apply HW.
    - intros n s p Hn. apply (wk_str _ _ _ _ HW n). by apply Hin.
    - intros n re p b Hn. apply (wk_rx _ _ _ _ HW n). by apply Hin.
    - intros n Hn Ht. apply Htr; [by apply Hin|done].
    - constructor. }
  specialize (HP fuel _ _ HS ltac:(lia)).
  destruct (parse E1 fuel (g_rank g) (init_st c1 (g_nrules g))) as [r1 s1|p1 s1|] eqn:EP1;
    destruct (parse E2 fuel (mute_node (g_rank g)) (init_st c2 (g_nrules g))) as [r2 s2|p2 s2|] eqn:EP2; try done.
  - destruct HP as (-> & _ & HS' & _).
    assert (st_pos s2 = st_pos s1) as HP2 by (by eapply pos2).
    destruct (parse_end g rx cb1 o Hrx Hfit c1 fuel r2 s1 Hok1 Hle Htop EP1) as [A1 A2].
    destruct (parse_end (mute_gram g) rx cb2 (POpts false false false) Hrx) with (c := c2) (fuel := fuel) (r := r2) (s := s2) as [B1 B2]; try done.
    { apply (mute_fit E1 E2); done. }
    { by rewrite Hwork, Hpos. }
    { by apply mute_top. }
    rewrite Hwork, HP2 in B1, B2.
    destruct (decide (st_pos s1 = length (c_work c1))) as [Hd|Hd].
    + rewrite (A1 Hd), (B1 Hd). cbn. split; [done|]. split; [apply HS'|]. split; [done|]. symmetry. apply HS'.
    + destruct (A2 Hd) as (k1 & t1 & F1 & _). destruct (B2 Hd) as (k2 & t2 & F2 & _). rewrite F1, F2.
      unfold gram_parse in F1, F2. change (g_nrules (mute_gram g)) with (g_nrules g) in F2. change (g_rank (mute_gram g)) with (mute_node (g_rank g)) in F2.
      rewrite EP1 in F1. rewrite EP2 in F2. cbn [fst] in F1, F2.
      apply finish_inv in F1 as (-> & F1b & F1c & F1d).
      2:{ rewrite (sm_code1 _ _ _ _ _ _ HS'). by rewrite c_with_pos_work. }
      apply finish_inv in F2 as (-> & F2b & F2c & F2d).
      2:{ rewrite (sm_code2 _ _ _ _ _ _ HS'), c_with_pos_work, Hwork. by rewrite HP2. }
      unfold outcome_like. rewrite F1b, F1c, F1d, F2b, F2c, F2d, (sm_frames _ _ _ _ _ _ HS'), (sm_fheap _ _ _ _ _ _ HS'), HP2.
      split; [done|]. split; [apply HS'|]. split; [done|]. symmetry. apply HS'.
  - destruct HP as [-> HS']. unfold gram_parse. change (g_nrules (mute_gram g)) with (g_nrules g). change (g_rank (mute_gram g)) with (mute_node (g_rank g)).
    rewrite EP1, EP2. cbn. split; [done|]. symmetry. apply HS'.
  - unfold gram_parse. change (g_nrules (mute_gram g)) with (g_nrules g). change (g_rank (mute_gram g)) with (mute_node (g_rank g)).
    by rewrite EP1, EP2.
Qed.

Lemma walks_all : c_pos c1 <= length (c_work c1) -> walks g rx c1 (fun p => p <= length (c_work c1)).
Proof.
  intros H. split; [done|done| |].
  - intros n s p _ _ Hp HE. apply (f_equal length) in HE. rewrite take_length, drop_length in HE. lia.
  - intros n re p b _ _ Hp HE. apply Hrx in HE. rewrite drop_length in HE. lia.
Qed.

Lemma gram_sim fuel : c_pos c1 <= length (c_work c1) -> trace_safe g o rx c1 ->
  outcome_like strict (fst (gram_parse fuel g o rx cb1 c1)) (fst (gram_parse fuel (mute_gram g) (POpts false false false) rx cb2 c2)).
Proof.
  intros Hp [HL [HN|(HK & B & HW & HB)]].
  - apply (gram_sim_B (fun p => p <= length (c_work c1))); [by apply walks_all| |done]. intros n Hn Ht. by destruct (HN n Hn).
  - apply (gram_sim_B B); [done| |done]. intros n Hn Ht. split; [by apply HK|done].
Qed.
End Top.

(** ** Text that can be traced *)
Lemma utf8_ne r b : utf8 r b -> b <> [].
Proof. by intros []. Qed.
Lemma utf8s_rest ra a : utf8s ra a -> forall rs b, utf8s rs (a ++ b) -> exists rb, rs = ra ++ rb /\ utf8s rb b.
Proof.
  induction 1 as [|r x ra a Hr Ha IH]; intros rs b H.
  - by exists rs.
  - inversion H as [HN HN2|r2 x2 rs2 b2 Hr2 Hs2 E1 E2].
    + exfalso. symmetry in HN2. apply app_eq_nil in HN2 as [HN2 _]. apply app_eq_nil in HN2 as [HN2 _]. by apply utf8_ne in Hr.
    + pose proof (decode_rune_spec _ _ (a ++ b) Hr) as D1. pose proof (decode_rune_spec _ _ b2 Hr2) as D2.
      rewrite app_assoc in D1. rewrite <- E2 in D1. rewrite D2 in D1. injection D1 as <- HL.
      rewrite <- app_assoc in E2. assert (x2 = x) as ->.
      { apply (f_equal (take (length x))) in E2. rewrite take_app in E2. rewrite <- HL, take_app in E2. done. }
      apply app_inv_head in E2 as ->. destruct (IH _ _ Hs2) as (rb & -> & Hb). by exists rb.
Qed.
Lemma plain_app a b : plain a -> plain b -> plain (a ++ b).
Proof. intros (ra & Ha & Fa) (rb & Hb & Fb). exists (ra ++ rb). split; [by apply utf8s_app|by apply Forall_app]. Qed.
Lemma plain_rest a b : plain a -> plain (a ++ b) -> plain b.
Proof. intros (ra & Ha & Fa) (rs & Hs & Fs). destruct (utf8s_rest _ _ Ha _ _ Hs) as (rb & -> & Hb). apply Forall_app in Fs as [_ Fs]. by exists rb. Qed.

Lemma plain_walks g rx c : (forall re, rx_ok (rx re)) -> gram_plain g rx -> plain (c_work c) -> c_pos c = 0 ->
  exists B, walks g rx c B /\ forall p, B p -> loggable_at c p.
Proof.
  intros Hrx [HS HR] HT HP. exists (fun p => p <= length (c_work c) /\ plain (take p (c_work c)) /\ plain (drop p (c_work c))). split.
  - split.
    + rewrite HP, take_0, drop_0. split; [lia|]. split; [|done]. exists []. split; [constructor|done].
    + intros p [H _]. done.
    + intros n s p Hn HK (Hp & H1 & H2) HE. pose proof (HS n s Hn HK) as Hs.
      assert (take (p + length s) (c_work c) = take p (c_work c) ++ s) as ET.
      { rewrite <- HE at 2. by rewrite <- take_take_drop. }
      assert (drop p (c_work c) = s ++ drop (p + length s) (c_work c)) as ED.
      { rewrite <- drop_drop. rewrite <- HE at 1. by rewrite take_drop. }
      split; [apply (f_equal length) in HE; rewrite take_length, drop_length in HE; lia|]. split.
      * rewrite ET. by apply plain_app.
      * rewrite ED in H2. by apply plain_rest in H2.
    + intros n re p b Hn HK (Hp & H1 & H2) HE. destruct (HR n re Hn HK _ _ H2 HE) as [K1 K2]. apply Hrx in HE. rewrite drop_length in HE.
      split; [lia|]. split; [|by rewrite drop_drop in K2].
      rewrite <- take_take_drop. by apply plain_app.
  - intros p (Hp & (rs & H1 & HF) & _). unfold loggable_at.
    assert (c_wf (c_with_pos c p)) as Hwf by (unfold c_wf; by rewrite c_with_pos_pos, c_with_pos_work).
    pose proof (c_peek_runes_eq (c_with_pos c p) (-5) Hwf) as HE. rewrite c_with_pos_pos, c_with_pos_work in HE.
    destruct (last_n_runes_ok 5 rs (take p (c_work c)) H1) as (b' & _ & Hb).
    { unfold last_n. by apply Forall_drop. }
    exists b'. unfold c_with_pos in HE. destruct c; rewrite HE; exact Hb.
Qed.

Lemma loggable_same c1 c2 p : c_work c2 = c_work c1 -> p <= length (c_work c1) -> loggable_at c1 p -> loggable_at c2 p.
Proof.
  intros HW Hp [t Ht]. exists t. pose proof (c_peek_runes_eq (c_with_pos c1 p) (-5)) as H1. pose proof (c_peek_runes_eq (c_with_pos c2 p) (-5)) as H2.
  rewrite c_with_pos_pos, c_with_pos_work in H1, H2. rewrite HW in H2.
  specialize (H1 ltac:(unfold c_wf; by rewrite c_with_pos_pos, c_with_pos_work)).
  specialize (H2 ltac:(unfold c_wf; by rewrite c_with_pos_pos, c_with_pos_work, HW)).
  unfold c_with_pos in H1, H2. destruct c1, c2; rewrite H2; rewrite <- Ht, H1; done.
Qed.
Lemma trace_safe_same g o rx c1 c2 : c_work c2 = c_work c1 -> c_pos c2 = c_pos c1 -> trace_safe g o rx c1 -> trace_safe g o rx c2.
Proof.
  intros HW HP [HL [HN|(HK & B & Hw & HB)]]; (split; [done|]); [by left|right]. split; [done|]. exists B. split.
  - destruct Hw as [W1 W2 W3 W4]. split; rewrite ?HP, ?HW; done.
  - intros p Hp. apply (loggable_same c1); [done|by apply Hw|by apply HB].
Qed.

(** ** Two streams *)
Lemma streams_sim g o rx cb c1 c2 fuel : (forall re, rx_ok (rx re)) -> ids_fit (mk_env g o rx cb) (g_rank g) -> top_ok (g_rank g) ->
  code_ok c1 -> code_ok c2 -> c_work c2 = c_work c1 -> c_pos c2 = c_pos c1 -> c_pos c1 <= length (c_work c1) ->
  cb_like false cb cb -> trace_safe g o rx c1 ->
  outcome_like false (fst (gram_parse fuel g o rx cb c1)) (fst (gram_parse fuel g o rx cb c2)).
Proof.
  intros Hrx Hfit Htop H1 H2 HW HP Hle Hcb Hs.
  eapply outcome_like_trans; [apply (gram_sim false g rx cb cb o c1 c1); done|].
  apply outcome_like_sym. apply (gram_sim false g rx cb cb o c2 c1); try done.
  - by rewrite HP, HW.
  - by eapply trace_safe_same.
Qed.

(** ** Histories *)
Lemma with_stack_same g : with_stack g (g_tstack g) = g.
Proof. by destruct g. Qed.
Lemma history_same fuel rx cb l g : (g_tstack g = true \/ Forall (fun q => po_debug (rq_opts q) = false) l) ->
  history fuel g rx cb l = map (fresh fuel g rx cb) l.
Proof.
  induction l as [|q l IH]; intros Hq; cbn [history map]; [done|]. unfold fresh at 1.
  assert (snd (gram_parse fuel g (rq_opts q) rx cb (rq_code q)) = g_tstack g) as HS.
  { unfold gram_parse. destruct (parse _ _ _ _); cbn; [done| |done]. destruct Hq as [->|Hq]; [done|]. inversion_clear Hq as [|? ? Hd _]. rewrite Hd. by rewrite orb_false_r. }
  destruct (gram_parse _ _ _ _ _ _) as [o b]. cbn in HS. subst b. cbn [fst]. f_equal. rewrite with_stack_same. apply IH.
  destruct Hq as [Hq|Hq]; [by left|right]. by inversion Hq.
Qed.
Lemma with_stack_reach g b n : in_gram (with_stack g b) n <-> in_gram g n.
Proof. split; apply reach_env; done. Qed.
Lemma with_stack_mute g b : mute_gram (with_stack g b) = mute_gram g.
Proof. done. Qed.
Lemma trace_safe_less g b o rx c : trace_safe g (debugging o) rx c -> trace_safe (with_stack g b) o rx c.
Proof.
  intros [HL [HN|(HK & B & Hw & HB)]]; (split; [done|]).
  - left. intros n Hn%with_stack_reach Ht. apply (HN n Hn). unfold traced. cbn. by rewrite orb_true_r.
  - right. split.
    + intros n Hn%with_stack_reach Ht. apply HK; [done|]. unfold traced. cbn. by rewrite orb_true_r.
    + exists B. split; [|done]. destruct Hw as [W1 W2 W3 W4]. split; [done|done| |].
      * intros n s p Hn%with_stack_reach. by apply W3.
      * intros n re p k Hn%with_stack_reach. by apply W4.
Qed.
Lemma history_safe fuel rx cb g l : (forall re, rx_ok (rx re)) -> ids_fit (mk_env g (POpts false false false) rx cb) (g_rank g) -> top_ok (g_rank g) ->
  Forall (fun q => new_code (rq_code q) /\ trace_safe g (debugging (rq_opts q)) rx (rq_code q)) l ->
  forall b, Forall2 (outcome_like true) (history fuel (with_stack g b) rx cb l) (map (fresh fuel g rx cb) l).
Proof.
  intros Hrx Hfit Htop. induction 1 as [|q l [[Hc Hp] Hs] _ IH]; intros b; cbn [history map]; [constructor|].
  destruct (gram_parse fuel (with_stack g b) (rq_opts q) rx cb (rq_code q)) as [o b'] eqn:EG. constructor; [|apply IH].
  assert (o = fst (gram_parse fuel (with_stack g b) (rq_opts q) rx cb (rq_code q))) as -> by (by rewrite EG).
  assert (forall b, outcome_like true (fst (gram_parse fuel (with_stack g b) (rq_opts q) rx cb (rq_code q)))
    (fst (gram_parse fuel (mute_gram g) (POpts false false false) rx cb (rq_code q)))) as HG.
  { intros b0. change (mute_gram g) with (mute_gram (with_stack g b0)). apply gram_sim; try done.
    - intros n Hn Hr. apply (Hfit n); [|done]. revert Hn. by apply reach_env.
    - apply cb_like_strict.
    - by rewrite Hp; lia.
    - by apply trace_safe_less. }
  eapply outcome_like_trans; [apply HG|]. apply outcome_like_sym. unfold fresh. rewrite <- (with_stack_same g) at 1. apply HG.
Qed.

Lemma ts_work_join text toks : c_work (CRune (new_rune_stream (mjoin (tk_repr <$> toks)))) = c_work (CTok (new_token_stream text toks)).
Proof. cbn. induction toks as [|t toks IH]; [done|]. cbn. f_equal. exact IH. Qed.
Lemma flag_kept fuel g o rx cb c r s : fst (gram_parse fuel g o rx cb c) = Ok r s -> snd (gram_parse fuel g o rx cb c) = g_tstack g.
Proof. unfold gram_parse. by destruct (parse _ _ _ _). Qed.
