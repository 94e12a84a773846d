(** The grammar of videogamedb reads what GamesSpec.v says. *)
From stdpp Require Import sets.
From Verif Require Import Base Helpers Utf8 Utf8Proofs Stream StreamSpec Native Engine EngSpec EngInv Toy Peg PegProofs PegRep PegBody PegStd PegStdProofs
  RunSpec PegLaws PegRun Build BuildSpec BuildMain Joeson JoesonSpec JoesonRun Calc CalcRun CalcSpec CalcPeg CalcMain Brave LispRead LispReadPeg LispReadText LispReadTop Gives
  Color ColorRun ColorSpec Readers ColorPeg ColorMain Games GamesRun GamesSpec.
Local Open Scope list_scope.

(** ** The callbacks, as functions of values *)
Definition game_v (g : game) : val := VUser 0 [VInt (gm_id g); VStr (gm_title g); VInt (gm_year g); VStr (gm_developer g); VInt (gm_score g)].
(** [t]: what to return instead of a panic of NativeIntFrom. *)
Definition game_cb_with (t : option (option nat)) (f pos : nat) (h : heap) (x : ast) : cbres :=
  match t, game_cb f pos h x with
  | Some u, CbPanic _ => CbRet h ((fun k => AUser k []) <$> u)
  | _, r => r
  end.
Definition g_id (t : option (option nat)) (v : val) : option (option val) :=
  match whole v with
  | Some s => match atoi s with
              | Some z => Some (Some (game_v (find_game (fun g => (gm_id g =? z)%Z))))
              | None => match t with Some u => Some ((fun k => VUser k []) <$> u) | None => None end
              end
  | None => None
  end.
Definition g_title (v : val) : option val :=
  match v with VArr l => match strs l with Some s => Some (game_v (find_game (fun g => bytes_eqb (gm_title g) s))) | None => None end | _ => None end.
Definition g_best (v : val) : option val :=
  match v with VStr s => match atoi s with Some z => Some (game_v (find_game (fun g => (gm_year g =? z)%Z))) | None => None end | _ => None end.
Definition g_cat (v : val) : option val :=
  match v with VMap kv => match strs kv.*2 with Some s => Some (VStr s) | None => None end | _ => None end.
Definition as_cb (r : option val) : option (option val) := match r with Some v => Some (Some v) | None => None end.
Definition game_cbf (t : option (option nat)) (f pos : nat) (v : val) : option (option val) :=
  match f with 0 => g_id t v | 1 => as_cb (g_title v) | 2 => as_cb (g_best v) | 3 => as_cb (g_cat v) | _ => None end.
Lemma game_braver t : braver game_cb (game_cb_with t).
Proof. intros c p h x. unfold game_cb_with. destruct t; [|by right]. destruct (game_cb c p h x); [by right|left; eauto]. Qed.
Lemma strs_rep_S P h l l' s n : reps P h l l' -> strs l' = Some s -> concat_arr (fun _ => []) (S n) h l = ROk s.
Proof.
  intros H. revert s. induction H as [|x v l l' Hx Hl IH]; intros s; cbn [strs]; [intros [= <-]; done|].
  destruct Hx as [| | |b| | | |]; try done. destruct (strs l') as [r|] eqn:E; [|done]. intros [= <-]. specialize (IH r eq_refl). clear E.
  cbn [concat_arr] in *. cbn [mapr]. revert IH. destruct (mapr _ l) as [xs| |]; try done. cbn [rbind]. intros [= <-]. done.
Qed.
Lemma mapr_rep P h m kv (F : string -> res bytes) : (forall k s, nm_get m k = Some (AStr s) -> F k = ROk s) -> repf P h m kv ->
  forall s, strs kv.*2 = Some s -> exists xs, mapr F kv.*1 = ROk xs /\ mjoin xs = s.
Proof.
  intros HF Hr. induction Hr as [m|m k v kv x Hg Hx Hr IH]; intros s Hs; cbn [fmap list_fmap fst snd strs] in *.
  - injection Hs as <-. by exists [].
  - destruct Hx as [s0| | | | | | |]; try done. destruct (strs kv.*2) as [r|] eqn:E; [|done]. injection Hs as <-. destruct (IH HF r eq_refl) as (xs & Hxs & <-).
    exists (s0 :: xs). cbn [mapr]. rewrite (HF k s0 Hg). cbn [rbind]. by rewrite Hxs.
Qed.
Lemma concat_rep P h m kv s n : nm_keys m = kv.*1 -> repf P h m kv -> strs kv.*2 = Some s -> nm_concat (fun _ => []) (S n) h m = ROk s.
Proof.
  intros Hk Hr Hs. cbn [nm_concat]. rewrite Hk. match goal with |- context [mapr ?F _] => destruct (mapr_rep P h m kv F) with (s := s) as (xs & Hx & <-) end; [|done|done|].
  - intros k s' Hg. by rewrite Hg.
  - by rewrite Hx.
Qed.
Lemma game_keeps t E f : e_cb E = game_cb_with t -> cb_keeps E (game_cbf t) f.
Proof.
  intros HE p h x v P Hr _. rewrite HE. unfold game_cb_with.
  assert (forall g, rep P h (game_ast g) (game_v g)) as HC by (intros; repeat constructor).
  destruct f as [|[|[|[|f]]]]; cbn [game_cbf game_cb].
  - unfold g_id. destruct (whole v) as [s|] eqn:EW; [|done]. rewrite (whole_rep _ _ _ _ _ Hr EW). destruct (atoi s) as [z|].
    + eexists h, (Some _). split; [by destruct t|]. split; [apply hext_refl|]. eexists. split; [done|apply HC].
    + destruct t as [[u|]|]; [| |done].
      * exists h, (Some (AUser u [])). split; [done|]. split; [apply hext_refl|]. eexists. split; [done|by repeat constructor].
      * exists h, None. split; [done|]. split; [apply hext_refl|]. done.
  - destruct Hr as [| | | |l l' Hl| | |]; try done. cbn [g_title]. destruct (strs l') as [s|] eqn:ES; [|done]. cbn [as_cb native_string_from].
    rewrite (strs_rep_S _ _ _ _ _ _ Hl ES). cbn [rbind]. eexists h, (Some _). split; [by destruct t|]. split; [apply hext_refl|]. eexists. split; [done|apply HC].
  - destruct Hr as [s| | | | | | |]; try done. cbn [g_best]. cbn [native_int_from]. destruct (atoi s) as [z|]; [|done].
    eexists h, (Some _). split; [by destruct t|]. split; [apply hext_refl|]. eexists. split; [done|apply HC].
  - destruct Hr as [| | | | | |a m at_ kv Ha Hh Hk Hnd Hf|]; try done. cbn [g_cat]. destruct (strs kv.*2) as [s|] eqn:ES; [|done]. cbn [as_cb]. rewrite Hh.
    destruct Hk as [Hk _]. rewrite (concat_rep _ _ _ _ _ _ Hk Hf ES). eexists h, (Some _). split; [by destruct t|]. split; [apply hext_refl|]. eexists. split; [done|constructor].
  - done.
Qed.

(** ** The nodes *)
Definition v_blank : node := rl "_" true 0 None (KPat (o_class re_blank) None (-1) (-1)).
Definition v_year : node := rl "Year" true 1 (Some 3) (KSeq TObject
  [nd "a" false false (KChoice [nd "" false true (KStr (s2b "19")); nd "" false true (KStr (s2b "20")); nd "" false true (KStr (s2b "21"))]);
   nd "b" true false (KRegex re_digit); nd "c" true false (KRegex re_digit)]).
Definition v_id : node := rl "VideoGameId" true 2 (Some 0) (KSeq TArray [nd "" true false (KRegex re_first); nd "" true false (KPat (o_class re_digit) None (-1) (-1))]).
Definition v_title : node := rl "VideoGameTitle" true 3 (Some 1) (KSeq TSingle
  [o_lit (s2b """"); nd "" true false (KPat (o_class re_unquote) None (-1) (-1)); o_lit (s2b """")]).
Definition v_best : node := rl "VideoGameBestOfYear" true 4 (Some 2) (KSeq TSingle [o_lit (s2b "bestIn:"); n_sp; rf "Year"]).
Definition v_game : node := rl "VideoGame" true 5 None (KChoice [v_id; v_title; v_best]).
Definition v_top : node := Node (Info "videogamedb" "" true false 0 true None false false) (KChoice [v_game]).
Lemma games_nodes : games = (v_top, [("_", v_blank); ("Year", v_year); ("VideoGameId", v_id); ("VideoGameTitle", v_title); ("VideoGameBestOfYear", v_best);
  ("VideoGame", v_game)]%string).
Proof. reflexivity. Qed.

(** ** What they read *)
Definition f_century : reader := r_alt [r_lit (s2b "19"); r_lit (s2b "20"); r_lit (s2b "21")].
Definition f_year0 : reader := r_object [("a", f_century); ("b", r_re (m_class digit_b)); ("c", r_re (m_class digit_b))]%string MNone.
Definition f_year : reader := r_cb g_cat f_year0.
Definition f_title0 : reader := r_single [(false, r_lit (s2b """")); (true, r_star m_unquote); (false, r_lit (s2b """"))] None.
Definition f_best0 : reader := r_single [(false, r_lit (s2b "bestIn:")); (false, f_blank); (true, f_year)] None.
Definition f_id (t : option (option nat)) : reader := r_cb (fun v => match g_id t v with Some r => r | None => None end) f_digits.
Definition f_game (t : option (option nat)) : reader := r_alt [f_id t; r_cb g_title f_title0; r_cb g_best f_best0].

Lemma unquote_length s n : m_unquote s = Some n -> 0 < n <= length s.
Proof.
  destruct s as [|b s]; [done|]. unfold m_unquote. destruct (b =? 34)%N; [done|]. pose proof (decode_rune_width (b :: s) ltac:(done)) as HW.
  intros H. assert (n = snd (decode_rune (b :: s))) as -> by congruence. lia.
Qed.
Lemma unquote_pieces rest : shut rest -> forall k u, length (u ++ rest) <= k -> Forall (fun b => b <> 34%N) u ->
  List.concat (pieces m_unquote k (u ++ rest)) = u.
Proof.
  intros Hr. induction k as [|k IH]; intros u Hk Hu; [destruct u; [done|cbn in Hk; lia]|]. cbn [pieces]. destruct u as [|b u].
  - cbn [app]. destruct Hr as [-> |Hr]; [done|]. destruct rest as [|c rest]; [done|]. by injection Hr as ->.
  - pose proof (decode_before (b :: u) rest ltac:(done) Hr) as HW. remember (snd (decode_rune ((b :: u) ++ rest))) as w eqn:Ew.
    assert (m_unquote ((b :: u) ++ rest) = Some w) as ->.
    { rewrite Ew. cbn [app m_unquote]. apply Forall_cons in Hu as [Hb _]. destruct (N.eqb_spec b 34); [done|]. reflexivity. }
    cbn [List.concat]. rewrite take_app_le, drop_app_le by lia. rewrite IH; [by rewrite take_drop| |by apply Forall_drop].
    rewrite app_length, drop_length. rewrite app_length in Hk. lia.
Qed.
Lemma strs_pieces l : strs (VStr <$> l) = Some (List.concat l).
Proof. induction l as [|x l IH]; [done|]. cbn. by rewrite IH. Qed.
Lemma unquote_here u rest : shut rest -> Forall (fun b => b <> 34%N) u -> exists l, r_star m_unquote (u ++ rest) = Some (VArr l, length u) /\ strs l = Some u.
Proof.
  intros Hr Hu. unfold r_star. pose proof (unquote_pieces rest Hr (length (u ++ rest)) u ltac:(done) Hu) as HP.
  eexists. split; [by rewrite HP|]. by rewrite strs_pieces, HP.
Qed.
Lemma unquote_inv s v k : r_star m_unquote s = Some (v, k) -> exists u l, s = u ++ drop k s /\ k = length u /\ v = VArr l /\ strs l = Some u /\
  Forall (fun b => b <> 34%N) u.
Proof.
  destruct (class_split (fun b => negb (b =? 34)%N) s) as (u & rest & -> & Hu & Hr).
  assert (Forall (fun b => b <> 34%N) u) as Hu'. { eapply Forall_impl; [exact Hu|]. cbv beta. intros b Hb ->. done. }
  assert (shut rest) as HS. { destruct rest as [|b rest]; [by left|]. right. cbn. specialize (Hr b eq_refl). cbv beta in Hr. by destruct (N.eqb_spec b 34) as [-> |]. }
  destruct (unquote_here u rest HS Hu') as (l & HL & HL'). rewrite HL. intros [= <- <-]. exists u, l. by rewrite drop_here.
Qed.
Lemma re_inv f s v k : r_re (m_class f) s = Some (v, k) -> exists b, s = [b] ++ drop k s /\ k = 1 /\ v = VStr [b] /\ f b = true.
Proof.
  unfold r_re, m_class. destruct s as [|b s]; [done|]. destruct (f b) eqn:E; [|done]. intros [= <- <-]. exists b. cbn [drop take]. by rewrite drop_0, take_0.
Qed.
Lemma re_here f b s : f b = true -> r_re (m_class f) (b :: s) = Some (VStr [b], 1).
Proof. intros H. unfold r_re, m_class. rewrite H. cbn [take]. by rewrite take_0. Qed.
Definition century (c : bytes) : Prop := c = s2b "19" \/ c = s2b "20" \/ c = s2b "21".
Lemma century_inv s v k : f_century s = Some (v, k) -> exists c, century c /\ s = c ++ drop k s /\ k = length c /\ v = VStr c.
Proof.
  assert (forall c u j, r_lit c s = Some (u, j) -> s = c ++ drop j s /\ j = length c /\ u = VStr c) as HL.
  { intros c u j. unfold r_lit. destruct (bool_decide_reflect (take (length c) s = c)) as [E|]; [|done]. intros [= <- <-]. split; [|done]. rewrite <- E at 1. by rewrite take_drop. }
  unfold f_century. cbn [r_alt]. destruct (r_lit (s2b "19") s) as [[u j]|] eqn:E1; [intros [= <- <-]; exists (s2b "19"); split; [by left|by apply HL]|].
  destruct (r_lit (s2b "20") s) as [[u j]|] eqn:E2; [intros [= <- <-]; exists (s2b "20"); split; [by right; left|by apply HL]|].
  destruct (r_lit (s2b "21") s) as [[u j]|] eqn:E3; [intros [= <- <-]; exists (s2b "21"); split; [by right; right|by apply HL]|done].
Qed.
Lemma century_here c rest : century c -> f_century (c ++ rest) = Some (VStr c, 2).
Proof. by intros [-> |[-> | ->]]. Qed.
Lemma century_length c : century c -> length c = 2.
Proof. by intros [-> |[-> | ->]]. Qed.
Lemma year_inv s v k : f_year0 s = Some (v, k) -> exists c a b, century c /\ digit_b a = true /\ digit_b b = true /\ s = (c ++ [a; b]) ++ drop k s /\
  v = VMap [("a", VStr c); ("b", VStr [a]); ("c", VStr [b])]%string.
Proof.
  unfold f_year0. cbn [r_object]. destruct (f_century s) as [[v1 k1]|] eqn:E1; [|done]. apply century_inv in E1 as (c & Hc & Hs & -> & ->). cbn [joined String.eqb Ascii.eqb Bool.eqb orb].
  destruct (r_re _ (drop (length c) s)) as [[v2 k2]|] eqn:E2; [|done]. apply re_inv in E2 as (a & Ha & -> & -> & Da). cbn [joined String.eqb Ascii.eqb Bool.eqb orb].
  destruct (r_re _ (drop 1 (drop (length c) s))) as [[v3 k3]|] eqn:E3; [|done]. apply re_inv in E3 as (b & Hb & -> & -> & Db). cbn [joined String.eqb Ascii.eqb Bool.eqb orb].
  intros [= <- <-]. exists c, a, b. split; [done|]. split; [done|]. split; [done|]. split; [|done].
  rewrite <- !drop_drop. rewrite <- !app_assoc. replace (drop 2 (drop (length c) s)) with (drop 1 (drop 1 (drop (length c) s))) by (by rewrite drop_drop). change ([a; b] ++ drop 1 (drop 1 (drop (length c) s))) with ([a] ++ [b] ++ drop 1 (drop 1 (drop (length c) s))).
  by rewrite <- Hb, <- Ha, <- Hs.
Qed.
Lemma year_here c a b rest : century c -> digit_b a = true -> digit_b b = true -> f_year (c ++ [a; b] ++ rest) = Some (VStr (c ++ [a; b]), 4).
Proof.
  intros Hc Ha Hb. unfold f_year, r_cb, f_year0. cbn [r_object]. rewrite (century_here c _ Hc). cbn [joined String.eqb Ascii.eqb Bool.eqb orb].
  rewrite <- (century_length c Hc), drop_here. cbn [app]. rewrite (re_here _ a) by done. cbn [joined String.eqb Ascii.eqb Bool.eqb orb drop].
  rewrite (re_here _ b) by done. cbn [joined String.eqb Ascii.eqb Bool.eqb orb made_val kv_set g_cat fmap list_fmap snd strs app]. rewrite (century_length c Hc). done.
Qed.

Section Text.
Variable text : bytes.
Variable t : option (option nat).
Notation reads := (Readers.reads (g_rule (gram_of games)) game_rx (game_cbf t) text).
Notation gives := (Gives.gives (g_rule (gram_of games)) game_rx (game_cbf t) text).

Lemma vlit_reads d w : reads d (o_lit w) (r_lit w).
Proof. apply reads_bare; [done|done|by split; [|left]|]. by apply doing_lit. Qed.
Lemma vsp_reads d : reads (S d) n_sp f_blank.
Proof.
  apply reads_bare; [done|done|by split; [|left]|]. eapply doing_ref; [reflexivity|reflexivity|].
  apply reads_rule; [done|done|by split; [|left]|]. eapply doing_star; [reflexivity|apply class_length|]. apply reads_bare; [done|done|by split; [|left]|]. by eapply doing_re.
Qed.
Lemma year_reads d : reads (S d) (rf "Year") f_year.
Proof.
  apply reads_bare; [done|done|by split; [|left]|]. eapply doing_ref; [reflexivity|reflexivity|].
  apply (reads_cb _ _ _ _ _ _ _ _ 3); [done|done|done|done| |].
  - eapply doing_object; [reflexivity|]. constructor; [|constructor; [|constructor; [|constructor]]]; (split; [done|]); (split; [done|]).
    + apply reads_bare; [done|done|by split; [|right]|]. eapply doing_alt; [reflexivity|].
      repeat (constructor; [apply reads_bare; [done|done|by split; [|left]|]; by apply doing_lit|]). constructor.
    + apply reads_bare; [done|done|by split; [|right]|]. by eapply doing_re.
    + apply reads_bare; [done|done|by split; [|right]|]. by eapply doing_re.
  - intros q s v k p Hq Hv. apply year_inv in Hv as (c & a & b & _ & _ & _ & _ & ->). done.
Qed.
Lemma title_reads d : reads (S d) v_title (r_cb g_title f_title0).
Proof.
  apply (reads_cb _ _ _ _ _ _ _ _ 1); [done|done|done|done| |].
  - eapply doing_single; [reflexivity|]. constructor; [split; [done|apply vlit_reads]|]. constructor; [|constructor; [split; [done|apply vlit_reads]|constructor]].
    split; [done|]. apply reads_bare; [done|done|by split; [|left]|]. eapply doing_star; [reflexivity|apply unquote_length|].
    apply reads_bare; [done|done|by split; [|left]|]. by eapply doing_re.
  - intros q s v k p Hq Hv. unfold f_title0 in Hv. apply single_inv in Hv as (v1 & k1 & k2 & _ & Hv & _).
    apply single_inv in Hv as (v3 & k3 & k4 & H3 & Hv & _). apply unquote_inv in H3 as (u & l & _ & _ & -> & HL & _).
    apply single_inv in Hv as (v5 & k5 & k6 & _ & Hv & _). cbn [r_single default] in Hv. injection Hv as <- _. cbn [game_cbf g_title]. by rewrite HL.
Qed.
Lemma best_inv s v k : f_best0 s = Some (v, k) -> exists w c a b, s = (s2b "bestIn:" ++ w ++ c ++ [a; b]) ++ drop k s /\ blank w /\ century c /\
  digit_b a = true /\ digit_b b = true /\ v = VStr (c ++ [a; b]).
Proof.
  unfold f_best0. intros H. apply single_inv in H as (v1 & k1 & m1 & H1 & H & ->). apply lit_inv in H1 as [E1 ->].
  apply single_inv in H as (v2 & k2 & m2 & H2 & H & ->). apply blank_cut in H2 as (w & E2 & -> & Hw).
  apply single_inv in H as (v3 & k3 & m3 & H3 & H & ->). cbn [r_single default] in H. injection H as <- <-.
  unfold f_year, r_cb in H3. destruct (f_year0 _) as [[u j]|] eqn:EY; [|done]. apply year_inv in EY as (c & a & b & Hc & Ha & Hb & E3 & ->).
  cbn [g_cat fmap list_fmap snd strs app] in H3. injection H3 as <- <-. exists w, c, a, b. rewrite <- !drop_drop, drop_0.
  split; [|done]. rewrite <- (app_assoc (s2b "bestIn:")), <- (app_assoc w). by rewrite <- E3, <- E2, <- E1.
Qed.
Lemma year_number c a b : century c -> digit_b a = true -> digit_b b = true -> a_number (c ++ [a; b]) /\ small (c ++ [a; b]).
Proof.
  intros Hc Ha%digit_is Hb%digit_is. assert (exists x y, c = [x; y] /\ (49 <= x <= 50)%N /\ is_digit y) as (x & y & -> & Hx & Hy).
  { destruct Hc as [-> |[-> | ->]]; do 2 eexists; (split; [reflexivity|]); unfold is_digit; by vm_compute. }
  split; [exists x, [y; a; b]; split; [done|]; split; [lia|do 3 (apply List.Forall_cons; [done|]); apply List.Forall_nil]|]. unfold small, decimal. cbn [app fold_left]. unfold is_digit in *. lia.
Qed.
Lemma best_reads d : reads (S (S d)) v_best (r_cb g_best f_best0).
Proof.
  apply (reads_cb _ _ _ _ _ _ _ _ 2); [done|done|done|done| |].
  - eapply doing_single; [reflexivity|]. constructor; [split; [done|apply vlit_reads]|]. constructor; [split; [done|apply vsp_reads]|].
    constructor; [split; [done|apply year_reads]|constructor].
  - intros q s v k p Hq Hv. apply best_inv in Hv as (w & c & a & b & _ & _ & Hc & Ha & Hb & ->). cbn [game_cbf g_best].
    destruct (year_number c a b Hc Ha Hb) as [HN HS]. rewrite (atoi_number _ HN). unfold small in HS. by destruct (Z.ltb_spec (decimal (c ++ [a; b])) (2 ^ 63)); [|lia].
Qed.
Hypothesis Ht : t = None -> starts_small text.
Lemma id_reads d : gives (S d) v_id 0 (shift 0 (f_id t text)).
Proof.
  assert (Readers.doing (g_rule (gram_of games)) game_rx (game_cbf t) text d v_id f_digits) as HD.
  { eapply doing_array; [reflexivity|]. constructor; [|constructor; [|constructor]]; (split; [done|]); (apply reads_bare; [done|done|by split; [|left]|]).
    - by eapply doing_re.
    - eapply doing_star; [reflexivity|apply class_length|]. apply reads_bare; [done|done|by split; [|left]|]. by eapply doing_re. }
  eapply gives_rule; [done|done|by apply (HD 0 text)|]. unfold f_id, r_cb. destruct (f_digits text) as [[v k]|] eqn:E; [|done]. cbn [shift].
  unfold prepared, labelled. cbn [v_id rl n_info i_cb i_label String.eqb negb andb game_cbf].
  apply digits_inv in E as (n & Hs & -> & Hn & HW & _). unfold g_id. rewrite HW, (atoi_number n Hn).
  destruct (Z.ltb_spec (decimal n) (2 ^ 63)) as [|HL]; [done|]. destruct t as [u|]; [by destruct u|]. exfalso.
  assert (small n) as HS; [|unfold small in HS; lia]. exact (Ht eq_refl n _ Hs Hn).
Qed.
Lemma game_reads : gives 4 v_top 0 (f_game t text).
Proof.
  assert (gives 3 v_game 0 (f_game t text)) as H.
  { apply gives_bare_rule; [done|done|by split; [|left]|]. eapply does_choice; [reflexivity|]. unfold f_game. cbn [r_alt].
    pose proof (id_reads 1) as H1. destruct (f_id t text) as [[v k]|]; cbn [shift] in H1; [by apply alts_take|]. apply alts_next; [done|].
    pose proof (title_reads 1 0 text eq_refl) as H2. destruct (r_cb g_title f_title0 text) as [[v k]|]; cbn [shift] in H2; [by apply alts_take|]. apply alts_next; [done|].
    pose proof (best_reads 0 0 text eq_refl) as H3. destruct (r_cb g_best f_best0 text) as [[v k]|]; cbn [shift] in H3; [by apply alts_take|]. apply alts_next; [done|].
    apply alts_nil. }
  apply gives_bare; [done|done|by split; [|left]|]. eapply does_choice; [reflexivity|]. apply (gives_deeper _ _ _ _ _ 4) in H; [|lia].
  destruct (f_game t text) as [[v k]|]; [by apply alts_take|]. apply alts_next; [done|]. apply alts_nil.
Qed.
End Text.

(** ** The answer *)
Definition answer (a : ask) : game :=
  match a with
  | ById z => find_game (fun g => (gm_id g =? z)%Z)
  | ByTitle s => find_game (fun g => bytes_eqb (gm_title g) s)
  | ByYear z => find_game (fun g => (gm_year g =? z)%Z)
  end.
Lemma find_first_game (f : game -> bool) (P : game -> Prop) : (forall g, f g = true <-> P g) -> forall l,
  match List.find f l with
  | Some g => exists l1 l2, l = l1 ++ g :: l2 /\ P g /\ Forall (fun g' => ~ P g') l1
  | None => Forall (fun g' => ~ P g') l
  end.
Proof.
  intros Hf. induction l as [|g l IH]; cbn [List.find]; [constructor|]. destruct (f g) eqn:E.
  - exists [], l. split; [done|]. split; [by apply Hf|constructor].
  - assert (~ P g) as Hg by (intros H%Hf; congruence). destruct (List.find f l) as [g'|].
    + destruct IH as (l1 & l2 & -> & H1 & H2). exists (g :: l1), l2. split; [done|]. split; [done|by constructor].
    + by constructor.
Qed.
Lemma answers_answer a : answers a (answer a).
Proof.
  assert (exists f, answer a = find_game f /\ forall g, f g = true <-> meets a g) as (f & -> & Hf).
  { destruct a as [z|s|z]; eexists; (split; [reflexivity|]); intros g; cbn [meets]; [apply Z.eqb_eq|destruct (StreamProofs.bytes_eqb_spec (gm_title g) s); by split|apply Z.eqb_eq]. }
  pose proof (find_first_game f (meets a) Hf db) as H. unfold find_game, answers. destruct (List.find f db) as [g|]; [left; exact H|right; by split].
Qed.
Lemma answers_unique a g g' : answers a g -> answers a g' -> g = g'.
Proof.
  assert (forall l r l' r', l ++ g :: r = l' ++ g' :: r' -> meets a g -> meets a g' -> Forall (fun g => ~ meets a g) l -> Forall (fun g => ~ meets a g) l' -> g = g') as HU.
  { induction l as [|x l IH]; intros r [|y l'] r' H Hg Hg' Hl Hl'; cbn [app] in H; injection H as <- H.
    - done.
    - apply Forall_cons in Hl' as [? _]. done.
    - apply Forall_cons in Hl as [? _]. done.
    - apply Forall_cons in Hl as [_ Hl]. apply Forall_cons in Hl' as [_ Hl']. by eapply IH. }
  intros [(l & r & E & Hg & Hl)|[Hn ->]] [(l' & r' & E' & Hg' & Hl')|[Hn' ->]].
  - rewrite E in E'. by eapply HU.
  - exfalso. rewrite E in Hn'. apply Forall_app in Hn' as [_ Hn']. by apply Forall_cons in Hn' as [? _].
  - exfalso. rewrite E' in Hn. apply Forall_app in Hn as [_ Hn]. by apply Forall_cons in Hn as [? _].
  - done.
Qed.
