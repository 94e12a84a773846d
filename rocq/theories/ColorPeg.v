(** The color grammar reads what ColorSpec.v says. *)
From stdpp Require Import sets.
From Verif Require Import Base Helpers Utf8 Utf8Proofs Stream StreamSpec Native Engine EngSpec EngInv Toy Peg PegProofs PegRep PegBody PegStd PegStdProofs
  RunSpec PegLaws PegRun Build BuildSpec BuildMain Joeson JoesonSpec JoesonRun Calc CalcRun CalcSpec CalcPeg Brave LispRead LispReadPeg LispReadTop Gives
  Color ColorRun ColorSpec Readers.
Local Open Scope list_scope.

(** ** Pieces of a text *)
Definition not_head (f : N -> bool) (s : bytes) : Prop := forall b, head s = Some b -> f b = false.
Lemma class_length f s n : m_class f s = Some n -> 0 < n <= length s.
Proof. destruct s as [|b s]; cbn; [done|]. destruct (f b); [|done]. intros [= <-]. lia. Qed.
Lemma class_pieces f w rest : Forall (fun b => f b = true) w -> not_head f rest -> forall k, length (w ++ rest) <= k ->
  pieces (m_class f) k (w ++ rest) = (fun b => [b]) <$> w.
Proof.
  intros Hw Hr. induction Hw as [|b w Hb _ IH]; intros k Hk; cbn [app fmap list_fmap].
  - destruct k as [|k]; [done|]. cbn [pieces]. destruct rest as [|c rest]; [done|]. cbn [m_class]. by rewrite (Hr c eq_refl).
  - destruct k as [|k]; [cbn in Hk; lia|]. cbn [pieces m_class]. rewrite Hb. cbn [take drop]. rewrite drop_0. f_equal. apply IH. cbn in Hk. lia.
Qed.
Lemma concat_bytes (w : bytes) : List.concat ((fun b => [b]) <$> w) = w.
Proof. induction w as [|b w IH]; [done|]. cbn. by f_equal. Qed.
Definition chars (w : bytes) : val := VArr ((fun b => VStr [b]) <$> w).
Lemma star_here f w rest : Forall (fun b => f b = true) w -> not_head f rest -> r_star (m_class f) (w ++ rest) = Some (chars w, length w).
Proof.
  intros Hw Hr. unfold r_star. rewrite (class_pieces f w rest Hw Hr) by done. rewrite concat_bytes. f_equal. f_equal. unfold chars. f_equal.
  by rewrite <- list_fmap_compose.
Qed.
Lemma class_split f s : exists w rest, s = w ++ rest /\ Forall (fun b => f b = true) w /\ not_head f rest.
Proof.
  induction s as [|b s IH]; [by exists [], []|]. destruct (f b) eqn:E.
  - destruct IH as (w & rest & -> & Hw & Hr). exists (b :: w), rest. split; [done|]. by split; [constructor|].
  - exists [], (b :: s). split; [done|]. split; [constructor|]. by intros c [= <-].
Qed.
Lemma star_inv f s v k : r_star (m_class f) s = Some (v, k) -> exists w, s = w ++ drop k s /\ k = length w /\ v = chars w /\
  Forall (fun b => f b = true) w /\ not_head f (drop k s).
Proof.
  destruct (class_split f s) as (w & rest & -> & Hw & Hr). rewrite (star_here f w rest Hw Hr). intros [= <- <-]. exists w. by rewrite drop_app.
Qed.
Lemma lit_yes w rest : r_lit w (w ++ rest) = Some (VStr w, length w).
Proof. unfold r_lit. rewrite take_app. by rewrite bool_decide_true. Qed.
Lemma lit_end w : r_lit w w = Some (VStr w, length w).
Proof. unfold r_lit. rewrite take_ge by done. by rewrite bool_decide_true. Qed.
Lemma lit_inv w s v k : r_lit w s = Some (v, k) -> s = w ++ drop k s /\ k = length w.
Proof.
  unfold r_lit. destruct (bool_decide_reflect (take (length w) s = w)) as [E|]; [|done]. intros [= <- <-]. split; [|done]. rewrite <- E at 1.
  by rewrite take_drop.
Qed.

(** ** Numbers *)
Lemma digit_digit b : is_digit b -> digit_b b = true /\ digit_val b = Some (Z.of_N b - 48)%Z.
Proof.
  unfold is_digit, digit_b, digit_val. intros H. replace ((48 <=? b) && (b <=? 57))%N%bool with true; [done|].
  symmetry. apply andb_true_intro. split; apply N.leb_le; lia.
Qed.
Lemma digit_is b : digit_b b = true -> is_digit b.
Proof. unfold digit_b, is_digit. intros [H1%N.leb_le H2%N.leb_le]%andb_prop. lia. Qed.
Lemma first_is b : first_b b = true <-> (49 <= b <= 57)%N.
Proof. unfold first_b. rewrite andb_true_iff, !N.leb_le. lia. Qed.
Lemma atoi_fold r : Forall is_digit r -> forall a, atoi_digits r a = Some (fold_left (fun a b => a * 10 + (Z.of_N b - 48))%Z r a).
Proof. induction 1 as [|b r Hb _ IH]; intros a; cbn [atoi_digits fold_left]; [done|]. destruct (digit_digit b Hb) as [_ ->]. apply IH. Qed.
Lemma fold_nonneg r : Forall is_digit r -> forall a, (0 <= a)%Z -> (0 <= fold_left (fun a b => a * 10 + (Z.of_N b - 48))%Z r a)%Z.
Proof. induction 1 as [|b r Hb _ IH]; intros a Ha; cbn [fold_left]; [done|]. apply IH. unfold is_digit in Hb. lia. Qed.
Lemma number_digits n : a_number n -> Forall is_digit n.
Proof. intros (b & r & -> & Hb & Hr). constructor; [unfold is_digit; lia|done]. Qed.
Lemma atoi_number n : a_number n -> atoi n = if (decimal n <? 2 ^ 63)%Z then Some (decimal n) else None.
Proof.
  intros Hn. pose proof (number_digits n Hn) as Hd. destruct Hn as (b & r & -> & Hb & Hr). unfold atoi.
  assert (forall A (x y z : A), match b with 45%N => x | 43%N => y | _ => z end = z) as HB.
  { intros A x y z. destruct b as [|p]; [done|]. do 6 (destruct p as [p|p|]; try done; try lia). }
  replace (match b :: r with 45%N :: r => (true, r) | 43%N :: r => (false, r) | _ => (false, b :: r) end) with (false, b :: r) by (symmetry; apply HB).
  cbv beta iota. rewrite (atoi_fold (b :: r) Hd). change (fold_left _ (b :: r) 0%Z) with (decimal (b :: r)).
  pose proof (fold_nonneg _ Hd 0%Z ltac:(lia)) as H0. change (fold_left _ (b :: r) 0%Z) with (decimal (b :: r)) in H0. unfold int64_ok.
  destruct (Z.leb_spec (- 2 ^ 63) (decimal (b :: r))); [done|lia].
Qed.

(** ** The callbacks, as functions of values *)
Definition whole (v : val) : option bytes :=
  match v with VArr [VStr a; VArr l] => match strs l with Some s => Some (a ++ s) | None => None end | _ => None end.
Lemma strs_chars w : strs ((fun b => VStr [b]) <$> w) = Some w.
Proof. induction w as [|b w IH]; [done|]. cbn. by rewrite IH. Qed.
Definition three (v : val) : option (Z * Z * Z) := match v with VArr [VInt a; VInt b; VInt c] => Some (a, b, c) | _ => None end.
Definition color_v (c : Z * Z * Z) : val := let '(r, g, b) := c in VUser 0 [VInt r; VInt g; VInt b].
(** [t]: what to return instead of a panic of NativeIntFrom. *)
Definition color_cb_with (t : option (option Z)) (f pos : nat) (h : heap) (x : ast) : cbres :=
  match t, color_cb f pos h x with
  | Some u, CbPanic _ => CbRet h (AInt <$> u)
  | _, r => r
  end.
Definition color_cbf (t : option (option Z)) (f pos : nat) (v : val) : option (option val) :=
  match f with
  | 0 => Some (Some (color_v (255, 0, 0)%Z))
  | 1 => Some (Some (color_v (0, 255, 0)%Z))
  | 2 => Some (Some (color_v (0, 0, 255)%Z))
  | 3 => match three v with Some c => Some (Some (color_v c)) | None => None end
  | 4 => match three v with Some c => Some (Some (color_v (12, 23, 34)%Z)) | None => None end
  | 5 => match whole v with
         | Some s => match atoi s with Some z => Some (Some (VInt z)) | None => match t with Some u => Some (VInt <$> u) | None => None end end
         | None => None
         end
  | _ => None
  end.
Lemma color_braver t : braver color_cb (color_cb_with t).
Proof. intros c p h x. unfold color_cb_with. destruct t; [|by right]. destruct (color_cb c p h x); [by right|left; eauto]. Qed.
Lemma whole_rep P h x v s : rep P h x v -> whole v = Some s ->
  native_int_from (fun _ => []) 2 h x = match atoi s with Some z => ROk (AInt z) | None => RPanic (PMsg "can not convert string") end.
Proof.
  intros Hr. destruct Hr as [| | | |l l' Hl| | |]; try done. destruct Hl as [|x1 v1 l l' Hx1 Hl]; [done|]. destruct Hl as [|x2 v2 l l' Hx2 Hl]; [by destruct v1|].
  destruct Hl as [|x3 v3 l l' Hx3 Hl]; [|by destruct v1, v2]. destruct Hx1; try done. destruct Hx2 as [| | | |l2 l2' Hl2| | |]; try done.
  cbn [whole]. destruct (strs l2') as [r|] eqn:ES; [|done]. intros [= <-]. pose proof (strs_rep _ _ _ _ _ Hl2 ES) as HC.
  cbn [native_int_from]. change (concat_arr (fun _ => []) 2 h [AStr s0; AArr l2]) with (let* xs := (let* y := ROk s0 in let* ys := (let* y2 := concat_arr (fun _ => []) 1 h l2 in let* ys := ROk [] in ROk (y2 :: ys)) in ROk (y :: ys)) in ROk (mjoin xs)).
  rewrite HC. cbn [rbind]. change (mjoin [s0; r]) with (s0 ++ r ++ []). rewrite app_nil_r. done.
Qed.
Lemma three_rep P h x v a b c : rep P h x v -> three v = Some (a, b, c) -> to_array_int h x = Some [a; b; c].
Proof.
  intros Hr. destruct Hr as [| | | |l l' Hl| | |]; try done. cbn [three].
  destruct Hl as [|x1 v1 l l' Hx1 Hl]; [done|]. destruct Hx1 as [|z1| | | | | |]; try done.
  destruct Hl as [|x2 v2 l l' Hx2 Hl]; [done|]. destruct Hx2 as [|z2| | | | | |]; try done.
  destruct Hl as [|x3 v3 l l' Hx3 Hl]; [done|]. destruct Hx3 as [|z3| | | | | |]; try done.
  destruct Hl; [|done]. by intros [= -> -> ->].
Qed.
Lemma color_keeps t E f : e_cb E = color_cb_with t -> cb_keeps E (color_cbf t) f.
Proof.
  intros HE p h x v P Hr _. rewrite HE. unfold color_cb_with.
  assert (forall r g b, rep P h (color r g b) (color_v (r, g, b))) as HC by (intros; repeat constructor).
  destruct f as [|[|[|[|[|[|f]]]]]]; cbn [color_cbf color_cb].
  - exists h, (Some (color 255 0 0)). split; [by destruct t|]. split; [apply hext_refl|]. by eexists.
  - exists h, (Some (color 0 255 0)). split; [by destruct t|]. split; [apply hext_refl|]. by eexists.
  - exists h, (Some (color 0 0 255)). split; [by destruct t|]. split; [apply hext_refl|]. by eexists.
  - destruct (three v) as [[[a b] c]|] eqn:E3; [|done]. rewrite (three_rep _ _ _ _ _ _ _ Hr E3).
    exists h, (Some (color a b c)). split; [by destruct t|]. split; [apply hext_refl|]. by eexists.
  - destruct (three v) as [[[a b] c]|] eqn:E3; [|done]. rewrite (three_rep _ _ _ _ _ _ _ Hr E3). cbn [hsl_to_rgb].
    exists h, (Some (color 12 23 34)). split; [by destruct t|]. split; [apply hext_refl|]. by eexists.
  - destruct (whole v) as [s|] eqn:EW; [|done]. rewrite (whole_rep _ _ _ _ _ Hr EW). destruct (atoi s) as [z|].
    + exists h, (Some (AInt z)). split; [by destruct t|]. split; [apply hext_refl|]. eexists. split; [done|constructor].
    + destruct t as [[u|]|]; [| |done].
      * exists h, (Some (AInt u)). split; [done|]. split; [apply hext_refl|]. eexists. split; [done|constructor].
      * exists h, None. split; [done|]. split; [apply hext_refl|]. done.
  - done.
Qed.

(** ** The nodes *)
Definition o_lit (w : bytes) : node := nd "" false false (KStr w).
Definition o_class (re : bytes) : node := nd "" true true (KRegex re).
Definition c_int : node := rl "Integer" true 0 (Some 5) (KSeq TArray [nd "" true false (KRegex re_first); nd "" true false (KPat (o_class re_digit) None (-1) (-1))]).
Definition c_comma : node := rl "_COMMA" true 1 None (KPat (o_class re_comma) None (-1) (-1)).
Definition c_blank : node := rl "_" true 2 None (KPat (o_class re_blank) None (-1) (-1)).
Definition c_trio : node := rl "HslTrio" true 3 None (KSeq TArray
  [n_sp; rf "Integer"; n_sp; o_lit (s2b ","); n_sp; rf "Integer"; o_lit (s2b "%"); n_sp; o_lit (s2b ","); n_sp; rf "Integer"; o_lit (s2b "%"); n_sp]).
Definition c_red : node := rl "Color[0]" false 4 (Some 0) (KStr (s2b "red")).
Definition c_green : node := rl "Color[1]" false 5 (Some 1) (KStr (s2b "green")).
Definition c_blue : node := rl "Color[2]" false 6 (Some 2) (KStr (s2b "blue")).
Definition c_rgb : node := rl "Rgb" true 7 (Some 3) (KSeq TSingle
  [o_lit (s2b "rgb"); n_sp; o_lit (s2b "("); n_sp;
   nd "" true false (KPat (nd "" true true (KRef "Integer")) (Some (nd "" false true (KRef "_COMMA"))) 3 3); n_sp; o_lit (s2b ")")]).
Definition c_hsl : node := rl "Hsl" true 8 (Some 4) (KSeq TSingle [o_lit (s2b "hsl"); n_sp; o_lit (s2b "("); rf "HslTrio"; o_lit (s2b ")")]).
Definition c_color : node := rl "Color" false 9 None (KChoice [c_red; c_green; c_blue; c_rgb; c_hsl]).
Definition c_top : node := Node (Info "color example" "" false false 0 true None false false) (KChoice [c_color]).
Lemma colors_nodes : colors = (c_top, [("Integer", c_int); ("_COMMA", c_comma); ("_", c_blank); ("HslTrio", c_trio); ("Color[0]", c_red); ("Color[1]", c_green);
  ("Color[2]", c_blue); ("Rgb", c_rgb); ("Hsl", c_hsl); ("Color", c_color)]%string).
Proof. reflexivity. Qed.

(** ** What they read *)
Definition g_int (t : option (option Z)) (v : val) : option val :=
  match whole v with
  | Some s => match atoi s with Some z => Some (VInt z) | None => match t with Some u => VInt <$> u | None => None end end
  | None => None
  end.
Definition g_rgb (v : val) : option val := match three v with Some c => Some (color_v c) | None => None end.
Definition f_blank : reader := r_star (m_class blank_b).
Definition f_comma : reader := r_star (m_class comma_b).
Definition f_digits : reader := r_array [(true, r_re (m_class first_b)); (true, r_star (m_class digit_b))] [].
Definition f_int (t : option (option Z)) : reader := r_cb (g_int t) f_digits.
Definition f_rgb (t : option (option Z)) : reader := r_single
  [(false, r_lit (s2b "rgb")); (false, f_blank); (false, r_lit (s2b "(")); (false, f_blank); (true, r_exactly 2 (f_int t) f_comma); (false, f_blank); (false, r_lit (s2b ")"))] None.
Definition f_trio (t : option (option Z)) : reader := r_array
  [(false, f_blank); (true, f_int t); (false, f_blank); (false, r_lit (s2b ",")); (false, f_blank); (true, f_int t); (false, r_lit (s2b "%"));
   (false, f_blank); (false, r_lit (s2b ",")); (false, f_blank); (true, f_int t); (false, r_lit (s2b "%")); (false, f_blank)] [].
Definition f_hsl (t : option (option Z)) : reader := r_single
  [(false, r_lit (s2b "hsl")); (false, f_blank); (false, r_lit (s2b "(")); (true, f_trio t); (false, r_lit (s2b ")"))] None.
Definition f_color (t : option (option Z)) : reader := r_alt
  [r_cb (fun _ => Some (color_v (255, 0, 0)%Z)) (r_lit (s2b "red")); r_cb (fun _ => Some (color_v (0, 255, 0)%Z)) (r_lit (s2b "green"));
   r_cb (fun _ => Some (color_v (0, 0, 255)%Z)) (r_lit (s2b "blue")); r_cb g_rgb (f_rgb t);
   r_cb (fun v => match three v with Some _ => Some (color_v (12, 23, 34)%Z) | None => None end) (f_hsl t)].

Lemma digits_inv s v k : f_digits s = Some (v, k) -> exists n, s = n ++ drop k s /\ k = length n /\ a_number n /\ whole v = Some n /\ not_head digit_b (drop k s).
Proof.
  unfold f_digits. cbn [r_array]. unfold r_re, m_class at 1. destruct s as [|b s]; [done|]. destruct (first_b b) eqn:E; [|done]. cbn [take drop]. rewrite !take_0, !drop_0.
  destruct (r_star (m_class digit_b) s) as [[v1 k1]|] eqn:ES; [|done]. apply star_inv in ES as (w & Hs & -> & -> & Hw & Hh). intros [= <- <-].
  exists (b :: w). rewrite Nat.add_0_r. cbn [Nat.add drop app length]. split; [by f_equal|]. split; [done|]. split.
  - exists b, w. split; [done|]. split; [by apply first_is|]. eapply Forall_impl; [exact Hw|]. apply digit_is.
  - split; [|done]. unfold chars. cbn [whole app]. by rewrite strs_chars.
Qed.
Lemma digits_here n rest : a_number n -> not_head digit_b rest -> exists v, f_digits (n ++ rest) = Some (v, length n) /\ whole v = Some n.
Proof.
  intros (b & r & -> & Hb & Hr) Hh. unfold f_digits. cbn [r_array app]. unfold r_re, m_class at 1. apply first_is in Hb. rewrite Hb. cbn [take drop]. rewrite !take_0, !drop_0.
  rewrite star_here; [|eapply Forall_impl; [exact Hr|]; intros c Hc; by apply digit_digit|done].
  eexists. split; [by rewrite Nat.add_0_r|]. unfold chars. cbn [whole app]. by rewrite strs_chars.
Qed.

Section Text.
Variable text : bytes.
Variable t : option (option Z).
Notation reads := (Readers.reads (g_rule (gram_of colors)) color_rx (color_cbf t) text).
Hypothesis Ht : t = None -> numbers_small text.

Lemma blank_reads d : reads (S d) c_blank f_blank.
Proof. apply reads_rule; [done|done|by split; [|left]|]. eapply doing_star; [reflexivity|apply class_length|]. apply reads_bare; [done|done|by split; [|left]|]. by eapply doing_re. Qed.
Lemma comma_reads d : reads (S d) c_comma f_comma.
Proof. apply reads_rule; [done|done|by split; [|left]|]. eapply doing_star; [reflexivity|apply class_length|]. apply reads_bare; [done|done|by split; [|left]|]. by eapply doing_re. Qed.
Lemma sp_reads d : reads (S d) n_sp f_blank.
Proof. apply reads_bare; [done|done|by split; [|left]|]. eapply doing_ref; [reflexivity|reflexivity|apply blank_reads]. Qed.
Lemma lit_reads d w : reads d (o_lit w) (r_lit w).
Proof. apply reads_bare; [done|done|by split; [|left]|]. by apply doing_lit. Qed.
Lemma int_reads d : reads (S d) c_int (f_int t).
Proof.
  apply (reads_cb _ _ _ _ _ _ _ _ 5); [done|done|done|done| |].
  - eapply doing_array; [reflexivity|]. constructor; [|constructor; [|constructor]]; (split; [done|]); (apply reads_bare; [done|done|by split; [|left]|]).
    + by eapply doing_re.
    + eapply doing_star; [reflexivity|apply class_length|]. apply reads_bare; [done|done|by split; [|left]|]. by eapply doing_re.
  - intros q s v k p Hq Hv. apply digits_inv in Hv as (n & Hs & -> & Hn & HW & _). cbn [color_cbf]. unfold g_int. rewrite HW, (atoi_number n Hn).
    destruct (Z.ltb_spec (decimal n) (2 ^ 63)) as [|HL]; [done|]. destruct t as [u|]; [done|]. exfalso.
    assert (small n) as HS; [|unfold small in HS; lia]. apply (Ht eq_refl (take q text) n (drop (length n) s)); [|done]. rewrite <- Hs.
    unfold Gives.at_ in Hq. rewrite <- Hq. by rewrite take_drop.
Qed.
Lemma rint_reads d : reads (S d) (rf "Integer") (f_int t).
Proof. apply reads_bare; [done|done|by split; [|right]|]. eapply doing_ref; [reflexivity|reflexivity|apply int_reads]. Qed.
Lemma trio_reads d : reads (S (S d)) c_trio (f_trio t).
Proof.
  apply reads_rule; [done|done|by split; [|left]|]. eapply doing_array; [reflexivity|].
  repeat (constructor; [split; [done|first [apply sp_reads|apply rint_reads|apply lit_reads]]|]). constructor.
Qed.
End Text.

(** ** What the functions mean *)
Definition num_val (t : option (option Z)) (n : bytes) : option Z :=
  if (decimal n <? 2 ^ 63)%Z then Some (decimal n) else match t with Some u => u | None => None end.
Lemma int_here t n rest : a_number n -> not_head digit_b rest ->
  f_int t (n ++ rest) = match num_val t n with Some z => Some (VInt z, length n) | None => None end.
Proof.
  intros Hn Hh. destruct (digits_here n rest Hn Hh) as (v & HV & HW). unfold f_int, r_cb, g_int, num_val. rewrite HV, HW, (atoi_number n Hn).
  destruct (decimal n <? 2 ^ 63)%Z; [done|]. by destruct t as [[u|]|].
Qed.
Lemma int_inv t s v k : f_int t s = Some (v, k) -> exists n rest z, s = n ++ rest /\ k = length n /\ a_number n /\ not_head digit_b rest /\
  num_val t n = Some z /\ v = VInt z.
Proof.
  intros H. destruct (f_digits s) as [[w k']|] eqn:E; [|unfold f_int, r_cb in H; by rewrite E in H].
  apply digits_inv in E as (n & Hs & -> & Hn & _ & Hh). rewrite Hs in H. rewrite (int_here t n _ Hn Hh) in H.
  destruct (num_val t n) as [z|] eqn:EV; [|done]. injection H as <- <-. by exists n, (drop (length n) s), z.
Qed.
Lemma sat_blank w : blank w <-> Forall (fun b => blank_b b = true) w.
Proof.
  split; intros H; (eapply Forall_impl; [exact H|]); cbv beta; unfold blank_b; intros b Hb.
  - by destruct Hb as [-> | ->].
  - apply orb_prop in Hb as [Hb|Hb]; apply N.eqb_eq in Hb; tauto.
Qed.
Lemma sat_comma w : Forall (fun b => b = 32%N \/ b = 44%N) w <-> Forall (fun b => comma_b b = true) w.
Proof.
  split; intros H; (eapply Forall_impl; [exact H|]); cbv beta; unfold comma_b; intros b Hb.
  - by destruct Hb as [-> | ->].
  - apply orb_prop in Hb as [Hb|Hb]; apply N.eqb_eq in Hb; tauto.
Qed.
Lemma blank_here w rest : blank w -> not_head blank_b rest -> f_blank (w ++ rest) = Some (chars w, length w).
Proof. intros Hw. apply star_here. by apply sat_blank. Qed.
Lemma blank_inv s v k : f_blank s = Some (v, k) -> exists w rest, s = w ++ rest /\ k = length w /\ blank w.
Proof. intros H%star_inv. destruct H as (w & Hs & -> & _ & Hw & _). exists w, (drop (length w) s). split; [done|]. split; [done|]. by apply sat_blank. Qed.
Lemma comma_here w rest : commas w -> not_head comma_b rest -> f_comma (w ++ rest) = Some (chars w, length w).
Proof. intros [_ Hw]. apply star_here. by apply sat_comma. Qed.
Lemma comma_inv s v k : f_comma s = Some (v, k) -> exists w rest, s = w ++ rest /\ k = length w /\ Forall (fun b => b = 32%N \/ b = 44%N) w.
Proof. intros H%star_inv. destruct H as (w & Hs & -> & _ & Hw & _). exists w, (drop (length w) s). split; [done|]. split; [done|]. by apply sat_comma. Qed.
Lemma lit_inv' w s v k : r_lit w s = Some (v, k) -> exists rest, s = w ++ rest /\ k = length w.
Proof. intros [Hs ->]%lit_inv. by eexists. Qed.
Lemma single_inv c F l acc s w k : r_single ((c, F) :: l) acc s = Some (w, k) -> exists v k1 k2, F s = Some (v, k1) /\
  r_single l (if c then Some v else acc) (drop k1 s) = Some (w, k2) /\ k = k1 + k2.
Proof.
  cbn [r_single]. destruct (F s) as [[v k1]|]; [|done]. destruct (r_single l _ _) as [[w' k2]|] eqn:E; [|done]. intros [= <- <-]. by exists v, k1, k2.
Qed.
Lemma array_inv c F l acc s w k : r_array ((c, F) :: l) acc s = Some (w, k) -> exists v k1 k2, F s = Some (v, k1) /\
  r_array l (if c then acc ++ [v] else acc) (drop k1 s) = Some (w, k2) /\ k = k1 + k2.
Proof.
  cbn [r_array]. destruct (F s) as [[v k1]|]; [|done]. destruct (r_array l _ _) as [[w' k2]|] eqn:E; [|done]. intros [= <- <-]. by exists v, k1, k2.
Qed.
Lemma exactly_inv F J s v k : r_exactly 2 F J s = Some (v, k) -> exists a b c k1 j1 k2 j2 k3 u1 u2, v = VArr [a; b; c] /\
  F s = Some (a, k1) /\ J (drop k1 s) = Some (u1, j1) /\ F (drop j1 (drop k1 s)) = Some (b, k2) /\ J (drop k2 (drop j1 (drop k1 s))) = Some (u2, j2) /\
  F (drop j2 (drop k2 (drop j1 (drop k1 s)))) = Some (c, k3) /\ k = k1 + (j1 + (k2 + (j2 + k3))).
Proof.
  unfold r_exactly. destruct (F s) as [[a k1]|] eqn:E1; [|done]. cbn [r_more].
  destruct (J (drop k1 s)) as [[u1 j1]|] eqn:EJ1; [|done]. destruct (F (drop j1 (drop k1 s))) as [[b k2]|] eqn:E2; [|done]. rewrite <- (drop_drop _ k2 j1).
  destruct (J (drop k2 (drop j1 (drop k1 s)))) as [[u2 j2]|] eqn:EJ2; [|done].
  destruct (F (drop j2 (drop k2 (drop j1 (drop k1 s))))) as [[c k3]|] eqn:E3; [|done]. cbn [length Nat.eqb]. intros [= <- <-].
  exists a, b, c, k1, j1, k2, j2, k3, u1, u2. repeat split; try done. lia.
Qed.
Lemma head_not f b s : f b = false -> not_head f (b :: s).
Proof. by intros H c [= <-]. Qed.
Lemma head_app f w s : Forall (fun b => f b = false) w -> not_head f s -> not_head f (w ++ s).
Proof. intros Hw Hs. destruct Hw as [|b w Hb Hw]; [done|by apply head_not]. Qed.
Lemma head_number f n s : a_number n -> (forall b, (49 <= b <= 57)%N -> f b = false) -> not_head f (n ++ s).
Proof. intros (b & r & -> & Hb & _) Hf. by apply head_not, Hf. Qed.
Lemma blank_no_digit w s : blank w -> not_head digit_b s -> not_head digit_b (w ++ s).
Proof. intros Hw. apply head_app. eapply Forall_impl; [exact Hw|]. by intros b [-> | ->]. Qed.
Lemma commas_no_digit w s : commas w -> not_head digit_b (w ++ s).
Proof. intros [H0 Hw]. destruct Hw as [|b w Hb Hw]; [done|]. apply head_not. by destruct Hb as [-> | ->]. Qed.
Lemma first_no_blank b : (49 <= b <= 57)%N -> blank_b b = false.
Proof. intros H. unfold blank_b. destruct (N.eqb_spec b 32); [lia|]. destruct (N.eqb_spec b 9); [lia|done]. Qed.
Lemma first_no_comma b : (49 <= b <= 57)%N -> comma_b b = false.
Proof. intros H. unfold comma_b. destruct (N.eqb_spec b 32); [lia|]. destruct (N.eqb_spec b 44); [lia|done]. Qed.
Lemma drop_here (a b : bytes) : drop (length a) (a ++ b) = b.
Proof. by rewrite drop_app. Qed.

Ltac sides := solve [done | apply head_not; done | by apply head_number; [|first [apply first_no_blank|apply first_no_comma]] |
  by apply commas_no_digit | by apply blank_no_digit; [|apply head_not] | by apply blank_no_digit ].
Lemma rgb_eval t w w1 n1 c1 n2 c2 n3 w2 : blank w -> blank w1 -> a_number n1 -> commas c1 -> a_number n2 -> commas c2 -> a_number n3 -> blank w2 ->
  let s := s2b "rgb" ++ w ++ s2b "(" ++ w1 ++ n1 ++ c1 ++ n2 ++ c2 ++ n3 ++ w2 ++ s2b ")" in
  f_rgb t s = match num_val t n1, num_val t n2, num_val t n3 with
              | Some a, Some b, Some c => Some (VArr [VInt a; VInt b; VInt c], length s)
              | _, _, _ => None
              end.
Proof.
  intros Hw Hw1 H1 Hc1 H2 Hc2 H3 Hw2 s. unfold s, f_rgb. cbn [r_single]. rewrite lit_yes, drop_here. rewrite blank_here, drop_here; [|sides..].
  rewrite lit_yes, drop_here. rewrite blank_here, drop_here; [|sides..]. unfold r_exactly. rewrite int_here; [|sides..].
  destruct (num_val t n1) as [a|]; [|done]. rewrite drop_here. cbn [r_more]. rewrite comma_here, drop_here; [|sides..].
  rewrite int_here; [|sides..]. destruct (num_val t n2) as [b|]; [|done]. rewrite <- drop_drop, !drop_here. rewrite comma_here, drop_here; [|sides..].
  rewrite int_here; [|sides..]. destruct (num_val t n3) as [c|]; [|done]. cbn [length Nat.eqb].
  replace (length n1 + (length c1 + length n2 + (length c2 + length n3 + 0))) with (length (n1 ++ c1 ++ n2 ++ c2 ++ n3)) by (rewrite !app_length; lia).
  replace (n1 ++ c1 ++ n2 ++ c2 ++ n3 ++ w2 ++ s2b ")") with ((n1 ++ c1 ++ n2 ++ c2 ++ n3) ++ w2 ++ s2b ")") by (by rewrite <- !app_assoc).
  rewrite drop_here. rewrite blank_here, drop_here; [|sides..]. rewrite lit_end. cbn [default]. f_equal. f_equal.
  rewrite !app_length. cbn [length s2b]. lia.
Qed.
Lemma hsl_eval t w w1 n1 w2 w3 n2 w4 w5 n3 w6 : blank w -> blank w1 -> a_number n1 -> blank w2 -> blank w3 -> a_number n2 -> blank w4 -> blank w5 ->
  a_number n3 -> blank w6 ->
  let s := s2b "hsl" ++ w ++ s2b "(" ++ w1 ++ n1 ++ w2 ++ s2b "," ++ w3 ++ n2 ++ s2b "%" ++ w4 ++ s2b "," ++ w5 ++ n3 ++ s2b "%" ++ w6 ++ s2b ")" in
  f_hsl t s = match num_val t n1, num_val t n2, num_val t n3 with
              | Some a, Some b, Some c => Some (VArr [VInt a; VInt b; VInt c], length s)
              | _, _, _ => None
              end.
Proof.
  intros Hw Hw1 H1 Hw2 Hw3 H2 Hw4 Hw5 H3 Hw6 s. unfold s, f_hsl. cbn [r_single]. rewrite lit_yes, drop_here. rewrite blank_here, drop_here; [|sides..].
  rewrite lit_yes, drop_here. unfold f_trio. cbn [r_array].
  rewrite blank_here, drop_here; [|sides..]. rewrite int_here; [|sides..]. destruct (num_val t n1) as [a|]; [|done]. rewrite drop_here.
  rewrite blank_here, drop_here; [|sides..]. rewrite lit_yes, drop_here. rewrite blank_here, drop_here; [|sides..].
  rewrite int_here; [|sides..]. destruct (num_val t n2) as [b|]; [|done]. rewrite drop_here. rewrite lit_yes, drop_here.
  rewrite blank_here, drop_here; [|sides..]. rewrite lit_yes, drop_here. rewrite blank_here, drop_here; [|sides..].
  rewrite int_here; [|sides..]. destruct (num_val t n3) as [c|]; [|done]. rewrite drop_here. rewrite lit_yes, drop_here.
  rewrite blank_here; [|sides..]. cbn [app].
  match goal with |- context [drop ?k ?l] => replace k with (length (w1 ++ n1 ++ w2 ++ s2b "," ++ w3 ++ n2 ++ s2b "%" ++ w4 ++ s2b "," ++ w5 ++ n3 ++ s2b "%" ++ w6)) by (rewrite !app_length; lia);
    replace l with ((w1 ++ n1 ++ w2 ++ s2b "," ++ w3 ++ n2 ++ s2b "%" ++ w4 ++ s2b "," ++ w5 ++ n3 ++ s2b "%" ++ w6) ++ s2b ")") by (by rewrite <- !app_assoc) end.
  rewrite drop_here. rewrite lit_end. cbn [default]. f_equal. f_equal. rewrite !app_length. cbn [length s2b]. lia.
Qed.
