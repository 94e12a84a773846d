(** ParseString with the color grammar. *)
From stdpp Require Import sets.
From Verif Require Import Base Helpers Utf8 Utf8Proofs Stream StreamSpec Native Engine EngSpec EngInv Toy Peg PegProofs PegRep PegBody PegStd PegStdProofs
  RunSpec PegLaws PegRun Build BuildSpec BuildMain Joeson JoesonSpec JoesonRun Calc CalcRun CalcSpec CalcPeg CalcMain Brave LispRead LispReadPeg LispReadTop Gives
  Color ColorRun ColorSpec Readers ColorPeg.
Local Open Scope list_scope.

(** ** From the answer to the text *)
Lemma blank_cut s v k : f_blank s = Some (v, k) -> exists w, s = w ++ drop k s /\ k = length w /\ blank w.
Proof. intros (w & rest & -> & -> & Hw)%blank_inv. exists w. by rewrite drop_here. Qed.
Lemma comma_cut s v k : f_comma s = Some (v, k) -> exists w, s = w ++ drop k s /\ k = length w /\ Forall (fun b => b = 32%N \/ b = 44%N) w.
Proof. intros (w & rest & -> & -> & Hw)%comma_inv. exists w. by rewrite drop_here. Qed.
Lemma int_cut t s v k : f_int t s = Some (v, k) -> exists n z, s = n ++ drop k s /\ k = length n /\ a_number n /\ not_head digit_b (drop k s) /\
  num_val t n = Some z /\ v = VInt z.
Proof. intros (n & rest & z & -> & -> & H)%int_inv. exists n, z. by rewrite drop_here. Qed.
Lemma number_head n s : a_number n -> exists b r, n ++ s = b :: r /\ digit_b b = true.
Proof. intros (b & r & -> & Hb & _). exists b, (r ++ s). split; [done|]. apply digit_digit. unfold is_digit. lia. Qed.
Lemma some_commas w n s : Forall (fun b => b = 32%N \/ b = 44%N) w -> a_number n -> not_head digit_b (w ++ n ++ s) -> commas w.
Proof.
  intros Hw Hn Hh. split; [|done]. intros ->. destruct (number_head n s Hn) as (b & r & Hb & Hd). cbn [app] in Hh. rewrite Hb in Hh.
  specialize (Hh b eq_refl). congruence.
Qed.
Lemma rgb_inv t s v k : f_rgb t s = Some (v, k) -> exists w w1 n1 c1 n2 c2 n3 w2 a b c,
  s = (s2b "rgb" ++ w ++ s2b "(" ++ w1 ++ n1 ++ c1 ++ n2 ++ c2 ++ n3 ++ w2 ++ s2b ")") ++ drop k s /\
  blank w /\ blank w1 /\ a_number n1 /\ commas c1 /\ a_number n2 /\ commas c2 /\ a_number n3 /\ blank w2 /\
  num_val t n1 = Some a /\ num_val t n2 = Some b /\ num_val t n3 = Some c /\ v = VArr [VInt a; VInt b; VInt c].
Proof.
  unfold f_rgb. intros H.
  apply single_inv in H as (v1 & k1 & m1 & H1 & H & ->). apply lit_inv in H1 as [E1 ->].
  apply single_inv in H as (v2 & k2 & m2 & H2 & H & ->). apply blank_cut in H2 as (w & E2 & -> & Hw).
  apply single_inv in H as (v3 & k3 & m3 & H3 & H & ->). apply lit_inv in H3 as [E3 ->].
  apply single_inv in H as (v4 & k4 & m4 & H4 & H & ->). apply blank_cut in H4 as (w1 & E4 & -> & Hw1).
  apply single_inv in H as (v5 & k5 & m5 & H5 & H & ->). apply exactly_inv in H5 as (a & b & c & j1 & j2 & j3 & j4 & j5 & u1 & u2 & -> & F1 & F2 & F3 & F4 & F5 & ->).
  rewrite <- !drop_drop in H.
  apply single_inv in H as (v6 & k6 & m6 & H6 & H & ->). apply blank_cut in H6 as (w2 & E6 & -> & Hw2).
  apply single_inv in H as (v7 & k7 & m7 & H7 & H & ->). apply lit_inv in H7 as [E7 ->].
  cbn [r_single default] in H. injection H as <- <-.
  apply int_cut in F1 as (n1 & z1 & G1 & -> & N1 & D1 & V1 & ->). apply comma_cut in F2 as (c1 & G2 & -> & C1).
  apply int_cut in F3 as (n2 & z2 & G3 & -> & N2 & D2 & V2 & ->). apply comma_cut in F4 as (c2 & G4 & -> & C2).
  apply int_cut in F5 as (n3 & z3 & G5 & -> & N3 & D3 & V3 & ->).
  exists w, w1, n1, c1, n2, c2, n3, w2, z1, z2, z3. rewrite <- !drop_drop. rewrite drop_0.
  split; [rewrite <- !app_assoc; by rewrite <- E7, <- E6, <- G5, <- G4, <- G3, <- G2, <- G1, <- E4, <- E3, <- E2, <- E1|].
  rewrite G2, G3 in D1. rewrite G4, G5 in D2. rewrite G3 in G2.
  apply some_commas in D1; [|done|done]. apply some_commas in D2; [|done|done]. repeat (split; [done|]). done.
Qed.
Lemma hsl_inv t s v k : f_hsl t s = Some (v, k) -> exists w w1 n1 w2 w3 n2 w4 w5 n3 w6 a b c,
  s = (s2b "hsl" ++ w ++ s2b "(" ++ w1 ++ n1 ++ w2 ++ s2b "," ++ w3 ++ n2 ++ s2b "%" ++ w4 ++ s2b "," ++ w5 ++ n3 ++ s2b "%" ++ w6 ++ s2b ")") ++ drop k s /\
  blank w /\ blank w1 /\ a_number n1 /\ blank w2 /\ blank w3 /\ a_number n2 /\ blank w4 /\ blank w5 /\ a_number n3 /\ blank w6 /\
  num_val t n1 = Some a /\ num_val t n2 = Some b /\ num_val t n3 = Some c /\ v = VArr [VInt a; VInt b; VInt c].
Proof.
  unfold f_hsl. intros H.
  apply single_inv in H as (v1 & k1 & m1 & H1 & H & ->). apply lit_inv in H1 as [E1 ->].
  apply single_inv in H as (v2 & k2 & m2 & H2 & H & ->). apply blank_cut in H2 as (w & E2 & -> & Hw).
  apply single_inv in H as (v3 & k3 & m3 & H3 & H & ->). apply lit_inv in H3 as [E3 ->].
  apply single_inv in H as (v4 & k4 & m4 & F & H & ->). unfold f_trio in F.
  apply array_inv in F as (a1 & i1 & l1 & G1 & F & ->). apply blank_cut in G1 as (w1 & D1 & -> & W1).
  apply array_inv in F as (a2 & i2 & l2 & G2 & F & ->). apply int_cut in G2 as (n1 & z1 & D2 & -> & N1 & _ & V1 & ->).
  apply array_inv in F as (a3 & i3 & l3 & G3 & F & ->). apply blank_cut in G3 as (w2 & D3 & -> & W2).
  apply array_inv in F as (a4 & i4 & l4 & G4 & F & ->). apply lit_inv in G4 as [D4 ->].
  apply array_inv in F as (a5 & i5 & l5 & G5 & F & ->). apply blank_cut in G5 as (w3 & D5 & -> & W3).
  apply array_inv in F as (a6 & i6 & l6 & G6 & F & ->). apply int_cut in G6 as (n2 & z2 & D6 & -> & N2 & _ & V2 & ->).
  apply array_inv in F as (a7 & i7 & l7 & G7 & F & ->). apply lit_inv in G7 as [D7 ->].
  apply array_inv in F as (a8 & i8 & l8 & G8 & F & ->). apply blank_cut in G8 as (w4 & D8 & -> & W4).
  apply array_inv in F as (a9 & i9 & l9 & G9 & F & ->). apply lit_inv in G9 as [D9 ->].
  apply array_inv in F as (b1 & o1 & p1 & G10 & F & ->). apply blank_cut in G10 as (w5 & D10 & -> & W5).
  apply array_inv in F as (b2 & o2 & p2 & G11 & F & ->). apply int_cut in G11 as (n3 & z3 & D11 & -> & N3 & _ & V3 & ->).
  apply array_inv in F as (b3 & o3 & p3 & G12 & F & ->). apply lit_inv in G12 as [D12 ->].
  apply array_inv in F as (b4 & o4 & p4 & G13 & F & ->). apply blank_cut in G13 as (w6 & D13 & -> & W6).
  cbn [r_array app] in F. injection F as <- <-. rewrite <- !drop_drop, drop_0 in H.
  apply single_inv in H as (v7 & k7 & m7 & H7 & H & ->). apply lit_inv in H7 as [E7 ->].
  cbn [r_single default] in H. injection H as <- <-.
  exists w, w1, n1, w2, w3, n2, w4, w5, n3, w6, z1, z2, z3. rewrite <- !drop_drop. rewrite !drop_0.
  split; [|repeat (split; [done|]); done]. rewrite <- !app_assoc.
  by rewrite <- E7, <- D13, <- D12, <- D11, <- D10, <- D9, <- D8, <- D7, <- D6, <- D5, <- D4, <- D3, <- D2, <- D1, <- E3, <- E2, <- E1.
Qed.

(** ** The rest of the grammar *)
Section Text.
Variable text : bytes.
Variable t : option (option Z).
Notation reads := (Readers.reads (g_rule (gram_of colors)) color_rx (color_cbf t) text).
Hypothesis Ht : t = None -> numbers_small text.

Lemma rgb_reads d : reads (S (S (S d))) c_rgb (r_cb g_rgb (f_rgb t)).
Proof.
  apply (reads_cb _ _ _ _ _ _ _ _ 3); [done|done|done|done| |].
  - eapply doing_single; [reflexivity|].
    repeat (constructor; [split; [done|first [apply sp_reads|apply lit_reads|idtac]]|]); [|constructor].
    apply reads_bare; [done|done|by split; [|left]|]. eapply doing_exactly; [reflexivity|lia| |].
    + apply reads_bare; [done|done|by split; [|left]|]. eapply doing_ref; [reflexivity|reflexivity|]. by apply int_reads.
    + apply reads_bare; [done|done|by split; [|left]|]. eapply doing_ref; [reflexivity|reflexivity|]. by apply comma_reads.
  - intros q s v k p Hq Hv. apply rgb_inv in Hv as (w & w1 & n1 & c1 & n2 & c2 & n3 & w2 & a & b & c & _ & _ & _ & _ & _ & _ & _ & _ & _ & _ & _ & _ & ->). done.
Qed.
Lemma hsl_reads d : reads (S (S (S d))) c_hsl (r_cb (fun v => match three v with Some _ => Some (color_v (12, 23, 34)%Z) | None => None end) (f_hsl t)).
Proof.
  apply (reads_cb _ _ _ _ _ _ _ _ 4); [done|done|done|done| |].
  - eapply doing_single; [reflexivity|].
    repeat (constructor; [split; [done|first [apply sp_reads|apply lit_reads|idtac]]|]); [|constructor].
    apply reads_bare; [done|done|by split; [|left]|]. eapply doing_ref; [reflexivity|reflexivity|]. by apply trio_reads.
  - intros q s v k p Hq Hv. apply hsl_inv in Hv as (w & w1 & n1 & w2 & w3 & n2 & w4 & w5 & n3 & w6 & a & b & c & _ & _ & _ & _ & _ & _ & _ & _ & _ & _ & _ & _ & _ & _ & ->). done.
Qed.
Lemma color_reads d : reads (S (S (S (S d)))) c_color (f_color t).
Proof.
  apply reads_rule; [done|done|by split; [|left]|]. eapply doing_alt; [reflexivity|].
  constructor; [by apply (reads_cb _ _ _ _ _ _ _ _ 0); [done..|apply doing_lit|]|].
  constructor; [by apply (reads_cb _ _ _ _ _ _ _ _ 1); [done..|apply doing_lit|]|].
  constructor; [by apply (reads_cb _ _ _ _ _ _ _ _ 2); [done..|apply doing_lit|]|].
  constructor; [apply rgb_reads|]. constructor; [apply hsl_reads|constructor].
Qed.
Lemma top_reads : Gives.gives (g_rule (gram_of colors)) color_rx (color_cbf t) text 5 c_top 0 (f_color t text).
Proof.
  assert (reads 5 c_top (r_alt [f_color t])) as H.
  { apply reads_bare; [done|done|by split; [|left]|]. eapply doing_alt; [reflexivity|]. constructor; [apply color_reads|constructor]. }
  specialize (H 0 text eq_refl). cbn [r_alt] in H. destruct (f_color t text) as [[v k]|]; exact H.
Qed.
End Text.

(** ** The answer *)
Lemma color_sound t s v : f_color t s = Some (v, length s) -> exists ns c, color_of s ns c.
Proof.
  assert (forall w v' G k, r_cb G (r_lit w) s = Some (v', k) -> k = length s -> s = w) as HL.
  { intros w v' G k H Hk. unfold r_cb in H. destruct (r_lit w s) as [[u j]|] eqn:E; [|done]. apply lit_inv in E as [E ->].
    destruct (G u); [|done]. injection H as _ Hj. rewrite E. rewrite Hj, Hk, drop_ge by done. by rewrite app_nil_r. }
  unfold f_color. cbn [r_alt]. intros H.
  destruct (r_cb _ (r_lit (s2b "red")) s) as [[v1 k1]|] eqn:E1.
  { injection H as -> ->. apply HL in E1 as ->; [|done]. do 2 eexists. constructor. }
  destruct (r_cb _ (r_lit (s2b "green")) s) as [[v2 k2]|] eqn:E2.
  { injection H as -> ->. apply HL in E2 as ->; [|done]. do 2 eexists. constructor. }
  destruct (r_cb _ (r_lit (s2b "blue")) s) as [[v3 k3]|] eqn:E3.
  { injection H as -> ->. apply HL in E3 as ->; [|done]. do 2 eexists. constructor. }
  destruct (r_cb g_rgb (f_rgb t) s) as [[v4 k4]|] eqn:E4.
  { injection H as -> ->. unfold r_cb in E4. destruct (f_rgb t s) as [[u j]|] eqn:EF; [|done]. destruct (g_rgb u); [|done]. injection E4 as <- ->.
    apply rgb_inv in EF as (w & w1 & n1 & c1 & n2 & c2 & n3 & w2 & a & b & c & Hs & H1 & H2 & H3 & H4 & H5 & H6 & H7 & H8 & _).
    rewrite drop_ge, app_nil_r in Hs by done. rewrite Hs. do 2 eexists. by constructor. }
  destruct (r_cb _ (f_hsl t) s) as [[v5 k5]|] eqn:E5; [|done].
  injection H as -> ->. unfold r_cb in E5. destruct (f_hsl t s) as [[u j]|] eqn:EF; [|done]. destruct (three u); [|done]. injection E5 as <- ->.
  apply hsl_inv in EF as (w & w1 & n1 & w2 & w3 & n2 & w4 & w5 & n3 & w6 & a & b & c & Hs & H1 & H2 & H3 & H4 & H5 & H6 & H7 & H8 & H9 & H10 & _).
  rewrite drop_ge, app_nil_r in Hs by done. rewrite Hs. do 2 eexists. by constructor.
Qed.
Lemma small_val t n : small n -> num_val t n = Some (decimal n).
Proof. unfold small, num_val. intros H. destruct (Z.ltb_spec (decimal n) (2 ^ 63)); [done|lia]. Qed.
Lemma brave_val n : exists z, num_val (Some (Some 0%Z)) n = Some z.
Proof. unfold num_val. destruct (_ <? _)%Z; eauto. Qed.
Lemma large_val n : ~ small n -> num_val (Some None) n = None.
Proof. unfold small, num_val. intros H. destruct (Z.ltb_spec (decimal n) (2 ^ 63)); [lia|done]. Qed.
Lemma color_complete t s ns c : color_of s ns c -> Forall small ns -> f_color t s = Some (color_v c, length s).
Proof.
  intros H Hn. destruct H as [| | |w w1 n1 c1 n2 c2 n3 w2|w w1 n1 w2 w3 n2 w4 w5 n3 w6]; [reflexivity..| |].
  - apply Forall_cons in Hn as [S1 Hn]. apply Forall_cons in Hn as [S2 Hn]. apply Forall_cons in Hn as [S3 _].
    unfold f_color. cbn [r_alt]. do 3 (change (r_cb ?G (r_lit ?w) ?s) with (@None (val * nat))).
    unfold r_cb. rewrite rgb_eval by done. by rewrite !small_val.
  - apply Forall_cons in Hn as [S1 Hn]. apply Forall_cons in Hn as [S2 Hn]. apply Forall_cons in Hn as [S3 _].
    unfold f_color. cbn [r_alt]. do 4 (change (r_cb ?G ?f ?s) with (@None (val * nat)) at 1).
    unfold r_cb. rewrite hsl_eval by done. by rewrite !small_val.
Qed.
Lemma color_brave s ns c : color_of s ns c -> exists u, f_color (Some (Some 0%Z)) s = Some (color_v u, length s).
Proof.
  intros H. destruct H as [| | |w w1 n1 c1 n2 c2 n3 w2|w w1 n1 w2 w3 n2 w4 w5 n3 w6]; [eexists (_, _, _); reflexivity..| |];
    destruct (brave_val n1) as [z1 S1], (brave_val n2) as [z2 S2], (brave_val n3) as [z3 S3].
  - unfold f_color. cbn [r_alt]. do 3 (change (r_cb ?G (r_lit ?w) ?s) with (@None (val * nat))).
    unfold r_cb. rewrite rgb_eval by done. rewrite S1, S2, S3. by eexists (_, _, _).
  - unfold f_color. cbn [r_alt]. do 4 (change (r_cb ?G ?f ?s) with (@None (val * nat)) at 1).
    unfold r_cb. rewrite hsl_eval by done. rewrite S1, S2, S3. by eexists (_, _, _).
Qed.
Lemma color_large s ns c : color_of s ns c -> Exists (fun n => ~ small n) ns -> f_color (Some None) s = None.
Proof.
  intros H Hn. assert (forall n1 n2 n3 (A : Type) (F : Z -> Z -> Z -> A), Exists (fun n => ~ small n) [n1; n2; n3] ->
    match num_val (Some None) n1, num_val (Some None) n2, num_val (Some None) n3 with Some a, Some b, Some c => Some (F a b c) | _, _, _ => None end = None) as HE.
  { intros n1 n2 n3 A F HN. apply Exists_cons in HN as [HN|HN]; [by rewrite (large_val n1)|].
    apply Exists_cons in HN as [HN|HN]; [rewrite (large_val n2) by done; by destruct (num_val (Some None) n1)|].
    apply Exists_cons in HN as [HN|HN]; [rewrite (large_val n3) by done; by destruct (num_val (Some None) n1), (num_val (Some None) n2)|]. by apply Exists_nil in HN. }
  destruct H as [| | |w w1 n1 c1 n2 c2 n3 w2|w w1 n1 w2 w3 n2 w4 w5 n3 w6]; [by apply Exists_nil in Hn..| |].
  - unfold f_color. cbn [r_alt]. do 3 (change (r_cb ?G (r_lit ?w) ?s) with (@None (val * nat))).
    unfold r_cb at 1. rewrite rgb_eval by done. rewrite HE by done. reflexivity.
  - unfold f_color. cbn [r_alt]. do 4 (change (r_cb ?G ?f ?s) with (@None (val * nat)) at 1).
    unfold r_cb. rewrite hsl_eval by done. by rewrite HE.
Qed.

(** ** The numbers of a text *)
Lemma fold_up r : Forall is_digit r -> forall a a', (0 <= a <= a')%Z ->
  (a <= fold_left (fun a b => a * 10 + (Z.of_N b - 48))%Z r a <= fold_left (fun a b => a * 10 + (Z.of_N b - 48))%Z r a')%Z.
Proof.
  induction 1 as [|b r Hb _ IH]; intros a a' Ha; cbn [fold_left]; [lia|]. unfold is_digit in Hb.
  specialize (IH (a * 10 + (Z.of_N b - 48))%Z (a' * 10 + (Z.of_N b - 48))%Z ltac:(lia)). lia.
Qed.
Lemma decimal_part a m b : Forall is_digit (a ++ m ++ b) -> (decimal m <= decimal (a ++ m ++ b))%Z.
Proof.
  intros [Ha [Hm Hb]%Forall_app]%Forall_app. unfold decimal. rewrite !fold_left_app. set (f := fun a b => (a * 10 + (Z.of_N b - 48))%Z).
  pose proof (fold_nonneg a Ha 0%Z ltac:(lia)) as H0. fold f in H0. pose proof (fold_up m Hm 0%Z (fold_left f a 0%Z) ltac:(lia)) as H1. fold f in H1.
  pose proof (fold_up b Hb (fold_left f m (fold_left f a 0%Z)) (fold_left f m (fold_left f a 0%Z)) ltac:(lia)) as H2. fold f in H2. lia.
Qed.
Lemma nums_nil : numbers_small [].
Proof. intros a n b H Hn. destruct Hn as (c & r & -> & _). by destruct a. Qed.
Lemma nums_skip c s : ~ is_digit c -> numbers_small s -> numbers_small (c :: s).
Proof.
  intros Hc Hs a n b H Hn. destruct a as [|c' a]; [|injection H as _ H; by eapply Hs].
  destruct Hn as (x & r & -> & Hx & _). injection H as -> _. destruct Hc. unfold is_digit. lia.
Qed.
Lemma nums_skips w s : Forall (fun c => ~ is_digit c) w -> numbers_small s -> numbers_small (w ++ s).
Proof. intros Hw Hs. induction Hw as [|c w Hc _ IH]; [done|]. by apply nums_skip. Qed.
Lemma nums_number n s : a_number n -> small n -> (forall c, head s = Some c -> ~ is_digit c) -> numbers_small s -> numbers_small (n ++ s).
Proof.
  intros Hn Hsm Hh Hs a m b H Hm. pose proof (number_digits n Hn) as Hd. pose proof (number_digits m Hm) as Hdm.
  apply app_eq_inv in H as [(k & Hk & H)|(k & Hk & H)]; [|by eapply Hs].
  symmetry in H. apply app_eq_inv in H as [(j & Hj & Hb)|(j & Hj & Hb)].
  - subst n k. unfold small in *. pose proof (decimal_part a m j Hd). lia.
  - destruct j as [|c j]; [|exfalso; apply (Hh c); [by rewrite Hb|]; rewrite Hj in Hdm; apply Forall_app in Hdm as [_ Hdm]; by apply Forall_cons in Hdm as [? _]].
    rewrite app_nil_r in Hj. subst n k. unfold small in *. pose proof (decimal_part a m [] ltac:(by rewrite app_nil_r)) as HP. rewrite app_nil_r in HP. lia.
Qed.

Lemma skip_blank w : blank w -> Forall (fun c => ~ is_digit c) w.
Proof. intros H. eapply Forall_impl; [exact H|]. unfold is_digit. cbv beta. intros c [-> | ->]; lia. Qed.
Lemma skip_commas w : commas w -> Forall (fun c => ~ is_digit c) w.
Proof. intros [_ H]. eapply Forall_impl; [exact H|]. unfold is_digit. cbv beta. intros c [-> | ->]; lia. Qed.
Lemma skip_word w : forallb (fun c => negb (digit_b c)) w = true -> Forall (fun c => ~ is_digit c) w.
Proof.
  intros H. apply Forall_forall. intros c Hc%elem_of_list_In Hd. rewrite forallb_forall in H. specialize (H c Hc). apply digit_digit in Hd as [Hd _]. by rewrite Hd in H.
Qed.
Lemma head_skip w s : Forall (fun c => ~ is_digit c) w -> (forall c, head s = Some c -> ~ is_digit c) -> forall c, head (w ++ s) = Some c -> ~ is_digit c.
Proof. intros Hw Hs c. destruct Hw as [|c' w Hc Hw]; [by apply Hs|]. by intros [= <-]. Qed.
Lemma head_commas w s : commas w -> forall c, head (w ++ s) = Some c -> ~ is_digit c.
Proof. intros H c. pose proof (skip_commas w H) as Hf. destruct H as [H0 _]. destruct Hf as [|c' w Hc _]; [done|]. by intros [= <-]. Qed.
Lemma word_head w s : w <> [] -> forallb (fun c => negb (digit_b c)) w = true -> forall c, head (w ++ s) = Some c -> ~ is_digit c.
Proof. intros H0 H%skip_word c. destruct H as [|c' w Hc _]; [done|]. by intros [= <-]. Qed.
Lemma color_numbers s ns c : color_of s ns c -> Forall small ns -> numbers_small s.
Proof.
  intros H Hn. destruct H as [| | |w w1 n1 c1 n2 c2 n3 w2 Hw Hw1 H1 Hc1 H2 Hc2 H3 Hw2|w w1 n1 w2 w3 n2 w4 w5 n3 w6 Hw Hw1 H1 Hw2 Hw3 H2 Hw4 Hw5 H3 Hw6].
  1-3: rewrite <- (app_nil_r (s2b _)); apply nums_skips; [by apply skip_word|apply nums_nil].
  - apply Forall_cons in Hn as [S1 Hn]. apply Forall_cons in Hn as [S2 Hn]. apply Forall_cons in Hn as [S3 _].
    apply nums_skips; [by apply skip_word|]. apply nums_skips; [by apply skip_blank|]. apply nums_skips; [by apply skip_word|]. apply nums_skips; [by apply skip_blank|].
    apply nums_number; [done|done|by apply head_commas|]. apply nums_skips; [by apply skip_commas|].
    apply nums_number; [done|done|by apply head_commas|]. apply nums_skips; [by apply skip_commas|].
    apply nums_number; [done|done| |].
    + apply head_skip; [by apply skip_blank|]. rewrite <- (app_nil_r (s2b ")")). by apply word_head.
    + apply nums_skips; [by apply skip_blank|]. rewrite <- (app_nil_r (s2b ")")). apply nums_skips; [by apply skip_word|apply nums_nil].
  - apply Forall_cons in Hn as [S1 Hn]. apply Forall_cons in Hn as [S2 Hn]. apply Forall_cons in Hn as [S3 _].
    apply nums_skips; [by apply skip_word|]. apply nums_skips; [by apply skip_blank|]. apply nums_skips; [by apply skip_word|]. apply nums_skips; [by apply skip_blank|].
    apply nums_number; [done|done|apply head_skip; [by apply skip_blank|]; by apply word_head|]. apply nums_skips; [by apply skip_blank|]. apply nums_skips; [by apply skip_word|].
    apply nums_skips; [by apply skip_blank|]. apply nums_number; [done|done|by apply word_head|]. apply nums_skips; [by apply skip_word|].
    apply nums_skips; [by apply skip_blank|]. apply nums_skips; [by apply skip_word|]. apply nums_skips; [by apply skip_blank|].
    apply nums_number; [done|done|by apply word_head|]. apply nums_skips; [by apply skip_word|]. apply nums_skips; [by apply skip_blank|].
    rewrite <- (app_nil_r (s2b ")")). apply nums_skips; [by apply skip_word|apply nums_nil].
Qed.

(** ** ParseString *)
Lemma color_rx_ok re : rx_ok (color_rx re).
Proof.
  intros s a b H. unfold color_rx in H.
  assert (forall f, leftmost (m_class f) (S (length s)) s 0 = Some (a, b) -> a <= b <= length s) as HC.
  { intros f HL. apply leftmost_in in HL; [lia|]. intros x n Hx. apply class_length in Hx. lia. }
  repeat (destruct (bytes_eqb re _); [by eapply HC|]). done.
Qed.
Section Run.
Variable o : popts.
Hypothesis Ho : po_debug o = false.
Notation g := (gram_of colors).
Notation parse fuel s := (fst (parse_string fuel g o color_rx color_cb s)).
Notation parse_with t fuel s := (fst (parse_string fuel g o color_rx (color_cb_with t) s)).

Lemma color_ready t : ids_fit (mk_env g o color_rx (color_cb_with t)) (fst colors) /\ ids_unique (mk_env g o color_rx (color_cb_with t)) (fst colors) /\ top_rank (fst colors).
Proof.
  pose proof (ready color_compile 300 "color example" color_lines colors colors_eq color_names_once color_no_singles ltac:(done) ltac:(by vm_compute) o color_rx (color_cb_with t))
    as (H1 & H2 & H3 & _). done.
Qed.
Lemma color_run t s : (t = None -> numbers_small s) -> exists fuel0, forall fuel, fuel0 <= fuel ->
  match f_color t s with
  | Some (v, e) =>
      if e =? length s then exists x s', parse_with t fuel s = Ok (Some x) s' /\ rep [] (s_heap s') x v
      else exists k s', parse_with t fuel s = Ok (Some (AErr k)) s' /\ e <= k <= length s
  | None =>
      if 0 =? length s then exists s', parse_with t fuel s = Ok None s'
      else exists k s', parse_with t fuel s = Ok (Some (AErr k)) s' /\ k <= length s
  end.
Proof.
  intros Ht. refine (gen_run colors o Ho color_rx (color_cb_with t) (color_cbf t) color_rx_ok _ (color_ready t) _ s 5 _ (top_reads s t Ht) _).
  - intros f. left. by apply color_keeps.
  - by vm_compute.
  - unfold stack_limit. lia.
Qed.
Lemma none_same fuel s : parse_with None fuel s = parse fuel s.
Proof. reflexivity. Qed.
Lemma rep_color P h x c : rep P h x (color_v c) -> x = let '(r, g, b) := c in color r g b.
Proof.
  destruct c as [[r g] b]. cbn [color_v]. intros H. inversion H; subst. unfold color. f_equal.
  repeat match goal with HF : reps _ _ _ _ |- _ => inversion HF; subst; clear HF end.
  repeat match goal with HR : rep _ _ _ (VInt _) |- _ => inversion HR; subst; clear HR end. done.
Qed.
Lemma colors_read s ns c : color_of s ns c -> Forall small ns -> exists fuel0, forall fuel, fuel0 <= fuel -> exists s',
  parse fuel s = Ok (Some (let '(r, g, b) := c in color r g b)) s'.
Proof.
  intros H Hn. destruct (color_run None s (fun _ => color_numbers s ns c H Hn)) as (f0 & Hf). exists f0. intros fuel Hl. specialize (Hf fuel Hl).
  rewrite (color_complete None s ns c H Hn), Nat.eqb_refl in Hf. destruct Hf as (x & s' & Hx & Hr). exists s'. rewrite <- (rep_color _ _ _ _ Hr). exact Hx.
Qed.
Lemma colors_others_with t s : (t = None -> numbers_small s) -> (forall ns c, ~ color_of s ns c) -> exists fuel0, forall fuel, fuel0 <= fuel -> exists s',
  match s with
  | [] => parse_with t fuel s = Ok None s'
  | _ => exists k, parse_with t fuel s = Ok (Some (AErr k)) s' /\ k <= length s
  end.
Proof.
  intros Ht Hno. destruct (color_run t s Ht) as (f0 & Hf). exists f0. intros fuel Hl. specialize (Hf fuel Hl).
  destruct (f_color t s) as [[v q]|] eqn:EF.
  - destruct (Nat.eqb_spec q (length s)) as [-> |Hq]; [apply color_sound in EF as (ns & c & H); by destruct (Hno ns c)|].
    destruct Hf as (k & s' & Hx & Hk). exists s'. destruct s as [|b s]; [cbn in Hk, Hq; lia|]. exists k. split; [exact Hx|lia].
  - destruct s as [|b s]; [destruct Hf as (s' & Hx); by exists s'|]. destruct Hf as (k & s' & Hx & Hk). exists s'. by exists k.
Qed.
Lemma colors_never s : (forall ns c, ~ color_of s ns c) -> exists fuel0, forall fuel, fuel0 <= fuel -> exists s',
  (exists k, parse fuel s = Panic (Base.PUser k) s') \/
  match s with [] => parse fuel s = Ok None s' | _ => exists k, parse fuel s = Ok (Some (AErr k)) s' /\ k <= length s end.
Proof.
  intros Hno. destruct (colors_others_with (Some None) s ltac:(done) Hno) as (f0 & Hf). exists f0. intros fuel Hl. destruct (Hf fuel Hl) as (s' & H).
  unfold parse_string in *.
  destruct (ple_gram fuel g o color_rx _ _ (CRune (new_rune_stream s)) (color_braver (Some None))) as [(k & s'' & HA)|HA]; [exists s''; left; eauto|].
  exists s'. right. rewrite HA. exact H.
Qed.
Lemma colors_panic s ns c : color_of s ns c -> Exists (fun n => ~ small n) ns -> exists fuel0, forall fuel, fuel0 <= fuel -> exists k s',
  parse fuel s = Panic (Base.PUser k) s'.
Proof.
  intros H Hn. destruct (color_run (Some (Some 0%Z)) s ltac:(done)) as (f0 & Hf). destruct (color_run (Some None) s ltac:(done)) as (f1 & Hf1).
  exists (f0 + f1). intros fuel Hl. specialize (Hf fuel ltac:(lia)). specialize (Hf1 fuel ltac:(lia)).
  destruct (color_brave s ns c H) as (u & HV). rewrite HV, Nat.eqb_refl in Hf. rewrite (color_large s ns c H Hn) in Hf1.
  destruct Hf as (x & s1 & Hx & Hr). unfold parse_string in *.
  destruct (ple_gram fuel g o color_rx _ _ (CRune (new_rune_stream s)) (color_braver (Some (Some 0%Z)))) as [|HA]; [done|].
  destruct (ple_gram fuel g o color_rx _ _ (CRune (new_rune_stream s)) (color_braver (Some None))) as [|HB]; [done|].
  exfalso. rewrite HA, Hx in HB. destruct (0 =? length s).
  - destruct Hf1 as (s2 & H2). rewrite H2 in HB. discriminate.
  - destruct Hf1 as (k & s2 & H2 & _). rewrite H2 in HB. injection HB as Hk _. subst x.
    apply rep_color in Hr. by destruct u as [[??]?].
Qed.
End Run.
