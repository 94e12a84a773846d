(** ParseString with the grammar of videogamedb. *)
From stdpp Require Import sets.
From Verif Require Import Base Helpers Utf8 Utf8Proofs Stream StreamSpec Native Engine EngSpec EngInv Toy Peg PegProofs PegRep PegBody PegStd PegStdProofs
  RunSpec PegLaws PegRun Build BuildSpec BuildMain Joeson JoesonSpec JoesonRun Calc CalcRun CalcSpec CalcPeg CalcMain Brave LispRead LispReadPeg LispReadText LispReadTop Gives
  Color ColorRun ColorSpec Readers ColorPeg ColorMain Games GamesRun GamesSpec GamesPeg.
Local Open Scope list_scope.

Lemma game_sound t s v : f_game t s = Some (v, length s) -> exists a, asks s a.
Proof.
  unfold f_game. cbn [r_alt]. destruct (f_id t s) as [[v1 k1]|] eqn:E1.
  { intros [= -> ->]. unfold f_id, r_cb in E1. destruct (f_digits s) as [[u j]|] eqn:ED; [|done]. destruct (match g_id t u with Some r => r | None => None end); [|done].
    injection E1 as <- ->. apply digits_inv in ED as (n & Hs & Hj & Hn & _). rewrite drop_ge, app_nil_r in Hs by done. subst n. eexists. by constructor. }
  destruct (r_cb g_title f_title0 s) as [[v2 k2]|] eqn:E2.
  { intros [= -> ->]. unfold r_cb in E2. destruct (f_title0 s) as [[u j]|] eqn:EF; [|done]. destruct (g_title u); [|done]. injection E2 as <- ->.
    unfold f_title0 in EF. apply single_inv in EF as (u1 & k1 & m1 & H1 & EF & E0). apply lit_inv in H1 as [Es ->].
    apply single_inv in EF as (u2 & k2 & m2 & H2 & EF & ->). apply unquote_inv in H2 as (x & l & Ex & -> & -> & _ & Hx).
    apply single_inv in EF as (u3 & k3 & m3 & H3 & EF & ->). apply lit_inv in H3 as [Ez ->]. cbn [r_single default] in EF. injection EF as <- <-.
    rewrite Nat.add_0_r in E0.
    assert (drop (length (s2b """")) (drop (length x) (drop (length (s2b """")) s)) = []) as HD by (rewrite !drop_drop; apply drop_ge; rewrite E0; lia).
    rewrite HD, app_nil_r in Ez. rewrite Ez in Ex. rewrite Ex in Es. rewrite Es. eexists. by constructor. }
  destruct (r_cb g_best f_best0 s) as [[v3 k3]|] eqn:E3; [|done].
  intros [= -> ->]. unfold r_cb in E3. destruct (f_best0 s) as [[u j]|] eqn:EF; [|done]. destruct (g_best u); [|done]. injection E3 as <- ->.
  apply best_inv in EF as (w & c & a & b & Hs & Hw & Hc & Ha & Hb & _). rewrite drop_ge, app_nil_r in Hs by done. rewrite Hs. eexists.
  constructor; [done|done|by apply digit_is|by apply digit_is].
Qed.
Lemma id_eval t n : a_number n -> f_id t n = match g_id t (VArr [VStr n; VArr []]) with Some (Some v) => Some (v, length n) | _ => None end.
Proof.
  intros Hn. unfold f_id, r_cb. destruct (digits_here n [] Hn ltac:(done)) as (v & HV & HW). rewrite app_nil_r in HV. rewrite HV.
  unfold g_id. rewrite HW. cbn [whole strs]. rewrite app_nil_r. destruct (atoi n); [done|]. by destruct t as [[u|]|].
Qed.
Lemma no_id t s b r : s = b :: r -> first_b b = false -> f_id t s = None.
Proof. intros -> Hb. unfold f_id, r_cb, f_digits. cbn [r_array]. unfold r_re, m_class at 1. by rewrite Hb. Qed.
Lemma title_eval t u : Forall (fun b => b <> 34%N) u -> f_game t (s2b """" ++ u ++ s2b """") =
  Some (game_v (answer (ByTitle u)), length (s2b """" ++ u ++ s2b """")).
Proof.
  intros Hu. unfold f_game. cbn [r_alt]. rewrite (no_id t _ 34%N (u ++ s2b """")) by done. unfold r_cb at 1, f_title0. cbn [r_single]. rewrite lit_yes, drop_here.
  destruct (unquote_here u (s2b """") ltac:(by right) Hu) as (l & -> & HL). rewrite drop_here, lit_end. change (default VUndef (Some (VArr l))) with (VArr l). cbn [g_title]. rewrite HL.
  f_equal. f_equal. rewrite !app_length. lia.
Qed.
Lemma best_eval t w c a b : blank w -> century c -> digit_b a = true -> digit_b b = true -> f_game t (s2b "bestIn:" ++ w ++ c ++ [a; b]) =
  Some (game_v (answer (ByYear (decimal (c ++ [a; b])))), length (s2b "bestIn:" ++ w ++ c ++ [a; b])).
Proof.
  intros Hw Hc Ha Hb. unfold f_game. cbn [r_alt]. rewrite (no_id t _ 98%N (s2b "estIn:" ++ w ++ c ++ [a; b])) by done.
  change (r_cb g_title f_title0 (s2b "bestIn:" ++ w ++ c ++ [a; b])) with (@None (val * nat)).
  unfold r_cb at 1, f_best0. cbn [r_single]. rewrite lit_yes, drop_here. rewrite blank_here; [|done|].
  2: { destruct Hc as [-> |[-> | ->]]; by apply head_not. }
  rewrite drop_here. pose proof (year_here c a b [] Hc Ha Hb) as HY. rewrite app_nil_r in HY. rewrite HY. change (default VUndef (Some (VStr (c ++ [a; b])))) with (VStr (c ++ [a; b])). cbn [g_best].
  destruct (year_number c a b Hc Ha Hb) as [HN HS]. rewrite (atoi_number _ HN). unfold small in HS. destruct (Z.ltb_spec (decimal (c ++ [a; b])) (2 ^ 63)); [|lia].
  f_equal. f_equal. rewrite !app_length, (century_length c Hc). cbn [length s2b]. lia.
Qed.
Lemma game_complete t s a : asks s a -> fits a -> f_game t s = Some (game_v (answer a), length s).
Proof.
  intros H Hf. destruct H as [n Hn|u Hu|w c x y Hw Hc Hx Hy].
  - unfold f_game. cbn [r_alt]. rewrite (id_eval t n Hn). unfold g_id. cbn [whole strs]. rewrite app_nil_r, (atoi_number n Hn). cbn [fits] in Hf.
    by destruct (Z.ltb_spec (decimal n) (2 ^ 63)); [|lia].
  - by apply title_eval.
  - apply best_eval; [done|done|by apply digit_digit|by apply digit_digit].
Qed.
Lemma game_large s a t : asks s a -> ~ fits a -> f_game (Some t) s = (fun k => (VUser k [], length s)) <$> t.
Proof.
  intros H Hf. destruct H as [n Hn|u Hu|w c x y Hw Hc Hx Hy]; [|by destruct Hf|by destruct Hf].
  unfold f_game. cbn [r_alt]. rewrite (id_eval _ n Hn). unfold g_id. cbn [whole strs]. rewrite app_nil_r, (atoi_number n Hn). cbn [fits] in Hf.
  destruct (Z.ltb_spec (decimal n) (2 ^ 63)); [lia|]. destruct t as [k|]; [done|]. cbn [fmap option_fmap option_map].
  destruct Hn as (b & r & -> & Hb & _).
  assert (forall w F, match w with c :: _ => (57 <? c)%N || (c <? 49)%N | [] => false end = true -> r_single ((false, r_lit w) :: F) None (b :: r) = None) as HL.
  { intros w F Hw. cbn [r_single]. unfold r_lit. destruct w as [|c w]; [done|]. rewrite bool_decide_false; [done|]. cbn [take length]. intros [= -> _].
    apply orb_prop in Hw as [Hw%N.ltb_lt|Hw%N.ltb_lt]; lia. }
  unfold r_cb, f_title0, f_best0. by rewrite !HL.
Qed.
Lemma asks_starts s a : asks s a -> fits a -> starts_small s.
Proof.
  intros H Hf n r Hs Hn. destruct H as [m Hm|u Hu|w c x y Hw Hc Hx Hy].
  - cbn [fits] in Hf. subst m. pose proof (decimal_part [] n r (number_digits _ Hm)) as HD. cbn [app] in HD. unfold small. lia.
  - exfalso. destruct Hn as (b & q & -> & Hb & _). injection Hs as <- _. lia.
  - exfalso. destruct Hn as (b & q & -> & Hb & _). injection Hs as <- _. lia.
Qed.

(** ** ParseString *)
Lemma game_rx_ok re : rx_ok (game_rx re).
Proof.
  intros s a b H. unfold game_rx in H.
  assert (forall m, (forall s n, m s = Some n -> 0 < n <= length s) -> leftmost m (S (length s)) s 0 = Some (a, b) -> a <= b <= length s) as HC.
  { intros m Hm HL. apply leftmost_in in HL; [lia|]. intros x n Hx. apply Hm in Hx. lia. }
  repeat (destruct (bytes_eqb re _); [eapply HC; [|exact H]; first [apply class_length|apply unquote_length]|]). done.
Qed.
Section Run.
Variable o : popts.
Hypothesis Ho : po_debug o = false.
Notation g := (gram_of games).
Notation parse fuel s := (fst (parse_string fuel g o game_rx game_cb s)).
Notation parse_with t fuel s := (fst (parse_string fuel g o game_rx (game_cb_with t) s)).

Lemma game_ready t : ids_fit (mk_env g o game_rx (game_cb_with t)) (fst games) /\ ids_unique (mk_env g o game_rx (game_cb_with t)) (fst games) /\ top_rank (fst games).
Proof.
  pose proof (ready game_compile 300 "videogamedb" game_lines games games_eq game_names_once game_no_singles ltac:(done) ltac:(by vm_compute) o game_rx (game_cb_with t))
    as (H1 & H2 & H3 & _). done.
Qed.
Lemma game_run t s : (t = None -> starts_small s) -> exists fuel0, forall fuel, fuel0 <= fuel ->
  match f_game t s with
  | Some (v, e) =>
      if e =? length s then exists x s', parse_with t fuel s = Ok (Some x) s' /\ rep [] (s_heap s') x v
      else exists k s', parse_with t fuel s = Ok (Some (AErr k)) s' /\ e <= k <= length s
  | None =>
      if 0 =? length s then exists s', parse_with t fuel s = Ok None s'
      else exists k s', parse_with t fuel s = Ok (Some (AErr k)) s' /\ k <= length s
  end.
Proof.
  intros Ht. refine (gen_run games o Ho game_rx (game_cb_with t) (game_cbf t) game_rx_ok _ (game_ready t) _ s 4 _ (game_reads s t Ht) _).
  - intros f. left. by apply game_keeps.
  - by vm_compute.
  - unfold stack_limit. lia.
Qed.
Lemma rep_game P h x ga : rep P h x (game_v ga) -> x = game_ast ga.
Proof.
  unfold game_v, game_ast. intros H. inversion H; subst. f_equal.
  repeat match goal with HF : reps _ _ _ _ |- _ => inversion HF; subst; clear HF end.
  repeat match goal with HR : rep _ _ _ (VInt _) |- _ => inversion HR; subst; clear HR | HR : rep _ _ _ (VStr _) |- _ => inversion HR; subst; clear HR end. done.
Qed.
Lemma games_answer s a ga : asks s a -> fits a -> answers a ga -> exists fuel0, forall fuel, fuel0 <= fuel -> exists s', parse fuel s = Ok (Some (game_ast ga)) s'.
Proof.
  intros H Hf Ha. rewrite (answers_unique a ga (answer a) Ha (answers_answer a)).
  destruct (game_run None s (fun _ => asks_starts s a H Hf)) as (f0 & HF). exists f0. intros fuel Hl. specialize (HF fuel Hl).
  rewrite (game_complete None s a H Hf), Nat.eqb_refl in HF. destruct HF as (x & s' & Hx & Hr). exists s'. rewrite <- (rep_game _ _ _ _ Hr). exact Hx.
Qed.
Lemma games_others_with t s : (t = None -> starts_small s) -> (forall a, ~ asks s a) -> exists fuel0, forall fuel, fuel0 <= fuel -> exists s',
  match s with
  | [] => parse_with t fuel s = Ok None s'
  | _ => exists k, parse_with t fuel s = Ok (Some (AErr k)) s' /\ k <= length s
  end.
Proof.
  intros Ht Hno. destruct (game_run t s Ht) as (f0 & Hf). exists f0. intros fuel Hl. specialize (Hf fuel Hl).
  destruct (f_game t s) as [[v q]|] eqn:EF.
  - destruct (Nat.eqb_spec q (length s)) as [-> |Hq]; [apply game_sound in EF as (a & H); by destruct (Hno a)|].
    destruct Hf as (k & s' & Hx & Hk). exists s'. destruct s as [|b s]; [cbn in Hk, Hq; lia|]. exists k. split; [exact Hx|lia].
  - destruct s as [|b s]; [destruct Hf as (s' & Hx); by exists s'|]. destruct Hf as (k & s' & Hx & Hk). exists s'. by exists k.
Qed.
Lemma games_never s : (forall a, ~ asks s a) -> exists fuel0, forall fuel, fuel0 <= fuel -> exists s',
  (exists k, parse fuel s = Panic (Base.PUser k) s') \/
  match s with [] => parse fuel s = Ok None s' | _ => exists k, parse fuel s = Ok (Some (AErr k)) s' /\ k <= length s end.
Proof.
  intros Hno. destruct (games_others_with (Some None) s ltac:(done) Hno) as (f0 & Hf). exists f0. intros fuel Hl. destruct (Hf fuel Hl) as (s' & H).
  unfold parse_string in *.
  destruct (ple_gram fuel g o game_rx _ _ (CRune (new_rune_stream s)) (game_braver (Some None))) as [(k & s'' & HA)|HA]; [exists s''; left; eauto|].
  exists s'. right. rewrite HA. exact H.
Qed.
Lemma games_panic s a : asks s a -> ~ fits a -> exists fuel0, forall fuel, fuel0 <= fuel -> exists k s', parse fuel s = Panic (Base.PUser k) s'.
Proof.
  intros H Hn. destruct (game_run (Some (Some 0)) s ltac:(done)) as (f0 & Hf). destruct (game_run (Some (Some 1)) s ltac:(done)) as (f1 & Hf1).
  exists (f0 + f1). intros fuel Hl. specialize (Hf fuel ltac:(lia)). specialize (Hf1 fuel ltac:(lia)).
  rewrite (game_large s a (Some 0) H Hn) in Hf. rewrite (game_large s a (Some 1) H Hn) in Hf1. cbn [fmap option_fmap option_map] in Hf, Hf1.
  rewrite Nat.eqb_refl in Hf, Hf1. destruct Hf as (x & s1 & Hx & Hr). destruct Hf1 as (x1 & s2 & Hx1 & Hr1). unfold parse_string in *.
  destruct (ple_gram fuel g o game_rx _ _ (CRune (new_rune_stream s)) (game_braver (Some (Some 0)))) as [|HA]; [done|].
  destruct (ple_gram fuel g o game_rx _ _ (CRune (new_rune_stream s)) (game_braver (Some (Some 1)))) as [|HB]; [done|].
  exfalso. rewrite HA, Hx in HB. rewrite Hx1 in HB. injection HB as <- _. inversion Hr; subst. inversion Hr1.
Qed.
End Run.
