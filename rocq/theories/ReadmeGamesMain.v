(** ParseString with the README's grammars about games. *)
From stdpp Require Import sets.
From Verif Require Import Base Helpers Utf8 Utf8Proofs Stream StreamSpec Native Engine EngSpec EngInv Toy Peg PegProofs PegRep PegBody PegStd PegStdProofs
  RunSpec PegLaws PegRun Build BuildSpec BuildMain Joeson JoesonSpec JoesonRun Calc CalcRun CalcSpec CalcPeg CalcMain Brave LispRead LispReadPeg LispReadText LispReadTop Gives
  Color ColorRun ColorSpec Readers ColorPeg ColorMain Games GamesRun GamesSpec GamesPeg GamesMain ReadmeGames ReadmeGamesRun ReadmeGamesSpec ReadmeGamesPeg.
Local Open Scope list_scope.

(** ** Texts *)
Lemma two_game t s v : f_two t s = Some v -> f_game t s = Some v.
Proof. unfold f_two, f_game. cbn [r_alt]. destruct (f_id t s); [done|]. by destruct (r_cb g_title f_title0 s). Qed.
Lemma two_sound t s v : f_two t s = Some (v, length s) -> exists a, asks s a /\ plain a.
Proof.
  intros H. pose proof (two_game _ _ _ H) as HG. destruct (game_sound t s v HG) as (a & Ha). exists a. split; [done|].
  destruct Ha as [|u|w c x y Hw Hc Hx Hy]; [done|done|]. exfalso.
  unfold f_two in H. cbn [r_alt] in H. rewrite (no_id t _ 98%N (s2b "estIn:" ++ w ++ c ++ [x; y])) in H by done. discriminate H.
Qed.
Lemma two_complete t s a : asks s a -> plain a -> fits a -> f_two t s = Some (game_v (answer a), length s).
Proof.
  intros Ha Hp Hf. pose proof (game_complete t s a Ha Hf) as HG. destruct Ha as [n Hn|u Hu|]; [| |done].
  - unfold f_game, f_two in *. cbn [r_alt] in *. rewrite (id_eval t n Hn) in *. unfold g_id in *. cbn [whole strs] in *. rewrite app_nil_r, (atoi_number n Hn) in *.
    cbn [fits] in Hf. by destruct (Z.ltb_spec (decimal n) (2 ^ 63)); [|lia].
  - unfold f_game, f_two in *. cbn [r_alt] in *. rewrite (no_id t _ 34%N (u ++ s2b """")) in * by done.
    destruct (r_cb g_title f_title0 _); [done|]. discriminate HG.
Qed.
Lemma two_large s a t : asks s a -> plain a -> ~ fits a -> f_two (Some (Some t)) s = Some (VUser t [], length s).
Proof.
  intros Ha Hp Hf. pose proof (game_large s a (Some t) Ha Hf) as HG. destruct Ha as [n Hn|u Hu|]; [|by destruct Hf|done].
  cbn [fmap option_fmap option_map] in HG. unfold f_game, f_two in *. cbn [r_alt] in *.
  rewrite (id_eval (Some (Some t)) n Hn) in *. unfold g_id in *. cbn [whole strs] in *. rewrite app_nil_r, (atoi_number n Hn) in *.
  cbn [fits] in Hf. by destruct (Z.ltb_spec (decimal n) (2 ^ 63)); [lia|].
Qed.

Section Run.
Variable o : popts.
Hypothesis Ho : po_debug o = false.

(** ** example2 and example4 *)
Section Two.
Variables n1 n2 : string.
Notation b := (x_built n1 n2).
Hypothesis Hready : forall cb, ids_fit (mk_env (gram_of b) o game_rx cb) (fst b) /\ ids_unique (mk_env (gram_of b) o game_rx cb) (fst b) /\ top_rank (fst b).
Hypothesis Hdebug : forallb (fun n => negb (i_debug (n_info n))) (all_nodes (fst b) (snd b)) = true.
Notation parse fuel s := (fst (parse_string fuel (gram_of b) o game_rx readme_cb s)).
Notation parse_with t fuel s := (fst (parse_string fuel (gram_of b) o game_rx (readme_cb_with t) s)).
Lemma two_run t s : (t = None -> starts_small s) -> exists fuel0, forall fuel, fuel0 <= fuel ->
  match f_two t s with
  | Some (v, e) =>
      if e =? length s then exists x s', parse_with t fuel s = Ok (Some x) s' /\ rep [] (s_heap s') x v
      else exists k s', parse_with t fuel s = Ok (Some (AErr k)) s' /\ e <= k <= length s
  | None =>
      if 0 =? length s then exists s', parse_with t fuel s = Ok None s'
      else exists k s', parse_with t fuel s = Ok (Some (AErr k)) s' /\ k <= length s
  end.
Proof.
  intros Ht. refine (gen_run b o Ho game_rx (readme_cb_with t) (readme_cbf t) game_rx_ok _ (Hready _) Hdebug s 4 _ (xgame_reads s t _ Ht n1 n2) _).
  - intros f. left. by apply readme_keeps.
  - unfold stack_limit. lia.
Qed.
Lemma same_none : braver (readme_cb_with None) readme_cb.
Proof. intros c p h x. right. by destruct c as [|[|[|[|[|c]]]]]. Qed.
Lemma from_none fuel s r s' : parse_with None fuel s = Ok r s' -> parse fuel s = Ok r s'.
Proof.
  intros H. unfold parse_string in *.
  destruct (ple_gram fuel (gram_of b) o game_rx _ _ (CRune (new_rune_stream s)) same_none) as [(k & s'' & HA)|HA]; [by rewrite HA in H|by rewrite <- HA].
Qed.
Lemma two_answer s a ga : asks s a -> plain a -> fits a -> answers a ga -> exists fuel0, forall fuel, fuel0 <= fuel -> exists s', parse fuel s = Ok (Some (game_ast ga)) s'.
Proof.
  intros H Hp Hf Ha. rewrite (answers_unique a ga (answer a) Ha (answers_answer a)).
  destruct (two_run None s (fun _ => asks_starts s a H Hf)) as (f1 & HF1). exists f1. intros fuel Hl. specialize (HF1 fuel Hl).
  rewrite (two_complete None s a H Hp Hf), Nat.eqb_refl in HF1. destruct HF1 as (x & s' & Hx & Hr). exists s'. rewrite <- (rep_game _ _ _ _ Hr).
  by apply from_none.
Qed.
Lemma two_others_with t s : (t = None -> starts_small s) -> (forall a, asks s a -> ~ plain a) -> exists fuel0, forall fuel, fuel0 <= fuel -> exists s',
  match s with
  | [] => parse_with t fuel s = Ok None s'
  | _ => exists k, parse_with t fuel s = Ok (Some (AErr k)) s' /\ k <= length s
  end.
Proof.
  intros Ht Hno. destruct (two_run t s Ht) as (f0 & Hf). exists f0. intros fuel Hl. specialize (Hf fuel Hl).
  destruct (f_two t s) as [[v q]|] eqn:EF.
  - destruct (Nat.eqb_spec q (length s)) as [-> |Hq]; [apply two_sound in EF as (a & H & Hp); by destruct (Hno a H)|].
    destruct Hf as (k & s' & Hx & Hk). exists s'. destruct s as [|c s]; [cbn in Hk, Hq; lia|]. exists k. split; [exact Hx|lia].
  - destruct s as [|c s]; [destruct Hf as (s' & Hx); by exists s'|]. destruct Hf as (k & s' & Hx & Hk). exists s'. by exists k.
Qed.
Lemma two_others s : starts_small s -> (forall a, asks s a -> ~ plain a) -> exists fuel0, forall fuel, fuel0 <= fuel -> exists s',
  match s with
  | [] => parse fuel s = Ok None s'
  | _ => exists k, parse fuel s = Ok (Some (AErr k)) s' /\ k <= length s
  end.
Proof.
  intros Ht Hno. destruct (two_others_with None s (fun _ => Ht) Hno) as (f0 & Hf). exists f0. intros fuel Hl. destruct (Hf fuel Hl) as (s' & H). exists s'.
  destruct s as [|c s]; [by apply from_none|]. destruct H as (k & H & Hk). exists k. split; [by apply from_none|done].
Qed.
Lemma two_never s : (forall a, asks s a -> ~ plain a) -> exists fuel0, forall fuel, fuel0 <= fuel -> exists s',
  (exists k, parse fuel s = Panic (Base.PUser k) s') \/
  match s with [] => parse fuel s = Ok None s' | _ => exists k, parse fuel s = Ok (Some (AErr k)) s' /\ k <= length s end.
Proof.
  intros Hno. destruct (two_others_with (Some None) s ltac:(done) Hno) as (f0 & Hf). exists f0. intros fuel Hl. destruct (Hf fuel Hl) as (s' & H).
  unfold parse_string in *.
  destruct (ple_gram fuel (gram_of b) o game_rx _ _ (CRune (new_rune_stream s)) (readme_braver (Some None))) as [(k & s'' & HA)|HA]; [exists s''; left; eauto|].
  exists s'. right. rewrite HA. exact H.
Qed.
Lemma two_panic s a : asks s a -> plain a -> ~ fits a -> exists fuel0, forall fuel, fuel0 <= fuel -> exists k s', parse fuel s = Panic (Base.PUser k) s'.
Proof.
  intros H Hp Hn. destruct (two_run (Some (Some 0)) s ltac:(done)) as (f0 & Hf). destruct (two_run (Some (Some 1)) s ltac:(done)) as (f1 & Hf1).
  exists (f0 + f1). intros fuel Hl. specialize (Hf fuel ltac:(lia)). specialize (Hf1 fuel ltac:(lia)).
  rewrite (two_large s a 0 H Hp Hn) in Hf. rewrite (two_large s a 1 H Hp Hn) in Hf1.
  rewrite Nat.eqb_refl in Hf, Hf1. destruct Hf as (x & s1 & Hx & Hr). destruct Hf1 as (x1 & s2 & Hx1 & Hr1). unfold parse_string in *.
  destruct (ple_gram fuel (gram_of b) o game_rx _ _ (CRune (new_rune_stream s)) (readme_braver (Some (Some 0)))) as [|HA]; [done|].
  destruct (ple_gram fuel (gram_of b) o game_rx _ _ (CRune (new_rune_stream s)) (readme_braver (Some (Some 1)))) as [|HB]; [done|].
  exfalso. rewrite HA, Hx in HB. rewrite Hx1 in HB. injection HB as <- _. inversion Hr; subst. inversion Hr1.
Qed.
End Two.

(** ** example1 *)
Notation parse1 fuel s := (fst (parse_string fuel (gram_of ex1) o game_rx readme_cb s)).
Lemma one_run s : exists fuel0, forall fuel, fuel0 <= fuel ->
  match f_one s with
  | Some (v, e) =>
      if e =? length s then exists x s', parse1 fuel s = Ok (Some x) s' /\ rep [] (s_heap s') x v
      else exists k s', parse1 fuel s = Ok (Some (AErr k)) s' /\ e <= k <= length s
  | None =>
      if 0 =? length s then exists s', parse1 fuel s = Ok None s'
      else exists k s', parse1 fuel s = Ok (Some (AErr k)) s' /\ k <= length s
  end.
Proof.
  assert (forall rules, Gives.gives rules game_rx (readme_cbf None) s 2 (fst ex1) 0 (f_one s)) as HG.
  { intros rules. rewrite ex1_nodes. pose proof (ygame_reads s rules 0 s eq_refl) as H. cbn [fst]. by destruct (f_one s) as [[v k]|]. }
  refine (gen_run ex1 o Ho game_rx readme_cb (readme_cbf None) game_rx_ok _ _ _ s 2 _ (HG _) _).
  - intros f. left. intros p h x v P. pose proof (readme_keeps None (mk_env (gram_of ex1) o game_rx (readme_cb_with None)) f eq_refl p h x v P) as HK.
    assert (readme_cb_with None f p h x = readme_cb f p h x) as HE by (by destruct f as [|[|[|[|[|f]]]]]).
    cbn [e_cb mk_env] in *. rewrite HE in HK. exact HK.
  - destruct ex_names_once as (HN & _). pose proof (ready game_compile 300 "exampleN" ex1_lines ex1 ex1_eq HN ex1_no_singles ltac:(done) ltac:(by vm_compute) o game_rx readme_cb)
      as (H1 & H2 & H3 & _). done.
  - by vm_compute.
  - unfold stack_limit. lia.
Qed.
Lemma atoi_one c : first_b c = true -> atoi [c] = Some (Z.of_N c - 48)%Z.
Proof.
  intros Hb. unfold first_b in Hb. apply andb_prop in Hb as [H1%N.leb_le H2%N.leb_le].
  rewrite (atoi_number [c]); [|exists c, []; split; [done|]; split; [lia|constructor]].
  unfold decimal. cbn [fold_left]. destruct (Z.ltb_spec (0 * 10 + (Z.of_N c - 48)) (2 ^ 63)); [f_equal; lia|lia].
Qed.
Lemma one_sound s v : f_one s = Some (v, length s) -> exists a, asks_first s a.
Proof.
  unfold f_one, r_cb. cbn [r_alt]. destruct (f_id1 s) as [[v1 k1]|] eqn:E1.
  - apply id1_inv in E1 as (c & w & Hc & Hw & Hs & -> & ->). unfold g_make. cbn [String.eqb Ascii.eqb Bool.eqb].
    rewrite (atoi_one c Hc). intros [= _ HL]. rewrite drop_ge in Hs by lia. rewrite app_nil_r in Hs. rewrite Hs.
    eexists. constructor; [by apply first_is|]. eapply Forall_impl; [exact Hw|]. apply digit_is.
  - destruct (f_title1 s) as [[v2 k2]|] eqn:E2; [|done]. apply title1_inv in E2 as (u & l & Hs & Hu & -> & HL).
    cbn [g_make String.eqb Ascii.eqb Bool.eqb g_title]. rewrite HL. intros [= _ ->]. rewrite drop_ge, app_nil_r in Hs by lia. rewrite Hs. eexists. by constructor.
Qed.
Lemma one_complete s a : asks_first s a -> f_one s = Some (game_v (answer a), length s).
Proof.
  intros [c w Hc Hw|u Hu].
  - assert (first_b c = true) as Hf by (unfold first_b; apply andb_true_intro; split; apply N.leb_le; lia).
    unfold f_one, r_cb. cbn [r_alt]. unfold f_id1. cbn [r_object]. rewrite (re_here first_b c w Hf). change (drop 1 (c :: w)) with w.
    cbn [joined String.eqb Ascii.eqb Bool.eqb orb].
    pose proof (star_here digit_b w []) as HS. rewrite app_nil_r in HS.
    rewrite HS; [|eapply Forall_impl; [exact Hw|]; intros x Hx; by apply digit_digit|done].
    cbn [joined String.eqb Ascii.eqb Bool.eqb orb made_val kv_set g_make]. rewrite (atoi_one c Hf). cbn [answer]. by rewrite Nat.add_0_r.
  - unfold f_one, r_cb. cbn [r_alt]. change (f_id1 (s2b """" ++ u ++ s2b """")) with (@None (val * nat)). cbn iota.
    unfold f_title1. cbn [r_object]. rewrite lit_yes, drop_here. cbn [joined String.eqb Ascii.eqb Bool.eqb orb].
    destruct (unquote_here u (s2b """") ltac:(by right) Hu) as (l & -> & HL). rewrite drop_here, lit_end. cbn [joined String.eqb Ascii.eqb Bool.eqb orb made_val kv_set g_make g_title].
    rewrite HL. cbn [answer]. f_equal. f_equal. rewrite !app_length. lia.
Qed.
Lemma one_answer s a ga : asks_first s a -> answers a ga -> exists fuel0, forall fuel, fuel0 <= fuel -> exists s', parse1 fuel s = Ok (Some (game_ast ga)) s'.
Proof.
  intros H Ha. rewrite (answers_unique a ga (answer a) Ha (answers_answer a)).
  destruct (one_run s) as (f1 & HF1). exists f1. intros fuel Hl. specialize (HF1 fuel Hl).
  rewrite (one_complete s a H), Nat.eqb_refl in HF1. destruct HF1 as (x & s' & Hx & Hr). exists s'. by rewrite <- (rep_game _ _ _ _ Hr).
Qed.
Lemma one_others s : (forall a, ~ asks_first s a) -> exists fuel0, forall fuel, fuel0 <= fuel -> exists s',
  match s with
  | [] => parse1 fuel s = Ok None s'
  | _ => exists k, parse1 fuel s = Ok (Some (AErr k)) s' /\ k <= length s
  end.
Proof.
  intros Hno. destruct (one_run s) as (f0 & Hf). exists f0. intros fuel Hl. specialize (Hf fuel Hl).
  destruct (f_one s) as [[v q]|] eqn:EF.
  - destruct (Nat.eqb_spec q (length s)) as [-> |Hq]; [apply one_sound in EF as (a & H); by destruct (Hno a)|].
    destruct Hf as (k & s' & Hx & Hk). exists s'. destruct s as [|c s]; [cbn in Hk, Hq; lia|]. exists k. split; [exact Hx|lia].
  - destruct s as [|c s]; [destruct Hf as (s' & Hx); by exists s'|]. destruct Hf as (k & s' & Hx & Hk). exists s'. by exists k.
Qed.
End Run.

(** ** example2 and example4 are of this form *)
Lemma ex2_ready o cb : ids_fit (mk_env (gram_of ex2) o game_rx cb) (fst ex2) /\ ids_unique (mk_env (gram_of ex2) o game_rx cb) (fst ex2) /\ top_rank (fst ex2).
Proof.
  destruct ex_names_once as (_ & HN & _).
  pose proof (ready game_compile 300 "exampleN" ex2_lines ex2 ex2_eq HN ex2_no_singles ltac:(done) ltac:(by vm_compute) o game_rx cb) as (H1 & H2 & H3 & _). done.
Qed.
Lemma ex4_ready o cb : ids_fit (mk_env (gram_of ex4) o game_rx cb) (fst ex4) /\ ids_unique (mk_env (gram_of ex4) o game_rx cb) (fst ex4) /\ top_rank (fst ex4).
Proof.
  destruct ex_names_once as (_ & _ & HN).
  pose proof (ready game_compile 300 "exampleN" ex4_lines ex4 ex4_eq HN ex4_no_singles ltac:(done) ltac:(by vm_compute) o game_rx cb) as (H1 & H2 & H3 & _). done.
Qed.
(** A statement about both. *)
Lemma both (P : built -> popts -> Prop) :
  (forall n1 n2 o, (forall cb, ids_fit (mk_env (gram_of (x_built n1 n2)) o game_rx cb) (fst (x_built n1 n2)) /\
      ids_unique (mk_env (gram_of (x_built n1 n2)) o game_rx cb) (fst (x_built n1 n2)) /\ top_rank (fst (x_built n1 n2))) ->
    forallb (fun n => negb (i_debug (n_info n))) (all_nodes (fst (x_built n1 n2)) (snd (x_built n1 n2))) = true -> P (x_built n1 n2) o) ->
  forall b o, b = ex2 \/ b = ex4 -> P b o.
Proof.
  intros H b o [-> | ->].
  - rewrite ex2_nodes. apply H; [rewrite <- ex2_nodes; exact (ex2_ready o)|by vm_compute].
  - rewrite ex4_nodes. apply H; [rewrite <- ex4_nodes; exact (ex4_ready o)|by vm_compute].
Qed.
Section Both.
Variable o : popts.
Hypothesis Ho : po_debug o = false.
Variable b : built.
Hypothesis Hb : b = ex2 \/ b = ex4.
Notation parse fuel s := (fst (parse_string fuel (gram_of b) o game_rx readme_cb s)).
Lemma both_answer s a ga : asks s a -> plain a -> fits a -> answers a ga -> exists fuel0, forall fuel, fuel0 <= fuel -> exists s', parse fuel s = Ok (Some (game_ast ga)) s'.
Proof.
  revert b o Hb Ho. refine (both (fun b o => po_debug o = false -> asks s a -> plain a -> fits a -> answers a ga -> exists fuel0, forall fuel, fuel0 <= fuel -> exists s',
    fst (parse_string fuel (gram_of b) o game_rx readme_cb s) = Ok (Some (game_ast ga)) s') _).
  intros n1 n2 o' HR HD Ho'. exact (two_answer o' Ho' n1 n2 HR HD s a ga).
Qed.
Lemma both_others s : starts_small s -> (forall a, asks s a -> ~ plain a) -> exists fuel0, forall fuel, fuel0 <= fuel -> exists s',
  match s with
  | [] => parse fuel s = Ok None s'
  | _ => exists k, parse fuel s = Ok (Some (AErr k)) s' /\ k <= length s
  end.
Proof.
  revert b o Hb Ho. refine (both (fun b o => po_debug o = false -> starts_small s -> (forall a, asks s a -> ~ plain a) -> exists fuel0, forall fuel, fuel0 <= fuel -> exists s',
    match s with
    | [] => fst (parse_string fuel (gram_of b) o game_rx readme_cb s) = Ok None s'
    | _ => exists k, fst (parse_string fuel (gram_of b) o game_rx readme_cb s) = Ok (Some (AErr k)) s' /\ k <= length s
    end) _).
  intros n1 n2 o' HR HD Ho'. exact (two_others o' Ho' n1 n2 HR HD s).
Qed.
Lemma both_never s : (forall a, asks s a -> ~ plain a) -> exists fuel0, forall fuel, fuel0 <= fuel -> exists s',
  (exists k, parse fuel s = Panic (Base.PUser k) s') \/
  match s with [] => parse fuel s = Ok None s' | _ => exists k, parse fuel s = Ok (Some (AErr k)) s' /\ k <= length s end.
Proof.
  revert b o Hb Ho. refine (both (fun b o => po_debug o = false -> (forall a, asks s a -> ~ plain a) -> exists fuel0, forall fuel, fuel0 <= fuel -> exists s',
    (exists k, fst (parse_string fuel (gram_of b) o game_rx readme_cb s) = Panic (Base.PUser k) s') \/
    match s with
    | [] => fst (parse_string fuel (gram_of b) o game_rx readme_cb s) = Ok None s'
    | _ => exists k, fst (parse_string fuel (gram_of b) o game_rx readme_cb s) = Ok (Some (AErr k)) s' /\ k <= length s
    end) _).
  intros n1 n2 o' HR HD Ho'. exact (two_never o' Ho' n1 n2 HR HD s).
Qed.
Lemma both_panic s a : asks s a -> plain a -> ~ fits a -> exists fuel0, forall fuel, fuel0 <= fuel -> exists k s', parse fuel s = Panic (Base.PUser k) s'.
Proof.
  revert b o Hb Ho. refine (both (fun b o => po_debug o = false -> asks s a -> plain a -> ~ fits a -> exists fuel0, forall fuel, fuel0 <= fuel -> exists k s',
    fst (parse_string fuel (gram_of b) o game_rx readme_cb s) = Panic (Base.PUser k) s') _).
  intros n1 n2 o' HR HD Ho'. exact (two_panic o' Ho' n1 n2 HR HD s a).
Qed.
End Both.
