(** The calculator on whole texts. *)
From Verif Require Import Base Helpers Utf8 Stream StreamSpec Native Engine EngSpec EngInv Toy Peg PegRep PegBody PegStd RunSpec PegRun Build BuildSpec BuildMain
  Joeson JoesonSpec JoesonRun Calc CalcRun CalcSpec CalcPeg Brave.

Lemma calc_rx_ok re : rx_ok (calc_rx re).
Proof.
  assert (forall s i a b, find_first blank_b s i = Some (a, b) -> a <= b <= i + length s) as HF.
  { induction s as [|c s IH]; intros i a b; cbn; [done|]. destruct (blank_b c); [intros [= <- <-]; lia|]. intros H%IH. lia. }
  assert (forall s, run_len digit_b s <= length s) as HR.
  { induction s as [|c s IH]; cbn; [lia|]. destruct (digit_b c); lia. }
  intros s a b. unfold calc_rx. destruct (bytes_eqb re re_blank); [apply HF|]. destruct (bytes_eqb re re_number); [|done].
  destruct (match s with 45%N :: s' => (1, s') | _ => (0, s) end) as [k ds] eqn:E.
  assert (k + length ds <= length s) as Hk.
  { destruct s as [|[|c] s]; try (injection E as <- <-; cbn; lia).
    do 6 (try (destruct c as [c|c|])); injection E as <- <-; cbn; lia. }
  pose proof (HR ds). destruct (run_len digit_b ds) as [|n]; [done|]. intros [= <- <-]. lia.
Qed.

(** ** The callbacks *)
Section Pure.
Variable t : option nat.

Lemma fold_rep P h l l' : reps P h l l' -> forall z, calc_fold z l = fold_v z l'.
Proof.
  induction 1 as [|x v l l' Hx Hl IH]; intros z; [done|]. cbn [calc_fold fold_v].
  destruct Hx as [| | | |l1 l1' H1| | |]; try done.
  destruct H1 as [|x1 v1 l1 l1' Hx1 H1]; [done|]. destruct Hx1; try done; destruct H1 as [|x2 v2 l2 l2' Hx2 H2]; try done;
    destruct Hx2; destruct H2; try done. by destruct (calc_op _ _ _).
Qed.
Lemma kv_rep P h m kv k v : repf P h m kv -> kv_get kv k = Some v -> exists x, nm_get m k = Some x /\ rep P h x v.
Proof.
  unfold kv_get. induction 1 as [|m k' v' kv x Hx Hr Hf IH]; [done|]. cbn [List.find fst].
  destruct (String.eqb_spec k k') as [-> |]; [cbn; intros [= ->]; eauto|]. done.
Qed.
Lemma calc_cb_val f p h x v P : rep P h x v ->
  match calc_val f v with
  | None => True
  | Some None => exists k, calc_cb f p h x = CbPanic k
  | Some (Some v') => exists y, calc_cb f p h x = CbRet h (Some y) /\ rep P h y v'
  end.
Proof.
  intros Hr. destruct f as [|[|f]]; [| |by destruct v].
  - destruct Hr as [| | | | | |a m at_ kv Ha Hh Hk Hnd Hf|]; try done.
    cbn [calc_val]. destruct (kv_get kv "first") as [v1|] eqn:E1; [|done]. destruct (kv_get kv "rest") as [v2|] eqn:E2; [|by destruct v1].
    destruct (kv_rep _ _ _ _ _ _ Hf E1) as (x1 & G1 & R1). destruct (kv_rep _ _ _ _ _ _ Hf E2) as (x2 & G2 & R2).
    cbn [calc_cb]. unfold calc_xx. rewrite Hh, G1, G2.
    destruct R1; try (eexists; reflexivity). destruct R2 as [| | | |l l' Hl| | |]; try (eexists; reflexivity).
    rewrite (fold_rep _ _ _ _ Hl). destruct (fold_v z l'); cbn; eexists; [split; [reflexivity|constructor]|reflexivity].
  - destruct Hr; try done. cbn [calc_val calc_cb native_int_from]. destruct (atoi s); cbn; eexists; [split; [reflexivity|constructor]|reflexivity].
Qed.
Lemma calc_pure E root : e_cb E = calc_cb_with t -> cb_pure E root (calc_cbf t).
Proof.
  intros HE f. left. intros p h x v P Hr _. rewrite HE. pose proof (calc_cb_val f p h x v P Hr) as H. unfold calc_cbf, calc_cb_with.
  destruct (calc_val f v) as [[v'|]|]; [| |done].
  - destruct H as (y & -> & Hy). exists h, (Some y). split; [by destruct t|]. split; [apply hext_refl|]. by exists y.
  - destruct H as (k & ->). destruct t as [k'|]; [|done]. exists h, (Some (AUser k' [])). split; [done|]. split; [apply hext_refl|].
    exists (AUser k' []). split; [done|]. constructor. constructor.
Qed.

(** ** The grammar *)
Variable o : popts.
Hypothesis Ho : po_debug o = false.
Notation g := (gram_of calc).
Notation E := (mk_env g o calc_rx (calc_cb_with t)).

Lemma calc_reach n : reach E n_top n -> n ∈ all_nodes n_top (snd calc).
Proof.
  intros H. induction H as [|n c _ IH Hc|name n H].
  - apply elem_of_flat_map. exists n_top. split; [left|apply subnodes_self].
  - apply elem_of_flat_map in IH as (m & Hm & IH). apply elem_of_flat_map. exists m. split; [done|]. by eapply subnodes_child.
  - apply last_of_split in H as (i & Hi & _). apply elem_of_list_lookup_2 in Hi.
    apply elem_of_flat_map. exists n. split; [right; apply elem_of_list_fmap; by exists (name, n)|apply subnodes_self].
Qed.
Lemma calc_ready : ids_fit E n_top /\ ids_unique E n_top /\ top_rank n_top.
Proof.
  pose proof (ready calc_compile 300 "calc" calc_lines calc calc_eq calc_names_once calc_no_singles ltac:(done) ltac:(by vm_compute) o calc_rx (calc_cb_with t))
    as (H1 & H2 & H3 & _). rewrite calc_nodes. done.
Qed.
Lemma calc_quiet : quiet E n_top.
Proof.
  split; [done|]. split; [done|]. intros n Hn%calc_reach.
  assert (forallb (fun n => negb (i_debug (n_info n))) (all_nodes n_top (snd calc)) = true) as H by (vm_compute; reflexivity).
  rewrite forallb_forall in H. apply elem_of_list_In in Hn. specialize (H n Hn). by destruct (i_debug (n_info n)).
Qed.
Lemma calc_grammar : pure_grammar E n_top (calc_cbf t).
Proof.
  destruct calc_ready as (H1 & H2 & H3). split; [apply calc_rx_ok|done|done|apply calc_quiet|by apply calc_pure].
Qed.

(** ** Whole texts *)
Lemma calc_textbook d e s w w' v : prints 2 d e s -> blank w -> blank w' -> d <= 340 -> val_of t e = Some v ->
  textbook E (calc_cbf t) (w ++ s ++ w') n_top 0 (Some (v, length (w ++ s ++ w'))).
Proof.
  intros Hp Hw Hw' Hd Hv.
  pose proof (exprs_all t (w ++ s ++ w') d e s v 0 w w' [] Hp Hw Hw' Hv) as H. rewrite app_nil_r in H.
  specialize (H eq_refl ltac:(done)). apply (gives_deeper _ _ _ stack_limit) in H; [|unfold stack_limit; lia].
  apply (alt_first _ _ _ (n_info n_top) _ []) in H as [f0 H]. exists (S f0).
  specialize (H f0 ltac:(lia)). cbn [std n_top n_kind n_info i_isrule] in *.
  change (std_body (e_rule E) (e_rx E)) with (std_body (g_rule (gram_of calc)) calc_rx).
  change (e_rule E) with (g_rule (gram_of calc)). change (e_rx E) with calc_rx.
  unfold n_top, nd. rewrite H. done.
Qed.
Lemma calc_run d e s w w' v : prints 2 d e s -> blank w -> blank w' -> d <= 340 -> val_of t e = Some v ->
  exists fuel0, forall fuel, fuel0 <= fuel -> exists x s',
    fst (parse_string fuel g o calc_rx (calc_cb_with t) (w ++ s ++ w')) = Ok (Some x) s' /\ rep [] (s_heap s') x v.
Proof.
  intros Hp Hw Hw' Hd Hv. destruct calc_ready as (H1 & [R HR] & H3).
  pose proof (calc_textbook d e s w w' v Hp Hw Hw' Hd Hv) as HT.
  set (c := CRune (new_rune_stream (w ++ s ++ w'))).
  pose proof (textbook_meaning E n_top c (calc_cbf t) R n_top 0 _ HR ltac:(constructor) HT) as HM.
  destruct (gram_meaning g calc_rx (calc_cb_with t) o (calc_cbf t) calc_grammar H3 R (fun _ => None) HR ltac:(done) c _ (rune_code_ok _) eq_refl HM) as (f0 & Hf).
  exists f0. intros fuel Hl. specialize (Hf fuel Hl). cbn [c_work c] in Hf. rewrite Nat.eqb_refl in Hf. exact Hf.
Qed.
End Pure.

Lemma calc_with_none f p h x : calc_cb_with None f p h x = calc_cb f p h x.
Proof. unfold calc_cb_with. done. Qed.
Lemma calc_with_braver t : braver calc_cb (calc_cb_with t).
Proof.
  intros f p h x. destruct t as [k|]; [|by right]. unfold calc_cb_with. destruct (calc_cb f p h x) as [?|?] eqn:E; [by right|]. left. eauto.
Qed.
Section Whole.
Variable o : popts.
Hypothesis Ho : po_debug o = false.
Lemma calc_values d e s w w' z : prints 2 d e s -> blank w -> blank w' -> d <= 340 -> value e = Some z ->
  exists fuel0, forall fuel, fuel0 <= fuel -> exists s',
    fst (parse_string fuel (gram_of calc) o calc_rx calc_cb (w ++ s ++ w')) = Ok (Some (AInt z)) s'.
Proof.
  intros Hp Hw Hw' Hd Hv. destruct (calc_run None o Ho d e s w w' (VInt z) Hp Hw Hw' Hd) as (f0 & Hf); [unfold val_of; by rewrite Hv|].
  exists f0. intros fuel Hl. destruct (Hf fuel Hl) as (x & s' & H & Hr). inversion Hr; subst. exists s'. exact H.
Qed.
Lemma calc_panics d e s w w' : prints 2 d e s -> blank w -> blank w' -> d <= 340 -> value e = None ->
  exists fuel0, forall fuel, fuel0 <= fuel -> exists k s',
    fst (parse_string fuel (gram_of calc) o calc_rx calc_cb (w ++ s ++ w')) = Panic (PUser k) s'.
Proof.
  intros Hp Hw Hw' Hd Hv.
  destruct (calc_run (Some 0) o Ho d e s w w' (VUser 0 []) Hp Hw Hw' Hd) as (f0 & Hf); [unfold val_of; by rewrite Hv|].
  destruct (calc_run (Some 1) o Ho d e s w w' (VUser 1 []) Hp Hw Hw' Hd) as (f1 & Hf1); [unfold val_of; by rewrite Hv|].
  exists (f0 + f1). intros fuel Hl. destruct (Hf fuel ltac:(lia)) as (x & s' & H & Hr). destruct (Hf1 fuel ltac:(lia)) as (x1 & s1 & H1 & Hr1).
  unfold parse_string in *.
  destruct (ple_gram fuel (gram_of calc) o calc_rx _ _ (CRune (new_rune_stream (w ++ s ++ w'))) (calc_with_braver (Some 0))) as [|HA]; [done|].
  destruct (ple_gram fuel (gram_of calc) o calc_rx _ _ (CRune (new_rune_stream (w ++ s ++ w'))) (calc_with_braver (Some 1))) as [|HB]; [done|].
  exfalso. rewrite HA, H in HB. rewrite H1 in HB. injection HB as <- <-. inversion Hr; subst. inversion Hr1.
Qed.
End Whole.
