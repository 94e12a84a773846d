(** The engine and the semantics of parsing expression grammars. *)
From Verif Require Import Base Helpers Utf8 Stream StreamSpec StreamProofs Native NativeSpec Engine EngSpec EngInv EngMon Toy
  Report Peg PegProofs PegRep PegBody PegStd RunSpec PegRun PegLaws.

(** If the textbook semantics (no cache, no stack) gives a rule an outcome at a
    position, the engine returns it, in every state left by earlier parsing of
    the same input. *)
Theorem C24_memoisation_invisible : forall (E : env) (root : node) (c : code) cbf (s : st) (n : node) (r : result),
  pure_grammar E root cbf -> code_ok c -> c_pos c <= length (c_work c) ->
  after_parses E root c (textbook E cbf (c_work c)) s -> entry E root n ->
  textbook E cbf (c_work c) n (st_pos s) r ->
  exists fuel0 x s', (forall fuel, fuel0 <= fuel -> parse E fuel n s = Ok x s') /\
    match r with
    | None => x = None
    | Some (v, e) => exists y, x = Some y /\ rep [] (s_heap s') y v /\ st_pos s' = e
    end.
Proof.
  intros E root c cbf s n r H1 H2 H3 H4 H5 H6.
  destruct (textbook_run E root c cbf H1 H2 H3 s n r H4 H5 H6) as (f & x & s' & Ha & Hb). by exists f, x, s'.
Qed.
Print Assumptions C24_memoisation_invisible.

(** S <- A 'x' | A 'y' ; A <- l:'a' m:'b'* with a shared prefix, so the second
    alternative finds A in the cache. *)
Definition pre_rules : list (string * node) :=
  [("S", rule "S" 0 (KChoice [rule "S[0]" 1 (KSeq TArray [ref "A"; cstr "x"]); rule "S[1]" 2 (KSeq TArray [ref "A"; cstr "y"])]));
   ("A", rule "A" 3 (KSeq TObject [named "l" (cstr "a"); named "m" (Node (ni true) (KPat (cstr "b") None (-1) (-1)))]))]%string.
Definition pre_top : node := rank [rule "__root__[0]" 4 (KRef "S")].
Definition pre_env : env := toy_env 5 pre_rules no_cb.
Definition same_cb : nat -> nat -> val -> option (option val) := fun _ _ v => Some (Some v).

Lemma same_cb_pure n rules root : cb_pure (toy_env n rules no_cb) root same_cb.
Proof. intros c. left. intros p h x v P Hr _. cbn. eexists _, _. split; [done|]. split; [apply hext_refl|]. eauto. Qed.
Lemma toy_quiet n rules root : forallb (fun n => negb (i_debug (n_info n))) (all_nodes root rules) = true ->
  quiet (toy_env n rules no_cb) root.
Proof.
  intros H. split; [done|]. split; [done|]. intros m Hm. rewrite List.forallb_forall in H.
  specialize (H m). rewrite <- elem_of_list_In in H. specialize (H (reach_all (toy_env n rules no_cb) root rules m eq_refl Hm)). by destruct (i_debug (n_info m)).
Qed.
Lemma pre_pure : pure_grammar pre_env pre_top same_cb.
Proof.
  split; [apply no_rx_ok|by apply (ids_fit_check _ _ pre_rules)| |by apply toy_quiet|apply same_cb_pure].
  apply (ids_unique_check _ _ pre_rules); [done|]. apply (bool_decide_unpack _). vm_compute. done.
Qed.
Example C24_nonvacuous :
  let c := CRune (new_rune_stream (s2b "abby")) in
  let v := VArr [VMap [("l", VStr (s2b "a")); ("m", VArr [VStr (s2b "b"); VStr (s2b "b")])]%string; VStr (s2b "y")] in
  pure_grammar pre_env pre_top same_cb /\ code_ok c /\ c_pos c <= length (c_work c) /\
  after_parses pre_env pre_top c (textbook pre_env same_cb (c_work c)) (init_st c 5) /\ entry pre_env pre_top pre_top /\
  textbook pre_env same_cb (c_work c) pre_top 0 (Some (v, 4)) /\
  (exists s', after_parses pre_env pre_top c (textbook pre_env same_cb (c_work c)) s' /\ s' <> init_st c 5).
Proof.
  intros c v. assert (entry pre_env pre_top pre_top) as HE.
  { split; [constructor|]. right. eexists. split; [done|]. split; [done|]. split; [done|]. by repeat constructor. }
  assert (textbook pre_env same_cb (c_work c) pre_top 0 (Some (v, 4))) as HT by (exists 20; vm_compute; reflexivity).
  split; [apply pre_pure|]. split; [done|]. split; [cbn; lia|]. split; [constructor|]. split; [done|]. split; [done|].
  destruct (parse pre_env 50 pre_top (init_st c 5)) as [x s'| |] eqn:EP; [|vm_compute in EP; discriminate EP..].
  exists s'. split; [by eapply ap_parse; [constructor|exact HE|exact HT|exact EP]|].
  intros ->. vm_compute in EP. discriminate EP.
Qed.

(** A rule whose body, with failure as seed, gives [s1], and from there grows
    through the strictly longer results [l], results in the last of them. *)
Theorem C25_seed_growing : forall (E : env) (root : node) (c : code) cbf R par (s : st) (id : nat) (s1 : val * nat) (l : list (val * nat)),
  pure_grammar E root cbf -> lists_rules E root R -> parts_ok R par -> code_ok c -> c_pos c <= length (c_work c) ->
  after_parses E root c (meaning E cbf R par (c_work c)) s -> reach E root (R id) -> plain_rule R par id ->
  body_with E cbf R par (c_work c) id (st_pos s) None (Some s1) ->
  grows (body_with E cbf R par (c_work c) id (st_pos s)) s1 l ->
  engine_gives E (R id) s (Some (List.last l s1)).
Proof.
  intros. apply (meaning_run E root c cbf R par); try done.
  - split; [done|]. left. by destruct H6.
  - by apply grows_rule.
Qed.
Print Assumptions C25_seed_growing.

(** If the body with failure as seed fails, so does the rule. *)
Theorem C25_no_seed : forall (E : env) (root : node) (c : code) cbf R par (s : st) (id : nat),
  pure_grammar E root cbf -> lists_rules E root R -> parts_ok R par -> code_ok c -> c_pos c <= length (c_work c) ->
  after_parses E root c (meaning E cbf R par (c_work c)) s -> reach E root (R id) -> plain_rule R par id ->
  body_with E cbf R par (c_work c) id (st_pos s) None None ->
  engine_gives E (R id) s None.
Proof.
  intros. apply (meaning_run E root c cbf R par); try done.
  - split; [done|]. left. by destruct H6.
  - by apply fails_rule.
Qed.
Print Assumptions C25_no_seed.

(** E: E op T | T returns the left-nested tree of T (op T)*. *)
Theorem C26_left_associative : forall (E : env) (root : node) (c : code) cbf R par (s : st) (id : nat)
    (A T nE nop nT : node) (comb : val -> val -> val -> val),
  pure_grammar E root cbf -> lists_rules E root R -> parts_ok R par -> code_ok c -> c_pos c <= length (c_work c) ->
  after_parses E root c (meaning E cbf R par (c_work c)) s -> reach E root (R id) -> plain_rule R par id ->
  (* the rule: E <- A | T without label or callback, A <- E op T *)
  n_kind (R id) = KChoice [A; T] -> i_label (n_info (R id)) = EmptyString -> i_cb (n_info (R id)) = None ->
  n_kind A = KSeq TArray [nE; nop; nT] ->
  (i_isrule (n_info A) = false \/
   is_rule A /\ i_skip (n_info A) = false /\ R (i_id (n_info A)) = A /\ par (i_id (n_info A)) = Some id) ->
  refers E R nE id -> i_capture (n_info nT) = true ->
  (* what A makes of its parts *)
  (forall l o r e, prepared cbf (n_info A) (Some (VArr (l :: (if i_capture (n_info nop) then [o; r] else [r])), e)) =
     Some (Some (comb l o r, e))) ->
  (forall v0 q0 l e,
     apart E cbf R par (c_work c) id (st_pos s) T (st_pos s) (Some (v0, q0)) ->
     tail_run (apart E cbf R par (c_work c) id (st_pos s) nop) (apart E cbf R par (c_work c) id (st_pos s) nT) q0 l e ->
     engine_gives E (R id) s (Some (fold_left (fun a '(o, w) => comb a o w) l v0, e))) /\
  (apart E cbf R par (c_work c) id (st_pos s) T (st_pos s) None -> engine_gives E (R id) s None).
Proof.
  intros. assert (entry E root (R id)) as HEn by (split; [done|]; left; by destruct H6). split.
  - intros v0 q0 l e HB HT. apply (meaning_run E root c cbf R par); try done. by eapply (left_assoc E cbf R par _ _ _ A T nE nop nT comb).
  - intros HB. apply (meaning_run E root c cbf R par); try done. by eapply (left_assoc_fail E cbf R par _ _ _ A T nE nop nT).
Qed.
Print Assumptions C26_left_associative.

Definition sum_R (i : nat) : node :=
  match i with
  | 0 => rule "E" 0 (KChoice [rule "E[0]" 1 (KSeq TArray [ref "E"; str "+"; ref "N"]); ref "N"])
  | 1 => rule "E[0]" 1 (KSeq TArray [ref "E"; str "+"; ref "N"])
  | 2 => rule "N" 2 (KStr (s2b "n"))
  | _ => rule "__root__[0]" 3 (KRef "E")
  end%string.
Definition sum_par (i : nat) : option nat := match i with 1 => Some 0 | _ => None end.
Lemma sum_lists : lists_rules sum_env sum_top sum_R.
Proof.
  intros n Hn Hr. apply (reach_all sum_env sum_top sum_rules n eq_refl) in Hn. cbn in Hn.
  repeat (apply elem_of_cons in Hn as [->|Hn]; [try done|]). by apply elem_of_nil in Hn.
Qed.
Lemma sum_parts : parts_ok sum_R sum_par.
Proof. intros [|[|[|i]]] F H; try done. by injection H as <-. Qed.
Lemma sum_pure : pure_grammar sum_env sum_top same_cb.
Proof. split; [apply no_rx_ok|apply sum_fits|apply sum_unique|by apply toy_quiet|apply same_cb_pure]. Qed.

(** N, of the grammar of sums, at a position where there is a letter n. *)
Lemma sum_N p q : lit (s2b "n+n+n") (s2b "n") q = Some (VStr (s2b "n"), S q) ->
  apart sum_env same_cb sum_R sum_par (s2b "n+n+n") 0 p (ref "N") q (Some (VStr (s2b "n"), S q)).
Proof.
  intros H. exists 1. split; [unfold stack_limit; lia|]. intros sd inn.
  apply (p_plain _ _ _ _ _ _ _ _ _ _ _ (Some (VStr (s2b "n"), S q))); [done|done| |done].
  eapply p_ref; [done|done|]. apply p_rule; try done; [cbn; lia|].
  apply (p_once _ _ _ _ _ _ _ _ _ (Some (VStr (s2b "n"), S q))); try done. rewrite <- H. by apply p_str.
Qed.
Lemma sum_plus p q r : lit (s2b "n+n+n") (s2b "+") q = r ->
  apart sum_env same_cb sum_R sum_par (s2b "n+n+n") 0 p (str "+") q r.
Proof.
  intros H. exists 0. split; [unfold stack_limit; lia|]. intros sd inn.
  apply (p_plain _ _ _ _ _ _ _ _ _ _ _ r); [done|done| |by destruct r as [[v e]|]]. rewrite <- H. by apply p_str.
Qed.

Example C26_nonvacuous :
  let c := CRune (new_rune_stream (s2b "n+n+n")) in
  let n := VStr (s2b "n") in
  let plus := VStr (s2b "+") in
  pure_grammar sum_env sum_top same_cb /\ lists_rules sum_env sum_top sum_R /\ parts_ok sum_R sum_par /\
  reach sum_env sum_top (sum_R 0) /\ plain_rule sum_R sum_par 0 /\ refers sum_env sum_R (ref "E") 0 /\
  sum_par 1 = Some 0 /\
  (forall l o r e, prepared same_cb (n_info (sum_R 1)) (Some (VArr (l :: (if false then [o; r] else [r])), e)) =
     Some (Some (VArr [l; r], e))) /\
  apart sum_env same_cb sum_R sum_par (c_work c) 0 0 (ref "N") 0 (Some (n, 1)) /\
  tail_run (apart sum_env same_cb sum_R sum_par (c_work c) 0 0 (str "+"))
    (apart sum_env same_cb sum_R sum_par (c_work c) 0 0 (ref "N")) 1 [(plus, n); (plus, n)] 5 /\
  fold_left (fun a '(o, w) => VArr [a; w]) [(plus, n); (plus, n)] n = VArr [VArr [n; n]; n] /\
  engine_gives sum_env (sum_R 0) (init_st c 4) (Some (VArr [VArr [n; n]; n], 5)).
Proof.
  intros c n plus.
  assert (reach sum_env sum_top (sum_R 0)) as HE by (by apply (reach_rule _ _ "E"%string)).
  assert (plain_rule sum_R sum_par 0) as HP by done.
  assert (refers sum_env sum_R (ref "E") 0) as HF by (repeat split; by exists "E"%string).
  assert (apart sum_env same_cb sum_R sum_par (c_work c) 0 0 (ref "N") 0 (Some (n, 1))) as H0 by (by apply sum_N).
  assert (tail_run (apart sum_env same_cb sum_R sum_par (c_work c) 0 0 (str "+"))
    (apart sum_env same_cb sum_R sum_par (c_work c) 0 0 (ref "N")) 1 [(plus, n); (plus, n)] 5) as HT.
  { eapply (tr_pair _ _ 1 plus 2 n 3); [by apply sum_plus|by apply sum_N|lia|].
    eapply (tr_pair _ _ 3 plus 4 n 5); [by apply sum_plus|by apply sum_N|lia|]. apply tr_no_op. by apply sum_plus. }
  do 11 (split; [done || apply sum_pure || apply sum_lists || apply sum_parts|]).
  destruct (C26_left_associative sum_env sum_top c same_cb sum_R sum_par (init_st c 4) 0 (sum_R 1) (ref "N") (ref "E") (str "+") (ref "N")
    (fun a o w => VArr [a; w])) as [HH _]; try done.
  - apply sum_pure.
  - apply sum_lists.
  - apply sum_parts.
  - cbn. lia.
  - apply ap_init.
  - by right.
  - exact (HH n 1 _ _ H0 HT).
Qed.

Example C25_nonvacuous :
  let c := CRune (new_rune_stream (s2b "n+n+n")) in
  let n := VStr (s2b "n") in
  let B := body_with sum_env same_cb sum_R sum_par (c_work c) 0 0 in
  B None (Some (n, 1)) /\ exists l, grows B (n, 1) l /\ List.last l (n, 1) = (VArr [VArr [n; n]; n], 5).
Proof.
  intros c n B. destruct C26_nonvacuous as (_ & _ & _ & _ & HP & HF & _ & _ & H0 & HT & _). split.
  - destruct (A_none sum_env same_cb sum_R sum_par (c_work c) 0 0 (sum_R 1) (ref "E") (str "+") (ref "N") HP eq_refl) with (h := 1)
      as (h & Hh & HA); [by right|done|unfold stack_limit; lia|].
    apply (body_next sum_env same_cb sum_R sum_par (c_work c) 0 0 (sum_R 1) (ref "N") (str "+") (ref "N") (fun a o w => VArr [a; w]))
      with (h := h); try done. unfold stack_limit. lia.
  - destruct (tail_grows sum_env same_cb sum_R sum_par (c_work c) 0 0 (sum_R 1) (ref "N") (ref "E") (str "+") (ref "N") (fun a o w => VArr [a; w])
      HP eq_refl eq_refl eq_refl eq_refl (or_intror (conj eq_refl (conj eq_refl (conj eq_refl eq_refl)))) HF eq_refl (fun _ _ _ _ => eq_refl)
      n 1 H0 1 _ 5 HT n (le_n 1)) as (ss & Hg & Hl). by exists ss.
Qed.

(** On a non-empty input, ParseString and ParseTokens return a ParseError
    exactly when the top rank fails or stops before the end, and the Ast of
    the top rank otherwise.  (An empty input: see the refutation below.) *)
Theorem C38_error_iff_partial : forall (g : gram) (o : popts) rx cb (c : code) (fuel : nat) (r : option ast) (s : st),
  let E := mk_env g o rx cb in
  (forall re, rx_ok (rx re)) -> ids_fit E (g_rank g) -> ids_unique E (g_rank g) -> top_rank (g_rank g) ->
  code_ok c -> c_pos c = 0 -> c_work c <> [] ->
  parse E fuel (g_rank g) (init_st c (g_nrules g)) = Ok r s ->
  ((r = None \/ st_pos s <> length (c_work c)) ->
     exists k s', fst (gram_parse fuel g o rx cb c) = Ok (Some (AErr k)) s') /\
  (r <> None -> st_pos s = length (c_work c) -> fst (gram_parse fuel g o rx cb c) = Ok r s).
Proof.
  intros g o rx cb c fuel r s E H1 H2 H3 H4 H5 H6 H7 HP.
  assert (0 < length (c_work c)) as HL by (destruct (c_work c); [done|cbn; lia]).
  destruct (parse_end g rx cb o H1 H2 c fuel r s H5 ltac:(lia) (top_rank_ok _ H4) HP) as [HA HB]. split.
  - intros [->|Hn].
    + pose proof (top_rank_fails E (g_rank g) c fuel s H1 H5 ltac:(lia) H2 H3 H4 HP) as Hs.
      destruct HB as (k & s' & Hk & _); [lia|]. eauto.
    + destruct HB as (k & s' & Hk & _); [done|]. eauto.
  - intros _. exact HA.
Qed.
Print Assumptions C38_error_iff_partial.

(** The same in terms of the language the grammar describes. *)
Theorem C38_language_partial : forall (g : gram) (o : popts) rx cb cbf R par (c : code) (r : result),
  let E := mk_env g o rx cb in
  pure_grammar E (g_rank g) cbf -> top_rank (g_rank g) -> lists_rules E (g_rank g) R -> parts_ok R par ->
  code_ok c -> c_pos c = 0 -> c_work c <> [] ->
  meaning E cbf R par (c_work c) (g_rank g) 0 r ->
  exists fuel0, forall fuel, fuel0 <= fuel ->
    match r with
    | Some (v, e) =>
        if e =? length (c_work c) then exists x s', fst (gram_parse fuel g o rx cb c) = Ok (Some x) s' /\ rep [] (s_heap s') x v
        else exists k s', fst (gram_parse fuel g o rx cb c) = Ok (Some (AErr k)) s' /\ e <= k <= length (c_work c)
    | None => exists k s', fst (gram_parse fuel g o rx cb c) = Ok (Some (AErr k)) s' /\ k <= length (c_work c)
    end.
Proof.
  intros g o rx cb cbf R par c r E H1 H2 H3 H4 H5 H6 H7 HM.
  destruct (gram_meaning g rx cb o cbf H1 H2 R par H3 H4 c r H5 H6 HM) as (f0 & Hf). exists f0. intros fuel Hl.
  specialize (Hf fuel Hl). destruct r; [exact Hf|]. by destruct (c_work c).
Qed.
Print Assumptions C38_language_partial.

(** ParseString("") with a grammar that does not accept it returns nil, which is
    not a ParseError. *)
Theorem C38_error_iff_refuted : exists (g : gram) (fuel : nat) (s s' : st),
  top_rank (g_rank g) /\
  parse (mk_env g mute no_rx no_cb) fuel (g_rank g) (init_st (CRune (new_rune_stream [])) (g_nrules g)) = Ok None s /\
  fst (parse_string fuel g mute no_rx no_cb []) = Ok None s'.
Proof.
  destruct (sum_ok (parse (mk_env sum_gram mute no_rx no_cb) 50 sum_top (init_st (CRune (new_rune_stream [])) 4)) None 0) as (s & H1 & _);
    [vm_compute; reflexivity|].
  destruct (sum_ok (fst (parse_string 50 sum_gram mute no_rx no_cb [])) None 0) as (s' & H2 & _); [vm_compute; reflexivity|].
  exists sum_gram, 50, s, s'. split; [|split; [exact H1|exact H2]].
  repeat split. eexists. split; [done|]. by repeat constructor.
Qed.
Print Assumptions C38_error_iff_refuted.

Example C38_nonvacuous :
  let run t := fst (parse_string 80 sum_gram mute no_rx no_cb (s2b t)) in
  top_rank (g_rank sum_gram) /\
  sum id (run "n+n"%string) = Value (Some (AArr [AStr (s2b "n"); AStr (s2b "n")])) 3 /\
  sum id (run "n+x"%string) = Value (Some (AErr 1)) 2 /\ sum id (run "x"%string) = Value (Some (AErr 0)) 0.
Proof.
  intros run. split; [repeat split; eexists; split; [done|]; by repeat constructor|].
  split; [vm_compute; reflexivity|]. split; vm_compute; reflexivity.
Qed.

(** A parse that stops early reports a position between where it stopped and the
    furthest position where a rule was tried (where the cursor is left), inside
    the input; computing the message does not panic. *)
Theorem C39_error_position : forall (g : gram) (o : popts) rx cb (c : code) (fuel : nat) (r : option ast) (s : st),
  let E := mk_env g o rx cb in
  (forall re, rx_ok (rx re)) -> ids_fit E (g_rank g) -> top_ok (g_rank g) ->
  code_ok c -> c_pos c <= length (c_work c) ->
  parse E fuel (g_rank g) (init_st c (g_nrules g)) = Ok r s -> st_pos s <> length (c_work c) ->
  exists k s', fst (gram_parse fuel g o rx cb c) = Ok (Some (AErr k)) s' /\
    st_pos s <= k <= st_pos s' /\ st_pos s' <= length (c_work c).
Proof.
  intros g o rx cb c fuel r s E H1 H2 H3 H4 H5 HP Hn.
  by destruct (parse_end g rx cb o H1 H2 c fuel r s H4 H5 H3 HP) as [_ HB]; apply HB.
Qed.
Print Assumptions C39_error_position.

(** The reported position is the furthest one from the stop on where a rule
    matched (in the memo table), and the cursor is left at the furthest where
    one was tried. *)
Theorem C39_furthest : forall (g : gram) (o : popts) rx cb (c : code) (fuel : nat) (r : option ast) (s : st) (k : nat) (s' : st),
  let E := mk_env g o rx cb in
  parse E fuel (g_rank g) (init_st c (g_nrules g)) = Ok r s -> st_pos s <> c_work_length (s_code s) ->
  fst (gram_parse fuel g o rx cb c) = Ok (Some (AErr k)) s' ->
  furthest (matched s) (st_pos s) k /\ furthest (tried s) (st_pos s) (st_pos s').
Proof.
  intros g o rx cb c fuel r s k s' E HP Hn H. unfold gram_parse in H. fold E in H. rewrite HP in H. exact (report r s k s' H Hn).
Qed.
Print Assumptions C39_furthest.

(** No panic comes from reporting. *)
Theorem C39_report_total : forall (g : gram) (o : popts) rx cb (c : code) (fuel : nat) (p : panic) (s' : st),
  let E := mk_env g o rx cb in
  (forall re, rx_ok (rx re)) -> ids_fit E (g_rank g) -> top_ok (g_rank g) ->
  code_ok c -> c_pos c <= length (c_work c) ->
  fst (gram_parse fuel g o rx cb c) = Panic p s' ->
  parse E fuel (g_rank g) (init_st c (g_nrules g)) = Panic p s'.
Proof.
  intros g o rx cb c fuel p s' E H1 H2 H3 H4 H5 HP.
  destruct (parse E fuel (g_rank g) (init_st c (g_nrules g))) as [r s| |] eqn:EP.
  - destruct (parse_end g rx cb o H1 H2 c fuel r s H4 H5 H3 EP) as [HA HB].
    destruct (decide (st_pos s = length (c_work c))) as [Hs|Hs].
    + rewrite (HA Hs) in HP. discriminate HP.
    + destruct (HB Hs) as (k & s1 & Hk & _). rewrite Hk in HP. discriminate HP.
  - unfold gram_parse in HP. fold E in HP. rewrite EP in HP. exact HP.
  - unfold gram_parse in HP. fold E in HP. rewrite EP in HP. discriminate HP.
Qed.
Print Assumptions C39_report_total.

Example C39_nonvacuous :
  let E := mk_env sum_gram mute no_rx no_cb in
  let c := CRune (new_rune_stream (s2b "n+x")) in
  exists s s', parse E 80 (g_rank sum_gram) (init_st c 4) = Ok (Some (AStr (s2b "n"))) s /\ st_pos s = 1 /\
    fst (gram_parse 80 sum_gram mute no_rx no_cb c) = Ok (Some (AErr 1)) s' /\ st_pos s' = 2.
Proof.
  intros E c. destruct (sum_ok (parse E 80 sum_top (init_st c 4)) (Some (AStr (s2b "n"))) 1) as (s & H1 & H2); [vm_compute; reflexivity|].
  destruct (sum_ok (fst (gram_parse 80 sum_gram mute no_rx no_cb c)) (Some (AErr 1)) 2) as (s' & H3 & H4); [vm_compute; reflexivity|].
  exists s, s'. split; [exact H1|]. split; [exact H2|]. split; [exact H3|exact H4].
Qed.
