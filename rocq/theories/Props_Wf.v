(** Grammars without left recursion, and grammars that are in order. *)
From Verif Require Import Base Helpers Utf8 Stream StreamSpec StreamProofs Native NativeSpec Engine EngSpec EngInv EngMon Toy Report Peg PegRep PegBody PegStd RunSpec PegRun Gives
  LogSpec LogProofs Linear TermSpec Term Props_Peg Build BuildSpec JoesonSpec JoesonRun Calc CalcRun LispRead LispReadRun Moss MossRun WfSpec Wf WfCheck Total WfGrams.

(** ** C67: no left recursion *)

(** If in the grammar no rule leads back to itself at one position, no run meets
    left recursion: no rule is ever tried while it is in progress at the same
    position. *)
Theorem C67_never_met : forall (E : env) (root : node) rxe eats (c : code) (fuel : nat) (r : option ast) (s' : st),
  eating E root rxe eats -> (forall re, rx_ok (e_rx E re)) -> ids_unique E root -> no_left_recursion E root eats ->
  c_pos c <= length (c_work c) -> parse E fuel root (init_st c (e_nrules E)) = Ok r s' -> norec (s_log s').
Proof. exact no_recursion_met. Qed.
Print Assumptions C67_never_met.

(** So parsing is linear: no rule body runs twice at one position, and the
    callback of a cached rule is called at most once per position. *)
Theorem C67_linear : forall (E : env) (root : node) rxe eats (c : code) (fuel : nat) (r : option ast) (s' : st),
  eating E root rxe eats -> (forall re, rx_ok (e_rx E re)) -> ids_unique E root -> no_left_recursion E root eats ->
  code_ok c -> c_pos c <= length (c_work c) -> ids_fit E root -> top_ok root ->
  parse E fuel root (init_st c (e_nrules E)) = Ok r s' ->
  NoDup (bodies (s_log s')) /\ length (bodies (s_log s')) <= e_nrules E * (length (c_work c) + 1) /\
  forall d i, cb_of_rule E root d i -> calls_of d (s_log s') <= length (c_work c) + 1.
Proof.
  intros E root rxe eats c fuel r s' H1 H2 H3 H4 H5 H6 H7 H8 HP.
  pose proof (no_recursion_met E root rxe eats c fuel r s' H1 H2 H3 H4 H6 HP) as HN.
  split; [by eapply runs_once|]. split; [by apply (bodies_count E root c H2 H5 H6 H7 H8 fuel r s')|].
  intros d i Hd. pose proof (calls_once E root c fuel r s' d i Hd HP HN). pose proof (runs_count E root c H2 H5 H6 H7 H8 fuel r s' i HP HN). lia.
Qed.
Print Assumptions C67_linear.

(** To see that there is none it is enough to rank the parsers. *)
Theorem C67_ranks : forall (E : env) (root : node) eats ord, ids_unique E root -> goes_down E root eats ord -> no_left_recursion E root eats.
Proof. exact down_no_left. Qed.
Print Assumptions C67_ranks.

(** The grammar of grammars, that of the calculator and that of the lisp have no
    left recursion, whatever the callbacks: every text is parsed in linear time. *)
Theorem C67_shipped : forall b rx, shipped b rx -> forall o cb (c : code) (fuel : nat) (r : option ast) (s' : st),
  let E := mk_env (gram_of b) o rx cb in
  code_ok c -> c_pos c <= length (c_work c) ->
  parse E fuel (fst b) (init_st c (e_nrules E)) = Ok r s' ->
  norec (s_log s') /\ NoDup (bodies (s_log s')) /\ length (bodies (s_log s')) <= length (snd b) * (length (c_work c) + 1).
Proof.
  intros b rx Hs o cb c fuel r s' E Hc Hp H. destruct (shipped_ok b rx Hs) as (compile & f0 & name & ls & Hb & Hn & Hm & Hl & Hx & Hrx).
  destruct (built_straight compile f0 name ls b 40 40 Hb Hn Hm Hl rx Hx Hrx o cb) as (H1 & H2 & H3 & H4).
  split; [by eapply (no_recursion_met E)|].
  destruct (C67_linear E (fst b) _ _ c fuel r s' H1 Hrx H3 H2 Hc Hp H4 (shipped_top b rx Hs) H) as (H5 & H6 & _). done.
Qed.
Print Assumptions C67_shipped.

(** And it ends: no text makes any of these grammars (or the left-recursive one
    of the precedence example) run for ever. *)
Theorem C67_shipped_end : forall b rx, shipped b rx \/ (b = moss /\ rx = moss_rx) -> forall o cb (c : code) (fuel : nat),
  c_pos c <= length (c_work c) -> TermSpec.enough 40 (length (c_work c)) <= fuel ->
  fst (gram_parse fuel (gram_of b) o rx cb c) <> OutOfFuel.
Proof.
  intros b rx Hs o cb c fuel Hc Hf.
  assert (exists compile f0 name ls, build compile f0 name ls = ROk b /\ names_once ls /\ moves_on b 40 40 = true /\ rx_moves rx /\ (forall re, rx_ok (rx re)))
    as (compile & f0 & name & ls & Hb & Hn & Hm & Hx & Hrx).
  { destruct Hs as [Hs|[-> ->]].
    - destruct (shipped_ok b rx Hs) as (compile & f0 & name & ls & Hb & Hn & Hm & Hl & Hx & Hrx). by exists compile, f0, name, ls.
    - eexists _, _, _, _. split; [exact moss_eq|]. split; [exact moss_names_once|]. split; [exact moss_moves_on|]. split; [exact moss_moves|exact MossPeg.moss_rx_ok]. }
  by apply (built_ends compile f0 name ls b 40 40 Hb Hn Hm rx Hx Hrx).
Qed.
Print Assumptions C67_shipped_end.

(** S <- A 'x' | A 'y' ; A <- l:'a' m:'b'* has no left recursion; *)
Example C67_nonvacuous :
  let eats := eats_by (fun _ => false) (good_after pre_rules (fun _ => false) 5) in
  eating pre_env pre_top (fun _ => false) eats /\ no_left_recursion pre_env pre_top eats /\ ids_fit pre_env pre_top /\ top_ok pre_top /\
  leads pre_env eats pre_top (rule "A" 3 (KSeq TObject [named "l" (cstr "a"); named "m" (Node (ni true) (KPat (cstr "b") None (-1) (-1)))])).
Proof.
  intros eats. assert (forall name n, e_rule pre_env name = Some n -> n ∈ (snd <$> pre_rules)) as HE by (intros name n; apply look_up_in).
  split; [apply (eating_in _ _ pre_rules HE); [done|vm_compute; reflexivity]|]. split.
  { destruct pre_pure as [_ _ HU _ _]. apply (down_no_left _ _ _ (ord_by eats (ord_after pre_rules eats 5)) HU).
    apply (down_in _ _ pre_rules HE). vm_compute. reflexivity. }
  split; [by apply (ids_fit_check _ _ pre_rules)|].
  split; [right; eexists; split; [done|]; split; [done|]; split; [done|]; by repeat constructor|].
  eapply leads_more; [vm_compute; left|]. eapply leads_more; [vm_compute; left|]. eapply leads_more; [vm_compute; left|].
  eapply leads_more; [vm_compute; left|]. apply leads_one. vm_compute. left.
Qed.
(** E <- E '+' N | N has. *)
Example C67_left_recursive : forall eats, ~ no_left_recursion sum_env sum_top eats.
Proof.
  intros eats H. assert (reach sum_env sum_top (sum_R 0)) as Hr by (by eapply (reach_rule _ _ "E"%string)).
  apply (H (sum_R 0) (sum_R 0) Hr eq_refl eq_refl); [|done].
  eapply leads_more; [left|]. eapply leads_more; [left|]. apply leads_one. left.
Qed.

(** ** C68: grammars that are in order *)

(** If references are defined, each round of a repetition moves on, there is no
    left recursion, and no callback panics, then every text, up to a length that
    depends on how many rules nest at one position, has an outcome in the
    semantics of parsing expression grammars, and ParseString gives it: the
    value when the whole text matched, otherwise a ParseError that lies where
    the match ended or later. *)
Theorem C68_answers : forall (g : gram) (o : popts) rx cb cbf rxe eats ord (K : nat) (c : code),
  let E := mk_env g o rx cb in
  pure_grammar E (g_rank g) cbf -> top_rank (g_rank g) -> in_order E (g_rank g) cbf rxe eats ord K ->
  code_ok c -> c_pos c = 0 -> (length (c_work c) + 1) * (K + 1) <= stack_limit ->
  exists r, textbook E cbf (c_work c) (g_rank g) 0 r /\
  exists fuel0, forall fuel, fuel0 <= fuel ->
  match r with
  | Some (v, e) =>
      if e =? length (c_work c) then exists x s', fst (gram_parse fuel g o rx cb c) = Ok (Some x) s' /\ rep [] (s_heap s') x v
      else exists k s', fst (gram_parse fuel g o rx cb c) = Ok (Some (AErr k)) s' /\ e <= k <= length (c_work c)
  | None =>
      if 0 =? length (c_work c) then exists s', fst (gram_parse fuel g o rx cb c) = Ok None s'
      else exists k s', fst (gram_parse fuel g o rx cb c) = Ok (Some (AErr k)) s' /\ k <= length (c_work c)
  end.
Proof.
  intros g o rx cb cbf rxe eats ord K c E Hg Ht Hio Hc Hp Hlen.
  pose proof Hg as [G1 _ [R HR] _ _].
  destruct (has_outcome E (g_rank g) cbf rxe eats ord K (c_work c) G1 Hio (length (c_work c)) 0 (g_rank g) ltac:(lia) ltac:(lia) (reach_root _ _) stack_limit)
    as (r & [f0 Hf] & _).
  { pose proof (io_most _ _ _ _ _ _ _ Hio (g_rank g) (reach_root _ _)). unfold deep. rewrite Nat.sub_0_r.
    assert ((length (c_work c) + 1) * (K + 1) = length (c_work c) * S K + K + 1) as Heq by (rewrite Nat.mul_add_distr_r, Nat.mul_1_l, Nat.add_1_r; lia). lia. }
  assert (textbook E cbf (c_work c) (g_rank g) 0 r) as HT by (exists f0; by apply Hf).
  exists r. split; [exact HT|].
  pose proof (textbook_meaning E (g_rank g) c cbf R (g_rank g) 0 r HR (reach_root _ _) HT) as HM.
  exact (gram_meaning g rx cb o cbf Hg Ht R (fun _ => None) HR ltac:(done) c r Hc Hp HM).
Qed.
Print Assumptions C68_answers.

(** S <- A 'x' | A 'y' ; A <- l:'a' m:'b'* is in order, with at most five rules
    nested, so all texts of up to 169 bytes get their answer. *)
Definition pre_gram : gram := toy_gram pre_top 5 pre_rules.
Example C68_nonvacuous :
  let E := mk_env pre_gram mute no_rx no_cb in
  let eats := eats_by (fun _ => false) (good_after pre_rules (fun _ => false) 5) in
  let ord := ord_by eats (ord_after pre_rules eats 5) in
  pure_grammar E (g_rank pre_gram) same_cb /\ top_rank (g_rank pre_gram) /\ in_order E (g_rank pre_gram) same_cb (fun _ => false) eats ord 5 /\
  (169 + 1) * (5 + 1) <= stack_limit /\
  toy 50 pre_gram "aby" = Value (Some (AArr [AObj 0; AStr (s2b "y")])) 3.
Proof.
  intros E eats ord. assert (forall name n, e_rule E name = Some n -> n ∈ (snd <$> pre_rules)) as HE by (intros name n; apply look_up_in).
  split; [exact pre_pure|]. split; [split; [done|]; split; [done|]; split; [done|]; eexists; split; [done|]; by repeat constructor|].
  split; [|split; [apply Nat.leb_le; vm_compute; reflexivity|vm_compute; reflexivity]].
  split.
  - apply (eating_in _ _ pre_rules HE); [done|vm_compute; reflexivity].
  - apply (reps_in _ _ pre_rules HE). vm_compute. reflexivity.
  - apply (refs_in _ _ pre_rules HE). vm_compute. reflexivity.
  - exists TermSpec.height, 5. apply heights_levels; [apply (heights_in _ _ pre_rules HE)|apply (rules_in _ pre_rules HE)]; vm_compute; reflexivity.
  - apply (down_in _ _ pre_rules HE). vm_compute. reflexivity.
  - apply (most_in _ _ pre_rules HE). vm_compute. reflexivity.
  - apply (labels_in _ _ pre_rules HE). vm_compute. reflexivity.
  - done.
Qed.
