(** Properties of callbacks, origins, caching marks and of the number of
    evaluations. *)
From Verif Require Import Base Helpers Utf8 Stream StreamSpec Native Engine EngSpec EngInv EngMon Toy Peg PegStd RunSpec PegRun Props_Peg
  LogSpec LogProofs Stages Origin Linear SkipSpec Skip.

(** ** C29: evaluations *)

(** Without left recursion no rule body runs twice at the same position. *)
Theorem C29_once : forall (E : env) (root : node) (c : code) (fuel : nat) (r : option ast) (s' : st),
  parse E fuel root (init_st c (e_nrules E)) = Ok r s' -> norec (s_log s') -> NoDup (bodies (s_log s')).
Proof. exact runs_once. Qed.
Print Assumptions C29_once.

(** So their number is at most (number of rules) * (length of the text + 1). *)
Theorem C29_linear : forall (E : env) (root : node) (c : code) (fuel : nat) (r : option ast) (s' : st),
  (forall re, rx_ok (e_rx E re)) -> code_ok c -> c_pos c <= length (c_work c) -> ids_fit E root -> top_ok root ->
  parse E fuel root (init_st c (e_nrules E)) = Ok r s' -> norec (s_log s') ->
  length (bodies (s_log s')) <= e_nrules E * (length (c_work c) + 1).
Proof. intros E root c fuel r s' H1 H2 H3 H4 H5. exact (bodies_count E root c H1 H2 H3 H4 H5 fuel r s'). Qed.
Print Assumptions C29_linear.

(** The callback of a cached rule is called at most once per evaluation of the
    rule's body, hence at most once per position. *)
Theorem C29_callbacks : forall (E : env) (root : node) (c : code) (fuel : nat) (r : option ast) (s' : st) (d i : nat),
  (forall re, rx_ok (e_rx E re)) -> code_ok c -> c_pos c <= length (c_work c) -> ids_fit E root -> top_ok root ->
  cb_of_rule E root d i ->
  parse E fuel root (init_st c (e_nrules E)) = Ok r s' -> norec (s_log s') ->
  calls_of d (s_log s') <= runs_of i (s_log s') /\ runs_of i (s_log s') <= length (c_work c) + 1.
Proof.
  intros E root c fuel r s' d i H1 H2 H3 H4 H5 Hd HP HN. split.
  - exact (calls_once E root c fuel r s' d i Hd HP HN).
  - exact (runs_count E root c H1 H2 H3 H4 H5 fuel r s' i HP HN).
Qed.
Print Assumptions C29_callbacks.

Definition log_of (o : outcome (option ast)) : list event := match o with Ok _ s => s_log s | _ => [] end.
Lemma norec_check l : forallb (fun e => match e with EvRec _ _ => false | _ => true end) l = true -> norec l.
Proof. intros H i p Hin. rewrite forallb_forall in H. apply elem_of_list_In in Hin. by specialize (H _ Hin). Qed.

(** S <- A 'x' | A 'y': the second alternative finds A, which has a callback,
    in the cache. *)
Definition once_rules : list (string * node) :=
  [("S", rule "S" 0 (KChoice [rule "S[0]" 1 (KSeq TArray [ref "A"; cstr "x"]); rule "S[1]" 2 (KSeq TArray [ref "A"; cstr "y"])]));
   ("A", with_cb 9 (rule "A" 3 (KStr (s2b "a"))))]%string.
Definition once_env : env := toy_env 5 once_rules no_cb.
Example C29_nonvacuous :
  let c := CRune (new_rune_stream (s2b "ay")) in
  ids_fit once_env pre_top /\ top_ok pre_top /\ cb_of_rule once_env pre_top 9 3 /\
  exists s', parse once_env 50 pre_top (init_st c 5) = Ok (Some (AArr [AStr (s2b "a"); AStr (s2b "y")])) s' /\ norec (s_log s') /\
    bodies (s_log s') = [(2, 0); (3, 0); (1, 0); (0, 0); (4, 0)] /\ calls_of 9 (s_log s') = 1.
Proof.
  intros c. split; [by apply (ids_fit_check _ _ once_rules)|].
  split; [right; eexists; split; [done|]; split; [done|]; split; [done|]; by repeat constructor|].
  split.
  { intros n Hn. pose proof (reach_all once_env pre_top once_rules n eq_refl Hn) as Hin. clear Hn. revert n Hin.
    apply (proj1 (Forall_forall (fun n => i_cb (n_info n) = Some 9 -> i_isrule (n_info n) = true /\ i_skip (n_info n) = false /\ i_id (n_info n) = 3) _)).
    repeat constructor; done. }
  destruct (sum_ok (parse once_env 50 pre_top (init_st c 5)) (Some (AArr [AStr (s2b "a"); AStr (s2b "y")])) 2) as (s' & H & _); [vm_compute; reflexivity|].
  exists s'. split; [exact H|].
  assert (s_log s' = log_of (parse once_env 50 pre_top (init_st c 5))) as -> by (by rewrite H).
  split; [apply norec_check; vm_compute; reflexivity|]. split; vm_compute; reflexivity.
Qed.

(** ** C53: origins *)

(** Whenever a rule runs its body, and is not met in progress meanwhile at its
    start (left recursion), a map it returns has the source text, the start of
    the rule, its end, and the line of its end as origin.  The names of rules
    are missing: see [C53_name_refuted]. *)
Theorem C53_origin_partial : forall (E : env) (root : node) (c : code) (fuel : nat),
  (forall re, rx_ok (e_rx E re)) -> code_ok c -> c_pos c <= length (c_work c) -> ids_fit E root -> top_ok root ->
  parse_mon E (fun _ _ => true) (fun n s r s' => (negb (i_isrule (n_info n)) || negb (ran_body n s s') || origin_is s r s')%bool)
    fuel root (init_st c (e_nrules E)) = parse E fuel root (init_st c (e_nrules E)).
Proof. intros E root c fuel H1 H2 H3 H4 H5. exact (origins_run E root c H1 H2 H3 H4 H5 fuel). Qed.
Print Assumptions C53_origin_partial.

(** S <- E 'q' | A ' ' 'b' ; E <- A ' ' ; A <- l:'a' .  On "a b", A finds {l: a}
    once, from 0 to 1; E, which returns the same map, stretches its origin to
    0..2; A, taken from the cache, has it so. *)
Definition stretch_rules : list (string * node) :=
  [("S", rule "S" 0 (KChoice [rule "S[0]" 1 (KSeq TArray [ref "E"; cstr "q"]); rule "S[1]" 2 (KSeq TArray [ref "A"; str " "; cstr "b"])]));
   ("E", rule "E" 3 (KSeq TSingle [ref "A"; str " "]));
   ("A", rule "A" 4 (KSeq TObject [named "l" (cstr "a")]))]%string.
Definition stretch_top : node := rank [rule "__root__[0]" 5 (KRef "S")].
Definition stretch_env : env := toy_env 6 stretch_rules no_cb.
Definition stretch_code : code := CRune (new_rune_stream (s2b "a b")).
Definition origin_of (o : outcome (option ast)) : option attr :=
  match o with Ok (Some (AArr (AObj a :: _))) s => o_attr <$> s_heap s !! a | _ => None end.

(** Some rule returns a map whose origin is not the rule's: the check of the
    theorem above without its condition stops the run.  The user sees it: the
    map made from the text "a" has the origin 0..2. *)
Theorem C53_origin_refuted : exists (E : env) (root : node) (c : code) (fuel : nat),
  code_ok c /\ ids_fit E root /\ top_ok root /\
  sum id (parse_mon E (fun _ _ => true) (fun n s r s' => (negb (i_isrule (n_info n)) || origin_is s r s')%bool) fuel root (init_st c (e_nrules E)))
    = Panicked violated /\
  sum id (parse E fuel root (init_st c (e_nrules E))) = Value (Some (AArr [AObj 0; AStr (s2b "b")])) 3 /\
  origin_of (parse E fuel root (init_st c (e_nrules E))) = Some (Attr (s2b "a b") 0 2 0).
Proof.
  exists stretch_env, stretch_top, stretch_code, 50. split; [done|]. split; [by apply (ids_fit_check _ _ stretch_rules)|].
  split; [right; eexists; split; [done|]; split; [done|]; split; [done|]; by repeat constructor|].
  split; [|split]; vm_compute; reflexivity.
Qed.
Print Assumptions C53_origin_refuted.

(** The name handed to SetOrigin is lost: GetOrigin gives none, ever. *)
Theorem C53_name_refuted : forall (a : attr) (o : origin), or_rule (attr_get_origin (attr_set_origin a o)) = ""%string.
Proof. done. Qed.
Print Assumptions C53_name_refuted.

Example C53_nonvacuous :
  ids_fit pre_env pre_top /\ top_ok pre_top /\
  (let c := CRune (new_rune_stream (s2b "abby")) in
   origin_of (parse pre_env 50 pre_top (init_st c 5)) = Some (Attr (s2b "abby") 0 3 0) /\
   (* asking for origins that start where they end stops the run *)
   sum id (parse_mon pre_env (fun _ _ => true) (fun n s r s' => (negb (i_isrule (n_info n)) || negb (ran_body n s s') ||
       origin_is s' r s')%bool) 50 pre_top (init_st c 5)) = Panicked violated).
Proof.
  split; [by apply (ids_fit_check _ _ pre_rules)|].
  split; [right; eexists; split; [done|]; split; [done|]; split; [done|]; by repeat constructor|].
  split; vm_compute; reflexivity.
Qed.

(** ** C40: callbacks *)

(** At every call the cache is consistent, which is what the next theorem
    assumes. *)
Theorem C40_cache_ok : forall (E : env) (root : node) (c : code) (fuel : nat),
  (forall re, rx_ok (e_rx E re)) -> code_ok c -> c_pos c <= length (c_work c) -> ids_fit E root -> top_ok root ->
  parse_mon E (fun _ s => cache_ok s) (fun _ _ _ s' => cache_ok s') fuel root (init_st c (e_nrules E)) =
  parse E fuel root (init_st c (e_nrules E)).
Proof. intros E root c fuel H1 H2 H3 H4 H5. exact (cache_ok_run E root c H1 H2 H3 H4 H5 fuel). Qed.
Print Assumptions C40_cache_ok.

(** A rule that runs its body answers what its callback makes of the body's
    production: in particular nothing when the callback answers nil, and
    nothing when the body fails. *)
Theorem C40_applied : forall (E : env) (fuel : nat) (n : node) (s : st) (r : option ast) (s' : st),
  i_isrule (n_info n) = true -> cache_ok s = true ->
  parse E (S fuel) n s = Ok r s' -> ran_body n s s' = true ->
  exists s1 r0 s2, s_code s1 = s_code s /\ s_heap s1 = s_heap s /\
    body E (parse E fuel) fuel n s1 = Ok r0 s2 /\ st_pos s' = st_pos s2 /\
    match r0 with
    | None => r = None
    | Some x => callback_gives E (n_info n) (st_pos s2) (s_heap s2) x r
    end.
Proof. exact applied. Qed.
Print Assumptions C40_applied.

(** The same for callbacks and labels of parsers that are no rules. *)
Theorem C40_applied_inline : forall (E : env) (fuel : nat) (n : node) (s : st) (r : option ast) (s' : st),
  i_isrule (n_info n) = false -> n_kind n <> KUndef -> (standing_alone (n_info n) = true \/ i_cb (n_info n) <> None) ->
  parse E (S fuel) n s = Ok r s' ->
  exists s1 r0 s2, s_code s1 = s_code s /\ s_heap s1 = s_heap s /\
    body E (parse E fuel) fuel n s1 = Ok r0 s2 /\ st_pos s' = st_pos s2 /\
    match r0 with
    | None => r = None
    | Some x => callback_gives E (n_info n) (st_pos s2) (s_heap s2) x r
    end.
Proof. exact applied_inline. Qed.
Print Assumptions C40_applied_inline.

(** A panic of a callback leaves the parse: the call that panicked is the last
    one made, every earlier one returned.  And a user's panic comes from a
    callback only. *)
Theorem C40_panic_aborts : forall (g : gram) (o : popts) rx cb (c : code) (fuel t : nat) (s' : st),
  (forall re, rx_ok (rx re)) -> ids_fit (mk_env g o rx cb) (g_rank g) -> top_ok (g_rank g) ->
  code_ok c -> c_pos c <= length (c_work c) ->
  fst (gram_parse fuel g o rx cb c) = Panic (PUser t) s' ->
  exists d p l h x, s_log s' = EvCb d p :: l /\ cb d p h x = CbPanic t /\ calls_return (mk_env g o rx cb) l.
Proof.
  intros g o rx cb c fuel t s' H1 H2 H3 H4 H5 HP.
  pose proof (C39_report_total g o rx cb c fuel (PUser t) s' H1 H2 H3 H4 H5 HP) as HP'.
  destruct (parse_panics _ _ _ _ _ _ HP') as (d & p & l & h & x & HL & HC & HX).
  exists d, p, l, h, x. cbn in HL. rewrite app_nil_r in HL. split; [exact HL|]. split; [exact HX|exact HC].
Qed.
Print Assumptions C40_panic_aborts.

(** A parse that returns has had every callback it called return. *)
Theorem C40_no_panic_swallowed : forall (E : env) (root : node) (c : code) (fuel : nat) (r : option ast) (s' : st),
  parse E fuel root (init_st c (e_nrules E)) = Ok r s' -> calls_return E (s_log s').
Proof.
  intros E root c fuel r s' HP. destruct (parse_returns _ _ _ _ _ _ HP) as (l & HL & HC). cbn in HL. rewrite app_nil_r in HL. by rewrite HL.
Qed.
Print Assumptions C40_no_panic_swallowed.

(** S <- A | B ; A <- 'a' with a callback that answers nil ; B <- 'a' with one
    that answers 7: the callback of A is called, then that of B. *)
Definition nil_cb : nat -> nat -> heap -> ast -> cbres :=
  fun c p h x => if c =? 1 then CbRet h None else if c =? 2 then CbRet h (Some (AInt 7)) else CbPanic c.
Definition nil_rules : list (string * node) :=
  [("S", rule "S" 0 (KChoice [ref "A"; ref "B"])); ("A", with_cb 1 (rule "A" 1 (KStr (s2b "a"))));
   ("B", with_cb 2 (rule "B" 2 (KStr (s2b "a"))))]%string.
Definition panic_rules : list (string * node) :=
  [("S", rule "S" 0 (KChoice [ref "A"; ref "B"])); ("A", with_cb 3 (rule "A" 1 (KStr (s2b "a"))));
   ("B", with_cb 2 (rule "B" 2 (KStr (s2b "a"))))]%string.
Definition cb_top : node := rank [rule "__root__[0]" 3 (KRef "S")].
Definition cb_calls (l : list event) : list (nat * nat) :=
  flat_map (fun e => match e with EvCb d p => [(d, p)] | _ => [] end) l.
Example C40_nonvacuous :
  let c := CRune (new_rune_stream (s2b "a")) in
  let run rules := parse (toy_env 4 rules nil_cb) 50 cb_top (init_st c 4) in
  ids_fit (toy_env 4 nil_rules nil_cb) cb_top /\ top_ok cb_top /\
  sum id (run nil_rules) = Value (Some (AInt 7)) 1 /\ cb_calls (log_of (run nil_rules)) = [(2, 1); (1, 1)] /\
  sum id (run panic_rules) = Panicked (PUser 3) /\
  (* the rule B from the initial state *)
  (exists r s', parse (toy_env 4 nil_rules nil_cb) 50 (with_cb 2 (rule "B" 2 (KStr (s2b "a")))) (init_st c 4) = Ok r s' /\
     cache_ok (init_st c 4) = true /\ ran_body (with_cb 2 (rule "B" 2 (KStr (s2b "a")))) (init_st c 4) s' = true).
Proof.
  intros c run. split; [by apply (ids_fit_check _ _ nil_rules)|].
  split; [right; eexists; split; [done|]; split; [done|]; split; [done|]; by repeat constructor|].
  split; [vm_compute; reflexivity|]. split; [vm_compute; reflexivity|]. split; [vm_compute; reflexivity|].
  destruct (sum_ok (parse (toy_env 4 nil_rules nil_cb) 50 (with_cb 2 (rule "B" 2 (KStr (s2b "a")))) (init_st c 4)) (Some (AInt 7)) 1) as (s' & H & _);
    [vm_compute; reflexivity|].
  exists (Some (AInt 7)), s'. split; [exact H|]. split; [vm_compute; reflexivity|].
  assert (s_log s' = log_of (parse (toy_env 4 nil_rules nil_cb) 50 (with_cb 2 (rule "B" 2 (KStr (s2b "a")))) (init_st c 4))) as HL by (by rewrite H).
  unfold ran_body, new_log. rewrite HL. vm_compute. reflexivity.
Qed.

(** ** C54: errors returned by callbacks *)

(** Whatever a callback returns that is not nil, a ParseError included, makes
    its rule match, with that as its value; only nil makes it fail. *)
Theorem C54_only_nil_fails : forall (E : env) (fuel : nat) (n : node) (s : st) (r : option ast) (s' : st) (d : nat),
  i_isrule (n_info n) = true -> cache_ok s = true -> i_cb (n_info n) = Some d ->
  parse E (S fuel) n s = Ok r s' -> ran_body n s s' = true ->
  exists s1 r0 s2, body E (parse E fuel) fuel n s1 = Ok r0 s2 /\ s_code s1 = s_code s /\
    (r = None -> r0 = None \/ exists h x h', e_cb E d (st_pos s2) h x = CbRet h' None) /\
    (forall k, r = Some (AErr k) -> exists h x h', e_cb E d (st_pos s2) h x = CbRet h' (Some (AErr k))).
Proof.
  intros E fuel n s r s' d H1 H2 Hd HP H3. destruct (applied E fuel n s r s' H1 H2 HP H3) as (s1 & r0 & s2 & C1 & _ & HB & _ & HM).
  exists s1, r0, s2. split; [exact HB|]. split; [exact C1|]. destruct r0 as [x|].
  - destruct HM as (x1 & h1 & _ & HM). rewrite Hd in HM. destruct HM as (h' & HM). split; [intros ->; right; eauto|intros k ->; eauto].
  - subst r. split; [by left|done].
Qed.
Print Assumptions C54_only_nil_fails.

(** A choice takes an error value as it takes any other: the alternatives after
    it are not tried. *)
Theorem C54_choice_takes_it : forall (E : env) (fuel : nat) (i : info) (n : node) (l : list node) (s s1 : st) (k : nat),
  i_isrule i = false -> i_label i = EmptyString -> i_cb i = None ->
  parse E fuel n s = Ok (Some (AErr k)) s1 ->
  parse E (S fuel) (Node i (KChoice (n :: l))) s = Ok (Some (AErr k)) s1.
Proof.
  intros E fuel i n l s s1 k H1 H2 H3 H. cbn [parse n_kind]. unfold wrap. cbn [n_info]. rewrite H1, H2, H3. cbn. unfold bind, get_pos, gets. by rewrite H.
Qed.
Print Assumptions C54_choice_takes_it.

(** ParseString answers with an error only if that is the value of the whole
    parse, or the parse stopped before the end of the text. *)
Theorem C54_error_result : forall (g : gram) (o : popts) rx cb (c : code) (fuel k : nat) (s' : st),
  let E := mk_env g o rx cb in
  (forall re, rx_ok (rx re)) -> ids_fit E (g_rank g) -> top_ok (g_rank g) ->
  code_ok c -> c_pos c <= length (c_work c) ->
  fst (gram_parse fuel g o rx cb c) = Ok (Some (AErr k)) s' ->
  exists r s, parse E fuel (g_rank g) (init_st c (g_nrules g)) = Ok r s /\
    (st_pos s <> length (c_work c) \/ r = Some (AErr k)).
Proof.
  intros g o rx cb c fuel k s' E H1 H2 H3 H4 H5 HP.
  destruct (parse E fuel (g_rank g) (init_st c (g_nrules g))) as [r s| |] eqn:EP.
  - exists r, s. split; [done|]. destruct (decide (st_pos s = length (c_work c))) as [Hs|]; [right|by left].
    destruct (parse_end g rx cb o H1 H2 c fuel r s H4 H5 H3 EP) as [HA _]. rewrite (HA Hs) in HP. by injection HP as -> _.
  - unfold gram_parse in HP. fold E in HP. rewrite EP in HP. discriminate HP.
  - unfold gram_parse in HP. fold E in HP. rewrite EP in HP. discriminate HP.
Qed.
Print Assumptions C54_error_result.

(** The callback of A answers an error; B would match. *)
Definition err_cb : nat -> nat -> heap -> ast -> cbres :=
  fun c p h x => if c =? 1 then CbRet h (Some (AErr 42)) else CbRet h (Some (AInt 7)).
Definition err_gram (top : kind node) : gram := toy_gram (rank [rule "__root__[0]" 3 top]) 4 nil_rules.
Example C54_nonvacuous :
  let run top := fst (parse_string 50 (err_gram top) mute no_rx err_cb (s2b "a")) in
  sum id (run (KRef "S")) = Value (Some (AErr 42)) 1 /\ cb_calls (log_of (run (KRef "S"))) = [(1, 1)] /\
  (* inside an array it does not make ParseString answer an error *)
  sum id (run (KSeq TArray [ref "S"])) = Value (Some (AArr [AErr 42])) 1.
Proof. split; [|split]; vm_compute; reflexivity. Qed.

(** ** C43: the SkipCache option of ParseString *)

(** The option has no effect on any parse. *)
Theorem C43_ignored_refuted : forall (g : gram) (dbg slog : bool) rx cb (c : code) (fuel : nat),
  gram_parse fuel g (POpts dbg slog true) rx cb c = gram_parse fuel g (POpts dbg slog false) rx cb c.
Proof. done. Qed.
Print Assumptions C43_ignored_refuted.

(** A parse with the option that takes a result from the cache: in S <- A 'x' |
    A 'y' on "ay", A is asked for twice and evaluated once. *)
Theorem C43_cached_refuted : exists (g : gram) (text : bytes) (fuel : nat) (s' : st) (r : option ast) (i : nat),
  fst (parse_string fuel g (POpts false false true) no_rx no_cb text) = Ok r s' /\ runs_of i (s_log s') = 1 /\
  (* the same grammar with the rule marked asks for it twice *)
  exists g2 s2, g_rank g2 = g_rank g /\ fst (parse_string fuel g2 mute no_rx no_cb text) = Ok r s2 /\
    length (List.filter (fun e => match e with EvSkip j _ => j =? i | _ => false end) (s_log s2)) = 2.
Proof.
  set (marked := [("S", rule "S" 0 (KChoice [rule "S[0]" 1 (KSeq TArray [ref "A"; cstr "x"]); rule "S[1]" 2 (KSeq TArray [ref "A"; cstr "y"])]));
     ("A", skipping (with_cb 9 (rule "A" 3 (KStr (s2b "a")))))]%string).
  destruct (sum_ok (fst (parse_string 50 (toy_gram pre_top 5 once_rules) (POpts false false true) no_rx no_cb (s2b "ay"))) (Some (AArr [AStr (s2b "a"); AStr (s2b "y")])) 2)
    as (s' & H & _); [vm_compute; reflexivity|].
  destruct (sum_ok (fst (parse_string 50 (toy_gram pre_top 5 marked) mute no_rx no_cb (s2b "ay"))) (Some (AArr [AStr (s2b "a"); AStr (s2b "y")])) 2)
    as (s2 & H2 & _); [vm_compute; reflexivity|].
  exists (toy_gram pre_top 5 once_rules), (s2b "ay"), 50, s', (Some (AArr [AStr (s2b "a"); AStr (s2b "y")])), 3.
  split; [exact H|]. split.
  { assert (s_log s' = log_of (fst (parse_string 50 (toy_gram pre_top 5 once_rules) (POpts false false true) no_rx no_cb (s2b "ay")))) as -> by (by rewrite H).
    vm_compute. reflexivity. }
  exists (toy_gram pre_top 5 marked), s2. split; [reflexivity|]. split; [exact H2|].
  assert (s_log s2 = log_of (fst (parse_string 50 (toy_gram pre_top 5 marked) mute no_rx no_cb (s2b "ay")))) as -> by (by rewrite H2).
  vm_compute. reflexivity.
Qed.
Print Assumptions C43_cached_refuted.

(** ** C28: SkipCache marks on rules *)

(** Two grammars that differ in SkipCache marks only: where the textbook reading
    gives an outcome, which it never does for a left-recursive rule, both
    engines give it.  Missing: left-recursive rules, for which it fails. *)
Theorem C28_partial : forall (E1 E2 : env) (root1 root2 : node) (c : code) cbf (r : result),
  pure_grammar E1 root1 cbf -> pure_grammar E2 root2 cbf -> e_rx E1 = e_rx E2 ->
  rules_alike (e_rule E1) (e_rule E2) -> alike root1 root2 -> top_ok root1 -> top_ok root2 ->
  code_ok c -> c_pos c <= length (c_work c) ->
  textbook E1 cbf (c_work c) root1 (c_pos c) r ->
  engine_gives E1 root1 (init_st c (e_nrules E1)) r /\ engine_gives E2 root2 (init_st c (e_nrules E2)) r.
Proof.
  intros E1 E2 root1 root2 c cbf r P1 P2 Hx Hr Hn T1 T2 Hc Hp Ht. split.
  - apply (textbook_run E1 root1 c cbf P1 Hc Hp); [constructor|split; [constructor|done]|exact Ht].
  - apply (textbook_run E2 root2 c cbf P2 Hc Hp); [constructor|split; [constructor|done]|].
    destruct Ht as [f Hf]. exists f. cbn. rewrite <- Hf, <- Hx. symmetry. by apply std_alike.
Qed.
Print Assumptions C28_partial.

(** E <- E '+' 'n' | 'n' written in one line: marked SkipCache it recurses until
    the parse stack overflows. *)
Definition lr_rule : node := rule "E" 0 (KChoice [seqA [ref "E"; str "+"; cstr "n"]; cstr "n"]).
Definition lr_gram (e : node) : gram := toy_gram (rank [rule "__root__[0]" 1 (KRef "E")]) 2 [("E", e)]%string.
Theorem C28_refuted : exists (g1 g2 : gram) (text : bytes) (fuel : nat) (v : ast) (s1 s2 : st),
  alike (g_rank g1) (g_rank g2) /\ rules_alike (g_rule g1) (g_rule g2) /\ g_nrules g1 = g_nrules g2 /\
  fst (parse_string fuel g1 mute no_rx no_cb text) = Ok (Some v) s1 /\
  fst (parse_string fuel g2 mute no_rx no_cb text) = Panic PIndex s2.
Proof.
  destruct (sum_ok (fst (parse_string 4999 (lr_gram lr_rule) mute no_rx no_cb (s2b "n+n"))) (Some (AArr [AStr (s2b "n"); AStr (s2b "n")])) 3) as (s1 & H1 & _);
    [vm_compute; reflexivity|].
  assert (sum id (fst (parse_string 4999 (lr_gram (skipping lr_rule)) mute no_rx no_cb (s2b "n+n"))) = Panicked PIndex) as H2 by (vm_compute; reflexivity).
  destruct (fst (parse_string 4999 (lr_gram (skipping lr_rule)) mute no_rx no_cb (s2b "n+n"))) as [?|p s2|] eqn:E2; [discriminate H2| |discriminate H2].
  injection H2 as ->. exists (lr_gram lr_rule), (lr_gram (skipping lr_rule)), (s2b "n+n"), 4999, (AArr [AStr (s2b "n"); AStr (s2b "n")]), s1, s2.
  split; [reflexivity|]. split; [|split; [reflexivity|split; [exact H1|exact E2]]].
  intros name. cbn. unfold look_up. cbn. by destruct (String.eqb name "E").
Qed.
Print Assumptions C28_refuted.

Definition skip_pre_rules : list (string * node) := map (fun p => (fst p, skipping (snd p))) pre_rules.
Definition skip_pre_env : env := toy_env 5 skip_pre_rules no_cb.
Example C28_nonvacuous :
  let c := CRune (new_rune_stream (s2b "abby")) in
  let v := VArr [VMap [("l", VStr (s2b "a")); ("m", VArr [VStr (s2b "b"); VStr (s2b "b")])]%string; VStr (s2b "y")] in
  pure_grammar pre_env pre_top same_cb /\ pure_grammar skip_pre_env pre_top same_cb /\
  rules_alike (e_rule pre_env) (e_rule skip_pre_env) /\
  textbook pre_env same_cb (c_work c) pre_top 0 (Some (v, 4)) /\
  (exists n, e_rule pre_env "A" = Some n /\ i_skip (n_info n) = false) /\ (exists n, e_rule skip_pre_env "A" = Some n /\ i_skip (n_info n) = true).
Proof.
  intros c v. split; [apply pre_pure|]. split.
  { split; [apply no_rx_ok|by apply (ids_fit_check _ _ skip_pre_rules)| |by apply toy_quiet|apply same_cb_pure].
    apply (ids_unique_check _ _ skip_pre_rules); [done|]. apply (bool_decide_unpack _). vm_compute. done. }
  split. { intros name. cbn. unfold look_up. cbn. destruct (String.eqb name "S"); [done|]. by destruct (String.eqb name "A"). }
  split; [exists 20; vm_compute; reflexivity|]. split; eexists; split; vm_compute; reflexivity.
Qed.
