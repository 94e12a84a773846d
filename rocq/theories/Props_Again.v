(** Properties C111 to C113: streams after a parse, grammars without o-lines. *)
From Verif Require Import Base Helpers Utf8 Stream StreamSpec StreamProofs Native NativeSpec Engine EngSpec EngInv EngMon Toy
  Report Peg PegProofs PegRep PegBody PegStd RunSpec PegRun Build BuildSpec Life Again Props_Peg.
Local Open Scope list_scope.

(** C111: a parse starts where the stream stands. *)
Theorem C111_start : forall (g : gram) (o : popts) rx cb cbf R par (c : code) (r : result),
  let E := mk_env g o rx cb in
  pure_grammar E (g_rank g) cbf -> top_rank (g_rank g) -> lists_rules E (g_rank g) R -> parts_ok R par ->
  code_ok c -> c_pos c <= length (c_work c) -> meaning E cbf R par (c_work c) (g_rank g) (c_pos c) r ->
  exists fuel0, forall fuel, fuel0 <= fuel ->
  match r with
  | Some (v, e) =>
      if e =? length (c_work c) then exists x s', fst (gram_parse fuel g o rx cb c) = Ok (Some x) s' /\ rep [] (s_heap s') x v
      else exists k s', fst (gram_parse fuel g o rx cb c) = Ok (Some (AErr k)) s' /\ e <= k <= length (c_work c)
  | None =>
      if c_pos c =? length (c_work c) then exists s', fst (gram_parse fuel g o rx cb c) = Ok None s'
      else exists k s', fst (gram_parse fuel g o rx cb c) = Ok (Some (AErr k)) s' /\ c_pos c <= k <= length (c_work c)
  end.
Proof. intros g o rx cb cbf R par c r E Hg Ht HR Hp. exact (gram_meaning_at g rx cb o cbf Hg Ht R par HR Hp c r). Qed.
Print Assumptions C111_start.

(** It leaves the stream as it was but for the position, which is the end
    unless the answer is a ParseError. *)
Theorem C111_end : forall (g : gram) (o : popts) rx cb (c : code) (fuel : nat) (r : option ast) (s : st),
  (forall re, rx_ok (rx re)) -> ids_fit (mk_env g o rx cb) (g_rank g) ->
  code_ok c -> c_pos c <= length (c_work c) -> top_ok (g_rank g) ->
  fst (gram_parse fuel g o rx cb c) = Ok r s ->
  (forall p, c_with_pos (s_code s) p = c_with_pos c p) /\ c_pos c <= c_pos (s_code s) <= length (c_work c) /\
  ((forall k, r <> Some (AErr k)) -> s_code s = c_with_pos c (length (c_work c))).
Proof. intros g o rx cb c fuel r s H1 H2. exact (left_at g rx cb o H1 H2 c fuel r s). Qed.
Print Assumptions C111_end.

(** SetPos to where it started makes it the stream it was. *)
Theorem C111_set_back : forall (g : gram) (o : popts) rx cb (c : code) (fuel : nat) (r : option ast) (s : st),
  (forall re, rx_ok (rx re)) -> ids_fit (mk_env g o rx cb) (g_rank g) ->
  code_ok c -> c_pos c <= length (c_work c) -> top_ok (g_rank g) ->
  fst (gram_parse fuel g o rx cb c) = Ok r s ->
  c_set_pos (s_code s) (Z.of_nat (c_pos c)) = ROk c.
Proof. intros g o rx cb c fuel r s H1 H2. exact (rewound g rx cb o H1 H2 c fuel r s). Qed.
Print Assumptions C111_set_back.

(** One rule, 'a'. *)
Definition one_top : node := rank [rule "__root__[0]" 0 (KStr (s2b "a"))].
Definition one_gram : gram := toy_gram one_top 1 [].
Definition one_tokens : tstream := new_token_stream (s2b "a") [Token (s2b "a") 0 0].
Definition one_R (i : nat) : node := rule "__root__[0]" 0 (KStr (s2b "a")).
Lemma one_env : mk_env one_gram mute no_rx no_cb = toy_env 1 [] no_cb.
Proof. done. Qed.
Lemma one_fits : ids_fit (toy_env 1 [] no_cb) one_top.
Proof. by apply (ids_fit_check _ _ []). Qed.
Lemma one_pure : pure_grammar (toy_env 1 [] no_cb) one_top same_cb.
Proof.
  split; [apply no_rx_ok|apply one_fits| |by apply toy_quiet|apply same_cb_pure].
  apply (ids_unique_check _ _ []); [done|]. apply (bool_decide_unpack _). vm_compute. done.
Qed.
Lemma one_lists : lists_rules (toy_env 1 [] no_cb) one_top one_R.
Proof.
  intros n Hn Hr. apply (reach_all (toy_env 1 [] no_cb) one_top [] n eq_refl) in Hn. cbn in Hn.
  repeat (apply elem_of_cons in Hn as [->|Hn]; [try done|]). by apply elem_of_nil in Hn.
Qed.
Lemma one_parts : parts_ok one_R (fun _ => None).
Proof. intros i F H. done. Qed.
Lemma one_top_rank : top_rank one_top.
Proof. repeat split. eexists. split; [done|]. by repeat constructor. Qed.
Lemma one_none : meaning (toy_env 1 [] no_cb) same_cb one_R (fun _ => None) (s2b "a") one_top 1 None.
Proof.
  exists false, 1. split; [unfold stack_limit; lia|].
  eapply (p_plain _ _ _ _ _ _ _ _ _ _ _ None); [done|done| |done]. eapply p_choice; [done|].
  apply (p_alt_next _ _ _ _ _ _ _ _ _ _ false false 1 0); [|apply p_alt_nil].
  apply p_rule; try done; [cbn; lia|]. apply (p_once _ _ _ _ _ _ _ _ _ None); try done.
  change (@None (val * nat)) with (lit (s2b "a") (s2b "a") 1). by apply p_str.
Qed.
Example C111_nonvacuous :
  let c := CTok one_tokens in
  pure_grammar (mk_env one_gram mute no_rx no_cb) (g_rank one_gram) same_cb /\ top_rank (g_rank one_gram) /\
  lists_rules (mk_env one_gram mute no_rx no_cb) (g_rank one_gram) one_R /\ parts_ok one_R (fun _ => None) /\
  code_ok c /\ c_work c = s2b "a" /\
  meaning (mk_env one_gram mute no_rx no_cb) same_cb one_R (fun _ => None) (c_work c) (g_rank one_gram) 1 None /\
  exists s, fst (gram_parse 9 one_gram mute no_rx no_cb c) = Ok (Some (AStr (s2b "a"))) s /\
    s_code s = c_with_pos c 1 /\ c_set_pos (s_code s) 0 = ROk c.
Proof.
  intros c. rewrite one_env. split; [exact one_pure|]. split; [exact one_top_rank|]. split; [exact one_lists|]. split; [exact one_parts|].
  split; [split; [done|]; by intros [|k] t [= <-]|]. split; [done|]. split; [exact one_none|].
  eexists. split; [vm_compute; reflexivity|]. split; vm_compute; reflexivity.
Qed.

(** C112: the second ParseTokens on a stream. *)
Theorem C112_again_partial : forall (g : gram) (o : popts) rx cb cbf R par (c : code) (fuel : nat) (r : option ast) (s : st),
  let E := mk_env g o rx cb in
  pure_grammar E (g_rank g) cbf -> top_rank (g_rank g) -> lists_rules E (g_rank g) R -> parts_ok R par ->
  code_ok c -> c_pos c <= length (c_work c) ->
  fst (gram_parse fuel g o rx cb c) = Ok r s -> (forall k, r <> Some (AErr k)) ->
  meaning E cbf R par (c_work c) (g_rank g) (length (c_work c)) None ->
  exists fuel0, forall fuel, fuel0 <= fuel -> exists s', fst (gram_parse fuel g o rx cb (s_code s)) = Ok None s'.
Proof. intros g o rx cb cbf R par c fuel r s E Hg Ht HR Hp. exact (again_at_end g rx cb o cbf Hg Ht R par HR Hp c fuel r s). Qed.
Print Assumptions C112_again_partial.

Theorem C112_refuted : exists (g : gram) (t : tstream) (r : ast) (s s' : st),
  pure_grammar (mk_env g mute no_rx no_cb) (g_rank g) same_cb /\ top_rank (g_rank g) /\ ts_pos t = 0 /\
  fst (parse_tokens 9 g mute no_rx no_cb t) = Ok (Some r) s /\ (forall k, r <> AErr k) /\
  fst (gram_parse 9 g mute no_rx no_cb (s_code s)) = Ok None s'.
Proof.
  exists one_gram, one_tokens, (AStr (s2b "a")). eexists. eexists. split; [exact one_pure|]. split; [exact one_top_rank|]. split; [done|].
  split; [vm_compute; reflexivity|]. split; [done|]. vm_compute. reflexivity.
Qed.
Print Assumptions C112_refuted.

(** C113: a grammar without o-lines. *)
Theorem C113_no_o_lines : forall compile (fuel : nat) (name : string) (ls : list line) b,
  build compile fuel name ls = ROk b ->
  names_once ls -> no_singles compile ls -> name <> EmptyString -> o_names name ls 0 = [] ->
  forall o rx cb f text,
  (text = [] -> exists s, fst (parse_string (S f) (gram_of b) o rx cb text) = Ok None s) /\
  (text <> [] -> exists s, fst (parse_string (S f) (gram_of b) o rx cb text) = Ok (Some (AErr 0)) s).
Proof. exact no_o_lines. Qed.
Print Assumptions C113_no_o_lines.

Theorem C113_bomb : forall (x : gobj) o rx cb f text,
  let g := go_gram (bomb x) in
  is_ready (bomb x) = false /\ count_rules (bomb x) = 0 /\
  (text = [] -> exists s, fst (parse_string (S f) g o rx cb text) = Ok None s) /\
  (text <> [] -> exists s, fst (parse_string (S f) g o rx cb text) = Ok (Some (AErr 0)) s).
Proof. intros x o rx cb f text g. exact (conj eq_refl (conj eq_refl (nothing_accepted g rx cb o eq_refl eq_refl eq_refl eq_refl f text))). Qed.
Print Assumptions C113_bomb.

Theorem C113_count : forall compile (fuel : nat) (name : string) (ls : list line) b,
  build compile fuel name ls = ROk b ->
  names_once ls -> no_singles compile ls -> name <> EmptyString ->
  is_ready (gobj_of b) = true /\ count_rules (gobj_of b) = length (decls name ls).
Proof. intros compile fuel name ls b H1 H2 H3 H4. exact (conj eq_refl (counted compile fuel name ls b H1 H2 H3 H4)). Qed.
Print Assumptions C113_count.

Definition only_i : list line := [LI "A" (LC true (PExp "" (KStr (s2b "a")))) no_opts].
Example C113_nonvacuous : exists b,
  build (fun _ => RPanic PNil) 20 "g" only_i = ROk b /\ names_once only_i /\ no_singles (fun _ => RPanic PNil) only_i /\
  o_names "g" only_i 0 = [] /\ count_rules (gobj_of b) = 1 /\ count_rules (bomb (gobj_of b)) = 0 /\
  toy 9 (gram_of b) "a" = Value (Some (AErr 0)) 0 /\ toy 9 (gram_of b) "" = Value None 0.
Proof.
  eexists. split; [vm_compute; reflexivity|]. split; [apply (bool_decide_unpack _); vm_compute; done|].
  split; [by repeat constructor|]. split; [done|]. split; [done|]. split; [done|]. split; vm_compute; reflexivity.
Qed.
