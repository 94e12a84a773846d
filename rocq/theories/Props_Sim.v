(** Properties of tracing, of repeated calls and of token streams. *)
From Verif Require Import Base Helpers Utf8 Utf8Spec Stream StreamSpec Native Engine EngSpec EngInv EngMon Toy Props_Engine SkipSpec SimSpec Sim SimTop.

(** ** C16: ParseTokens and ParseString *)

(** A token stream gives what its text gives, origins apart: the same Ast, the
    same failure or the same panic, after the same calls of callbacks.
    Callbacks must not look at origins.  Whatever is traced must not panic
    (C42). *)
Theorem C16_tokens_as_string : forall (fuel : nat) (g : gram) (o : popts) rx cb (text : bytes) (toks : list token),
  (forall re, rx_ok (rx re)) -> ids_fit (mk_env g o rx cb) (g_rank g) -> top_ok (g_rank g) ->
  (forall k t, toks !! k = Some t -> tk_work t = Z.of_nat (work_start (tk_repr <$> toks) k) /\ (0 <= tk_orig t)%Z) ->
  cb_like false cb cb -> trace_safe g o rx (CTok (new_token_stream text toks)) ->
  outcome_like false (fst (parse_tokens fuel g o rx cb (new_token_stream text toks)))
                     (fst (parse_string fuel g o rx cb (mjoin (tk_repr <$> toks)))).
Proof.
  intros fuel g o rx cb text toks H1 H2 H3 H4 H5 H6. apply streams_sim; try done.
  - exact (ts_work_join text toks).
  - cbn. lia.
Qed.
Print Assumptions C16_tokens_as_string.

(** Without tracing there is nothing to check. *)
Theorem C16_quiet : forall (fuel : nat) (g : gram) (o : popts) rx cb (text : bytes) (toks : list token),
  (forall re, rx_ok (rx re)) -> ids_fit (mk_env g o rx cb) (g_rank g) -> top_ok (g_rank g) ->
  (forall k t, toks !! k = Some t -> tk_work t = Z.of_nat (work_start (tk_repr <$> toks) k) /\ (0 <= tk_orig t)%Z) ->
  cb_like false cb cb -> g_tloop g = false -> (forall n, in_gram g n -> ~ traced g o n) ->
  outcome_like false (fst (parse_tokens fuel g o rx cb (new_token_stream text toks)))
                     (fst (parse_string fuel g o rx cb (mjoin (tk_repr <$> toks)))).
Proof.
  intros fuel g o rx cb text toks H1 H2 H3 H4 H5 H6 H7. apply C16_tokens_as_string; try done. split; [by rewrite H6|by left].
Qed.
Print Assumptions C16_quiet.

Lemma no_cb_like b : cb_like b no_cb no_cb.
Proof. intros c p h1 h2 x H. split; [done|exact H]. Qed.
Lemma in_gram_all top n rules m : in_gram (toy_gram top n rules) m -> m ∈ all_nodes top rules.
Proof. by apply reach_all. Qed.
Lemma toy_untraced top n rules : forallb (fun m => negb (i_debug (n_info m))) (all_nodes top rules) = true ->
  forall m, in_gram (toy_gram top n rules) m -> ~ traced (toy_gram top n rules) mute m.
Proof.
  intros H m Hm%in_gram_all Ht. rewrite forallb_forall in H. apply elem_of_list_In in Hm. specialize (H m Hm). unfold traced in Ht. cbn in Ht.
  rewrite Ht in H. done.
Qed.

(** "n + n" as the tokens n, + and n. *)
Definition sum_tokens : list token := [Token (s2b "n") 0 0; Token (s2b "+") 2 1; Token (s2b "n") 4 2].
Example C16_nonvacuous :
  ids_fit (mk_env sum_gram mute no_rx no_cb) sum_top /\ top_ok sum_top /\ cb_like false no_cb no_cb /\
  g_tloop sum_gram = false /\ (forall n, in_gram sum_gram n -> ~ traced sum_gram mute n) /\
  (forall k t, sum_tokens !! k = Some t -> tk_work t = Z.of_nat (work_start (tk_repr <$> sum_tokens) k) /\ (0 <= tk_orig t)%Z) /\
  sum id (fst (parse_tokens 50 sum_gram mute no_rx no_cb (new_token_stream (s2b "n + n") sum_tokens))) =
    Value (Some (AArr [AStr (s2b "n"); AStr (s2b "n")])) 3.
Proof.
  split; [by apply (ids_fit_check _ _ sum_rules)|]. split; [right; eexists; split; [done|]; split; [done|]; split; [done|]; by repeat constructor|].
  split; [apply no_cb_like|]. split; [done|]. split; [by apply toy_untraced|].
  split; [|vm_compute; reflexivity].
  intros [|[|[|k]]] t [= <-]; vm_compute; split; done.
Qed.

(** ** C42: tracing *)

(** Tracing changes nothing, when the traced parsers are not marked SkipCache,
    the text around each position can be shown, and loops are not filtered by
    line; the grammar's options are as before when the parse returns. *)
Theorem C42_same_partial : forall (fuel : nat) (g : gram) (o : popts) rx cb (c : code),
  (forall re, rx_ok (rx re)) -> ids_fit (mk_env g o rx cb) (g_rank g) -> top_ok (g_rank g) -> new_code c ->
  trace_safe g o rx c ->
  outcome_like true (fst (gram_parse fuel g o rx cb c)) (fst (gram_parse fuel (mute_gram g) mute rx cb c)) /\
  (forall r s, fst (gram_parse fuel g o rx cb c) = Ok r s -> snd (gram_parse fuel g o rx cb c) = g_tstack g).
Proof.
  intros fuel g o rx cb c H1 H2 H3 [H4 H5] H6. split.
  - apply gram_sim; try done; [apply cb_like_strict|]. rewrite H5. lia.
  - apply flag_kept.
Qed.
Print Assumptions C42_same_partial.

(** Texts in UTF-8 without U+FFFD are such texts, for grammars whose strings
    and regular expressions match whole runes. *)
Theorem C42_text_partial : forall (fuel : nat) (g : gram) (o : popts) rx cb (text : bytes),
  (forall re, rx_ok (rx re)) -> ids_fit (mk_env g o rx cb) (g_rank g) -> top_ok (g_rank g) ->
  plain text -> gram_plain g rx ->
  (forall n, in_gram g n -> traced g o n -> i_skip (n_info n) = false) -> (g_tloop g = true -> (g_tfilter g < 0)%Z) ->
  outcome_like true (fst (parse_string fuel g o rx cb text)) (fst (parse_string fuel (mute_gram g) mute rx cb text)).
Proof.
  intros fuel g o rx cb text H1 H2 H3 H4 H5 H6 H7. apply C42_same_partial; try done. split; [done|]. right. split; [done|]. by apply plain_walks.
Qed.
Print Assumptions C42_text_partial.

Lemma ascii_plain bs : Forall (fun b => (b < 128)%N) bs -> plain bs.
Proof.
  induction 1 as [|b bs Hb _ IH].
  - exists []. split; [constructor|done].
  - apply (plain_app [b]); [|done]. exists [b]. split; [apply (utf8s_cons b [b] [] []); [by constructor|constructor]|].
    constructor; [|done]. intros ->. done.
Qed.
Definition dbg : popts := POpts true false false.
(** The sum grammar, left recursive, with Stack, Loop and Debug. *)
Definition sum_loud : gram := Gram sum_top 4 (look_up sum_rules) true true (-1).
Example C42_nonvacuous :
  ids_fit (mk_env sum_loud dbg no_rx no_cb) sum_top /\ top_ok sum_top /\ plain (s2b "n+n+n") /\ gram_plain sum_loud no_rx /\
  (forall n, in_gram sum_loud n -> traced sum_loud dbg n -> i_skip (n_info n) = false) /\ (g_tfilter sum_loud < 0)%Z /\
  sum id (fst (parse_string 50 sum_loud dbg no_rx no_cb (s2b "n+n+n"))) =
    Value (Some (AArr [AArr [AStr (s2b "n"); AStr (s2b "n")]; AStr (s2b "n")])) 5.
Proof.
  assert (forall m, in_gram sum_loud m -> m ∈ all_nodes sum_top sum_rules) as Hin by (intros m; by apply reach_all).
  split; [by apply (ids_fit_check _ _ sum_rules)|]. split; [right; eexists; split; [done|]; split; [done|]; split; [done|]; by repeat constructor|].
  split; [apply ascii_plain; repeat constructor; done|]. split; [split|split].
  - intros n s Hn%Hin. revert s. revert n Hn.
    apply (proj1 (Forall_forall (fun n => forall s, n_kind n = KStr s -> plain s) _)).
    repeat constructor; intros s; cbn; intros [=]; subst; apply ascii_plain; repeat constructor; done.
  - intros n re Hn HK s b Hs. done.
  - intros n Hn%Hin _. revert n Hn. apply (proj1 (Forall_forall (fun n => i_skip (n_info n) = false) _)). repeat constructor; done.
  - split; [done|]. vm_compute. reflexivity.
Qed.

(** S <- A | B, A marked SkipCache: where A fails, tracing panics. *)
Definition skip_rules : list (string * node) :=
  [("S", rule "S" 0 (KChoice [ref "A"; ref "B"])); ("A", skipping (rule "A" 1 (KStr (s2b "a")))); ("B", rule "B" 2 (KStr (s2b "b")))]%string.
Definition skip_top : node := rank [rule "__root__[0]" 3 (KRef "S")].
Theorem C42_skip_refuted : exists (g : gram) (text : bytes),
  ids_fit (mk_env g mute no_rx no_cb) (g_rank g) /\ top_ok (g_rank g) /\ plain text /\
  sum id (fst (parse_string 50 g mute no_rx no_cb text)) = Value (Some (AStr (s2b "b"))) 1 /\
  sum id (fst (parse_string 50 g dbg no_rx no_cb text)) = Panicked PNil.
Proof.
  exists (toy_gram skip_top 4 skip_rules), (s2b "b"). split; [by apply (ids_fit_check _ _ skip_rules)|].
  split; [right; eexists; split; [done|]; split; [done|]; split; [done|]; by repeat constructor|].
  split; [apply ascii_plain; repeat constructor; done|]. split; vm_compute; reflexivity.
Qed.
Print Assumptions C42_skip_refuted.

(** S <- A B where A matches U+FFFD. *)
Definition fffd : bytes := [239; 191; 189]%N.
Definition fffd_rules : list (string * node) :=
  [("S", rule "S" 0 (KSeq TArray [ref "A"; ref "B"])); ("A", rule "A" 1 (KStr fffd)); ("B", rule "B" 2 (KStr (s2b "b")))]%string.
Theorem C42_text_refuted : exists (g : gram) (text : bytes),
  ids_fit (mk_env g mute no_rx no_cb) (g_rank g) /\ top_ok (g_rank g) /\ (exists rs, utf8s rs text) /\
  sum id (fst (parse_string 50 g mute no_rx no_cb text)) = Value (Some (AArr [AStr fffd; AStr (s2b "b")])) 4 /\
  exists p, sum id (fst (parse_string 50 g dbg no_rx no_cb text)) = Panicked p.
Proof.
  exists (toy_gram skip_top 4 fffd_rules), (fffd ++ s2b "b"). split; [by apply (ids_fit_check _ _ fffd_rules)|].
  split; [right; eexists; split; [done|]; split; [done|]; split; [done|]; by repeat constructor|].
  split.
  { exists ([65533; 98]%N). apply (utf8s_cons 65533 fffd [98%N] (s2b "b")); [apply (utf8_3 15 63 61); lia|].
    apply (utf8s_cons 98 [98%N] [] []); [by constructor|constructor]. }
  split; [vm_compute; reflexivity|]. eexists. vm_compute. reflexivity.
Qed.
Print Assumptions C42_text_refuted.

(** Loops traced for line 7 only, on a text of one line. *)
Theorem C42_loop_refuted : exists (g : gram) (text : bytes),
  ids_fit (mk_env g mute no_rx no_cb) (g_rank g) /\ top_ok (g_rank g) /\ plain text /\
  sum id (fst (parse_string 50 (mute_gram g) mute no_rx no_cb text)) = Value (Some (AArr [AStr (s2b "n"); AStr (s2b "n")])) 3 /\
  exists p, sum id (fst (parse_string 50 g mute no_rx no_cb text)) = Panicked p.
Proof.
  exists (Gram sum_top 4 (look_up sum_rules) false true 7), (s2b "n+n"). split; [by apply (ids_fit_check _ _ sum_rules)|].
  split; [right; eexists; split; [done|]; split; [done|]; split; [done|]; by repeat constructor|].
  split; [apply ascii_plain; repeat constructor; done|]. split; [vm_compute; reflexivity|]. eexists. vm_compute. reflexivity.
Qed.
Print Assumptions C42_loop_refuted.

(** After a parse with Debug in which a callback panics the Stack option stays
    on. *)
Definition cb_boom : nat -> nat -> heap -> ast -> cbres := fun _ p h x => if p =? 1 then CbPanic 3 else CbRet h (Some x).
Definition boom_rules : list (string * node) := [("S", with_cb 7 (rule "S" 0 (KChoice [cstr "x"; cstr "yy"])))]%string.
Theorem C42_options_refuted : exists (g : gram) cb (text : bytes),
  ids_fit (mk_env g mute no_rx cb) (g_rank g) /\ top_ok (g_rank g) /\ plain text /\ g_tstack g = false /\
  snd (parse_string 50 g dbg no_rx cb text) = true.
Proof.
  exists (toy_gram (rank [rule "__root__[0]" 1 (KRef "S")]) 2 boom_rules), cb_boom, (s2b "x"). split; [by apply (ids_fit_check _ _ boom_rules)|].
  split; [right; eexists; split; [done|]; split; [done|]; split; [done|]; by repeat constructor|].
  split; [apply ascii_plain; repeat constructor; done|]. split; [done|]. vm_compute. reflexivity.
Qed.
Print Assumptions C42_options_refuted.

(** ** C41: repeated calls *)

(** Each call gives what it gives on a new grammar, when no call asks for
    Debug, or Stack is on anyway. *)
Theorem C41_same_partial : forall (fuel : nat) (g : gram) rx cb (l : list request),
  (g_tstack g = true \/ Forall (fun q => po_debug (rq_opts q) = false) l) ->
  history fuel g rx cb l = map (fresh fuel g rx cb) l.
Proof. intros fuel g rx cb l. exact (history_same fuel rx cb l g). Qed.
Print Assumptions C41_same_partial.

(** With Debug too, where tracing is safe. *)
Theorem C41_traced_partial : forall (fuel : nat) (g : gram) rx cb (l : list request),
  (forall re, rx_ok (rx re)) -> ids_fit (mk_env g mute rx cb) (g_rank g) -> top_ok (g_rank g) ->
  Forall (fun q => new_code (rq_code q) /\ trace_safe g (debugging (rq_opts q)) rx (rq_code q)) l ->
  Forall2 (outcome_like true) (history fuel g rx cb l) (map (fresh fuel g rx cb) l).
Proof.
  intros fuel g rx cb l H1 H2 H3 H4. pose proof (history_safe fuel rx cb g l H1 H2 H3 H4 (g_tstack g)) as H.
  rewrite with_stack_same in H. exact H.
Qed.
Print Assumptions C41_traced_partial.

Definition ask (o : popts) (s : string) : request := Req o (CRune (new_rune_stream (s2b s))).
Example C41_nonvacuous :
  let l := [ask dbg "n+n"; ask mute "n+"; ask mute "n"] in
  ids_fit (mk_env sum_gram mute no_rx no_cb) sum_top /\ top_ok sum_top /\
  Forall (fun q => new_code (rq_code q) /\ trace_safe sum_gram (debugging (rq_opts q)) no_rx (rq_code q)) l /\
  map (sum id) (history 50 sum_gram no_rx no_cb l) =
    [Value (Some (AArr [AStr (s2b "n"); AStr (s2b "n")])) 3; Value (Some (AErr 1)) 2; Value (Some (AStr (s2b "n"))) 1].
Proof.
  intros l. assert (forall m, in_gram sum_gram m -> m ∈ all_nodes sum_top sum_rules) as Hin by (intros m; by apply reach_all).
  split; [by apply (ids_fit_check _ _ sum_rules)|]. split; [right; eexists; split; [done|]; split; [done|]; split; [done|]; by repeat constructor|].
  split; [|vm_compute; reflexivity].
  assert (gram_plain sum_gram no_rx) as HG.
  { split.
    - intros n s Hn%Hin. revert s. revert n Hn.
      apply (proj1 (Forall_forall (fun n => forall s, n_kind n = KStr s -> plain s) _)).
      repeat constructor; intros s; cbn; intros [=]; subst; apply ascii_plain; repeat constructor; done.
    - intros n re Hn HK s b Hs. done. }
  assert (forall o s, Forall (fun b => (b < 128)%N) (s2b s) -> trace_safe sum_gram o no_rx (CRune (new_rune_stream (s2b s)))) as HT.
  { intros o s Hs. split; [done|]. right. split.
    - intros n Hn%Hin _. revert n Hn. apply (proj1 (Forall_forall (fun n => i_skip (n_info n) = false) _)). repeat constructor; done.
    - apply plain_walks; try done. by apply ascii_plain. }
  assert (forall o s, Forall (fun b => (b < 128)%N) (s2b s) -> new_code (rq_code (ask o s)) /\
    trace_safe sum_gram (debugging (rq_opts (ask o s))) no_rx (rq_code (ask o s))) as HA by (intros o s Hs; split; [done|by apply HT]).
  unfold l. repeat (apply Forall_cons; split; [apply HA; repeat constructor; done|]). by apply Forall_nil.
Qed.

(** A panic under Debug leaves Stack on; a later plain call then panics. *)
Theorem C41_refuted : exists (g : gram) (l : list request),
  ids_fit (mk_env g mute no_rx no_cb) (g_rank g) /\ top_ok (g_rank g) /\ Forall (fun q => new_code (rq_code q)) l /\
  map (sum id) (history 50 g no_rx no_cb l) = [Panicked PNil; Panicked PNil] /\
  map (sum id) (map (fresh 50 g no_rx no_cb) l) = [Panicked PNil; Value (Some (AStr (s2b "b"))) 1].
Proof.
  exists (toy_gram skip_top 4 skip_rules), [ask dbg "b"; ask mute "b"]. split; [by apply (ids_fit_check _ _ skip_rules)|].
  split; [right; eexists; split; [done|]; split; [done|]; split; [done|]; by repeat constructor|].
  split; [repeat constructor|]. split; vm_compute; reflexivity.
Qed.
Print Assumptions C41_refuted.
