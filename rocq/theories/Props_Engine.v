(** Properties of every parsing run: cursor, stack, internal assertions. *)
From Verif Require Import Base Helpers Utf8 Stream StreamSpec Native Engine EngSpec EngInv EngMon Toy.

(** At every parser call of a parse the cursor is within the text, and when the
    call returns it is still within the text and not before where the call
    began. *)
Theorem C21_cursor : forall (E : env) (root : node) (c : code) (fuel : nat),
  (forall re, rx_ok (e_rx E re)) -> code_ok c -> c_pos c <= length (c_work c) ->
  ids_fit E root -> top_ok root ->
  parse_mon E (cursor_in c) (cursor_after c) fuel root (init_st c (e_nrules E)) =
  parse E fuel root (init_st c (e_nrules E)).
Proof. intros. by apply cursor_inv. Qed.
Print Assumptions C21_cursor.

(** No cursor assignment panics; the text is never changed; rules and callbacks
    are entered at positions of the text. *)
Theorem C21_cursor_moves : forall (E : env) (root : node) (c : code) (fuel : nat),
  (forall re, rx_ok (e_rx E re)) -> code_ok c -> c_pos c <= length (c_work c) ->
  ids_fit E root -> top_ok root ->
  (forall s', parse E fuel root (init_st c (e_nrules E)) <> Panic (PMsg "out of bound") s') /\
  (forall r s', parse E fuel root (init_st c (e_nrules E)) = Ok r s' ->
     c_work (s_code s') = c_work c /\ c_pos c <= c_pos (s_code s') <= length (c_work c) /\
     Forall (fun e => match e with EvBody _ p | EvSkip _ p | EvRec _ p | EvCb _ p => p <= length (c_work c) end) (s_log s')).
Proof.
  intros E root c fuel H1 H2 H3 H4 H5. split.
  - intros s' HP. destruct (no_internal E root c H1 H2 H3 H4 H5 fuel _ _ HP) as [HI _]. apply HI.
    unfold internal_panics. rewrite !elem_of_cons. tauto.
  - intros r s' HP. destruct (final_state E root c H1 H2 H3 H4 H5 fuel _ _ HP) as (A1 & A2 & A3 & A4).
    split; [rewrite A2; apply StreamProofs.c_with_pos_work|]. split; [exact A1|].
    eapply Forall_impl; [exact A4|]. by intros [].
Qed.
Print Assumptions C21_cursor_moves.

(** The hypotheses hold for a left-recursive grammar, and the monitor does
    something: it fails when asked for a false property. *)
Example C21_nonvacuous :
  let c := CRune (new_rune_stream (s2b "n+n+n")) in
  (forall re, rx_ok (e_rx sum_env re)) /\ code_ok c /\ c_pos c <= length (c_work c) /\
  ids_fit sum_env sum_top /\ top_ok sum_top /\
  sum id (parse sum_env 50 sum_top (init_st c 4)) =
    Value (Some (AArr [AArr [AStr (s2b "n"); AStr (s2b "n")]; AStr (s2b "n")])) 5 /\
  sum id (parse_mon sum_env (fun _ s => st_pos s <? 3) (fun _ _ _ _ => true) 50 sum_top (init_st c 4)) = Panicked violated.
Proof.
  split; [intros re; apply no_rx_ok|]. split; [done|]. split; [cbn; lia|]. split; [apply sum_fits|]. split; [apply sum_top_ok|].
  split; vm_compute; reflexivity.
Qed.

(** Lookaheads and negations leave the cursor where they found it; literals,
    regular expressions, choices, ranks and patterns do when they fail. *)
Theorem C22_cursor_back : forall (E : env) (root : node) (c : code) (fuel : nat),
  (forall re, rx_ok (e_rx E re)) -> code_ok c -> c_pos c <= length (c_work c) ->
  ids_fit E root -> ids_unique E root -> top_ok root ->
  parse_mon E (fun _ _ => true) cursor_back fuel root (init_st c (e_nrules E)) =
  parse E fuel root (init_st c (e_nrules E)).
Proof. intros. by apply cursor_back_inv. Qed.
Print Assumptions C22_cursor_back.

(** An optional that finds nothing too, from any state. *)
Theorem C22_optional : forall (E : env) (fuel : nat) (i : info) (a : node) (s s1 : st),
  i_isrule i = false -> i_label i = EmptyString -> i_cb i = None -> st_pos s <= c_work_length (s_code s1) ->
  parse E fuel a s = Ok None s1 ->
  exists s', parse E (S fuel) (Node i (KExist a)) s = Ok (Some AUndef) s' /\ st_pos s' = st_pos s.
Proof.
  intros E fuel i a s s1 H1 H2 H3 Hp H. cbn [parse]. unfold wrap. cbn [n_kind n_info].
  rewrite H1, H2, H3. cbn [negb String.eqb andb orb]. unfold body. cbn [n_kind]. unfold bind, get_pos, gets. rewrite H.
  unfold set_pos. rewrite StreamProofs.c_set_pos_ok by (by destruct (s_code s1)).
  eexists. split; [reflexivity|]. unfold st_pos. cbn. apply StreamProofs.c_with_pos_pos.
Qed.
Print Assumptions C22_optional.

(** A failing sequence inside a choice that moved the cursor. *)
Definition back_rules : list (string * node) :=
  [("A", rule "A" 0 (KChoice [seqA [cstr "x"; cstr "y"]; rule "A[1]" 1 (KNot (ref "A2"))]));
   ("A2", rule "A2" 2 (KStr (s2b "xx")))]%string.
Definition back_top : node := rank [rule "__root__[0]" 3 (KSeq TArray [ref "A"; cstr "x"])].
Example C22_nonvacuous :
  let c := CRune (new_rune_stream (s2b "x")) in
  let E := toy_env 4 back_rules no_cb in
  ids_fit E back_top /\ ids_unique E back_top /\ top_ok back_top /\
  sum id (parse E 50 back_top (init_st c 4)) = Value (Some (AArr [AUndef; AStr (s2b "x")])) 1.
Proof.
  split; [by apply (ids_fit_check _ _ back_rules)|].
  split; [apply (ids_unique_check _ _ back_rules); [done|]; apply (bool_decide_unpack _); vm_compute; done|].
  split; [right; eexists; split; [done|]; split; [done|]; split; [done|]; by repeat constructor|].
  vm_compute. reflexivity.
Qed.

(** No execution reaches the engine's internal assertions, nor an index out of
    the frame table or of a wipe mask: the one index panic left is the overflow
    of the parse stack (and, with loop tracing on, of the loop stack; see
    C42). *)
Theorem C30_no_internal_panic : forall (E : env) (root : node) (c : code) (fuel : nat) (p : panic) (s' : st),
  (forall re, rx_ok (e_rx E re)) -> code_ok c -> c_pos c <= length (c_work c) ->
  ids_fit E root -> top_ok root ->
  parse E fuel root (init_st c (e_nrules E)) = Panic p s' ->
  p ∉ [PMsg "where's my wipemask"; PMsg "need frame.wipemask to know what to wipe";
       PMsg "Unexpected stage"; PMsg "Unexpected stage (B)";
       PMsg "assert failed: i_frame.pos > startPos"; PMsg "out of bound"]%string /\
  (p = PIndex -> e_loop E = false -> 1024 <= length (s_stack s')).
Proof. intros E root c fuel p s' H1 H2 H3 H4 H5. by apply no_internal. Qed.
Print Assumptions C30_no_internal_panic.

(** A run that panics for another reason: its callback panics. *)
Example C30_nonvacuous :
  let E := toy_env 4 [("E", with_cb 7 (rule "E" 0 (KStr (s2b "n"))))]%string (fun _ _ _ _ => CbPanic 7) in
  ids_fit E sum_top /\ top_ok sum_top /\
  sum id (parse E 50 sum_top (init_st (CRune (new_rune_stream (s2b "n"))) 4)) = Panicked (PUser 7).
Proof. split; [by eapply ids_fit_check|]. split; [apply sum_top_ok|]. vm_compute. reflexivity. Qed.

(** Every parser call that returns leaves the parse stack as it found it. *)
Theorem C31_stack_balanced : forall (E : env) (root : node) (c : code) (fuel : nat),
  (forall re, rx_ok (e_rx E re)) -> code_ok c -> c_pos c <= length (c_work c) ->
  ids_fit E root -> top_ok root ->
  parse_mon E (fun _ _ => true) stack_same fuel root (init_st c (e_nrules E)) =
    parse E fuel root (init_st c (e_nrules E)) /\
  forall r s', parse E fuel root (init_st c (e_nrules E)) = Ok r s' -> s_stack s' = [].
Proof.
  intros E root c fuel H1 H2 H3 H4 H5. split; [by apply stack_bal|]. intros r s' HP.
  by destruct (final_state E root c H1 H2 H3 H4 H5 fuel _ _ HP) as (A1 & A2 & A3 & A4).
Qed.
Print Assumptions C31_stack_balanced.

(** A parse panics on the stack only when 1024 rules are nested. *)
Theorem C31_overflow_only_by_nesting : forall (E : env) (root : node) (c : code) (fuel : nat) (s' : st),
  (forall re, rx_ok (e_rx E re)) -> code_ok c -> c_pos c <= length (c_work c) ->
  ids_fit E root -> top_ok root -> e_loop E = false ->
  parse E fuel root (init_st c (e_nrules E)) = Panic PIndex s' -> 1024 <= length (s_stack s').
Proof.
  intros E root c fuel s' H1 H2 H3 H4 H5 HL HP.
  by apply (proj2 (no_internal E root c H1 H2 H3 H4 H5 fuel _ _ HP)).
Qed.
Print Assumptions C31_overflow_only_by_nesting.

(** P <- '(' P ')' | 'x' *)
Definition paren_rules : list (string * node) :=
  [("P", rule "P" 0 (KChoice [rule "P[0]" 1 (KSeq TSingle [str "("; ref "P"; str ")"]); rule "P[1]" 2 (KStr (s2b "x"))]))]%string.
Definition paren_top : node := rank [rule "__root__[0]" 3 (KRef "P")].
Definition paren_gram : gram := toy_gram paren_top 4 paren_rules.
Definition nested (n : nat) : bytes := replicate n 40%N ++ s2b "x" ++ replicate n 41%N.

(** 510 nested parentheses parse, 511 make ParseString panic with an index out
    of range although the input is in the language. *)
Theorem C31_deep_nesting_panics : exists s',
  fst (parse_string 4000 paren_gram mute no_rx no_cb (nested 511)) = Panic PIndex s' /\
  sum id (fst (parse_string 4000 paren_gram mute no_rx no_cb (nested 510))) = Value (Some (AStr (s2b "x"))) 1021.
Proof.
  assert (sum id (fst (parse_string 4000 paren_gram mute no_rx no_cb (nested 511))) = Panicked PIndex) as H
    by (vm_compute; reflexivity).
  destruct (fst (parse_string 4000 paren_gram mute no_rx no_cb (nested 511))) as [r s|p s|]; [discriminate H| |discriminate H].
  injection H as ->. exists s. split; [reflexivity|]. vm_compute. reflexivity.
Qed.
Print Assumptions C31_deep_nesting_panics.
