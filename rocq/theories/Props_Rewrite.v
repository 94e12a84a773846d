(** Properties C116 and C117: ways of writing alternatives. *)
From Verif Require Import Base Helpers Utf8 Stream StreamSpec Native NativeSpec Engine EngSpec EngInv Peg PegRep PegBody PegStd RunSpec
  Build BuildSpec Joeson JoesonRun Calc CalcRun MeansSpec MeansRun RewriteSpec Rewrite Toy.
Local Open Scope list_scope.

(** C116: the lines mean the same. *)
Theorem C116_said : forall (compile : bytes -> res pexp) (name : string) (ls ls' : list line) rx cbf depth text r,
  rewritten_in compile (LA ls) (LA ls') ->
  said compile name ls rx cbf depth text r <-> said compile name ls' rx cbf depth text r.
Proof. exact rewritten_said. Qed.
Print Assumptions C116_said.

(** ParseString of both grammars gives what the lines answer. *)
Theorem C116_answers : forall (compile : bytes -> res pexp) (fuel fuel' : nat) (name : string) (ls ls' : list line) b b',
  rewritten_in compile (LA ls) (LA ls') ->
  build compile fuel name ls = ROk b -> build compile fuel' name ls' = ROk b' ->
  in_words compile name ls -> in_words compile name ls' ->
  forall o rx cb cbf text r, (forall re, rx_ok (rx re)) -> (forall c, cb_keeps (mk_env (gram_of b) o rx cb) cbf c) -> po_debug o = false ->
  said compile name ls rx cbf stack_limit text r \/ said compile name ls' rx cbf stack_limit text r ->
  exists fuel0, forall f, fuel0 <= f -> answer text r (fst (parse_string f (gram_of b) o rx cb text)) /\
    answer text r (fst (parse_string f (gram_of b') o rx cb text)).
Proof. exact rewritten_answers. Qed.
Print Assumptions C116_answers.

(** The rule texts, compiled with the joeson grammar: a group, a literal and an
    alternative that say nothing new, what stands behind an optional, operators
    doubled. *)
Definition word_lines (s : string) : list line := [LO "" (LS (s2b "Word+")) no_opts; LI "Word" (LS (s2b s)) no_opts].
Lemma word_rewritten s s' e e' : calc_compile (s2b s) = ROk e -> calc_compile (s2b s') = ROk e' -> rewritten e e' ->
  rewritten_in calc_compile (LA (word_lines s)) (LA (word_lines s')).
Proof.
  intros H1 H2 H3. apply (ri_rank _ [LO "" (LS (s2b "Word+")) no_opts] _ _ []). apply ri_i. exact (ri_text _ _ _ _ _ H1 H2 H3).
Qed.
Example C116_ex :
  rewritten_in calc_compile (LA (word_lines "'x' a:('a' | ('b' | 'c') | 'ab')")) (LA (word_lines "'x' a:('a' | 'b' | 'c' | 'ab')")) /\
  rewritten_in calc_compile (LA (word_lines "'x' a:('a' | 'b' | 'c' | 'ab')")) (LA (word_lines "'x' a:('a' | 'b' | 'c')")) /\
  rewritten_in calc_compile (LA (word_lines "'a' | 'b' | 'a' | 'c'")) (LA (word_lines "'a' | 'b' | 'c'")) /\
  rewritten_in calc_compile (LA (word_lines "'b' | ('a' 'x')* | ('c' 'd')")) (LA (word_lines "'b' | ('a' 'x')*")) /\
  rewritten_in calc_compile (LA (word_lines "('a'?)? 'b' | 'c'")) (LA (word_lines "'a'? 'b' | 'c'")) /\
  rewritten_in calc_compile (LA (word_lines "'a' !(!(!'b'))")) (LA (word_lines "'a' !'b'")).
Proof.
  split. { eapply word_rewritten; [vm_compute; reflexivity|vm_compute; reflexivity|]. apply (rw_seq _ _ [PExp "" (KStr [120%N])] _ _ []). apply rw_here, sk_alts.
    exact (sh_group [PExp "" (KStr [97%N])] [PExp "" (KStr [98%N]); PExp "" (KStr [99%N])] [PExp "" (KStr [97%N; 98%N])]). }
  split. { eapply word_rewritten; [vm_compute; reflexivity|vm_compute; reflexivity|]. apply (rw_seq _ _ [PExp "" (KStr [120%N])] _ _ []). apply rw_here, sk_alts.
    exact (sh_literal [] "" [97%N] [PExp "" (KStr [98%N]); PExp "" (KStr [99%N])] "" [98%N] []). }
  split. { eapply word_rewritten; [vm_compute; reflexivity|vm_compute; reflexivity|]. apply rw_here, sk_alts.
    exact (sh_again [] (PExp "" (KStr [97%N])) [PExp "" (KStr [98%N])] [PExp "" (KStr [99%N])]). }
  split. { eapply word_rewritten; [vm_compute; reflexivity|vm_compute; reflexivity|]. apply rw_here, sk_alts.
    exact (sh_behind [PExp "" (KStr [98%N])] (PExp "" (KPat (PExp "" (KSeq TSingle [PExp "" (KStr [97%N]); PExp "" (KStr [120%N])])) None (-1) (-1)))
      [PExp "" (KSeq TSingle [PExp "" (KStr [99%N]); PExp "" (KStr [100%N])])] eq_refl eq_refl). }
  split. { eapply word_rewritten; [vm_compute; reflexivity|vm_compute; reflexivity|]. apply (rw_choice _ [] _ _ [PExp "" (KStr [99%N])]).
    apply (rw_seq _ _ [] _ _ [PExp "" (KStr [98%N])]). by apply rw_here, sk_opt. }
  eapply word_rewritten; [vm_compute; reflexivity|vm_compute; reflexivity|]. apply (rw_seq _ _ [PExp "" (KStr [97%N])] _ _ []). apply rw_here, sk_notnot.
Qed.
Example C116_nonvacuous :
  let long := word_lines "'x' a:('a' | ('b' | 'c') | 'ab')" in let short := word_lines "'x' a:('a' | 'b' | 'c' | 'ab')" in
  in_words calc_compile "g" long /\ in_words calc_compile "g" short /\
  (exists b, build calc_compile 300 "g" long = ROk b) /\ (exists b, build calc_compile 300 "g" short = ROk b) /\
  said calc_compile "g" long calc_rx (fun _ _ v => Some (Some v)) stack_limit (s2b "xaxc")
    (Some (VArr [VMap [("a"%string, VStr (s2b "a"))]; VMap [("a"%string, VStr (s2b "c"))]], 4)).
Proof.
  split; [apply words_checked; vm_compute; reflexivity|]. split; [apply words_checked; vm_compute; reflexivity|].
  split; [eexists; vm_compute; reflexivity|]. split; [eexists; vm_compute; reflexivity|]. exists 60. vm_compute. reflexivity.
Qed.

(** C117: the order of alternatives matters, and so does where a common end is
    written: [true] where ParseString gives a value. *)
Definition reads (s : string) (text : string) : option bool :=
  match build calc_compile 300 "g" [LO "" (LS (s2b s)) no_opts] with
  | ROk b =>
      match fst (parse_string 300 (gram_of b) mute no_rx no_cb (s2b text)) with
      | Ok (Some (AErr _)) _ => Some false
      | Ok (Some _) _ => Some true
      | _ => None
      end
  | _ => None
  end.
Theorem C117_order_refuted : exists s s' e e' text,
  calc_compile (s2b s) = ROk (PExp "" (KChoice [e; e'])) /\ calc_compile (s2b s') = ROk (PExp "" (KChoice [e'; e])) /\
  reads s text = Some true /\ reads s' text = Some false.
Proof. exists "'ab' | 'a'"%string, "'a' | 'ab'"%string. eexists _, _, "ab"%string. split; [vm_compute; reflexivity|]. split; [vm_compute; reflexivity|]. by vm_compute. Qed.
Print Assumptions C117_order_refuted.
Theorem C117_common_end_refuted : exists s s' a b c text,
  calc_compile (s2b s) = ROk (PExp "" (KChoice [PExp "" (KSeq TSingle [a; c]); PExp "" (KSeq TSingle [b; c])])) /\
  calc_compile (s2b s') = ROk (PExp "" (KSeq TSingle [PExp "" (KChoice [a; b]); c])) /\
  reads s text = Some true /\ reads s' text = Some false.
Proof.
  exists "'a' 'c' | 'ab' 'c'"%string, "('a' | 'ab') 'c'"%string. eexists _, _, _, "abc"%string.
  split; [vm_compute; reflexivity|]. split; [vm_compute; reflexivity|]. by vm_compute.
Qed.
Print Assumptions C117_common_end_refuted.
