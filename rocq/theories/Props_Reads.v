(** Properties C118 and C119: which texts a grammar accepts. *)
From Verif Require Import Base Helpers Utf8 Stream StreamSpec Native NativeSpec Engine EngSpec EngInv Peg PegRep PegBody PegStd RunSpec
  Build BuildSpec Joeson JoesonRun Calc CalcRun MeansSpec MeansRun ReadsSpec Reads Toy.
Local Open Scope list_scope.

(** C118: the ends of what the lines answer are what they read, and it is one
    end. *)
Theorem C118_ends : forall (compile : bytes -> res pexp) (name : string) (ls : list line) rx cbf depth text r,
  only_texts compile name ls -> said compile name ls rx cbf depth text r -> reads_to compile name ls rx depth text (snd <$> r).
Proof. exact said_reads. Qed.
Print Assumptions C118_ends.
Theorem C118_answered : forall (compile : bytes -> res pexp) (name : string) (ls : list line) rx cbf depth text e,
  only_texts compile name ls -> reads_to compile name ls rx depth text e ->
  exists r, said compile name ls rx cbf depth text r /\ snd <$> r = e.
Proof. exact reads_said. Qed.
Print Assumptions C118_answered.
Theorem C118_one_end : forall (rules : string -> option pexp) rx text depth t p r r',
  rd rules rx text depth t p r -> rd rules rx text depth t p r' -> r = r'.
Proof. exact (fun rules rx text depth t p r r' H => rd_once rules rx text depth t p r H r'). Qed.
Print Assumptions C118_one_end.

(** ParseString takes exactly the texts read to their end. *)
Theorem C118_parse : forall (compile : bytes -> res pexp) (fuel : nat) (name : string) (ls : list line) b,
  build compile fuel name ls = ROk b -> in_words compile name ls -> only_texts compile name ls ->
  forall o rx cb cbf text e, (forall re, rx_ok (rx re)) -> (forall c, cb_keeps (mk_env (gram_of b) o rx cb) cbf c) -> po_debug o = false ->
  reads_to compile name ls rx stack_limit text e ->
  exists fuel0, forall f, fuel0 <= f -> takes text e (fst (parse_string f (gram_of b) o rx cb text)).
Proof. exact reads_parse. Qed.
Print Assumptions C118_parse.

(** Changes that leave the texts as they are. *)
Theorem C118_changes : forall (compile : bytes -> res pexp) (x x' : pexp) (name : string) (ls ls' : list line) rx depth text r,
  reads_as x x' -> put_in compile x x' (LA ls) (LA ls') ->
  reads_to compile name ls rx depth text r <-> reads_to compile name ls' rx depth text r.
Proof. exact as_reads. Qed.
Print Assumptions C118_changes.
Theorem C118_same_texts : forall (compile : bytes -> res pexp) (fuel fuel' : nat) (name : string) (ls ls' : list line) b b' (x x' : pexp),
  reads_as x x' -> put_in compile x x' (LA ls) (LA ls') ->
  build compile fuel name ls = ROk b -> build compile fuel' name ls' = ROk b' ->
  in_words compile name ls -> in_words compile name ls' -> only_texts compile name ls -> only_texts compile name ls' ->
  forall o rx cb cbf text e, (forall re, rx_ok (rx re)) -> (forall c, cb_keeps (mk_env (gram_of b) o rx cb) cbf c) ->
  (forall c, cb_keeps (mk_env (gram_of b') o rx cb) cbf c) -> po_debug o = false ->
  reads_to compile name ls rx stack_limit text e \/ reads_to compile name ls' rx stack_limit text e ->
  exists fuel0, forall f, fuel0 <= f -> takes text e (fst (parse_string f (gram_of b) o rx cb text)) /\
    takes text e (fst (parse_string f (gram_of b') o rx cb text)).
Proof. exact as_parse. Qed.
Print Assumptions C118_same_texts.
(** Any number of something, and then one more, is nothing. *)
Theorem C118_greedy : forall (rules : string -> option pexp) rx text depth a l p e,
  ~ rd rules rx text depth (RNode (seq (star a :: a :: l))) p (Some e).
Proof. exact never_star. Qed.
Print Assumptions C118_greedy.

Definition two_lines (s : string) : list line := [LO "" (LS (s2b s)) no_opts; LI "N" (LS (s2b "'x' | 'y'")) no_opts].
Lemma two_put s s' x x' : calc_compile (s2b s) = ROk x -> calc_compile (s2b s') = ROk x' ->
  put_in calc_compile x x' (LA (two_lines s)) (LA (two_lines s')).
Proof.
  intros H1 H2. apply (pi_rank _ _ _ [] _ _ [LI "N" (LS (s2b "'x' | 'y'")) no_opts]). apply pi_o. eapply pi_text; [exact H1|exact H2|]. apply put_here.
Qed.
Example C118_ex : exists a b c d,
  calc_compile (s2b "N 'b' | N 'c'") = ROk a /\ calc_compile (s2b "N ('b' | 'c')") = ROk b /\ reads_as a b /\
  calc_compile (s2b "N N* 'b'") = ROk c /\ calc_compile (s2b "N+ 'b'") = ROk d /\ reads_as c d.
Proof.
  set (N := PExp "" (KRef "N")). set (B := PExp "" (KStr [98%N])). set (C := PExp "" (KStr [99%N])).
  exists (alts [seq [N; B]; seq [N; C]]), (seq [N; alts [B; C]]), (seq [N; star N; B]), (seq [plus N; B]).
  split; [vm_compute; reflexivity|]. split; [vm_compute; reflexivity|]. split; [|split; [vm_compute; reflexivity|split; [vm_compute; reflexivity|]]].
  - eapply ra_then; [exact (ra_law _ _ _ _ (rl_front [] [N] [B] [C] []) (put_here _ _))|]. cbn [app].
    eapply ra_then; [exact (ra_law _ _ _ _ (rl_alt_one _) (put_here _ _))|].
    eapply ra_then; [exact (ra_law _ _ _ _ (rl_seq_one B) (put_seq _ _ "" "" TSingle TSingle [N] _ _ [] (put_choice _ _ "" "" [] _ _ [seq [C]] (put_here _ _))))|].
    exact (ra_law _ _ _ _ (rl_seq_one C) (put_seq _ _ "" "" TSingle TSingle [N] _ _ [] (put_choice _ _ "" "" [B] _ _ [] (put_here _ _)))).
  - eapply ra_then; [exact (ra_law _ _ _ _ (rl_back _ _ (rl_group [] [N; star N] [B])) (put_here _ _))|].
    exact (ra_law _ _ _ _ (rl_plus N) (put_seq _ _ _ _ _ _ [] _ _ [B] (put_here _ _))).
Qed.
Example C118_nonvacuous :
  let one := two_lines "N 'b' | N 'c'" in let two := two_lines "N ('b' | 'c')" in
  in_words calc_compile "g" one /\ in_words calc_compile "g" two /\ only_texts calc_compile "g" one /\ only_texts calc_compile "g" two /\
  (exists b, build calc_compile 300 "g" one = ROk b) /\ (exists b, build calc_compile 300 "g" two = ROk b) /\
  reads_to calc_compile "g" one calc_rx stack_limit (s2b "yc") (Some 2) /\ reads_to calc_compile "g" two calc_rx stack_limit (s2b "y") None.
Proof.
  split; [apply words_checked; vm_compute; reflexivity|]. split; [apply words_checked; vm_compute; reflexivity|].
  assert (H1 : only_texts calc_compile "g" (two_lines "N 'b' | N 'c'")) by (apply texts_checked; vm_compute; reflexivity).
  assert (H2 : only_texts calc_compile "g" (two_lines "N ('b' | 'c')")) by (apply texts_checked; vm_compute; reflexivity).
  split; [exact H1|]. split; [exact H2|]. split; [eexists; vm_compute; reflexivity|]. split; [eexists; vm_compute; reflexivity|].
  split.
  - apply (said_reads _ _ _ calc_rx (fun _ _ v => Some (Some v)) stack_limit (s2b "yc") (Some (VStr (s2b "y"), 2)) H1). exists 60. vm_compute. reflexivity.
  - apply (said_reads _ _ _ calc_rx (fun _ _ v => Some (Some v)) stack_limit (s2b "y") None H2). exists 60. vm_compute. reflexivity.
Qed.

(** C119: an optional beginning is not the two alternatives with it and without
    it, and writing a common beginning once keeps the texts, not the values.
    What ParseString gives: a string, an array, a parse error. *)
Inductive given := GStr (s : bytes) | GArr (n : nat) | GErr.
Definition gives (s : string) (text : string) : option given :=
  match build calc_compile 300 "g" (two_lines s) with
  | ROk b =>
      match fst (parse_string 300 (gram_of b) mute no_rx no_cb (s2b text)) with
      | Ok (Some (AErr _)) _ => Some GErr
      | Ok (Some (AStr x)) _ => Some (GStr x)
      | Ok (Some (AArr l)) _ => Some (GArr (length l))
      | _ => None
      end
  | _ => None
  end.
Theorem C119_optional_refuted : exists s s' a b text v,
  calc_compile (s2b s) = ROk (seq [opt a; b]) /\ calc_compile (s2b s') = ROk (alts [seq [a; b]; b]) /\
  gives s text = Some GErr /\ gives s' text = Some (GStr v).
Proof.
  exists "'x'? 'xy'"%string, "'x' 'xy' | 'xy'"%string. eexists _, _, "xy"%string, _.
  split; [vm_compute; reflexivity|]. split; [vm_compute; reflexivity|]. split; vm_compute; reflexivity.
Qed.
Print Assumptions C119_optional_refuted.
Theorem C119_values_refuted : exists s s' a b c text v n,
  calc_compile (s2b s) = ROk (alts [seq [a; b]; seq [a; c]]) /\ calc_compile (s2b s') = ROk (seq [a; alts [b; c]]) /\
  gives s text = Some (GArr n) /\ gives s' text = Some (GStr v).
Proof.
  exists "N 'b' | N N"%string, "N ('b' | N)"%string. eexists _, _, _, "xx"%string, _, _.
  split; [vm_compute; reflexivity|]. split; [vm_compute; reflexivity|]. split; vm_compute; reflexivity.
Qed.
Print Assumptions C119_values_refuted.
