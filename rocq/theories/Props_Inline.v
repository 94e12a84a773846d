(** Properties C123 and C124: writing a rule out where it is referred to. *)
From Verif Require Import Base Helpers Utf8 Stream StreamSpec Native NativeSpec Engine EngSpec EngInv Peg PegRep PegBody PegStd RunSpec
  Build BuildSpec Joeson JoesonRun Calc CalcRun MeansSpec MeansRun BuildLines ReadsSpec Reads Inline Toy.
Local Open Scope list_scope.

(** C123: the lines read the same, with rules nested at most as deep; back, they
    may be nested deeper. *)
Theorem C123_reads : forall (compile : bytes -> res pexp) (name lb nm : string) (ls ls' : list line) (x e' : pexp),
  rules_read compile (decls name ls) nm = Some x -> e_kind x = e_kind e' -> put_in compile (PExp lb (KRef nm)) e' (LA ls) (LA ls') ->
  forall rx depth text r, reads_to compile name ls rx depth text r -> reads_to compile name ls' rx depth text r.
Proof. exact inline_reads. Qed.
Print Assumptions C123_reads.
Theorem C123_back : forall (compile : bytes -> res pexp) (name lb nm : string) (ls ls' : list line) (x e' : pexp),
  rules_read compile (decls name ls) nm = Some x -> e_kind x = e_kind e' -> put_in compile (PExp lb (KRef nm)) e' (LA ls) (LA ls') ->
  forall rx depth text r, reads_to compile name ls' rx depth text r -> exists depth', reads_to compile name ls rx depth' text r.
Proof. exact inline_back. Qed.
Print Assumptions C123_back.
Theorem C123_same_texts : forall (compile : bytes -> res pexp) (fuel fuel' : nat) (name lb nm : string) (ls ls' : list line) (x e' : pexp) b b',
  rules_read compile (decls name ls) nm = Some x -> e_kind x = e_kind e' -> put_in compile (PExp lb (KRef nm)) e' (LA ls) (LA ls') ->
  build compile fuel name ls = ROk b -> build compile fuel' name ls' = ROk b' ->
  in_words compile name ls -> in_words compile name ls' -> only_texts compile name ls -> only_texts compile name ls' ->
  forall o rx cb cbf text e, (forall re, rx_ok (rx re)) -> (forall c, cb_keeps (mk_env (gram_of b) o rx cb) cbf c) ->
  (forall c, cb_keeps (mk_env (gram_of b') o rx cb) cbf c) -> po_debug o = false ->
  reads_to compile name ls rx stack_limit text e ->
  exists fuel0, forall f, fuel0 <= f -> takes text e (fst (parse_string f (gram_of b) o rx cb text)) /\
    takes text e (fst (parse_string f (gram_of b') o rx cb text)).
Proof. exact inline_parse. Qed.
Print Assumptions C123_same_texts.

(** A rule that refers to itself, written out once inside itself. *)
Definition nested (s : string) : list line := [LO "" (LS (s2b "N 'c'")) no_opts; LI "N" (LS (s2b s)) no_opts].
Definition once_a : list line := nested "'a' N 'b' | 'x'".
Definition once_b : list line := nested "'a' ('a' N 'b' | 'x') 'b' | 'x'".
Example C123_ex : exists x, rules_read calc_compile (decls "g" once_a) "N" = Some x /\ put_in calc_compile (PExp "" (KRef "N")) x (LA once_a) (LA once_b).
Proof.
  eexists. split; [vm_compute; reflexivity|].
  apply (pi_rank _ _ _ [_] _ _ []). apply pi_i. eapply pi_text; [vm_compute; reflexivity|vm_compute; reflexivity|].
  exact (put_choice _ _ "" "" [] _ _ [_] (put_seq _ _ "" "" TSingle TSingle [_] _ _ [_] (put_here _ _))).
Qed.
Example C123_nonvacuous :
  in_words calc_compile "g" once_a /\ in_words calc_compile "g" once_b /\ only_texts calc_compile "g" once_a /\ only_texts calc_compile "g" once_b /\
  (exists b, build calc_compile 300 "g" once_a = ROk b) /\ (exists b, build calc_compile 300 "g" once_b = ROk b) /\
  reads_to calc_compile "g" once_a calc_rx stack_limit (s2b "aaxbbc") (Some 6) /\ reads_to calc_compile "g" once_a calc_rx stack_limit (s2b "aaxbc") None.
Proof.
  split; [apply words_checked; vm_compute; reflexivity|]. split; [apply words_checked; vm_compute; reflexivity|].
  assert (H1 : only_texts calc_compile "g" once_a) by (apply texts_checked; vm_compute; reflexivity).
  split; [exact H1|]. split; [apply texts_checked; vm_compute; reflexivity|]. split; [eexists; vm_compute; reflexivity|]. split; [eexists; vm_compute; reflexivity|].
  split.
  - assert (H : exists v, said calc_compile "g" once_a calc_rx (fun _ _ v => Some (Some v)) stack_limit (s2b "aaxbbc") (Some (v, 6))) by (eexists; exists 60; vm_compute; reflexivity).
    destruct H as [v H]. exact (said_reads _ _ _ calc_rx (fun _ _ v => Some (Some v)) stack_limit (s2b "aaxbbc") (Some (v, 6)) H1 H).
  - apply (said_reads _ _ _ calc_rx (fun _ _ v => Some (Some v)) stack_limit (s2b "aaxbc") None H1). exists 60. vm_compute. reflexivity.
Qed.

(** C124: the texts, not the values: a reference is captured, what it stands for
    may not be. *)
Inductive given := GStr (s : bytes) | GUndef.
Definition gives (s : string) (text : string) : option given :=
  match build calc_compile 300 "g" [LO "" (LS (s2b s)) no_opts; LI "N" (LS (s2b "'x' | 'y'")) no_opts] with
  | ROk b =>
      match fst (parse_string 300 (gram_of b) mute no_rx no_cb (s2b text)) with
      | Ok (Some (AStr x)) _ => Some (GStr x)
      | Ok (Some AUndef) _ => Some GUndef
      | _ => None
      end
  | _ => None
  end.
Theorem C124_values_refuted : exists s s' x lb' k b text v,
  calc_compile (s2b s) = ROk (seq [PExp "" (KRef "N"); b]) /\ calc_compile (s2b s') = ROk (seq [PExp lb' k; b]) /\
  rules_read calc_compile (decls "g" [LO "" (LS (s2b s)) no_opts; LI "N" (LS (s2b "'x' | 'y'")) no_opts]) "N" = Some x /\ e_kind x = k /\
  gives s text = Some (GStr v) /\ gives s' text = Some GUndef.
Proof.
  exists "N 'b'"%string, "('x' | 'y') 'b'"%string. eexists _, _, _, _, "yb"%string, _.
  split; [vm_compute; reflexivity|]. split; [vm_compute; reflexivity|]. split; [vm_compute; reflexivity|]. split; [reflexivity|]. split; vm_compute; reflexivity.
Qed.
Print Assumptions C124_values_refuted.
