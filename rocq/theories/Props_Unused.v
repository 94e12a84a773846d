(** Property C122: rules that nothing refers to. *)
From Verif Require Import Base Helpers Utf8 Stream StreamSpec Native NativeSpec Engine EngSpec EngInv Peg PegRep PegBody PegStd RunSpec
  Build BuildSpec Joeson JoesonRun Calc CalcRun MeansSpec MeansRun ReadsSpec UnusedSpec Unused Toy.
Local Open Scope list_scope.

(** C122: the lines mean the same without them. *)
Theorem C122_said : forall (compile : bytes -> res pexp) (name : string) (ls ls' : list line) rx cbf depth text r,
  without_all ls ls' -> complete compile name ls' -> NoDup (d_name <$> decls name ls) ->
  said compile name ls rx cbf depth text r <-> said compile name ls' rx cbf depth text r.
Proof. exact unused_said. Qed.
Print Assumptions C122_said.
Theorem C122_answers : forall (compile : bytes -> res pexp) (fuel fuel' : nat) (name : string) (ls ls' : list line) b b',
  without_all ls ls' -> complete compile name ls' ->
  build compile fuel name ls = ROk b -> build compile fuel' name ls' = ROk b' -> in_words compile name ls -> in_words compile name ls' ->
  forall o rx cb cbf text r, (forall re, rx_ok (rx re)) -> (forall c, cb_keeps (mk_env (gram_of b) o rx cb) cbf c) ->
  (forall c, cb_keeps (mk_env (gram_of b') o rx cb) cbf c) -> po_debug o = false ->
  said compile name ls rx cbf stack_limit text r \/ said compile name ls' rx cbf stack_limit text r ->
  exists fuel0, forall f, fuel0 <= f -> answer text r (fst (parse_string f (gram_of b) o rx cb text)) /\
    answer text r (fst (parse_string f (gram_of b') o rx cb text)).
Proof. exact unused_answers. Qed.
Print Assumptions C122_answers.

(** Two rules that only refer to each other, one of them inside a rank. *)
Definition spare : list line :=
  [LO "Sum" (LA [LO "" (LS (s2b "x:Word '+' y:Sum")) no_opts; LI "Odd" (LS (s2b "'a' Even")) no_opts; LO "" (LS (s2b "Word")) no_opts]) no_opts;
   LI "Even" (LS (s2b "'a' Odd | 'b'")) no_opts; LI "Word" (LS (s2b "'a' | 'b'")) no_opts].
Definition trim : list line :=
  [LO "Sum" (LA [LO "" (LS (s2b "x:Word '+' y:Sum")) no_opts; LO "" (LS (s2b "Word")) no_opts]) no_opts;
   LI "Word" (LS (s2b "'a' | 'b'")) no_opts].
Example C122_ex : without_all spare trim /\ complete calc_compile "g" trim.
Proof.
  split; [|apply complete_checked; vm_compute; reflexivity].
  eapply wa_one; [eapply wa_one; [apply wa_none|]|].
  - exact (wo_rank [] _ _ _ (wo_o "Sum" _ _ no_opts (wo_here [_] "Odd" _ _ [_]))).
  - exact (wo_here [_] "Even" _ _ [_]).
Qed.
Example C122_nonvacuous :
  in_words calc_compile "g" spare /\ in_words calc_compile "g" trim /\
  (exists b, build calc_compile 300 "g" spare = ROk b) /\ (exists b, build calc_compile 300 "g" trim = ROk b) /\
  said calc_compile "g" spare calc_rx (fun _ _ v => Some (Some v)) stack_limit (s2b "a+b")
    (Some (VMap [("x"%string, VStr (s2b "a")); ("y"%string, VStr (s2b "b"))], 3)).
Proof.
  split; [apply words_checked; vm_compute; reflexivity|]. split; [apply words_checked; vm_compute; reflexivity|].
  split; [eexists; vm_compute; reflexivity|]. split; [eexists; vm_compute; reflexivity|]. exists 60. vm_compute. reflexivity.
Qed.
(** A rule that is still referred to cannot go: the lines are not complete. *)
Example C122_needed : complete_check calc_compile "g" [LO "" (LS (s2b "Word")) no_opts] = false.
Proof. vm_compute. reflexivity. Qed.
