(** Properties C120 and C121: the names of rules. *)
From Verif Require Import Base Helpers Utf8 Stream StreamSpec Native NativeSpec Engine EngSpec EngInv Peg PegRep PegBody PegStd RunSpec
  Build BuildSpec Joeson JoesonRun Calc CalcRun MeansSpec MeansRun RenameSpec Rename Toy.
Local Open Scope list_scope.

(** C120: the lines mean the same under other names. *)
Theorem C120_said : forall (compile : bytes -> res pexp) (name : string) (ls : list line) (name' : string) (ls' : list line) rx cbf depth text r,
  renamed_lines compile name ls name' ls' -> NoDup (d_name <$> decls name ls) -> NoDup (d_name <$> decls name' ls') ->
  said compile name ls rx cbf depth text r <-> said compile name' ls' rx cbf depth text r.
Proof. exact renamed_said. Qed.
Print Assumptions C120_said.
Theorem C120_answers : forall (compile : bytes -> res pexp) (fuel fuel' : nat) (name : string) (ls : list line) (name' : string) (ls' : list line) b b',
  renamed_lines compile name ls name' ls' ->
  build compile fuel name ls = ROk b -> build compile fuel' name' ls' = ROk b' -> in_words compile name ls -> in_words compile name' ls' ->
  forall o rx cb cbf text r, (forall re, rx_ok (rx re)) -> (forall c, cb_keeps (mk_env (gram_of b) o rx cb) cbf c) ->
  (forall c, cb_keeps (mk_env (gram_of b') o rx cb) cbf c) -> po_debug o = false ->
  said compile name ls rx cbf stack_limit text r \/ said compile name' ls' rx cbf stack_limit text r ->
  exists fuel0, forall f, fuel0 <= f -> answer text r (fst (parse_string f (gram_of b) o rx cb text)) /\
    answer text r (fst (parse_string f (gram_of b') o rx cb text)).
Proof. exact renamed_answers. Qed.
Print Assumptions C120_answers.

(** Sums of letters: a rank with lines without a name of their own, which are
    called after the rank. *)
Definition sums_a : list line :=
  [LO "Sum" (LA [LO "" (LS (s2b "x:Word '+' y:Sum")) no_opts; LO "" (LS (s2b "'(' Word _Blank ')'")) no_opts]) no_opts;
   LI "Word" (LS (s2b "'a' | 'b'")) no_opts; LI "_Blank" (LS (s2b "' '*")) no_opts].
Definition sums_b : list line :=
  [LO "Total" (LA [LO "" (LS (s2b "x:L '+' y:Total")) no_opts; LO "" (LS (s2b "'(' L _B ')'")) no_opts]) no_opts;
   LI "L" (LS (s2b "'a' | 'b'")) no_opts; LI "_B" (LS (s2b "' '*")) no_opts].
Example C120_ex : renamed_lines calc_compile "g" sums_a "h" sums_b.
Proof.
  assert (HW : stands_for "g" sums_a "h" sums_b "Word" "L") by (exists 0; eexists _, _; vm_compute; repeat split).
  assert (HB : stands_for "g" sums_a "h" sums_b "_Blank" "_B") by (exists 1; eexists _, _; vm_compute; repeat split).
  assert (HS : stands_for "g" sums_a "h" sums_b "Sum" "Total") by (exists 4; eexists _, _; vm_compute; repeat split).
  apply rn_rank. apply Forall2_cons. split; [apply rn_o, rn_rank; apply Forall2_cons; split; [|apply Forall2_cons; split; [|apply Forall2_nil; done]]|
    apply Forall2_cons; split; [|apply Forall2_cons; split; [|apply Forall2_nil; done]]].
  - apply rn_o. eapply rn_text; [vm_compute; reflexivity|vm_compute; reflexivity|]. apply rn_node; [exact I|]. apply sk_seq.
    apply Forall2_cons. split; [by apply rn_ref|]. apply Forall2_cons. split; [apply rn_node; [exact I|constructor]|]. apply Forall2_cons. split; [by apply rn_ref|]. by apply Forall2_nil.
  - apply rn_o. eapply rn_text; [vm_compute; reflexivity|vm_compute; reflexivity|]. apply rn_node; [exact I|]. apply sk_seq.
    apply Forall2_cons. split; [apply rn_node; [exact I|constructor]|]. apply Forall2_cons. split; [by apply rn_ref|]. apply Forall2_cons. split; [by apply rn_ref|].
    apply Forall2_cons. split; [apply rn_node; [exact I|constructor]|]. by apply Forall2_nil.
  - apply rn_i. eapply rn_text; [vm_compute; reflexivity|vm_compute; reflexivity|]. apply rn_node; [exact I|]. apply sk_choice.
    apply Forall2_cons. split; [apply rn_node; [exact I|constructor]|]. apply Forall2_cons. split; [apply rn_node; [exact I|constructor]|]. by apply Forall2_nil.
  - apply rn_i. eapply rn_text; [vm_compute; reflexivity|vm_compute; reflexivity|]. apply rn_node; [exact I|]. apply sk_pat; [apply rn_node; [exact I|constructor]|constructor].
Qed.
Example C120_nonvacuous :
  in_words calc_compile "g" sums_a /\ in_words calc_compile "h" sums_b /\
  (exists b, build calc_compile 300 "g" sums_a = ROk b) /\ (exists b, build calc_compile 300 "h" sums_b = ROk b) /\
  said calc_compile "g" sums_a calc_rx (fun _ _ v => Some (Some v)) stack_limit (s2b "a+(b )")
    (Some (VMap [("x"%string, VStr (s2b "a")); ("y"%string, VStr (s2b "b"))], 6)).
Proof.
  split; [apply words_checked; vm_compute; reflexivity|]. split; [apply words_checked; vm_compute; reflexivity|].
  split; [eexists; vm_compute; reflexivity|]. split; [eexists; vm_compute; reflexivity|]. exists 60. vm_compute. reflexivity.
Qed.

(** C121: an underscore in front of the name takes the value away. *)
Definition twice (nm : string) : list line := [LO "" (LS (s2b (nm ++ " " ++ nm))) no_opts; LI nm (LS (s2b "'a' | 'b'")) no_opts].
Definition how_many (nm : string) (text : string) : option nat :=
  match build calc_compile 300 "g" (twice nm) with
  | ROk b =>
      match fst (parse_string 300 (gram_of b) mute no_rx no_cb (s2b text)) with
      | Ok (Some (AArr l)) _ => Some (length l)
      | Ok (Some AUndef) _ => Some 0
      | _ => None
      end
  | _ => None
  end.
Theorem C121_underscore_refuted : exists nm nm' text, how_many nm text = Some 2 /\ how_many nm' text = Some 0.
Proof. exists "N"%string, "_N"%string, "ab"%string. split; vm_compute; reflexivity. Qed.
Print Assumptions C121_underscore_refuted.
