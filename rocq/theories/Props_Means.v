(** Theorems on what the lines of a grammar mean. *)
From Verif Require Import Base Helpers Utf8 Stream StreamSpec Native Engine EngSpec EngInv Peg PegRep PegBody PegStd RunSpec
  Build BuildSpec Joeson JoesonSpec JoesonRun Calc CalcRun CalcSpec CalcPeg CalcMain MeansSpec Means MeansLaws MeansRun.

(** ** The lines are the meaning *)

(** The textbook outcomes of a grammar made from lines are those of the lines
    themselves: each text read as written, each name meaning the rule declared
    under it. *)
Theorem C70_meaning compile fuel name ls b : build compile fuel name ls = ROk b -> in_words compile name ls ->
  forall o rx cb cbf text r,
  textbook (mk_env (gram_of b) o rx cb) cbf text (g_rank (gram_of b)) 0 r <-> said compile name ls rx cbf stack_limit text r.
Proof. exact (built_said compile fuel name ls b). Qed.
Print Assumptions C70_meaning.

(** What the lines answer, ParseString answers, given fuel. *)
Theorem C70_answers compile fuel name ls b : build compile fuel name ls = ROk b -> in_words compile name ls ->
  forall o rx cb cbf text r, (forall re, rx_ok (rx re)) -> (forall c, cb_keeps (mk_env (gram_of b) o rx cb) cbf c) -> po_debug o = false ->
  said compile name ls rx cbf stack_limit text r ->
  exists fuel0, forall f, fuel0 <= f -> answer text r (fst (parse_string f (gram_of b) o rx cb text)).
Proof. exact (parses_as_said compile fuel name ls b). Qed.
Print Assumptions C70_answers.

(** The calculator, whose texts are compiled with the joeson grammar. *)
Example C70_ex : build calc_compile 300 "calc" calc_lines = ROk calc /\ in_words calc_compile "calc" calc_lines /\
  (forall re, rx_ok (calc_rx re)) /\ (forall o c, cb_keeps (mk_env (gram_of calc) o calc_rx calc_cb) (calc_cbf None) c) /\
  said calc_compile "calc" calc_lines calc_rx (calc_cbf None) stack_limit (s2b "2*(3+4)") (Some (VInt 14, 7)) /\
  said calc_compile "calc" calc_lines calc_rx (calc_cbf None) stack_limit (s2b "+1") None.
Proof.
  split; [exact calc_eq|]. split; [exact calc_words|]. split; [exact calc_rx_ok|]. split; [intros o c; by apply calc_keeps|].
  split; exists 60; vm_compute; reflexivity.
Qed.

(** ** The order of the i-lines *)

(** i-lines may stand anywhere in the tree of ranks. *)
Theorem C71_order compile name ls ls' : moved ls ls' -> names_once ls' -> in_words compile name ls ->
  in_words compile name ls' /\ forall rx cbf depth text r,
  said compile name ls rx cbf depth text r <-> said compile name ls' rx cbf depth text r.
Proof.
  exact (fun Hm Hn Hw => conj (moved_words compile name ls ls' Hm Hw Hn)
    (fun rx cbf depth text r => moved_said compile name ls ls' rx cbf depth text r Hm (iw_names _ _ _ Hw))).
Qed.
Print Assumptions C71_order.

(** ParseString of both grammars gives what the lines answer. *)
Theorem C71_answers compile fuel fuel' name ls ls' b b' : moved ls ls' -> names_once ls' ->
  build compile fuel name ls = ROk b -> build compile fuel' name ls' = ROk b' -> in_words compile name ls ->
  forall o rx cb cbf text r, (forall re, rx_ok (rx re)) -> (forall c, cb_keeps (mk_env (gram_of b) o rx cb) cbf c) -> po_debug o = false ->
  said compile name ls rx cbf stack_limit text r ->
  exists fuel0, forall f, fuel0 <= f -> answer text r (fst (parse_string f (gram_of b) o rx cb text)) /\
    answer text r (fst (parse_string f (gram_of b') o rx cb text)).
Proof. exact (moved_answers compile fuel fuel' name ls ls' b b'). Qed.
Print Assumptions C71_answers.

(** The calculator with the rules [_] and [Integer] first: another table. *)
Example C71_ex : moved calc_lines calc_moved /\ names_once calc_moved /\ d_name <$> decls "calc" calc_moved = ["_"; "Integer"; "Term"; "Factor"; "AddOp"; "MulOp"; "Expr"]%string /\
  exists b', build calc_compile 300 "calc" calc_moved = ROk b' /\ snd b' <> snd calc.
Proof.
  split; [exact calc_has_moved|]. split; [apply (bool_decide_unpack _); vm_compute; exact I|]. split; [vm_compute; reflexivity|]. eexists. split; [vm_compute; reflexivity|]. by vm_compute.
Qed.

(** An i-line moved into the rank that uses it. *)
Definition outside : list line := [i_s "A" "'a'"; LO "R" (LA [o_s "A"; o_s "'b'"]) no_opts].
Definition moved_inside : list line := [LO "R" (LA [i_s "A" "'a'"; o_s "A"; o_s "'b'"]) no_opts].
Example C71_inside : moved outside moved_inside /\ in_words calc_compile "g" outside /\ names_once moved_inside /\
  (exists b, build calc_compile 300 "g" outside = ROk b) /\ (exists b, build calc_compile 300 "g" moved_inside = ROk b) /\
  said calc_compile "g" moved_inside calc_rx (calc_cbf None) stack_limit (s2b "a") (Some (VStr (s2b "a"), 1)).
Proof.
  split; [apply mv_into_o|]. split; [apply words_checked; vm_compute; reflexivity|]. split; [apply (bool_decide_unpack _); vm_compute; exact I|].
  split; [eexists; vm_compute; reflexivity|]. split; [eexists; vm_compute; reflexivity|]. exists 60. vm_compute. reflexivity.
Qed.

(** ** Ranks and choices *)

(** A rank of texts means the choice of the texts.  The rank nests one rule more,
    so it may need twice the depth. *)
Theorem C72_rank compile fuel' name ls ls' b' : flattened compile ls ls' -> build compile fuel' name ls' = ROk b' ->
  in_words compile name ls -> in_words compile name ls' -> no_new_names compile name ls ls' ->
  forall rx cbf depth text r,
  (said compile name ls rx cbf depth text r -> said compile name ls' rx cbf depth text r) /\
  (said compile name ls' rx cbf depth text r -> said compile name ls rx cbf (2 * depth) text r).
Proof. exact (fun Hf Hb H1 H2 H3 => flattened_said compile fuel' name ls ls' b' Hb H1 H2 H3 Hf). Qed.
Print Assumptions C72_rank.

(** ParseString of both grammars gives what the lines with the choice answer. *)
Theorem C72_answers compile fuel fuel' name ls ls' b b' : flattened compile ls ls' ->
  build compile fuel name ls = ROk b -> build compile fuel' name ls' = ROk b' ->
  in_words compile name ls -> in_words compile name ls' -> no_new_names compile name ls ls' ->
  forall o rx cb cbf text r, (forall re, rx_ok (rx re)) -> (forall c, cb_keeps (mk_env (gram_of b) o rx cb) cbf c) -> po_debug o = false ->
  said compile name ls rx cbf stack_limit text r \/ (exists depth, 2 * depth <= stack_limit /\ said compile name ls' rx cbf depth text r) ->
  exists fuel0, forall f, fuel0 <= f -> answer text r (fst (parse_string f (gram_of b) o rx cb text)) /\
    answer text r (fst (parse_string f (gram_of b') o rx cb text)).
Proof. exact (flattened_answers compile fuel fuel' name ls ls' b b'). Qed.
Print Assumptions C72_answers.

(** The calculator with [AddOp] written as a rank. *)
Example C72_ex : flattened calc_compile calc_rank calc_lines /\ in_words calc_compile "calc" calc_rank /\
  in_words calc_compile "calc" calc_lines /\ no_new_names calc_compile "calc" calc_rank calc_lines /\
  (exists b, build calc_compile 300 "calc" calc_rank = ROk b /\ length (snd b) = 9) /\ length (snd calc) = 7 /\
  said calc_compile "calc" calc_rank calc_rx (calc_cbf None) stack_limit (s2b "2*(3+4)") (Some (VInt 14, 7)).
Proof.
  split; [exact calc_flattened|]. split; [exact calc_rank_words|]. split; [exact calc_words|]. split; [exact calc_rank_names|].
  split; [eexists; split; vm_compute; reflexivity|]. split; [vm_compute; reflexivity|]. exists 60. vm_compute. reflexivity.
Qed.
