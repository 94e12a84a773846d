(** The joeson grammar compiles itself. *)
From Verif Require Import Base Helpers Utf8 Stream Native Engine Build Joeson JoesonSpec JoesonRun.

(** Compiling the textual rules with the hand-compiled grammar gives the 35
    rules of the hand-compiled grammar: the same names, ids, parser trees,
    labels, captures, callbacks.  Compiling them with the result gives the
    result again. *)
Theorem C47_self_compile : exists h t : built,
  joeson_built = ROk h /\
  compiled_by h 300 joeson_name intention_rules = ROk t /\
  compiled_by t 300 joeson_name intention_rules = ROk t /\
  unmarked_built t = unmarked_built h /\
  length (snd h) = 35 /\
  (forall i nm n, snd t !! i = Some (nm, n) ->
     i_name (n_info n) = nm /\ i_id (n_info n) = i /\ g_rule (gram_of t) nm = Some n).
Proof.
  exists hand, text. split; [exact hand_eq|]. split; [exact text_eq|]. split; [exact text_fixed|].
  split; [exact text_hand|]. split; [done|]. intros i nm n Hi.
  pose proof text_numbered as HW. unfold well_numbered in HW. rewrite forallb_forall in HW.
  specialize (HW i). rewrite Hi in HW. apply lookup_lt_Some in Hi as Hl.
  apply andb_prop in HW as [H1 H2]; [|apply in_seq; lia].
  apply String.eqb_eq in H1. apply Nat.eqb_eq in H2. split; [done|]. split; [done|].
  eapply last_of_nodup; [|exact Hi]. apply (bool_decide_unpack _). vm_compute. done.
Qed.
Print Assumptions C47_self_compile.

(** The two differ in memoisation only: rules given to [I] as parsers under a
    name are memoised when they come from text, not when they come from Go. *)
Theorem C47_memo_differs : exists nm (h t : node),
  g_rule (gram_of hand) nm = Some h /\ g_rule (gram_of text) nm = Some t /\
  i_isrule (n_info h) = false /\ i_isrule (n_info t) = true.
Proof. exists "LABEL"%string. eexists. eexists. split; [vm_compute; reflexivity|]. split; [vm_compute; reflexivity|]. done. Qed.
Print Assumptions C47_memo_differs.
