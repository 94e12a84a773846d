(** Properties C114 and C115: which lines give a grammar. *)
From Verif Require Import Base Helpers Utf8 Stream Native Engine Build BuildSpec BuildWalk BuildPrep BuildMono BuildsSpec Builds BuildFuel Joeson JoesonRun Calc CalcRun.
Local Open Scope list_scope.

(** C114 *)
Theorem C114_built : forall (compile : bytes -> res pexp) (name : string) (ls : list line),
  rule_shape (LA ls) = true -> Forall (fun s => exists e, compile s = ROk e) (texts (LA ls)) ->
  names_once ls -> no_singles compile ls -> plain_labels compile ls -> name <> EmptyString ->
  exists fuel0 b, forall fuel, fuel0 <= fuel -> build compile fuel name ls = ROk b.
Proof. exact build_one. Qed.
Print Assumptions C114_built.

(** The fuel decides only whether there is an answer, not which. *)
Theorem C114_one_answer : forall (compile : bytes -> res pexp) (f f' : nat) (name : string) (ls : list line) b,
  names_once ls -> build compile f name ls = ROk b -> f <= f' -> build compile f' name ls = ROk b.
Proof. exact build_more. Qed.
Print Assumptions C114_one_answer.

(** The lines of the calculator. *)
Example C114_nonvacuous :
  rule_shape (LA calc_lines) = true /\ Forall (fun s => exists e, calc_compile s = ROk e) (texts (LA calc_lines)) /\
  length (texts (LA calc_lines)) = 7 /\
  names_once calc_lines /\ no_singles calc_compile calc_lines /\ plain_labels calc_compile calc_lines.
Proof.
  split; [vm_compute; reflexivity|]. split; [apply compiles_all; vm_compute; reflexivity|].
  split; [vm_compute; reflexivity|]. exact (conj calc_names_once (conj calc_no_singles calc_plain)).
Qed.

(** C115: two i-lines of the same name, and a rule that takes its own labels. *)
Definition any_compile : bytes -> res pexp := compile_with (fun _ => true) 300 (gram_of hand).
Definition dup_lines : list line :=
  [LI "A" (LS (s2b "'x' 'y'")) no_opts; LI "A" (LS (s2b "'y' 'z'")) no_opts; LO "" (LS (s2b "A")) no_opts].
Theorem C115_twice_refuted : exists ls, rule_shape (LA ls) = true /\
  Forall (fun s => exists e, any_compile s = ROk e) (texts (LA ls)) /\
  build any_compile 100 "g" ls = RPanic (PMsg "Grammar tree should be a DAG, nodes should not be referenced more than once.").
Proof.
  exists dup_lines. split; [done|]. split; [|vm_compute; reflexivity].
  apply compiles_all; vm_compute; reflexivity.
Qed.
Print Assumptions C115_twice_refuted.

Definition own_lines : list line := [LI "X" (LS (s2b "@:X b:'y'")) no_opts; LO "" (LS (s2b "X")) no_opts].
Definition own_x : pn :=
  Pn (PInfo "X" "" true false false no_opts) []
    (KSeq TSingle [Pn (PInfo "" "@" false false false no_opts) [] (KRef "X"); Pn (PInfo "" "b" false false false no_opts) [] (KStr (s2b "y"))]).
Definition own_rank : pn :=
  Pn (PInfo "g" "" false false true no_opts) [("X"%string, own_x)] (KChoice [Pn (PInfo "g[0]" "" true false false no_opts) [] (KRef "X")]).
Lemma own_rank_eq : rank_from_lines any_compile "g" own_lines = ROk own_rank.
Proof. vm_compute. reflexivity. Qed.
Lemma own_labels regs v s : last_of regs "X" = Some v -> v_node v = own_x -> ps_labels s (v_path v) = None ->
  ps_labels s (SKid 0 :: v_path v) = None -> ps_label s (SKid 0 :: v_path v) = None ->
  forall f, get_labels regs f (v_path v) own_x s = RFuel.
Proof.
  intros Hl Hn H1 H2 H3. assert (forall f, get_labels regs f (v_path v) own_x s = RFuel /\ get_labels regs (S f) (v_path v) own_x s = RFuel) as H.
  { induction f as [|f [IH1 IH2]].
    - split; [done|]. rewrite get_labels_eq, H1. done.
    - split; [done|]. rewrite get_labels_eq, H1. unfold own_x at 1. cbn [pn_kind labels_go]. rewrite get_labels_eq, H2. cbn [pn_kind].
      unfold label_at. rewrite H3. cbn -[get_labels]. rewrite Hl, Hn, IH1. done. }
  intros f. apply H.
Qed.
(** Whatever the fuel, there is no grammar: the labels of X never end. *)
Theorem C115_own_labels_refuted : exists ls, rule_shape (LA ls) = true /\
  Forall (fun s => exists e, any_compile s = ROk e) (texts (LA ls)) /\ names_once ls /\ no_singles any_compile ls /\
  forall fuel, build any_compile fuel "g" ls = RFuel.
Proof.
  exists own_lines. split; [done|]. split.
  { apply compiles_all; vm_compute; reflexivity. }
  split; [apply (bool_decide_unpack _); vm_compute; exact I|]. split.
  { split; [|constructor]. repeat (apply List.Forall_cons; [intros e He; vm_compute in He; injection He as <-; reflexivity|]). apply List.Forall_nil. }
  intros fuel. unfold build. rewrite own_rank_eq. cbn [rbind]. unfold postinit.
  assert (optimize own_rank = own_rank) as -> by (vm_compute; reflexivity).
  set (x := Visit [SRule 0] (handles false own_rank) own_x).
  set (a := Visit [SKid 0] (handles false own_rank) (Pn (PInfo "g[0]" "" true false false no_opts) [] (KRef "X"))).
  assert (exists cn, connect (Conn [] []) (walk [] false own_rank) = ROk cn /\ cn_regs cn = [("X"%string, x); ("g[0]"%string, a)]) as (cn & -> & Hcn)
    by (eexists; split; vm_compute; reflexivity).
  cbn [rbind]. rewrite Hcn.
  destruct (prepare_all _ fuel _ pst0) as [ps| |] eqn:Hps.
  - cbn [rbind]. assert (forall p, ps_labels ps p = None /\ ps_label ps p = None) as Hnone.
    { vm_compute in Hps. injection Hps as <-. done. }
    pose proof (own_labels [("X"%string, x); ("g[0]"%string, a)] x ps eq_refl eq_refl
      (proj1 (Hnone _)) (proj1 (Hnone _)) (proj2 (Hnone _)) fuel) as HL.
    assert (types [("X"%string, x); ("g[0]"%string, a)] fuel ps (walk [] false own_rank) = RFuel) as ->; [|done].
    transitivity (let* _ := seq_type [("X"%string, x); ("g[0]"%string, a)] fuel ps [SRule 0] own_x in ROk tt); [reflexivity|].
    unfold seq_type. cbn [v_path x] in HL. by rewrite HL.
  - vm_compute in Hps. done.
  - done.
Qed.
Print Assumptions C115_own_labels_refuted.
