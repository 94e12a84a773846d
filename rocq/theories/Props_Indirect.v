(** Theorems on left recursion that goes through other rules. *)
From Verif Require Import Base Helpers Utf8 Stream StreamSpec Native Engine EngSpec EngInv Toy Peg PegProofs PegRep PegBody
  PegStd PegStdProofs RunSpec PegLaws PegRun Gives Build BuildSpec BuildMain Joeson JoesonRun Calc CalcRun CalcPeg LispRead Color
  IndirectSpec Indirect IndirectGram IndirectMain Props_Peg.
Local Open Scope list_scope.

(** C102: E: A1 | … | An | T with Ai: E opi Ti, the Ai rules of their own or not:
    the value of T, then what the arms make of it one after the other, as long as one
    of them can go on; the first arm that can is taken. *)
Theorem C102_arms : forall (E : env) (root : node) (c : code) cbf R par (s : st) (id : nat) (arms : list arm) (T : node),
  pure_grammar E root cbf -> lists_rules E root R -> parts_ok R par -> code_ok c -> c_pos c <= length (c_work c) ->
  after_parses E root c (meaning E cbf R par (c_work c)) s -> reach E root (R id) -> plain_rule R par id ->
  n_kind (R id) = KChoice (map arm_alt arms ++ [T]) -> i_label (n_info (R id)) = EmptyString -> i_cb (n_info (R id)) = None ->
  Forall (good_arm E cbf R par id) arms ->
  (forall v0 q0 fs e,
     apart E cbf R par (c_work c) id (st_pos s) T (st_pos s) (Some (v0, q0)) ->
     arm_run (apart E cbf R par (c_work c) id (st_pos s)) arms q0 fs e ->
     engine_gives E (R id) s (Some (fold_left (fun a f => f a) fs v0, e))) /\
  (apart E cbf R par (c_work c) id (st_pos s) T (st_pos s) None -> engine_gives E (R id) s None).
Proof.
  intros E root c cbf R par s id arms T H1 H2 H3 H4 H5 H6 H7 H8 H9 H10 H11 H12.
  assert (entry E root (R id)) as HEn by (split; [done|]; left; by destruct H8). split.
  - intros v0 q0 fs e HB HT. apply (meaning_run E root c cbf R par); try done. by eapply (indirect E cbf R par _ _ _ arms T).
  - intros HB. apply (meaning_run E root c cbf R par); try done. by eapply (indirect_fail E cbf R par _ _ _ arms T).
Qed.
Print Assumptions C102_arms.
(** The hypotheses can be met: the grammar below, with two arms. *)
Example C102_arms_example o cb R : po_debug o = false -> lists_rules (mk_env (gram_of ind) o ind_rx cb) i_top R ->
  let E := mk_env (gram_of ind) o ind_rx cb in
  pure_grammar E i_top no_cbf /\ parts_ok R ind_par /\ plain_rule R ind_par 3 /\
  n_kind (R 3) = KChoice (map arm_alt [arm1; arm2] ++ [i_ref "N"]) /\ Forall (good_arm E no_cbf R ind_par 3) [arm1; arm2] /\
  apart E no_cbf R ind_par (s2b "1-2+3") 3 0 (i_ref "N") 0 (Some (VStr (s2b "1"), 1)) /\
  arm_run (apart E no_cbf R ind_par (s2b "1-2+3") 3 0) [arm1; arm2] 1 [piece_fn (45, 50)%N; piece_fn (43, 51)%N] 5.
Proof.
  intros Ho HR E. split; [by apply ind_grammar|]. split; [exact (ind_parts o cb R HR)|]. split; [exact (E_plain o cb R HR)|].
  split; [by rewrite (R_E o cb R HR)|]. split; [exact (arms_good o cb R HR)|]. split.
  - exact (N_apart o cb R HR (s2b "1-2+3") true 0).
  - refine (run_pieces o cb R HR (s2b "1-2+3") [(45, 50); (43, 51)]%N [] _ _ 1 eq_refl); [|done].
    apply List.Forall_cons; [split; cbn; [by right|lia]|]. apply List.Forall_cons; [split; cbn; [by left|lia]|apply List.Forall_nil].
Qed.

(** E: Add | Sub | N, Add: E [+] N, Sub: E [-] N, N: [0-9] reads every sum of digits,
    nested to the left, and refuses every other text. *)
Theorem C102_sums o cb x s : po_debug o = false -> sums x s ->
  exists fuel0, forall fuel, fuel0 <= fuel -> exists s', fst (parse_string fuel (gram_of ind) o ind_rx cb s) = Ok (Some x) s'.
Proof. intros Ho. exact (ind_sums o Ho cb x s). Qed.
Print Assumptions C102_sums.
Theorem C102_others o cb s : po_debug o = false -> (forall x, ~ sums x s) -> exists fuel0, forall fuel, fuel0 <= fuel -> exists s',
  match s with
  | [] => fst (parse_string fuel (gram_of ind) o ind_rx cb s) = Ok None s'
  | _ => exists k, fst (parse_string fuel (gram_of ind) o ind_rx cb s) = Ok (Some (AErr k)) s' /\ k <= length s
  end.
Proof. intros Ho. exact (ind_other o Ho cb s). Qed.
Print Assumptions C102_others.
(** The grammar is the one that the lines are built to. *)
Theorem C102_built : build ind_compile 300 "gm" ind_lines = ROk ind /\ ind_rules = ROk <$> ind_lines.
Proof. exact (conj ind_eq ind_rules_ok). Qed.
Print Assumptions C102_built.
Example C102_sums_example : sums (AArr [AArr [AStr (s2b "1"); AStr (s2b "-"); AStr (s2b "2")]; AStr (s2b "+"); AStr (s2b "3")]) (s2b "1-2+3").
Proof.
  apply (sums_more (AArr [AStr (s2b "1"); AStr (s2b "-"); AStr (s2b "2")]) (s2b "1-2") 43 51); [|by left|lia].
  apply (sums_more (AStr (s2b "1")) (s2b "1") 45 50); [|by right|lia]. apply (sums_one 49). lia.
Qed.
Example C102_others_example : forall x, ~ sums x (s2b "1+").
Proof. intros x (d & l & _ & _ & E & _)%sums_pieces. destruct l as [|a l]; cbn in E; [done|]. injection E as _ _ E. by destruct (pieces_text l). Qed.

(** C103: where one alternative fails, a choice gives what the other one gives.  Not
    so if the first left the memory of a left recursion behind: with E: F '+' | 'n'
    and F: E '*' | 'f', the text n*w is read by F 'w', not by E 'q', and
    E 'q' | F 'w' refuses it. *)
Theorem C103_choice_partial : forall (E : env) (root : node) (c : code) cbf (s : st) (n A B : node) (r : result) (d : nat),
  pure_grammar E root cbf -> code_ok c -> c_pos c <= length (c_work c) ->
  after_parses E root c (textbook E cbf (c_work c)) s -> entry E root n -> is_rule n ->
  n_kind n = KChoice [A; B] -> i_label (n_info n) = EmptyString -> i_cb (n_info n) = None -> S d <= stack_limit ->
  (* both have an outcome without left recursion *)
  (exists f, std (e_rule E) (e_rx E) cbf (c_work c) f d A (st_pos s) = Some None) ->
  (exists f, std (e_rule E) (e_rx E) cbf (c_work c) f d B (st_pos s) = Some r) ->
  engine_gives E n s r.
Proof.
  intros E root c cbf s n A B r d H1 H2 H3 H4 H5 H6 H7 H8 H9 H10 [fa HA] [fb HB]. apply (textbook_run E root c cbf); try done.
  assert (forall f m x, std (e_rule E) (e_rx E) cbf (c_work c) f d m (st_pos s) = Some x -> Gives.gives (e_rule E) (e_rx E) cbf (c_work c) d m (st_pos s) x) as HS.
  { intros f m x H. exists f. intros f' Hf. exact (std_mono E cbf (fun _ => n) (c_work c) f f' d d m (st_pos s) x Hf (le_n _) H). }
  apply HS in HA. apply HS in HB.
  assert (Gives.gives (e_rule E) (e_rx E) cbf (c_work c) (S d) n (st_pos s) r) as HG.
  { apply gives_bare_rule; [by rewrite H7|done|by split; [|left]|]. eapply does_choice; [exact H7|]. apply alts_next; [done|].
    destruct r as [[v e]|]; [by apply alts_take|]. apply alts_next; [done|apply alts_nil]. }
  apply (Gives.gives_deeper _ _ _ _ _ stack_limit) in HG; [|done]. destruct HG as [f0 H]. exists f0. apply H. lia.
Qed.
Print Assumptions C103_choice_partial.
(** The grammar of C24: both alternatives of S begin with A; the first fails on abby. *)
Example C103_partial_example :
  let c := CRune (new_rune_stream (s2b "abby")) in
  let S1 := rule "S[0]" 1 (KSeq TArray [ref "A"; cstr "x"]) in
  let S2 := rule "S[1]" 2 (KSeq TArray [ref "A"; cstr "y"]) in
  let v := VArr [VMap [("l", VStr (s2b "a")); ("m", VArr [VStr (s2b "b"); VStr (s2b "b")])]%string; VStr (s2b "y")] in
  pure_grammar pre_env pre_top same_cb /\ entry pre_env pre_top (rule "S" 0 (KChoice [S1; S2])) /\
  (exists f, std (e_rule pre_env) (e_rx pre_env) same_cb (c_work c) f 20 S1 0 = Some None) /\
  (exists f, std (e_rule pre_env) (e_rx pre_env) same_cb (c_work c) f 20 S2 0 = Some (Some (v, 4))).
Proof.
  intros c S1 S2 v. split; [apply pre_pure|]. split.
  - split; [|by left]. by apply (reach_rule _ _ "S"%string).
  - split; exists 20; vm_compute; reflexivity.
Qed.
Definition rest_lines : list (res line) := [i_rule "E" "F '+' | 'n'" []; i_rule "F" "E '*' | 'f'" []].
Definition with_start (e : string) : list line := all_ok (o_rule "S" e [] :: rest_lines).
Definition plain_compile : bytes -> res pexp := compile_with (fun _ => true) 300 (gram_of hand).
Theorem C103_choice_refuted : exists (a b : string) (s : bytes) (ga gb gab : node * list (string * node)) (x : ast) s1 s2 s3,
  build plain_compile 300 "gm" (with_start a) = ROk ga /\ build plain_compile 300 "gm" (with_start b) = ROk gb /\
  build plain_compile 300 "gm" (with_start (a ++ " | " ++ b)) = ROk gab /\
  fst (parse_string 500 (gram_of ga) (POpts false false false) ind_rx ind_cb s) = Ok (Some (AErr 0)) s1 /\
  fst (parse_string 500 (gram_of gb) (POpts false false false) ind_rx ind_cb s) = Ok (Some x) s2 /\ x = AStr (s2b "n") /\
  fst (parse_string 500 (gram_of gab) (POpts false false false) ind_rx ind_cb s) = Ok (Some (AErr 0)) s3.
Proof.
  exists "E 'q'"%string, "F 'w'"%string, (s2b "n*w"). eexists _, _, _, _, _, _, _.
  split; [vm_compute; reflexivity|]. split; [vm_compute; reflexivity|]. split; [vm_compute; reflexivity|].
  split; [vm_compute; reflexivity|]. split; [vm_compute; reflexivity|]. split; [reflexivity|]. vm_compute; reflexivity.
Qed.
Print Assumptions C103_choice_refuted.
