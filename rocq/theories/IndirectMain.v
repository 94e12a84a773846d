(** ParseString with the grammar of IndirectGram.v. *)
From Verif Require Import Base Helpers Utf8 Stream StreamSpec Native Engine EngSpec EngInv Toy Peg PegProofs PegRep PegBody PegStd PegStdProofs
  RunSpec PegLaws PegRun Build BuildSpec BuildMain Joeson JoesonSpec JoesonRun Calc CalcRun CalcPeg MossPeg LispRead LispReadTop Color Readers
  IndirectSpec Indirect IndirectGram.
Local Open Scope list_scope.

Definition ind : built := Eval vm_compute in or_none (build ind_compile 300 "gm" ind_lines).
Lemma ind_rules_ok : ind_rules = ROk <$> ind_lines.
Proof. vm_compute. reflexivity. Qed.
Lemma ind_eq : build ind_compile 300 "gm" ind_lines = ROk ind.
Proof. vm_compute. reflexivity. Qed.
Lemma ind_no_singles : no_singles ind_compile ind_lines.
Proof. apply written_checked. vm_compute. reflexivity. Qed.
Lemma ind_names_once : names_once ind_lines.
Proof. apply (bool_decide_unpack _). vm_compute. exact I. Qed.

(** ** The nodes *)
Definition i_op (re : bytes) : node := nd "" true false (KRegex re).
Definition i_arm (nm : string) (i : nat) (re : bytes) : node := rl nm true i None (KSeq TArray [rf "E"; i_op re; rf "N"]).
Definition i_ref (nm : string) : node := nd "" true true (KRef nm).
Definition i_N : node := rl "N" true 2 None (KRegex re_digit).
Definition i_E : node := rl "E" true 3 None (KChoice [i_ref "Add"; i_ref "Sub"; i_ref "N"]).
Definition i_top : node := Node (Info "gm" "" true false 0 true None false false) (KChoice [i_E]).
Lemma ind_nodes : ind = (i_top, [("Add", i_arm "Add" 0 re_plus); ("Sub", i_arm "Sub" 1 re_minus); ("N", i_N); ("E", i_E)]%string).
Proof. reflexivity. Qed.

Lemma ind_rx_ok re : rx_ok (ind_rx re).
Proof.
  assert (forall f s i a b, find_first f s i = Some (a, b) -> a <= b <= i + length s) as HF.
  { intros f. induction s as [|c s IH]; intros i a b; cbn; [done|]. destruct (f c); [intros [= <- <-]; lia|]. intros H%IH. lia. }
  intros s a b. unfold ind_rx. destruct (bytes_eqb re re_plus); [apply HF|]. destruct (bytes_eqb re re_minus); [apply HF|].
  destruct (bytes_eqb re re_digit); [apply HF|done].
Qed.
(** No parser has a callback. *)
Definition no_cbf (f pos : nat) (v : val) : option (option val) := None.

(** ** Texts *)
Definition piece : Type := N * N.
Definition piece_ok (x : piece) : Prop := (fst x = 43 \/ fst x = 45)%N /\ (48 <= snd x <= 57)%N.
Definition piece_fn (x : piece) (v : val) : val := VArr [v; VStr [fst x]; VStr [snd x]].
Definition piece_add (y : ast) (x : piece) : ast := AArr [y; AStr [fst x]; AStr [snd x]].
Fixpoint pieces_text (l : list piece) : bytes := match l with [] => [] | x :: l' => fst x :: snd x :: pieces_text l' end.
Definition no_piece (s : bytes) : Prop := forall a b r, s = a :: b :: r -> ~ piece_ok (a, b).
Lemma piece_dec x : {piece_ok x} + {~ piece_ok x}.
Proof.
  unfold piece_ok. destruct (N.eq_dec (fst x) 43); [|destruct (N.eq_dec (fst x) 45)]; [| |right; lia];
  (destruct (decimal_b (snd x)) eqn:E; unfold decimal_b in E; [left|right]; lia).
Qed.
Lemma split_pieces n : forall s, length s <= n -> exists l r, s = pieces_text l ++ r /\ Forall piece_ok l /\ no_piece r.
Proof.
  induction n as [|n IH]; intros s Hn.
  - destruct s; [|cbn in Hn; lia]. exists [], []. done.
  - destruct s as [|a [|b s]]; [by exists [], []|by exists [], [a]|]. destruct (piece_dec (a, b)) as [H|H].
    + destruct (IH s ltac:(cbn in Hn; lia)) as (l & r & -> & Hl & Hr). exists ((a, b) :: l), r. split; [done|]. split; [by constructor|done].
    + exists [], (a :: b :: s). split; [done|]. split; [done|]. by intros ??? [= <- <- <-].
Qed.
Lemma pieces_snoc l x : pieces_text (l ++ [x]) = pieces_text l ++ [fst x; snd x].
Proof. induction l as [|y l IH]; [done|]. cbn [app pieces_text]. by rewrite IH. Qed.
Lemma sums_pieces x s : sums x s -> exists d l, (48 <= d <= 57)%N /\ Forall piece_ok l /\ s = d :: pieces_text l /\ x = fold_left piece_add l (AStr [d]).
Proof.
  induction 1 as [d Hd|x s op d _ (d0 & l & H0 & Hl & -> & ->) Ho Hd].
  - by exists d, [].
  - exists d0, (l ++ [(op, d)]). split; [done|]. split; [apply List.Forall_app; split; [done|apply List.Forall_cons; [done|apply List.Forall_nil]]|].
    by rewrite pieces_snoc, fold_left_app.
Qed.
Lemma pieces_sums d l : (48 <= d <= 57)%N -> Forall piece_ok l -> sums (fold_left piece_add l (AStr [d])) (d :: pieces_text l).
Proof.
  intros Hd. induction l as [|x l IH] using rev_ind; intros Hl; [by constructor|]. apply List.Forall_app in Hl as [Hl Hx]. apply List.Forall_inv in Hx as [Hx1 Hx2].
  rewrite pieces_snoc, fold_left_app. cbn [fold_left]. change (d :: pieces_text l ++ [x.1; x.2]) with ((d :: pieces_text l) ++ [x.1; x.2]). constructor; [by apply IH|done|done].
Qed.
Lemma rep_pieces P h d l : forall x, rep P h x (fold_left (fun v x => piece_fn x v) l (VStr [d])) -> x = fold_left piece_add l (AStr [d]).
Proof.
  induction l as [|y l IH] using rev_ind; intros x.
  - cbn. intros H. by inversion H.
  - rewrite !fold_left_app. cbn [fold_left]. unfold piece_fn at 1. intros H. inversion H as [| | | |? ? HL| | |]; subst.
    inversion HL as [|? ? ? ? H1 H2]; subst. inversion H2 as [|? ? ? ? H3 H4]; subst. inversion H4 as [|? ? ? ? H5 H6]; subst. inversion H6; subst.
    inversion H3; subst. inversion H5; subst. rewrite (IH _ H1). done.
Qed.

Section Whole.
Variable o : popts.
Hypothesis Ho : po_debug o = false.
Variable cb : nat -> nat -> heap -> ast -> cbres.
Notation g := (gram_of ind).
Notation E := (mk_env g o ind_rx cb).

Lemma ind_ready : ids_fit E i_top /\ ids_unique E i_top /\ top_rank i_top.
Proof.
  pose proof (ready ind_compile 300 "gm" ind_lines ind ind_eq ind_names_once ind_no_singles ltac:(done) ltac:(by vm_compute) o ind_rx cb)
    as (H1 & H2 & H3 & _). rewrite ind_nodes. done.
Qed.
Lemma ind_grammar : pure_grammar E i_top no_cbf.
Proof.
  destruct ind_ready as (H1 & H2 & H3). split; [apply ind_rx_ok|done|done| |by left].
  apply (gen_quiet ind); [done|by vm_compute].
Qed.

Section Run.
Variable R : nat -> node.
Hypothesis HR : lists_rules E i_top R.
Variable text : bytes.
(** Add and Sub are evaluated as parts of E. *)
Definition ind_par (i : nat) : option nat := if (i =? 0) || (i =? 1) then Some 3 else None.
Notation peg := (peg (e_rule E) (e_rx E) no_cbf R ind_par text).
Notation apart := (apart E no_cbf R ind_par text 3 0).

Lemma R_of nm m : g_rule g nm = Some m -> i_isrule (n_info m) = true -> R (i_id (n_info m)) = m.
Proof. intros H Hr. apply HR; [|done]. by eapply reach_rule. Qed.
Lemma R_E : R 3 = i_E.
Proof. by apply (R_of "E" i_E). Qed.
Lemma R_N : R 2 = i_N.
Proof. by apply (R_of "N" i_N). Qed.
Lemma E_plain : plain_rule R ind_par 3.
Proof. unfold plain_rule, is_rule. by rewrite R_E. Qed.
Lemma ind_parts : parts_ok R ind_par.
Proof. intros i F. unfold ind_par. destruct ((i =? 0) || (i =? 1)); [|done]. intros [= <-]. by rewrite R_E. Qed.

Lemma re_apart n re q : n_kind n = KRegex re -> i_isrule (n_info n) = false -> i_label (n_info n) = EmptyString -> i_cb (n_info n) = None ->
  apart n q (rgx ind_rx text re q).
Proof.
  intros Hk Hr Hl Hc. exists 0. split; [unfold stack_limit; lia|]. intros sd inn. apply (p_plain _ _ _ _ _ _ _ _ _ _ _ (rgx ind_rx text re q)); [by rewrite Hk|done|by apply p_regex|].
  destruct (rgx _ _ _ _) as [[v e]|]; [|done]. unfold prepared, labelled. by rewrite Hc, Hl.
Qed.
Lemma N_apart w q : apart (nd "" true w (KRef "N")) q (rgx ind_rx text re_digit q).
Proof.
  set (r := rgx ind_rx text re_digit q). exists 1. split; [unfold stack_limit; lia|]. intros sd inn.
  assert (forall i, i_label i = EmptyString -> i_cb i = None -> prepared no_cbf i r = Some r) as HP.
  { intros i Hl Hc. destruct r as [[v e]|]; [|done]. unfold prepared, labelled. by rewrite Hc, Hl. }
  apply (p_plain _ _ _ _ _ _ _ _ _ _ _ r); [done|done| |by apply HP].
  apply (p_ref _ _ _ _ _ _ _ _ i_N _ "N"%string); [done|done|]. apply p_rule; try done; [by apply R_N|cbn; lia|].
  apply (p_once _ _ _ _ _ _ _ _ _ r); change (i_id (n_info i_N)) with 2; unfold is_rule; rewrite ?R_N; try done; [|by apply HP]. by apply p_regex.
Qed.
Lemma rgx_yes re f q b s : ind_rx re = (fun s => find_first f s 0) -> drop q text = b :: s -> f b = true -> rgx ind_rx text re q = Some (VStr [b], S q).
Proof. intros Hre Hq Hb. unfold rgx. rewrite Hre, Hq. cbn [find_first]. rewrite Hb. cbn. by rewrite take_0, Nat.add_1_r. Qed.
Lemma rgx_no re f q : ind_rx re = (fun s => find_first f s 0) -> (forall b, head (drop q text) = Some b -> f b = false) -> rgx ind_rx text re q = None.
Proof. intros Hre Hq. unfold rgx. rewrite Hre. pose proof (find_later no_cbf f _ Hq 0) as H. by destruct (find_first f _ 0) as [[[] ?]|]. Qed.

Definition comb3 (l v r : val) : val := VArr [l; v; r].
Definition arm1 : arm := Arm (i_ref "Add") (i_arm "Add" 0 re_plus) (rf "E") (i_op re_plus) (rf "N") comb3.
Definition arm2 : arm := Arm (i_ref "Sub") (i_arm "Sub" 1 re_minus) (rf "E") (i_op re_minus) (rf "N") comb3.
Lemma arms_good : Forall (good_arm E no_cbf R ind_par 3) [arm1; arm2].
Proof.
  assert (refers E R (rf "E") 3) as HE. { repeat split. exists "E"%string. split; [done|]. by rewrite R_E. }
  apply List.Forall_cons; [|apply List.Forall_cons; [|apply List.Forall_nil]].
  - split; [done|]. split; [exact HE|]. split; [done|]. split; [done|]. right. split; [done|]. split; [done|]. split; [by apply (R_of "Add")|]. split; [done|]. right.
    repeat split. by exists "Add"%string.
  - split; [done|]. split; [exact HE|]. split; [done|]. split; [done|]. right. split; [done|]. split; [done|]. split; [by apply (R_of "Sub")|]. split; [done|]. right.
    repeat split. by exists "Sub"%string.
Qed.

Lemma step_piece q a b s : drop q text = a :: b :: s -> piece_ok (a, b) ->
  arm_step apart [arm1; arm2] q (Some (piece_fn (a, b), S (S q))).
Proof.
  intros Hq [Ha Hb]. cbn [fst snd] in Ha, Hb.
  assert (drop (S q) text = b :: s) as Hq1. { replace (S q) with (q + 1) by lia. rewrite <- drop_drop, Hq. done. }
  assert (apart (rf "N") (S q) (Some (VStr [b], S (S q)))) as HN.
  { rewrite <- (rgx_yes re_digit decimal_b (S q) b s eq_refl Hq1); [apply N_apart|unfold decimal_b; lia]. }
  destruct Ha as [-> | ->].
  - apply (as_take apart arm1 [arm2] q (VStr [43%N]) (S q) (VStr [b]) (S (S q))); [|done].
    rewrite <- (rgx_yes re_plus plus_b q _ _ eq_refl Hq eq_refl). by apply re_apart.
  - apply as_no_op.
    + rewrite <- (rgx_no re_plus plus_b q eq_refl); [by apply re_apart|]. rewrite Hq. by intros b' [= <-].
    + apply (as_take apart arm2 [] q (VStr [45%N]) (S q) (VStr [b]) (S (S q))); [|done].
      rewrite <- (rgx_yes re_minus minus_b q _ _ eq_refl Hq eq_refl). by apply re_apart.
Qed.
Lemma step_none q s : drop q text = s -> no_piece s -> arm_step apart [arm1; arm2] q None.
Proof.
  intros Hq Hn.
  assert (forall a (re : bytes) f c l, arm_op a = i_op re -> arm_right a = rf "N" -> ind_rx re = (fun s => find_first f s 0) ->
    (forall b, f b = true -> b = c) -> (c = 43 \/ c = 45)%N -> arm_step apart l q None -> arm_step apart (a :: l) q None) as HS.
  { intros a re f c l H1 H2 H3 H4 H5 HL. destruct s as [|x s].
    - apply as_no_op; [|done]. rewrite H1, <- (rgx_no re f q H3); [by apply re_apart|]. by rewrite Hq.
    - destruct (f x) eqn:Ef.
      + assert (drop (S q) text = s) as Hq1. { replace (S q) with (q + 1) by lia. rewrite <- drop_drop, Hq. done. }
        apply (as_no_operand apart a l q (VStr [x]) (S q)); [| |done].
        * rewrite H1, <- (rgx_yes re f q _ _ H3 Hq Ef). by apply re_apart.
        * rewrite H2, <- (rgx_no re_digit decimal_b (S q) eq_refl); [apply N_apart|]. rewrite Hq1. intros b Hb.
          destruct s as [|b' s]; [done|]. injection Hb as ->. specialize (Hn _ _ _ eq_refl).
          destruct (decimal_b b) eqn:Eb; [|done]. exfalso. apply Hn. split; cbn [fst snd]; [rewrite (H4 _ Ef); done|unfold decimal_b in Eb; lia].
      + apply as_no_op; [|done]. rewrite H1, <- (rgx_no re f q H3); [by apply re_apart|]. rewrite Hq. by intros b [= <-]. }
  apply (HS arm1 re_plus plus_b 43%N); [done|done|done|by intros b Hb%N.eqb_eq|by left|].
  apply (HS arm2 re_minus minus_b 45%N); [done|done|done|by intros b Hb%N.eqb_eq|by right|]. apply as_nil.
Qed.
Lemma run_pieces l r : Forall piece_ok l -> no_piece r -> forall q, drop q text = pieces_text l ++ r ->
  arm_run apart [arm1; arm2] q (piece_fn <$> l) (q + length (pieces_text l)).
Proof.
  intros Hl Hr. induction Hl as [|[a b] l Hx Hl IH]; intros q Hq; cbn [fmap list_fmap pieces_text length fst snd].
  - rewrite Nat.add_0_r. apply ar_stop. by eapply step_none.
  - eapply (ar_more _ _ q (piece_fn (a, b)) (S (S q))); [exact (step_piece q a b (pieces_text l ++ r) Hq Hx)|lia|]. replace (q + S (S (length (pieces_text l)))) with (S (S q) + length (pieces_text l)) by lia.
    apply IH. replace (S (S q)) with (q + 2) by lia. by rewrite <- drop_drop, Hq.
Qed.
Lemma fold_fns l : forall v, fold_left (fun a f => f a) (piece_fn <$> l) v = fold_left (fun v x => piece_fn x v) l v.
Proof. induction l as [|x l IH]; intros v; [done|]. cbn [fmap list_fmap fold_left]. apply IH. Qed.

Lemma top_of r : meaning E no_cbf R ind_par text (R 3) 0 r -> meaning E no_cbf R ind_par text i_top 0 r.
Proof.
  rewrite R_E. intros (t & h & Hh & HP). exists t, h. split; [done|]. apply (p_plain _ _ _ _ _ _ _ _ _ _ _ r); [done|done| |by destruct r as [[? ?]|]].
  eapply p_choice; [done|]. destruct r as [[v e]|]; [by apply p_alt_take|].
  replace t with (t || false)%bool by (by destruct t). replace h with (max h 0) by lia. apply p_alt_next; [done|apply p_alt_nil].
Qed.
Lemma ind_meaning d l r : (48 <= d <= 57)%N -> Forall piece_ok l -> no_piece r -> text = d :: pieces_text l ++ r ->
  meaning E no_cbf R ind_par text i_top 0 (Some (fold_left (fun v x => piece_fn x v) l (VStr [d]), S (length (pieces_text l)))).
Proof.
  intros Hd Hl Hr Ht. apply top_of. rewrite <- fold_fns.
  apply (indirect E no_cbf R ind_par text 3 0 [arm1; arm2] (i_ref "N")) with (q0 := 1); rewrite ?R_E; try done; [apply E_plain|apply arms_good| |].
  - rewrite <- (rgx_yes re_digit decimal_b 0 d (pieces_text l ++ r) eq_refl); [apply N_apart|by rewrite Ht|unfold decimal_b; lia].
  - change (S (length (pieces_text l))) with (1 + length (pieces_text l)). apply (run_pieces l r); [done|done|by rewrite Ht].
Qed.
Lemma ind_meaning_none : (forall b, head text = Some b -> ~ (48 <= b <= 57)%N) -> meaning E no_cbf R ind_par text i_top 0 None.
Proof.
  intros Hn. apply top_of.
  apply (indirect_fail E no_cbf R ind_par text 3 0 [arm1; arm2] (i_ref "N")); rewrite ?R_E; try done; [apply E_plain|apply arms_good|].
  rewrite <- (rgx_no re_digit decimal_b 0 eq_refl); [apply N_apart|]. intros b Hb. specialize (Hn b Hb). unfold decimal_b. lia.
Qed.
End Run.

Lemma ind_sums x s : sums x s -> exists fuel0, forall fuel, fuel0 <= fuel -> exists s',
  fst (parse_string fuel g o ind_rx cb s) = Ok (Some x) s'.
Proof.
  intros (d & l & Hd & Hl & -> & ->)%sums_pieces. destruct ind_ready as (H1 & [R HR] & H3).
  set (s := d :: pieces_text l).
  pose proof (ind_meaning R HR s d l [] Hd Hl ltac:(done) ltac:(by rewrite app_nil_r)) as HM.
  destruct (gram_meaning g ind_rx cb o no_cbf ind_grammar H3 R ind_par HR (ind_parts R HR) (CRune (new_rune_stream s)) _ (rune_code_ok _) eq_refl HM) as (f0 & Hf).
  exists f0. intros fuel Hl'. specialize (Hf fuel Hl'). cbn [c_work] in Hf. change (rs_text (new_rune_stream s)) with s in Hf.
  change (length s) with (S (length (pieces_text l))) in Hf. rewrite Nat.eqb_refl in Hf.
  destruct Hf as (x & s' & Hx & Hr). exists s'. rewrite <- (rep_pieces _ _ _ _ _ Hr). exact Hx.
Qed.
Lemma ind_other s : (forall x, ~ sums x s) -> exists fuel0, forall fuel, fuel0 <= fuel -> exists s',
  match s with
  | [] => fst (parse_string fuel g o ind_rx cb s) = Ok None s'
  | _ => exists k, fst (parse_string fuel g o ind_rx cb s) = Ok (Some (AErr k)) s' /\ k <= length s
  end.
Proof.
  intros Hno. destruct ind_ready as (H1 & [R HR] & H3).
  assert (exists r, meaning E no_cbf R ind_par s i_top 0 r /\ match r with Some (v, e) => e < length s | None => True end) as (r & HM & Hr).
  { destruct s as [|d s].
    - exists None. split; [by apply ind_meaning_none|done].
    - destruct (decimal_b d) eqn:Ed.
      + assert (48 <= d <= 57)%N as Hd by (unfold decimal_b in Ed; lia).
        destruct (split_pieces (length s) s (le_n _)) as (l & r & Hs & Hl & Hr). subst s. eexists. split; [by apply (ind_meaning R HR _ d l r)|]. cbn beta iota.
        destruct r as [|b r]; [|cbn [length]; rewrite app_length; cbn; lia]. exfalso. apply (Hno (fold_left piece_add l (AStr [d]))). rewrite app_nil_r. by apply pieces_sums.
      + exists None. split; [|done]. apply ind_meaning_none; [done|]. intros b [= <-]. unfold decimal_b in Ed. lia. }
  destruct (gram_meaning g ind_rx cb o no_cbf ind_grammar H3 R ind_par HR (ind_parts R HR) (CRune (new_rune_stream s)) _ (rune_code_ok _) eq_refl HM) as (f0 & Hf).
  exists f0. intros fuel Hl. specialize (Hf fuel Hl). cbn [c_work] in Hf. change (rs_text (new_rune_stream s)) with s in Hf. destruct r as [[v e]|].
  - destruct (Nat.eqb_spec e (length s)); [lia|]. destruct Hf as (k & s' & Hx & Hk). exists s'. destruct s as [|b s]; [cbn in Hr; lia|]. exists k. split; [exact Hx|lia].
  - destruct s as [|b s]; cbn [length Nat.eqb] in Hf; [destruct Hf as (s' & Hx); by exists s'|]. destruct Hf as (k & s' & Hx & Hk). exists s', k. by split.
Qed.
End Whole.
