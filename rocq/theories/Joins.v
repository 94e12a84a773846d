(** Grammars of one line that is a repetition of a literal, joined by a literal. *)
From Verif Require Import Base Helpers Utf8 Stream StreamSpec Native Engine EngSpec EngInv Peg PegRep PegBody PegStd RunSpec PegRun
  Build BuildSpec MeansSpec Means MeansLaws JoinSpec.

Lemma drop_lit (t s : bytes) p : lit t s p = if bool_decide (take (length s) (drop p t) = s) then Some (VStr s, p + length s) else None.
Proof. done. Qed.
Lemma lit_yes (t s : bytes) p : s `prefix_of` drop p t -> lit t s p = Some (VStr s, p + length s).
Proof. intros [r Hr]. rewrite drop_lit, Hr, take_app. by rewrite bool_decide_eq_true_2. Qed.
Lemma lit_no (t s : bytes) p : ~ s `prefix_of` drop p t -> lit t s p = None.
Proof.
  intros H. rewrite drop_lit. rewrite bool_decide_eq_false_2; [done|]. intros He. apply H. exists (drop (length s) (drop p t)). by rewrite <- He at 1; rewrite take_drop.
Qed.

(** Every text begins with a longest run, or with none. *)
Lemma split_run (a b t : bytes) : a <> [] -> (~ a `prefix_of` t) \/ exists k rest, t = run_of a b k ++ rest /\ ~ b ++ a `prefix_of` rest.
Proof.
  intros Hab.
  destruct (decide (a `prefix_of` t)) as [[t' ->]|Ht]; [right|by left].
  assert (exists k rest, t' = mjoin (replicate k (b ++ a)) ++ rest /\ ~ b ++ a `prefix_of` rest) as (k & rest & -> & Hr).
  { induction t' as [t' IH] using (induction_ltof1 _ length). destruct (decide (b ++ a `prefix_of` t')) as [[r ->]|Hn]; [|by exists 0, t'].
    destruct (IH r) as (k & rest & -> & Hr).
    - unfold ltof. rewrite !app_length. assert (length a <> 0) by (by intros H%nil_length_inv). clear -H. lia.
    - exists (S k), rest. split; [|done]. cbn. by rewrite !app_assoc. }
  exists k, rest. split; [|done]. unfold run_of. by rewrite app_assoc.
Qed.
Lemma run_length (a b : bytes) k : length (run_of a b k) = length a + k * (length b + length a).
Proof. unfold run_of. rewrite app_length. f_equal. induction k as [|k IH]; [done|]. change (mjoin (replicate (S k) (b ++ a))) with ((b ++ a) ++ mjoin (replicate k (b ++ a))). rewrite !app_length, IH. lia. Qed.

Section Join.
Variables (compile : bytes -> res pexp) (s a b : bytes) (mn : Z).
Hypothesis Hs : compile s = ROk (joined_by a b mn).
Hypothesis Hab : a <> [].
Notation ls := [LO "" (LS s) no_opts].
Notation rules := (rules_said compile (decls "g" ls)).
Variable rx : bytes -> bytes -> option (nat * nat).
Variable cbf : nat -> nat -> val -> option (option val).
Variable text : bytes.
Notation std := (std rules rx cbf text).
Notation lit_node x := (stand false (PExp "" (KStr x))).

Lemma lit_std f d x p : std (S f) d (lit_node x) p = Some (lit text x p).
Proof.
  cbn [PegStd.std stand n_kind n_info i_isrule]. unfold std_body. cbn [n_kind]. destruct (lit text x p) as [[v e]|]; done.
Qed.
(** The rounds after the first value. *)
Lemma loop_std F k d rest : ~ b ++ a `prefix_of` rest -> forall f acc p, drop p text = mjoin (replicate k (b ++ a)) ++ rest -> k < f ->
  std_loop (std (S F) d) f (lit_node a) (Some (lit_node b)) (-1) acc p = Some (acc ++ replicate k (VStr a), p + k * (length b + length a)).
Proof.
  intros Hr. induction k as [|k IH]; intros f acc p Hp Hk; (destruct f as [|f]; [lia|]).
  - cbn [std_loop]. rewrite lit_std. cbn in Hp. destruct (decide (b `prefix_of` drop p text)) as [[r Hb]|Hb].
    + rewrite lit_yes by (by exists r). rewrite lit_std, lit_no; [by rewrite app_nil_r, Nat.add_0_r|].
      intros [r' Ha]. apply Hr. exists r'. rewrite <- Hp, Hb, <- app_assoc. f_equal. rewrite <- drop_drop, Hb, drop_app in Ha. exact Ha.
    + rewrite lit_no by done. by rewrite app_nil_r, Nat.add_0_r.
  - cbn in Hp. rewrite <- !app_assoc in Hp. cbn [std_loop]. rewrite lit_std.
    rewrite lit_yes by (eexists; exact Hp). rewrite lit_std.
    assert (Hd : drop (p + length b) text = a ++ mjoin (replicate k (b ++ a)) ++ rest) by (rewrite <- drop_drop, Hp, drop_app; done).
    rewrite lit_yes by (eexists; exact Hd). change (enough (-1) _) with false. cbv iota.
    rewrite IH; [|by rewrite <- drop_drop, Hd, drop_app|lia]. f_equal. f_equal; [by rewrite <- app_assoc|lia].
Qed.
(** The one rule. *)
Lemma the_rule : rules "g[0]" = Some (as_rule "g[0]" None (stand false (joined_by a b mn))).
Proof. unfold rules_said, decls. cbn [decls_of app removelast List.find d_name]. change (written_name "" "g" 0) with "g[0]"%string. rewrite String.eqb_refl. unfold rule_said. cbn [d_what d_name d_opts]. by rewrite Hs. Qed.
Lemma top_std F d r : prepared cbf (Info "g[0]" "" true true 0 true None false false) r = Some r ->
  std_body rules rx text (std (S F) d) (S F) (stand false (joined_by a b mn)) 0 = Some r ->
  std (S (S (S (S F)))) (S d) (choice_of ["g[0]"%string]) 0 = Some r.
Proof.
  intros Hp Hb. rewrite std_S. cbn [choice_of n_kind n_info i_isrule].
  change (std_body rules rx text ?ev ?f _ 0) with (std_alt ev [to_rule "g[0]"] 0). cbn [std_alt].
  rewrite to_rule_eq, the_rule, std_S. cbn [joined_by stand as_rule n_kind n_info i_isrule].
  match goal with |- context [std_body ?x1 ?x2 ?x3 ?x4 ?x5 ?x6 ?x7] => assert (std_body x1 x2 x3 x4 x5 x6 x7 = Some r) as -> end; [exact Hb|].
  rewrite (prepared_alike cbf _ (Info "g[0]" "" true true 0 true None false false)) by (auto; by left). rewrite Hp. by destruct r as [[v e]|].
Qed.
Lemma prepared_same r : prepared cbf (Info "g[0]" "" true true 0 true None false false) r = Some r.
Proof. by destruct r as [[v e]|]. Qed.
Lemma said_none : ~ a `prefix_of` text -> said compile "g" ls rx cbf stack_limit text (if (0 <? mn)%Z then None else Some (VArr [], 0)).
Proof.
  intros Ha. exists 4. change stack_limit with (S (pred stack_limit)). apply top_std; [apply prepared_same|].
  unfold std_body. change (n_kind (stand false (joined_by a b mn))) with (KPat (lit_node a) (Some (lit_node b)) mn (-1)). cbv iota. rewrite lit_std, lit_no by done. done.
Qed.
Lemma said_run k rest : (mn <= 1)%Z -> text = run_of a b k ++ rest -> ~ b ++ a `prefix_of` rest ->
  said compile "g" ls rx cbf stack_limit text (Some (VArr (replicate (S k) (VStr a)), length (run_of a b k))).
Proof.
  intros Hmn Ht Hr. exists (5 + k). change stack_limit with (S (pred stack_limit)). apply (top_std (S k)); [apply prepared_same|].
  unfold std_body. change (n_kind (stand false (joined_by a b mn))) with (KPat (lit_node a) (Some (lit_node b)) mn (-1)). cbv iota.
  unfold run_of in Ht. rewrite <- app_assoc in Ht. rewrite lit_std, lit_yes by (rewrite Ht; by eexists).
  rewrite (loop_std _ k _ rest Hr); [|cbn [Nat.add]; by rewrite Ht, drop_app|lia].
  replace (too_few mn _) with false; [by rewrite run_length|]. unfold too_few. rewrite app_length, replicate_length. cbn [length].
  destruct (Z.ltb_spec (-1) mn); [|done]. symmetry. apply Z.ltb_ge. lia.
Qed.
End Join.

(** ** ParseString *)
Section Answers.
Variables (compile : bytes -> res pexp) (fuel : nat) (s a b : bytes) (mn : Z) (g : node * list (string * node)).
Hypothesis Hs : compile s = ROk (joined_by a b mn).
Hypothesis Ha : a <> [].
Hypothesis Hmn : (mn = -1 \/ mn = 1)%Z.
Hypothesis Hg : build compile fuel "g" [LO "" (LS s) no_opts] = ROk g.
Variables (o : popts) (rx : bytes -> bytes -> option (nat * nat)) (cb : nat -> nat -> heap -> ast -> cbres).
Hypothesis Hrx : forall re, rx_ok (rx re).
Hypothesis Ho : po_debug o = false.

Lemma join_words : in_words compile "g" [LO "" (LS s) no_opts].
Proof.
  constructor.
  - repeat constructor.
  - split; [|constructor]. constructor; [|constructor]. intros e He. rewrite Hs in He. by injection He as <-.
  - done.
  - done.
  - split; [|constructor]. constructor; [|constructor]. intros e He. rewrite Hs in He. by injection He as <-.
  - apply NoDup_singleton.
  - repeat constructor.
Qed.
Notation cbf := (fun (_ _ : nat) (_ : val) => @None (option val)).
Lemma join_said text r : said compile "g" [LO "" (LS s) no_opts] rx cbf stack_limit text r ->
  exists fuel0, forall f, fuel0 <= f -> answer text r (fst (parse_string f (gram_of g) o rx cb text)).
Proof. intros Hr. exact (parses_as_said _ _ _ _ _ Hg join_words o rx cb cbf text r Hrx (fun c p h x v P _ _ => I) Ho Hr). Qed.
Lemma join_accepts k : exists fuel0, forall f, fuel0 <= f -> exists y st,
  fst (parse_string f (gram_of g) o rx cb (run_of a b k)) = Ok (Some y) st /\ rep [] (s_heap st) y (VArr (replicate (S k) (VStr a))).
Proof.
  destruct (join_said (run_of a b k) _ (said_run compile s a b mn Hs rx cbf _ k [] ltac:(lia) (eq_sym (app_nil_r _)) ltac:(intros [r Hr]; destruct b, a; done))) as [f0 H].
  exists f0. intros f Hf. specialize (H f Hf). unfold answer in H. by rewrite Nat.eqb_refl in H.
Qed.
Lemma join_empty : exists fuel0, forall f, fuel0 <= f -> exists st,
  if (mn =? -1)%Z then fst (parse_string f (gram_of g) o rx cb []) = Ok (Some (AArr [])) st else fst (parse_string f (gram_of g) o rx cb []) = Ok None st.
Proof.
  destruct (join_said [] _ (said_none compile s a b mn Hs rx cbf [] ltac:(intros [r Hr]; by destruct a))) as [f0 H].
  exists f0. intros f Hf. specialize (H f Hf). destruct Hmn as [-> | ->]; cbn in H |- *.
  - destruct H as (y & st & He & Hr). exists st. rewrite He. inversion Hr as [| | | |l l' Hl| | |]; subst. by inversion Hl.
  - done.
Qed.
Lemma join_refuses text : text <> [] -> (forall k, text <> run_of a b k) -> exists fuel0, forall f, fuel0 <= f -> exists k st,
  fst (parse_string f (gram_of g) o rx cb text) = Ok (Some (AErr k)) st.
Proof.
  intros Hne Hk. destruct (split_run a b text Ha) as [Hn|(k & rest & Ht & Hr)].
  - destruct (join_said text _ (said_none compile s a b mn Hs rx cbf text Hn)) as [f0 H]. exists f0. intros f Hf. specialize (H f Hf).
    destruct text as [|x text]; [done|]. destruct Hmn as [-> | ->]; cbn in H; destruct H as (q & st & He & _); by exists q, st.
  - destruct (join_said text _ (said_run compile s a b mn Hs rx cbf text k rest ltac:(lia) Ht Hr)) as [f0 H]. exists f0. intros f Hf. specialize (H f Hf).
    unfold answer in H. destruct (Nat.eqb_spec (length (run_of a b k)) (length text)) as [He|_].
    + subst text. rewrite app_length in He. destruct rest; [|cbn in He; lia]. destruct (Hk k). by rewrite app_nil_r.
    + destruct H as (q & st & He & _). by exists q, st.
Qed.
End Answers.
