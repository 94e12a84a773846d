(** The grammar of examples/precedence with its choices in a rank. *)
From Verif Require Import Base Helpers Utf8 Stream StreamSpec Native Engine EngSpec EngInv Toy Peg PegProofs PegRep PegBody PegStd PegStdProofs
  RunSpec PegLaws PegRun Build BuildSpec BuildMain Joeson JoesonSpec JoesonRun Calc CalcRun CalcSpec CalcPeg Moss MossRun MossSpec Gives MossPeg.

(** ** The grammar by name *)
Definition k_more : node := rl "Expr[0]" true 3 (Some 0) (KSeq TArray [rf "Expr"; m_rest]).
Definition k_one : node := rl "Expr[1]" true 4 (Some 0) (KRef "Glyph").
Definition k_expr : node := rl "Expr" true 5 None (KChoice [k_more; k_one]).
Definition k_top : node := Node (Info "at hand" "" true false 0 true None false false) (KChoice [k_expr]).
Lemma k_nodes : moss_rank = (k_top, [("AddOp", m_addop 0); ("Glyph", m_glyph 1); ("_", m_blank 2); ("Expr[0]", k_more); ("Expr[1]", k_one); ("Expr", k_expr)]%string).
Proof. reflexivity. Qed.

Section Text.
Variable text : bytes.
Notation rules := (g_rule (gram_of moss_rank)).
Notation std := (std rules moss_rx moss_cbf text).
(** The left-recursive rules have no textbook meaning. *)
Lemma k_none f : forall d p, std f d k_expr p = None /\ std f d k_more p = None.
Proof.
  induction (lt_wf f) as [f _ IH]. intros d p. destruct f as [|f]; [done|]. destruct d as [|d]; [done|].
  assert (std f d k_more p = None) as HM by (apply IH; lia).
  split.
  - change (match (match std f d k_more p with
                   | Some None => std_alt (std f d) [k_one] p | x => x end)
            with None => None | Some r => prepared moss_cbf (n_info k_expr) r end = None).
    by rewrite HM.
  - assert (std f d (rf "Expr") p = None) as HX.
    { destruct f as [|f]; [done|].
      change (match std f d k_expr p with None => None | Some r => prepared moss_cbf (n_info (rf "Expr")) r end = None).
      by rewrite (proj1 (IH f ltac:(lia) d p)). }
    change (match (match std f d (rf "Expr") p with
                   | Some (Some (v, q)) => std_array (std f d) [m_rest] ([] ++ [v]) q | x => x end)
            with None => None | Some r => prepared moss_cbf (n_info k_more) r end = None).
    by rewrite HX.
Qed.
End Text.

(** ** Whole texts *)
Section Whole.
Variable ostr : ast -> bytes.
Variable o : popts.
Hypothesis Ho : po_debug o = false.
Notation g := (gram_of moss_rank).
Notation E := (mk_env g o moss_rx (moss_cb ostr)).

Lemma k_reach n : reach E k_top n -> n ∈ all_nodes k_top (snd moss_rank).
Proof.
  intros H. induction H as [|n c _ IH Hc|name n H].
  - apply elem_of_flat_map. exists k_top. split; [left|apply subnodes_self].
  - apply elem_of_flat_map in IH as (m & Hm & IH). apply elem_of_flat_map. exists m. split; [done|]. by eapply subnodes_child.
  - apply last_of_split in H as (i & Hi & _). apply elem_of_list_lookup_2 in Hi.
    apply elem_of_flat_map. exists n. split; [right; apply elem_of_list_fmap; by exists (name, n)|apply subnodes_self].
Qed.
Lemma k_ready : ids_fit E k_top /\ ids_unique E k_top /\ top_rank k_top.
Proof.
  pose proof (ready moss_compile 300 "at hand" moss_rank_lines moss_rank moss_rank_eq moss_rank_names_once moss_rank_no_singles ltac:(done) ltac:(by vm_compute) o moss_rx (moss_cb ostr))
    as (H1 & H2 & H3 & _). rewrite k_nodes. done.
Qed.
Lemma k_quiet : quiet E k_top.
Proof.
  split; [done|]. split; [done|]. intros n Hn%k_reach.
  assert (forallb (fun n => negb (i_debug (n_info n))) (all_nodes k_top (snd moss_rank)) = true) as H by (vm_compute; reflexivity).
  rewrite forallb_forall in H. apply elem_of_list_In in Hn. specialize (H n Hn). by destruct (i_debug (n_info n)).
Qed.
Lemma k_grammar : pure_grammar E k_top moss_cbf.
Proof.
  destruct k_ready as (H1 & H2 & H3). split; [apply moss_rx_ok|done|done|apply k_quiet|by eapply moss_pure].
Qed.

Section Run.
Variable R : nat -> node.
Hypothesis HR : lists_rules E k_top R.
Variable text : bytes.
(** The first alternative is evaluated as a part of its rank. *)
Definition par (i : nat) : option nat := if i =? 3 then Some 5 else None.
Notation peg := (peg (e_rule E) (e_rx E) moss_cbf R par text).
Definition B (sd r : result) : Prop := exists h, h <= 2 /\ peg (Some (Ctx 5 0 sd false)) (JBody k_expr) 0 true h r.

Lemma reach_top_rule nm m : g_rule g nm = Some m -> reach E k_top m.
Proof. intros H. by eapply reach_rule. Qed.
Lemma R_expr : R 5 = k_expr.
Proof. apply (HR k_expr); [by apply (reach_top_rule "Expr")|done]. Qed.
Lemma R_more : R 3 = k_more.
Proof. apply (HR k_more); [by apply (reach_top_rule "Expr[0]")|done]. Qed.
Lemma expr_plain : plain_rule R par 5.
Proof. unfold plain_rule, is_rule. by rewrite R_expr. Qed.
Lemma expr_refers : refers E R (rf "Expr") 5.
Proof. repeat split. exists "Expr"%string. split; [done|]. by rewrite R_expr. Qed.
Lemma par_ok : parts_ok R par.
Proof. intros i F. unfold par. destruct (Nat.eqb_spec i 3); [|done]. intros [= <-]. by rewrite R_expr. Qed.
Lemma par_none i : par i <> None -> forall f d p, std (e_rule E) (e_rx E) moss_cbf text f d (R i) p = None.
Proof. unfold par. destruct (Nat.eqb_spec i 3) as [-> |]; [|done]. intros _ f d p. rewrite R_more. apply k_none. Qed.
Lemma std_apart d n p r sd inn : reach E k_top n -> Gives.gives (g_rule g) moss_rx moss_cbf text d n p r ->
  exists h, h <= d /\ peg (Some (Ctx 5 0 sd inn)) (JNode n) p false h r.
Proof.
  intros Hn [f0 H]. eapply (std_peg_gen E moss_cbf R text par k_top HR par_none f0); [done|by apply H|].
  intros x [= <-] f' d' _ _. cbn [x_id x_pos]. rewrite R_expr. apply k_none.
Qed.
Lemma glyph_apart r sd : Gives.gives (g_rule g) moss_rx moss_cbf text 1 (m_glyph 1) 0 r -> (forall v e, r = Some (v, e) -> exists s, v = VStr s) ->
  exists h, h <= 2 /\ peg (Some (Ctx 5 0 sd false)) (JNode k_one) 0 false h r.
Proof.
  intros H Hv. apply (std_apart 2); [by apply (reach_top_rule "Expr[1]")|].
  destruct H as [f0 H]. exists (S f0). intros f Hf. destruct f as [|f]; [lia|].
  change (match std (g_rule g) moss_rx moss_cbf text f 1 (m_glyph 1) 0 with None => None | Some r => prepared moss_cbf (n_info k_one) r end = Some r).
  rewrite (H f ltac:(lia)). destruct r as [[v e]|]; [|done]. by destruct (Hv v e eq_refl) as [s ->].
Qed.
Lemma more_node sd h r r' : h <= 1 -> peg (Some (Ctx 5 0 sd true)) (JBody k_more) 0 true h r -> prepared moss_cbf (n_info k_more) r = Some r' ->
  peg (Some (Ctx 5 0 sd false)) (JNode k_more) 0 true (S h) r'.
Proof. intros Hh HB Hpr. apply (p_part _ _ _ _ _ _ (Ctx 5 0 sd false) _ _ _ _ r); try done. apply R_more. Qed.
Lemma more_none : exists h, h <= 2 /\ peg (Some (Ctx 5 0 None false)) (JNode k_more) 0 true h None.
Proof.
  exists 2. split; [lia|]. apply (more_node None 1 None None); [lia| |done]. eapply p_array; [done|]. apply p_array_fail.
  apply (E_node E moss_cbf R par text 5 0 (rf "Expr") expr_plain expr_refers).
Qed.
(** No seed: a glyph or nothing. *)
Lemma body_first gl rest : a_glyph gl -> text = gl :: rest -> B None (Some (VStr [gl], 1)).
Proof.
  intros Hg Ht. destruct (glyph_apart (Some (VStr [gl], 1)) None) as (h & Hh & HP).
  { eapply (m_glyph_gives text _ _ 1 0 0 gl rest Hg). by rewrite Ht. }
  { intros v e [= <- _]. by eexists. }
  destruct more_none as (h1 & Hh1 & HP1). exists (max h1 h). split; [lia|]. change true with (true || false)%bool.
  eapply p_choice; [done|]. eapply p_alt_next; [exact HP1|by apply p_alt_take].
Qed.
Lemma body_none : (forall b, head text = Some b -> ~ a_glyph b) -> B None None.
Proof.
  intros Hg. destruct (glyph_apart None None) as (h & Hh & HP).
  { by eapply (m_no_glyph text _ _ 1 0 0 text). }
  { done. }
  destruct more_none as (h1 & Hh1 & HP1). exists (max h1 (max h 0)). split; [lia|]. change true with (true || (false || false))%bool.
  eapply p_choice; [done|]. eapply p_alt_next; [exact HP1|]. eapply p_alt_next; [exact HP|apply p_alt_nil].
Qed.
(** A seed: what follows it. *)
Lemma body_next v q its rest : Forall it_ok its -> ends rest -> drop q text = its_text its ++ rest ->
  B (Some (v, q)) (Some (fold_left join_v (it_op <$> its) v, q + length (its_text its))).
Proof.
  intros Hits Hend Hq.
  destruct (std_apart 1 m_rest q (Some (VArr (it_arr <$> its), q + length (its_text its))) (Some (v, q)) true) as (h & Hh & HP).
  { eapply (reach_child _ _ k_more); [by apply (reach_top_rule "Expr[0]")|]. right. left. }
  { by eapply (m_rest_gives text _ _ 0 1 2). }
  exists (S (max 1 (max h 0))). split; [lia|].
  eapply p_choice; [done|]. apply p_alt_take. eapply (more_node _ _ (Some (VArr [v; VArr (it_arr <$> its)], q + length (its_text its)))); [lia| |].
  - eapply p_array; [done|]. change (peg (Some (Ctx 5 0 (Some (v, q)) true)) (JArray [rf "Expr"; m_rest] []) 0 (true || (false || false))%bool (max 1 (max h 0)) (Some (VArr [v; VArr (it_arr <$> its)], q + length (its_text its)))).
    eapply p_array_cons; [apply (E_node E moss_cbf R par text 5 0 (rf "Expr") expr_plain expr_refers)|].
    eapply p_array_cons; [apply HP|]. apply p_array_nil.
  - cbn. assert (ops_v (it_arr <$> its) = Some (it_op <$> its)) as ->; [|done].
    clear. induction its as [|i its IH]; [done|]. cbn [fmap list_fmap]. unfold it_arr at 1. cbn [ops_v].
    change (list_fmap _ _ it_arr its) with (it_arr <$> its). rewrite IH. by destruct i as [[[w o] w'] gl].
Qed.
Lemma expr_none : (forall b, head text = Some b -> ~ a_glyph b) -> exists h, h <= 3 /\ peg None (JRule 5) 0 false h None.
Proof.
  intros (h0 & Hh0 & HP0)%body_none.
  exists (S h0). split; [lia|]. eapply p_rec_fail; unfold is_rule; rewrite ?R_expr; done.
Qed.
Lemma expr_meaning gl its rest : a_glyph gl -> Forall it_ok its -> ends rest -> text = gl :: its_text its ++ rest ->
  exists h, h <= 3 /\ peg None (JRule 5) 0 false h (Some (tree_val (fold_left it_add its (Leaf gl)), S (length (its_text its)))).
Proof.
  intros Hg Hits Hend Ht. rewrite tree_val_fold.
  destruct (body_next (VStr [gl]) 1 its rest Hits Hend) as (h1 & Hh1 & HP1); [by rewrite Ht|].
  destruct (body_first gl _ Hg Ht) as (h0 & Hh0 & HP0). cbn [tree_val].
  change (S (length (its_text its))) with (1 + length (its_text its)).
  assert (forall h' r', h' <= 2 -> peg None (JGrow 5 (VStr [gl]) 1) 0 false h' r' -> exists h, h <= 3 /\ peg None (JRule 5) 0 false h r') as Hgrow.
  { intros h' r' Hh' HG. exists (S (max h0 h')). split; [lia|]. eapply p_rec; unfold is_rule; rewrite ?R_expr; done. }
  destruct its as [|i its].
  - eapply (Hgrow h1); [done|]. eapply p_grow_stop; rewrite ?R_expr; [exact HP1|done|]. cbn. lia.
  - set (v := fold_left join_v (it_op <$> i :: its) (VStr [gl])) in *. set (e := 1 + length (its_text (i :: its))) in *.
    destruct (body_next v e [] rest ltac:(constructor) Hend) as (h2 & Hh2 & HP2).
    { rewrite Ht. unfold e. change (drop (length (its_text (i :: its))) (its_text (i :: its) ++ rest) = rest). apply drop_app. }
    cbn [fmap list_fmap fold_left its_text List.concat length] in HP2. rewrite Nat.add_0_r in HP2.
    apply (Hgrow (max h1 h2)); [lia|]. eapply p_grow_more; rewrite ?R_expr; [exact HP1|done| |].
    { unfold e. change (its_text (i :: its)) with (it_text i ++ its_text its). destruct i as [[[w o'] w'] g']. cbn [it_text]. rewrite !app_length. cbn. lia. }
    eapply p_grow_stop; rewrite ?R_expr; [exact HP2|done|]. cbn. lia.
Qed.
Lemma top_run h r : h <= 3 -> peg None (JRule 5) 0 false h r -> meaning E moss_cbf R par text k_top 0 r.
Proof.
  intros Hh HP. exists false, h. split; [unfold stack_limit; lia|].
  apply (p_plain _ _ _ _ _ _ _ _ _ _ _ r); [done|done| |by destruct r as [[? ?]|]].
  assert (peg None (JNode k_expr) 0 false h r) as HN by (apply p_rule; try done; [apply R_expr|by intros []]).
  eapply p_choice; [done|]. destruct r as [[v e]|].
  - by apply p_alt_take.
  - replace false with (false || false)%bool by done. replace h with (max h 0) by lia. apply p_alt_next; [done|apply p_alt_nil].
Qed.
Lemma top_meaning t : written t text -> meaning E moss_cbf R par text k_top 0 (Some (tree_val t, length text)).
Proof.
  intros (gl & its & Ht & -> & Hg & Hits)%written_items.
  destruct (expr_meaning gl its [] Hg Hits ends_nil) as (h & Hh & HP); [by rewrite app_nil_r|].
  assert (length text = S (length (its_text its))) as -> by (by rewrite Ht). by eapply top_run.
Qed.
(** A text that is no chain is not read to its end. *)
Lemma top_other : (forall t, ~ written t text) -> exists r, meaning E moss_cbf R par text k_top 0 r /\
  match r with Some (v, e) => e < length text | None => True end.
Proof.
  intros Hno. destruct (glyph_or_not text) as [(gl & s & Ht & Hg)|Hg].
  - destruct (split_items s) as (its & rest & -> & Hits & Hend). destruct (expr_meaning gl its rest Hg Hits Hend Ht) as (h & Hh & HP).
    eexists. split; [by eapply top_run|]. cbn beta iota. rewrite Ht. cbn [length]. rewrite app_length. destruct rest as [|b rest]; [|cbn; lia].
    exfalso. apply (Hno (fold_left it_add its (Leaf gl))). rewrite Ht, app_nil_r. by apply items_written.
  - destruct (expr_none Hg) as (h & Hh & HP). exists None. split; [by eapply top_run|done].
Qed.
End Run.

Lemma rank_trees t s : written t s -> exists fuel0, forall fuel, fuel0 <= fuel -> exists s',
  fst (parse_string fuel g o moss_rx (moss_cb ostr) s) = Ok (Some (tree_ast t)) s'.
Proof.
  intros Ht. destruct k_ready as (H1 & [R HR] & H3). pose proof (top_meaning R HR s t Ht) as HM.
  set (c := CRune (new_rune_stream s)).
  destruct (gram_meaning g moss_rx (moss_cb ostr) o moss_cbf k_grammar H3 R par HR (par_ok R HR) c _ (rune_code_ok _) eq_refl HM) as (f0 & Hf).
  exists f0. intros fuel Hl. specialize (Hf fuel Hl). cbn [c_work c] in Hf. rewrite Nat.eqb_refl in Hf.
  destruct Hf as (x & s' & Hx & Hr). exists s'. rewrite <- (rep_tree _ _ _ Hr). exact Hx.
Qed.
Lemma rank_other s : (forall t, ~ written t s) -> exists fuel0, forall fuel, fuel0 <= fuel -> exists s',
  match s with
  | [] => fst (parse_string fuel g o moss_rx (moss_cb ostr) s) = Ok None s'
  | _ => exists k, fst (parse_string fuel g o moss_rx (moss_cb ostr) s) = Ok (Some (AErr k)) s' /\ k <= length s
  end.
Proof.
  intros Hno. destruct k_ready as (H1 & [R HR] & H3). destruct (top_other R HR s Hno) as (r & HM & Hr).
  set (c := CRune (new_rune_stream s)).
  destruct (gram_meaning g moss_rx (moss_cb ostr) o moss_cbf k_grammar H3 R par HR (par_ok R HR) c _ (rune_code_ok _) eq_refl HM) as (f0 & Hf).
  exists f0. intros fuel Hl. specialize (Hf fuel Hl). cbn [c_work c] in Hf.
  change (rs_text (new_rune_stream s)) with s in Hf. destruct r as [[v e]|].
  - destruct (Nat.eqb_spec e (length s)); [lia|]. destruct Hf as (k & s' & Hx & Hk). exists s'. destruct s as [|b s]; [cbn in Hr; lia|]. exists k. split; [exact Hx|lia].
  - destruct s as [|b s]; cbn [length Nat.eqb] in Hf; [destruct Hf as (s' & Hx); by exists s'|]. destruct Hf as (k & s' & Hx & Hk). exists s'. exists k. split; [exact Hx|done].
Qed.
Lemma rank_same s : exists fuel0, forall fuel, fuel0 <= fuel -> exists x y s1 s2,
  fst (parse_string fuel (gram_of moss) o moss_rx (moss_cb ostr) s) = Ok x s1 /\
  fst (parse_string fuel g o moss_rx (moss_cb ostr) s) = Ok y s2 /\ same_answer x y.
Proof.
  destruct (text_or_not s) as [[t Ht]|Hno].
  - destruct (moss_trees ostr o Ho t s Ht) as (f1 & H1). destruct (rank_trees t s Ht) as (f2 & H2). exists (f1 + f2). intros fuel Hf.
    destruct (H1 fuel ltac:(lia)) as (s1 & E1). destruct (H2 fuel ltac:(lia)) as (s2 & E2). eexists _, _, s1, s2. split; [exact E1|]. split; [exact E2|by left].
  - destruct (moss_other ostr o Ho s Hno) as (f1 & H1). destruct (rank_other s Hno) as (f2 & H2). exists (f1 + f2). intros fuel Hf.
    destruct (H1 fuel ltac:(lia)) as (s1 & E1). destruct (H2 fuel ltac:(lia)) as (s2 & E2). destruct s as [|b s].
    + eexists _, _, s1, s2. split; [exact E1|]. split; [exact E2|by left].
    + destruct E1 as (k & E1 & _). destruct E2 as (k' & E2 & _). eexists _, _, s1, s2. split; [exact E1|]. split; [exact E2|right; by exists k, k'].
Qed.
End Whole.
