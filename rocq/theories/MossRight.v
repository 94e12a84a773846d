(** The right-recursive grammar of examples/precedence. *)
From Verif Require Import Base Helpers Utf8 Stream StreamSpec Native Engine EngSpec EngInv Toy Peg PegProofs PegRep PegBody PegStd PegStdProofs
  RunSpec PegLaws PegRun Build BuildSpec BuildMain Joeson JoesonSpec JoesonRun Calc CalcRun CalcSpec CalcPeg Moss MossRun MossSpec Gives MossPeg.

(** ** The grammar by name *)
Definition y_pair : node := nd "" true true (KSeq TArray [rf "AddOp"; rf "Expr"]).
Definition y_rest : node := nd "" true false (KPat y_pair None (-1) (-1)).
Definition y_more : node := nd "" true true (KSeq TArray [rf "Expr"; y_rest]).
Definition y_expr : node := rl "Expr" true 0 (Some 0) (KChoice [y_more; m_one]).
Definition y_line : node := rl "at hand[0]" true 3 None (KRef "Expr").
Definition y_top : node := Node (Info "at hand" "" true false 0 true None false false) (KChoice [y_line]).
Lemma y_nodes : moss_right = (y_top, [("Expr", y_expr); ("AddOp", m_addop 1); ("Glyph", m_glyph 2); ("at hand[0]", y_line)]%string).
Proof. reflexivity. Qed.

(** ** Texts *)
(** Nothing follows. *)
Definition stops (rest : bytes) : Prop := forall o g r, an_op o -> a_glyph g -> rest <> o :: g :: r.
Lemma stops_nil : stops [].
Proof. done. Qed.
Lemma chain_split s : (forall b, head s = Some b -> ~ a_glyph b) \/ exists t u rest, s = u ++ rest /\ rwritten t u /\ stops rest.
Proof.
  remember (length s) as n eqn:Hn. assert (length s <= n) as H by lia. clear Hn. revert s H. induction n as [|n IH]; intros s H.
  - destruct s; [|cbn in H; lia]. by left.
  - destruct (glyph_or_not s) as [(g & r & -> & Hg)|Hg]; [right|by left].
    destruct (op_or_not r) as [(o & r1 & -> & Ho)|Ho].
    + destruct (IH r1) as [Hng|(t & u & rest & -> & Ht & Hr)]; [cbn in H; lia| |].
      * exists (RLeaf g), [g], (o :: r1). split; [done|]. split; [by constructor|]. intros o' g' r' _ Hg' [= _ ->]. by apply (Hng g').
      * exists (RJoin g o t), (g :: o :: u), rest. split; [done|]. split; [by constructor|done].
    + exists (RLeaf g), [g], r. split; [done|]. split; [by constructor|]. intros o' g' r' Ho' _ ->. by apply (Ho o').
Qed.
Fixpoint rops (t : rtree) : nat := match t with RLeaf _ => 0 | RJoin _ _ r => S (rops r) end.
Lemma rwritten_length t u : rwritten t u -> length u = S (2 * rops t).
Proof. induction 1 as [|? ? ? ? ? ? ? IH]; cbn [length rops]; lia. Qed.
Fixpoint rtree_val (t : rtree) : val :=
  match t with
  | RLeaf g => VStr [g]
  | RJoin g op r => VUser 0 [VStr [g]; VStr [op]; rtree_val r]
  end.
Lemma rep_rtree h t x : rep [] h x (rtree_val t) -> x = rtree_ast t.
Proof.
  revert x. induction t as [g|g op t IH]; intros x; cbn; inversion 1; subst; [done|].
  repeat match goal with H : reps _ _ _ (_ :: _) |- _ => inversion H; subst; clear H | H : reps _ _ _ [] |- _ => inversion H; subst; clear H end.
  repeat match goal with H : rep _ _ _ (VStr _) |- _ => inversion H; subst; clear H end.
  by rewrite (IH _ ltac:(eassumption)).
Qed.

Section Text.
Variable text : bytes.
Notation rules := (g_rule (gram_of moss_right)).
(** The left-recursive rule has no textbook meaning. *)
Lemma y_none f : forall d p, std rules moss_rx moss_cbf text f d y_expr p = None.
Proof.
  induction (lt_wf f) as [f _ IH]. intros d p. destruct f as [|f]; [done|]. destruct d as [|d]; [done|].
  assert (std rules moss_rx moss_cbf text f d y_more p = None) as HM.
  { destruct f as [|f]; [done|].
    assert (std rules moss_rx moss_cbf text f d (rf "Expr") p = None) as HX.
    { destruct f as [|f]; [done|].
      change (match std rules moss_rx moss_cbf text f d y_expr p with None => None | Some r => prepared moss_cbf (n_info (rf "Expr")) r end = None).
      by rewrite IH by lia. }
    change (match (match std rules moss_rx moss_cbf text f d (rf "Expr") p with
                   | Some (Some (v, q)) => std_array (std rules moss_rx moss_cbf text f d) [y_rest] ([] ++ [v]) q | x => x end)
            with None => None | Some r => prepared moss_cbf (n_info y_more) r end = None).
    by rewrite HX. }
  change (match (match std rules moss_rx moss_cbf text f d y_more p with
                 | Some None => std_alt (std rules moss_rx moss_cbf text f d) [m_one] p | x => x end)
          with None => None | Some r => prepared moss_cbf (n_info y_expr) r end = None).
  by rewrite HM.
Qed.

End Text.

(** ** Whole texts *)
Section Whole.
Variable ostr : ast -> bytes.
Variable o : popts.
Hypothesis Ho : po_debug o = false.
Notation g := (gram_of moss_right).
Notation E := (mk_env g o moss_rx (moss_cb ostr)).

Lemma y_reach n : reach E y_top n -> n ∈ all_nodes y_top (snd moss_right).
Proof.
  intros H. induction H as [|n c _ IH Hc|name n H].
  - apply elem_of_flat_map. exists y_top. split; [left|apply subnodes_self].
  - apply elem_of_flat_map in IH as (m & Hm & IH). apply elem_of_flat_map. exists m. split; [done|]. by eapply subnodes_child.
  - apply last_of_split in H as (i & Hi & _). apply elem_of_list_lookup_2 in Hi.
    apply elem_of_flat_map. exists n. split; [right; apply elem_of_list_fmap; by exists (name, n)|apply subnodes_self].
Qed.
Lemma y_ready : ids_fit E y_top /\ ids_unique E y_top /\ top_rank y_top.
Proof.
  pose proof (ready moss_compile 300 "at hand" moss_right_lines moss_right moss_right_eq moss_right_names_once moss_right_no_singles ltac:(done) ltac:(by vm_compute) o moss_rx (moss_cb ostr))
    as (H1 & H2 & H3 & _). rewrite y_nodes. done.
Qed.
Lemma y_quiet : quiet E y_top.
Proof.
  split; [done|]. split; [done|]. intros n Hn%y_reach.
  assert (forallb (fun n => negb (i_debug (n_info n))) (all_nodes y_top (snd moss_right)) = true) as H by (vm_compute; reflexivity).
  rewrite forallb_forall in H. apply elem_of_list_In in Hn. specialize (H n Hn). by destruct (i_debug (n_info n)).
Qed.
Lemma y_grammar : pure_grammar E y_top moss_cbf.
Proof.
  destruct y_ready as (H1 & H2 & H3). split; [apply moss_rx_ok|done|done|apply y_quiet|by eapply moss_pure].
Qed.

Section Run.
Variable R : nat -> node.
Hypothesis HR : lists_rules E y_top R.
Variable text : bytes.
Notation peg := (peg (e_rule E) (e_rx E) moss_cbf R (fun _ => None) text).
Notation cx p sd := (Some (Ctx 0 p sd false)).

Lemma reach_top_rule nm m : g_rule g nm = Some m -> reach E y_top m.
Proof. intros H. by eapply reach_rule. Qed.
Lemma R_expr : R 0 = y_expr.
Proof. apply (HR y_expr); [by apply (reach_top_rule "Expr")|done]. Qed.
Lemma R_line : R 3 = y_line.
Proof. apply (HR y_line); [by apply (reach_top_rule "at hand[0]")|done]. Qed.
Lemma expr_plain : plain_rule R (fun _ => None) 0.
Proof. unfold plain_rule, is_rule. by rewrite R_expr. Qed.
Lemma expr_refers : refers E R (rf "Expr") 0.
Proof. repeat split. exists "Expr"%string. split; [done|]. by rewrite R_expr. Qed.
Lemma std_apart d n p q r sd : reach E y_top n -> Gives.gives (g_rule g) moss_rx moss_cbf text d n q r ->
  exists h, h <= d /\ peg (cx p sd) (JNode n) q false h r.
Proof.
  intros Hn [f0 H]. eapply (std_peg_gen E moss_cbf R text (fun _ => None) y_top HR ltac:(done) f0); [done|by apply H|].
  intros x [= <-] f' d' _ _. cbn [x_id x_pos]. rewrite R_expr. apply y_none.
Qed.
Lemma reach_more : reach E y_top y_more.
Proof. eapply (reach_child _ _ y_expr); [by apply (reach_top_rule "Expr")|left]. Qed.
Lemma reach_pair : reach E y_top y_pair.
Proof. eapply (reach_child _ _ y_rest); [|left]. eapply (reach_child _ _ y_more); [apply reach_more|]. right. left. Qed.
Lemma seed_node p sd : peg (cx p sd) (JNode (rf "Expr")) p true 1 sd.
Proof. apply (E_node E moss_cbf R (fun _ => None) text 0 p (rf "Expr") expr_plain expr_refers). Qed.
(** The rule at another place. *)
Lemma other_node p sd q h r : p <> q -> peg None (JRule 0) q false h r -> peg (cx p sd) (JNode (rf "Expr")) q false h r.
Proof.
  intros Hpq H. apply (p_plain _ _ _ _ _ _ _ _ _ _ _ r); [done|done| |by destruct r as [[? ?]|]].
  eapply p_ref; [done|reflexivity|]. apply p_rule; try done; [apply R_expr|]. intros [_ ?]. done.
Qed.
(** No seed: a glyph or nothing. *)
Lemma body_first p r : Gives.gives (g_rule g) moss_rx moss_cbf text 1 (m_glyph 2) p r ->
  exists h, h <= 2 /\ peg (cx p None) (JBody y_expr) p true h r.
Proof.
  intros H. destruct (std_apart 1 m_one p p r None) as (h & Hh & HP).
  { eapply (reach_child _ _ y_expr); [by apply (reach_top_rule "Expr")|]. right. left. }
  { apply gives_bare; [done|done|by split; [|left]|]. eapply does_ref; [done|reflexivity|]. exact H. }
  assert (peg (cx p None) (JNode y_more) p true 1 None) as HM.
  { apply (p_plain _ _ _ _ _ _ _ _ _ _ _ None); [done|done| |done]. eapply p_array; [done|]. apply p_array_fail. apply seed_node. }
  exists (max 1 (max h 0)). split; [lia|]. eapply p_choice; [done|]. destruct r as [[v e]|].
  - rewrite (Nat.max_0_r h). change true with (true || false)%bool. eapply p_alt_next; [exact HM|by apply p_alt_take].
  - change true with (true || (false || false))%bool. eapply p_alt_next; [exact HM|]. eapply p_alt_next; [exact HP|apply p_alt_nil].
Qed.
Lemma expr_none p rest : drop p text = rest -> (forall b, head rest = Some b -> ~ a_glyph b) -> exists h, h <= 3 /\ peg None (JRule 0) p false h None.
Proof.
  intros Hp Hg. destruct (body_first p None) as (h0 & Hh0 & HP0); [by eapply m_no_glyph|].
  exists (S h0). split; [lia|]. eapply p_rec_fail; unfold is_rule; rewrite ?R_expr; done.
Qed.
(** Nothing follows. *)
Lemma pair_none p sd q rest : p <= q -> drop q text = rest -> stops rest -> exists h, h <= 3 /\ peg (cx p sd) (JNode y_pair) q false h None.
Proof.
  intros Hpq Hq Hs.
  assert (forall r, Gives.gives (g_rule g) moss_rx moss_cbf text 1 (m_addop 1) q r -> exists h, h <= 1 /\ peg (cx p sd) (JNode (rf "AddOp")) q false h r) as HA.
  { intros r H. apply (std_apart 1); [eapply (reach_child _ _ y_pair); [apply reach_pair|left]|]. by eapply m_ref. }
  destruct (op_or_not rest) as [(o' & r1 & -> & Ho')|Hno].
  - destruct (HA (Some (VStr [o'], S q))) as (h1 & Hh1 & H1); [by eapply m_op|].
    destruct (expr_none (S q) r1) as (h2 & Hh2 & H2).
    { exact (at_cons _ _ _ _ Hq). }
    { intros b Hb Hg. destruct r1 as [|b' r1]; [done|]. injection Hb as ->. by apply (Hs o' b r1). }
    exists (max h1 h2). split; [lia|]. apply (p_plain _ _ _ _ _ _ _ _ _ _ _ None); [done|done| |done].
    eapply p_array; [done|]. change false with (false || false)%bool. eapply p_array_cons; [exact H1|]. apply p_array_fail. apply other_node; [lia|done].
  - destruct (HA None) as (h1 & Hh1 & H1); [by eapply m_no_op|]. exists h1. split; [lia|].
    apply (p_plain _ _ _ _ _ _ _ _ _ _ _ None); [done|done| |done]. eapply p_array; [done|]. by apply p_array_fail.
Qed.
Definition join (v : val) (l : list (bytes * val)) : val := fold_left join_v l v.
(** With a seed: the rest. *)
Lemma body_next p v q h l e : peg (cx p (Some (v, q))) (JNode y_rest) q false h (Some (VArr ((fun x => VArr [VStr x.1; x.2]) <$> l), e)) ->
  exists h', h' <= max 1 h /\ peg (cx p (Some (v, q))) (JBody y_expr) p true h' (Some (VArr [v; VArr ((fun x => VArr [VStr x.1; x.2]) <$> l)], e)) /\
    prepared moss_cbf (n_info y_expr) (Some (VArr [v; VArr ((fun x => VArr [VStr x.1; x.2]) <$> l)], e)) = Some (Some (join v l, e)).
Proof.
  intros HP. exists (max 1 (max h 0)). split; [lia|]. split.
  - eapply p_choice; [done|]. apply p_alt_take. apply (p_plain _ _ _ _ _ _ _ _ _ _ _ (Some (VArr [v; VArr ((fun x => VArr [VStr x.1; x.2]) <$> l)], e))); [done|done| |done].
    eapply p_array; [done|]. change true with (true || (false || false))%bool.
    eapply p_array_cons; [apply seed_node|]. eapply p_array_cons; [exact HP|]. apply p_array_nil.
  - cbn. assert (ops_v ((fun x => VArr [VStr x.1; x.2]) <$> l) = Some l) as ->; [|done].
    clear. induction l as [|[b x] l IH]; [done|]. cbn [fmap list_fmap ops_v fst snd].
    change (list_fmap _ _ _ l) with ((fun x => VArr [VStr x.1; x.2]) <$> l). by rewrite IH.
Qed.
Lemma rest_none p v q rest : p <= q -> drop q text = rest -> stops rest ->
  exists h, h <= 3 /\ peg (cx p (Some (v, q))) (JNode y_rest) q false h (Some (VArr [], q)).
Proof.
  intros Hpq Hq Hs. destruct (pair_none p (Some (v, q)) q rest Hpq Hq Hs) as (h & Hh & H). exists h. split; [done|].
  apply (p_plain _ _ _ _ _ _ _ _ _ _ _ (Some (VArr [], q))); [done|done| |done]. by apply (p_pat_none _ _ _ _ _ _ _ _ y_pair None (-1) (-1)).
Qed.
Lemma expr_meaning t u : rwritten t u -> forall p rest, drop p text = u ++ rest -> stops rest ->
  exists h, h <= 4 + rops t /\ peg None (JRule 0) p false h (Some (rtree_val t, p + length u)).
Proof.
  induction 1 as [gl Hg|gl op t u Hg Hop Ht IH]; intros p rest Hp Hs.
  - destruct (body_first p (Some (VStr [gl], S p))) as (h0 & Hh0 & H0); [by eapply m_glyph_gives|].
    destruct (rest_none p (VStr [gl]) (S p) rest) as (h1 & Hh1 & H1); [lia|exact (at_cons _ _ _ _ Hp)|done|].
    destruct (body_next p (VStr [gl]) (S p) h1 [] (S p) H1) as (h2 & Hh2 & H2 & H2').
    exists (S (max h0 h2)). split; [cbn [rops]; lia|]. cbn [length rtree_val]. rewrite Nat.add_1_r.
    eapply (p_rec _ _ _ _ _ _ _ _ _ _ (Some (VStr [gl], S p)) (VStr [gl]) (S p)); unfold is_rule; rewrite ?R_expr; try done.
    eapply p_grow_stop; rewrite ?R_expr; [exact H2|exact H2'|]. cbn. lia.
  - cbn [app] in Hp. destruct (body_first p (Some (VStr [gl], S p))) as (h0 & Hh0 & H0); [by eapply m_glyph_gives|].
    pose proof (at_cons _ _ _ _ Hp) as Hp1. pose proof (at_cons _ _ _ _ Hp1) as Hp2.
    destruct (IH (S (S p)) rest Hp2 Hs) as (hi & Hhi & Hi). set (e := S (S p) + length u) in *.
    pose proof (at_app _ _ _ _ Hp2) as Hpe. fold e in Hpe.
    destruct (std_apart 1 (rf "AddOp") p (S p) (Some (VStr [op], S (S p))) (Some (VStr [gl], S p))) as (ha & Hha & Ha).
    { eapply (reach_child _ _ y_pair); [apply reach_pair|left]. }
    { eapply m_ref; [reflexivity|]. by eapply m_op. }
    assert (peg (cx p (Some (VStr [gl], S p))) (JNode y_pair) (S p) false (max ha (max hi 0)) (Some (VArr [VStr [op]; rtree_val t], e))) as Hpair.
    { apply (p_plain _ _ _ _ _ _ _ _ _ _ _ (Some (VArr [VStr [op]; rtree_val t], e))); [done|done| |done].
      eapply p_array; [done|]. match goal with |- peg ?c ?j ?q _ ?h ?r => change (peg c j q (false || (false || false))%bool h r) end. eapply p_array_cons; [exact Ha|]. eapply p_array_cons; [apply other_node; [lia|exact Hi]|]. apply p_array_nil. }
    destruct (pair_none p (Some (VStr [gl], S p)) e rest) as (hn & Hhn & Hn); [unfold e; lia|exact Hpe|done|].
    destruct (body_next p (VStr [gl]) (S p) (max (max ha (max hi 0)) hn) [([op], rtree_val t)] e) as (h2 & Hh2 & H2 & H2').
    { apply (p_plain _ _ _ _ _ _ _ _ _ _ _ (Some (VArr [VArr [VStr [op]; rtree_val t]], e))); [done|done| |done]. match goal with |- peg ?c ?j ?q _ ?h ?r => change (peg c j q (false || false)%bool h r) end.
      apply (p_pat_some _ _ _ _ _ _ _ _ y_pair None (-1) (-1) _ _ _ _ _ (VArr [VStr [op]; rtree_val t]) e); [done|exact Hpair|]. by apply p_loop_end. }
    set (v := join (VStr [gl]) [([op], rtree_val t)]) in *.
    destruct (rest_none p v e rest) as (h3 & Hh3 & H3); [unfold e; lia|exact Hpe|done|].
    destruct (body_next p v e h3 [] e H3) as (h4 & Hh4 & H4 & H4').
    exists (S (max h0 (max h2 h4))). split; [cbn [rops]; lia|].
    replace (p + length (gl :: op :: u)) with e by (unfold e; cbn; lia). change (rtree_val (RJoin gl op t)) with v.
    eapply (p_rec _ _ _ _ _ _ _ _ _ _ (Some (VStr [gl], S p)) (VStr [gl]) (S p)); unfold is_rule; rewrite ?R_expr; try done.
    eapply p_grow_more; rewrite ?R_expr; [exact H2|exact H2'|unfold e; lia|].
    eapply p_grow_stop; rewrite ?R_expr; [exact H4|exact H4'|]. cbn. lia.
Qed.
Lemma top_run h r : S h <= stack_limit -> peg None (JRule 0) 0 false h r -> meaning E moss_cbf R (fun _ => None) text y_top 0 r.
Proof.
  intros Hh HP.
  assert (peg None (JRule 3) 0 false (S h) r) as HL.
  { apply (p_once _ _ _ _ _ _ _ _ _ r); unfold is_rule; rewrite ?R_line; try done; [|by destruct r as [[? ?]|]]. eapply p_ref; [done|reflexivity|].
    apply p_rule; try done; [apply R_expr|by intros [H _]]. }
  exists false, (S h). split; [done|].
  apply (p_plain _ _ _ _ _ _ _ _ _ _ _ r); [done|done| |by destruct r as [[? ?]|]].
  eapply p_choice; [done|]. destruct r as [[v e]|].
  - apply p_alt_take. apply p_rule; try done; [apply R_line|by intros []].
  - replace false with (false || false)%bool by done. replace (S h) with (max (S h) 0) by lia. apply p_alt_next; [|apply p_alt_nil]. apply p_rule; try done; [apply R_line|by intros []].
Qed.
Lemma top_meaning t : rwritten t text -> 5 + rops t <= stack_limit -> meaning E moss_cbf R (fun _ => None) text y_top 0 (Some (rtree_val t, length text)).
Proof.
  intros Ht Hl. destruct (expr_meaning t text Ht 0 []) as (h & Hh & HP); [by rewrite app_nil_r|apply stops_nil|]. eapply (top_run h); [lia|exact HP].
Qed.
(** A text that is no chain is not read to its end. *)
Lemma top_other : (forall t, ~ rwritten t text) -> length text + 10 <= 2 * stack_limit -> exists r, meaning E moss_cbf R (fun _ => None) text y_top 0 r /\
  match r with Some (v, e) => e < length text | None => True end.
Proof.
  intros Hno Hl. destruct (chain_split text) as [Hg|(t & u & rest & Ht & Hw & Hs)].
  - destruct (expr_none 0 text eq_refl Hg) as (h & Hh & HP). exists None. split; [eapply (top_run h); [unfold stack_limit; lia|exact HP]|done].
  - destruct (expr_meaning t u Hw 0 rest Ht Hs) as (h & Hh & HP).
    pose proof (rwritten_length _ _ Hw) as HL. pose proof (f_equal length Ht) as HT. rewrite app_length in HT.
    eexists. split; [eapply (top_run h); [lia|exact HP]|]. cbn beta iota. destruct rest as [|b rest]; [|cbn in *; lia].
    exfalso. apply (Hno t). by rewrite Ht, app_nil_r.
Qed.
End Run.

Lemma right_trees t s : rwritten t s -> length s + 10 <= 2 * stack_limit -> exists fuel0, forall fuel, fuel0 <= fuel -> exists s',
  fst (parse_string fuel g o moss_rx (moss_cb ostr) s) = Ok (Some (rtree_ast t)) s'.
Proof.
  intros Ht Hlen. pose proof (rwritten_length _ _ Ht) as HL. destruct y_ready as (H1 & [R HR] & H3). pose proof (top_meaning R HR s t Ht ltac:(lia)) as HM.
  set (c := CRune (new_rune_stream s)).
  destruct (gram_meaning g moss_rx (moss_cb ostr) o moss_cbf y_grammar H3 R (fun _ => None) HR ltac:(done) c _ (rune_code_ok _) eq_refl HM) as (f0 & Hf).
  exists f0. intros fuel Hl. specialize (Hf fuel Hl). cbn [c_work c] in Hf. rewrite Nat.eqb_refl in Hf.
  destruct Hf as (x & s' & Hx & Hr). exists s'. rewrite <- (rep_rtree _ _ _ Hr). exact Hx.
Qed.
Lemma right_other s : (forall t, ~ rwritten t s) -> length s + 10 <= 2 * stack_limit -> exists fuel0, forall fuel, fuel0 <= fuel -> exists s',
  match s with
  | [] => fst (parse_string fuel g o moss_rx (moss_cb ostr) s) = Ok None s'
  | _ => exists k, fst (parse_string fuel g o moss_rx (moss_cb ostr) s) = Ok (Some (AErr k)) s' /\ k <= length s
  end.
Proof.
  intros Hno Hlen. destruct y_ready as (H1 & [R HR] & H3). destruct (top_other R HR s Hno Hlen) as (r & HM & Hr).
  set (c := CRune (new_rune_stream s)).
  destruct (gram_meaning g moss_rx (moss_cb ostr) o moss_cbf y_grammar H3 R (fun _ => None) HR ltac:(done) c _ (rune_code_ok _) eq_refl HM) as (f0 & Hf).
  exists f0. intros fuel Hl. specialize (Hf fuel Hl). cbn [c_work c] in Hf.
  change (rs_text (new_rune_stream s)) with s in Hf. destruct r as [[v e]|].
  - destruct (Nat.eqb_spec e (length s)); [lia|]. destruct Hf as (k & s' & Hx & Hk). exists s'. destruct s as [|b s]; [cbn in Hr; lia|]. exists k. split; [exact Hx|lia].
  - destruct s as [|b s]; cbn [length Nat.eqb] in Hf; [destruct Hf as (s' & Hx); by exists s'|]. destruct Hf as (k & s' & Hx & Hk). exists s'. exists k. split; [exact Hx|done].
Qed.
Lemma right_chains t s : rwritten t s -> length s <= 2000 -> exists fuel0, forall fuel, fuel0 <= fuel -> exists s',
  fst (parse_string fuel g o moss_rx (moss_cb ostr) s) = Ok (Some (rtree_ast t)) s'.
Proof. intros Ht Hl. apply right_trees; [done|]. unfold stack_limit. lia. Qed.
Lemma right_others s : (forall t, ~ rwritten t s) -> length s <= 2000 -> exists fuel0, forall fuel, fuel0 <= fuel -> exists s',
  match s with
  | [] => fst (parse_string fuel g o moss_rx (moss_cb ostr) s) = Ok None s'
  | _ => exists k, fst (parse_string fuel g o moss_rx (moss_cb ostr) s) = Ok (Some (AErr k)) s' /\ k <= length s
  end.
Proof. intros Ht Hl. apply right_other; [done|]. unfold stack_limit. lia. Qed.
Lemma right_left t s : rwritten t s -> exists t', written t' s.
Proof.
  intros H. assert (exists gl its, s = gl :: its_text its /\ a_glyph gl /\ Forall it_ok its) as (gl & its & -> & Hg & Hits).
  { induction H as [gl Hg|gl op t s Hg Hop Ht (gl' & its & -> & Hg' & Hits)]; [by exists gl, []|].
    exists gl, (([], op, [], gl') :: its). split; [done|]. split; [done|]. constructor; [|done]. repeat split; try done; constructor. }
  eexists. by apply items_written.
Qed.
Lemma right_differs t s : rwritten t s -> 4 < length s <= 2000 -> exists fuel0, forall fuel, fuel0 <= fuel -> exists x y s1 s2,
  fst (parse_string fuel g o moss_rx (moss_cb ostr) s) = Ok x s1 /\
  fst (parse_string fuel (gram_of moss) o moss_rx (moss_cb ostr) s) = Ok y s2 /\ ~ same_answer x y.
Proof.
  intros Ht [Hl1 Hl2]. destruct (right_left t s Ht) as [t' Ht']. destruct (right_chains t s Ht Hl2) as (f1 & H1). destruct (moss_trees ostr o Ho t' s Ht') as (f2 & H2).
  exists (f1 + f2). intros fuel Hf. destruct (H1 fuel ltac:(lia)) as (s1 & E1). destruct (H2 fuel ltac:(lia)) as (s2 & E2).
  eexists _, _, s1, s2. split; [exact E1|]. split; [exact E2|]. pose proof (rwritten_length _ _ Ht) as HL.
  destruct t as [|gl op [|gl' op' t]]; [cbn in HL; lia..|]. destruct t' as [gl''|t' op'' gl'']; cbn [rtree_ast tree_ast]; intros [?|(k & k' & ? & ?)]; done.
Qed.
End Whole.
