(** The left-recursive grammar of examples/precedence. *)
From Verif Require Import Base Helpers Utf8 Stream StreamSpec Native Engine EngSpec EngInv Toy Peg PegProofs PegRep PegBody PegStd PegStdProofs
  RunSpec PegLaws PegRun Build BuildSpec BuildMain Joeson JoesonSpec JoesonRun Calc CalcRun CalcSpec CalcPeg Moss MossRun MossSpec Gives.

(** ** growMoss *)
Section Grow.
Variable ostr : ast -> bytes.
Lemma moss_ops_pairs h l : moss_ops ostr h ((fun '(op, e) => AArr [AStr op; e]) <$> l) = Some l.
Proof. induction l as [|[op e] l IH]; [done|]. change (match moss_ops ostr h ((fun '(op, e) => AArr [AStr op; e]) <$> l) with Some r => Some ((op, e) :: r) | None => None end = Some ((op, e) :: l)). by rewrite IH. Qed.
Lemma moss_loop_app l l' x : moss_loop x (l ++ l') = moss_loop (moss_loop x l) l'.
Proof. revert x. induction l as [|[op e] l IH]; intros x; [done|]. apply IH. Qed.
Lemma moss_loop_left x l : left_nested x l (moss_loop x l).
Proof.
  induction l as [|[op e] l IH] using rev_ind; [constructor|]. rewrite moss_loop_app. cbn. by constructor.
Qed.
Lemma grow_moss_left h first l : exists t, grow_moss ostr h (AArr [first; AArr ((fun '(op, e) => AArr [AStr op; e]) <$> l)]) = Some t /\ left_nested first l t.
Proof.
  exists (moss_loop first l). split; [|apply moss_loop_left]. cbn [grow_moss]. rewrite moss_ops_pairs. by destruct l.
Qed.
End Grow.

(** ** The grammar by name *)
Definition m_pair : node := nd "" true true (KSeq TArray [n_sp; rf "AddOp"; n_sp; rf "Glyph"]).
Definition m_rest : node := nd "" true false (KPat m_pair None (-1) (-1)).
Definition m_more : node := nd "" true true (KSeq TArray [rf "Expr"; m_rest]).
Definition m_one : node := nd "" true true (KRef "Glyph").
Definition m_expr : node := rl "Expr" true 0 (Some 0) (KChoice [m_more; m_one]).
Definition m_addop (i : nat) : node := rl "AddOp" false i None (KChoice [n_lit 43; n_lit 45]).
Definition m_glyph (i : nat) : node := rl "Glyph" true i None (KRegex re_glyph).
Definition m_blank (i : nat) : node := rl "_" true i None (KPat n_blank None (-1) (-1)).
Definition m_line : node := rl "at hand[0]" true 4 None (KRef "Expr").
Definition m_top : node := Node (Info "at hand" "" true false 0 true None false false) (KChoice [m_line]).
Lemma moss_nodes : moss = (m_top, [("Expr", m_expr); ("AddOp", m_addop 1); ("Glyph", m_glyph 2); ("_", m_blank 3); ("at hand[0]", m_line)]%string).
Proof. reflexivity. Qed.

Lemma moss_rx_ok re : rx_ok (moss_rx re).
Proof.
  assert (forall f s i a b, find_first f s i = Some (a, b) -> a <= b <= i + length s) as HF.
  { intros f. induction s as [|c s IH]; intros i a b; cbn; [done|]. destruct (f c); [intros [= <- <-]; lia|]. intros H%IH. lia. }
  intros s a b. unfold moss_rx. destruct (bytes_eqb re re_blank); [apply HF|]. destruct (bytes_eqb re re_glyph); [apply HF|done].
Qed.

(** ** The callback as a function of values *)
Fixpoint ops_v (l : list val) : option (list (bytes * val)) :=
  match l with
  | [] => Some []
  | VArr (VStr o :: e :: _) :: l' => match ops_v l' with Some r => Some ((o, e) :: r) | None => None end
  | _ => None
  end.
Definition join_v (a : val) (x : bytes * val) : val := VUser 0 [a; VStr x.1; x.2].
Definition moss_cbf (f pos : nat) (v : val) : option (option val) :=
  match f, v with
  | 0, VStr s => Some (Some (VStr s))
  | 0, VArr (first :: VArr ops :: _) => match ops_v ops with Some l => Some (Some (fold_left join_v l first)) | None => None end
  | _, _ => None
  end.
Lemma ops_rep ostr P h l l' ov : reps P h l l' -> ops_v l' = Some ov ->
  exists oa, moss_ops ostr h l = Some oa /\ Forall2 (fun a v => a.1 = v.1 /\ rep P h a.2 v.2) oa ov.
Proof.
  intros H. revert ov. induction H as [|x v l l' Hx Hl IH]; intros ov; cbn [ops_v].
  - intros [= <-]. by exists [].
  - destruct Hx as [| | | |l1 l1' H1| | |]; try done. destruct H1 as [|x1 v1 l1 l1' Hx1 H1]; [done|].
    destruct Hx1; try done. destruct H1 as [|x2 v2 l2 l2' Hx2 H2]; [done|].
    destruct (ops_v l') as [r|]; [|done]. intros [= <-]. destruct (IH r eq_refl) as (oa & Ho & Hf).
    exists ((s, x2) :: oa). split; [|by constructor]. change (match moss_ops ostr h l with Some r => Some ((s, x2) :: r) | None => None end = Some ((s, x2) :: oa)).
    by rewrite Ho.
Qed.
Lemma loop_rep P h oa ov : Forall2 (fun a v => a.1 = v.1 /\ rep P h a.2 v.2) oa ov -> forall x v, rep P h x v ->
  rep P h (moss_loop x oa) (fold_left join_v ov v).
Proof.
  induction 1 as [|[o x1] [o' v1] oa ov [He Hr] _ IH]; intros x v Hx; [done|]. cbn [fst snd] in *. subst o'. cbn [moss_loop fold_left].
  apply IH. unfold binaryexpr, join_v. cbn [fst snd]. repeat constructor; done.
Qed.
Lemma moss_keeps ostr E f : e_cb E = moss_cb ostr -> cb_keeps E moss_cbf f.
Proof.
  intros HE p h x v P Hr _. rewrite HE. destruct f as [|f]; [|done]. destruct Hr as [| | | |l l' Hl| | |]; try done.
  - exists h, (Some (AStr s)). split; [done|]. split; [apply hext_refl|]. eexists. split; [done|constructor].
  - cbn [moss_cbf]. destruct Hl as [|x1 v1 l l' Hx1 Hl]; [done|]. destruct Hl as [|x2 v2 l l' Hx2 Hl]; [done|]. destruct Hx2 as [| | | |l2 l2' Hl2| | |]; try done.
    destruct (ops_v l2') as [ov|] eqn:EO; [|done]. destruct (ops_rep ostr _ _ _ _ _ Hl2 EO) as (oa & Ho & Hf).
    pose proof (loop_rep _ _ _ _ Hf _ _ Hx1) as HL.
    exists h, (Some (moss_loop x1 oa)). split; [|split; [apply hext_refl|by eexists]].
    cbn [moss_cb grow_moss]. rewrite Ho. by destruct oa.
Qed.
Lemma moss_pure ostr E root : e_cb E = moss_cb ostr -> cb_pure E root moss_cbf.
Proof. intros HE f. left. by eapply moss_keeps. Qed.

(** ** Texts *)
Definition item : Type := bytes * N * bytes * N.
Definition it_text (i : item) : bytes := let '(w, o, w', g) := i in w ++ [o] ++ w' ++ [g].
Definition it_ok (i : item) : Prop := let '(w, o, w', g) := i in blank w /\ an_op o /\ blank w' /\ a_glyph g.
Definition it_op (i : item) : bytes * val := let '(w, o, w', g) := i in ([o], VStr [g]).
Definition it_add (t : tree) (i : item) : tree := let '(w, o, w', g) := i in Join t o g.
Definition its_text (l : list item) : bytes := List.concat (it_text <$> l).
Fixpoint tree_val (t : tree) : val :=
  match t with
  | Leaf g => VStr [g]
  | Join l op g => VUser 0 [tree_val l; VStr [op]; VStr [g]]
  end.
Lemma written_items t s : written t s -> exists g its, s = g :: its_text its /\ t = fold_left it_add its (Leaf g) /\ a_glyph g /\ Forall it_ok its.
Proof.
  induction 1 as [g Hg|t s w op w' g Ht (g0 & its & -> & -> & Hg0 & Hits) Hw Hw' Hop Hg]; [by exists g, []|].
  exists g0, (its ++ [(w, op, w', g)]). split.
  - unfold its_text. rewrite fmap_app, List.concat_app. cbn. by rewrite app_nil_r.
  - split; [by rewrite fold_left_app|]. split; [done|]. apply Forall_app. split; [done|]. by constructor.
Qed.
Lemma items_written its g : a_glyph g -> Forall it_ok its -> written (fold_left it_add its (Leaf g)) (g :: its_text its).
Proof.
  intros Hg. induction its as [|[[[w o] w'] g'] its IH] using rev_ind; intros Hits; [by constructor|].
  apply Forall_app in Hits as [Hits Hi]. apply Forall_cons in Hi as [(H1 & H2 & H3 & H4) _]. rewrite fold_left_app. cbn [fold_left it_add].
  unfold its_text. rewrite fmap_app, List.concat_app. cbn [fmap list_fmap List.concat]. rewrite app_nil_r.
  apply (w_join _ (g :: its_text its)); [by apply IH|done..].
Qed.
Lemma tree_val_fold its : forall t, tree_val (fold_left it_add its t) = fold_left join_v (it_op <$> its) (tree_val t).
Proof. induction its as [|[[[w o] w'] g] its IH]; intros t; [done|]. cbn [fold_left fmap list_fmap]. by rewrite IH. Qed.
Lemma tree_rep h t : rep [] h (tree_ast t) (tree_val t).
Proof. induction t; repeat constructor. done. Qed.
Lemma rep_tree h t x : rep [] h x (tree_val t) -> x = tree_ast t.
Proof.
  revert x. induction t as [g|t IH op g]; intros x; cbn; inversion 1; subst; [done|].
  repeat match goal with H : reps _ _ _ (_ :: _) |- _ => inversion H; subst; clear H | H : reps _ _ _ [] |- _ => inversion H; subst; clear H end.
  repeat match goal with H : rep _ _ _ (VStr _) |- _ => inversion H; subst; clear H end.
  by rewrite (IH _ ltac:(eassumption)).
Qed.

Lemma split_blank s : exists w r, s = w ++ r /\ blank w /\ not_blank r.
Proof.
  induction s as [|b s IH]; [exists [], []; split; [done|]; split; [constructor|by intros ?]|]. destruct (blank_b b) eqn:E.
  - destruct IH as (w & r & -> & Hw & Hr). exists (b :: w), r. split; [done|]. split; [|done]. constructor; [|done].
    unfold blank_b in E. apply orb_prop in E as [E|E]; apply N.eqb_eq in E; tauto.
  - exists [], (b :: s). split; [done|]. split; [constructor|]. by intros c [= <-].
Qed.
Lemma op_or_not s : (exists o r, s = o :: r /\ an_op o) \/ (forall b, head s = Some b -> ~ an_op b).
Proof.
  destruct s as [|b s]; [by right|]. destruct (decide (b = 43%N)) as [-> |H1]; [left; eexists _, _; split; [done|by left]|].
  destruct (decide (b = 45%N)) as [-> |H2]; [left; eexists _, _; split; [done|by right]|]. right. intros c [= <-] [?|?]; done.
Qed.
Lemma glyph_or_not s : (exists g r, s = g :: r /\ a_glyph g) \/ (forall b, head s = Some b -> ~ a_glyph b).
Proof.
  destruct s as [|b s]; [by right|]. destruct (glyph_b b) eqn:E.
  - left. exists b, s. split; [done|]. unfold glyph_b in E. unfold a_glyph. lia.
  - right. intros c [= <-] H. unfold glyph_b in E. unfold a_glyph in H. lia.
Qed.

Lemma glyph_bool g : a_glyph g -> glyph_b g = true.
Proof. unfold a_glyph, glyph_b. lia. Qed.

(** Nothing follows. *)
Definition ends (rest : bytes) : Prop := forall i r, it_ok i -> rest <> it_text i ++ r.

(** ** The parts the grammars have in common *)
Section Parts.
Variable text : bytes.
Variable rules : string -> option node.
Variable cbf : nat -> nat -> val -> option (option val).
Variables ia ig ib : nat.
Hypothesis RA : rules "AddOp"%string = Some (m_addop ia).
Hypothesis RG : rules "Glyph"%string = Some (m_glyph ig).
Hypothesis RB : rules "_"%string = Some (m_blank ib).
Notation gives := (gives rules moss_rx cbf text).
Notation does := (does rules moss_rx cbf text).
Notation loops := (Gives.loops rules moss_rx cbf text).
Notation at_ := (Gives.at_ text).

Lemma m_glyph_gives d p g rest : a_glyph g -> at_ p (g :: rest) -> gives (S d) (m_glyph ig) p (Some (VStr [g], S p)).
Proof.
  intros Hg%glyph_bool Hp. eapply gives_bare_rule; [done|done|by split; [|left]|]. eapply does_regex; [done|].
  unfold rgx. rewrite Hp. unfold moss_rx. change (bytes_eqb re_glyph re_blank) with false. change (bytes_eqb re_glyph re_glyph) with true.
  cbv iota. cbn [find_first]. rewrite Hg. unfold Gives.at_ in Hp. rewrite Hp. cbn. by rewrite Nat.add_1_r.
Qed.
Lemma m_blank1 d b s p : at_ p (b :: s) -> blank_b b = true -> gives d n_blank p (Some (VStr [b], S p)).
Proof.
  intros Hp Hb. apply gives_bare; [done|done|by split; [|left]|]. eapply does_regex; [done|].
  unfold rgx. rewrite Hp. unfold moss_rx. change (bytes_eqb re_blank re_blank) with true. cbv iota. cbn [find_first]. rewrite Hb.
  unfold Gives.at_ in Hp. rewrite Hp. cbn. by rewrite Nat.add_1_r.
Qed.
Lemma m_no_blank d s p : at_ p s -> not_blank s -> gives d n_blank p None.
Proof.
  intros Hp Hb. apply gives_bare; [done|done|by split; [|left]|]. eapply does_regex; [done|].
  unfold rgx. rewrite Hp. pose proof (rx_no_blank s Hb) as H. unfold moss_rx, calc_rx in *. change (bytes_eqb re_blank re_blank) with true in *.
  cbv iota in *. by destruct (find_first blank_b s 0) as [[[] ?]|].
Qed.
Lemma m_loops_blank d w rest : blank w -> not_blank rest -> forall acc p, at_ p (w ++ rest) ->
  exists l, loops d n_blank None (-1) acc p l (p + length w).
Proof.
  intros Hw Hr. induction Hw as [|b w Hb Hw IH]; intros acc p Hp.
  - exists acc. rewrite Nat.add_0_r. apply loops_end. by eapply m_no_blank.
  - cbn [app length] in *. destruct (IH (acc ++ [VStr [b]]) (S p)) as [l Hl]; [by apply at_cons in Hp|].
    exists l. rewrite Nat.add_succ_r. eapply loops_more; [|done|exact Hl]. eapply m_blank1; [exact Hp|by apply blank_bool].
Qed.
Lemma m_sp d w rest p : blank w -> not_blank rest -> at_ p (w ++ rest) -> exists v, gives (S d) n_sp p (Some (v, p + length w)).
Proof.
  intros Hw Hr Hp.
  assert (exists v, gives (S d) (m_blank ib) p (Some (v, p + length w))) as [v Hv].
  2: { exists v. eapply gives_bare; [done|done|by split; [|left]|]. eapply does_ref; [done| |exact Hv]. done. }
  destruct Hw as [|b w Hb Hw].
  - exists (VArr []). cbn [length]. rewrite Nat.add_0_r. apply gives_bare_rule; [done|done|by split; [|left]|].
    eapply (does_pat_none _ _ _ _ _ _ n_blank None (-1) (-1)); [done|]. by eapply m_no_blank.
  - cbn [app length] in *. destruct (m_loops_blank d w rest Hw Hr [VStr [b]] (S p)) as [l Hl]; [by apply at_cons in Hp|].
    exists (VArr l). rewrite Nat.add_succ_r. apply gives_bare_rule; [done|done|by split; [|left]|].
    eapply (does_pat_some _ _ _ _ _ _ n_blank None (-1) (-1)); [done| |exact Hl]. eapply m_blank1; [exact Hp|by apply blank_bool].
Qed.
Lemma m_lit_yes d b p rest : at_ p (b :: rest) -> gives d (n_lit b) p (Some (VStr [b], S p)).
Proof.
  intros Hp. apply gives_bare; [done|done|by split; [|left]|]. eapply does_lit; [done|].
  rewrite (lit_here _ p [b] rest Hp). by rewrite Nat.add_1_r.
Qed.
Lemma m_lit_no d b p rest : at_ p rest -> head rest <> Some b -> gives d (n_lit b) p None.
Proof.
  intros Hp Hh. apply gives_bare; [done|done|by split; [|left]|]. eapply does_lit; [done|].
  by eapply lit_not.
Qed.
Lemma m_op d p o rest : an_op o -> at_ p (o :: rest) -> gives (S d) (m_addop ia) p (Some (VStr [o], S p)).
Proof.
  intros Ho Hp. apply gives_bare_rule; [done|done|by split; [|left]|]. eapply does_choice; [done|]. destruct Ho as [-> | ->].
  - apply alts_take. by eapply m_lit_yes.
  - apply alts_next; [by eapply m_lit_no|]. apply alts_take. by eapply m_lit_yes.
Qed.
Lemma m_no_op d p rest : at_ p rest -> (forall b, head rest = Some b -> ~ an_op b) -> gives (S d) (m_addop ia) p None.
Proof.
  intros Hp Hn. assert (forall b, an_op b -> head rest <> Some b) as Hh by (intros b Hb H; by apply (Hn b)).
  apply gives_bare_rule; [done|done|by split; [|left]|]. eapply does_choice; [done|].
  apply alts_next; [eapply m_lit_no; [done|by apply Hh; left]|]. apply alts_next; [eapply m_lit_no; [done|by apply Hh; right]|]. apply alts_nil.
Qed.
Lemma find_later f s : (forall b, head s = Some b -> f b = false) -> forall k, match find_first f s k with Some (a, _) => a <> k | None => True end.
Proof.
  destruct s as [|b s]; [done|]. intros H k. cbn. rewrite (H b eq_refl).
  assert (forall s i, match find_first f s i with Some (a, _) => i <= a | None => True end) as HL.
  { clear. induction s as [|b s IH]; intros i; [done|]. cbn. destruct (f b); [done|]. specialize (IH (S i)). destruct (find_first f s (S i)) as [[a ?]|]; [lia|done]. }
  specialize (HL s (S k)). destruct (find_first f s (S k)) as [[a ?]|]; [lia|done].
Qed.
Lemma m_no_glyph d p rest : at_ p rest -> (forall b, head rest = Some b -> ~ a_glyph b) -> gives (S d) (m_glyph ig) p None.
Proof.
  intros Hp Hn. eapply gives_bare_rule; [done|done|by split; [|left]|]. eapply does_regex; [done|].
  unfold rgx. rewrite Hp. unfold moss_rx. change (bytes_eqb re_glyph re_blank) with false. change (bytes_eqb re_glyph re_glyph) with true.
  cbv iota. pose proof (find_later glyph_b rest) as H. specialize (H ltac:(intros b Hb; destruct (glyph_b b) eqn:E; [|done]; destruct (Hn b Hb); unfold glyph_b in E; unfold a_glyph; lia) 0).
  by destruct (find_first glyph_b rest 0) as [[[] ?]|].
Qed.
Lemma m_ref d nm m p r : rules nm = Some m -> gives d m p r -> gives d (rf nm) p r.
Proof. intros Hm H. apply gives_bare; [done|done|by split; [|left]|]. by eapply does_ref. Qed.

Lemma m_pair_yes d p i rest : it_ok i -> at_ p (it_text i ++ rest) ->
  gives (S d) m_pair p (Some (VArr [VStr (it_op i).1; (it_op i).2], p + length (it_text i))).
Proof.
  destruct i as [[[w o] w'] g]. intros (Hw & Ho & Hw' & Hg) Hp. cbn [it_text it_op fst snd] in *. rewrite <- !app_assoc in Hp.
  replace (p + length (w ++ [o] ++ w' ++ [g])) with (S (S (p + length w) + length w')) by (rewrite !app_length; cbn; rewrite ?app_length; cbn; lia).
  apply gives_bare; [done|done|by split; [|left]|]. eapply does_array; [done|].
  destruct (m_sp d w ([o] ++ w' ++ [g] ++ rest) p Hw) as [v1 H1]; [|done|].
  { intros b [= <-]. by destruct Ho as [-> | ->]. }
  apply at_app in Hp. pose proof (m_op d _ o _ Ho Hp) as H2. apply at_cons in Hp.
  destruct (m_sp d w' ([g] ++ rest) (S (p + length w)) Hw') as [v3 H3]; [|done|].
  { intros b [= <-]. unfold a_glyph, blank_b in *. lia. }
  apply at_app in Hp. pose proof (m_glyph_gives d _ g _ Hg Hp) as H4.
  eapply arrays_cons; [exact H1|]. cbn [i_capture n_info nd n_sp].
  eapply arrays_cons; [eapply m_ref; [done|exact H2]|]. cbn [i_capture n_info nd rf].
  eapply arrays_cons; [exact H3|]. cbn [i_capture n_info nd n_sp].
  eapply arrays_cons; [eapply m_ref; [done|exact H4]|]. cbn [i_capture n_info nd rf app].
  apply arrays_nil.
Qed.
Lemma m_pair_no d p rest : at_ p rest -> ends rest -> gives (S d) m_pair p None.
Proof.
  intros Hp Hend. apply gives_bare; [done|done|by split; [|left]|]. eapply does_array; [done|].
  destruct (split_blank rest) as (w & r & -> & Hw & Hr).
  destruct (m_sp d w r p) as [v1 H1]; [done..|]. eapply arrays_cons; [exact H1|]. apply at_app in Hp.
  destruct (op_or_not r) as [(o & r1 & -> & Ho)|Hno].
  2: { apply arrays_fail. eapply m_ref; [done|]. by eapply m_no_op. }
  pose proof (m_op d _ o _ Ho Hp) as H2. apply at_cons in Hp.
  eapply arrays_cons; [eapply m_ref; [done|exact H2]|].
  destruct (split_blank r1) as (w' & r2 & -> & Hw' & Hr2). destruct (m_sp d w' r2 _ Hw' Hr2 Hp) as [v3 H3].
  eapply arrays_cons; [exact H3|]. apply at_app in Hp. apply arrays_fail. eapply m_ref; [done|]. eapply m_no_glyph; [done|].
  intros b Hb Hg. destruct r2 as [|b' r2]; [done|]. injection Hb as ->. apply (Hend (w, o, w', b) r2); [done|].
  cbn [it_text]. by rewrite <- !app_assoc.
Qed.
Definition it_arr (i : item) : val := VArr [VStr (it_op i).1; (it_op i).2].
Lemma m_loops d its rest : Forall it_ok its -> ends rest -> forall acc p, at_ p (its_text its ++ rest) ->
  loops (S d) m_pair None (-1) acc p (acc ++ (it_arr <$> its)) (p + length (its_text its)).
Proof.
  intros Hits Hend. induction Hits as [|i its Hi Hits IH]; intros acc p Hp.
  - cbn. rewrite app_nil_r, Nat.add_0_r. apply loops_end. by eapply m_pair_no.
  - change (its_text (i :: its)) with (it_text i ++ its_text its) in *. rewrite <- app_assoc in Hp.
    eapply loops_more; [by apply m_pair_yes with (rest := its_text its ++ rest)|done|].
    apply at_app in Hp. specialize (IH (acc ++ [it_arr i]) _ Hp). rewrite app_length, Nat.add_assoc.
    cbn [fmap list_fmap]. rewrite <- app_assoc in IH. exact IH.
Qed.
Lemma m_rest_gives d its rest p : Forall it_ok its -> ends rest -> at_ p (its_text its ++ rest) ->
  gives (S d) m_rest p (Some (VArr (it_arr <$> its), p + length (its_text its))).
Proof.
  intros Hits Hend Hp. apply gives_bare; [done|done|by split; [|left]|]. destruct Hits as [|i its Hi Hits].
  - cbn [length its_text fmap list_fmap List.concat]. rewrite Nat.add_0_r. eapply (does_pat_none _ _ _ _ _ _ m_pair None (-1) (-1)); [done|]. by eapply m_pair_no.
  - change (its_text (i :: its)) with (it_text i ++ its_text its) in *. rewrite <- app_assoc in Hp.
    eapply (does_pat_some _ _ _ _ _ _ m_pair None (-1) (-1)); [done|by apply m_pair_yes with (rest := its_text its ++ rest)|].
    apply at_app in Hp. rewrite app_length, Nat.add_assoc. apply (m_loops d its rest Hits Hend [_] _ Hp).
Qed.

End Parts.

(** Every text is operations and a rest that starts none. *)
Lemma ends_nil : ends [].
Proof. intros [[[w o] w'] g] r _ H. cbn [it_text] in H. apply (f_equal length) in H. rewrite !app_length in H. cbn in H. lia. Qed.
Lemma blank_split a a' x y : blank a -> blank a' -> not_blank x -> not_blank y -> a ++ x = a' ++ y -> a = a' /\ x = y.
Proof.
  intros Ha. revert a'. induction Ha as [|b a Hb Ha IH]; intros a' Ha' Hx Hy E.
  - destruct Ha' as [|b' a' Hb' Ha']; [done|]. cbn in E. subst x. specialize (Hx b' eq_refl). by rewrite blank_bool in Hx.
  - destruct Ha' as [|b' a' Hb' Ha']; cbn in E; [subst y; specialize (Hy b eq_refl); by rewrite blank_bool in Hy|].
    injection E as -> E. by destruct (IH a' Ha' Hx Hy E) as [-> ->].
Qed.
Lemma op_not_blank o s : an_op o -> not_blank (o :: s).
Proof. by intros [-> | ->] b [= <-]. Qed.
Lemma glyph_not_blank g s : a_glyph g -> not_blank (g :: s).
Proof. intros H b [= <-]. unfold a_glyph, blank_b in *. lia. Qed.
Lemma item_unique i i' r r' : it_ok i -> it_ok i' -> it_text i ++ r = it_text i' ++ r' -> i = i' /\ r = r'.
Proof.
  destruct i as [[[w o] w'] g]. destruct i' as [[[v o'] v'] g']. intros (H1 & H2 & H3 & H4) (H1' & H2' & H3' & H4') E. cbn [it_text] in E. rewrite <- !app_assoc in E.
  apply blank_split in E as [-> E]; [|done|done|by apply op_not_blank|by apply op_not_blank]. injection E as -> E.
  apply blank_split in E as [-> E]; [|done|done|by apply glyph_not_blank|by apply glyph_not_blank]. by injection E as -> ->.
Qed.
Lemma item_or_not s : (exists i r, s = it_text i ++ r /\ it_ok i) \/ ends s.
Proof.
  destruct (split_blank s) as (w & r & -> & Hw & Hr).
  pose proof blank_split as HU.
  pose proof op_not_blank as Hop. pose proof glyph_not_blank as Hgl.
  destruct (op_or_not r) as [(o & r1 & -> & Ho)|Hno].
  2: { right. intros [[[w1 o1] w1'] g1] r1 (H1 & H2 & H3 & H4) E. cbn [it_text] in E. rewrite <- !app_assoc in E.
       apply HU in E as [-> ->]; [|done|done|done|by apply Hop]. by apply (Hno o1). }
  destruct (split_blank r1) as (w' & r2 & -> & Hw' & Hr2). destruct (glyph_or_not r2) as [(g & r3 & -> & Hg)|Hno].
  - left. exists (w, o, w', g), r3. split; [|done]. cbn [it_text]. by rewrite <- !app_assoc.
  - right. intros [[[w1 o1] w1'] g1] r1 (H1 & H2 & H3 & H4) E. cbn [it_text] in E. rewrite <- !app_assoc in E.
    apply HU in E as [-> E]; [|done|done|done|by apply Hop]. injection E as -> E.
    apply HU in E as [-> ->]; [|done|done|done|by apply Hgl]. by apply (Hno g1).
Qed.
Lemma split_items s : exists its rest, s = its_text its ++ rest /\ Forall it_ok its /\ ends rest.
Proof.
  remember (length s) as n eqn:Hn. assert (length s <= n) as H by lia. clear Hn. revert s H. induction n as [|n IH]; intros s H.
  - destruct s; [|cbn in H; lia]. exists [], []. split; [done|]. split; [constructor|apply ends_nil].
  - destruct (item_or_not s) as [(i & r & -> & Hi)|Hend]; [|by exists [], s].
    destruct (IH r) as (its & rest & -> & Hits & Hend).
    { rewrite app_length in H. destruct i as [[[w o] w'] g]. cbn [it_text] in H. rewrite !app_length in H. cbn in H. lia. }
    exists (i :: its), rest. split; [|split; [by constructor|done]]. change (its_text (i :: its)) with (it_text i ++ its_text its). by rewrite <- app_assoc.
Qed.

Section Text.
Variable text : bytes.
Notation rules := (g_rule (gram_of moss)).
(** The left-recursive rule has no textbook meaning. *)
Lemma m_expr_none f : forall d p, std rules moss_rx moss_cbf text f d m_expr p = None.
Proof.
  induction (lt_wf f) as [f _ IH]. intros d p. destruct f as [|f]; [done|]. destruct d as [|d]; [done|].
  assert (std rules moss_rx moss_cbf text f d m_more p = None) as HM.
  { destruct f as [|f]; [done|].
    assert (std rules moss_rx moss_cbf text f d (rf "Expr") p = None) as HX.
    { destruct f as [|f]; [done|].
      change (match std rules moss_rx moss_cbf text f d m_expr p with None => None | Some r => prepared moss_cbf (n_info (rf "Expr")) r end = None).
      by rewrite IH by lia. }
    change (match (match std rules moss_rx moss_cbf text f d (rf "Expr") p with
                   | Some (Some (v, q)) => std_array (std rules moss_rx moss_cbf text f d) [m_rest] ([] ++ [v]) q | x => x end)
            with None => None | Some r => prepared moss_cbf (n_info m_more) r end = None).
    by rewrite HX. }
  change (match (match std rules moss_rx moss_cbf text f d m_more p with
                 | Some None => std_alt (std rules moss_rx moss_cbf text f d) [m_one] p | x => x end)
          with None => None | Some r => prepared moss_cbf (n_info m_expr) r end = None).
  by rewrite HM.
Qed.
End Text.

(** ** Whole texts *)
Section Whole.
Variable ostr : ast -> bytes.
Variable o : popts.
Hypothesis Ho : po_debug o = false.
Notation g := (gram_of moss).
Notation E := (mk_env g o moss_rx (moss_cb ostr)).

Lemma moss_reach n : reach E m_top n -> n ∈ all_nodes m_top (snd moss).
Proof.
  intros H. induction H as [|n c _ IH Hc|name n H].
  - apply elem_of_flat_map. exists m_top. split; [left|apply subnodes_self].
  - apply elem_of_flat_map in IH as (m & Hm & IH). apply elem_of_flat_map. exists m. split; [done|]. by eapply subnodes_child.
  - apply last_of_split in H as (i & Hi & _). apply elem_of_list_lookup_2 in Hi.
    apply elem_of_flat_map. exists n. split; [right; apply elem_of_list_fmap; by exists (name, n)|apply subnodes_self].
Qed.
Lemma moss_ready : ids_fit E m_top /\ ids_unique E m_top /\ top_rank m_top.
Proof.
  pose proof (ready moss_compile 300 "at hand" moss_lines moss moss_eq moss_names_once moss_no_singles ltac:(done) ltac:(by vm_compute) o moss_rx (moss_cb ostr))
    as (H1 & H2 & H3 & _). rewrite moss_nodes. done.
Qed.
Lemma moss_quiet : quiet E m_top.
Proof.
  split; [done|]. split; [done|]. intros n Hn%moss_reach.
  assert (forallb (fun n => negb (i_debug (n_info n))) (all_nodes m_top (snd moss)) = true) as H by (vm_compute; reflexivity).
  rewrite forallb_forall in H. apply elem_of_list_In in Hn. specialize (H n Hn). by destruct (i_debug (n_info n)).
Qed.
Lemma moss_grammar : pure_grammar E m_top moss_cbf.
Proof.
  destruct moss_ready as (H1 & H2 & H3). split; [apply moss_rx_ok|done|done|apply moss_quiet|by eapply moss_pure].
Qed.

Section Run.
Variable R : nat -> node.
Hypothesis HR : lists_rules E m_top R.
Variable text : bytes.
Notation peg := (peg (e_rule E) (e_rx E) moss_cbf R (fun _ => None) text).
Definition B (sd r : result) : Prop := exists h r0, h <= 2 /\
  peg (Some (Ctx 0 0 sd false)) (JBody m_expr) 0 true h r0 /\ prepared moss_cbf (n_info m_expr) r0 = Some r.

Lemma reach_top_rule nm m : g_rule g nm = Some m -> reach E m_top m.
Proof. intros H. by eapply reach_rule. Qed.
Lemma R_expr : R 0 = m_expr.
Proof. apply (HR m_expr); [by apply (reach_top_rule "Expr")|done]. Qed.
Lemma R_line : R 4 = m_line.
Proof. apply (HR m_line); [by apply (reach_top_rule "at hand[0]")|done]. Qed.
Lemma expr_plain : plain_rule R (fun _ => None) 0.
Proof. unfold plain_rule, is_rule. by rewrite R_expr. Qed.
Lemma expr_refers : refers E R (rf "Expr") 0.
Proof. repeat split. exists "Expr"%string. split; [done|]. by rewrite R_expr. Qed.
Lemma std_apart d n p r sd : reach E m_top n -> Gives.gives (g_rule g) moss_rx moss_cbf text d n p r ->
  exists h, h <= d /\ peg (Some (Ctx 0 0 sd false)) (JNode n) p false h r.
Proof.
  intros Hn [f0 H]. eapply (std_peg_gen E moss_cbf R text (fun _ => None) m_top HR ltac:(done) f0); [done|by apply H|].
  intros x [= <-] f' d' _ _. cbn [x_id x_pos]. rewrite R_expr. apply m_expr_none.
Qed.
Lemma reach_more : reach E m_top m_more.
Proof. eapply (reach_child _ _ m_expr); [by apply (reach_top_rule "Expr")|left]. Qed.

(** No seed: a glyph. *)
Lemma body_first gl rest : a_glyph gl -> text = gl :: rest -> B None (Some (VStr [gl], 1)).
Proof.
  intros Hg Ht. destruct (std_apart 1 m_one 0 (Some (VStr [gl], 1)) None) as (h & Hh & HP).
  { eapply (reach_child _ _ m_expr); [by apply (reach_top_rule "Expr")|]. right. left. }
  { apply gives_bare; [done|done|by split; [|left]|]. eapply does_ref; [done|reflexivity|]. eapply (m_glyph_gives text _ _ 2 0 0 gl rest Hg). by rewrite Ht. }
  exists (max 1 h), (Some (VStr [gl], 1)). split; [lia|]. split; [|done]. change true with (true || false)%bool.
  eapply p_choice; [done|]. eapply p_alt_next; [|by apply p_alt_take].
  apply (p_plain _ _ _ _ _ _ _ _ _ _ _ None); [done|done| |done]. eapply p_array; [done|]. apply p_array_fail.
  apply (E_node E moss_cbf R (fun _ => None) text 0 0 (rf "Expr") expr_plain expr_refers).
Qed.
(** A seed: what follows it. *)
Lemma body_next v q its rest : Forall it_ok its -> ends rest -> drop q text = its_text its ++ rest ->
  B (Some (v, q)) (Some (fold_left join_v (it_op <$> its) v, q + length (its_text its))).
Proof.
  intros Hits Hend Hq. destruct (std_apart 1 m_rest q (Some (VArr (it_arr <$> its), q + length (its_text its))) (Some (v, q))) as (h & Hh & HP).
  { eapply (reach_child _ _ m_more); [apply reach_more|]. right. left. }
  { by eapply (m_rest_gives text _ _ 1 2 3). }
  exists (max 1 (max h 0)), (Some (VArr [v; VArr (it_arr <$> its)], q + length (its_text its))).
  split; [lia|]. split.
  - change true with (true || (false || false))%bool. eapply p_choice; [done|]. apply p_alt_take. apply (p_plain _ _ _ _ _ _ _ _ _ _ _ (Some (VArr [v; VArr (it_arr <$> its)], q + length (its_text its)))); [done|done| |done].
    eapply p_array; [done|].
    eapply p_array_cons; [apply (E_node E moss_cbf R (fun _ => None) text 0 0 (rf "Expr") expr_plain expr_refers)|].
    eapply p_array_cons; [exact HP|]. apply p_array_nil.
  - cbn. assert (ops_v (it_arr <$> its) = Some (it_op <$> its)) as ->; [|done].
    clear. induction its as [|i its IH]; [done|]. cbn [fmap list_fmap]. unfold it_arr at 1. cbn [ops_v].
    change (list_fmap _ _ it_arr its) with (it_arr <$> its). rewrite IH. by destruct i as [[[w o] w'] gl].
Qed.
(** No seed and no glyph: nothing. *)
Lemma body_none : (forall b, head text = Some b -> ~ a_glyph b) -> B None None.
Proof.
  intros Hg. destruct (std_apart 1 m_one 0 None None) as (h & Hh & HP).
  { eapply (reach_child _ _ m_expr); [by apply (reach_top_rule "Expr")|]. right. left. }
  { apply gives_bare; [done|done|by split; [|left]|]. eapply does_ref; [done|reflexivity|]. by eapply (m_no_glyph text _ _ 2 0 0 text). }
  exists (max 1 (max h 0)), None. split; [lia|]. split; [|done]. change true with (true || (false || false))%bool.
  eapply p_choice; [done|]. eapply p_alt_next; [|eapply p_alt_next; [exact HP|apply p_alt_nil]].
  apply (p_plain _ _ _ _ _ _ _ _ _ _ _ None); [done|done| |done]. eapply p_array; [done|]. apply p_array_fail.
  apply (E_node E moss_cbf R (fun _ => None) text 0 0 (rf "Expr") expr_plain expr_refers).
Qed.
Lemma expr_none : (forall b, head text = Some b -> ~ a_glyph b) -> exists h, h <= 3 /\ peg None (JRule 0) 0 false h None.
Proof.
  intros (h0 & r0 & Hh0 & HP0 & Hr0)%body_none.
  exists (S h0). split; [lia|]. eapply p_rec_fail; unfold is_rule; rewrite ?R_expr; done.
Qed.
Lemma expr_meaning gl its rest : a_glyph gl -> Forall it_ok its -> ends rest -> text = gl :: its_text its ++ rest ->
  exists h, h <= 3 /\ peg None (JRule 0) 0 false h (Some (tree_val (fold_left it_add its (Leaf gl)), S (length (its_text its)))).
Proof.
  intros Hg Hits Hend Ht. rewrite tree_val_fold.
  destruct (body_next (VStr [gl]) 1 its rest Hits Hend) as (h1 & r1 & Hh1 & HP1 & Hr1); [by rewrite Ht|].
  destruct (body_first gl _ Hg Ht) as (h0 & r0 & Hh0 & HP0 & Hr0). cbn [tree_val].
  change (S (length (its_text its))) with (1 + length (its_text its)).
  assert (forall h' r', h' <= 2 -> peg None (JGrow 0 (VStr [gl]) 1) 0 false h' r' -> exists h, h <= 3 /\ peg None (JRule 0) 0 false h r') as Hgrow.
  { intros h' r' Hh' HG. exists (S (max h0 h')). split; [lia|]. eapply p_rec; unfold is_rule; rewrite ?R_expr; done. }
  destruct its as [|i its].
  - eapply (Hgrow h1); [done|]. eapply p_grow_stop; rewrite ?R_expr; [exact HP1|exact Hr1|]. cbn. lia.
  - set (v := fold_left join_v (it_op <$> i :: its) (VStr [gl])) in *. set (e := 1 + length (its_text (i :: its))) in *.
    destruct (body_next v e [] rest ltac:(constructor) Hend) as (h2 & r2 & Hh2 & HP2 & Hr2).
    { rewrite Ht. unfold e. change (drop (length (its_text (i :: its))) (its_text (i :: its) ++ rest) = rest). apply drop_app. }
    cbn in Hr2. rewrite Nat.add_0_r in Hr2.
    apply (Hgrow (max h1 h2)); [lia|]. eapply p_grow_more; rewrite ?R_expr; [exact HP1|exact Hr1| |].
    { unfold e. change (its_text (i :: its)) with (it_text i ++ its_text its). destruct i as [[[w o'] w'] g']. cbn [it_text]. rewrite !app_length. cbn. lia. }
    eapply p_grow_stop; rewrite ?R_expr; [exact HP2|exact Hr2|]. cbn. lia.
Qed.
Lemma top_run h r : h <= 3 -> peg None (JRule 0) 0 false h r -> meaning E moss_cbf R (fun _ => None) text m_top 0 r.
Proof.
  intros Hh HP.
  assert (peg None (JRule 4) 0 false (S h) r) as HL.
  { apply (p_once _ _ _ _ _ _ _ _ _ r); unfold is_rule; rewrite ?R_line; try done; [|by destruct r as [[? ?]|]]. eapply p_ref; [done|reflexivity|].
    apply p_rule; try done; [apply R_expr|by intros [H _]]. }
  exists false, (S h). split; [unfold stack_limit; lia|].
  apply (p_plain _ _ _ _ _ _ _ _ _ _ _ r); [done|done| |by destruct r as [[? ?]|]].
  eapply p_choice; [done|]. destruct r as [[v e]|].
  - apply p_alt_take. apply p_rule; try done; [apply R_line|by intros []].
  - replace false with (false || false)%bool by done. replace (S h) with (max (S h) 0) by lia. apply p_alt_next; [|apply p_alt_nil]. apply p_rule; try done; [apply R_line|by intros []].
Qed.
Lemma top_meaning t : written t text -> meaning E moss_cbf R (fun _ => None) text m_top 0 (Some (tree_val t, length text)).
Proof.
  intros (gl & its & Ht & -> & Hg & Hits)%written_items.
  destruct (expr_meaning gl its [] Hg Hits ends_nil) as (h & Hh & HP); [by rewrite app_nil_r|].
  assert (length text = S (length (its_text its))) as -> by (by rewrite Ht). by eapply top_run.
Qed.
(** A text that is no chain is not read to its end. *)
Lemma top_other : (forall t, ~ written t text) -> exists r, meaning E moss_cbf R (fun _ => None) text m_top 0 r /\
  match r with Some (v, e) => e < length text | None => True end.
Proof.
  intros Hno. destruct (glyph_or_not text) as [(gl & s & Ht & Hg)|Hg].
  - destruct (split_items s) as (its & rest & -> & Hits & Hend). destruct (expr_meaning gl its rest Hg Hits Hend Ht) as (h & Hh & HP).
    eexists. split; [by eapply top_run|]. cbn beta iota. rewrite Ht. cbn [length]. rewrite app_length. destruct rest as [|b rest]; [|cbn; lia].
    exfalso. apply (Hno (fold_left it_add its (Leaf gl))). rewrite Ht, app_nil_r. by apply items_written.
  - destruct (expr_none Hg) as (h & Hh & HP). exists None. split; [by eapply top_run|done].
Qed.
End Run.

Lemma moss_trees t s : written t s -> exists fuel0, forall fuel, fuel0 <= fuel -> exists s',
  fst (parse_string fuel g o moss_rx (moss_cb ostr) s) = Ok (Some (tree_ast t)) s'.
Proof.
  intros Ht. destruct moss_ready as (H1 & [R HR] & H3). pose proof (top_meaning R HR s t Ht) as HM.
  set (c := CRune (new_rune_stream s)).
  destruct (gram_meaning g moss_rx (moss_cb ostr) o moss_cbf moss_grammar H3 R (fun _ => None) HR ltac:(done) c _ (rune_code_ok _) eq_refl HM) as (f0 & Hf).
  exists f0. intros fuel Hl. specialize (Hf fuel Hl). cbn [c_work c] in Hf. rewrite Nat.eqb_refl in Hf.
  destruct Hf as (x & s' & Hx & Hr). exists s'. rewrite <- (rep_tree _ _ _ Hr). exact Hx.
Qed.
Lemma moss_other s : (forall t, ~ written t s) -> exists fuel0, forall fuel, fuel0 <= fuel -> exists s',
  match s with
  | [] => fst (parse_string fuel g o moss_rx (moss_cb ostr) s) = Ok None s'
  | _ => exists k, fst (parse_string fuel g o moss_rx (moss_cb ostr) s) = Ok (Some (AErr k)) s' /\ k <= length s
  end.
Proof.
  intros Hno. destruct moss_ready as (H1 & [R HR] & H3). destruct (top_other R HR s Hno) as (r & HM & Hr).
  set (c := CRune (new_rune_stream s)).
  destruct (gram_meaning g moss_rx (moss_cb ostr) o moss_cbf moss_grammar H3 R (fun _ => None) HR ltac:(done) c _ (rune_code_ok _) eq_refl HM) as (f0 & Hf).
  exists f0. intros fuel Hl. specialize (Hf fuel Hl). cbn [c_work c] in Hf.
  change (rs_text (new_rune_stream s)) with s in Hf. destruct r as [[v e]|].
  - destruct (Nat.eqb_spec e (length s)); [lia|]. destruct Hf as (k & s' & Hx & Hk). exists s'. destruct s as [|b s]; [cbn in Hr; lia|]. exists k. split; [exact Hx|lia].
  - destruct s as [|b s]; cbn [length Nat.eqb] in Hf; [destruct Hf as (s' & Hx); by exists s'|]. destruct Hf as (k & s' & Hx & Hk). exists s'. exists k. split; [exact Hx|done].
Qed.
Lemma tree_ast_inj t t' : tree_ast t = tree_ast t' -> t = t'.
Proof. revert t'. induction t as [gl|t IH op gl]; intros [gl'|t' op' gl']; cbn; try done; [by intros [= ->]|]. intros [= H%IH -> ->]. by subst. Qed.
Lemma moss_unique t t' s : written t s -> written t' s -> t = t'.
Proof.
  intros H H'. destruct (moss_trees t s H) as (f & Hf). destruct (moss_trees t' s H') as (f' & Hf').
  destruct (Hf (f + f') ltac:(lia)) as (s1 & E1). destruct (Hf' (f + f') ltac:(lia)) as (s2 & E2). rewrite E1 in E2. injection E2 as E2 _. by apply tree_ast_inj.
Qed.
End Whole.

(** ** Chains are decided *)
Lemma text_or_not s : (exists t, written t s) \/ forall t, ~ written t s.
Proof.
  destruct (glyph_or_not s) as [(g & r & -> & Hg)|Hg].
  - destruct (split_items r) as (its & rest & -> & Hits & Hend). destruct rest as [|b rest].
    + left. exists (fold_left it_add its (Leaf g)). rewrite app_nil_r. by apply items_written.
    + right. intros t (g' & its' & E & _ & Hg' & Hits')%written_items. injection E as -> E.
      revert its' E Hits'. induction Hits as [|i its Hi Hits IH]; intros its' E Hits'.
      * destruct Hits' as [|i' its' Hi' Hits']; [done|]. apply (Hend i' (its_text its')); [done|exact E].
      * destruct Hits' as [|i' its' Hi' Hits'].
        { change (its_text (i :: its)) with (it_text i ++ its_text its) in E. destruct i as [[[w o] w'] g]. cbn [it_text] in E.
          apply (f_equal length) in E. rewrite !app_length in E. cbn in E. lia. }
        change (its_text (i :: its)) with (it_text i ++ its_text its) in E. change (its_text (i' :: its')) with (it_text i' ++ its_text its') in E.
        rewrite <- app_assoc in E. destruct (item_unique i i' _ _ Hi Hi' E) as [_ E']. by apply (IH its').
  - right. intros t (g' & its' & -> & _ & Hg' & _)%written_items. by apply (Hg g').
Qed.
Lemma not_chain_end : forall t, ~ written t (s2b "3-").
Proof.
  intros t (g & its & E & _ & _ & Hits)%written_items. injection E as _ E. destruct Hits as [|[[[w o] w'] g'] its Hi Hits]; [done|].
  apply (f_equal length) in E. change (its_text ((w, o, w', g') :: its)) with ((w ++ [o] ++ w' ++ [g']) ++ its_text its) in E. rewrite !app_length in E. cbn in E. lia.
Qed.
Lemma not_chain_op : forall t, ~ written t (s2b "3 2").
Proof.
  intros t (g & its & E & _ & _ & Hits)%written_items. injection E as _ E. destruct Hits as [|[[[w o] w'] g'] its (H1 & H2 & H3 & H4) Hits]; [done|].
  change (its_text ((w, o, w', g') :: its)) with ((w ++ [o] ++ w' ++ [g']) ++ its_text its) in E.
  destruct H1 as [|b w Hb Hw]; [injection E as <- _; by destruct H2|]. injection E as _ E. destruct Hw as [|b' w Hb' Hw]; [injection E as <- _; by destruct H2|].
  injection E as <- E. by destruct Hb'.
Qed.
