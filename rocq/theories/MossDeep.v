(** The grammars of examples/precedence with parentheses. *)
From stdpp Require Import sets.
From Verif Require Import Base Helpers Utf8 Stream StreamSpec Native Engine EngSpec EngInv Toy Peg PegProofs PegRep PegBody PegStd PegStdProofs
  RunSpec PegLaws PegRun Build BuildSpec BuildMain Joeson JoesonSpec JoesonRun Calc CalcRun CalcSpec CalcPeg CalcAllSpec Brave Moss MossRun MossSpec Gives LispReadWhole MossPeg MossLevels.
Local Open Scope list_scope.

(** ** Values *)
Lemma shown_more (W W' : bytes -> Prop) l c s : (forall w, W w -> W' w) -> shown W l c s -> shown W' l c s.
Proof. intros HW. induction 1; constructor; by auto. Qed.
Fixpoint cexp_val (c : cexp) : val :=
  match c with
  | CGlyph g => VStr [g]
  | CParen c => cexp_val c
  | COp a op b => VUser 0 [cexp_val a; VStr [op]; cexp_val b]
  end.
Lemma rep_cexp h c x : rep [] h x (cexp_val c) -> x = cexp_ast c.
Proof.
  revert x. induction c as [g|c IH|a IHa op b IHb]; intros x; cbn [cexp_val cexp_ast]; [by inversion 1|apply IH|].
  inversion 1; subst.
  repeat match goal with H : reps _ _ _ (_ :: _) |- _ => inversion H; subst; clear H | H : reps _ _ _ [] |- _ => inversion H; subst; clear H end.
  match goal with H : rep _ _ _ (VStr _) |- _ => inversion H; subst; clear H end.
  by rewrite (IHa _ ltac:(eassumption)), (IHb _ ltac:(eassumption)).
Qed.

(** ** growMoss, with a value instead of a panic *)
Definition moss_cb_with (ostr : ast -> bytes) (t : option N) (f pos : nat) (h : heap) (x : ast) : cbres :=
  match t, moss_cb ostr f pos h x with
  | Some k, CbPanic _ => CbRet h (Some (AStr [k]))
  | _, r => r
  end.
Definition moss_cbf_with (t : option N) (f pos : nat) (v : val) : option (option val) :=
  match f, v, t with
  | 0, VUser _ _, Some k => Some (Some (VStr [k]))
  | _, _, _ => moss_cbf f pos v
  end.
Lemma moss_none ostr : moss_cb_with ostr None = moss_cb ostr.
Proof. done. Qed.
Lemma moss_with_braver ostr t : braver (moss_cb ostr) (moss_cb_with ostr t).
Proof. intros c p h x. unfold moss_cb_with. destruct t; [|by right]. destruct (moss_cb ostr c p h x); [by right|left; eauto]. Qed.
Lemma with_none f p v : moss_cbf_with None f p v = moss_cbf f p v.
Proof. by destruct f, v. Qed.
Lemma moss_pure_with ostr t E root : e_cb E = moss_cb_with ostr t -> cb_pure E root (moss_cbf_with t).
Proof.
  intros HE f. left. intros p h x v P Hr HP. rewrite HE.
  pose proof (moss_keeps ostr (Env 0 (fun _ => None) moss_rx (moss_cb ostr) false false 0 false) f eq_refl p h x v P Hr HP) as HK.
  assert (match moss_cbf f p v with None => True | Some o => exists h' y, moss_cb_with ostr t f p h x = CbRet h' y /\ hext h h' /\
      match o with None => y = None | Some v' => exists z, y = Some z /\ rep P h' z v' end end) as HM.
  { destruct (moss_cbf f p v) as [o|]; [|done]. destruct HK as (h' & y & HE1 & HX). exists h', y. split; [|done].
    unfold moss_cb_with. cbn [e_cb] in HE1. rewrite HE1. by destruct t. }
  destruct f as [|f]; [|exact HM]. destruct Hr as [| | | | |k l l' Hl| |]; try exact HM. destruct t as [b|]; [|exact HM].
  cbn [moss_cbf_with]. exists h, (Some (AStr [b])). split; [done|]. split; [apply hext_refl|]. eexists. split; [done|constructor].
Qed.
Lemma with_fold t pos v ops l : ops_v ops = Some l -> moss_cbf_with t 0 pos (VArr [v; VArr ops]) = Some (Some (fold_left join_v l v)).
Proof. intros H. unfold moss_cbf_with, moss_cbf. by rewrite H. Qed.

(** ** Grammars that are ready to run *)
Section Gram.
Variable b : node * list (string * node).
Variable o : popts.
Hypothesis Ho : po_debug o = false.
Variable ostr : ast -> bytes.
Variable t : option N.
Notation g := (gram_of b).
Notation E := (mk_env g o moss_rx (moss_cb_with ostr t)).
Notation top := (fst b).
Hypothesis Hready : ids_fit E top /\ ids_unique E top /\ top_rank top.
Hypothesis Hdebug : forallb (fun n => negb (i_debug (n_info n))) (all_nodes top (snd b)) = true.

Lemma any_reach n : reach E top n -> n ∈ all_nodes top (snd b).
Proof.
  intros H. induction H as [|n c _ IH Hc|name n H].
  - apply elem_of_flat_map. exists top. split; [left|apply subnodes_self].
  - apply elem_of_flat_map in IH as (m & Hm & IH). apply elem_of_flat_map. exists m. split; [done|]. by eapply subnodes_child.
  - apply last_of_split in H as (i & Hi & _). apply elem_of_list_lookup_2 in Hi.
    apply elem_of_flat_map. exists n. split; [right; apply elem_of_list_fmap; by exists (name, n)|apply subnodes_self].
Qed.
Lemma any_quiet : quiet E top.
Proof.
  split; [done|]. split; [done|]. intros n Hn%any_reach. pose proof Hdebug as H.
  rewrite forallb_forall in H. apply elem_of_list_In in Hn. specialize (H n Hn). by destruct (i_debug (n_info n)).
Qed.
Lemma any_grammar : pure_grammar E top (moss_cbf_with t).
Proof. destruct Hready as (H1 & H2 & H3). split; [apply moss_rx_ok|done|done|apply any_quiet|by eapply moss_pure_with]. Qed.
Lemma any_run text d r : Gives.gives (g_rule g) moss_rx (moss_cbf_with t) text d top 0 r -> d <= stack_limit -> exists fuel0, forall fuel, fuel0 <= fuel ->
  match r with
  | Some (v, e) =>
      if e =? length text then exists x s', fst (parse_string fuel g o moss_rx (moss_cb_with ostr t) text) = Ok (Some x) s' /\ rep [] (s_heap s') x v
      else exists k s', fst (parse_string fuel g o moss_rx (moss_cb_with ostr t) text) = Ok (Some (AErr k)) s' /\ e <= k <= length text
  | None =>
      if 0 =? length text then exists s', fst (parse_string fuel g o moss_rx (moss_cb_with ostr t) text) = Ok None s'
      else exists k s', fst (parse_string fuel g o moss_rx (moss_cb_with ostr t) text) = Ok (Some (AErr k)) s' /\ k <= length text
  end.
Proof.
  intros HG Hd. destruct Hready as (H1 & [R HR] & H3).
  assert (textbook E (moss_cbf_with t) text top 0 r) as HT.
  { apply (Gives.gives_deeper _ _ _ _ _ stack_limit) in HG; [|done]. destruct HG as [f0 H]. exists f0. apply H. lia. }
  pose proof (textbook_meaning E top (CRune (new_rune_stream text)) (moss_cbf_with t) R top 0 _ HR ltac:(constructor) HT) as HM.
  exact (gram_meaning g moss_rx (moss_cb_with ostr t) o (moss_cbf_with t) any_grammar H3 R (fun _ => None) HR ltac:(done) _ _ (rune_code_ok _) eq_refl HM).
Qed.
End Gram.

(** ** The first grammar *)
Definition s_line : node := rl "at hand[0]" true 6 None (KRef "Expr").
Definition s_top : node := Node (Info "at hand" "" true false 0 true None false false) (KChoice [s_line]).
Lemma levels_nodes : moss_levels = (s_top, [("Expr", l_expr false "Expr" 0); ("Term", l_term false 1); ("Factor", l_factor None 2);
  ("AddOp", m_addop 3); ("MulOp", l_mulop 4); ("Glyph", m_glyph 5); ("at hand[0]", s_line)]%string).
Proof. reflexivity. Qed.
Definition plain (c : cexp) : option val := cval Some c.
Lemma plain_val c : plain c = Some (cexp_val c).
Proof. induction c as [g|c IH|a IHa op b IHb]; unfold plain in *; cbn [cval cexp_val]; [done|by rewrite IH|by rewrite IHa, IHb]. Qed.
Section First.
Variable text : bytes.
Notation gives := (Gives.gives (g_rule (gram_of moss_levels)) moss_rx (moss_cbf_with None) text).
Lemma levels_expr d p r r' : Gives.does (g_rule (gram_of moss_levels)) moss_rx (moss_cbf_with None) text d (l_expr false "Expr" 0) p r ->
  prepared (moss_cbf_with None) (n_info (l_expr false "Expr" 0)) r = Some r' -> gives (S (0 + d)) (l_expr false "Expr" 0) p r'.
Proof. intros H H'. by eapply gives_rule. Qed.
Lemma levels_reads e : shown (blanks false) 2 e text -> gives (3 * nest e + 4) (l_expr false "Expr" 0) 0 (Some (cexp_val e, length text)).
Proof.
  intros Hsh. pose proof (reads_all text (g_rule (gram_of moss_levels)) (moss_cbf_with None) false 3 5 0 4 1 2 0 0 "Expr" None Some (l_expr false "Expr" 0)
    eq_refl eq_refl eq_refl ltac:(done) eq_refl eq_refl eq_refl levels_expr (with_fold None) ltac:(by intros v w pos [= <-]) e (cexp_val e) Hsh (plain_val e)) as H.
  rewrite Nat.add_0_r in H. exact H.
Qed.
Lemma levels_total : exists r, gives (3 * opens text + 4) (l_expr false "Expr" 0) 0 r /\ (forall v, r = Some (v, length text) -> exists e, shown (blanks false) 2 e text).
Proof.
  destruct (total text (g_rule (gram_of moss_levels)) (moss_cbf_with None) false 3 5 0 4 1 2 0 0 "Expr" None Some (l_expr false "Expr" 0)
    eq_refl eq_refl eq_refl ltac:(done) eq_refl eq_refl eq_refl levels_expr (with_fold None) ltac:(by intros v w pos [= <-])) as (r & H & HS).
  { intros e a u b _ _. exists (cexp_val e). apply plain_val. }
  rewrite Nat.add_0_r in H. exists r. split; [exact H|]. intros v Hv. destruct (HS v Hv) as (e & He & _). by exists e.
Qed.
Lemma levels_top d r : gives d (l_expr false "Expr" 0) 0 r -> gives (S d) s_top 0 r.
Proof.
  intros H. apply gives_bare; [done|done|by split; [|left]|]. eapply does_choice; [reflexivity|].
  assert (gives (S d) s_line 0 r) as HL.
  { apply gives_bare_rule; [done|done|by split; [|left]|]. by eapply does_ref. }
  destruct r as [[]|]; [by apply alts_take|]. apply alts_next; [done|]. apply alts_nil.
Qed.
End First.

Section Whole.
Variable ostr : ast -> bytes.
Variable o : popts.
Hypothesis Ho : po_debug o = false.

Lemma levels_ready : ids_fit (mk_env (gram_of moss_levels) o moss_rx (moss_cb_with ostr None)) (fst moss_levels) /\
  ids_unique (mk_env (gram_of moss_levels) o moss_rx (moss_cb_with ostr None)) (fst moss_levels) /\ top_rank (fst moss_levels).
Proof.
  pose proof (ready moss_compile 300 "at hand" moss_levels_lines moss_levels moss_levels_eq moss_levels_names_once moss_levels_no_singles ltac:(done) ltac:(by vm_compute) o moss_rx (moss_cb_with ostr None))
    as (H1 & H2 & H3 & _). done.
Qed.
Lemma levels_quiet : forallb (fun n => negb (i_debug (n_info n))) (all_nodes (fst moss_levels) (snd moss_levels)) = true.
Proof. by vm_compute. Qed.
Notation parse fuel s := (fst (parse_string fuel (gram_of moss_levels) o moss_rx (moss_cb ostr) s)).

Lemma levels_trees c s : shown (fun w => w = []) 2 c s -> opens s <= 300 -> exists fuel0, forall fuel, fuel0 <= fuel -> exists s',
  parse fuel s = Ok (Some (cexp_ast c)) s'.
Proof.
  intros Hsh Hop. pose proof (shown_nest _ _ _ _ Hsh) as Hn. pose proof (levels_top _ _ _ (levels_reads s c Hsh)) as HG.
  destruct (any_run moss_levels o Ho ostr None levels_ready levels_quiet s _ _ HG ltac:(unfold stack_limit; lia)) as (f0 & Hf).
  exists f0. intros fuel Hl. specialize (Hf fuel Hl). rewrite Nat.eqb_refl in Hf. destruct Hf as (x & s' & Hx & Hr). exists s'.
  rewrite <- (rep_cexp _ _ _ Hr). exact Hx.
Qed.
Lemma levels_other s : (forall c, ~ shown (fun w => w = []) 2 c s) -> opens s <= 300 -> exists fuel0, forall fuel, fuel0 <= fuel -> exists s',
  match s with
  | [] => parse fuel s = Ok None s'
  | _ => exists k, parse fuel s = Ok (Some (AErr k)) s' /\ k <= length s
  end.
Proof.
  intros Hno Hop. destruct (levels_total s) as (r & HG & HS). apply levels_top in HG.
  destruct (any_run moss_levels o Ho ostr None levels_ready levels_quiet s _ _ HG ltac:(unfold stack_limit; lia)) as (f0 & Hf).
  exists f0. intros fuel Hl. specialize (Hf fuel Hl). destruct r as [[v q]|].
  - destruct (Nat.eqb_spec q (length s)) as [-> |Hq]; [destruct (HS v eq_refl) as (e & He); by destruct (Hno e)|].
    destruct Hf as (k & s' & Hx & Hk). exists s'. destruct s as [|b s]; [cbn in Hk, Hq; lia|]. exists k. split; [exact Hx|lia].
  - destruct s as [|b s]; [destruct Hf as (s' & Hx); by exists s'|]. destruct Hf as (k & s' & Hx & Hk). exists s'. by exists k.
Qed.
End Whole.

(** ** The fifth grammar *)
Definition d_expr : node := rl "Expr" true 7 None (KChoice [l_expr true "Expr[0]" 6]).
Definition d_top : node := Node (Info "at hand" "" true false 0 true None false false) (KChoice [d_expr]).
Lemma deep_nodes : moss_deep = (d_top, [("Term", l_term true 0); ("Factor", l_factor (Some 0) 1); ("AddOp", m_addop 2); ("MulOp", l_mulop 3);
  ("Glyph", m_glyph 4); ("_", m_blank 5); ("Expr[0]", l_expr true "Expr[0]" 6); ("Expr", d_expr)]%string).
Proof. reflexivity. Qed.
Definition deep_fac (t : option N) (v : val) : option val :=
  match v with
  | VStr s => Some (VStr s)
  | VUser _ _ => match t with Some k => Some (VStr [k]) | None => None end
  | _ => None
  end.
(** What is left of the tree if a glyph [k] takes the place of a panic. *)
Fixpoint stub (k : N) (c : cexp) : cexp :=
  match c with
  | CGlyph g => CGlyph g
  | CParen c => match stub k c with COp _ _ _ => CGlyph k | x => x end
  | COp a op b => COp (stub k a) op (stub k b)
  end.
Lemma stub_no_paren k c : match stub k c with CParen _ => False | _ => True end.
Proof. induction c as [g|c IH|a IHa op b IHb]; cbn [stub]; [done| |done]. by destruct (stub k c). Qed.
Lemma brave_val k c : cval (deep_fac (Some k)) c = Some (cexp_val (stub k c)).
Proof.
  induction c as [g|c IH|a IHa op b IHb]; cbn [cval stub cexp_val]; [done| |by rewrite IHa, IHb].
  rewrite IH. pose proof (stub_no_paren k c). by destruct (stub k c).
Qed.
Lemma glyph_stub k c : only_glyph c -> exists g, stub k c = CGlyph g /\ cexp_val c = VStr [g] /\ cexp_ast c = AStr [g].
Proof. induction c as [g|c IH|]; cbn; [by exists g| |done]. intros (g & -> & H1 & H2)%IH. by exists g. Qed.
Lemma flat_val t c : flat c -> cval (deep_fac t) c = Some (cexp_val c).
Proof.
  assert (forall c, only_glyph c -> cval (deep_fac t) c = Some (cexp_val c)) as HG.
  { clear c. induction c as [g|c IH|]; cbn; [done| |done]. intros H. rewrite (IH H). destruct (glyph_stub 0 c H) as (g & _ & -> & _). done. }
  induction c as [g|c IH|a IHa op b IHb]; [done|apply (HG (CParen c))|]. cbn. intros [Ha Hb]. by rewrite (IHa Ha), (IHb Hb).
Qed.
Lemma stuck k c : ~ only_glyph c -> stub k (CParen c) = CGlyph k.
Proof. induction c as [g|c IH|]; intros H; [by destruct H| |done]. cbn [only_glyph] in H. specialize (IH H). change (match stub k (CParen c) with COp _ _ _ => CGlyph k | x => x end = CGlyph k). by rewrite IH. Qed.
Lemma only_glyph_dec c : {only_glyph c} + {~ only_glyph c}.
Proof. induction c as [g|c IH|]; cbn; [by left|done|right; intros H; exact H]. Qed.
Lemma flat_dec c : {flat c} + {~ flat c}.
Proof. induction c as [g|c IH|a IHa op b IHb]; cbn; [by left|apply only_glyph_dec|]. destruct IHa as [Ha|Ha]; [|by right; intros [? ?]]. destruct IHb as [Hb|Hb]; [by left|by right; intros [? ?]]. Qed.
Lemma stubs_differ c : ~ flat c -> cexp_ast (stub 65 c) <> cexp_ast (stub 66 c).
Proof.
  induction c as [g|c IH|a IHa op b IHb]; intros H; [by destruct H| |].
  - cbn [flat] in H. by rewrite !stuck.
  - cbn. intros [= E1 E2]. destruct (flat_dec a) as [Ha|Ha]; [|by apply IHa]. destruct (flat_dec b) as [Hb|Hb]; [|by apply IHb]. by apply H.
Qed.

Section Fifth.
Variable text : bytes.
Variable cbf : nat -> nat -> val -> option (option val).
Notation gives := (Gives.gives (g_rule (gram_of moss_deep)) moss_rx cbf text).
Lemma deep_expr d p r r' : Gives.does (g_rule (gram_of moss_deep)) moss_rx cbf text d (l_expr true "Expr[0]" 6) p r ->
  prepared cbf (n_info (l_expr true "Expr[0]" 6)) r = Some r' -> gives (S (1 + d)) d_expr p r'.
Proof.
  intros H H'. apply gives_bare_rule; [done|done|by split; [|left]|]. eapply does_choice; [reflexivity|].
  assert (gives (S d) (l_expr true "Expr[0]" 6) p r') as HG by (by eapply gives_rule).
  destruct r' as [[]|]; [by apply alts_take|]. apply alts_next; [done|]. apply alts_nil.
Qed.
Lemma deep_top d r : gives d d_expr 0 r -> gives d d_top 0 r.
Proof.
  intros H. apply gives_bare; [done|done|by split; [|left]|]. eapply does_choice; [reflexivity|].
  destruct r as [[]|]; [by apply alts_take|]. apply alts_next; [done|]. apply alts_nil.
Qed.
Variable fac : val -> option val.
Hypothesis Hcb : forall pos v ops l, ops_v ops = Some l -> cbf 0 pos (VArr [v; VArr ops]) = Some (Some (fold_left join_v l v)).
Hypothesis Hfac : forall v w pos, fac v = Some w -> cbf 0 pos v = Some (Some w).
Lemma deep_prepared v w pos : fac v = Some w -> prepared cbf (n_info (l_factor (Some 0) 1)) (Some (v, pos)) = Some (Some (w, pos)).
Proof. intros H. unfold prepared. cbn [n_info l_factor rl i_cb]. change (labelled _ v) with v. by rewrite (Hfac v w pos H). Qed.
Lemma deep_reads e v : shown blank 2 e text -> cval fac e = Some v -> gives (4 * nest e + 5) d_expr 0 (Some (v, length text)).
Proof.
  intros Hsh Hv. pose proof (reads_all text (g_rule (gram_of moss_deep)) cbf true 2 4 5 3 0 1 6 1 "Expr[0]" (Some 0) fac d_expr
    eq_refl eq_refl eq_refl ltac:(done) eq_refl eq_refl eq_refl deep_expr Hcb deep_prepared e v Hsh Hv) as H.
  replace (4 * nest e + 5) with ((3 + 1) * nest e + 4 + 1) by lia. exact H.
Qed.
Lemma deep_total : (forall e a u b, text = a ++ u ++ b -> shown blank 2 e u -> exists v, cval fac e = Some v) ->
  exists r, gives (4 * opens text + 5) d_expr 0 r /\ (forall v, r = Some (v, length text) -> exists e, shown blank 2 e text).
Proof.
  intros Hval. destruct (total text (g_rule (gram_of moss_deep)) cbf true 2 4 5 3 0 1 6 1 "Expr[0]" (Some 0) fac d_expr
    eq_refl eq_refl eq_refl ltac:(done) eq_refl eq_refl eq_refl deep_expr Hcb deep_prepared Hval) as (r & H & HS).
  exists r. split; [|intros v Hv; destruct (HS v Hv) as (e & He & _); by exists e].
  replace (4 * opens text + 5) with ((3 + 1) * opens text + 4 + 1) by lia. exact H.
Qed.
End Fifth.

(** A text is read in one way only. *)
Definition kept_fac (v : val) : option val := match v with VStr _ | VUser _ _ => Some (VUser 1 [v]) | _ => None end.
Definition kept_cbf (f pos : nat) (v : val) : option (option val) :=
  match v with
  | VArr (first :: VArr ops :: _) => match ops_v ops with Some l => Some (Some (fold_left join_v l first)) | None => None end
  | _ => match kept_fac v with Some w => Some (Some w) | None => None end
  end.
Fixpoint kept (c : cexp) : val :=
  match c with
  | CGlyph g => VUser 1 [VStr [g]]
  | CParen c => VUser 1 [kept c]
  | COp a op b => VUser 0 [kept a; VStr [op]; kept b]
  end.
Lemma kept_val c : cval kept_fac c = Some (kept c).
Proof. induction c as [g|c IH|a IHa op b IHb]; cbn [cval kept]; [done|rewrite IH; by destruct c|by rewrite IHa, IHb]. Qed.
Lemma kept_inj c : forall c', kept c = kept c' -> c = c'.
Proof.
  induction c as [g|c IH|a IHa op b IHb]; intros [g'|c'|a' op' b']; cbn; try done.
  - by intros [= ->].
  - by destruct c'.
  - by destruct c.
  - intros [= H]. by rewrite (IH c' H).
  - intros [= H1 -> H2]. by rewrite (IHa a' H1), (IHb b' H2).
Qed.
Lemma shown_unique c c' s : shown blank 2 c s -> shown blank 2 c' s -> c = c'.
Proof.
  intros H H'. apply kept_inj.
  assert (forall e, shown blank 2 e s -> Gives.gives (g_rule (gram_of moss_deep)) moss_rx kept_cbf s (4 * nest e + 5) d_expr 0 (Some (kept e, length s))) as HG.
  { intros e He. apply (deep_reads s kept_cbf kept_fac); [|by intros [] w pos [= <-]|done|apply kept_val]. intros pos v ops l HO. unfold kept_cbf. by rewrite HO. }
  pose proof (gives_same _ _ _ _ _ _ _ _ _ _ (HG c H) (HG c' H')) as E. by injection E as ->.
Qed.
Lemma bare_shown c s : shown (fun w => w = []) 2 c s -> shown blank 2 c s.
Proof. apply shown_more. intros w ->. constructor. Qed.

Section Whole5.
Variable ostr : ast -> bytes.
Variable o : popts.
Hypothesis Ho : po_debug o = false.
Lemma deep_ready t : ids_fit (mk_env (gram_of moss_deep) o moss_rx (moss_cb_with ostr t)) (fst moss_deep) /\
  ids_unique (mk_env (gram_of moss_deep) o moss_rx (moss_cb_with ostr t)) (fst moss_deep) /\ top_rank (fst moss_deep).
Proof.
  pose proof (ready moss_compile 300 "at hand" moss_deep_lines moss_deep moss_deep_eq moss_deep_names_once moss_deep_no_singles ltac:(done) ltac:(by vm_compute) o moss_rx (moss_cb_with ostr t))
    as (H1 & H2 & H3 & _). done.
Qed.
Lemma deep_quiet : forallb (fun n => negb (i_debug (n_info n))) (all_nodes (fst moss_deep) (snd moss_deep)) = true.
Proof. by vm_compute. Qed.
Lemma deep_with t v w pos : deep_fac t v = Some w -> moss_cbf_with t 0 pos v = Some (Some w).
Proof. destruct v; cbn; try done; [by intros [= <-]|]. destruct t; [by intros [= <-]|done]. Qed.
Notation parse_with t fuel s := (fst (parse_string fuel (gram_of moss_deep) o moss_rx (moss_cb_with ostr t) s)).
Notation parse fuel s := (fst (parse_string fuel (gram_of moss_deep) o moss_rx (moss_cb ostr) s)).

Lemma deep_run t c v s : shown blank 2 c s -> opens s <= 250 -> cval (deep_fac t) c = Some v -> exists fuel0, forall fuel, fuel0 <= fuel -> exists x s',
  parse_with t fuel s = Ok (Some x) s' /\ rep [] (s_heap s') x v.
Proof.
  intros Hsh Hop Hv. pose proof (shown_nest _ _ _ _ Hsh) as Hn.
  pose proof (deep_top _ _ _ _ (deep_reads s (moss_cbf_with t) (deep_fac t) (with_fold t) (deep_with t) c v Hsh Hv)) as HG.
  destruct (any_run moss_deep o Ho ostr t (deep_ready t) deep_quiet s _ _ HG ltac:(unfold stack_limit; lia)) as (f0 & Hf).
  exists f0. intros fuel Hl. specialize (Hf fuel Hl). by rewrite Nat.eqb_refl in Hf.
Qed.
Lemma deep_trees c s : shown blank 2 c s -> flat c -> opens s <= 250 -> exists fuel0, forall fuel, fuel0 <= fuel -> exists s',
  parse fuel s = Ok (Some (cexp_ast c)) s'.
Proof.
  intros Hsh Hfl Hop. destruct (deep_run None c _ s Hsh Hop (flat_val None c Hfl)) as (f0 & Hf). exists f0. intros fuel Hl.
  destruct (Hf fuel Hl) as (x & s' & Hx & Hr). exists s'. rewrite <- (rep_cexp _ _ _ Hr). exact Hx.
Qed.
Lemma deep_panics c s : shown blank 2 c s -> ~ flat c -> opens s <= 250 -> exists fuel0, forall fuel, fuel0 <= fuel -> exists k s',
  parse fuel s = Panic (Base.PUser k) s'.
Proof.
  intros Hsh Hfl Hop.
  destruct (deep_run (Some 65%N) c _ s Hsh Hop (brave_val _ c)) as (f0 & Hf). destruct (deep_run (Some 66%N) c _ s Hsh Hop (brave_val _ c)) as (f1 & Hf1).
  exists (f0 + f1). intros fuel Hl. destruct (Hf fuel ltac:(lia)) as (x & s' & H & Hr). destruct (Hf1 fuel ltac:(lia)) as (x1 & s1 & H1 & Hr1).
  unfold parse_string in *.
  destruct (ple_gram fuel (gram_of moss_deep) o moss_rx _ _ (CRune (new_rune_stream s)) (moss_with_braver ostr (Some 65%N))) as [|HA]; [done|].
  destruct (ple_gram fuel (gram_of moss_deep) o moss_rx _ _ (CRune (new_rune_stream s)) (moss_with_braver ostr (Some 66%N))) as [|HB]; [done|].
  exfalso. rewrite HA, H in HB. rewrite H1 in HB. injection HB as <- <-. apply (stubs_differ c Hfl). by rewrite <- (rep_cexp _ _ _ Hr), <- (rep_cexp _ _ _ Hr1).
Qed.
Lemma deep_other s : (forall c, ~ shown blank 2 c s) -> opens s <= 250 -> exists fuel0, forall fuel, fuel0 <= fuel -> exists s',
  (exists k, parse fuel s = Panic (Base.PUser k) s') \/
  match s with [] => parse fuel s = Ok None s' | _ => exists k, parse fuel s = Ok (Some (AErr k)) s' /\ k <= length s end.
Proof.
  intros Hno Hop. destruct (deep_total s (moss_cbf_with (Some 65%N)) (deep_fac (Some 65%N)) (with_fold _) (deep_with _)) as (r & HG & HS).
  { intros e a u b _ _. eexists. apply brave_val. }
  apply deep_top in HG. destruct (any_run moss_deep o Ho ostr (Some 65%N) (deep_ready _) deep_quiet s _ _ HG ltac:(unfold stack_limit; lia)) as (f0 & H).
  exists f0. intros fuel Hl. specialize (H fuel Hl).
  assert (forall y s', parse_with (Some 65%N) fuel s = Ok y s' -> (exists k s'', parse fuel s = Panic (Base.PUser k) s'') \/ parse fuel s = Ok y s') as HB.
  { intros y s' HE. unfold parse_string in *. destruct (ple_gram fuel (gram_of moss_deep) o moss_rx _ _ (CRune (new_rune_stream s)) (moss_with_braver ostr (Some 65%N))) as [HA|HA]; [left; exact HA|].
    right. by rewrite HA. }
  destruct r as [[v q]|].
  - destruct (Nat.eqb_spec q (length s)) as [-> |Hq]; [destruct (HS v eq_refl) as (e & He); by destruct (Hno e)|].
    destruct H as (k & s' & Hx & Hk). destruct (HB _ _ Hx) as [(k' & s'' & HP)|HP]; [eauto|]. exists s'. right.
    destruct s as [|b s]; [cbn in Hk, Hq; lia|]. exists k. split; [exact HP|lia].
  - destruct s as [|b s].
    + destruct H as (s' & Hx). destruct (HB _ _ Hx) as [(k' & s'' & HP)|HP]; [eauto|]. exists s'. by right.
    + destruct H as (k & s' & Hx & Hk). destruct (HB _ _ Hx) as [(k' & s'' & HP)|HP]; [eauto|]. exists s'. right. by exists k.
Qed.
(** Without parentheses nothing panics. *)
Lemma no_opens_flat l c u : shown blank l c u -> opens u = 0 -> flat c.
Proof.
  induction 1 as [g Hg|c s H IH|l c s H IH|l a s w op w' b s' Hop Hw Hw' Ha IHa Hb IHb]; intros H0; cbn; [done|done|by apply IH|].
  rewrite !opens_app in H0. split; [apply IHa|apply IHb]; lia.
Qed.
Lemma deep_other_bare s : (forall c, ~ shown blank 2 c s) -> opens s = 0 -> exists fuel0, forall fuel, fuel0 <= fuel -> exists s',
  match s with [] => parse fuel s = Ok None s' | _ => exists k, parse fuel s = Ok (Some (AErr k)) s' /\ k <= length s end.
Proof.
  intros Hno Hop. destruct (deep_total s (moss_cbf_with None) (deep_fac None) (with_fold _) (deep_with _)) as (r & HG & HS).
  { intros e a u b -> He. rewrite !opens_app in Hop. eexists. apply flat_val. eapply no_opens_flat; [exact He|lia]. }
  apply deep_top in HG. destruct (any_run moss_deep o Ho ostr None (deep_ready _) deep_quiet s _ _ HG ltac:(unfold stack_limit; lia)) as (f0 & H).
  exists f0. intros fuel Hl. specialize (H fuel Hl). destruct r as [[v q]|].
  - destruct (Nat.eqb_spec q (length s)) as [-> |Hq]; [destruct (HS v eq_refl) as (e & He); by destruct (Hno e)|].
    destruct H as (k & s' & Hx & Hk). exists s'. destruct s as [|b s]; [cbn in Hk, Hq; lia|]. exists k. split; [exact Hx|lia].
  - destruct s as [|b s]; [destruct H as (s' & Hx); by exists s'|]. destruct H as (k & s' & Hx & Hk). exists s'. by exists k.
Qed.
End Whole5.

(** ** Texts *)
Lemma shown_abc : shown (fun w => w = []) 2 (COp (CParen (COp (CGlyph 97) 43 (CGlyph 98))) 42 (CGlyph 99)) (s2b "(a+b)*c").
Proof.
  apply sh_up. apply (sh_op _ 0 (CParen (COp (CGlyph 97) 43 (CGlyph 98))) (s2b "(a+b)") [] 42 [] (CGlyph 99) (s2b "c")); [by left|done|done| |apply sh_glyph; unfold a_glyph; lia].
  apply sh_up. apply (sh_paren _ (COp (CGlyph 97) 43 (CGlyph 98)) (s2b "a+b")).
  apply (sh_op _ 1 (CGlyph 97) (s2b "a") [] 43 [] (CGlyph 98) (s2b "b")); [by left|done|done|do 2 apply sh_up|apply sh_up]; apply sh_glyph; unfold a_glyph; lia.
Qed.
Lemma shown_amn : shown blank 2 (COp (COp (CParen (CGlyph 97)) 42 (CGlyph 109)) 47 (CGlyph 110)) (s2b "(a) * m/n").
Proof.
  apply sh_up. apply (sh_op _ 0 (COp (CParen (CGlyph 97)) 42 (CGlyph 109)) (s2b "(a) * m") [] 47 [] (CGlyph 110) (s2b "n")); [by right|constructor|constructor| |apply sh_glyph; unfold a_glyph; lia].
  apply (sh_op _ 0 (CParen (CGlyph 97)) (s2b "(a)") [32%N] 42 [32%N] (CGlyph 109) (s2b "m")); [by left|repeat constructor|repeat constructor| |apply sh_glyph; unfold a_glyph; lia].
  apply sh_up. apply (sh_paren _ (CGlyph 97) (s2b "a")). do 2 apply sh_up. apply sh_glyph. unfold a_glyph. lia.
Qed.
Definition glyphs (s : bytes) : nat := length (List.filter glyph_b s).
Definition ops_in (s : bytes) : nat := length (List.filter (fun b => (b =? 42) || (b =? 43) || (b =? 45) || (b =? 47))%N%bool s).
Lemma glyphs_app s s' : glyphs (s ++ s') = glyphs s + glyphs s'.
Proof. unfold glyphs. by rewrite List.filter_app, app_length. Qed.
Lemma ops_app s s' : ops_in (s ++ s') = ops_in s + ops_in s'.
Proof. unfold ops_in. by rewrite List.filter_app, app_length. Qed.
Lemma blank_counts w : blank w -> glyphs w = 0 /\ ops_in w = 0.
Proof. induction 1 as [|b w [-> | ->] Hw IH]; [done|exact IH|exact IH]. Qed.
Lemma shown_counts l c s : shown blank l c s -> glyphs s = S (ops_in s).
Proof.
  induction 1 as [g Hg|c s H IH|l c s H IH|l a s w op w' b s' Hop Hw Hw' Ha IHa Hb IHb].
  - assert (glyph_b g = true) as HG by (by apply glyph_bool). unfold glyphs, ops_in. cbn [List.filter]. rewrite HG.
    unfold a_glyph in Hg. repeat match goal with |- context [(g =? ?x)%N] => destruct (N.eqb_spec g x) as [-> |]; [exfalso; lia|] end. done.
  - change (40%N :: s ++ [41%N]) with ([40%N] ++ s ++ [41%N]). rewrite !glyphs_app, !ops_app. change (glyphs [40%N]) with 0. change (glyphs [41%N]) with 0.
    change (ops_in [40%N]) with 0. change (ops_in [41%N]) with 0. lia.
  - exact IH.
  - destruct (blank_counts _ Hw) as [E1 E2]. destruct (blank_counts _ Hw') as [E3 E4]. rewrite !glyphs_app, !ops_app, E1, E2, E3, E4.
    assert (glyphs [op] = 0 /\ ops_in [op] = 1) as [-> ->] by (destruct l as [|[|l]]; cbn [op_at] in Hop; [destruct Hop; by subst|destruct Hop; by subst|done]). lia.
Qed.
Lemma not_shown_ab : (forall c, ~ shown (fun w => w = []) 2 c (s2b "a b")) /\ (forall c, ~ shown blank 2 c (s2b "a b")).
Proof.
  assert (forall c, ~ shown blank 2 c (s2b "a b")) as H by (intros c Hc; apply shown_counts in Hc; by vm_compute in Hc).
  split; [|exact H]. intros c Hc. by apply (H c), bare_shown.
Qed.
Lemma parens_panic : exists c s, shown blank 2 c s /\
  (forall ostr o, po_debug o = false -> exists fuel0, forall fuel, fuel0 <= fuel -> exists k s',
     fst (parse_string fuel (gram_of moss_deep) o moss_rx (moss_cb ostr) s) = Panic (Base.PUser k) s') /\
  (exists s', fst (parse_string 300 (gram_of moss_real) (POpts false false false) moss_rx (moss_cb (fun _ => [])) s) = Panic (Base.PUser 1) s') /\
  (exists s', fst (parse_string 300 (gram_of moss_real) (POpts false false false) moss_rx (moss_cb (fun _ => [])) (s2b "(-a)")) = Panic (Base.PUser 1) s').
Proof.
  exists (COp (CParen (COp (CGlyph 97) 43 (CGlyph 98))) 42 (CGlyph 99)), (s2b "(a+b)*c"). split; [exact (bare_shown _ _ shown_abc)|].
  split; [|split; eexists; vm_compute; reflexivity]. intros ostr o Ho. apply (deep_panics ostr o Ho _ _ (bare_shown _ _ shown_abc)); [by intros [? _]|]. apply Nat.leb_le. by vm_compute.
Qed.
