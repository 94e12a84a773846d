(** Expressions of two levels, with parentheses: what the grammars of
    examples/precedence that have them have in common. *)
From stdpp Require Import sets.
From Verif Require Import Base Helpers Utf8 Stream StreamSpec Native Engine EngSpec Peg PegStd PegRep PegStdProofs
  Build Joeson JoesonSpec JoesonRun Calc CalcRun CalcSpec CalcPeg CalcAllSpec Moss MossRun MossSpec Gives MossPeg.
Local Open Scope list_scope.

(** ** The parsers *)
Definition l_pair (sp : bool) (op opd : string) : node := if sp then n_pair op opd else nd "" true true (KSeq TArray [rf op; rf opd]).
Definition l_rest (sp : bool) (op opd : string) : node := nd "" true false (KPat (l_pair sp op opd) None (-1) (-1)).
Definition l_seq (sp : bool) (opd op : string) : kind node := KSeq TArray [rf opd; l_rest sp op opd].
Definition l_term (sp : bool) (i : nat) : node := rl "Term" true i (Some 0) (l_seq sp "Factor" "MulOp").
Definition l_factor (fcb : option nat) (i : nat) : node := rl "Factor" true i fcb (KChoice [n_paren; m_one]).
Definition l_mulop (i : nat) : node := rl "MulOp" false i None (KChoice [n_lit 42; n_lit 47]).
Definition l_expr (sp : bool) (nm : string) (i : nat) : node := rl nm true i (Some 0) (l_seq sp "Term" "AddOp").
Definition op_name (l : nat) : string := match l with 0 => "MulOp" | _ => "AddOp" end.

(** ** Texts *)
Definition blanks (sp : bool) (w : bytes) : Prop := if sp then blank w else w = [].
Definition free (sp : bool) (s : bytes) : Prop := if sp then not_blank s else True.
Fixpoint nest (c : cexp) : nat :=
  match c with CGlyph _ => 0 | CParen c => S (nest c) | COp a _ b => max (nest a) (nest b) end.
Lemma opens_app a b : opens (a ++ b) = opens a + opens b.
Proof. unfold opens. by rewrite filter_app, app_length. Qed.
Lemma opens_paren s : opens (40%N :: s) = S (opens s).
Proof. done. Qed.
Lemma shown_nest W l c s : shown W l c s -> nest c <= opens s.
Proof.
  induction 1 as [g Hg|c s H IH|l c s H IH|l a s w op w' b s' Ho Hw Hw' Ha IHa Hb IHb]; cbn [nest].
  - lia.
  - rewrite opens_paren, opens_app. lia.
  - done.
  - rewrite !opens_app. lia.
Qed.
Lemma blanks_nil sp : blanks sp [].
Proof. destruct sp; [constructor|done]. Qed.
Lemma split_blanks sp s : exists w r, s = w ++ r /\ blanks sp w /\ free sp r.
Proof. destruct sp; [apply split_blank|]. by exists [], s. Qed.
Lemma op_blank l o s : op_at l o -> not_blank (o :: s).
Proof. intros H b [= <-]. destruct l as [|[|l]]; [by destruct H; subst|by destruct H; subst|destruct H]. Qed.
Lemma op_free sp l o s : op_at l o -> free sp (o :: s).
Proof. intros H. destruct sp; [by eapply op_blank|done]. Qed.
Lemma op_cases l s : (exists o r, s = o :: r /\ op_at l o) \/ (forall b, head s = Some b -> ~ op_at l b).
Proof.
  destruct l as [|[|l]]; [|apply op_or_not|right; intros b _ H; exact H]. destruct s as [|b s]; [by right|].
  destruct (decide (b = 42%N)) as [-> |H1]; [left; eexists _, _; split; [done|by left]|].
  destruct (decide (b = 47%N)) as [-> |H2]; [left; eexists _, _; split; [done|by right]|]. right. intros c [= <-] [?|?]; done.
Qed.
Lemma shown_head W l c s r : shown W l c s -> not_blank (s ++ r).
Proof.
  intros H. revert r. induction H as [g Hg|c s H IH|l c s H IH|l a s w op w' b s' Ho Hw Hw' Ha IHa Hb IHb]; intros r.
  - by apply glyph_not_blank.
  - intros b [= <-]. done.
  - apply IH.
  - rewrite <- app_assoc. apply IHa.
Qed.
Lemma shown_free W sp l c s r : shown W l c s -> free sp (s ++ r).
Proof. intros H. destruct sp; [by eapply shown_head|done]. Qed.

(** What may follow an operand of level [l]. *)
Definition after (l : nat) : list N := match l with 0 => [43; 45; 42; 47; 41]%N | 1 => [43; 45; 41]%N | _ => [41]%N end.
Definition lends (l : nat) (s : bytes) : Prop := forall b, head s = Some b -> b ∈ after l.
Definition stops (sp : bool) (l : nat) (s : bytes) : Prop := exists w r, s = w ++ r /\ blanks sp w /\ lends l r.
Lemma ends_blank l r : lends l r -> not_blank r.
Proof.
  intros H b Hb. specialize (H b Hb). destruct l as [|[|l]]; cbn in H; unfold blank_b;
    repeat (apply elem_of_cons in H as [-> | H]; [done|]); by apply elem_of_nil in H.
Qed.
Lemma ends_no_op l r : l < 2 -> lends (S l) r -> forall b, head r = Some b -> ~ op_at l b.
Proof.
  intros Hl H b Hb Ho. specialize (H b Hb). destruct l as [|[|l]]; [| |lia]; cbn in H; destruct Ho as [-> | ->];
    repeat (apply elem_of_cons in H as [H | H]; [done|]); by apply elem_of_nil in H.
Qed.
Lemma op_after l o : op_at l o -> o ∈ after l.
Proof. destruct l as [|[|l]]; [| |done]; (intros [-> | ->]; cbn; set_solver). Qed.
Lemma after_up l : after (S l) ⊆ after l.
Proof. destruct l as [|[|l]]; cbn; set_solver. Qed.
Lemma stops_up sp l s : stops sp (S l) s -> stops sp l s.
Proof. intros (w & r & -> & Hw & Hr). exists w, r. split; [done|]. split; [done|]. intros b Hb. apply after_up. by apply Hr. Qed.

(** Operands and operators in turn. *)
Definition litem : Type := bytes * N * bytes * cexp * bytes.
Definition lit_text (i : litem) : bytes := let '(w, o, w', e, s) := i in w ++ [o] ++ w' ++ s.
Definition lit_ok (sp : bool) (l d : nat) (i : litem) : Prop :=
  let '(w, o, w', e, s) := i in blanks sp w /\ blanks sp w' /\ op_at l o /\ shown (blanks sp) l e s /\ nest e <= d.
Definition lit_join (a : cexp) (i : litem) : cexp := let '(w, o, w', e, s) := i in COp a o e.
Definition lits (l : list litem) : bytes := List.concat (lit_text <$> l).
Lemma lits_cons i l : lits (i :: l) = lit_text i ++ lits l.
Proof. done. Qed.
Lemma lits_app l l' : lits (l ++ l') = lits l ++ lits l'.
Proof. unfold lits. by rewrite fmap_app, List.concat_app. Qed.
Lemma lit_nonempty i : 0 < length (lit_text i).
Proof. destruct i as [[[[w o] w'] e] u]. cbn [lit_text]. rewrite !app_length. cbn. lia. Qed.
Lemma lit_deeper sp l d d' i : d <= d' -> lit_ok sp l d i -> lit_ok sp l d' i.
Proof. destruct i as [[[[w o] w'] e] u]. cbn. intros Hd (? & ? & ? & ? & ?). repeat split; try done. lia. Qed.
Lemma spine sp l e s : shown (blanks sp) (S l) e s -> exists e0 s0 its, shown (blanks sp) l e0 s0 /\ Forall (lit_ok sp l (nest e)) its /\
  nest e0 <= nest e /\ s = s0 ++ lits its /\ e = fold_left lit_join its e0.
Proof.
  intros H. remember (S l) as l1 eqn:El. revert l El. induction H as [g Hg|c s H IH|l1 c s H IH|l1 a s w o w' b s' Ho Hw Hw' Ha IHa Hb IHb]; intros l [= ].
  - subst l1. exists c, s, []. cbn. rewrite app_nil_r. done.
  - subst l1. destruct (IHa l eq_refl) as (e0 & s0 & its & H0 & H1 & Hn & -> & ->).
    exists e0, s0, (its ++ [(w, o, w', b, s')]). split; [done|]. split.
    { apply Forall_app. split.
      - eapply Forall_impl; [exact H1|]. intros x. apply lit_deeper. cbn [nest]. lia.
      - repeat constructor; try done. cbn [nest]. lia. }
    split; [cbn [nest]; lia|].
    rewrite lits_app, fold_left_app. unfold lits at 3. cbn. rewrite app_nil_r, <- app_assoc. done.
Qed.
Lemma chain_shown sp l its : forall d e0 s0, Forall (lit_ok sp l d) its -> shown (blanks sp) (S l) e0 s0 ->
  shown (blanks sp) (S l) (fold_left lit_join its e0) (s0 ++ lits its).
Proof.
  induction its as [|[[[[w o] w'] e] u] its IH]; intros d e0 s0 Hok H0; [unfold lits; cbn; by rewrite app_nil_r|].
  cbn [fold_left]. rewrite lits_cons. apply Forall_cons in Hok as [(Hw & Hw' & Ho & He & _) Hok]. rewrite app_assoc. eapply IH; [done|]. cbn [lit_join lit_text]. by constructor.
Qed.
Lemma stops_items sp l d its post : Forall (lit_ok sp l d) its -> stops sp (S l) post -> stops sp l (lits its ++ post).
Proof.
  intros [|[[[[w o] w'] e] s] its' H _]; intros Hp; [by apply stops_up|].
  destruct H as (Hw & _ & Ho & _). rewrite lits_cons. cbn [lit_text]. exists w. eexists. rewrite <- !app_assoc. split; [done|]. split; [done|].
  intros b. cbn. intros [= <-]. by apply op_after.
Qed.

(** ** Operators *)
Section Ops.
Variable text : bytes.
Variable rules : string -> option node.
Variable cbf : nat -> nat -> val -> option (option val).
Variables ia im : nat.
Hypothesis RA : rules "AddOp"%string = Some (m_addop ia).
Hypothesis RM : rules "MulOp"%string = Some (l_mulop im).
Notation gives := (Gives.gives rules moss_rx cbf text).
Notation at_ := (Gives.at_ text).
Definition op_rule (l : nat) : node := match l with 0 => l_mulop im | _ => m_addop ia end.
Lemma op_rules l : rules (op_name l) = Some (op_rule l).
Proof. by destruct l. Qed.
Lemma op_yes D l o p rest : op_at l o -> at_ p (o :: rest) -> gives (S D) (op_rule l) p (Some (VStr [o], S p)).
Proof.
  intros Ho Hp. destruct l as [|[|l]]; [|by eapply m_op|done].
  apply gives_bare_rule; [done|done|by split; [|left]|]. eapply does_choice; [done|]. destruct Ho as [-> | ->].
  - apply alts_take. by eapply m_lit_yes.
  - apply alts_next; [by eapply m_lit_no|]. apply alts_take. by eapply m_lit_yes.
Qed.
Lemma op_no D l p rest : l < 2 -> at_ p rest -> (forall b, head rest = Some b -> ~ op_at l b) -> gives (S D) (op_rule l) p None.
Proof.
  intros Hl Hp Hn. destruct l as [|[|l]]; [|by eapply m_no_op|lia].
  assert (forall b, b = 42%N \/ b = 47%N -> head rest <> Some b) as Hh by (intros b Hb H; by apply (Hn b)).
  apply gives_bare_rule; [done|done|by split; [|left]|]. eapply does_choice; [done|].
  apply alts_next; [eapply m_lit_no; [done|by apply Hh; left]|]. apply alts_next; [eapply m_lit_no; [done|by apply Hh; right]|]. apply alts_nil.
Qed.
Lemma rf_gives d nm m p r : rules nm = Some m -> gives d m p r -> gives d (rf nm) p r.
Proof. intros Hm H. apply gives_bare; [done|done|by split; [|left]|]. by eapply does_ref. Qed.
End Ops.

Section Levels.
Variable text : bytes.
Variable rules : string -> option node.
Variable cbf : nat -> nat -> val -> option (option val).
Variable sp : bool.
Variables ia ig ib im it if_ ix de : nat.
Variable nmx : string.
Variable fcb : option nat.
(** What the callback of the factors makes. *)
Variable fac : val -> option val.
Variable nE : node.
Hypothesis RA : rules "AddOp"%string = Some (m_addop ia).
Hypothesis RM : rules "MulOp"%string = Some (l_mulop im).
Hypothesis RG : rules "Glyph"%string = Some (m_glyph ig).
Hypothesis RB : sp = true -> rules "_"%string = Some (m_blank ib).
Hypothesis RT : rules "Term"%string = Some (l_term sp it).
Hypothesis RF : rules "Factor"%string = Some (l_factor fcb if_).
Hypothesis RE : rules "Expr"%string = Some nE.
Notation gives := (Gives.gives rules moss_rx cbf text).
Notation does := (Gives.does rules moss_rx cbf text).
Notation loops := (Gives.loops rules moss_rx cbf text).
Notation at_ := (Gives.at_ text).
Hypothesis HE : forall d p r r', does d (l_expr sp nmx ix) p r -> prepared cbf (n_info (l_expr sp nmx ix)) r = Some r' -> gives (S (de + d)) nE p r'.
Hypothesis Hcb : forall pos v ops l, ops_v ops = Some l -> cbf 0 pos (VArr [v; VArr ops]) = Some (Some (fold_left join_v l v)).
Hypothesis Hfac : forall v w pos, fac v = Some w -> prepared cbf (n_info (l_factor fcb if_)) (Some (v, pos)) = Some (Some (w, pos)).
Notation W := (blanks sp).

Fixpoint cval (c : cexp) : option val :=
  match c with
  | CGlyph g => fac (VStr [g])
  | CParen c => match cval c with Some v => fac v | None => None end
  | COp a op b => match cval a, cval b with Some x, Some y => Some (VUser 0 [x; VStr [op]; y]) | _, _ => None end
  end.

(** An operator and an operand. *)
Definition paired (o : N) (r : result) : result := match r with Some (v, q) => Some (VArr [VStr [o]; v], q) | None => None end.
Lemma pair_op D l opd m p w o w' s r : op_at l o -> W w -> W w' -> free sp s -> rules opd = Some m -> at_ p (w ++ [o] ++ w' ++ s) ->
  gives (S D) m (p + length w + 1 + length w') r -> gives (S D) (l_pair sp (op_name l) opd) p (paired o r).
Proof.
  intros Ho Hw Hw' Hs Hm Hp Hr. pose proof (op_free sp l o (w' ++ s) Ho) as Hf. unfold l_pair. unfold blanks in Hw, Hw'. destruct sp.
  - destruct (m_sp text rules cbf ib (RB eq_refl) D w _ p Hw Hf Hp) as [v1 H1].
    apply at_app in Hp. cbn [app] in Hp. pose proof (op_yes text rules cbf ia im D l o _ _ Ho Hp) as H2. apply at_cons in Hp.
    destruct (m_sp text rules cbf ib (RB eq_refl) D w' _ _ Hw' Hs Hp) as [v3 H3].
    apply gives_bare; [done|done|by split; [|left]|]. eapply does_array; [reflexivity|].
    eapply arrays_cons; [exact H1|]. cbn [n_info nd n_sp i_capture].
    eapply arrays_cons; [eapply (rf_gives text rules cbf); [by apply (op_rules rules ia im)|exact H2]|]. cbn [n_info nd rf i_capture].
    eapply arrays_cons; [exact H3|]. cbn [n_info nd n_sp i_capture].
    replace (p + length w + 1 + length w') with (S (p + length w) + length w') in Hr by lia.
    destruct r as [[v q]|]; [|apply arrays_fail; by eapply (rf_gives text rules cbf)].
    eapply arrays_cons; [by eapply (rf_gives text rules cbf)|]. apply arrays_nil.
  - subst w w'. cbn [app length] in *. rewrite !Nat.add_0_r in Hr. pose proof (op_yes text rules cbf ia im D l o _ _ Ho Hp) as H2.
    apply gives_bare; [done|done|by split; [|left]|]. eapply does_array; [reflexivity|].
    eapply arrays_cons; [eapply (rf_gives text rules cbf); [by apply (op_rules rules ia im)|exact H2]|]. cbn [n_info nd rf i_capture]. rewrite Nat.add_1_r in Hr.
    destruct r as [[v q]|]; [|apply arrays_fail; by eapply (rf_gives text rules cbf)].
    eapply arrays_cons; [by eapply (rf_gives text rules cbf)|]. apply arrays_nil.
Qed.
Lemma pair_no_op D l opd p w s : l < 2 -> W w -> free sp s -> at_ p (w ++ s) -> (forall b, head s = Some b -> ~ op_at l b) ->
  gives (S D) (l_pair sp (op_name l) opd) p None.
Proof.
  intros Hl Hw Hs Hp Hn. unfold l_pair. unfold blanks in Hw. destruct sp.
  - destruct (m_sp text rules cbf ib (RB eq_refl) D w _ p Hw Hs Hp) as [v1 H1]. apply at_app in Hp.
    apply gives_bare; [done|done|by split; [|left]|]. eapply does_array; [reflexivity|].
    eapply arrays_cons; [exact H1|]. apply arrays_fail. eapply (rf_gives text rules cbf); [by apply (op_rules rules ia im)|]. by eapply (op_no text rules cbf ia im).
  - subst w. cbn [app] in Hp. apply gives_bare; [done|done|by split; [|left]|]. eapply does_array; [reflexivity|].
    apply arrays_fail. eapply (rf_gives text rules cbf); [by apply (op_rules rules ia im)|]. by eapply (op_no text rules cbf ia im).
Qed.

(** ** Chains *)
Definition lit_val (i : litem) (v : val) : Prop := let '(w, o, w', e, s) := i in cval e = Some v.
Definition lit_pair (i : litem) (v : val) : val := let '(w, o, w', e, s) := i in VArr [VStr [o]; v].
Definition lit_step (i : litem) (v : val) : bytes * val := let '(w, o, w', e, s) := i in ([o], v).
Lemma pairs_ops its vs : Forall2 lit_val its vs -> ops_v (zip_with lit_pair its vs) = Some (zip_with lit_step its vs).
Proof.
  induction 1 as [|[[[[w o] w'] e] s] v its vs Hi Hv IH]; [done|]. cbn [zip_with lit_pair lit_step].
  change (match ops_v (zip_with lit_pair its vs) with Some r => Some (([o], v) :: r) | None => None end = Some (([o], v) :: zip_with lit_step its vs)). by rewrite IH.
Qed.
Lemma chain_value its vs : Forall2 lit_val its vs -> forall e0 v0, cval e0 = Some v0 ->
  cval (fold_left lit_join its e0) = Some (fold_left join_v (zip_with lit_step its vs) v0).
Proof.
  induction 1 as [|[[[[w o] w'] e] s] v its vs Hi Hv IH]; intros e0 v0 H0; [done|]. cbn [zip_with fold_left lit_join lit_step].
  apply IH. cbn [cval]. rewrite H0. cbn [lit_val] in Hi. by rewrite Hi.
Qed.
Lemma chain_strict its : forall e0 v, cval (fold_left lit_join its e0) = Some v -> exists v0 vs, cval e0 = Some v0 /\ Forall2 lit_val its vs.
Proof.
  induction its as [|[[[[w o] w'] e] s] its IH]; intros e0 v Hv; [by exists v, []|]. cbn [fold_left lit_join] in Hv.
  destruct (IH _ _ Hv) as (v1 & vs & H1 & H2). cbn [cval] in H1. destruct (cval e0) as [v0|]; [|done]. destruct (cval e) as [v2|] eqn:E2; [|done].
  exists v0, (v2 :: vs). by repeat constructor.
Qed.

Section Chain.
Variables (l d D : nat) (opd : string) (m : node).
Hypothesis Hl : l < 2.
Hypothesis Hm : rules opd = Some m.
Hypothesis Hopd : forall e s v p post, shown W l e s -> nest e <= d -> cval e = Some v -> at_ p (s ++ post) -> stops sp l post ->
  gives (S D) m p (Some (v, p + length s)).

Lemma chain_stop p post : at_ p post -> stops sp (S l) post -> gives (S D) (l_pair sp (op_name l) opd) p None.
Proof.
  intros Hp (w & r & -> & Hw & Hr). eapply pair_no_op; [done|exact Hw| |exact Hp|by apply ends_no_op].
  unfold free. destruct sp; [by eapply ends_blank|done].
Qed.
Lemma chain_one i v p rest : lit_ok sp l d i -> lit_val i v -> at_ p (lit_text i ++ rest) -> stops sp l rest ->
  gives (S D) (l_pair sp (op_name l) opd) p (Some (lit_pair i v, p + length (lit_text i))).
Proof.
  destruct i as [[[[w o] w'] e] s]. cbn [lit_ok lit_val lit_text lit_pair]. intros (Hw & Hw' & Ho & He & Hn) Hv Hp Hr.
  rewrite <- !app_assoc in Hp. replace (p + length (w ++ [o] ++ w' ++ s)) with (p + length w + 1 + length w' + length s) by (rewrite !app_length; cbn; lia).
  eapply (pair_op D l opd m p w o w' (s ++ rest) (Some (v, _))); [done|done|done|by eapply shown_free|done|done|].
  apply (Hopd e s v _ rest); [done..| |done]. apply at_app, at_app, at_app in Hp. exact Hp.
Qed.
Lemma chain_loops its vs : Forall2 lit_val its vs -> Forall (lit_ok sp l d) its -> forall acc p post,
  at_ p (lits its ++ post) -> stops sp (S l) post ->
  loops (S D) (l_pair sp (op_name l) opd) None (-1) acc p (acc ++ zip_with lit_pair its vs) (p + length (lits its)).
Proof.
  induction 1 as [|i v its vs Hi Hv IH]; intros Hok acc p post Hp Hs.
  - cbn. rewrite app_nil_r, Nat.add_0_r. apply loops_end. by eapply chain_stop.
  - apply Forall_cons in Hok as [Hi1 Hok]. rewrite lits_cons in Hp |- *. rewrite <- app_assoc in Hp.
    eapply loops_more; [eapply chain_one; [done|done|exact Hp|by eapply stops_items]|done|].
    apply at_app in Hp. specialize (IH Hok (acc ++ [lit_pair i v]) _ _ Hp Hs).
    rewrite <- app_assoc in IH. cbn [app] in IH. rewrite app_length, Nat.add_assoc. exact IH.
Qed.
Lemma chain_rest its vs p post : Forall2 lit_val its vs -> Forall (lit_ok sp l d) its ->
  at_ p (lits its ++ post) -> stops sp (S l) post ->
  gives (S D) (l_rest sp (op_name l) opd) p (Some (VArr (zip_with lit_pair its vs), p + length (lits its))).
Proof.
  intros Hv Hok Hp Hs. apply gives_bare; [done|done|by split; [|left]|]. destruct Hv as [|i v its vs Hi Hv].
  - cbn. rewrite Nat.add_0_r. eapply (does_pat_none _ _ _ _ _ _ (l_pair sp (op_name l) opd) None (-1) (-1)); [done|]. by eapply chain_stop.
  - apply Forall_cons in Hok as [Hi1 Hok]. rewrite lits_cons in Hp |- *. rewrite <- app_assoc in Hp.
    eapply (does_pat_some _ _ _ _ _ _ (l_pair sp (op_name l) opd) None (-1) (-1)); [done|eapply chain_one; [done|done|exact Hp|by eapply stops_items]|]. apply at_app in Hp.
    pose proof (chain_loops its vs Hv Hok [lit_pair i v] _ _ Hp Hs) as H. rewrite app_length, Nat.add_assoc. exact H.
Qed.
(** A chain of operands, as the sequence of the rule above. *)
Lemma chain_does i e s v p post : i_cb i = Some 0 -> i_label i = EmptyString -> shown W (S l) e s -> nest e <= d -> cval e = Some v -> at_ p (s ++ post) -> stops sp (S l) post ->
  exists r, does (S D) (Node i (l_seq sp opd (op_name l))) p r /\ prepared cbf i r = Some (Some (v, p + length s)).
Proof.
  intros Hi Hlb Hsh Hn Hv Hp Hs. destruct (spine _ _ _ _ Hsh) as (e0 & s0 & its & H0 & Hok & Hn0 & -> & ->).
  destruct (chain_strict _ _ _ Hv) as (v0 & vs & Hv0 & Hvs). rewrite <- app_assoc in Hp.
  assert (Forall (lit_ok sp l d) its) as Hok' by (eapply Forall_impl; [exact Hok|]; intros x; by apply lit_deeper).
  pose proof (Hopd _ _ _ _ _ H0 ltac:(lia) Hv0 Hp (stops_items _ _ _ _ _ Hok' Hs)) as H1. apply at_app in Hp.
  pose proof (chain_rest its vs _ _ Hvs Hok' Hp Hs) as H2.
  exists (Some (VArr [v0; VArr (zip_with lit_pair its vs)], p + length s0 + length (lits its))). split.
  - eapply does_array; [reflexivity|]. eapply arrays_cons; [eapply (rf_gives text rules cbf); [exact Hm|exact H1]|]. cbn [n_info nd rf i_capture app].
    eapply arrays_cons; [exact H2|]. apply arrays_nil.
  - unfold prepared, labelled. rewrite Hi, Hlb. cbn [String.eqb negb andb]. rewrite (Hcb _ _ _ _ (pairs_ops _ _ Hvs)). rewrite (chain_value _ _ Hvs _ _ Hv0) in Hv. injection Hv as ->.
    by rewrite app_length, Nat.add_assoc.
Qed.
End Chain.

(** ** Factors, terms, expressions *)
Notation K := (3 + de).
Definition factors (d : nat) : Prop := forall e s v p post, shown W 0 e s -> nest e <= d -> cval e = Some v -> at_ p (s ++ post) -> stops sp 0 post ->
  gives (K * d + 2) (l_factor fcb if_) p (Some (v, p + length s)).
Definition terms (d : nat) : Prop := forall e s v p post, shown W 1 e s -> nest e <= d -> cval e = Some v -> at_ p (s ++ post) -> stops sp 1 post ->
  gives (K * d + 3) (l_term sp it) p (Some (v, p + length s)).
Definition exprs (d : nat) : Prop := forall e s v p post, shown W 2 e s -> nest e <= d -> cval e = Some v -> at_ p (s ++ post) -> stops sp 2 post ->
  gives (K * d + 4 + de) nE p (Some (v, p + length s)).
Lemma terms_from d : factors d -> terms d.
Proof.
  intros HF e s v p post Hpr Hn Hv Hp Hs. replace (K * d + 3) with (S (S (S (K * d)))) by lia.
  assert (forall e s v p post, shown W 0 e s -> nest e <= d -> cval e = Some v -> at_ p (s ++ post) -> stops sp 0 post ->
    gives (S (S (K * d))) (l_factor fcb if_) p (Some (v, p + length s))) as HF'.
  { intros. replace (S (S (K * d))) with (K * d + 2) by lia. by eapply HF. }
  destruct (chain_does 0 d (S (K * d)) "Factor" (l_factor fcb if_) ltac:(lia) RF HF' (n_info (l_term sp it)) e s v p post eq_refl eq_refl Hpr Hn Hv Hp Hs) as (r & H1 & H2).
  eapply gives_rule; [done|done| |exact H2]. exact H1.
Qed.
Lemma exprs_from d : terms d -> exprs d.
Proof.
  intros HT e s v p post Hpr Hn Hv Hp Hs.
  assert (forall e s v p post, shown W 1 e s -> nest e <= d -> cval e = Some v -> at_ p (s ++ post) -> stops sp 1 post ->
    gives (S (S (S (K * d)))) (l_term sp it) p (Some (v, p + length s))) as HT'.
  { intros. replace (S (S (S (K * d)))) with (K * d + 3) by lia. by eapply HT. }
  destruct (chain_does 1 d (S (S (K * d))) "Term" (l_term sp it) ltac:(lia) RT HT' (n_info (l_expr sp nmx ix)) e s v p post eq_refl eq_refl Hpr Hn Hv Hp Hs) as (r & H1 & H2).
  replace (K * d + 4 + de) with (S (de + S (S (S (K * d))))) by lia. eapply HE; [|exact H2]. exact H1.
Qed.
Lemma no_paren d p s : at_ p s -> head s <> Some 40%N -> gives d n_paren p None.
Proof.
  intros Hp Hh. apply gives_bare; [done|done|by split; [|left]|]. eapply does_single; [reflexivity|]. apply singles_fail.
  apply gives_bare; [done|done|by split; [|left]|]. eapply does_lit; [done|]. by eapply lit_not.
Qed.
Lemma lit_gives d b p rest : at_ p (b :: rest) -> gives d (nd "" false false (KStr [b])) p (Some (VStr [b], S p)).
Proof.
  intros Hp. apply gives_bare; [done|done|by split; [|left]|]. eapply does_lit; [done|].
  rewrite (lit_here _ p [b] rest Hp). by rewrite Nat.add_1_r.
Qed.
Lemma lit_gives_not d b p rest : at_ p rest -> head rest <> Some b -> gives d (nd "" false false (KStr [b])) p None.
Proof. intros Hp Hh. apply gives_bare; [done|done|by split; [|left]|]. eapply does_lit; [done|]. by eapply lit_not. Qed.
Lemma paren_gives d p s v q r : at_ p (40%N :: s) -> gives d nE (S p) (Some (v, q)) -> gives d (nd "" false false (KStr [41%N])) q r ->
  gives d n_paren p (match r with Some (_, q') => Some (v, q') | None => None end).
Proof.
  intros Hp H2 H3. apply gives_bare; [done|done|by split; [|left]|]. eapply does_single; [reflexivity|].
  eapply singles_cons; [by eapply lit_gives|]. eapply singles_cons; [by eapply (rf_gives text rules cbf)|]. cbn [n_info nd rf i_capture].
  destruct r as [[v' q']|]; [|by apply singles_fail]. eapply singles_cons; [exact H3|]. apply singles_nil.
Qed.
Lemma factors_from d : (forall d', d = S d' -> exprs d') -> factors d.
Proof.
  intros IH e s v p post Hpr Hn Hv Hp Hs. inversion Hpr as [g Hg|c s' Hc| |]; subst.
  - cbn [cval length app] in *. replace (K * d + 2) with (S (S (K * d))) by lia. rewrite Nat.add_1_r.
    eapply (gives_rule _ _ _ _ _ _ _ (Some (VStr [g], S p))); [done|done| |by apply Hfac]. eapply does_choice; [reflexivity|].
    apply alts_next; [eapply no_paren; [exact Hp|]; intros [= ->]; unfold a_glyph in Hg; lia|]. apply alts_take.
    apply gives_bare; [done|done|by split; [|left]|]. eapply does_ref; [reflexivity|exact RG|]. by eapply m_glyph_gives.
  - cbn [nest] in Hn. destruct d as [|d]; [lia|]. cbn [cval] in Hv. destruct (cval c) as [u|] eqn:Hu; [|done].
    replace (K * S d + 2) with (S (K * d + 4 + de)) by lia. cbn [app length]. rewrite app_length. cbn [length].
    cbn [app] in Hp. rewrite <- app_assoc in Hp. cbn [app] in Hp.
    pose proof (at_cons _ _ _ _ Hp) as Hp1.
    assert (stops sp 2 (41%N :: post)) as Hend.
    { exists [], (41%N :: post). split; [done|]. split; [apply blanks_nil|]. intros b [= <-]. cbn. set_solver. }
    pose proof (IH d eq_refl c s' u (S p) (41%N :: post) Hc ltac:(lia) Hu Hp1 Hend) as H2. apply at_app in Hp1.
    pose proof (paren_gives _ _ _ _ _ _ Hp H2 (lit_gives _ _ _ _ Hp1)) as H3. cbn beta iota in H3.
    replace (p + S (length s' + 1)) with (S (S p + length s')) by lia.
    eapply gives_rule; [done|done| |by apply Hfac]. eapply does_choice; [reflexivity|]. apply alts_take. exact H3.
Qed.
Lemma exprs_all d : exprs d.
Proof. induction d as [|d IH]; apply exprs_from, terms_from, factors_from; [done|]. by intros ? [= <-]. Qed.

(** ** Any text *)
Section Any.
(** Expressions in the text have values. *)
Hypothesis Hval : forall e a u b, text = a ++ u ++ b -> shown W 2 e u -> exists v, cval e = Some v.
Lemma shown_up l e u : shown W l e u -> l <= 2 -> shown W 2 e u.
Proof. intros H Hl. destruct l as [|[|[|l]]]; [by apply sh_up, sh_up|by apply sh_up|done|lia]. Qed.
Lemma val_some l e u p rest : at_ p (u ++ rest) -> l <= 2 -> shown W l e u -> exists v, cval e = Some v.
Proof.
  intros Hp Hl H. eapply (Hval e (take p text) u rest); [|by eapply shown_up]. unfold Gives.at_ in Hp. by rewrite <- Hp, take_drop.
Qed.
Definition sound (l p : nat) (s : bytes) (r : result) : Prop :=
  match r with
  | None => True
  | Some (v, q) => exists e u rest, s = u ++ rest /\ q = p + length u /\ shown W l e u /\ cval e = Some v
  end.

Section Chain.
Variables (l D n : nat) (opd : string) (m : node).
Hypothesis Hl : l < 2.
Hypothesis Hm : rules opd = Some m.
Variable need : nat.
Hypothesis Hopd : forall s p, length s <= n -> K * opens s + need <= S D -> at_ p s -> exists r, gives (S D) m p r /\ sound l p s r.

Lemma pair_total p s : length s <= n -> K * opens s + need <= S D -> at_ p s ->
  gives (S D) (l_pair sp (op_name l) opd) p None \/
  exists i v rest, s = lit_text i ++ rest /\ lit_ok sp l (opens (lit_text i)) i /\ lit_val i v /\
    gives (S D) (l_pair sp (op_name l) opd) p (Some (lit_pair i v, p + length (lit_text i))).
Proof.
  intros Hn HD Hp. destruct (split_blanks sp s) as (w & r & -> & Hw & Hr).
  destruct (op_cases l r) as [(o & s1 & -> & Ho)|Hno].
  2:{ left. by eapply pair_no_op. }
  destruct (split_blanks sp s1) as (w' & s2 & -> & Hw' & Hs2).
  pose proof Hp as Hp1. change (o :: w' ++ s2) with ([o] ++ w' ++ s2) in *. apply at_app, at_app, at_app in Hp1.
  destruct (Hopd s2 _ ltac:(rewrite !app_length in Hn; cbn in Hn; lia) ltac:(rewrite !opens_app in HD; nia) Hp1) as (rr & H4 & Hs).
  pose proof (pair_op D l opd m p w o w' s2 rr Ho Hw Hw' Hs2 Hm Hp H4) as H5. destruct rr as [[v q]|]; [|by left].
  right. destruct Hs as (e & u & rest & -> & -> & Hsh & Hv). exists (w, o, w', e, u), v, rest. cbn [lit_text lit_ok lit_val lit_pair].
  split; [by rewrite <- !app_assoc|]. split.
  { repeat split; try done. pose proof (shown_nest _ _ _ _ Hsh). rewrite !opens_app. lia. }
  split; [done|]. replace (p + length (w ++ [o] ++ w' ++ u)) with (p + length w + 1 + length w' + length u) by (rewrite !app_length; cbn; lia). exact H5.
Qed.
Lemma loops_total j : forall p s acc, length s <= j -> length s <= n -> K * opens s + need <= S D -> at_ p s ->
  exists its vs rest, s = lits its ++ rest /\ Forall (lit_ok sp l (opens (lits its))) its /\ Forall2 lit_val its vs /\
    loops (S D) (l_pair sp (op_name l) opd) None (-1) acc p (acc ++ zip_with lit_pair its vs) (p + length (lits its)).
Proof.
  induction j as [|j IH]; intros p s acc Hj Hn HD Hp; (destruct (pair_total p s Hn HD Hp) as [H|(i & v & rest & -> & Hok & Hv & H)];
    [exists [], [], s; split; [done|]; split; [constructor|]; split; [constructor|]; cbn; rewrite app_nil_r, Nat.add_0_r; by apply Gives.loops_end|]).
  { rewrite app_length in Hj. pose proof (lit_nonempty i). lia. }
  apply Gives.at_app in Hp. rewrite app_length in Hj, Hn. rewrite opens_app in HD. pose proof (lit_nonempty i).
  destruct (IH _ rest (acc ++ [lit_pair i v]) ltac:(lia) ltac:(lia) ltac:(nia) Hp) as (its & vs & rest' & -> & Hoks & Hvs & HL).
  exists (i :: its), (v :: vs), rest'. rewrite lits_cons. cbn [zip_with]. split; [by rewrite <- app_assoc|].
  split.
  { constructor; [eapply lit_deeper; [|exact Hok]; rewrite opens_app; apply Nat.le_add_r|]. eapply Forall_impl; [exact Hoks|]. intros x. apply lit_deeper. rewrite opens_app. apply Nat.le_add_l. }
  split; [by constructor|]. rewrite app_length, Nat.add_assoc. eapply Gives.loops_more; [exact H|done|].
  rewrite <- app_assoc in HL. exact HL.
Qed.
Lemma rest_total p s : length s <= n -> K * opens s + need <= S D -> at_ p s ->
  exists its vs rest, s = lits its ++ rest /\ Forall (lit_ok sp l (opens (lits its))) its /\ Forall2 lit_val its vs /\
    gives (S D) (l_rest sp (op_name l) opd) p (Some (VArr (zip_with lit_pair its vs), p + length (lits its))).
Proof.
  intros Hn HD Hp. destruct (pair_total p s Hn HD Hp) as [H|(i & v & rest & -> & Hok & Hv & H)].
  - exists [], [], s. split; [done|]. split; [constructor|]. split; [constructor|]. cbn. rewrite Nat.add_0_r.
    apply gives_bare; [done|done|by split; [|left]|]. exact (does_pat_none _ _ _ _ _ (l_rest sp (op_name l) opd) _ _ _ _ _ eq_refl H).
  - apply Gives.at_app in Hp. rewrite app_length in Hn. rewrite opens_app in HD. pose proof (lit_nonempty i).
    destruct (loops_total (length rest) _ rest [lit_pair i v] ltac:(lia) ltac:(lia) ltac:(nia) Hp) as (its & vs & rest' & -> & Hoks & Hvs & HL).
    exists (i :: its), (v :: vs), rest'. rewrite lits_cons. cbn [zip_with]. split; [by rewrite <- app_assoc|].
    split.
    { constructor; [eapply lit_deeper; [|exact Hok]; rewrite opens_app; apply Nat.le_add_r|]. eapply Forall_impl; [exact Hoks|]. intros x. apply lit_deeper. rewrite opens_app. apply Nat.le_add_l. }
    split; [by constructor|]. rewrite app_length, Nat.add_assoc.
    apply gives_bare; [done|done|by split; [|left]|]. exact (does_pat_some _ _ _ _ _ (l_rest sp (op_name l) opd) _ _ _ _ _ _ _ _ _ eq_refl H HL).
Qed.
Lemma seq_total i p s : i_cb i = Some 0 -> i_label i = EmptyString -> length s <= n -> K * opens s + need <= S D -> at_ p s ->
  exists r r', does (S D) (Node i (l_seq sp opd (op_name l))) p r /\ prepared cbf i r = Some r' /\ sound (S l) p s r'.
Proof.
  intros Hi Hlb Hn HD Hp. destruct (Hopd s p Hn HD Hp) as (r & H1 & Hs). destruct r as [[v0 q]|].
  2:{ exists None, None. split; [|by split]. eapply does_array; [reflexivity|]. apply arrays_fail. by eapply (rf_gives text rules cbf). }
  destruct Hs as (e0 & u & rest & -> & -> & Hsh & Hv0). pose proof (Gives.at_app _ _ _ _ Hp) as Hp1. rewrite app_length in Hn. rewrite opens_app in HD.
  destruct (rest_total _ rest ltac:(lia) ltac:(nia) Hp1) as (its & vs & rest' & -> & Hok & Hvs & H2).
  assert (shown W (S l) (fold_left lit_join its e0) (u ++ lits its)) as HP.
  { eapply chain_shown; [exact Hok|]. by constructor. }
  exists (Some (VArr [v0; VArr (zip_with lit_pair its vs)], p + length u + length (lits its))).
  eexists (Some (fold_left join_v (zip_with lit_step its vs) v0, p + length u + length (lits its))). split; [|split].
  - eapply does_array; [reflexivity|]. eapply arrays_cons; [eapply (rf_gives text rules cbf); [exact Hm|exact H1]|]. cbn [n_info nd rf i_capture app].
    eapply arrays_cons; [exact H2|]. apply arrays_nil.
  - unfold prepared, labelled. rewrite Hi, Hlb. cbn [String.eqb negb andb]. by rewrite (Hcb _ _ _ _ (pairs_ops _ _ Hvs)).
  - exists (fold_left lit_join its e0), (u ++ lits its), rest'. split; [by rewrite <- app_assoc|]. split; [rewrite app_length; lia|]. split; [done|].
    by apply chain_value.
Qed.
End Chain.

Definition all_factors (n : nat) : Prop := forall D s p, length s <= n -> K * opens s + 2 <= D -> at_ p s -> exists r, gives D (l_factor fcb if_) p r /\ sound 0 p s r.
Definition all_terms (n : nat) : Prop := forall D s p, length s <= n -> K * opens s + 3 <= D -> at_ p s -> exists r, gives D (l_term sp it) p r /\ sound 1 p s r.
Definition all_exprs (n : nat) : Prop := forall D s p, length s <= n -> K * opens s + 4 + de <= D -> at_ p s -> exists r, gives D nE p r /\ sound 2 p s r.
Lemma terms_total n : all_factors n -> all_terms n.
Proof.
  intros HF D s p Hn HD Hp. destruct D as [|[|D]]; [lia..|].
  destruct (seq_total 0 D n "Factor" (l_factor fcb if_) ltac:(lia) RF 2 ltac:(intros; by apply HF) (n_info (l_term sp it)) p s eq_refl eq_refl Hn ltac:(lia) Hp) as (r & r' & H1 & H2 & H3).
  exists r'. split; [|done]. eapply gives_rule; [done|done| |exact H2]. exact H1.
Qed.
Lemma exprs_total n : all_terms n -> all_exprs n.
Proof.
  intros HT D s p Hn HD Hp. destruct (Nat.le_exists_sub (2 + de) D) as (D' & -> & _); [lia|].
  replace (D' + (2 + de)) with (S (de + S D')) by lia.
  destruct (seq_total 1 D' n "Term" (l_term sp it) ltac:(lia) RT 3 ltac:(intros; by apply HT) (n_info (l_expr sp nmx ix)) p s eq_refl eq_refl Hn ltac:(lia) Hp) as (r & r' & H1 & H2 & H3).
  exists r'. split; [|done]. eapply HE; [|exact H2]. exact H1.
Qed.
Lemma factors_total n : (forall n', n' < n -> all_exprs n') -> all_factors n.
Proof.
  intros IH D s p Hn HD Hp. destruct D as [|[|D]]; [lia..|].
  assert (gives (S D) n_paren p None -> exists r, gives (S (S D)) (l_factor fcb if_) p r /\ sound 0 p s r) as Hnot.
  { intros H1. destruct (glyph_or_not s) as [(g & r & -> & Hg)|Hg].
    - change (g :: r) with ([g] ++ r) in Hp |- *. destruct (val_some 0 (CGlyph g) [g] p r Hp ltac:(lia) ltac:(by constructor)) as [v Hv]. cbn [cval] in Hv.
      exists (Some (v, S p)). split; [|exists (CGlyph g), [g], r; split; [done|]; split; [cbn; lia|]; by split; [constructor|]].
      eapply (gives_rule _ _ _ _ _ _ _ (Some (VStr [g], S p))); [done|done| |by apply Hfac]. eapply does_choice; [reflexivity|].
      apply alts_next; [exact H1|]. apply alts_take. apply gives_bare; [done|done|by split; [|left]|]. eapply does_ref; [reflexivity|exact RG|]. by eapply m_glyph_gives.
    - exists None. split; [|done]. eapply (gives_rule _ _ _ _ _ _ _ None); [done|done| |done]. eapply does_choice; [reflexivity|].
      apply alts_next; [exact H1|]. apply alts_next; [|apply alts_nil]. apply gives_bare; [done|done|by split; [|left]|]. eapply does_ref; [reflexivity|exact RG|].
      by eapply m_no_glyph. }
  destruct (decide (head s = Some 40%N)) as [Hs|Hs]; [|apply Hnot; by eapply no_paren].
  destruct s as [|b s]; [done|]. injection Hs as ->. pose proof (Gives.at_cons _ _ _ _ Hp) as Hp1. cbn [length] in Hn. rewrite opens_paren in HD.
  destruct (IH (length s) ltac:(lia) (S D) s (S p) ltac:(lia) ltac:(nia) Hp1) as (r & H2 & He). destruct r as [[v q]|].
  2:{ apply Hnot. apply gives_bare; [done|done|by split; [|left]|]. eapply does_single; [reflexivity|]. eapply singles_cons; [by eapply lit_gives|]. apply singles_fail. by eapply (rf_gives text rules cbf). }
  destruct He as (e & u & rest & -> & -> & Hsh & Hv). apply Gives.at_app in Hp1.
  destruct (decide (head rest = Some 41%N)) as [Hc|Hc].
  - destruct rest as [|b rest]; [done|]. injection Hc as ->.
    pose proof (paren_gives _ _ _ _ _ _ Hp H2 (lit_gives _ _ _ _ Hp1)) as H3. cbn beta iota in H3.
    assert (shown W 0 (CParen e) (40%N :: u ++ [41%N])) as HP by (by constructor).
    assert (at_ p ((40%N :: u ++ [41%N]) ++ rest)) as Hp2 by (cbn; by rewrite <- app_assoc).
    destruct (val_some 0 _ _ _ _ Hp2 ltac:(lia) HP) as [v' Hv']. pose proof Hv' as Hv2. cbn [cval] in Hv2. rewrite Hv in Hv2.
    exists (Some (v', S (S p + length u))). split.
    + eapply gives_rule; [done|done| |by apply Hfac]. eapply does_choice; [reflexivity|]. apply alts_take. exact H3.
    + exists (CParen e), (40%N :: u ++ [41%N]), rest. split; [cbn; by rewrite <- app_assoc|]. split; [cbn; rewrite app_length; cbn; lia|]. by split.
  - apply Hnot. exact (paren_gives _ _ _ _ _ _ Hp H2 (lit_gives_not _ _ _ _ Hp1 Hc)).
Qed.
Lemma every_expr n : all_exprs n.
Proof. induction n as [n IH] using lt_wf_ind. by apply exprs_total, terms_total, factors_total. Qed.
End Any.

(** ** Whole texts *)
Lemma reads_all e v : shown W 2 e text -> cval e = Some v -> gives (K * nest e + 4 + de) nE 0 (Some (v, length text)).
Proof.
  intros Hsh Hv. apply (exprs_all (nest e) e text v 0 [] Hsh (le_n _) Hv); [by rewrite app_nil_r|].
  exists [], []. split; [done|]. split; [apply blanks_nil|]. by intros b.
Qed.
Lemma total : (forall e a u b, text = a ++ u ++ b -> shown W 2 e u -> exists v, cval e = Some v) ->
  exists r, gives (K * opens text + 4 + de) nE 0 r /\ (forall v, r = Some (v, length text) -> exists e, shown W 2 e text /\ cval e = Some v).
Proof.
  intros Hval. destruct (every_expr Hval (length text) (K * opens text + 4 + de) text 0 ltac:(lia) ltac:(lia) eq_refl) as (r & HG & Hs).
  exists r. split; [done|]. intros v ->. destruct Hs as (e & u & rest & Htx & HL & Hsh & Hv). exists e.
  assert (rest = []) as ->. { apply nil_length_inv. apply (f_equal length) in Htx. rewrite app_length in Htx. lia. }
  rewrite app_nil_r in Htx. by rewrite Htx.
Qed.
End Levels.
