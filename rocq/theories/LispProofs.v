(** Proofs on the lisp example. *)
From Verif Require Import Base Lisp LispSpec.
From Coq Require Import String.
Open Scope string_scope.

(** * More fuel changes nothing *)
Section Mono.
Context {A : arith}.
Definition below {B} (r r' : lres A B) : Prop := r = LFuel \/ r = r'.
Lemma below_refl {B} (r : lres A B) : below r r.
Proof. by right. Qed.
Lemma below_bind {B C} (r r' : lres A B) (k k' : B -> machine A -> lres A C) :
  below r r' -> (forall b m, below (k b m) (k' b m)) -> below (lbind r k) (lbind r' k').
Proof. intros [-> | ->] Hk; [by left|]. destruct r' as [b m| |]; [apply Hk|by right|by left]. Qed.

Context (ev ev' : machine A -> lexp A -> lres A (lexp A)).
Hypothesis Hev : forall m e, below (ev m e) (ev' m e).
Lemma number_below k k' m e : k <= k' -> below (number_from ev k m e) (number_from ev' k' m e).
Proof.
  revert k' m e. induction k as [|k IH]; intros k' m e Hk; destruct e as [z|s|s|l].
  1-3, 5-7: destruct k'; apply below_refl.
  - by left.
  - destruct k' as [|k']; [lia|]. cbn [number_from]. apply below_bind; [apply Hev|]. intros; apply IH; lia.
Qed.
Context (k k' : nat) (Hk : k <= k').
Lemma bool_below m e : below (bool_from ev k m e) (bool_from ev' k' m e).
Proof. apply below_bind; [by apply number_below|intros; apply below_refl]. Qed.
Lemma fold_below f r m l : below (fold_num ev k f r m l) (fold_num ev' k' f r m l).
Proof.
  revert r m. induction l as [|e l IH]; intros r m; cbn [fold_num]; [apply below_refl|].
  apply below_bind; [by apply number_below|intros; apply IH].
Qed.
Lemma loop_below f r m l : below (cmp_loop ev k f r m l) (cmp_loop ev' k' f r m l).
Proof.
  revert r m. induction l as [|e l IH]; intros r m; cbn [cmp_loop]; [apply below_refl|].
  apply below_bind; [by apply number_below|intros b m'; destruct (f r b); [apply IH|apply below_refl]].
Qed.
Lemma cmp_below f m l : below (cmp_num ev k f m l) (cmp_num ev' k' f m l).
Proof.
  destruct l as [|a [|b l]]; try apply below_refl. apply below_bind; [by apply number_below|intros; apply loop_below].
Qed.
Lemma and_below m l : below (p_and ev k m l) (p_and ev' k' m l).
Proof.
  revert m. induction l as [|e l IH]; intros m; cbn [p_and]; [apply below_refl|].
  apply below_bind; [apply bool_below|intros [] m'; [apply IH|apply below_refl]].
Qed.
Lemma or_below m l : below (p_or ev k m l) (p_or ev' k' m l).
Proof.
  revert m. induction l as [|e l IH]; intros m; cbn [p_or]; [apply below_refl|].
  apply below_bind; [apply bool_below|intros [] m'; [apply below_refl|apply IH]].
Qed.
Lemma cond_below m l : below (p_cond ev k m l) (p_cond ev' k' m l).
Proof.
  revert m. induction l as [|e l IH]; intros m; cbn [p_cond]; [apply below_refl|].
  destruct e as [| | |[|c [|a [|? ?]]]]; try apply below_refl.
  assert (Hb : forall m e, below (lbind (bool_from ev k m e) (fun t m' => if t then ev m' a else p_cond ev k m' l))
                            (lbind (bool_from ev' k' m e) (fun t m' => if t then ev' m' a else p_cond ev' k' m' l))).
  { intros m0 e0. apply below_bind; [apply bool_below|intros [] m'; [apply Hev|apply IH]]. }
  destruct c as [z|s|s|c]; [apply Hb|apply Hb|destruct (String.eqb s "else"); [apply Hev|apply Hb]|].
  apply below_bind; [apply Hev|intros; apply Hb].
Qed.
Lemma unnest_below m l : below (unnest ev m l) (unnest ev' m l).
Proof.
  destruct l as [|[| | |[|[| | |] ?]] [|]]; try apply below_refl. apply Hev.
Qed.
Lemma call_below p m l : below (call ev k p m l) (call ev' k' p m l).
Proof.
  destruct p; cbn [call]; try apply below_refl; try apply fold_below; try apply cmp_below.
  - destruct l as [|a [|b l]]; try apply below_refl. apply below_bind; [by apply number_below|intros; apply fold_below].
  - apply below_bind; [apply unnest_below|intros; apply below_refl].
  - apply below_bind; [apply unnest_below|intros; apply below_refl].
  - apply and_below.
  - apply or_below.
  - destruct l as [|a [|b l]]; try apply below_refl. apply below_bind; [apply bool_below|intros; apply below_refl].
  - destruct l as [|a [|b [|c [|? ?]]]]; try apply below_refl. apply below_bind; [apply bool_below|intros; apply Hev].
  - apply cond_below.
  - destruct l as [|a [|b [|? ?]]]; try apply below_refl. apply below_bind; [by apply number_below|intros].
    apply below_bind; [by apply number_below|intros; apply below_refl].
  - destruct (Nat.eqb _ _); [apply Hev|apply below_refl].
Qed.
End Mono.

Section Laws.
Context {A : arith}.
Implicit Types (m : machine A) (e v : lexp A).

Lemma eval_below f f' m e : f <= f' -> below (eval f m e) (eval f' m e).
Proof.
  revert f' m e. induction f as [|f IH]; intros f' m e Hf; [by left|].
  destruct f' as [|f']; [lia|]. cbn [eval].
  destruct e as [| | |[|[| |s|] l]]; try apply below_refl.
  destruct (resolve m s); [|apply below_refl]. apply call_below; [intros; apply IH; lia|lia].
Qed.
Lemma eval_more f f' m e r : f <= f' -> eval f m e = r -> r <> LFuel -> eval f' m e = r.
Proof. intros Hf <- Hr. by destruct (eval_below f f' m e Hf). Qed.
Lemma number_more f f' m e r : f <= f' -> number_from (eval f) f m e = r -> r <> LFuel -> number_from (eval f') f' m e = r.
Proof. intros Hf <- Hr. destruct (number_below (eval f) (eval f') (fun m e => eval_below f f' m e Hf) f f' m e Hf) as [?|<-]; congruence. Qed.
Lemma evaluates_unique m e v m1 v' m2 : evaluates m e v m1 -> evaluates m e v' m2 -> v = v' /\ m1 = m2.
Proof.
  intros [f Hf] [f' Hf']. apply (eval_more _ (f `max` f')) in Hf; [|lia|done]. apply (eval_more _ (f `max` f')) in Hf'; [|lia|done]. split; congruence.
Qed.
Lemma evaluates_not_hangs m e v m' : evaluates m e v m' -> ~ hangs m e.
Proof. intros [f Hf] H. specialize (H f). congruence. Qed.

(** * [counts] is numberFromExpr *)
Lemma counts_from m e z m' : counts m e z m' <-> exists f, number_from (eval f) f m e = LOk z m'.
Proof.
  split.
  - induction 1 as [m z|m l e m1 z m2 [f Hf] _ [f' Hf']]; [by exists 0|].
    exists (S (f `max` f')). cbn [number_from].
    rewrite (eval_more f (S (f `max` f')) _ _ _ ltac:(lia) Hf ltac:(done)). cbn [lbind].
    destruct (number_below (eval f') (eval (S (f `max` f'))) (fun m e => eval_below f' (S (f `max` f')) m e ltac:(lia)) f' (f `max` f') m1 e ltac:(lia)) as [H|H]; congruence.
  - intros [f Hf]. revert Hf. generalize f at 2. intros k. revert m e. induction k as [|k IH]; intros m e Hk; destruct e as [y|s|s|l]; cbn [number_from] in Hk; try done.
    1,2: injection Hk as -> ->; constructor.
    destruct (eval f m (LList l)) as [e' m1| |] eqn:He; try done. cbn [lbind] in Hk.
    econstructor; [by exists f|by apply IH].
Qed.
Lemma counts_unique m e z m1 z' m2 : counts m e z m1 -> counts m e z' m2 -> z = z' /\ m1 = m2.
Proof.
  intros [f Hf]%counts_from [f' Hf']%counts_from.
  apply (number_more _ (f `max` f')) in Hf; [|lia|done]. apply (number_more _ (f `max` f')) in Hf'; [|lia|done]. split; congruence.
Qed.

(** A call evaluates through its function. *)
Lemma call_evaluates m op p l v m' : resolve m op = Some p -> (exists f, call (eval f) f p m l = LOk v m') -> evaluates m (LList (LOp op :: l)) v m'.
Proof. intros Hp [f Hf]. exists (S f). cbn [eval]. by rewrite Hp. Qed.
Lemma evaluates_call m op p l v m' : resolve m op = Some p -> evaluates m (LList (LOp op :: l)) v m' -> exists f, call (eval f) f p m l = LOk v m'.
Proof. intros Hp [[|f] Hf]; [done|]. cbn [eval] in Hf. rewrite Hp in Hf. by exists f. Qed.

(** * not *)
Lemma not_keeps m e z m' : stock m "not" -> counts m e z m' -> evaluates m (LList [LOp "not"; e]) (lbool (n_nonzero A z)) m'.
Proof.
  intros [Hs _] [f Hf]%counts_from. eapply call_evaluates; [exact Hs|]. exists f. cbn [call p_not]. unfold bool_from. by rewrite Hf.
Qed.
Lemma not_only m e v m' : stock m "not" -> evaluates m (LList [LOp "not"; e]) v m' -> exists z, counts m e z m' /\ v = lbool (n_nonzero A z).
Proof.
  intros [Hs _] H. destruct (evaluates_call _ _ _ _ _ _ Hs H) as [f Hf]. cbn [call p_not] in Hf. unfold bool_from in Hf.
  destruct (number_from (eval f) f m e) as [z m1| |] eqn:Hz; cbn [lbind] in Hf; try done. injection Hf as <- <-.
  exists z. split; [|done]. apply counts_from. by exists f.
Qed.

(** * Comparisons *)
Lemma cmp_loop_chain (r : num A -> num A -> bool) x m l zs m' : all_count m l zs m' -> exists f b m1, cmp_loop (eval f) f r x m l = LOk (lbool b) m1 /\ (b = true <-> chain r (x :: zs)).
Proof.
  intros H. revert x. induction H as [m|m e z m1 l zs m2 Hz _ IH]; intros x.
  - exists 0, true, m. split; [done|]. split; [|done]. intros _ i a b Ha Hb. by rewrite lookup_cons_ne_0 in Hb by lia.
  - apply counts_from in Hz as [f Hf]. destruct (IH z) as (f' & b & m3 & Hl & Hb).
    exists (f `max` f'). cbn [cmp_loop]. rewrite (number_more f (f `max` f') _ _ _ ltac:(lia) Hf ltac:(done)). cbn [lbind].
    destruct (r x z) eqn:Hr.
    + exists b, m3. split.
      * destruct (loop_below (eval f') (eval (f `max` f')) (fun m e => eval_below f' (f `max` f') m e ltac:(lia)) f' (f `max` f') ltac:(lia) r z m1 l) as [?|E]; congruence.
      * rewrite Hb. split; intros Hc.
        -- intros [|i] a c Ha Hc'; cbn in Ha, Hc'; [congruence|by apply (Hc i)].
        -- intros i a c Ha Hc'. by apply (Hc (S i)).
    + exists false, m1. split; [done|]. split; [done|]. intros Hc. rewrite <- Hr. by apply (Hc 0).
Qed.
Definition cmp_prim (p : prim A) : option (num A -> num A -> bool) :=
  match p with
  | PLt => Some (n_lt A) | PLe => Some (n_le A) | PGt => Some (n_gt A) | PGe => Some (n_ge A) | PEq => Some (n_eq A) | PNeq => Some (n_ne A)
  | _ => None
  end.
Lemma comparison_prim op (r : num A -> num A -> bool) m : comparison op r -> stock m op -> exists p, resolve m op = Some p /\ cmp_prim p = Some r.
Proof.
  unfold comparison. intros Hc [Hs _].
  repeat (apply elem_of_cons in Hc as [Hc|Hc]; [injection Hc as -> ->; rewrite Hs; eexists; split; reflexivity|]).
  by apply elem_of_nil in Hc.
Qed.
Lemma cmp_prim_call p r ev k m l : cmp_prim p = Some r -> call ev k p m l = cmp_num ev k r m l.
Proof. destruct p; try done; cbn [cmp_prim]; intros [= <-]; done. Qed.
Lemma compares m op (r : num A -> num A -> bool) l zs m' : comparison op r -> stock m op -> all_count m l zs m' -> 2 <= List.length l ->
  exists b m1, evaluates m (LList (LOp op :: l)) (lbool b) m1 /\ (b = true <-> chain r zs).
Proof.
  intros Hc Hs Hl Hn. destruct (comparison_prim _ _ _ Hc Hs) as (p & Hp & Hr).
  destruct Hl as [|m e z m1 l zs m2 Hz Hl]; [cbn in Hn; lia|]. destruct l as [|e' l]; [cbn in Hn; lia|].
  apply counts_from in Hz as [f Hf]. destruct (cmp_loop_chain r z m1 _ _ _ Hl) as (f' & b & m3 & Hb & Hc').
  exists b, m3. split; [|done]. eapply call_evaluates; [done|]. exists (f `max` f'). rewrite (cmp_prim_call _ _ _ _ _ _ Hr).
  cbn [cmp_num]. rewrite (number_more f (f `max` f') _ _ _ ltac:(lia) Hf ltac:(done)). cbn [lbind].
  destruct (loop_below (eval f') (eval (f `max` f')) (fun m e => eval_below f' (f `max` f') m e ltac:(lia)) f' (f `max` f') ltac:(lia) r z m1 (e' :: l)) as [?|E]; congruence.
Qed.
Lemma compares_few m op (r : num A -> num A -> bool) l : comparison op r -> stock m op -> List.length l < 2 -> panics m (LList (LOp op :: l)).
Proof.
  intros Hc Hs Hn. destruct (comparison_prim _ _ _ Hc Hs) as (p & Hp & Hr). exists 1. cbn [eval]. rewrite Hp, (cmp_prim_call _ _ _ _ _ _ Hr).
  destruct l as [|? [|? ?]]; cbn in *; done || lia.
Qed.

(** * list? *)
Lemma islist_form m e : stock m "list?" -> evaluates m (LList [LOp "list?"; e]) (lbool (match e with LList _ => true | _ => false end)) m.
Proof. intros [Hs _]. eapply call_evaluates; [exact Hs|]. exists 0. by destruct e. Qed.

(** * Data lists are no numbers *)
Lemma data_eval f m l : data l -> eval (S f) m (LList l) = LOk (LList l) m.
Proof. intros Hd. cbn [eval]. destruct l as [|[| |s|] l]; try done. by destruct (Hd s). Qed.
Lemma data_number f k m l : data l -> number_from (eval f) k m (LList l) = LFuel.
Proof.
  intros Hd. induction k as [|k IH]; [done|]. cbn [number_from]. destruct f as [|f]; [done|]. rewrite data_eval by done. cbn [lbind]. exact IH.
Qed.
Lemma data_hangs m op l rest : reads_number op -> stock m op -> data l -> hangs m (LList (LOp op :: LList l :: rest)).
Proof.
  unfold reads_number. intros Hr [Hs _] Hd [|f]; [done|]. cbn [eval].
  repeat (apply elem_of_cons in Hr as [->|Hr]; [rewrite Hs; cbn -[number_from]; unfold bool_from; by rewrite (data_number f f m l Hd)|]).
  by apply elem_of_nil in Hr.
Qed.

(** * if *)
Lemma if_picks m c a b z m1 v m2 : stock m "if" -> counts m c z m1 ->
  evaluates m (LList [LOp "if"; c; a; b]) v m2 <-> evaluates m1 (if n_nonzero A z then a else b) v m2.
Proof.
  intros [Hs _] Hz. split.
  - intros H. destruct (evaluates_call _ _ _ _ _ _ Hs H) as [f Hf]. cbn [call p_if] in Hf. unfold bool_from in Hf.
    destruct (number_from (eval f) f m c) as [z' m'| |] eqn:Hc; cbn [lbind] in Hf; try done.
    assert (counts m c z' m') as Hc' by (apply counts_from; by exists f).
    destruct (counts_unique _ _ _ _ _ _ Hz Hc') as [-> ->]. by exists f.
  - intros [f Hf]. apply counts_from in Hz as [f' Hf']. eapply call_evaluates; [exact Hs|]. exists (f `max` f').
    cbn [call p_if]. unfold bool_from. rewrite (number_more f' (f `max` f') _ _ _ ltac:(lia) Hf' ltac:(done)). cbn [lbind].
    by apply (eval_more f); [lia| |].
Qed.

(** * cond, and, or *)
Lemma cond_counts f m c a l z m1 : number_from (eval f) f m c = LOk z m1 -> exists f0, forall f', f0 <= f' ->
  p_cond (eval f') f' m (LList [c; a] :: l) = if n_nonzero A z then eval f' m1 a else p_cond (eval f') f' m1 l.
Proof.
  intros Hf. assert (Hc : counts m c z m1) by (apply counts_from; by exists f). inversion Hc as [|? l' e m0 ? ? [g Hg] Hn]; subst.
  - exists 0. intros f' _. cbn [p_cond]. unfold bool_from. by destruct f'.
  - apply counts_from in Hn as [g' Hg']. exists (g `max` g'). intros f' Hf'. cbn [p_cond].
    rewrite (eval_more g f' _ _ _ ltac:(lia) Hg ltac:(done)). cbn [lbind]. unfold bool_from.
    by rewrite (number_more g' f' _ _ _ ltac:(lia) Hg' ltac:(done)).
Qed.
Lemma picks_cond m l r m1 : picks m l r m1 -> exists f0, forall f, f0 <= f ->
  p_cond (eval f) f m l = match r with Some a => eval f m1 a | None => LOk empty m1 end.
Proof.
  induction 1 as [m|m a l|m c a l z m1 Hc Hz|m c a l z m1 r m2 Hc Hz _ [f0 IH]].
  - by exists 0.
  - by exists 0.
  - apply counts_from in Hc as [f Hf]. destruct (cond_counts f m c a l z m1 Hf) as [f0 H0]. exists f0. intros f' Hf'. rewrite H0 by done. by rewrite Hz.
  - apply counts_from in Hc as [f Hf]. destruct (cond_counts f m c a l z m1 Hf) as [f1 H1]. exists (f0 `max` f1). intros f' Hf'.
    rewrite H1 by lia. rewrite Hz. apply IH. lia.
Qed.
Lemma cond_picks m l a m1 v m2 : stock m "cond" -> picks m l (Some a) m1 -> evaluates m (LList (LOp "cond" :: l)) v m2 <-> evaluates m1 a v m2.
Proof.
  intros [Hs _] [f0 H0]%picks_cond. split.
  - intros [f Hf]. apply (eval_more _ (S (f `max` f0))) in Hf; [|lia|done]. cbn [eval] in Hf. rewrite Hs in Hf. cbn [call resolve new_machine assoc] in Hf.
    exists (f `max` f0). rewrite <- (H0 (f `max` f0)) by lia. exact Hf.
  - intros [f Hf]. eapply (call_evaluates _ _ PCond); [exact Hs|]. exists (f `max` f0). cbn [call]. rewrite H0 by lia.
    by apply (eval_more f); [lia| |].
Qed.
Lemma cond_none m l m1 : stock m "cond" -> picks m l None m1 -> evaluates m (LList (LOp "cond" :: l)) empty m1.
Proof.
  intros [Hs _] [f0 H0]%picks_cond. eapply (call_evaluates _ _ PCond); [exact Hs|]. exists f0. cbn [call]. by rewrite H0.
Qed.
Lemma and_all m l zs m' : stock m "and" -> all_count m l zs m' -> exists b m1, evaluates m (LList (LOp "and" :: l)) (lbool b) m1 /\ (b = true <-> Forall (fun z => n_nonzero A z = true) zs).
Proof.
  intros [Hs _] Hl. assert (exists f b m1, p_and (eval f) f m l = LOk (lbool b) m1 /\ (b = true <-> Forall (fun z => n_nonzero A z = true) zs)) as (f & b & m1 & Hf & Hb).
  { clear Hs. induction Hl as [m|m e z m1 l zs m2 Hz _ (f' & b & m3 & Hl & Hb)].
    - exists 0, true, m. split; [done|]. split; [constructor|done].
    - apply counts_from in Hz as [f Hf]. exists (f `max` f'). cbn [p_and]. unfold bool_from.
      rewrite (number_more f (f `max` f') _ _ _ ltac:(lia) Hf ltac:(done)). cbn [lbind]. destruct (n_nonzero A z) eqn:E.
      + exists b, m3. split; [|rewrite Hb, Forall_cons, E; by split; [intros ?|intros [? ?]]].
        destruct (and_below (eval f') (eval (f `max` f')) (fun m e => eval_below f' (f `max` f') m e ltac:(lia)) f' (f `max` f') ltac:(lia) m1 l) as [?|?]; congruence.
      + exists false, m1. split; [done|]. split; [done|]. intros H. apply Forall_cons in H as [H _]. congruence. }
  exists b, m1. split; [|done]. eapply (call_evaluates _ _ PAnd); [exact Hs|]. by exists f.
Qed.
Lemma or_some m l zs m' : stock m "or" -> all_count m l zs m' -> exists b m1, evaluates m (LList (LOp "or" :: l)) (lbool b) m1 /\ (b = true <-> Exists (fun z => n_nonzero A z = true) zs).
Proof.
  intros [Hs _] Hl. assert (exists f b m1, p_or (eval f) f m l = LOk (lbool b) m1 /\ (b = true <-> Exists (fun z => n_nonzero A z = true) zs)) as (f & b & m1 & Hf & Hb).
  { clear Hs. induction Hl as [m|m e z m1 l zs m2 Hz _ (f' & b & m3 & Hl & Hb)].
    - exists 0, false, m. split; [done|]. split; [done|]. intros H. by apply Exists_nil in H.
    - apply counts_from in Hz as [f Hf]. exists (f `max` f'). cbn [p_or]. unfold bool_from.
      rewrite (number_more f (f `max` f') _ _ _ ltac:(lia) Hf ltac:(done)). cbn [lbind]. destruct (n_nonzero A z) eqn:E.
      + exists true, m1. split; [done|]. split; [by constructor|done].
      + exists b, m3. split; [|rewrite Hb, Exists_cons, E; split; [intros ?; by right|by intros [?|?]]].
        destruct (or_below (eval f') (eval (f `max` f')) (fun m e => eval_below f' (f `max` f') m e ltac:(lia)) f' (f `max` f') ltac:(lia) m1 l) as [?|?]; congruence. }
  exists b, m1. split; [|done]. eapply (call_evaluates _ _ POr); [exact Hs|]. by exists f.
Qed.

(** * define *)
Lemma assoc_snoc {B} (l : list (string * B)) (k : string) (v : B) (s : string) :
  assoc (l ++ [(k, v)])%list s = match assoc l s with Some w => Some w | None => if String.eqb s k then Some v else None end.
Proof. induction l as [|[k' w] l IH]; cbn [assoc app]; [done|]. destruct (String.eqb s k'); [done|exact IH]. Qed.
Lemma assoc_rev_in {B} (l : list (string * B)) (s : string) (v : B) : assoc (List.rev l) s = Some v -> (s, v) ∈ l.
Proof.
  induction l as [|[k w] l IH]; cbn [List.rev]; [done|]. rewrite assoc_snoc. destruct (assoc (List.rev l) s) as [x|].
  - intros [= ->]. right. by apply IH.
  - destruct (String.eqb s k) eqn:E; [|done]. apply String.eqb_eq in E as ->. intros [= ->]. left.
Qed.
Lemma assoc_rev_none {B} (l : list (string * B)) s : assoc (List.rev l) s = None -> s ∉ l.*1.
Proof.
  induction l as [|[k w] l IH]; cbn [List.rev]; [intros _ H; by apply elem_of_nil in H|]. rewrite assoc_snoc.
  destruct (assoc (List.rev l) s) as [x|]; [done|]. destruct (String.eqb s k) eqn:E; [done|]. intros _ H. cbn in H.
  apply elem_of_cons in H as [->|H]; [by rewrite String.eqb_refl in E|by apply IH].
Qed.
Lemma subst_replaced names args e : List.length names = List.length args -> replaced names args e (subst_args (List.rev (combine names args)) e).
Proof.
  intros Hl. revert e. fix IH 1. intros [z|s|s|l]; cbn [subst_args]; [constructor|constructor| |].
  - destruct (assoc (List.rev (combine names args)) s) as [a|] eqn:E.
    + apply assoc_rev_in in E. apply elem_of_list_lookup in E as [i Hi]. apply (rep_hit _ _ i).
      * clear -Hi. revert args i Hi. induction names as [|n names IH]; intros [|x args] [|i] Hi; cbn in *; try done; [congruence|by eapply IH].
      * clear -Hi. revert args i Hi. induction names as [|n names IH]; intros [|x args] [|i] Hi; cbn in *; try done; [congruence|by eapply IH].
    + apply assoc_rev_none in E. apply rep_miss. intros H. apply E.
      clear -H Hl. revert args Hl H. induction names as [|n names IH]; intros [|x args] Hl H; cbn in *; try done.
      apply elem_of_cons in H as [->|H]; [left|right; apply IH; [lia|done]].
  - apply rep_list. induction l as [|e l IHl]; [constructor|]. constructor; [apply IH|exact IHl].
Qed.
Lemma replaced_unique names args e e1 e2 : NoDup names -> replaced names args e e1 -> replaced names args e e2 -> e1 = e2.
Proof.
  intros Hn. revert e e1 e2. fix IH 1. intros [z|s|s|l] e1 e2 H1 H2.
  - inversion H1; inversion H2; congruence.
  - inversion H1; inversion H2; congruence.
  - inversion H1 as [| |i s1 a Hi Ha|s1 Hs|]; inversion H2 as [| |j s2 b Hj Hb|s2 Hs'|]; subst; try done.
    + assert (i = j) as -> by (eapply NoDup_lookup; eauto). congruence.
    + apply elem_of_list_lookup_2 in Hi. done.
    + apply elem_of_list_lookup_2 in Hj. done.
  - inversion H1 as [| | | |l0 l1 F1]; inversion H2 as [| | | |l0' l2 F2]; subst. f_equal. clear H1 H2.
    revert l1 l2 F1 F2. induction l as [|e l IHl]; intros l1 l2 F1 F2; inversion F1; inversion F2; subst; [done|].
    f_equal; [by eapply IH|by apply IHl].
Qed.
Lemma must_names_ops names : must_names (map (@LOp A) names) = Some names.
Proof. induction names as [|n names IH]; cbn; [done|]. by rewrite IH. Qed.
Lemma assoc_remove {B} (l : list (string * B)) k s : assoc (remove_key k l) s = if String.eqb s k then None else assoc l s.
Proof.
  unfold remove_key. induction l as [|[k' v] l IH]; cbn; [by destruct (String.eqb s k)|].
  destruct (String.eqb k k') eqn:E; cbn.
  - apply String.eqb_eq in E as <-. rewrite IH. by destruct (String.eqb s k).
  - rewrite IH. destruct (String.eqb s k') eqn:E'; [|done]. apply String.eqb_eq in E' as ->.
    destruct (String.eqb k' k) eqn:E2; [|done]. apply String.eqb_eq in E2 as ->. by rewrite String.eqb_refl in E.
Qed.
Lemma define_adds m f names body : stock m "define" ->
  exists m', evaluates m (LList [LOp "define"; LList (LOp f :: map LOp names); body]) empty m' /\
    resolve m' f = Some (PUser names body) /\ (forall op, op <> f -> assoc (m_funcs m') op = assoc (m_funcs m) op /\ assoc (m_aliases m') op = assoc (m_aliases m) op).
Proof.
  intros [Hs _]. eexists. split; [|split].
  - eapply call_evaluates; [exact Hs|]. exists 0. cbn [call p_define must_name]. rewrite must_names_ops. reflexivity.
  - unfold resolve. cbn [m_aliases m_funcs]. rewrite assoc_remove, String.eqb_refl. cbn [assoc]. by rewrite String.eqb_refl.
  - intros op Hop. cbn [m_aliases m_funcs assoc]. rewrite assoc_remove. by destruct (String.eqb op f) eqn:E; [apply String.eqb_eq in E|].
Qed.
Lemma user_call m f names body args body' v m' : resolve m f = Some (PUser names body) -> NoDup names -> List.length args = List.length names ->
  replaced names args body body' -> evaluates m (LList (LOp f :: args)) v m' <-> evaluates m body' v m'.
Proof.
  intros Hf Hn Hl Hr. assert (Hb : subst_args (List.rev (combine names args)) body = body').
  { eapply replaced_unique; [done|by apply subst_replaced|done]. }
  split.
  - intros H. destruct (evaluates_call _ _ _ _ _ _ Hf H) as [k Hk]. cbn [call] in Hk. rewrite Hl, Nat.eqb_refl, Hb in Hk. by exists k.
  - intros [k Hk]. eapply call_evaluates; [done|]. exists k. cbn [call]. by rewrite Hl, Nat.eqb_refl, Hb.
Qed.
Lemma user_call_wrong m f names body args : resolve m f = Some (PUser names body) -> List.length args <> List.length names -> panics m (LList (LOp f :: args)).
Proof. intros Hf Hl. exists 1. cbn [eval]. rewrite Hf. cbn [call]. apply Nat.eqb_neq in Hl. by rewrite Hl. Qed.

(** * Sums, differences, products *)
Lemma fold_counts g r m l zs m' : all_count m l zs m' -> exists f, fold_num (eval f) f g r m l = LOk (LNum (fold_left g zs r)) m'.
Proof.
  intros H. revert r. induction H as [m|m e z m1 l zs m2 Hz _ IH]; intros r; [by exists 0|].
  apply counts_from in Hz as [f Hf]. destruct (IH (g r z)) as [f' Hf']. exists (f `max` f'). cbn [fold_num fold_left].
  rewrite (number_more f (f `max` f') _ _ _ ltac:(lia) Hf ltac:(done)). cbn [lbind].
  destruct (fold_below (eval f') (eval (f `max` f')) (fun m e => eval_below f' (f `max` f') m e ltac:(lia)) f' (f `max` f') ltac:(lia) g (g r z) m1 l) as [?|E]; congruence.
Qed.
Lemma add_sums m l zs m' op : op ∈ ["+"; "add"] -> stock m op -> all_count m l zs m' ->
  evaluates m (LList (LOp op :: l)) (LNum (fold_left (n_add A) zs (n_zero A))) m'.
Proof.
  intros Ho [Hs _] Hl. destruct (fold_counts (n_add A) (n_zero A) _ _ _ _ Hl) as [f Hf]. eapply (call_evaluates _ _ PAdd); [|by exists f].
  rewrite Hs. repeat (apply elem_of_cons in Ho as [->|Ho]; [done|]). by apply elem_of_nil in Ho.
Qed.
Lemma mul_products m l zs m' op : op ∈ ["*"; "mul"] -> stock m op -> all_count m l zs m' ->
  evaluates m (LList (LOp op :: l)) (LNum (fold_left (n_mul A) zs (n_one A))) m'.
Proof.
  intros Ho [Hs _] Hl. destruct (fold_counts (n_mul A) (n_one A) _ _ _ _ Hl) as [f Hf]. eapply (call_evaluates _ _ PMul); [|by exists f].
  rewrite Hs. repeat (apply elem_of_cons in Ho as [->|Ho]; [done|]). by apply elem_of_nil in Ho.
Qed.
Lemma sub_subtracts m a b l z zs m' op : op ∈ ["-"; "sub"] -> stock m op -> all_count m (a :: b :: l) (z :: zs) m' ->
  evaluates m (LList (LOp op :: a :: b :: l)) (LNum (fold_left (n_sub A) zs z)) m'.
Proof.
  intros Ho [Hs _] Hl. inversion Hl as [|? ? ? m1 ? ? ? Hz Hl']; subst. destruct (fold_counts (n_sub A) z _ _ _ _ Hl') as [f Hf].
  apply counts_from in Hz as [f' Hf']. eapply (call_evaluates _ _ PSub).
  - rewrite Hs. repeat (apply elem_of_cons in Ho as [->|Ho]; [done|]). by apply elem_of_nil in Ho.
  - exists (f `max` f'). cbn [call]. rewrite (number_more f' (f `max` f') _ _ _ ltac:(lia) Hf' ltac:(done)). cbn [lbind].
    destruct (fold_below (eval f) (eval (f `max` f')) (fun m e => eval_below f (f `max` f') m e ltac:(lia)) f (f `max` f') ltac:(lia) (n_sub A) z m1 (b :: l)) as [?|E]; congruence.
Qed.
Lemma value_counts m l z m' : evaluates m (LList l) (LNum z) m' -> counts m (LList l) z m'.
Proof. intros H. econstructor; [exact H|constructor]. Qed.
End Laws.

(** * Exact arithmetic *)
Notation qn z := (@LNum exact_arith (Some z)).
Lemma fold_add zs r : fold_left (n_add exact_arith) (map Some zs) (Some r) = Some (r + sum zs)%Z.
Proof. revert r. induction zs as [|z zs IH]; intros r; cbn [map fold_left sum foldr]; [f_equal; unfold sum; cbn; lia|]. cbn [n_add exact_arith on2]. rewrite IH. f_equal. unfold sum. lia. Qed.
Lemma fold_sub zs r : fold_left (n_sub exact_arith) (map Some zs) (Some r) = Some (r - sum zs)%Z.
Proof. revert r. induction zs as [|z zs IH]; intros r; cbn [map fold_left sum foldr]; [f_equal; unfold sum; cbn; lia|]. cbn [n_sub exact_arith on2]. rewrite IH. f_equal. unfold sum. lia. Qed.
Lemma fold_mul zs r : fold_left (n_mul exact_arith) (map Some zs) (Some r) = Some (r * product zs)%Z.
Proof. revert r. induction zs as [|z zs IH]; intros r; cbn [map fold_left product foldr]; [f_equal; unfold product; cbn; lia|]. cbn [n_mul exact_arith on2]. rewrite IH. f_equal. unfold product. lia. Qed.

Definition plain (m : machine exact_arith) : Prop := stock m "+" /\ stock m "*" /\ stock m "-".
Lemma terms_count m t : plain m -> counts m (term_lisp t) (Some (term_value t)) m.
Proof.
  intros (Ha & Hm & Hs). revert t. fix IH 1.
  assert (HI : forall l, all_count m (map term_lisp l) (map Some (map term_value l)) m).
  { fix IHl 1. intros [|t l]; cbn [map]; [constructor|]. econstructor; [apply IH|apply IHl]. }
  intros [z|l|l|a b l]; cbn [term_lisp term_value].
  - constructor.
  - apply value_counts. generalize (add_sums m _ _ _ "+" ltac:(left) Ha (HI l)). cbn [n_zero exact_arith]. by rewrite (fold_add _ 0).
  - apply value_counts. generalize (mul_products m _ _ _ "*" ltac:(left) Hm (HI l)). cbn [n_one exact_arith]. rewrite (fold_mul _ 1).
    by rewrite Z.mul_1_l.
  - apply value_counts.
    generalize (sub_subtracts m (term_lisp a) (term_lisp b) _ (Some (term_value a)) (map Some (term_value b :: map term_value l)) _ "-" ltac:(left) Hs
      (all_cons _ _ _ _ _ _ _ (IH a) (all_cons _ _ _ _ _ _ _ (IH b) (HI l)))).
    rewrite fold_sub. replace (term_value a - sum (term_value b :: map term_value l))%Z with (term_value a - term_value b - sum (map term_value l))%Z; [done|].
    unfold sum. cbn [foldr]. lia.
Qed.
Lemma terms_evaluate m t : plain m -> evaluates m (term_lisp t) (qn (term_value t)) m.
Proof.
  intros (Ha & Hm & Hs). assert (HI : forall l, all_count m (map term_lisp l) (map Some (map term_value l)) m).
  { induction l as [|t' l IHl]; cbn [map]; [constructor|]. econstructor; [by apply terms_count|done]. }
  destruct t as [z|l|l|a b l]; cbn [term_lisp term_value].
  - by exists 1.
  - generalize (add_sums m _ _ _ "+" ltac:(left) Ha (HI l)). cbn [n_zero exact_arith]. by rewrite (fold_add _ 0).
  - generalize (mul_products m _ _ _ "*" ltac:(left) Hm (HI l)). cbn [n_one exact_arith]. rewrite (fold_mul _ 1). by rewrite Z.mul_1_l.
  - generalize (sub_subtracts m (term_lisp a) (term_lisp b) _ (Some (term_value a)) (map Some (term_value b :: map term_value l)) _ "-" ltac:(left) Hs
      (all_cons _ _ _ _ _ _ _ (terms_count m a ltac:(done)) (all_cons _ _ _ _ _ _ _ (terms_count m b ltac:(done)) (HI l)))).
    rewrite fold_sub. replace (term_value a - sum (term_value b :: map term_value l))%Z with (term_value a - term_value b - sum (map term_value l))%Z; [done|].
    unfold sum. cbn [foldr]. lia.
Qed.

(** * The factorial *)
Definition fact_body : lexp exact_arith :=
  LList [LOp "if"; LList [LOp "<="; LOp "n"; qn 0%Z]; qn 1%Z; LList [LOp "*"; LOp "n"; LList [LOp "fact"; LList [LOp "-"; LOp "n"; qn 1%Z]]]].
Definition fact_machine : machine exact_arith := Machine (("fact", PUser ["n"] fact_body) :: m_funcs new_machine) (@m_aliases exact_arith new_machine).
Lemma fact_defined : evaluates new_machine define_fact empty fact_machine.
Proof. exists 1. vm_compute. reflexivity. Qed.
Lemma fact_counts n e : counts fact_machine e (Some (Z.of_nat n)) fact_machine -> evaluates fact_machine (LList [LOp "fact"; e]) (qn (factorial n)) fact_machine.
Proof.
  revert e. induction n as [|n IH]; intros e He.
  - assert (Hb : replaced ["n"] [e] fact_body (subst_args (List.rev (combine ["n"] [e])) fact_body)) by by apply subst_replaced.
    apply (user_call fact_machine "fact" ["n"] fact_body [e] _ _ _ eq_refl (NoDup_singleton _) eq_refl Hb). cbn.
    assert (Hc : counts fact_machine (LList [LOp "<="; e; qn 0%Z]) (Some 1%Z) fact_machine).
    { apply value_counts. apply counts_from in He as [f Hf]. eapply (call_evaluates _ _ PLe); [reflexivity|]. exists f. cbn [call cmp_num]. rewrite Hf. cbn [lbind cmp_loop].
      destruct f; reflexivity. }
    apply (if_picks fact_machine _ _ _ _ _ _ _ ltac:(by split) Hc). by exists 1.
  - assert (Hb : replaced ["n"] [e] fact_body (subst_args (List.rev (combine ["n"] [e])) fact_body)) by by apply subst_replaced.
    apply (user_call fact_machine "fact" ["n"] fact_body [e] _ _ _ eq_refl (NoDup_singleton _) eq_refl Hb). cbn [subst_args fact_body map combine List.rev app assoc String.eqb].
    assert (Hc : counts fact_machine (LList [LOp "<="; e; qn 0%Z]) (Some 0%Z) fact_machine).
    { apply value_counts. apply counts_from in He as [f Hf]. eapply (call_evaluates _ _ PLe); [reflexivity|]. exists f. cbn [call cmp_num]. rewrite Hf. cbn [lbind cmp_loop].
      destruct f; reflexivity. }
    apply (if_picks fact_machine _ _ _ _ _ _ _ ltac:(by split) Hc).
    assert (Hm : counts fact_machine (LList [LOp "-"; e; qn 1%Z]) (Some (Z.of_nat n)) fact_machine).
    { apply value_counts. generalize (sub_subtracts fact_machine e (qn 1%Z) [] _ [Some 1%Z] _ "-" ltac:(left) ltac:(by split)
        (all_cons _ _ _ _ _ _ _ He (all_cons _ _ _ _ _ _ _ (counts_num _ _) (all_nil _)))).
      cbn [fold_left n_sub exact_arith on2]. by replace (Z.of_nat (S n) - 1)%Z with (Z.of_nat n) by lia. }
    generalize (mul_products fact_machine _ _ _ "*" ltac:(left) ltac:(by split)
      (all_cons _ _ _ _ _ _ _ He (all_cons _ _ _ _ _ _ _ (value_counts _ _ _ _ (IH _ Hm)) (all_nil _)))).
    cbn [fold_left n_mul n_one exact_arith on2]. intros H. cbn [n_nonzero exact_arith]. cbn [negb Z.eqb].
    replace (factorial (S n)) with (1 * Z.of_nat (S n) * factorial n)%Z; [exact H|]. cbn [factorial]. lia.
Qed.
