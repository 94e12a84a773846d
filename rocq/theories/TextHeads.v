(** How texts of parser expressions begin. *)
From Verif Require Import Base Native Engine Build Gives TextSpec TextNodes TextPrim.

Definition follows (f : form) : bytes -> Prop :=
  match f with
  | Prim _ => f_prim | Join _ => f_join | Deco _ | Unit _ => f_unit
  | Units _ | Sequ _ => f_sequ | Sequs _ | Alter _ => f_alter | Expr _ => f_expr
  end.
Definition head_bad (f : form) : list N :=
  match f with Prim _ => [32; 10; 124; 45; 63; 33]%N | Join _ => [] | Expr _ => [63]%N | _ => [32; 10; 124; 45; 63]%N end.
Definition heads (f : form) (s : bytes) : Prop :=
  match f with
  | Join _ => True
  | _ => (exists b r, s = b :: r /\ b ∉ head_bad f) /\
         forall rest, follows f rest -> match f with Prim _ | Deco _ => no_label (s ++ rest) | _ => no_inline (s ++ rest) end
  end.

Lemma notin_cons (a b : N) l : (a =? b)%N = false -> a ∉ l -> a ∉ b :: l.
Proof. intros H1 H2 H. apply elem_of_cons in H as [-> |H]; [|done]. by rewrite N.eqb_refl in H1. Qed.
Ltac out := repeat (apply notin_cons; [reflexivity|]); apply not_elem_of_nil.
Lemma letter_out b : letter b -> b ∉ [32; 10; 124; 45; 63; 33]%N.
Proof. unfold letter. intros H. repeat (apply notin_cons; [apply N.eqb_neq; lia|]). apply not_elem_of_nil. Qed.
Lemma bad_sub (b : N) (l l' : list N) : b ∉ l -> (forall x, x ∈ l' -> x ∈ l) -> b ∉ l'.
Proof. intros H Hs Hb. by apply H, Hs. Qed.
Lemma name_head nm : name nm -> exists b r, s2b nm = b :: r /\ letter b.
Proof. unfold name. destruct (s2b nm) as [|b r]; [done|]. intros [H _]. by exists b, r. Qed.
Lemma app_head (f : form) s s' : (exists b r, s = b :: r /\ b ∉ head_bad f) -> exists b r, s ++ s' = b :: r /\ b ∉ head_bad f.
Proof. intros (b & r & -> & H). by exists b, (r ++ s'). Qed.
Lemma head_sub (l l' : list N) s : (exists b r, s = b :: r /\ b ∉ l) -> (forall x, x ∈ l' -> x ∈ l) -> exists b r, s = b :: r /\ b ∉ l'.
Proof. intros (b & r & -> & H) Hs. exists b, r. split; [done|]. by eapply bad_sub. Qed.
Lemma app_head_l (l : list N) s s' : (exists b r, s = b :: r /\ b ∉ l) -> exists b r, s ++ s' = b :: r /\ b ∉ l.
Proof. intros (b & r & -> & H). by exists b, (r ++ s'). Qed.
Lemma head_ne (l : list N) s rest c : (exists b r, s = b :: r /\ b ∉ l) -> c ∈ l -> head (s ++ rest) <> Some c.
Proof. intros (b & r & -> & H) Hc [= ->]. done. Qed.
Lemma range_head mn mx t : range_text mn mx t -> exists r, t = 123%N :: r.
Proof. intros (? & ? & ? & ? & ? & ? & _ & _ & _ & _ & _ & _ & ->). eexists. reflexivity. Qed.
Lemma name_no_label nm r : name nm -> no_alnum r -> head r <> Some 58%N -> no_label (s2b nm ++ r).
Proof. intros H1 H2 H3. right. by exists nm, r. Qed.
Lemma gap_no_letter w r : gap w -> w <> [] -> no_letter (w ++ r).
Proof. destruct 1 as [|b w [-> | ->] Hw]; done. Qed.

Lemma writes_heads re_ok n f s : writes re_ok n f s -> heads f s.
Proof.
  induction 1 as [n nm Hn|n s t Hq|n t Hq Hre|n t Hq Hre|n e s H IH|n|n e s H IH|n e s H IH|n e s H IH|n e j s s' H IH H' IH'
    |n e j mn mx s s' t H IH H' IH' Hr|n e j s s' H IH H' IH'|n e mn mx s t H IH Hr|n e s H IH|n e s H IH|n e s H IH|n l k s H IH Hl
    |n e s H IH|n e l s w s' H IH Hw Hw0 H' IH'|n e s H IH|n l s H IH Hlen|n e s H IH|n e l s w w' s' H IH Hw Hw' H' IH'|n e s H IH|n l s H IH Hlen|n e w s w' H IH Hw Hw'];
    cbn [heads head_bad follows] in *.
  - destruct (name_head nm Hn) as (b & r & Hb & Hl). split; [exists b, r; split; [done|by apply letter_out]|].
    intros rest Hf. apply name_no_label; [done|by apply f_prim_no_alnum|]. destruct Hf as [_ Hf]. eapply hd_not; [exact Hf|notin].
  - split; [eexists _, _; split; [reflexivity|out]|]. intros rest _. by left.
  - split; [eexists _, _; split; [reflexivity|out]|]. intros rest _. by left.
  - split; [eexists _, _; split; [reflexivity|out]|]. intros rest _. by left.
  - split; [eexists _, _; split; [reflexivity|out]|]. intros rest _. by left.
  - done.
  - done.
  - destruct IH as [IH1 IH2]. split; [eapply head_sub; [exact IH1|sub]|]. intros rest Hf. apply IH2. by apply f_join_prim, f_unit_join.
  - destruct IH as [IH1 IH2]. split; [apply app_head_l; eapply head_sub; [exact IH1|sub]|]. intros rest Hf. rewrite <- app_assoc. apply IH2. apply op_f_prim. pick.
  - destruct IH as [IH1 IH2]. split; [apply app_head_l; eapply head_sub; [exact IH1|sub]|]. intros rest Hf. rewrite <- app_assoc. apply IH2. apply op_f_prim. pick.
  - destruct IH as [IH1 IH2]. split; [apply app_head_l; eapply head_sub; [exact IH1|sub]|]. intros rest Hf. rewrite <- app_assoc. apply IH2. apply op_f_prim. pick.
  - destruct IH as [IH1 IH2]. split; [apply app_head_l; eapply head_sub; [exact IH1|sub]|]. intros rest Hf. rewrite <- app_assoc. apply IH2. apply op_f_prim. pick.
  - destruct IH as [IH1 IH2]. split; [apply app_head_l; eapply head_sub; [exact IH1|sub]|]. intros rest Hf. rewrite <- app_assoc. apply IH2.
    destruct (range_head mn mx t Hr) as [r ->]. apply op_f_prim. pick.
  - split; [eexists _, _; split; [reflexivity|out]|]. intros rest _. by left.
  - split; [eexists _, _; split; [reflexivity|out]|]. intros rest _. by left.
  - destruct IH as [IH1 IH2]. split; [exact IH1|]. intros rest Hf. by apply no_label_inline, IH2.
  - destruct IH as [IH1 _]. destruct Hl as [-> |[-> |Hn]].
    + split; [eexists _, _; split; [reflexivity|out]|]. intros rest _. by left.
    + split; [eexists _, _; split; [reflexivity|out]|]. intros rest _. by left.
    + destruct (name_head l Hn) as (b & r & Hb & Hlb). split.
      { rewrite Hb. eexists _, _. split; [reflexivity|]. eapply bad_sub; [by apply letter_out|sub]. }
      intros rest _. right. exists l, ([58%N] ++ s ++ rest). split; [done|]. split; [by rewrite <- !app_assoc|]. split; [done|].
      destruct IH1 as (b' & r' & -> & Hb'). cbn. intros [= ->]. apply Hb'. pick.
  - destruct IH as [IH1 IH2]. split; [exact IH1|]. intros rest Hf. apply IH2. by apply f_sequ_unit.
  - destruct IH as [IH1 IH2], IH' as [IH1' _]. split; [by apply app_head_l|]. intros rest Hf. rewrite <- !app_assoc. apply IH2.
    apply gap_f_unit; [done|done|split; eapply head_ne; [exact IH1'|pick|exact IH1'|pick]|eapply head_ne; [exact IH1'|pick]].
  - destruct IH as [IH1 IH2]. split; [exact IH1|]. intros rest Hf. apply IH2. by apply f_sequ_unit.
  - exact IH.
  - destruct IH as [IH1 IH2]. split; [exact IH1|]. intros rest Hf. apply IH2. by apply f_alter_sequ.
  - destruct IH as [IH1 IH2]. split; [by apply app_head_l|]. intros rest Hf. rewrite <- !app_assoc. apply IH2. by apply pipe_f_sequ.
  - destruct IH as [IH1 IH2]. split; [exact IH1|]. intros rest Hf. apply IH2. by apply f_alter_sequ.
  - exact IH.
  - destruct IH as [IH1 IH2]. split.
    + destruct Hw as [|b w [-> | ->] Hw]; [|eexists _, _; split; [reflexivity|out]..]. rewrite app_nil_l. apply app_head_l. eapply head_sub; [exact IH1|sub].
    + intros rest Hf. destruct (decide (w = [])) as [-> |Hne]; [|rewrite <- app_assoc; left; by apply gap_no_letter].
      rewrite app_nil_l, <- app_assoc. apply IH2. by apply f_expr_alter.
Qed.

(** The first facts again, in the shape the parses need. *)
Section Use.
Context {re_ok : bytes -> bool} {n : nat} {s : bytes}.
Lemma prim_heads e : writes re_ok n (Prim e) s -> forall rest, f_prim rest ->
  no_label (s ++ rest) /\ nb (s ++ rest) /\ head (s ++ rest) <> Some 33%N /\ head (s ++ rest) <> Some 63%N.
Proof.
  intros H rest Hr. destruct (writes_heads _ _ _ _ H) as [H1 H2]. split; [by apply H2|].
  repeat split; (eapply head_ne; [exact H1|cbn [head_bad]; pick]).
Qed.
Lemma deco_heads e : writes re_ok n (Deco e) s -> forall rest, f_unit rest -> no_label (s ++ rest) /\ nb (s ++ rest).
Proof.
  intros H rest Hr. destruct (writes_heads _ _ _ _ H) as [H1 H2]. split; [by apply H2|].
  repeat split; (eapply head_ne; [exact H1|cbn [head_bad]; pick]).
Qed.
Lemma unit_heads f : writes re_ok n f s -> (exists e, f = Unit e \/ f = Sequ e \/ f = Alter e) \/ (exists l, f = Units l \/ f = Sequs l) -> forall rest,
  nb (s ++ rest) /\ head (s ++ rest) <> Some 124%N /\ head (s ++ rest) <> Some 45%N /\ head (s ++ rest) <> Some 32%N.
Proof.
  intros H Hf rest. pose proof (writes_heads _ _ _ _ H) as H1.
  assert (exists b r, s = b :: r /\ b ∉ [32; 10; 124; 45; 63]%N) as H2 by (destruct Hf as [(e & [-> |[-> | ->]])|(l & [-> | ->])]; exact (proj1 H1)).
  repeat split; (eapply head_ne; [exact H2|pick]).
Qed.
Lemma expr_heads e : writes re_ok n (Expr e) s -> forall rest, f_expr rest -> no_inline (s ++ rest) /\ head (s ++ rest) <> Some 63%N.
Proof.
  intros H rest Hr. destruct (writes_heads _ _ _ _ H) as [H1 H2]. split; [by apply H2|]. eapply head_ne; [exact H1|cbn [head_bad]; pick].
Qed.
End Use.
