(** Texts accepted, without values. *)
From Verif Require Toy.
From Verif Require Import Base Helpers Utf8 Stream StreamSpec Native Engine EngSpec EngInv Peg PegRep PegBody PegStd RunSpec PegRun
  Build BuildSpec BuildWalk BuildLines BuildMono BuildPrep BuildProofs BuildMain MeansSpec MeansBuild Means MeansLaws RewriteSpec Rewrite ReadsSpec.
Local Open Scope list_scope.

(** A node that is the parser [e], with no map made. *)
Inductive bare_of : pexp -> node -> Prop :=
| bare_node lb k i k' : i_isrule i = false -> i_cb i = None -> same_kind bare_of k k' ->
    match k' with KSeq TObject _ => False | _ => True end -> bare_of (PExp lb k) (Node i k').
Definition rule_bare (e : pexp) (n : node) : Prop :=
  i_isrule (n_info n) = true /\ i_cb (n_info n) = None /\ same_kind bare_of (e_kind e) (n_kind n) /\
  match n_kind n with KSeq TObject _ => False | _ => True end /\ n_kind n <> KUndef.

Section Std.
Variable rules : string -> option pexp.
Variable rs : string -> option node.
Variable rx : bytes -> bytes -> option (nat * nat).
Variable cbf : nat -> nat -> val -> option (option val).
Variable text : bytes.
Hypothesis Hrules : forall nm, match rules nm, rs nm with Some e, Some n => rule_bare e n | None, None => True | _, _ => False end.
Notation std := (std rs rx cbf text).
Notation body := (std_body rs rx text).
Notation rd := (rd rules rx text).

Lemma prepared_end i r : i_cb i = None -> exists r', prepared cbf i r = Some r' /\ snd <$> r' = snd <$> r.
Proof. intros Hc. unfold prepared. rewrite Hc. destruct r as [[v e]|]; by eexists. Qed.

(** ** What the evaluator answers is read *)
Section To.
Variables (f d : nat).
Hypothesis IH : forall e n p r, bare_of e n -> std f d n p = Some r -> rd d (RNode e) p (snd <$> r).
Lemma to_seq l l' : Forall2 bare_of l l' ->
  (forall acc p r, std_single (std f d) l' acc p = Some r -> rd d (RSeq l) p (snd <$> r)) /\
  (forall acc p r, std_array (std f d) l' acc p = Some r -> rd d (RSeq l) p (snd <$> r)).
Proof.
  induction 1 as [|e n l l' He HF [I1 I2]]; (split; intros acc p r H; [|]).
  - injection H as <-. constructor.
  - injection H as <-. constructor.
  - cbn [std_single] in H. destruct (std f d n p) as [[[v q]|]|] eqn:E; [| |done].
    + apply (IH e) in E; [|done]. eapply rd_seq_next; [exact E|]. by eapply I1.
    + injection H as <-. apply rd_seq_fail. by apply (IH e) in E.
  - cbn [std_array] in H. destruct (std f d n p) as [[[v q]|]|] eqn:E; [| |done].
    + apply (IH e) in E; [|done]. eapply rd_seq_next; [exact E|]. by eapply I2.
    + injection H as <-. apply rd_seq_fail. by apply (IH e) in E.
Qed.
Lemma to_alt l l' : Forall2 bare_of l l' -> forall p r, std_alt (std f d) l' p = Some r -> rd d (RAlt l) p (snd <$> r).
Proof.
  induction 1 as [|e n l l' He HF I1]; intros p r H; cbn [std_alt] in H.
  - injection H as <-. constructor.
  - destruct (std f d n p) as [[[v q]|]|] eqn:E; [| |done].
    + injection H as <-. apply rd_alt_this. by apply (IH e) in E.
    + apply rd_alt_next; [|by apply I1]. by apply (IH e) in E.
Qed.
Lemma to_loop v j v' j' mn mx : bare_of v v' -> option_Forall2 bare_of j j' -> forall g acc p l e, std_loop (std f d) g v' j' mx acc p = Some (l, e) ->
  rd d (RMore v j mn mx (length acc)) p (if too_few mn (length l) then None else Some e).
Proof.
  intros Hv Hj. induction g as [|g IHg]; intros acc p l e H; [done|]. cbn [std_loop] in H.
  assert (exists x, match j' with None => Some (Some p) | Some jn => match std f d jn p with Some (Some (_, q)) => Some (Some q) | Some None => Some None | None => None end end = Some x /\
    rd d (RJoin j) p x) as (x & Hx & Hr).
  { destruct Hj as [jn jn' Hj|]; [|eexists; split; [done|constructor]]. destruct (std f d jn' p) as [[[w q]|]|] eqn:E; [| |done].
    - exists (Some q). split; [done|]. constructor. by apply (IH jn) in E.
    - exists None. split; [done|]. constructor. by apply (IH jn) in E. }
  rewrite Hx in H. destruct x as [q|].
  - destruct (std f d v' q) as [[[a q']|]|] eqn:E; [| |done].
    + apply (IH v) in E; [|done]. destruct (enough mx (S (length acc))) eqn:En.
      * injection H as <- <-. rewrite app_length, Nat.add_1_r. by eapply rd_more_full.
      * apply IHg in H. rewrite app_length, Nat.add_1_r in H. by eapply rd_more_next.
    + injection H as <- <-. apply (IH v) in E; [|done]. by eapply rd_more_end.
  - injection H as <- <-. by apply rd_more_join.
Qed.
Lemma to_body lb k i k' p r : same_kind bare_of k k' -> match k' with KSeq TObject _ => False | _ => True end ->
  (forall nm n p r, k = KRef nm -> rs nm = Some n -> std f d n p = Some r -> rd d (RNode (PExp lb (KRef nm))) p (snd <$> r)) ->
  body (std f d) f (Node i k') p = Some r -> rd d (RNode (PExp lb k)) p (snd <$> r).
Proof.
  intros Hk Ht Href. unfold std_body. cbn [n_kind]. destruct Hk as [s|s|s|t t' l l' HF|l l' HF|v v' j j' mn mx Hv Hj|a a' Ha|a a' Ha|a a' Ha|].
  - intros [= <-]. constructor.
  - intros [= <-]. constructor.
  - destruct (rs s) as [n|] eqn:En; [|done]. intros H. by eapply Href.
  - intros H. apply rd_seq. destruct t'; [by eapply (proj1 (to_seq _ _ HF))|by eapply (proj2 (to_seq _ _ HF))|done].
  - intros H. apply rd_choice. by eapply to_alt.
  - destruct (std f d v' p) as [[[w q]|]|] eqn:E; [| |done].
    + destruct (std_loop _ _ _ _ _ _ _) as [[l e]|] eqn:El; [|done]. intros [= <-]. apply (IH v) in E; [|done].
      eapply rd_first; [exact E|]. apply (to_loop v j v' j' mn mx Hv Hj) in El. cbn [length] in El. by destruct (too_few mn (length l)).
    + intros [= <-]. apply (IH v) in E; [|done]. apply (rd_first_fail _ _ _ d lb v j mn mx) in E. by destruct (0 <? mn)%Z.
  - destruct (std f d a' p) as [[[w q]|]|] eqn:E; [| |done]; intros [= <-]; apply (IH a) in E; try done; [by apply rd_exist|by apply rd_exist_not].
  - destruct (std f d a' p) as [[[w q]|]|] eqn:E; [| |done]; intros [= <-]; apply (IH a) in E; try done; [by eapply rd_look|by apply rd_look_not].
  - destruct (std f d a' p) as [[[w q]|]|] eqn:E; [| |done]; intros [= <-]; apply (IH a) in E; try done; [by eapply rd_not|by apply rd_not_not].
  - intros [= <-]. constructor.
Qed.
End To.
Lemma std_rule f d n p r e : rule_bare e n -> std (S f) d n p = Some r ->
  exists d' x, d = S d' /\ body (std f d') f n p = Some x /\ snd <$> r = snd <$> x.
Proof.
  intros (R1 & R2 & R3 & R4 & R5). rewrite std_S, R1. destruct n as [i k]. cbn [n_kind n_info] in *.
  assert (HE : match d with O => None | S d0 => body (std f d0) f (Node i k) p end ≫= prepared cbf i = Some r ->
    exists d' x, d = S d' /\ body (std f d') f (Node i k) p = Some x /\ snd <$> r = snd <$> x).
  { destruct d as [|d]; [done|]. destruct (body (std f d) f (Node i k) p) as [x|] eqn:E; [|done]. cbn [mbind option_bind]. intros Hp.
    exists d, x. split; [done|]. split; [done|]. destruct (prepared_end i x R2) as (r' & E1 & E2). rewrite Hp in E1. by injection E1 as ->. }
  destruct k; try (intros H; apply HE; destruct (match d with O => None | S d0 => body _ _ _ _ end); exact H). done.
Qed.
Lemma std_bare f d n p r e : bare_of e n -> std (S f) d n p = Some r ->
  exists x, body (std f d) f n p = Some x /\ snd <$> r = snd <$> x.
Proof.
  intros Hb. destruct Hb as [lb k i k' R1 R2 R3 R4]. rewrite std_S. cbn [n_info n_kind]. rewrite R1.
  assert (HE : body (std f d) f (Node i k') p ≫= prepared cbf i = Some r -> exists x, body (std f d) f (Node i k') p = Some x /\ snd <$> r = snd <$> x).
  { destruct (body (std f d) f (Node i k') p) as [x|] eqn:E; [|done]. cbn [mbind option_bind]. intros Hp.
    exists x. split; [done|]. destruct (prepared_end i x R2) as (r' & E1 & E2). rewrite Hp in E1. by injection E1 as ->. }
  destruct k'; try (intros H; apply HE; destruct (body _ _ _ _); exact H). intros [= <-]. by eexists.
Qed.
Lemma std_rd f : (forall d e n p r, bare_of e n -> std f d n p = Some r -> rd d (RNode e) p (snd <$> r)) /\
  (forall d lb nm n p r, rs nm = Some n -> std f d n p = Some r -> rd d (RNode (PExp lb (KRef nm))) p (snd <$> r)).
Proof.
  induction f as [|f [IH1 IH2]]; [done|]. split.
  - intros d e n p r Hb H. destruct (std_bare _ _ _ _ _ _ Hb H) as (x & Hx & ->). destruct Hb as [lb k i k' R1 R2 R3 R4].
    eapply to_body; [intros e0 n0 p0 r0; apply IH1|exact R3|done| |exact Hx]. intros nm n0 p0 r0 _. apply IH2.
  - intros d lb nm n p r Hn H. pose proof (Hrules nm) as HR. rewrite Hn in HR. destruct (rules nm) as [e|] eqn:Ee; [|done].
    destruct (std_rule _ _ _ _ _ _ HR H) as (d' & x & -> & Hx & ->). destruct HR as (R1 & R2 & R3 & R4 & R5).
    eapply rd_ref; [exact Ee|]. destruct e as [lb' k], n as [i k']. cbn [e_kind n_kind n_info] in *.
    eapply to_body; [intros e0 n0 p0 r0; apply IH1|exact R3|done| |exact Hx]. intros nm' n0 p0 r0 _. apply IH2.
Qed.

(** ** What is read is answered *)
Definition body_ans (d : nat) (k : kind pexp) (p : nat) (r : option nat) : Prop :=
  forall i k', same_kind bare_of k k' -> match k' with KSeq TObject _ => False | _ => True end ->
  exists f0, forall f, f0 <= f -> exists x, body (std f d) f (Node i k') p = Some x /\ snd <$> x = r.
Definition node_ans (d : nat) (e : pexp) (p : nat) (r : option nat) : Prop :=
  forall n, bare_of e n -> exists f0, forall f, f0 <= f -> exists x, std f d n p = Some x /\ snd <$> x = r.
Definition task_ans (d : nat) (t : rtask) (p : nat) (r : option nat) : Prop :=
  match t with
  | RNode e => body_ans d (e_kind e) p r
  | RSeq l => forall l', Forall2 bare_of l l' -> exists f0, forall f, f0 <= f -> forall acc acc',
      (exists x, std_single (std f d) l' acc p = Some x /\ snd <$> x = r) /\ (exists x, std_array (std f d) l' acc' p = Some x /\ snd <$> x = r)
  | RAlt l => forall l', Forall2 bare_of l l' -> exists f0, forall f, f0 <= f -> exists x, std_alt (std f d) l' p = Some x /\ snd <$> x = r
  | RJoin j => forall j', option_Forall2 bare_of j j' -> exists f0, forall f, f0 <= f ->
      match j' with None => Some (Some p) | Some jn => match std f d jn p with Some (Some (_, q)) => Some (Some q) | Some None => Some None | None => None end end = Some r
  | RMore v j mn mx k => forall v' j', bare_of v v' -> option_Forall2 bare_of j j' -> exists f0, forall f g acc, f0 <= f -> f0 <= g -> length acc = k ->
      exists l e, std_loop (std f d) g v' j' mx acc p = Some (l, e) /\ (if too_few mn (length l) then None else Some e) = r
  end.
Lemma node_body d e p r : body_ans d (e_kind e) p r -> node_ans d e p r.
Proof.
  intros H n Hb. destruct Hb as [lb k i k' R1 R2 R3 R4]. destruct (H i k' R3 R4) as [f0 Hf]. exists (S f0). intros f Hl. destruct f as [|f]; [lia|].
  destruct (Hf f) as (x & Hx & Ex); [lia|]. rewrite std_S. cbn [n_info n_kind]. rewrite R1.
  destruct (prepared_end i x R2) as (r' & E1 & E2).
  destruct k'; try (rewrite Hx; exists r'; split; [done|by rewrite E2]). exists x. split; [exact Hx|done].
Qed.
Lemma rule_body d e n p r : rule_bare e n -> body_ans d (e_kind e) p r -> exists f0, forall f, f0 <= f -> exists x, std f (S d) n p = Some x /\ snd <$> x = r.
Proof.
  intros (R1 & R2 & R3 & R4 & R5) H. destruct n as [i k]. cbn [n_kind n_info] in *. destruct (H i k R3 R4) as [f0 Hf]. exists (S f0). intros f Hl. destruct f as [|f]; [lia|].
  destruct (Hf f) as (x & Hx & Ex); [lia|]. rewrite std_S. cbn [n_info n_kind]. rewrite R1.
  destruct (prepared_end i x R2) as (r' & E1 & E2).
  destruct k; try (rewrite Hx; exists r'; split; [done|by rewrite E2]). done.
Qed.
Ltac one H f x E := destruct (H f) as (x & E & ?); [lia|]; destruct x as [[? ?]|]; try done; simplify_eq/=.
Lemma rd_std d t p r : rd d t p r -> task_ans d t p r.
Proof.
  intros H. induction H; cbn [task_ans] in *.
  - intros i k' Hk Ht. inversion Hk; subst. exists 0. intros f _. by eexists.
  - intros i k' Hk Ht. inversion Hk; subst. exists 0. intros f _. by eexists.
  - intros i k' Hk Ht. inversion Hk; subst. pose proof (Hrules nm) as HR. rewrite H in HR. destruct (rs nm) as [n|] eqn:En; [|done].
    destruct (rule_body _ _ _ _ _ HR IHrd) as [f0 Hf]. exists f0. intros f Hl. unfold std_body. cbn [n_kind]. rewrite En. by apply Hf.
  - intros i k' Hk Ht. inversion Hk; subst. exists 0. intros f _. by eexists.
  - intros i k' Hk Ht. inversion Hk as [| | |? t' ? l' HF| | | | | |]; subst. destruct (IHrd l' HF) as [f0 Hf]. exists f0. intros f Hl. unfold std_body. cbn [n_kind].
    destruct t'; [apply (Hf f Hl None [])|apply (Hf f Hl None [])|done].
  - intros i k' Hk Ht. inversion Hk as [| | | |? l' HF| | | | |]; subst. destruct (IHrd l' HF) as [f0 Hf]. by exists f0.
  - intros i k' Hk Ht. inversion Hk as [| | | | |? v' ? j' ? ? Hv Hj| | | |]; subst. destruct (node_body _ _ _ _ IHrd _ Hv) as [f0 Hf]. exists f0. intros f Hl.
    unfold std_body. cbn [n_kind]. one Hf f x E. rewrite E. eexists. split; [done|]. by destruct (0 <? mn)%Z.
  - intros i k' Hk Ht. inversion Hk as [| | | | |? v' ? j' ? ? Hv Hj| | | |]; subst. destruct (node_body _ _ _ _ IHrd1 _ Hv) as [f0 Hf]. destruct (IHrd2 _ _ Hv Hj) as [f1 Hf1].
    exists (f0 + f1). intros f Hl. unfold std_body. cbn [n_kind]. one Hf f x E. rewrite E.
    destruct (Hf1 f f [v0]) as (l & e & -> & Er); [lia|lia|done|]. eexists. split; [done|]. by destruct (too_few mn (length l)).
  - intros i k' Hk Ht. inversion Hk as [| | | | | |? a' Ha| | |]; subst. destruct (node_body _ _ _ _ IHrd _ Ha) as [f0 Hf]. exists f0. intros f Hl.
    unfold std_body. cbn [n_kind]. one Hf f x E. rewrite E. by eexists.
  - intros i k' Hk Ht. inversion Hk as [| | | | | |? a' Ha| | |]; subst. destruct (node_body _ _ _ _ IHrd _ Ha) as [f0 Hf]. exists f0. intros f Hl.
    unfold std_body. cbn [n_kind]. one Hf f x E. rewrite E. by eexists.
  - intros i k' Hk Ht. inversion Hk as [| | | | | | |? a' Ha| |]; subst. destruct (node_body _ _ _ _ IHrd _ Ha) as [f0 Hf]. exists f0. intros f Hl.
    unfold std_body. cbn [n_kind]. one Hf f x E. rewrite E. by eexists.
  - intros i k' Hk Ht. inversion Hk as [| | | | | | |? a' Ha| |]; subst. destruct (node_body _ _ _ _ IHrd _ Ha) as [f0 Hf]. exists f0. intros f Hl.
    unfold std_body. cbn [n_kind]. one Hf f x E. rewrite E. by eexists.
  - intros i k' Hk Ht. inversion Hk as [| | | | | | | |? a' Ha|]; subst. destruct (node_body _ _ _ _ IHrd _ Ha) as [f0 Hf]. exists f0. intros f Hl.
    unfold std_body. cbn [n_kind]. one Hf f x E. rewrite E. by eexists.
  - intros i k' Hk Ht. inversion Hk as [| | | | | | | |? a' Ha|]; subst. destruct (node_body _ _ _ _ IHrd _ Ha) as [f0 Hf]. exists f0. intros f Hl.
    unfold std_body. cbn [n_kind]. one Hf f x E. rewrite E. by eexists.
  - intros l' HF. inversion HF; subst. exists 0. intros f _ acc acc'. split; by eexists.
  - intros l' HF. inversion HF as [|? a' ? l0 Ha HF']; subst. destruct (node_body _ _ _ _ IHrd _ Ha) as [f0 Hf]. exists f0. intros f Hl acc acc'.
    cbn [std_single std_array]. one Hf f x E. rewrite E. split; by eexists.
  - intros l' HF. inversion HF as [|? a' ? l0 Ha HF']; subst. destruct (node_body _ _ _ _ IHrd1 _ Ha) as [f0 Hf]. destruct (IHrd2 _ HF') as [f1 Hf1]. exists (f0 + f1). intros f Hl acc acc'.
    cbn [std_single std_array]. one Hf f x E. rewrite E. split; apply Hf1; try lia; [exact []|exact None].
  - intros l' HF. inversion HF; subst. exists 0. intros f _. by eexists.
  - intros l' HF. inversion HF as [|? a' ? l0 Ha HF']; subst. destruct (node_body _ _ _ _ IHrd _ Ha) as [f0 Hf]. exists f0. intros f Hl.
    cbn [std_alt]. one Hf f x E. rewrite E. by eexists.
  - intros l' HF. inversion HF as [|? a' ? l0 Ha HF']; subst. destruct (node_body _ _ _ _ IHrd1 _ Ha) as [f0 Hf]. destruct (IHrd2 _ HF') as [f1 Hf1]. exists (f0 + f1). intros f Hl.
    cbn [std_alt]. one Hf f x E. rewrite E. apply Hf1. lia.
  - intros j' Hj. inversion Hj; subst. by exists 0.
  - intros j' Hj. inversion Hj as [? x' Hx|]; subst. destruct (node_body _ _ _ _ IHrd _ Hx) as [f0 Hf]. exists f0. intros f Hl.
    destruct (Hf f Hl) as (y & -> & Ey). subst r. by destruct y as [[? ?]|].
  - intros v' j' Hv Hj. destruct (IHrd _ Hj) as [f0 Hf]. exists (S f0). intros f g acc Hl Hg Ha. destruct g as [|g]; [lia|]. cbn [std_loop]. rewrite Hf by lia.
    eexists _, _. split; [done|]. by rewrite Ha.
  - intros v' j' Hv Hj. destruct (IHrd1 _ Hj) as [f0 Hf]. destruct (node_body _ _ _ _ IHrd2 _ Hv) as [f1 Hf1]. exists (S (f0 + f1)). intros f g acc Hl Hg Ha. destruct g as [|g]; [lia|].
    cbn [std_loop]. rewrite Hf by lia. one Hf1 f x E. rewrite E. by eexists _, _.
  - intros v' j' Hv Hj. destruct (IHrd1 _ Hj) as [f0 Hf]. destruct (node_body _ _ _ _ IHrd2 _ Hv) as [f1 Hf1]. exists (S (f0 + f1)). intros f g acc Hl Hg Ha. destruct g as [|g]; [lia|].
    cbn [std_loop]. rewrite Hf by lia. one Hf1 f x E. rewrite E, H1. eexists _, _. split; [done|]. by rewrite app_length, Nat.add_1_r.
  - intros v' j' Hv Hj. destruct (IHrd1 _ Hj) as [f0 Hf]. destruct (node_body _ _ _ _ IHrd2 _ Hv) as [f1 Hf1]. destruct (IHrd3 _ _ Hv Hj) as [f2 Hf2].
    exists (S (f0 + f1 + f2)). intros f g acc Hl Hg Ha. destruct g as [|g]; [lia|].
    cbn [std_loop]. rewrite Hf by lia. one Hf1 f x E. rewrite E, H1. apply Hf2; [lia|lia|]. by rewrite app_length, Nat.add_1_r.
Qed.
(** ** No callback, no error value *)
Definition fine (r : result) : Prop := match r with Some (VErr _, _) => False | _ => True end.
Lemma fine_prepared i r r' : i_cb i = None -> fine r -> prepared cbf i r = Some r' -> fine r'.
Proof.
  intros Hc Hr. unfold prepared. rewrite Hc. destruct r as [[v e]|]; intros [= <-]; [|done]. unfold labelled. by destruct (_ && _)%bool.
Qed.
Lemma fine_single ev l l' : (forall e n p r, bare_of e n -> ev n p = Some r -> fine r) -> Forall2 bare_of l l' -> forall acc p r, match acc with Some (VErr _) => False | _ => True end ->
  std_single ev l' acc p = Some r -> fine r.
Proof.
  intros He. induction 1 as [|e n l l' Hn HF IH]; intros acc p r Ha; cbn [std_single].
  - intros [= <-]. by destruct acc as [[]|].
  - destruct (ev n p) as [[[v q]|]|] eqn:E; [| |done].
    + apply IH. destruct (i_capture (n_info n)); [|done]. apply (He _ _ _ _ Hn) in E. by destruct v.
    + by intros [= <-].
Qed.
Lemma fine_array ev l : forall acc p r, std_array ev l acc p = Some r -> fine r.
Proof.
  induction l as [|n l IH]; intros acc p r; cbn [std_array]; [by intros [= <-]|]. destruct (ev n p) as [[[v q]|]|]; [apply IH| |done]. by intros [= <-].
Qed.
Lemma fine_alt ev l l' : (forall e n p r, bare_of e n -> ev n p = Some r -> fine r) -> Forall2 bare_of l l' -> forall p r, std_alt ev l' p = Some r -> fine r.
Proof.
  intros He. induction 1 as [|e n l l' Hn HF IH]; intros p r; cbn [std_alt]; [by intros [= <-]|].
  destruct (ev n p) as [[[v q]|]|] eqn:E; [|apply IH|done]. intros [= <-]. by eapply He.
Qed.
Lemma fine_body f d k i k' p r : (forall e n p r, bare_of e n -> std f d n p = Some r -> fine r) -> (forall nm n p r, rs nm = Some n -> std f d n p = Some r -> fine r) ->
  same_kind bare_of k k' -> match k' with KSeq TObject _ => False | _ => True end -> body (std f d) f (Node i k') p = Some r -> fine r.
Proof.
  intros He Hr Hk Ht. unfold std_body. cbn [n_kind]. destruct Hk as [s|s|s|t t' l l' HF|l l' HF|v v' j j' mn mx Hv Hj|a a' Ha|a a' Ha|a a' Ha|].
  - intros [= <-]. unfold lit. by case_bool_decide.
  - intros [= <-]. unfold rgx. destruct (rx s (drop p text)) as [[[] ?]|]; done.
  - destruct (rs s) as [n|] eqn:En; [|done]. by eapply Hr.
  - destruct t'; [by eapply fine_single|by apply fine_array|done].
  - by eapply fine_alt.
  - destruct (std f d v' p) as [[[w q]|]|]; [| |done].
    + destruct (std_loop _ _ _ _ _ _ _) as [[l e]|]; [|done]. intros [= <-]. by destruct (too_few _ _).
    + intros [= <-]. by destruct (0 <? mn)%Z.
  - destruct (std f d a' p) as [[[w q]|]|] eqn:E; intros [= <-]; [|done]. by apply (He _ _ _ _ Ha) in E.
  - destruct (std f d a' p) as [[[w q]|]|] eqn:E; intros [= <-]; [|done]. by apply (He _ _ _ _ Ha) in E.
  - destruct (std f d a' p) as [[[w q]|]|] eqn:E; intros [= <-]; done.
  - by intros [= <-].
Qed.
Lemma fine_std f : (forall d e n p r, bare_of e n -> std f d n p = Some r -> fine r) /\ (forall d nm n p r, rs nm = Some n -> std f d n p = Some r -> fine r).
Proof.
  induction f as [|f [IH1 IH2]]; [done|]. split.
  - intros d e n p r Hb. destruct Hb as [lb k i k' R1 R2 R3 R4]. rewrite std_S. cbn [n_info n_kind]. rewrite R1. intros H.
    assert (body (std f d) f (Node i k') p ≫= prepared cbf i = Some r \/ r = Some (VUndef, p)) as [H'| ->]; [|clear H|done].
    { destruct k'; try (left; destruct (body _ _ _ _); exact H). right. by injection H as <-. }
    destruct (body (std f d) f (Node i k') p) as [x|] eqn:Ex; [|done]. eapply fine_prepared; [exact R2| |exact H'].
    eapply (fine_body f d k i k'); [intros e0 n0 p0 r0; apply IH1|intros nm n0 p0 r0; apply IH2|done|done|exact Ex].
  - intros d nm n p r Hn. pose proof (Hrules nm) as HR. rewrite Hn in HR. destruct (rules nm) as [e|]; [|done]. destruct HR as (R1 & R2 & R3 & R4 & R5).
    destruct n as [i k']. rewrite std_S. cbn [n_info n_kind] in *. rewrite R1. intros H.
    assert (match d with O => None | S d0 => body (std f d0) f (Node i k') p end ≫= prepared cbf i = Some r) as H'.
    { destruct k'; try (destruct (match d with O => None | S d0 => body (std f d0) f _ p end); exact H). done. }
    destruct d as [|d]; [done|]. destruct (body (std f d) f (Node i k') p) as [x|] eqn:Ex; [|done]. eapply fine_prepared; [exact R2| |exact H'].
    eapply (fine_body f d (e_kind e) i k'); [intros e0 n0 p0 r0; apply IH1|intros nm0 n0 p0 r0; apply IH2|done|done|exact Ex].
Qed.
End Std.

(** ** One answer *)
Lemma rd_once rules rx text d t p r : rd rules rx text d t p r -> forall r', rd rules rx text d t p r' -> r = r'.
Proof.
  induction 1; intros r0 Hr0; inversion Hr0; subst; try done;
    repeat match goal with
    | IH : forall r', rd _ _ _ ?d ?t ?p r' -> _ = r', H : rd _ _ _ ?d ?t ?p _ |- _ => apply IH in H; simplify_eq
    end; try done; try congruence.
Qed.

(** ** Laws *)
Lemma too_few_one k : too_few 1 (S k) = false.
Proof. unfold too_few. apply andb_false_iff. right. apply Z.ltb_ge. lia. Qed.
Section Laws.
Variable rules : string -> option pexp.
Variable rx : bytes -> bytes -> option (nat * nat).
Variable text : bytes.
Variable d : nat.
Notation rd := (rd rules rx text d).
Lemma rd_seq_iff lb t l p r : rd (RNode (PExp lb (KSeq t l))) p r <-> rd (RSeq l) p r.
Proof. split; [by inversion 1|apply rd_seq]. Qed.
Lemma rd_alts_iff lb l p r : rd (RNode (PExp lb (KChoice l))) p r <-> rd (RAlt l) p r.
Proof. split; [by inversion 1|apply rd_choice]. Qed.
Lemma rd_cons a l p r : rd (RSeq (a :: l)) p r <-> (rd (RNode a) p None /\ r = None) \/ exists q, rd (RNode a) p (Some q) /\ rd (RSeq l) q r.
Proof.
  split.
  - inversion 1; subst; [by left|right; eauto].
  - intros [[H ->]|(q & H1 & H2)]; [by apply rd_seq_fail|by eapply rd_seq_next].
Qed.
Lemma rd_one a p r : rd (RSeq [a]) p r <-> rd (RNode a) p r.
Proof.
  rewrite rd_cons. split.
  - intros [[H ->]|(q & H1 & H2)]; [done|]. inversion H2; by subst.
  - intros H. destruct r as [q|]; [right; exists q; split; [done|constructor]|by left].
Qed.
Lemma rd_app l1 l2 : forall p r, rd (RSeq (l1 ++ l2)) p r <-> (rd (RSeq l1) p None /\ r = None) \/ exists q, rd (RSeq l1) p (Some q) /\ rd (RSeq l2) q r.
Proof.
  induction l1 as [|a l1 IH]; intros p r; cbn [app].
  - split; [intros H; right; exists p; split; [constructor|done]|]. intros [[H _]|(q & H1 & H2)]; [inversion H|]. inversion H1; by subst.
  - rewrite !rd_cons. split.
    + intros [[H ->]|(q & H1 & H2)]; [left; split; [by left|done]|]. apply IH in H2. destruct H2 as [[H2 ->]|(q' & H2 & H3)].
      * left. split; [|done]. right. eauto.
      * right. exists q'. split; [|done]. apply rd_cons. right. eauto.
    + intros [[[[H _]|(q & H1 & H2)] ->]|(q & H1 & H2)].
      * by left.
      * right. exists q. split; [done|]. apply IH. by left.
      * apply rd_cons in H1. destruct H1 as [[_ H1]|(q' & H1 & H3)]; [done|]. right. exists q'. split; [done|]. apply IH. right. eauto.
Qed.
Lemma rd_alt_cons a l p r : rd (RAlt (a :: l)) p r <-> (exists q, rd (RNode a) p (Some q) /\ r = Some q) \/ (rd (RNode a) p None /\ rd (RAlt l) p r).
Proof.
  split.
  - inversion 1; subst; [left; eauto|by right].
  - intros [(q & H & ->)|[H1 H2]]; [by apply rd_alt_this|by apply rd_alt_next].
Qed.
Lemma rd_alt_one a p r : rd (RAlt [a]) p r <-> rd (RNode a) p r.
Proof.
  rewrite rd_alt_cons. split.
  - intros [(q & H & ->)|[H1 H2]]; [done|]. inversion H2; by subst.
  - intros H. destruct r as [q|]; [left; eauto|right; split; [done|constructor]].
Qed.
Lemma alt_front l l' : (forall p r, rd (RAlt l) p r <-> rd (RAlt l') p r) -> forall l1 p r, rd (RAlt (l1 ++ l)) p r <-> rd (RAlt (l1 ++ l')) p r.
Proof. intros H. induction l1 as [|a l1 IH]; intros p r; cbn [app]; [apply H|]. rewrite !rd_alt_cons. by rewrite IH. Qed.
Lemma once t p r r' : rd t p r -> rd t p r' -> r = r'.
Proof. intros H1 H2. eapply rd_once; eassumption. Qed.
Lemma law_front l1 pre m m' l2 p r : rd (RNode (alts (l1 ++ seq (pre ++ m) :: seq (pre ++ m') :: l2))) p r <-> rd (RNode (alts (l1 ++ seq (pre ++ [alts [seq m; seq m']]) :: l2))) p r.
Proof.
  unfold alts, seq. rewrite !rd_alts_iff. apply alt_front. clear p r. intros p r. rewrite !rd_alt_cons. setoid_rewrite rd_seq_iff. setoid_rewrite rd_app.
  setoid_rewrite rd_one. setoid_rewrite rd_alts_iff. setoid_rewrite rd_alt_cons. setoid_rewrite rd_alt_one. setoid_rewrite rd_seq_iff. split.
  - intros [(q & [[_ [=]]|(q0 & H1 & H2)] & ->)|[[[H1 _]|(q & H1 & H2)] [(q' & [[_ [=]]|(q0 & H3 & H4)] & ->)|[[[H3 _]|(q0 & H3 & H4)] H5]]]].
    + left. exists q. split; [|done]. right. exists q0. split; [done|]. left. eauto.
    + pose proof (once _ _ _ _ H1 H3). congruence.
    + right. split; [by left|done].
    + pose proof (once _ _ _ _ H1 H3). congruence.
    + pose proof (once _ _ _ _ H1 H3). simplify_eq. left. exists q'. split; [|done]. right. exists q0. split; [done|]. right. done.
    + pose proof (once _ _ _ _ H1 H3). congruence.
    + pose proof (once _ _ _ _ H1 H3). simplify_eq. right. split; [|done]. right. exists q0. split; [done|]. right. done.
  - intros [(q & [[_ [=]]|(q0 & H1 & [(q1 & H2 & [= ->])|[H2 H3]])] & ->)|[[[H1 _]|(q0 & H1 & [(q1 & H2 & [=])|[H2 H3]])] H5]].
    + left. exists q1. split; [|done]. right. eauto.
    + right. split; [right; eauto|]. left. exists q. split; [|done]. right. eauto.
    + right. split; [by left|]. right. split; [by left|done].
    + right. split; [right; eauto|]. right. split; [right; eauto|done].
Qed.
Lemma law_group l1 m l2 p r : rd (RNode (seq (l1 ++ seq m :: l2))) p r <-> rd (RNode (seq (l1 ++ m ++ l2))) p r.
Proof.
  unfold seq. rewrite !rd_seq_iff, !(rd_app l1). setoid_rewrite rd_cons. setoid_rewrite rd_app. setoid_rewrite rd_seq_iff. done.
Qed.
Lemma rd_not_iff a p r : rd (RNode (isnt a)) p r <-> (rd (RNode a) p None /\ r = Some p) \/ exists q, rd (RNode a) p (Some q) /\ r = None.
Proof.
  split; [inversion 1; subst; [right; eauto|by left]|]. intros [[H ->]|(q & H & ->)]; [by apply rd_not_not|by eapply rd_not].
Qed.
Lemma rd_look_iff a p r : rd (RNode (ahead a)) p r <-> (rd (RNode a) p None /\ r = None) \/ exists q, rd (RNode a) p (Some q) /\ r = Some p.
Proof.
  split; [inversion 1; subst; [right; eauto|by left]|]. intros [[H ->]|(q & H & ->)]; [by apply rd_look_not|by eapply rd_look].
Qed.
Lemma rd_opt_iff a p r : rd (RNode (opt a)) p r <-> (rd (RNode a) p None /\ r = Some p) \/ exists q, rd (RNode a) p (Some q) /\ r = Some q.
Proof.
  split; [inversion 1; subst; [right; eauto|by left]|]. intros [[H ->]|(q & H & ->)]; [by apply rd_exist_not|by eapply rd_exist].
Qed.
Lemma law_notnot a p r : rd (RNode (isnt (isnt a))) p r <-> rd (RNode (ahead a)) p r.
Proof. rewrite rd_not_iff, rd_look_iff. setoid_rewrite rd_not_iff. naive_solver. Qed.
Lemma law_opt a m p r : rd (RNode (alts [seq (a :: m); seq (isnt a :: m)])) p r <-> rd (RNode (seq (opt a :: m))) p r.
Proof.
  unfold alts, seq. rewrite rd_alts_iff, rd_alt_cons, rd_alt_one, !rd_seq_iff, !rd_cons. setoid_rewrite rd_seq_iff. setoid_rewrite rd_cons.
  setoid_rewrite rd_not_iff. setoid_rewrite rd_opt_iff. split.
  - intros [(q & [[_ [=]]|(q0 & H1 & H2)] & ->)|[[[H1 _]|(q0 & H1 & H2)] [[[[_ [=]]|(q1 & H3 & _)] ->]|(q1 & [[H3 [= <-]]|(q2 & H3 & [=])] & H4)]]].
    + right. exists q0. split; [right; eauto|done].
    + pose proof (once _ _ _ _ H1 H3). congruence.
    + right. exists q1. split; [by left|done].
    + right. exists q0. split; [right; eauto|done].
    + pose proof (once _ _ _ _ H1 H3). congruence.
  - intros [[[[_ [=]]|(q & _ & [=])] ->]|(q & [[H1 [= ->]]|(q0 & H1 & [= <-])] & H2)].
    + right. split; [by left|]. right. exists p. split; [by left|done].
    + destruct r as [e|].
      * left. exists e. split; [|done]. right. eauto.
      * right. split; [right; eauto|]. left. split; [|done]. right. eauto.
Qed.
End Laws.
(** Any number: the place reached by reading [a] again and again. *)
Inductive again rules rx text (d : nat) (a : pexp) : nat -> nat -> Prop :=
| ag_end p : rd rules rx text d (RNode a) p None -> again rules rx text d a p p
| ag_more p q e : rd rules rx text d (RNode a) p (Some q) -> again rules rx text d a q e -> again rules rx text d a p e.
Section Many.
Variable rules : string -> option pexp.
Variable rx : bytes -> bytes -> option (nat * nat).
Variable text : bytes.
Notation rd := (rd rules rx text).
Notation again := (again rules rx text).
Lemma more_again d a mn k p r : (forall k', k <= k' -> too_few mn k' = false) -> rd d (RMore a None mn (-1) k) p r <-> exists e, again d a p e /\ r = Some e.
Proof.
  intros Hk. split.
  - intros H. remember (RMore a None mn (-1) k) as t eqn:Et. revert k Hk Et. induction H; intros k0 Hk [=]; subst.
    + inversion H.
    + inversion H; subst. rewrite Hk by lia. eexists. split; [|done]. by constructor.
    + done.
    + inversion H; subst. destruct (IHrd3 (S k0)) as (e & He & ->); [intros; apply Hk; lia|done|]. exists e. split; [|done]. by eapply ag_more.
  - intros (e & He & ->). revert k Hk. induction He as [p Hp|p q e Hp He IH]; intros k Hk.
    + replace (Some p) with (if too_few mn k then None else Some p) by (by rewrite Hk). eapply rd_more_end; [constructor|done].
    + eapply rd_more_next; [constructor|done|done|]. apply IH. intros k' Hk'. apply Hk. lia.
Qed.
Lemma again_stops d a p e : again d a p e -> rd d (RNode a) e None.
Proof. by induction 1. Qed.
Lemma rd_plus_iff d a p r : rd d (RNode (plus a)) p r <-> (rd d (RNode a) p None /\ r = None) \/ exists q e, rd d (RNode a) p (Some q) /\ again d a q e /\ r = Some e.
Proof.
  assert (Hk : forall k', 1 <= k' -> too_few 1 k' = false).
  { intros k' Hk'. destruct k' as [|k']; [lia|].
    apply too_few_one. }
  split.
  - inversion 1; subst; [by left|]. right. match goal with H : rd _ (RMore _ _ _ _ _) _ _ |- _ => apply more_again in H as (e & He & ->); [|done] end. eauto.
  - intros [[H ->]|(q & e & H & He & ->)]; [by apply (rd_first_fail _ _ _ d "" a None 1 (-1))|]. eapply rd_first; [done|]. apply more_again; [done|]. eauto.
Qed.
Lemma rd_star_iff d a p r : rd d (RNode (star a)) p r <-> exists e, again d a p e /\ r = Some e.
Proof.
  split.
  - inversion 1; subst; [eexists; split; [by constructor|done]|]. match goal with H : rd _ (RMore _ _ _ _ _) _ _ |- _ => apply more_again in H as (e & He & ->); [|done] end. eexists. split; [by eapply ag_more|done].
  - intros (e & He & ->). destruct He as [p H|p q e H He]; [by apply (rd_first_fail _ _ _ d "" a None (-1) (-1))|]. eapply rd_first; [done|]. apply more_again; [done|]. eauto.
Qed.
Lemma law_plus d a p r : rd d (RNode (seq [a; star a])) p r <-> rd d (RNode (plus a)) p r.
Proof.
  unfold seq. rewrite rd_seq_iff, rd_cons, rd_plus_iff. setoid_rewrite rd_one. setoid_rewrite rd_star_iff. naive_solver.
Qed.
Lemma never_star d a l p e : ~ rd d (RNode (seq (star a :: a :: l))) p (Some e).
Proof.
  unfold seq. rewrite rd_seq_iff, rd_cons. setoid_rewrite rd_cons. setoid_rewrite rd_star_iff. intros [[_ [=]]|(q & (q' & H1 & [= <-]) & [[_ [=]]|(q1 & H2 & _)])].
  apply again_stops in H1. pose proof (rd_once _ _ _ _ _ _ _ H1 _ H2). congruence.
Qed.
End Many.

(** ** Alike parsers *)
(** [R] on the parts; labels and types may differ. *)
Section Alike.
Variables rules rules' : string -> option pexp.
Variable rx : bytes -> bytes -> option (nat * nat).
Variable text : bytes.
Variable R : pexp -> pexp -> Prop.
Definition one_step (x x' : pexp) : Prop := same_kind R (e_kind x) (e_kind x').
Hypothesis HR : forall x x', R x x' -> exists y, one_step x y /\ forall d p r, rd rules' rx text d (RNode y) p r -> rd rules' rx text d (RNode x') p r.
Hypothesis Hrules : forall nm x, rules nm = Some x -> exists x', rules' nm = Some x' /\ R x x'.
Definition task_like (t t' : rtask) : Prop :=
  match t, t' with
  | RNode x, RNode x' => R x x'
  | RSeq l, RSeq l' | RAlt l, RAlt l' => Forall2 R l l'
  | RJoin j, RJoin j' => option_Forall2 R j j'
  | RMore v j mn mx k, RMore v' j' mn' mx' k' => R v v' /\ option_Forall2 R j j' /\ mn = mn' /\ mx = mx' /\ k = k'
  | _, _ => False
  end.
Ltac node Hl := destruct (HR _ _ Hl) as ([lb' k'] & Hs & Hto); unfold one_step in Hs; cbn [e_kind] in Hs; apply Hto; inversion Hs; subst.
Lemma rd_alike d t p r : rd rules rx text d t p r -> forall t', task_like t t' -> rd rules' rx text d t' p r.
Proof.
  induction 1; intros t0 Hl; destruct t0 as [x0|l0|l0|j0|v0 j0 mn0 mx0 k0]; cbn [task_like] in *; try done.
  - node Hl. constructor.
  - node Hl. constructor.
  - node Hl. destruct (Hrules _ _ H) as (x' & Hx & Hxx). eapply rd_ref; [exact Hx|]. by apply IHrd.
  - node Hl. constructor.
  - node Hl. apply rd_seq. by apply IHrd.
  - node Hl. apply rd_choice. by apply IHrd.
  - node Hl. apply rd_first_fail. by apply IHrd.
  - node Hl. eapply rd_first; [by apply IHrd1|]. by apply IHrd2.
  - node Hl. apply rd_exist. by apply IHrd.
  - node Hl. apply rd_exist_not. by apply IHrd.
  - node Hl. eapply rd_look. by apply IHrd.
  - node Hl. apply rd_look_not. by apply IHrd.
  - node Hl. eapply rd_not. by apply IHrd.
  - node Hl. apply rd_not_not. by apply IHrd.
  - inversion Hl; subst. constructor.
  - inversion Hl; subst. apply rd_seq_fail. by apply IHrd.
  - inversion Hl; subst. eapply rd_seq_next; [by apply IHrd1|by apply IHrd2].
  - inversion Hl; subst. constructor.
  - inversion Hl; subst. apply rd_alt_this. by apply IHrd.
  - inversion Hl; subst. apply rd_alt_next; [by apply IHrd1|by apply IHrd2].
  - inversion Hl; subst. constructor.
  - inversion Hl; subst. constructor. by apply IHrd.
  - destruct Hl as (H1 & H2 & <- & <- & <-). apply rd_more_join. by apply IHrd.
  - destruct Hl as (H1' & H2 & <- & <- & <-). eapply rd_more_end; [by apply IHrd1|by apply IHrd2].
  - destruct Hl as (H1' & H2 & <- & <- & <-). eapply rd_more_full; [by apply IHrd1|by apply IHrd2|done].
  - destruct Hl as (H1' & H3 & <- & <- & <-). eapply rd_more_next; [by apply IHrd1|by apply IHrd2|done|by apply IHrd3].
Qed.
End Alike.
Lemma untyped_kind lb k lb' k' : untyped (PExp lb k) = untyped (PExp lb' k') -> same_kind (fun x x' => untyped x = untyped x') k k'.
Proof.
  assert (HF : forall l l', map untyped l = map untyped l' -> Forall2 (fun x x' => untyped x = untyped x') l l').
  { induction l as [|a l IH]; intros [|a' l'] [=]; constructor; auto. }
  cbn [untyped]. intros H. assert (E := f_equal e_kind H). cbn [e_kind] in E. clear H.
  destruct k, k'; try discriminate E; simplify_eq; constructor; auto.
  destruct j, j0; simplify_eq; constructor. done.
Qed.
Lemma untyped_rd e e' rules rx text d p r : untyped e = untyped e' -> rd rules rx text d (RNode e) p r -> rd rules rx text d (RNode e') p r.
Proof.
  intros HE H. eapply (rd_alike rules rules rx text (fun x x' => untyped x = untyped x')); [| |exact H|exact HE].
  - intros [lb k] [lb' k'] Hx. exists (PExp lb' k'). split; [|done]. by eapply untyped_kind.
  - intros nm x Hx. by exists x.
Qed.
Lemma law_same e e' : reads_law e e' -> same_reads e e'.
Proof.
  induction 1 as [l1 pre m m' l2|l1 m l2|a|a|a m|a|a|e e' HE|e e' _ IH]; intros rules rx text d p r.
  - apply law_front.
  - apply law_group.
  - apply law_notnot.
  - apply law_plus.
  - apply law_opt.
  - unfold seq. by rewrite rd_seq_iff, rd_one.
  - unfold alts. by rewrite rd_alts_iff, rd_alt_one.
  - by split; apply untyped_rd.
  - symmetry. apply IH.
Qed.

(** ** In place *)
Definition near (e e' x x' : pexp) : Prop := x = x' \/ put e e' x x'.
Lemma put_flip e e' x x' : put e e' x x' -> put e' e x' x.
Proof. induction 1; by constructor. Qed.
Lemma near_refl e e' l : Forall2 (near e e') l l.
Proof. apply Forall_Forall2_diag, Forall_true. by left. Qed.
Lemma near_put e e' l1 a a' l2 : put e e' a a' -> Forall2 (near e e') (l1 ++ a :: l2) (l1 ++ a' :: l2).
Proof. intros H. apply Forall2_app; [apply near_refl|]. constructor; [by right|apply near_refl]. Qed.
Lemma near_self e e' x : same_kind (near e e') (e_kind x) (e_kind x).
Proof.
  assert (HI : forall y, near e e' y y) by (by left).
  destruct x as [lb k]. cbn [e_kind]. destruct k; constructor; try apply near_refl; try apply HI. destruct j; constructor. apply HI.
Qed.
Lemma near_step e e' rules rx text x x' : same_reads e e' -> near e e' x x' ->
  exists y, one_step (near e e') x y /\ forall d p r, rd rules rx text d (RNode y) p r -> rd rules rx text d (RNode x') p r.
Proof.
  intros HE [<-|Hp]; [exists x; split; [apply near_self|done]|]. destruct Hp.
  - exists e. split; [apply near_self|]. intros d p r. apply HE.
  - eexists. split; [|done]. constructor. by apply near_put.
  - eexists. split; [|done]. constructor. by apply near_put.
  - eexists. split; [|done]. constructor; [by right|]. destruct j; constructor. by left.
  - eexists. split; [|done]. constructor; [by left|]. constructor. by right.
  - eexists. split; [|done]. constructor. by right.
  - eexists. split; [|done]. constructor. by right.
  - eexists. split; [|done]. constructor. by right.
Qed.

(** ** Lines *)
Lemma bare_list u l : Forall (fun e => no_objects e = true -> forall used, bare_of e (stand used e)) l -> forallb no_objects l = true ->
  Forall2 bare_of l (map (stand u) l).
Proof. induction 1 as [|e l He HF IH]; [constructor|]. cbn [forallb map]. intros [H1 H2]%andb_true_iff. constructor; auto. Qed.
Lemma stand_bare e : no_objects e = true -> forall used, bare_of e (stand used e).
Proof.
  induction e as [lb k IH] using pexp_ind2. intros Hn used. cbn [stand]. constructor; [done|done| |].
  - destruct k as [s|s|s|ty l|l|v j mn mx|a|a|a|]; cbn [no_objects kids] in *.
    + constructor.
    + constructor.
    + constructor.
    + constructor. apply andb_true_iff in Hn as [_ Hn]. by apply bare_list.
    + constructor. by apply bare_list.
    + apply andb_true_iff in Hn as [H1 H2]. apply Forall_cons in IH as [I1 I2]. constructor; [by apply I1|]. destruct j as [x|]; constructor.
      apply Forall_cons in I2 as [I2 _]. by apply I2.
    + apply Forall_cons in IH as [I1 _]. constructor. by apply I1.
    + apply Forall_cons in IH as [I1 _]. constructor. by apply I1.
    + apply Forall_cons in IH as [I1 _]. constructor. by apply I1.
    + done.
  - destruct k as [s|s|s|ty l|l|v j mn mx|a|a|a|]; try done. cbn [no_objects] in Hn. apply andb_true_iff in Hn as [Hn _].
    unfold w_type. destruct (flat_map w_labels l); [|done]. by destruct (1 <? _).
Qed.
Lemma stand_rule nm e : no_objects e = true -> rule_bare e (as_rule nm None (stand false e)).
Proof.
  intros Hn. pose proof (stand_bare e Hn false) as Hb. destruct Hb as [lb k i k' R1 R2 R3 R4]. unfold rule_bare. cbn [as_rule n_info n_kind i_isrule i_cb e_kind].
  split; [done|]. split; [done|]. split; [done|]. split; [done|]. intros ->. by inversion R3; subst.
Qed.
Lemma bare_names names : Forall2 bare_of (map to_name names) (map to_rule names).
Proof. induction names as [|x l IH]; [constructor|]. cbn [map]. constructor; [|done]. by repeat constructor. Qed.
Section Lines.
Variable compile : bytes -> res pexp.
Lemma rules_bare ds : Forall (fun d => lo_cb (d_opts d) = None /\ match decl_read compile d with Some e => no_objects e = true | None => True end) ds -> forall nm,
  match rules_read compile ds nm, rules_said compile ds nm with Some e, Some n => rule_bare e n | None, None => True | _, _ => False end.
Proof.
  intros H nm. unfold rules_read, rules_said. induction H as [|d ds [Hc Hd] HF IH]; [done|]. cbn [List.find].
  destruct (String.eqb (d_name d) nm); [|done]. unfold decl_read, rule_said in *. rewrite Hc. destruct (d_what d) as [s|p e|ls].
  - destruct (compile s) as [e| |]; try done. by apply stand_rule.
  - by apply stand_rule.
  - unfold rule_bare, choice_of. cbn [as_rule n_info n_kind i_isrule i_cb e_kind]. split; [done|]. split; [done|]. split; [|done]. constructor. apply bare_names.
Qed.
Lemma top_bare names : bare_of (PExp "" (KChoice (map to_name names))) (choice_of names).
Proof. constructor; [done|done| |done]. constructor. apply bare_names. Qed.
Lemma said_reads name ls rx cbf depth text r : only_texts compile name ls ->
  said compile name ls rx cbf depth text r -> reads_to compile name ls rx depth text (snd <$> r).
Proof.
  intros Ho [f Hf]. exact (proj1 (std_rd _ _ rx cbf text (rules_bare _ Ho) f) _ _ _ _ _ (top_bare _) Hf).
Qed.
Lemma reads_said name ls rx cbf depth text e : only_texts compile name ls ->
  reads_to compile name ls rx depth text e -> exists r, said compile name ls rx cbf depth text r /\ snd <$> r = e.
Proof.
  intros Ho H. pose proof (rd_std _ _ rx cbf text (rules_bare _ Ho) _ _ _ _ H) as H1. cbn [task_ans] in H1. destruct (node_body _ _ _ _ _ (rules_bare _ Ho) _ _ _ _ H1 _ (top_bare _)) as [f Hf].
  destruct (Hf f (le_n _)) as (x & Hx & Ex). exists x. split; [by exists f|done].
Qed.

(** ** Lines with a parser put in place of another *)
Variables e e' : pexp.
Definition read_near (d d' : decl) : Prop := d_name d = d_name d' /\
  match decl_read compile d, decl_read compile d' with Some x, Some x' => near e e' x x' | None, None => True | _, _ => False end.
Lemma read_same d : read_near d d.
Proof. split; [done|]. destruct (decl_read compile d); [by left|done]. Qed.
Lemma read_all ds : Forall2 read_near ds ds.
Proof. apply Forall_Forall2_diag, Forall_true, read_same. Qed.
Lemma o_names_put l l' : put_in compile e e' l l' -> forall l1 l2 parent i, o_names parent (l1 ++ l :: l2) i = o_names parent (l1 ++ l' :: l2) i.
Proof.
  intros H. induction l1 as [|x l1 IH]; intros l2 parent i.
  - destruct H; done.
  - cbn [app o_names]. destruct x; rewrite ?IH; done.
Qed.
Lemma put_decls l l' : put_in compile e e' l l' ->
  (forall nm o o', Forall2 read_near (decls_of nm o l) (decls_of nm o' l')) /\
  (forall l1 l2, Forall2 read_near (i_decls (l1 ++ l :: l2)) (i_decls (l1 ++ l' :: l2))) /\
  (forall parent l1 l2 i, Forall2 read_near (o_decls parent (l1 ++ l :: l2) i) (o_decls parent (l1 ++ l' :: l2) i)).
Proof.
  assert (Hi : forall l l', (forall l2, Forall2 read_near (i_decls (l :: l2)) (i_decls (l' :: l2))) ->
    forall l1 l2, Forall2 read_near (i_decls (l1 ++ l :: l2)) (i_decls (l1 ++ l' :: l2))).
  { intros l0 l0' H. induction l1 as [|x l1 IH]; intros l2; [apply H|]. cbn [app i_decls]. destruct x; try apply IH. apply Forall2_app; [apply read_all|apply IH]. }
  assert (Ho : forall parent l l', (forall l2 i, Forall2 read_near (o_decls parent (l :: l2) i) (o_decls parent (l' :: l2) i)) ->
    forall l1 l2 i, Forall2 read_near (o_decls parent (l1 ++ l :: l2) i) (o_decls parent (l1 ++ l' :: l2) i)).
  { intros parent l0 l0' H. induction l1 as [|x l1 IH]; intros l2 i; [apply H|]. cbn [app o_decls]. destruct x; try apply IH. apply Forall2_app; [apply read_all|apply IH]. }
  induction 1 as [s s' x x' H1 H2 H3|l1 l l' l2 H (I1 & I2 & I3)|nm' c c' o0 o0' H (I1 & I2 & I3)|nm' c c' o0 o0' H (I1 & I2 & I3)].
  - split; [|split; [apply Hi|intros parent; apply Ho]].
    + intros nm o o'. cbn [decls_of]. constructor; [|constructor]. split; [done|]. cbn [decl_read d_what]. rewrite H1, H2. by right.
    + intros l2. apply read_all.
    + intros l2 i. apply read_all.
  - split; [|split; [apply Hi|intros parent; apply Ho]].
    + intros nm o o'. rewrite !decls_of_rank. apply Forall2_app; [apply Forall2_app; [apply I2|apply I3]|]. constructor; [|constructor].
      split; [done|]. cbn [decl_read d_what d_name d_opts]. rewrite (o_names_put l l' H). by left.
    + intros l3. apply read_all.
    + intros l3 i. apply read_all.
  - split; [|split; [apply Hi|intros parent; apply Ho]].
    + intros nm o o'. apply I1.
    + intros l2. apply read_all.
    + intros l2 i. cbn [o_decls]. apply Forall2_app; [apply I1|apply read_all].
  - split; [|split; [apply Hi|intros parent; apply Ho]].
    + intros nm o o'. constructor.
    + intros l2. cbn [i_decls]. apply Forall2_app; [apply I1|apply read_all].
    + intros l2 i. apply read_all.
Qed.
Lemma put_rules ds ds' : Forall2 read_near ds ds' -> forall nm x, rules_read compile ds nm = Some x -> exists x', rules_read compile ds' nm = Some x' /\ near e e' x x'.
Proof.
  intros H nm x. unfold rules_read. induction H as [|d d' ds ds' [Hn Hd] HF IH]; [done|]. cbn [List.find]. rewrite <- Hn.
  destruct (String.eqb (d_name d) nm); [|done]. intros E. rewrite E in Hd. destruct (decl_read compile d') as [x'|]; [eauto|done].
Qed.
Lemma put_reads name ls ls' rx depth text r : same_reads e e' -> put_in compile e e' (LA ls) (LA ls') ->
  reads_to compile name ls rx depth text r -> reads_to compile name ls' rx depth text r.
Proof.
  intros HE H. inversion H as [|l1 l l' l2 Hl E1 E2| |]; subst. pose proof (put_decls l l' Hl) as (_ & H2 & H3).
  assert (HF : Forall2 read_near (decls name (l1 ++ l :: l2)) (decls name (l1 ++ l' :: l2))).
  { rewrite !decls_eq. apply Forall2_app; [apply H2|apply H3]. }
  unfold reads_to. rewrite (o_names_put l l' Hl). intros Hr.
  eapply (rd_alike _ _ rx text (near e e')); [|exact (put_rules _ _ HF)|exact Hr|by left].
  intros x x' Hx. by eapply near_step.
Qed.
End Lines.
Lemma put_in_flip compile e e' l l' : put_in compile e e' l l' -> put_in compile e' e l' l.
Proof. induction 1; econstructor; eauto using put_flip. Qed.
Lemma put_reads_iff compile e e' name ls ls' rx depth text r : same_reads e e' -> put_in compile e e' (LA ls) (LA ls') ->
  reads_to compile name ls rx depth text r <-> reads_to compile name ls' rx depth text r.
Proof.
  intros HE H. split; [by eapply put_reads|]. eapply put_reads; [|by apply put_in_flip]. intros rules rx0 text0 d p r0. symmetry. apply HE.
Qed.

(** ** ParseString *)
Lemma said_fine compile name ls rx cbf depth text r : only_texts compile name ls -> said compile name ls rx cbf depth text r -> fine r.
Proof. intros Ho [f Hf]. exact (proj1 (fine_std _ _ rx cbf text (rules_bare compile _ Ho) f) _ _ _ _ _ (top_bare _) Hf). Qed.
Lemma answer_takes text r x : fine r -> answer text r x -> takes text (snd <$> r) x.
Proof.
  unfold answer, takes. destruct r as [[v n]|]; cbn [fmap option_fmap option_map snd].
  - intros Hv. destruct (n =? length text) eqn:En.
    + intros (y & s & -> & Hr). exists y, s. split; [done|]. intros k ->. inversion Hr; subst. done.
    + intros (k & s & -> & Hk). destruct text as [|c text]; [|by exists k, s]. apply Nat.eqb_neq in En. cbn [length] in *. lia.
  - intros _. destruct text as [|c text]; [done|]. cbn [length Nat.eqb]. intros (k & s & -> & _). by exists k, s.
Qed.
Lemma reads_parse compile fuel name ls b : build compile fuel name ls = ROk b -> in_words compile name ls -> only_texts compile name ls ->
  forall o rx cb cbf text e, (forall re, rx_ok (rx re)) -> (forall c, cb_keeps (mk_env (gram_of b) o rx cb) cbf c) -> po_debug o = false ->
  reads_to compile name ls rx stack_limit text e ->
  exists fuel0, forall f, fuel0 <= f -> takes text e (fst (parse_string f (gram_of b) o rx cb text)).
Proof.
  intros Hb Hw Ho o rx cb cbf text e Hrx Hcb Hd Hr. destruct (reads_said compile name ls rx cbf _ _ _ Ho Hr) as (r & Hs & <-).
  destruct (parses_as_said _ _ _ _ _ Hb Hw o rx cb cbf text r Hrx Hcb Hd Hs) as [f0 Hf]. exists f0. intros f Hl. apply answer_takes; [by eapply said_fine|]. by apply Hf.
Qed.
Lemma put_same e e' x x' : same_reads e e' -> put e e' x x' -> same_reads x x'.
Proof.
  assert (Hone : forall e e' x x' rules rx text d p r, same_reads e e' -> put e e' x x' -> rd rules rx text d (RNode x) p r -> rd rules rx text d (RNode x') p r).
  { intros e0 e0' y y' rules rx text d p r HE Hp H. eapply (rd_alike rules rules rx text (near e0 e0')); [|intros nm z Hz; exists z; by split; [|left]|exact H|by right].
    intros z z' Hz. by eapply near_step. }
  intros HE Hp rules rx text d p r. split; [by eapply Hone|]. eapply Hone; [|by apply put_flip]. intros r0 rx0 t0 d0 p0 s0. symmetry. apply HE.
Qed.
Lemma as_same x x' : reads_as x x' -> same_reads x x'.
Proof.
  induction 1 as [e e' x x' Hl Hp|x y z _ I1 _ I2]; [by eapply put_same; [apply law_same|]|].
  intros rules rx text d p r. rewrite (I1 rules rx text d p r). apply I2.
Qed.
Lemma as_reads compile x x' name ls ls' rx depth text r : reads_as x x' -> put_in compile x x' (LA ls) (LA ls') ->
  reads_to compile name ls rx depth text r <-> reads_to compile name ls' rx depth text r.
Proof. intros H. apply put_reads_iff. by apply as_same. Qed.
Lemma as_parse compile fuel fuel' name ls ls' b b' x x' : reads_as x x' -> put_in compile x x' (LA ls) (LA ls') ->
  build compile fuel name ls = ROk b -> build compile fuel' name ls' = ROk b' ->
  in_words compile name ls -> in_words compile name ls' -> only_texts compile name ls -> only_texts compile name ls' ->
  forall o rx cb cbf text e, (forall re, rx_ok (rx re)) -> (forall c, cb_keeps (mk_env (gram_of b) o rx cb) cbf c) ->
  (forall c, cb_keeps (mk_env (gram_of b') o rx cb) cbf c) -> po_debug o = false ->
  reads_to compile name ls rx stack_limit text e \/ reads_to compile name ls' rx stack_limit text e ->
  exists fuel0, forall f, fuel0 <= f -> takes text e (fst (parse_string f (gram_of b) o rx cb text)) /\
    takes text e (fst (parse_string f (gram_of b') o rx cb text)).
Proof.
  intros Ha Hp Hb Hb' Hw Hw' Ho Ho' o rx cb cbf text e Hrx Hcb Hcb' Hd Hr.
  pose proof (as_reads compile x x' name ls ls' rx stack_limit text e Ha Hp) as HE.
  assert (reads_to compile name ls rx stack_limit text e /\ reads_to compile name ls' rx stack_limit text e) as [H1 H2] by tauto.
  destruct (reads_parse _ _ _ _ _ Hb Hw Ho o rx cb cbf text e Hrx Hcb Hd H1) as [f1 F1].
  destruct (reads_parse _ _ _ _ _ Hb' Hw' Ho' o rx cb cbf text e Hrx Hcb' Hd H2) as [f2 F2].
  exists (f1 + f2). intros f Hf. split; [apply F1|apply F2]; lia.
Qed.
Definition texts_check (compile : bytes -> res pexp) (name : string) (ls : list line) : bool :=
  forallb (fun d => (match lo_cb (d_opts d) with None => true | Some _ => false end && match decl_read compile d with Some e => no_objects e | None => true end)%bool) (decls name ls).
Lemma texts_checked compile name ls : texts_check compile name ls = true -> only_texts compile name ls.
Proof.
  unfold texts_check, only_texts. induction (decls name ls) as [|d ds IH]; [constructor|]. cbn [forallb]. intros [[H1 H2]%andb_true_iff H3]%andb_true_iff.
  constructor; [|by apply IH]. split; [by destruct (lo_cb (d_opts d))|]. by destruct (decl_read compile d).
Qed.
