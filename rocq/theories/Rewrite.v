(** Shorter ways of writing a parser mean the same. *)
From Verif Require Toy.
From Verif Require Import Base Helpers Utf8 Stream StreamSpec Native Engine EngSpec EngInv Peg PegRep PegBody PegStd RunSpec PegRun
  Build BuildSpec BuildWalk BuildLines BuildMono BuildPrep BuildProofs BuildMain MeansSpec MeansBuild Means MeansLaws RewriteSpec.
Local Open Scope list_scope.

(** ** Labels and captures *)
Lemma w_capture_choice_all lb l : w_captures (PExp lb (KChoice l)) = if forallb w_capture l then 1 else 0.
Proof. apply w_captures_choice. Qed.
Lemma shorter_capture l l' : shorter l l' -> forallb w_capture l = forallb w_capture l'.
Proof.
  intros H. destruct H as [l1 m l2|l1 a l2 l3|l1 lb s l2 lb' t l3|l1 a l2 _ Hl].
  - rewrite !forallb_app. cbn [forallb]. by rewrite w_capture_choice.
  - rewrite !forallb_app. cbn [forallb]. rewrite !forallb_app. cbn [forallb]. by destruct (w_capture a), (forallb w_capture l2), (forallb w_capture l3).
  - rewrite !forallb_app. done.
  - rewrite !forallb_app. cbn [forallb]. by rewrite Hl.
Qed.
Lemma here_labels k k' lb : shorter_here k k' -> w_labels (PExp lb k) = w_labels (PExp lb k') /\ w_captures (PExp lb k) = w_captures (PExp lb k') /\
  w_capture0 (PExp lb k) = w_capture0 (PExp lb k') /\ w_label (PExp lb k) = w_label (PExp lb k').
Proof.
  intros H. destruct H as [l l' Hl|a Ha|a|a]; try done.
  split; [done|]. split; [|done]. rewrite !w_capture_choice_all. by rewrite (shorter_capture _ _ Hl).
Qed.
Lemma same_capture e e' : (match e, e' with PExp _ (KSeq _ _), PExp _ (KSeq _ _) => True | PExp _ (KSeq _ _), _ => False | _, PExp _ (KSeq _ _) => False | _, _ => True end) ->
  w_captures e = w_captures e' -> w_capture e = w_capture e'.
Proof. intros H1 H2. destruct e as [lb k], e' as [lb' k']. destruct k, k'; cbn [w_capture] in *; try done; by rewrite H2. Qed.
Lemma rewritten_seq e e' : rewritten e e' -> match e, e' with PExp _ (KSeq _ _), PExp _ (KSeq _ _) => True | PExp _ (KSeq _ _), _ => False | _, PExp _ (KSeq _ _) => False | _, _ => True end.
Proof. intros H. destruct H as [lb k k' H| | | | | | |]; try done. by destruct H. Qed.
Lemma rewritten_looks e e' : rewritten e e' -> w_labels e = w_labels e' /\ w_captures e = w_captures e' /\ w_capture0 e = w_capture0 e' /\
  w_label e = w_label e' /\ w_capture e = w_capture e'.
Proof.
  intros H. assert (w_labels e = w_labels e' /\ w_captures e = w_captures e' /\ w_capture0 e = w_capture0 e' /\ w_label e = w_label e') as (H1 & H2 & H3 & H4).
  { induction H as [lb k k' H|lb t l1 e e' l2 H (I1 & I2 & I3 & I4)|lb l1 e e' l2 H (I1 & I2 & I3 & I4)|lb e e' j mn mx H (I1 & I2 & I3 & I4)|lb v e e' mn mx H IH|
      lb e e' H (I1 & I2 & I3 & I4)|lb e e' H IH|lb e e' H IH]; try done.
    - by apply here_labels.
    - split; [|split; [|done]]; cbn [w_labels w_captures].
      + rewrite !flat_map_app. cbn [flat_map]. by rewrite I1.
      + rewrite !map_app. cbn [map]. by rewrite I2.
    - split; [done|]. split; [|done]. rewrite !w_capture_choice_all, !forallb_app. cbn [forallb].
      by rewrite (same_capture e e' (rewritten_seq e e' H) I2).
    - cbn [w_labels w_captures w_capture0 w_label]. by rewrite I3.
    - cbn [w_labels w_captures w_capture0 w_label]. by rewrite I1, I2. }
  do 4 (split; [done|]). by apply same_capture; [apply rewritten_seq|].
Qed.

(** ** Nodes *)
Definition plain_info (i : info) : Prop := i_isrule i = false /\ i_cb i = None.
Definition node_never (n : node) : Prop :=
  plain_info (n_info n) /\ match n_kind n with KExist _ => True | KPat _ _ mn _ => (mn <= 0)%Z | _ => False end.
Inductive nshort : kind node -> kind node -> Prop :=
| ns_group l1 i m l2 : plain_info i -> i_label i = EmptyString -> nshort (KChoice (l1 ++ Node i (KChoice m) :: l2)) (KChoice (l1 ++ m ++ l2))
| ns_again l1 a l2 l3 : nshort (KChoice (l1 ++ a :: l2 ++ a :: l3)) (KChoice (l1 ++ a :: l2 ++ l3))
| ns_literal l1 i s l2 i' t l3 : plain_info i -> plain_info i' ->
    nshort (KChoice (l1 ++ Node i (KStr s) :: l2 ++ Node i' (KStr (s ++ t)) :: l3)) (KChoice (l1 ++ Node i (KStr s) :: l2 ++ l3))
| ns_behind l1 a l2 : node_never a -> nshort (KChoice (l1 ++ a :: l2)) (KChoice (l1 ++ [a]))
| ns_opt i a : plain_info i -> i_label i = EmptyString -> nshort (KExist (Node i (KExist a))) (KExist a)
| ns_look i a : plain_info i -> i_label i = EmptyString -> nshort (KLook (Node i (KLook a))) (KLook a)
| ns_not i i' a : plain_info i -> plain_info i' -> nshort (KNot (Node i (KNot (Node i' (KNot a))))) (KNot a).
Inductive close : node -> node -> Prop :=
| cl_node i k k' : same_kind close k k' -> same_type k k' -> close (Node i k) (Node i k')
| cl_here i k k' : nshort k k' -> close (Node i k) (Node i k').
Lemma close_refl n : close n n.
Proof.
  induction n as [n IH] using Toy.node_ind2. destruct n as [i k]. apply cl_node; [|by destruct k]. apply same_kind_eq. apply Forall_forall. exact IH.
Qed.

(** ** Laws of the evaluator *)
Lemma std_alt_app ev l1 l2 p : std_alt ev (l1 ++ l2) p = match std_alt ev l1 p with Some None => std_alt ev l2 p | x => x end.
Proof. induction l1 as [|a l1 IH]; [done|]. cbn [app std_alt]. destruct (ev a p) as [[x|]|]; [done|apply IH|done]. Qed.
Lemma lit_longer text s t p : lit text s p = None -> lit text (s ++ t) p = None.
Proof.
  unfold lit. destruct (bool_decide (take (length s) (drop p text) = s)) eqn:E; [done|]. intros _. apply bool_decide_eq_false in E.
  rewrite bool_decide_eq_false_2; [done|]. intros H. apply E. rewrite app_length in H. apply (f_equal (take (length s))) in H.
  rewrite take_take, take_app in H. by replace (length s `min` (length s + length t)) with (length s) in H by lia.
Qed.
Section Laws.
Variable rs : string -> option node.
Variable rx : bytes -> bytes -> option (nat * nat).
Variable cbf : nat -> nat -> val -> option (option val).
Variable text : bytes.
Notation std := (std rs rx cbf text).
Notation body := (std_body rs rx text).

Lemma plain_prepared i r : plain_info i -> i_label i = EmptyString -> prepared cbf i r = Some r.
Proof. intros [_ Hc] Hl. unfold prepared, labelled. rewrite Hc, Hl. by destruct r as [[v e]|]. Qed.
Lemma plain_none i r : plain_info i -> prepared cbf i r = Some None <-> r = None.
Proof. intros [_ Hc]. unfold prepared. rewrite Hc. by destruct r as [[v e]|]. Qed.
Lemma plain_some i r : plain_info i -> exists x, prepared cbf i r = Some x.
Proof. intros [_ Hc]. unfold prepared. rewrite Hc. destruct r as [[v e]|]; by eexists. Qed.
Lemma std_plain f d i k p : plain_info i -> k <> KUndef -> std (S f) d (Node i k) p =
  match body (std f d) f (Node i k) p with None => None | Some r => prepared cbf i r end.
Proof. intros [Hr _] Hk. rewrite std_S. cbn [n_kind n_info]. rewrite Hr. by destruct k. Qed.
Lemma never_some f d n p : node_never n -> std f d n p <> Some None.
Proof.
  destruct n as [i k]. intros [Hi Hk]. cbn [n_info n_kind] in *. destruct f as [|f]; [done|].
  rewrite std_plain; [|done|by destruct k]. intros H. destruct (body _ f (Node i k) p) as [r|] eqn:E; [|done].
  apply (proj1 (plain_none _ _ Hi)) in H as ->. unfold std_body in E. cbn [n_kind] in E. destruct k as [s|s|s|t l|l|v j mn mx|a|a|a|]; try done.
  - destruct (std f d v p) as [[[a q]|]|]; [|by rewrite (proj2 (Z.ltb_ge 0 mn) Hk) in E|done].
    destruct (std_loop _ _ _ _ _ _ _) as [[l e]|]; [|done]. assert (too_few mn (length l) = false) as Hf; [|by rewrite Hf in E].
    unfold too_few. apply andb_false_iff. right. apply Z.ltb_ge. lia.
  - by destruct (std f d a p) as [[[x q]|]|].
Qed.
Lemma alt_mono f f' d l p r : f <= f' -> std_alt (std f d) l p = Some r -> std_alt (std f' d) l p = Some r.
Proof.
  intros Hf. apply alt_sim. apply Forall_Forall2_diag. apply Forall_true. intros a q x. by apply mono.
Qed.

Lemma short_to f d i k k' p r : nshort k k' -> body (std f d) f (Node i k) p = Some r -> body (std f d) f (Node i k') p = Some r.
Proof.
  intros H. unfold std_body. cbn [n_kind].
  destruct H as [l1 j m l2 Hj Hl|l1 a l2 l3|l1 j s l2 j' t l3 Hj Hj'|l1 a l2 Ha|j a Hj Hl|j a Hj Hl|j j' a Hj Hj'].
  - rewrite !std_alt_app. destruct (std_alt _ l1 p) as [[x|]|]; [done| |done]. cbn [std_alt].
    destruct f as [|f]; [done|]. rewrite std_plain; [|done..]. unfold std_body at 1. cbn [n_kind]. destruct (std_alt (std f d) m p) as [x|] eqn:E; [|done].
    rewrite plain_prepared by done. by rewrite (alt_mono f (S f) d m p x (le_S _ _ (le_n _)) E).
  - rewrite !std_alt_app. destruct (std_alt _ l1 p) as [[x|]|]; [done| |done]. cbn [std_alt]. destruct (std f d a p) as [[x|]|] eqn:E; [done| |done].
    rewrite !std_alt_app. destruct (std_alt _ l2 p) as [[x|]|]; [done| |done]. cbn [std_alt]. by rewrite E.
  - rewrite !std_alt_app. destruct (std_alt _ l1 p) as [[x|]|]; [done| |done]. cbn [std_alt]. destruct (std f d (Node j (KStr s)) p) as [[x|]|] eqn:E; [done| |done].
    rewrite !std_alt_app. destruct (std_alt _ l2 p) as [[x|]|]; [done| |done]. cbn [std_alt].
    destruct f as [|f]; [done|]. rewrite std_plain in E |- *; [|done..]. unfold std_body in E |- *. cbn [n_kind] in E |- *.
    apply (proj1 (plain_none _ _ Hj)) in E. rewrite (lit_longer _ _ t _ E). by rewrite (proj2 (plain_none j' None Hj') eq_refl).
  - rewrite !std_alt_app. destruct (std_alt _ l1 p) as [[x|]|]; [done| |done]. cbn [std_alt]. pose proof (never_some f d a p Ha) as Hn.
    by destruct (std f d a p) as [[x|]|].
  - destruct f as [|f]; [done|]. rewrite std_plain; [|done..]. unfold std_body at 1. cbn [n_kind]. destruct (std f d a p) as [x|] eqn:E; [|done].
    rewrite (mono _ _ _ _ f (S f) d d a p x (le_S _ _ (le_n _)) (le_n _) E). destruct x as [x|]; by rewrite plain_prepared.
  - destruct f as [|f]; [done|]. rewrite std_plain; [|done..]. unfold std_body at 1. cbn [n_kind]. destruct (std f d a p) as [x|] eqn:E; [|done].
    rewrite (mono _ _ _ _ f (S f) d d a p x (le_S _ _ (le_n _)) (le_n _) E). destruct x as [[v e]|]; by rewrite plain_prepared.
  - destruct f as [|f]; [done|]. rewrite std_plain; [|done..]. unfold std_body at 1. cbn [n_kind].
    destruct f as [|f]; [done|]. rewrite std_plain; [|done..]. unfold std_body at 1. cbn [n_kind]. destruct (std f d a p) as [x|] eqn:E; [|done].
    rewrite (mono _ _ _ _ f (S (S f)) d d a p x ltac:(lia) (le_n _) E).
    destruct x as [[v e]|].
    + rewrite (proj2 (plain_none j' None Hj') eq_refl). destruct (plain_some j (Some (VUndef, p)) Hj) as [y Hy]. rewrite Hy.
      destruct y as [y|]; [done|]. by apply (proj1 (plain_none _ _ Hj)) in Hy.
    + destruct (plain_some j' (Some (VUndef, p)) Hj') as [y Hy]. rewrite Hy. destruct y as [y|]; [|by apply (proj1 (plain_none _ _ Hj')) in Hy].
      by rewrite (proj2 (plain_none j None Hj) eq_refl).
Qed.
Lemma short_from f f' d i k k' p r : nshort k k' -> f <= f' -> body (std f d) f (Node i k') p = Some r -> body (std (S (S f')) d) (S (S f')) (Node i k) p = Some r.
Proof.
  intros H Hf. unfold std_body. cbn [n_kind].
  assert (HA : forall l x, std_alt (std f d) l p = Some x -> std_alt (std (S (S f')) d) l p = Some x) by (intros l x; apply alt_mono; lia).
  assert (HN : forall n x, std f d n p = Some x -> std (S (S f')) d n p = Some x) by (intros n x; apply mono; lia).
  destruct H as [l1 j m l2 Hj Hl|l1 a l2 l3|l1 j s l2 j' t l3 Hj Hj'|l1 a l2 Ha|j a Hj Hl|j a Hj Hl|j j' a Hj Hj'].
  - rewrite !std_alt_app. destruct (std_alt _ l1 p) as [[x|]|] eqn:E1 in |- *; [rewrite (HA _ _ E1); done| |done]. rewrite (HA _ _ E1). cbn [std_alt].
    rewrite std_plain; [|done..]. unfold std_body. cbn [n_kind]. destruct (std_alt (std f d) m p) as [x|] eqn:E; [|done].
    rewrite (alt_mono f (S f') d m p x ltac:(lia) E). rewrite plain_prepared by done. destruct x as [x|]; [done|]. apply HA.
  - rewrite !std_alt_app. destruct (std_alt (std f d) l1 p) as [[x|]|] eqn:E1; [rewrite (HA _ _ E1); done| |done]. rewrite (HA _ _ E1). cbn [std_alt].
    destruct (std f d a p) as [[x|]|] eqn:E; [rewrite (HN _ _ E); done| |done]. rewrite (HN _ _ E).
    rewrite !std_alt_app. destruct (std_alt (std f d) l2 p) as [[x|]|] eqn:E2; [rewrite (HA _ _ E2); done| |done]. rewrite (HA _ _ E2). cbn [std_alt]. rewrite (HN _ _ E). apply HA.
  - rewrite !std_alt_app. destruct (std_alt (std f d) l1 p) as [[x|]|] eqn:E1; [rewrite (HA _ _ E1); done| |done]. rewrite (HA _ _ E1). cbn [std_alt].
    destruct (std f d (Node j (KStr s)) p) as [[x|]|] eqn:E; [rewrite (HN _ _ E); done| |done]. rewrite (HN _ _ E).
    rewrite !std_alt_app. destruct (std_alt (std f d) l2 p) as [[x|]|] eqn:E2; [rewrite (HA _ _ E2); done| |done]. rewrite (HA _ _ E2). cbn [std_alt].
    destruct f as [|f]; [done|]. rewrite std_plain in E; [|done..]. rewrite std_plain; [|done..]. unfold std_body in E |- *. cbn [n_kind] in E |- *.
    apply (proj1 (plain_none _ _ Hj)) in E. rewrite (lit_longer _ _ t _ E). rewrite (proj2 (plain_none j' None Hj') eq_refl). apply HA.
  - rewrite !std_alt_app. destruct (std_alt (std f d) l1 p) as [[x|]|] eqn:E1; [rewrite (HA _ _ E1); done| |done]. rewrite (HA _ _ E1). cbn [std_alt].
    pose proof (never_some f d a p Ha) as Hn. destruct (std f d a p) as [[x|]|] eqn:E; [by rewrite (HN _ _ E)|done|done].
  - destruct (std f d a p) as [x|] eqn:E; [|done]. rewrite std_plain; [|done..]. unfold std_body. cbn [n_kind].
    rewrite (mono _ _ _ _ f (S f') d d a p x ltac:(lia) (le_n _) E). destruct x as [x|]; by rewrite plain_prepared.
  - destruct (std f d a p) as [x|] eqn:E; [|done]. rewrite std_plain; [|done..]. unfold std_body. cbn [n_kind].
    rewrite (mono _ _ _ _ f (S f') d d a p x ltac:(lia) (le_n _) E). destruct x as [[v e]|]; by rewrite plain_prepared.
  - destruct (std f d a p) as [x|] eqn:E; [|done]. rewrite std_plain; [|done..]. unfold std_body. cbn [n_kind].
    rewrite std_plain; [|done..]. unfold std_body. cbn [n_kind]. rewrite (mono _ _ _ _ f f' d d a p x ltac:(lia) (le_n _) E).
    destruct x as [[v e]|].
    + rewrite (proj2 (plain_none j' None Hj') eq_refl). destruct (plain_some j (Some (VUndef, p)) Hj) as [y Hy]. rewrite Hy.
      destruct y as [y|]; [done|]. by apply (proj1 (plain_none _ _ Hj)) in Hy.
    + destruct (plain_some j' (Some (VUndef, p)) Hj') as [y Hy]. rewrite Hy. destruct y as [y|]; [|by apply (proj1 (plain_none _ _ Hj')) in Hy].
      by rewrite (proj2 (plain_none j None Hj) eq_refl).
Qed.
End Laws.

(** ** Grammars with close rules *)
Section Close.
Variables rules rules' : string -> option node.
Variable rx : bytes -> bytes -> option (nat * nat).
Variable cbf : nat -> nat -> val -> option (option val).
Variable text : bytes.
Hypothesis Hrules : forall nm, match rules nm, rules' nm with Some n, Some n' => close n n' | None, None => True | _, _ => False end.

Lemma close_info n n' : close n n' -> n_info n = n_info n'.
Proof. by intros []. Qed.
Lemma close_undef n n' : close n n' -> n_kind n = KUndef <-> n_kind n' = KUndef.
Proof. intros [i k k' Hk Ht|i k k' Hk]; cbn [n_kind]; by destruct Hk. Qed.
Lemma std_unfold rs f d n p : n_kind n <> KUndef -> std rs rx cbf text (S f) d n p =
  match (if i_isrule (n_info n) then match d with O => None | S d => std_body rs rx text (std rs rx cbf text f d) f n p end
             else std_body rs rx text (std rs rx cbf text f d) f n p) with None => None | Some r => prepared cbf (n_info n) r end.
Proof. intros H. rewrite std_S. by destruct (n_kind n). Qed.
Lemma std_undef rs f d n p : n_kind n = KUndef -> std rs rx cbf text (S f) d n p = Some (Some (VUndef, p)).
Proof. intros H. rewrite std_S. by rewrite H. Qed.
Lemma undef_dec (k : kind node) : k = KUndef \/ k <> KUndef.
Proof. destruct k; (by left) || (by right). Qed.
Lemma step_up ru ru' f f' d n n' p r : n_info n = n_info n' -> (n_kind n = KUndef <-> n_kind n' = KUndef) ->
  (forall d r0, std_body ru rx text (std ru rx cbf text f d) f n p = Some r0 -> std_body ru' rx text (std ru' rx cbf text f' d) f' n' p = Some r0) ->
  std ru rx cbf text (S f) d n p = Some r -> std ru' rx cbf text (S f') d n' p = Some r.
Proof.
  intros Hi Hu Hb. destruct (undef_dec (n_kind n)) as [H|H].
  - rewrite !std_undef; [done|by apply Hu|done].
  - rewrite !std_unfold; [|by rewrite <- Hu|done]. rewrite <- Hi. destruct (i_isrule (n_info n)); [destruct d as [|d]; [done|]|];
      (destruct (std_body ru _ _ _ _ _ _) as [x|] eqn:E; [|done]; by rewrite (Hb _ _ E)).
Qed.

Lemma close_to f : forall d n n' p r, close n n' -> std rules rx cbf text f d n p = Some r -> std rules' rx cbf text f d n' p = Some r.
Proof.
  induction f as [|f IH]; intros d n n' p r Hc; [done|]. apply step_up; [by apply close_info|by apply close_undef|].
  assert (Href : forall d nm m p r, rules nm = Some m -> std rules rx cbf text f d m p = Some r -> exists m', rules' nm = Some m' /\ std rules' rx cbf text f d m' p = Some r).
  { intros d0 nm m p0 r0 Hm Hs. specialize (Hrules nm). rewrite Hm in Hrules. destruct (rules' nm) as [m'|]; [|done]. exists m'. split; [done|]. by eapply IH. }
  intros d0 r0. destruct Hc as [i k k' Hk Ht|i k k' Hk].
  - apply (body_sim _ _ _ _ _ _ close); [|..|lia| |exact Hk|exact Ht].
    + intros a a' p0 r1 Ha. by apply IH.
    + by intros a a' ->%close_info.
    + intros nm m p0 r1 _. apply Href.
  - intros Hb. apply (short_to rules' rx cbf text f d0 i k k' p r0 Hk). revert Hb.
    apply (body_sim _ _ _ _ _ _ eq); [|..|lia| |by apply same_kind_eq, Forall_true|by destruct k].
    + intros a a' p0 r1 <-. apply IH, close_refl.
    + by intros a a' <-.
    + intros nm m p0 r1 _. apply Href.
Qed.
Lemma close_from f : forall d n n' p r, close n n' -> std rules' rx cbf text f d n' p = Some r -> std rules rx cbf text (3 * f) d n p = Some r.
Proof.
  induction f as [|f IH]; intros d n n' p r Hc; [done|]. replace (3 * S f) with (S (S (S (3 * f)))) by lia.
  apply step_up; [by rewrite (close_info _ _ Hc)|by rewrite (close_undef _ _ Hc)|].
  assert (Href : forall f1 d nm m p r, 3 * f <= f1 -> rules' nm = Some m -> std rules' rx cbf text f d m p = Some r -> exists m', rules nm = Some m' /\ std rules rx cbf text f1 d m' p = Some r).
  { intros f1 d0 nm m p0 r0 Hf Hm Hs. specialize (Hrules nm). rewrite Hm in Hrules. destruct (rules nm) as [m'|]; [|done]. exists m'. split; [done|].
    eapply mono; [exact Hf|reflexivity|]. by eapply IH. }
  intros d0 r0. destruct Hc as [i k k' Hk Ht|i k k' Hk].
  - apply (body_sim _ _ _ _ _ _ (flip close)); [|..|lia| |by apply same_kind_flip|by destruct Hk].
    + intros a a' p0 r1 Ha He. eapply mono; [|reflexivity|by eapply IH]. lia.
    + intros a a' Ha. by rewrite (close_info _ _ Ha).
    + intros nm m p0 r1 _. apply Href. lia.
  - intros Hb. apply (short_from rules rx cbf text (3 * f) (3 * f) d0 i k k' p r0 Hk (le_n _)). revert Hb.
    apply (body_sim _ _ _ _ _ _ eq); [|..|lia| |by apply same_kind_eq, Forall_true|by destruct k'].
    + intros a a' p0 r1 <- He. eapply IH; [apply close_refl|done].
    + by intros a a' <-.
    + intros nm m p0 r1 _. by apply Href.
Qed.
End Close.

(** ** Written parsers *)
Lemma stand_plain used e : plain_info (n_info (stand used e)).
Proof. by destruct e. Qed.
Lemma stand_label used e : i_label (n_info (stand used e)) = w_label e.
Proof. by destruct e. Qed.
Lemma shorter_stand l l' : shorter l l' -> nshort (KChoice (map (stand false) l)) (KChoice (map (stand false) l')).
Proof.
  intros H. destruct H as [l1 m l2|l1 a l2 l3|l1 lb s l2 lb' t l3|l1 a l2 Ha Hl]; rewrite ?map_app; cbn [map]; rewrite ?map_app; cbn [map].
  - apply (ns_group _ _ (map (stand false) m)); [exact (stand_plain false (PExp "" (KChoice m)))|done].
  - apply ns_again.
  - apply ns_literal; done.
  - apply ns_behind. split; [apply stand_plain|]. destruct a as [lb k]. cbn [stand n_kind]. destruct k; try done. cbn [never_fails] in Ha. by apply Z.leb_le.
Qed.
Lemma close_list used l1 e e' l2 : close (stand used e) (stand used e') ->
  Forall2 close (map (stand used) (l1 ++ e :: l2)) (map (stand used) (l1 ++ e' :: l2)).
Proof.
  intros H. rewrite !map_app. apply Forall2_app; [|constructor; [done|]]; apply Forall_Forall2_diag, Forall_true; intros; apply close_refl.
Qed.
Lemma rewritten_stand e e' : rewritten e e' -> forall used, close (stand used e) (stand used e').
Proof.
  intros H. induction H as [lb k k' H|lb t l1 e e' l2 H IH|lb l1 e e' l2 H IH|lb e e' j mn mx H IH|lb v e e' mn mx H IH|lb e e' H IH|lb e e' H IH|lb e e' H IH]; intros used.
  - pose proof (rewritten_looks _ _ (rw_here lb k k' H)) as (_ & _ & _ & E4 & E5).
    cbn [stand]. rewrite E4, E5. apply cl_here. destruct H as [l l' Hl|a Ha|a|a]; cbn [uses_labels].
    + by apply shorter_stand.
    + cbn [stand uses_labels]. apply ns_opt; [done|]. cbn [i_label w_label]. by rewrite Ha.
    + cbn [stand uses_labels]. by apply ns_look.
    + cbn [stand uses_labels]. by apply ns_not.
  - pose proof (rewritten_looks _ _ (rw_seq lb t l1 e e' l2 H)) as (_ & _ & _ & E4 & E5).
    pose proof (rewritten_looks _ _ H) as (F1 & F2 & _).
    assert (w_type (l1 ++ e :: l2) = w_type (l1 ++ e' :: l2)) as Ht.
    { unfold w_type. rewrite !flat_map_app, !map_app. cbn [flat_map map]. by rewrite F1, F2. }
    cbn [stand]. rewrite E4, E5. apply cl_node; [|exact Ht]. constructor. by apply close_list.
  - pose proof (rewritten_looks _ _ (rw_choice lb l1 e e' l2 H)) as (_ & _ & _ & E4 & E5).
    cbn [stand]. rewrite E4, E5. apply cl_node; [|done]. constructor. by apply close_list.
  - pose proof (rewritten_looks _ _ (rw_many lb e e' j mn mx H)) as (_ & _ & _ & E4 & E5).
    cbn [stand]. rewrite E4, E5. apply cl_node; [|done]. constructor; [done|]. destruct j; constructor. apply close_refl.
  - pose proof (rewritten_looks _ _ (rw_join lb v e e' mn mx H)) as (_ & _ & _ & E4 & E5).
    cbn [stand]. rewrite E4, E5. apply cl_node; [|done]. constructor; [apply close_refl|]. by constructor.
  - pose proof (rewritten_looks _ _ (rw_exist lb e e' H)) as (_ & _ & _ & E4 & E5).
    cbn [stand]. rewrite E4, E5. apply cl_node; [|done]. by constructor.
  - pose proof (rewritten_looks _ _ (rw_look lb e e' H)) as (_ & _ & _ & E4 & E5).
    cbn [stand]. rewrite E4, E5. apply cl_node; [|done]. by constructor.
  - pose proof (rewritten_looks _ _ (rw_not lb e e' H)) as (_ & _ & _ & E4 & E5).
    cbn [stand]. rewrite E4, E5. apply cl_node; [|done]. by constructor.
Qed.
Lemma close_as_rule nm cb n n' : close n n' -> close (as_rule nm cb n) (as_rule nm cb n').
Proof. intros [i k k' Hk Ht|i k k' Hk]; cbn [as_rule]; [by apply cl_node|by apply cl_here]. Qed.

(** ** Lines *)
Section Lines.
Variable compile : bytes -> res pexp.
Definition said_close (d d' : decl) : Prop := d_name d = d_name d' /\
  match rule_said compile d, rule_said compile d' with Some n, Some n' => close n n' | None, None => True | _, _ => False end.
Lemma said_same d : said_close d d.
Proof. split; [done|]. destruct (rule_said compile d); [apply close_refl|done]. Qed.
Lemma said_all ds : Forall2 said_close ds ds.
Proof. apply Forall_Forall2_diag, Forall_true, said_same. Qed.
Lemma o_names_in l l' : rewritten_in compile l l' -> forall l1 l2 parent i, o_names parent (l1 ++ l :: l2) i = o_names parent (l1 ++ l' :: l2) i.
Proof.
  intros H. induction l1 as [|x l1 IH]; intros l2 parent i.
  - destruct H; done.
  - cbn [app o_names]. destruct x; rewrite ?IH; done.
Qed.
Lemma rewritten_decls l l' : rewritten_in compile l l' ->
  (forall nm o, Forall2 said_close (decls_of nm o l) (decls_of nm o l')) /\
  (forall l1 l2, Forall2 said_close (i_decls (l1 ++ l :: l2)) (i_decls (l1 ++ l' :: l2))) /\
  (forall parent l1 l2 i, Forall2 said_close (o_decls parent (l1 ++ l :: l2) i) (o_decls parent (l1 ++ l' :: l2) i)).
Proof.
  assert (Hi : forall l l', (forall l2, Forall2 said_close (i_decls (l :: l2)) (i_decls (l' :: l2))) ->
    forall l1 l2, Forall2 said_close (i_decls (l1 ++ l :: l2)) (i_decls (l1 ++ l' :: l2))).
  { intros l0 l0' H. induction l1 as [|x l1 IH]; intros l2; [apply H|]. cbn [app i_decls]. destruct x; try apply IH. apply Forall2_app; [apply said_all|apply IH]. }
  assert (Ho : forall parent l l', (forall l2 i, Forall2 said_close (o_decls parent (l :: l2) i) (o_decls parent (l' :: l2) i)) ->
    forall l1 l2 i, Forall2 said_close (o_decls parent (l1 ++ l :: l2) i) (o_decls parent (l1 ++ l' :: l2) i)).
  { intros parent l0 l0' H. induction l1 as [|x l1 IH]; intros l2 i; [apply H|]. cbn [app o_decls]. destruct x; try apply IH. apply Forall2_app; [apply said_all|apply IH]. }
  induction 1 as [s s' e e' H1 H2 H3|l1 l l' l2 H (I1 & I2 & I3)|nm' c c' o' H (I1 & I2 & I3)|nm' c c' o' H (I1 & I2 & I3)].
  - split; [|split; [apply Hi|intros parent; apply Ho]].
    + intros nm o. cbn [decls_of]. constructor; [|constructor]. split; [done|]. cbn [rule_said d_what]. rewrite H1, H2. by apply close_as_rule, rewritten_stand.
    + intros l2. apply said_all.
    + intros l2 i. apply said_all.
  - split; [|split; [apply Hi|intros parent; apply Ho]].
    + intros nm o. rewrite !decls_of_rank. apply Forall2_app; [apply Forall2_app; [apply I2|apply I3]|]. constructor; [|constructor].
      split; [done|]. cbn [rule_said d_what d_name d_opts]. rewrite (o_names_in l l' H). apply close_refl.
    + intros l3. apply said_all.
    + intros l3 i. apply said_all.
  - split; [|split; [apply Hi|intros parent; apply Ho]].
    + intros nm o. apply I1.
    + intros l2. apply said_all.
    + intros l2 i. cbn [o_decls]. apply Forall2_app; [apply I1|apply said_all].
  - split; [|split; [apply Hi|intros parent; apply Ho]].
    + intros nm o. constructor.
    + intros l2. cbn [i_decls]. apply Forall2_app; [apply I1|apply said_all].
    + intros l2 i. apply said_all.
Qed.
Lemma rewritten_rules ds ds' : Forall2 said_close ds ds' -> forall nm,
  match rules_said compile ds nm, rules_said compile ds' nm with Some n, Some n' => close n n' | None, None => True | _, _ => False end.
Proof.
  intros H nm. unfold rules_said. induction H as [|d d' ds ds' [Hn Hd] HF IH]; [done|]. cbn [List.find]. rewrite <- Hn. by destruct (String.eqb (d_name d) nm).
Qed.
Lemma rewritten_said name ls ls' rx cbf depth text r : rewritten_in compile (LA ls) (LA ls') ->
  said compile name ls rx cbf depth text r <-> said compile name ls' rx cbf depth text r.
Proof.
  intros H. inversion H as [|l1 l l' l2 Hl E1 E2| |]; subst.
  pose proof (rewritten_decls l l' Hl) as (_ & H2 & H3).
  assert (HF : Forall2 said_close (decls name (l1 ++ l :: l2)) (decls name (l1 ++ l' :: l2))).
  { rewrite !decls_eq. apply Forall2_app; [apply H2|apply H3]. }
  pose proof (rewritten_rules _ _ HF) as HR. unfold said. rewrite (o_names_in l l' Hl). split; intros [f Hf].
  - exists f. exact (close_to _ _ rx cbf text HR f _ _ _ _ _ (close_refl _) Hf).
  - exists (3 * f). exact (close_from _ _ rx cbf text HR f _ _ _ _ _ (close_refl _) Hf).
Qed.
Lemma rewritten_answers fuel fuel' name ls ls' b b' : rewritten_in compile (LA ls) (LA ls') ->
  build compile fuel name ls = ROk b -> build compile fuel' name ls' = ROk b' ->
  in_words compile name ls -> in_words compile name ls' ->
  forall o rx cb cbf text r, (forall re, rx_ok (rx re)) -> (forall c, cb_keeps (mk_env (gram_of b) o rx cb) cbf c) -> po_debug o = false ->
  said compile name ls rx cbf stack_limit text r \/ said compile name ls' rx cbf stack_limit text r ->
  exists fuel0, forall f, fuel0 <= f -> answer text r (fst (parse_string f (gram_of b) o rx cb text)) /\
    answer text r (fst (parse_string f (gram_of b') o rx cb text)).
Proof.
  intros Hr Hb Hb' Hw Hw' o rx cb cbf text r Hrx Hcb Hd Hs.
  pose proof (rewritten_said name ls ls' rx cbf stack_limit text r Hr) as HE.
  eapply both; try done; destruct Hs as [Hs|Hs]; try done; by apply HE.
Qed.
End Lines.
