(** The prepare methods and the lazy labels and captures: what they compute. *)
From Verif Require Import Base Helpers Native Engine EngSpec Build BuildSpec BuildWalk BuildLines BuildMono.

(** A walk started at a place of a walk stays within it. *)
Lemma walk_sub n : once n -> forall p ph v v', v ∈ posts (walk p ph n) ->
  v' ∈ posts (walk (v_path v) (v_ph v) (v_node v)) -> v' ∈ posts (walk p ph n).
Proof.
  induction n as [i rs k IHr IHk] using pn_ind2. intros Ho p ph v v' Hv Hv'. inversion Ho as [? ? ? Hnd Hfl Hor Hok]; subst.
  apply (walk_in _ _ _ _ _ _ Hnd) in Hv as [(m & q & Hq & Hv)|[(m & c' & Hc & Hv)| ->]]; [..|exact Hv'].
  - apply walk_in; [done|]. left. exists m, q. split; [done|]. rewrite Forall_lookup in IHr, Hor. by eapply IHr; eauto.
  - apply walk_in; [done|]. right. left. exists m, c'. split; [done|]. rewrite Forall_lookup in IHk, Hok. by eapply IHk; eauto.
Qed.

(** ** The written parser of a node *)
Fixpoint unplant (n : pn) : pexp := match n with Pn i _ k => PExp (pi_label i) (kmap unplant k) end.
Lemma kmap_kmap {A B C} (f : A -> B) (g : B -> C) k : kmap g (kmap f k) = kmap (fun x => g (f x)) k.
Proof. destruct k as [s|s|s|ty l|l|v [x|] mn mx|a|a|a|]; cbn [kmap]; rewrite ?map_map; done. Qed.
Lemma unplant_plant e : unplant (plant e) = e.
Proof.
  induction e as [lb k IH] using pexp_ind2. cbn [plant unplant]. f_equal. rewrite kmap_kmap. by apply kmap_id.
Qed.
Lemma capture0_eq n : capture0 n = w_capture0 (unplant n).
Proof.
  induction n as [i rs k _ IHk] using pn_ind2. destruct k as [s|s|s|ty l|l|v j mn mx|a|a|a|]; try done.
  cbn [kids] in IHk. apply Forall_cons in IHk as [H _]. cbn [capture0 unplant kmap w_capture0]. exact H.
Qed.
Lemma w_captures_other lb k : match k with KSeq _ _ | KExist _ | KChoice _ => False | _ => True end ->
  w_captures (PExp lb k) = if w_capture0 (PExp lb k) then 1 else 0.
Proof. by destruct k. Qed.
Lemma forallb_ext' {A} (f g : A -> bool) l : (forall x, f x = g x) -> forallb f l = forallb g l.
Proof. intros H. induction l as [|x l IH]; [done|]. cbn. by rewrite H, IH. Qed.
Lemma w_captures_choice lb l : w_captures (PExp lb (KChoice l)) = if forallb w_capture l then 1 else 0.
Proof.
  cbn [w_captures]. erewrite forallb_ext'; [reflexivity|]. intros [lb' k']. by destruct k'.
Qed.
Lemma w_capture_choice lb l : w_capture (PExp lb (KChoice l)) = forallb w_capture l.
Proof. unfold w_capture at 1. rewrite w_captures_choice. by destruct (forallb w_capture l). Qed.

(** ** The lazy functions *)
Section CapsGo.
Variable p : path.
Fixpoint caps_go (i : nat) (l : list pn) (acc : nat) (s : pst) {struct l} : nat * pst :=
  match l with
  | [] => (acc, s)
  | c :: l' => let r := get_caps (SKid i :: p) c s in caps_go (S i) l' (acc + fst r) (snd r)
  end.
End CapsGo.
Lemma get_caps_eq p i rs k s : get_caps p (Pn i rs k) s =
  match ps_caps s p with
  | Some m => (m, s)
  | None =>
      let r := match k with
               | KSeq _ l => caps_go p 0 l 0 s
               | _ => ((if cap_at s p (Pn i rs k) then 1 else 0), s)
               end in
      (fst r, set_ps_caps (snd r) p (fst r))
  end.
Proof. cbn [get_caps]. destruct (ps_caps s p); [done|]. by destruct k. Qed.

Section Prep.
Variable regs : list (string * visit).
Section LabelsGo.
Variables (p : path) (fuel : nat).
Fixpoint labels_go (i : nat) (l : list pn) (acc : list string) (s : pst) {struct l} : res (list string * pst) :=
  match l with
  | [] => ROk (acc, s)
  | c :: l' => let* r := get_labels regs fuel (SKid i :: p) c s in labels_go (S i) l' (acc ++ fst r) (snd r)
  end.
End LabelsGo.
Lemma get_labels_eq fuel p n s : get_labels regs (S fuel) p n s =
  match ps_labels s p with
  | Some l => ROk (l, s)
  | None =>
      let* r := match pn_kind n with
                | KSeq _ l => labels_go p fuel 0 l [] s
                | KRef nm =>
                    if String.eqb (label_at s p n) "@" then
                      match last_of regs nm with
                      | None => RPanic (PMsg "ref was not found in grammar.Rules")
                      | Some v => get_labels regs fuel (v_path v) (v_node v) s
                      end
                    else ROk (own_label s p n, s)
                | _ => ROk (own_label s p n, s)
                end in
      ROk (fst r, set_ps_labels (snd r) p (fst r))
  end.
Proof. cbn [get_labels]. destruct (ps_labels s p); [done|]. by destruct (pn_kind n). Qed.

(** Labels of nodes and captures are not touched by them. *)
Lemma get_caps_keeps n : forall p s, ps_label (snd (get_caps p n s)) = ps_label s /\ ps_cap (snd (get_caps p n s)) = ps_cap s /\
  ps_labels (snd (get_caps p n s)) = ps_labels s.
Proof.
  induction n as [i rs k _ IHk] using pn_ind2. intros p s. rewrite get_caps_eq. destruct (ps_caps s p); [done|]. cbn [fst snd set_ps_caps ps_label ps_cap ps_labels].
  destruct k as [x|x|x|ty l|l|v j mn mx|a|a|a|]; try done. cbn [kids] in IHk.
  assert (forall i l acc s, Forall (fun n => forall p s, ps_label (snd (get_caps p n s)) = ps_label s /\ ps_cap (snd (get_caps p n s)) = ps_cap s /\ ps_labels (snd (get_caps p n s)) = ps_labels s) l ->
    ps_label (snd (caps_go p i l acc s)) = ps_label s /\ ps_cap (snd (caps_go p i l acc s)) = ps_cap s /\ ps_labels (snd (caps_go p i l acc s)) = ps_labels s) as H; [|by apply H].
  clear. intros i l. revert i. induction l as [|c l IH]; intros i acc s HF; [done|]. apply Forall_cons in HF as [H1 HF]. cbn [caps_go].
  destruct (IH (S i) (acc + fst (get_caps (SKid i :: p) c s)) (snd (get_caps (SKid i :: p) c s)) HF) as (E1 & E2 & E3).
  destruct (H1 (SKid i :: p) s) as (F1 & F2 & F3). rewrite E1, E2, E3. done.
Qed.
Lemma get_labels_keeps fuel : forall p n s l s', get_labels regs fuel p n s = ROk (l, s') ->
  ps_label s' = ps_label s /\ ps_cap s' = ps_cap s /\ ps_caps s' = ps_caps s.
Proof.
  induction fuel as [|fuel IH]; intros p n s l s' H; [done|]. rewrite get_labels_eq in H.
  destruct (ps_labels s p); [by injection H as <- <-|].
  assert (forall l i acc s r, labels_go p fuel i l acc s = ROk r -> ps_label (snd r) = ps_label s /\ ps_cap (snd r) = ps_cap s /\ ps_caps (snd r) = ps_caps s) as Hgo.
  { clear -IH. induction l as [|c l IHl]; intros i acc s r H; cbn [labels_go] in H; [by injection H as <-|].
    destruct (get_labels regs fuel _ c s) as [[l1 s1]| |] eqn:Hc; [|done..]. cbn [rbind fst snd] in H.
    apply IHl in H as (E1 & E2 & E3). apply IH in Hc as (F1 & F2 & F3). rewrite E1, E2, E3. done. }
  destruct (pn_kind n) as [x|x|x|ty ll|ll|v j mn mx|a|a|a|]; cbn [rbind fst snd] in H;
    try (injection H as <- <-; done).
  - destruct (String.eqb _ _).
    + destruct (last_of regs x) as [v|]; [|done]. destruct (get_labels regs fuel _ _ s) as [[l1 s1]| |] eqn:Hc; [|done..].
      cbn [rbind fst snd] in H. injection H as <- <-. by apply IH in Hc.
    + cbn [rbind fst snd] in H. injection H as <- <-. done.
  - destruct (labels_go p fuel 0 ll [] s) as [r| |] eqn:Hg; [|done..]. cbn [rbind] in H. injection H as <- <-. by apply Hgo in Hg.
Qed.

(** ** Labels change only from nothing to [@], at [e?] *)
Variable r : pn.
Hypothesis Hr : once r.
Notation W := (posts (walk [] false r)).

Definition labels_kept (s : pst) : Prop := forall v x, v ∈ W -> ps_label s (v_path v) = Some x ->
  x = "@"%string /\ pi_label (pn_info (v_node v)) = EmptyString /\ exists a, pn_kind (v_node v) = KExist a.
Lemma W_fun v v' : v ∈ W -> v' ∈ W -> v_path v = v_path v' -> v = v'.
Proof. by apply walk_fun. Qed.
Lemma prepare_label fuel v s s' : v ∈ W -> labels_kept s -> prepare regs fuel v s = ROk s' -> labels_kept s'.
Proof.
  intros Hv Hk H. unfold prepare in H. destruct (pn_kind (v_node v)) as [x|x|x|ty l|l|e j mn mx|it|a|a|] eqn:Hkind; try (by injection H as <-).
  set (lb := label_at s (v_path v) (v_node v)) in *.
  assert (exists r0, (if (String.eqb lb "" || String.eqb lb "@" || String.eqb lb "&")%bool
     then get_labels regs fuel (SKid 0 :: v_path v) it s else ROk ([lb], s)) = ROk r0 /\ ps_label (snd r0) = ps_label s) as (r0 & Hr0 & Hl0).
  { destruct (_ || _)%bool; [|by eexists]. destruct (get_labels regs fuel _ it s) as [[l s0]| |] eqn:Hg; [|done..].
    eexists. split; [done|]. apply get_labels_keeps in Hg as (Hkk & _); exact Hkk. }
  rewrite Hr0 in H. cbn [rbind] in H. injection H as <-.
  match goal with |- labels_kept (set_ps_cap (set_ps_caps (snd (get_caps ?p it ?s2)) _ _) _ _) => set (s2' := s2) end.
  assert (Hs2 : labels_kept s2').
  { subst s2'. set (s1 := set_ps_labels _ _ _). assert (ps_label s1 = ps_label s) as H1 by exact Hl0.
    assert (labels_kept s1) as Hk1 by (unfold labels_kept; by rewrite H1).
    destruct (fst r0); [done|]. destruct (String.eqb_spec lb "") as [Hlb|_]; [|done].
    intros v' x Hv' Hx. cbn [set_ps_label ps_label] in Hx. unfold upd in Hx. destruct (decide (v_path v' = v_path v)) as [He|_]; [|by apply Hk1].
    injection Hx as <-. assert (v' = v) as -> by (by apply W_fun). split; [done|]. split; [|by exists it].
    subst lb. unfold label_at in Hlb. destruct (ps_label s (v_path v)) as [y|] eqn:Hy; [|done]. cbn in Hlb. subst y.
    by apply Hk in Hy as [? _]. }
  intros v' x Hv' Hx. cbn [set_ps_cap set_ps_caps ps_label] in Hx.
  destruct (get_caps_keeps it (SKid 0 :: v_path v) s2') as [He _]. rewrite He in Hx. by apply (Hs2 v').
Qed.
Lemma prepare_all_app fuel a b s : prepare_all regs fuel (a ++ b) s = let* s' := prepare_all regs fuel a s in prepare_all regs fuel b s'.
Proof.
  revert s. induction a as [|[v|v] a IH]; intros s; [done|apply IH|]. cbn [app prepare_all].
  destruct (prepare regs fuel v s) as [s'| |]; [|done..]. cbn [rbind]. apply IH.
Qed.
Lemma prepare_all_label fuel l : forall s s', (forall v, v ∈ posts l -> v ∈ W) -> labels_kept s -> prepare_all regs fuel l s = ROk s' -> labels_kept s'.
Proof.
  induction l as [|[v|v] l IH]; intros s s' Hl Hk H; cbn [prepare_all] in H.
  - by injection H as <-.
  - by eapply IH.
  - destruct (prepare regs fuel v s) as [s1| |] eqn:Hp; [|done..]. cbn [rbind] in H. eapply IH; [..|exact H].
    + intros v' Hv'. apply Hl. by apply elem_of_list_further.
    + eapply prepare_label; [|exact Hk|exact Hp]. apply Hl. apply elem_of_list_here.
Qed.

(** ** Captures, labels and types, when no reference is labelled [@] *)
Hypothesis Hplain : forall v, v ∈ W -> plain_at (unplant (v_node v)) = true.
Record inv (s : pst) : Prop := {
  i_kept : labels_kept s;
  i_lab : forall v l, v ∈ W -> ps_labels s (v_path v) = Some l -> l = w_labels (unplant (v_node v));
  i_caps : forall v m, v ∈ W -> ps_caps s (v_path v) = Some m -> m = w_captures (unplant (v_node v));
  i_cap : forall v b, v ∈ W -> ps_cap s (v_path v) = Some b -> b = w_capture (unplant (v_node v)) /\
    match pn_kind (v_node v) with KChoice _ | KExist _ => True | _ => False end;
  i_mark : forall v x, v ∈ W -> ps_label s (v_path v) = Some x -> w_labels (unplant (v_node v)) <> [] }.
Definition done_ (s : pst) (v : visit) : Prop :=
  match pn_kind (v_node v) with
  | KChoice _ => ps_cap s (v_path v) <> None
  | KExist _ => ps_cap s (v_path v) <> None /\ ps_labels s (v_path v) <> None /\ ps_caps s (v_path v) <> None /\
      (pi_label (pn_info (v_node v)) = EmptyString -> w_labels (unplant (v_node v)) <> [] -> ps_label s (v_path v) <> None)
  | _ => True
  end.
Definition le_ (s s' : pst) : Prop := forall p,
  (ps_cap s p <> None -> ps_cap s' p <> None) /\ (ps_labels s p <> None -> ps_labels s' p <> None) /\
  (ps_caps s p <> None -> ps_caps s' p <> None) /\ (ps_label s p <> None -> ps_label s' p <> None).
Lemma le_refl s : le_ s s.
Proof. done. Qed.
Lemma le_trans s1 s2 s3 : le_ s1 s2 -> le_ s2 s3 -> le_ s1 s3.
Proof. intros H1 H2 p. specialize (H1 p). specialize (H2 p). tauto. Qed.
Lemma done_le s s' v : le_ s s' -> done_ s v -> done_ s' v.
Proof. intros H. specialize (H (v_path v)). unfold done_. destruct (pn_kind (v_node v)); tauto. Qed.

Lemma upd_some {A} (f : path -> option A) p x q : f q <> None -> upd f p x q <> None.
Proof. unfold upd. by destruct (decide (q = p)). Qed.
Lemma upd_same {A} (f : path -> option A) p x : upd f p x p = Some x.
Proof. unfold upd. by rewrite decide_True. Qed.
Lemma le_labels s p l : le_ s (set_ps_labels s p l).
Proof. intros q. cbn. pose proof (upd_some (ps_labels s) p l q). tauto. Qed.
Lemma le_caps s p m : le_ s (set_ps_caps s p m).
Proof. intros q. cbn. pose proof (upd_some (ps_caps s) p m q). tauto. Qed.
Lemma le_cap s p m : le_ s (set_ps_cap s p m).
Proof. intros q. cbn. pose proof (upd_some (ps_cap s) p m q). tauto. Qed.
Lemma le_label s p x : le_ s (set_ps_label s p x).
Proof. intros q. cbn. pose proof (upd_some (ps_label s) p x q). tauto. Qed.
Lemma inv_labels s v l : v ∈ W -> inv s -> l = w_labels (unplant (v_node v)) -> inv (set_ps_labels s (v_path v) l).
Proof.
  intros Hv [H1 H2 H3 H4 H5] Hl. constructor; [exact H1| |exact H3|exact H4|exact H5]. intros v' l' Hv' He. cbn in He. unfold upd in He.
  destruct (decide _) as [Hp|_]; [|by apply H2]. injection He as <-. by rewrite (W_fun v' v).
Qed.
Lemma inv_caps s v m : v ∈ W -> inv s -> m = w_captures (unplant (v_node v)) -> inv (set_ps_caps s (v_path v) m).
Proof.
  intros Hv [H1 H2 H3 H4 H5] Hl. constructor; [exact H1|exact H2| |exact H4|exact H5]. intros v' l' Hv' He. cbn in He. unfold upd in He.
  destruct (decide _) as [Hp|_]; [|by apply H3]. injection He as <-. by rewrite (W_fun v' v).
Qed.
Lemma inv_cap s v b : v ∈ W -> inv s -> b = w_capture (unplant (v_node v)) ->
  match pn_kind (v_node v) with KChoice _ | KExist _ => True | _ => False end -> inv (set_ps_cap s (v_path v) b).
Proof.
  intros Hv [H1 H2 H3 H4 H5] Hl Hk. constructor; [exact H1|exact H2|exact H3| |exact H5]. intros v' l' Hv' He. cbn in He. unfold upd in He.
  destruct (decide _) as [Hp|_]; [|by apply H4]. injection He as <-. by rewrite (W_fun v' v).
Qed.

Lemma unplant_kind n : unplant n = PExp (pi_label (pn_info n)) (kmap unplant (pn_kind n)).
Proof. by destruct n. Qed.
Lemma cap_at_ok s v : inv s -> v ∈ W -> done_ s v -> cap_at s (v_path v) (v_node v) = w_capture (unplant (v_node v)).
Proof.
  intros Hi Hv Hd. unfold cap_at. destruct (ps_cap s (v_path v)) as [b|] eqn:Hb; [by apply (i_cap _ Hi) in Hb as [-> _]|].
  cbn [default]. unfold done_ in Hd. rewrite Hb in Hd. rewrite capture0_eq, unplant_kind.
  destruct (pn_kind (v_node v)); cbn [kmap]; try done; try tauto; unfold w_capture; rewrite ?w_captures_other by done.
  - by destruct (w_capture0 _).
  - by destruct (w_capture0 _).
Qed.

Lemma kid_in v j c : v ∈ W -> kids (pn_kind (v_node v)) !! j = Some c -> Visit (SKid j :: v_path v) (handles (v_ph v) (v_node v)) c ∈ W.
Proof. apply walk_kid. exact Hr. Qed.
Definition all_done (s : pst) (v : visit) : Prop := forall v', v' ∈ posts (walk (v_path v) (v_ph v) (v_node v)) -> done_ s v'.
Lemma all_done_le s s' v : le_ s s' -> all_done s v -> all_done s' v.
Proof. intros Hl H v' Hv'. eapply done_le; [exact Hl|]. by apply H. Qed.
Lemma all_done_kid s v j c : v ∈ W -> all_done s v -> kids (pn_kind (v_node v)) !! j = Some c ->
  all_done s (Visit (SKid j :: v_path v) (handles (v_ph v) (v_node v)) c).
Proof.
  intros Hv Hd Hj v' Hv'. apply Hd. pose proof (walk_once _ Hr _ _ _ Hv) as Ho. destruct v as [p ph [i rs k]]. cbn [v_path v_ph v_node pn_kind] in *.
  inversion Ho; subst. apply walk_in; [done|]. right. left. by exists j, c.
Qed.
Lemma all_done_self s v : v ∈ W -> all_done s v -> done_ s v.
Proof. intros Hv Hd. apply Hd. destruct v as [p ph n]. apply walk_self. by apply (walk_once _ Hr _ _ _ Hv). Qed.

Lemma get_caps_ok n : forall v s, v_node v = n -> v ∈ W -> inv s -> all_done s v -> exists s',
  get_caps (v_path v) n s = (w_captures (unplant n), s') /\ inv s' /\ le_ s s'.
Proof.
  induction n as [i rs k _ IHk] using pn_ind2. intros v s Hn Hv Hi Hd. rewrite get_caps_eq.
  destruct (ps_caps s (v_path v)) as [m|] eqn:Hm.
  { exists s. apply (i_caps _ Hi) in Hm as ->; [|done]. by rewrite Hn. }
  assert (Hother : match k with KSeq _ _ | KExist _ => False | _ => True end -> exists s',
    ((if cap_at s (v_path v) (Pn i rs k) then 1 else 0), set_ps_caps s (v_path v) (if cap_at s (v_path v) (Pn i rs k) then 1 else 0)) =
    (w_captures (unplant (Pn i rs k)), s') /\ inv s' /\ le_ s s').
  { intros Hk. rewrite <- Hn. rewrite cap_at_ok by (try done; by apply all_done_self).
    assert ((if w_capture (unplant (v_node v)) then 1 else 0) = w_captures (unplant (v_node v))) as ->.
    { rewrite Hn. cbn [unplant]. destruct k; try done; cbn [kmap] in *.
      - cbn. by destruct (String.prefix _ _).
      - rewrite w_capture_choice, w_captures_choice. done.
      - unfold w_capture. rewrite w_captures_other by done. by destruct (w_capture0 _). }
    eexists. split; [done|]. split; [by apply inv_caps|apply le_caps]. }
  destruct k as [x|x|x|ty l|l|e j mn mx|a|a|a|]; try (apply Hother; exact I).
  - cbn [kids] in IHk. cbn zeta.
    assert (forall l' j acc s0, (forall m c, l' !! m = Some c -> l !! (j + m) = Some c) -> inv s0 -> le_ s s0 ->
      Forall (fun n => forall v s, v_node v = n -> v ∈ W -> inv s -> all_done s v -> exists s', get_caps (v_path v) n s = (w_captures (unplant n), s') /\ inv s' /\ le_ s s') l' ->
      exists s', caps_go (v_path v) j l' acc s0 = (acc + list_sum (map w_captures (map unplant l')), s') /\ inv s' /\ le_ s s') as Hgo.
    { induction l' as [|c l' IHl]; intros j acc s0 Hsub Hi0 Hle HF; cbn [caps_go map].
      - exists s0. change (list_sum []) with 0. rewrite Nat.add_0_r. done.
      - apply Forall_cons in HF as [H1 HF]. assert (Hj : kids (pn_kind (v_node v)) !! j = Some c).
        { rewrite Hn. cbn [pn_kind kids]. rewrite <- (Nat.add_0_r j). by apply (Hsub 0). }
        destruct (H1 (Visit (SKid j :: v_path v) (handles (v_ph v) (v_node v)) c) s0 eq_refl (kid_in _ _ _ Hv Hj) Hi0) as (s1 & Hg & Hi1 & Hl1); [by eapply all_done_kid; [done|eapply all_done_le|]|].
        cbn [v_path] in Hg. rewrite Hg. cbn [fst snd].
        destruct (IHl (S j) (acc + w_captures (unplant c)) s1) as (s2 & Hg2 & Hi2 & Hl2); [|done|by eapply le_trans|done|].
        + intros m c' Hc'. rewrite Nat.add_succ_l, <- Nat.add_succ_r. by apply (Hsub (S m)).
        + exists s2. rewrite Hg2. split; [|done]. f_equal. change (list_sum (?x :: ?y)) with (x + list_sum y). lia. }
    destruct (Hgo l 0 0 s) as (s' & Hg & Hi' & Hl'); [done|done|apply le_refl|done|].
    rewrite Hg. cbn [fst snd]. eexists. split; [reflexivity|].
    split; [|eapply le_trans; [exact Hl'|apply le_caps]]. apply inv_caps; [done|done|]. rewrite Hn. done.
  - exfalso. apply all_done_self in Hd; [|done]. unfold done_ in Hd. rewrite Hn in Hd. cbn [pn_kind] in Hd. naive_solver.
Qed.

Lemma get_labels_ok fuel : forall v s l s', v ∈ W -> inv s -> all_done s v ->
  get_labels regs fuel (v_path v) (v_node v) s = ROk (l, s') ->
  l = w_labels (unplant (v_node v)) /\ inv s' /\ le_ s s'.
Proof.
  induction fuel as [|fuel IH]; intros v s l s' Hv Hi Hd H; [done|]. rewrite get_labels_eq in H.
  destruct (ps_labels s (v_path v)) as [l0|] eqn:Hl0.
  { injection H as <- <-. apply (i_lab _ Hi) in Hl0 as ->; [|done]. by split. }
  assert (Hown : match pn_kind (v_node v) with KSeq _ _ | KExist _ => False | _ => True end ->
    own_label s (v_path v) (v_node v) = w_labels (unplant (v_node v))).
  { intros Hk. unfold own_label, label_at. destruct (ps_label s (v_path v)) as [x|] eqn:Hx.
    - apply (i_kept _ Hi) in Hx as (_ & _ & a & Ha); [|done]. by rewrite Ha in Hk.
    - cbn [default]. rewrite unplant_kind. destruct (pn_kind (v_node v)); done. }
  assert (Hend : forall l, ROk (l, set_ps_labels s (v_path v) l) = ROk (l, s') -> l = w_labels (unplant (v_node v)) ->
    inv s' /\ le_ s s').
  { intros l1 [= <-] Hl1. split; [by apply inv_labels|apply le_labels]. }
  destruct (pn_kind (v_node v)) as [x|x|x|ty ll|ll|e j mn mx|a|a|a|] eqn:Hk; cbn [rbind fst snd] in H;
    try (assert (l = own_label s (v_path v) (v_node v)) as Hll by congruence; rewrite <- Hll in H;
         rewrite Hown in Hll by done; split; [done|]; by apply (Hend l)).
  - assert (String.eqb (label_at s (v_path v) (v_node v)) "@" = false) as Hne.
    { unfold label_at. destruct (ps_label s (v_path v)) as [y|] eqn:Hy.
      - apply (i_kept _ Hi) in Hy as (_ & _ & a & Ha); [|done]. congruence.
      - cbn [default]. specialize (Hplain v Hv). rewrite unplant_kind, Hk in Hplain. cbn in Hplain. by apply negb_true_iff in Hplain. }
    rewrite Hne in H. cbn [rbind fst snd] in H.
    assert (l = own_label s (v_path v) (v_node v)) as Hll by congruence; rewrite <- Hll in H;
         rewrite Hown in Hll by done; split; [done|]; by apply (Hend l).
  - assert (forall l' j acc s0 rr, (forall m c, l' !! m = Some c -> ll !! (j + m) = Some c) -> inv s0 -> le_ s s0 ->
      labels_go (v_path v) fuel j l' acc s0 = ROk rr ->
      fst rr = acc ++ flat_map w_labels (map unplant l') /\ inv (snd rr) /\ le_ s (snd rr)) as Hgo.
    { induction l' as [|c l' IHl]; intros j acc s0 rr Hsub Hi0 Hle Hg; cbn [labels_go map flat_map] in Hg |- *.
      - injection Hg as <-. rewrite app_nil_r. done.
      - assert (Hj : kids (pn_kind (v_node v)) !! j = Some c).
        { rewrite Hk. cbn [kids]. rewrite <- (Nat.add_0_r j). by apply (Hsub 0). }
        destruct (get_labels regs fuel (SKid j :: v_path v) c s0) as [[l1 s1]| |] eqn:H1; [|done..]. cbn [rbind fst snd] in Hg.
        edestruct IH as (E1 & E2 & E3); [exact (kid_in _ _ _ Hv Hj)|exact Hi0| |cbn [v_path v_node]; exact H1|];
          [by eapply all_done_kid; [done|eapply all_done_le|]|].
        cbn [v_node] in E1. apply IHl in Hg as (F1 & F2 & F3); [|..|done|by eapply le_trans].
        + rewrite F1, E1, <- app_assoc. done.
        + intros m c' Hc'. rewrite Nat.add_succ_l, <- Nat.add_succ_r. by apply (Hsub (S m)). }
    destruct (labels_go (v_path v) fuel 0 ll [] s) as [rr| |] eqn:Hg; [|done..]. cbn [rbind] in H.
    apply Hgo in Hg as (F1 & F2 & F3); [|done|done|apply le_refl].
    injection H as <- <-. assert (fst rr = w_labels (unplant (v_node v))) as E by (rewrite F1, unplant_kind, Hk; done).
    split; [done|]. split; [by apply inv_labels|]. eapply le_trans; [exact F3|apply le_labels].
  - exfalso. apply all_done_self in Hd; [|done]. unfold done_ in Hd. rewrite Hk in Hd. naive_solver.
Qed.

(** ** One prepare, and all of them *)
Lemma prepare_ok fuel v s s' : v ∈ W -> inv s -> 
  (forall j c, kids (pn_kind (v_node v)) !! j = Some c -> all_done s (Visit (SKid j :: v_path v) (handles (v_ph v) (v_node v)) c)) ->
  prepare regs fuel v s = ROk s' -> inv s' /\ le_ s s' /\ done_ s' v.
Proof.
  intros Hv Hi Hd H. pose proof (prepare_label fuel v s s' Hv (i_kept _ Hi) H) as Hkept.
  unfold prepare in H. unfold done_. destruct (pn_kind (v_node v)) as [x|x|x|ty l|l|e j mn mx|it|a|a|] eqn:Hk;
    try (injection H as <-; split; [done|]; split; [apply le_refl|done]).
  - injection H as <-. split; [|split; [apply le_cap|cbn; by rewrite upd_same]]. apply inv_cap; [done|done| |by rewrite Hk].
    rewrite unplant_kind, Hk. cbn [kmap]. rewrite w_capture_choice.
    assert (forall l' j, (forall m c, l' !! m = Some c -> l !! (j + m) = Some c) ->
      (fix go (i : nat) (l0 : list pn) {struct l0} : bool := match l0 with [] => true | c :: l'0 => (cap_at s (SKid i :: v_path v) c && go (S i) l'0)%bool end) j l' =
      forallb w_capture (map unplant l')) as Hgo; [|by apply Hgo].
    induction l' as [|c l' IHl]; intros j Hsub; [done|]. cbn [map forallb]. rewrite IHl.
    2: { intros m c' Hc'. rewrite Nat.add_succ_l, <- Nat.add_succ_r. by apply (Hsub (S m)). }
    f_equal. assert (Hj : kids (pn_kind (v_node v)) !! j = Some c).
    { rewrite Hk. cbn [kids]. rewrite <- (Nat.add_0_r j). by apply (Hsub 0). }
    pose proof (kid_in _ _ _ Hv Hj) as Hkid.
    apply (cap_at_ok s (Visit (SKid j :: v_path v) (handles (v_ph v) (v_node v)) c)); [done|done|].
    apply all_done_self; [done|]. apply Hd. by rewrite Hk in Hj.
  - assert (Hj : kids (pn_kind (v_node v)) !! 0 = Some it) by (by rewrite Hk).
    pose proof (kid_in _ _ _ Hv Hj) as Hkid. specialize (Hd 0 it eq_refl).
    set (lb := label_at s (v_path v) (v_node v)) in *.
    set (lb0 := pi_label (pn_info (v_node v))).
    assert ((String.eqb lb "" || String.eqb lb "@" || String.eqb lb "&")%bool = (String.eqb lb0 "" || String.eqb lb0 "@" || String.eqb lb0 "&")%bool /\
      (lb = lb0 \/ (lb0 = EmptyString /\ lb = "@"%string))) as [Hcond Hlbs].
    { subst lb lb0. unfold label_at. destruct (ps_label s (v_path v)) as [x|] eqn:Hx; [|split; [done|by left]].
      apply (i_kept _ Hi) in Hx as (-> & -> & _); [|done]. split; [done|by right]. }
    assert (exists r0, (if (String.eqb lb "" || String.eqb lb "@" || String.eqb lb "&")%bool
       then get_labels regs fuel (SKid 0 :: v_path v) it s else ROk ([lb], s)) = ROk r0 /\
       fst r0 = w_labels (unplant (v_node v)) /\ inv (snd r0) /\ le_ s (snd r0)) as (r0 & Hr0 & Hl0 & Hi0 & Hle0).
    { rewrite unplant_kind, Hk. cbn [kmap w_labels]. fold lb0. rewrite Hcond in *.
      destruct (_ || _)%bool eqn:Hb.
      - destruct (get_labels regs fuel _ it s) as [[l s0]| |] eqn:Hg; [|done..]. exists (l, s0). split; [done|].
        eapply (get_labels_ok fuel (Visit (SKid 0 :: v_path v) (handles (v_ph v) (v_node v)) it)) in Hg as (E1 & E2 & E3); [|done..]. done.
      - eexists. split; [done|]. apply orb_false_iff in Hb as [Hb _]. apply orb_false_iff in Hb as [Hb _]. cbn [fst snd].
        destruct Hlbs as [->|[He _]]; [|by rewrite He in Hb]. rewrite Hb. done. }
    rewrite Hr0 in H. cbn [rbind] in H. injection H as H.
    set (s1 := set_ps_labels (snd r0) (v_path v) (fst r0)) in *.
    assert (Hi1 : inv s1) by (by apply inv_labels).
    set (s2 := match fst r0 with _ :: _ => if String.eqb lb "" then set_ps_label s1 (v_path v) "@" else s1 | [] => s1 end) in *.
    assert (inv s2 /\ le_ s1 s2 /\ ps_labels s2 = ps_labels s1) as (Hi2 & Hle2 & Hlab2).
    { subst s2. destruct (fst r0); [split; [done|split; [apply le_refl|done]]|].
      destruct (String.eqb_spec lb "") as [Hlb|_]; [|split; [done|split; [apply le_refl|done]]].
      split; [|split; [apply le_label|done]]. destruct Hi1 as [J1 J2 J3 J4 J5]. constructor; [|exact J2|exact J3|exact J4|].
      2: { intros v' x Hv' Hx. cbn [set_ps_label ps_label] in Hx. unfold upd in Hx. destruct (decide _) as [He|_]; [|by eapply J5].
        rewrite (W_fun v' v) by done. by rewrite <- Hl0. }
      intros v' x Hv' Hx. cbn [set_ps_label ps_label] in Hx. unfold upd in Hx. destruct (decide _) as [He|_]; [|by apply J1].
      injection Hx as <-. assert (v' = v) as -> by (by apply W_fun). split; [done|]. split; [|by exists it].
      destruct Hlbs as [E|[E _]]; [|done]. subst lb0. congruence. }
    assert (Hle02 : le_ s s2). { eapply le_trans; [exact Hle0|]. eapply le_trans; [apply le_labels|]. exact Hle2. }
    edestruct (get_caps_ok it (Visit (SKid 0 :: v_path v) (handles (v_ph v) (v_node v)) it) s2) as (s3 & Hg3 & Hi3 & Hle3); [done|done|done|by eapply all_done_le|].
    cbn [v_path] in Hg3. rewrite Hg3 in H. cbn [fst snd] in H. subst s'.
    assert (Hcaps : w_captures (unplant it) = w_captures (unplant (v_node v))) by (rewrite (unplant_kind (v_node v)), Hk; done).
    split; [|split].
    + apply inv_cap; [done|apply inv_caps; [done|done|done]| |by rewrite Hk]. rewrite Hcaps. rewrite (unplant_kind (v_node v)), Hk. done.
    + eapply le_trans; [exact Hle02|]. eapply le_trans; [exact Hle3|]. eapply le_trans; [apply le_caps|apply le_cap].
    + cbn [set_ps_cap set_ps_caps ps_cap ps_labels ps_caps]. rewrite !upd_same. split; [done|]. split; [|split; [done|]].
      * apply Hle3. rewrite Hlab2. subst s1. cbn. by rewrite upd_same.
      * intros He Hn. cbn [set_ps_label ps_label]. apply Hle3. destruct Hlbs as [Hlb|[_ Hlb]].
        -- subst s2. rewrite Hl0. rewrite Hlb, He. destruct (w_labels (unplant (v_node v))); [done|]. cbn [String.eqb set_ps_label ps_label]. by rewrite upd_same.
        -- apply Hle02. intros Hnone. subst lb. unfold label_at in Hlb. rewrite Hnone in Hlb. cbn [default] in Hlb. fold lb0 in Hlb. by rewrite He in Hlb.
Qed.

Lemma prepare_walk fuel n : forall v s s', v_node v = n -> v ∈ W -> inv s ->
  prepare_all regs fuel (walk (v_path v) (v_ph v) n) s = ROk s' -> inv s' /\ le_ s s' /\ all_done s' v.
Proof.
  induction n as [i rs k IHr IHk] using pn_ind2. intros v s s' Hn Hv Hi H.
  pose proof (walk_once _ Hr _ _ _ Hv) as Ho. rewrite Hn in Ho. inversion Ho as [? ? ? Hnd Hfl Hor Hok]; subst.
  rewrite walk_eq in H by done. cbn [prepare_all] in H. rewrite !prepare_all_app in H.
  assert (Hhh : handles (v_ph v) (Pn i rs k) = handles (v_ph v) (v_node v)) by (by rewrite Hn).
  set (h := handles (v_ph v) (Pn i rs k)) in *.
  destruct (prepare_all regs fuel (wrules (v_path v) h 0 rs) s) as [s1| |] eqn:H1; [|done..]. cbn [rbind] in H. rewrite prepare_all_app in H.
  destruct (prepare_all regs fuel (wkids (v_path v) h 0 (kids k)) s1) as [s2| |] eqn:H2; [|done..]. cbn [rbind] in H.
  cbn [prepare_all] in H. destruct (prepare regs fuel (Visit (v_path v) (v_ph v) (Pn i rs k)) s2) as [s3| |] eqn:H3; [|done..]. cbn [rbind] in H. injection H as <-.
  assert (Hself : Visit (v_path v) (v_ph v) (Pn i rs k) = v) by (destruct v; cbn in *; by subst). rewrite Hself in H3.
  assert (Hrules : inv s1 /\ le_ s s1 /\ forall j q, rs !! j = Some q -> all_done s1 (Visit (SRule j :: v_path v) h (snd q))).
  { assert (forall l j s0 s1, (forall m q, l !! m = Some q -> rs !! (j + m) = Some q) -> inv s0 -> le_ s s0 ->
      prepare_all regs fuel (wrules (v_path v) h j l) s0 = ROk s1 -> inv s1 /\ le_ s0 s1 /\
      forall m q, l !! m = Some q -> all_done s1 (Visit (SRule (j + m) :: v_path v) h (snd q))) as Hgo.
    { clear H1 H2 H3 s1 s2 s3. induction l as [|q l IHl]; intros j s0 s1 Hsub Hi0 Hle0 Hp; cbn [wrules] in Hp.
      - injection Hp as <-. split; [done|]. split; [apply le_refl|]. intros m q. by rewrite lookup_nil.
      - rewrite prepare_all_app in Hp. destruct (prepare_all regs fuel (walk (SRule j :: v_path v) h (snd q)) s0) as [s01| |] eqn:Hp1; [|done..]. cbn [rbind] in Hp.
        assert (Hj : rs !! j = Some q) by (rewrite <- (Nat.add_0_r j); by apply (Hsub 0)).
        assert (HinW : Visit (SRule j :: v_path v) h (snd q) ∈ W).
        { eapply (walk_sub r Hr _ _ v); [done|]. rewrite Hn. apply walk_in; [done|]. left. exists j, q. split; [done|].
          apply walk_self. rewrite Forall_lookup in Hor. by eapply Hor. }
        rewrite Forall_lookup in IHr. edestruct (IHr j q Hj (Visit (SRule j :: v_path v) h (snd q))) as (E1 & E2 & E3); [done|done|exact Hi0|exact Hp1|].
        apply IHl in Hp as (F1 & F2 & F3); [|..|done|by eapply le_trans].
        + split; [done|]. split; [by eapply le_trans|]. intros [|m] q' Hq'; cbn in Hq'.
          * injection Hq' as <-. rewrite Nat.add_0_r. by eapply all_done_le.
          * rewrite Nat.add_succ_r. by apply (F3 m).
        + intros m c' Hc'. rewrite Nat.add_succ_l, <- Nat.add_succ_r. by apply (Hsub (S m)). }
    apply (Hgo rs 0) in H1; [done|done|done|apply le_refl]. }
  destruct Hrules as (Hi1 & Hle1 & Hdone1).
  assert (Hkids : inv s2 /\ le_ s1 s2 /\ forall j c, kids k !! j = Some c -> all_done s2 (Visit (SKid j :: v_path v) h c)).
  { assert (forall l j s0 s1, (forall m q, l !! m = Some q -> kids k !! (j + m) = Some q) -> inv s0 -> le_ s s0 ->
      prepare_all regs fuel (wkids (v_path v) h j l) s0 = ROk s1 -> inv s1 /\ le_ s0 s1 /\
      forall m q, l !! m = Some q -> all_done s1 (Visit (SKid (j + m) :: v_path v) h q)) as Hgo.
    { clear H1 H2 H3 Hi1 Hle1 Hdone1 s1 s2 s3. induction l as [|q l IHl]; intros j s0 s1 Hsub Hi0 Hle0 Hp; cbn [wkids] in Hp.
      - injection Hp as <-. split; [done|]. split; [apply le_refl|]. intros m q. by rewrite lookup_nil.
      - rewrite prepare_all_app in Hp. destruct (prepare_all regs fuel (walk (SKid j :: v_path v) h q) s0) as [s01| |] eqn:Hp1; [|done..]. cbn [rbind] in Hp.
        assert (Hj : kids k !! j = Some q) by (rewrite <- (Nat.add_0_r j); by apply (Hsub 0)).
        assert (HinW : Visit (SKid j :: v_path v) h q ∈ W).
        { subst h. rewrite Hhh. apply kid_in; [done|]. by rewrite Hn. }
        rewrite Forall_lookup in IHk. edestruct (IHk j q Hj (Visit (SKid j :: v_path v) h q)) as (E1 & E2 & E3); [done|done|exact Hi0|exact Hp1|].
        apply IHl in Hp as (F1 & F2 & F3); [|..|done|by eapply le_trans].
        + split; [done|]. split; [by eapply le_trans|]. intros [|m] q' Hq'; cbn in Hq'.
          * injection Hq' as <-. rewrite Nat.add_0_r. by eapply all_done_le.
          * rewrite Nat.add_succ_r. by apply (F3 m).
        + intros m c' Hc'. rewrite Nat.add_succ_l, <- Nat.add_succ_r. by apply (Hsub (S m)). }
    apply (Hgo (kids k) 0) in H2; [done|done|done|done]. }
  destruct Hkids as (Hi2 & Hle2 & Hdone2).
  apply prepare_ok in H3 as (Hi3 & Hle3 & Hd3); [|done|done|].
  - split; [done|]. split; [eapply le_trans; [exact Hle1|]; by eapply le_trans|].
    intros v' Hv'. rewrite Hn in Hv'. apply (walk_in _ _ _ _ _ _ Hnd) in Hv' as [(m & q & Hq & Hv')|[(m & c' & Hc & Hv')| ->]].
    + eapply done_le; [|apply (Hdone1 m q Hq); exact Hv']. by eapply le_trans.
    + eapply done_le; [|apply (Hdone2 m c' Hc); exact Hv']. done.
    + by rewrite Hself.
  - intros j c Hj. rewrite Hn in Hj |- *. by apply Hdone2.
Qed.

Lemma inv0 : inv pst0.
Proof. constructor; intros; done. Qed.
Lemma prepare_regs fuel l s s' : (forall v, v ∈ l -> v ∈ W) -> inv s ->
  prepare_all regs fuel (concat (map (fun v => walk (v_path v) (v_ph v) (v_node v)) l)) s = ROk s' -> inv s' /\ le_ s s'.
Proof.
  revert s. induction l as [|v l IH]; intros s Hl Hi H; cbn [map concat] in H.
  - injection H as <-. split; [done|apply le_refl].
  - rewrite prepare_all_app in H. destruct (prepare_all regs fuel (walk _ _ _) s) as [s1| |] eqn:H1; [|done..]. cbn [rbind] in H.
    eapply prepare_walk in H1 as (E1 & E2 & _); [|done|apply Hl; apply elem_of_list_here|done].
    apply IH in H as (F1 & F2); [|intros v' Hv'; apply Hl; by apply elem_of_list_further|done]. split; [done|]. by eapply le_trans.
Qed.
End Prep.
