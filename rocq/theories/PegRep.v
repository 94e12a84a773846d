(** When a result of the engine, with its objects in the heap, stands for a
    plain value; and what a heap may become. *)
From stdpp Require Import sets.
From Verif Require Import Base Native NativeSpec NativeProofs Engine EngInv Peg.

(** The label [lb] of a parser stands for [lb']: it is the same, or the parser is
    marked for [lb] and may have been given it already. *)
Definition label_stands (t lb lb' : string) : Prop := lb = lb' \/ (lb' = ""%string /\ tag_label t = Some lb).

(** The keys of a map. *)
Definition has_keys (m : nmap) (ks : list string) : Prop := nm_keys m = ks /\ forall k, k ∉ ks -> nm_get m k = None.
(** [rep P h x v]: in heap [h], [x] stands for [v], without using the objects
    in [P] (objects that are still under construction). *)
Inductive rep (P : list nat) (h : heap) : ast -> val -> Prop :=
| rep_str s : rep P h (AStr s) (VStr s)
| rep_int z : rep P h (AInt z) (VInt z)
| rep_undef : rep P h AUndef VUndef
| rep_err t : rep P h (AErr t) (VErr t)
| rep_arr l l' : reps P h l l' -> rep P h (AArr l) (VArr l')
| rep_user t l l' : reps P h l l' -> rep P h (AUser t l) (VUser t l')
| rep_map a m at_ kv : a ∉ P -> h !! a = Some (Obj (OMap m) at_) -> has_keys m kv.*1 -> NoDup kv.*1 ->
    repf P h m kv -> rep P h (AObj a) (VMap kv)
| rep_parser a t l l' lb lb' at_ : a ∉ P -> h !! a = Some (Obj (OParser t l lb) at_) -> reps P h l l' ->
    label_stands t lb lb' -> rep P h (AObj a) (VParser t l' lb')
with reps (P : list nat) (h : heap) : list ast -> list val -> Prop :=
| reps_nil : reps P h [] []
| reps_cons x v l l' : rep P h x v -> reps P h l l' -> reps P h (x :: l) (v :: l')
with repf (P : list nat) (h : heap) : nmap -> list (string * val) -> Prop :=
| repf_nil m : repf P h m []
| repf_cons m k v kv x : nm_get m k = Some x -> rep P h x v -> repf P h m kv -> repf P h m ((k, v) :: kv).
Scheme rep_ind3 := Induction for rep Sort Prop
  with reps_ind3 := Induction for reps Sort Prop
  with repf_ind3 := Induction for repf Sort Prop.
Combined Scheme rep_mut from rep_ind3, reps_ind3, repf_ind3.

(** The same contents, but for a label a parser is marked for. *)
Definition body_keeps (b b' : objbody) : Prop :=
  b' = b \/ exists t args lb, b = OParser t args "" /\ b' = OParser t args lb /\ tag_label t = Some lb.
Lemma body_keeps_trans b1 b2 b3 : body_keeps b1 b2 -> body_keeps b2 b3 -> body_keeps b1 b3.
Proof.
  intros [-> |(t & args & lb & -> & -> & Hm)] [-> |(t' & args' & lb' & E1 & E2 & Hm')]; [by left| |right; by exists t, args, lb|].
  - right. by exists t', args', lb'.
  - right. injection E1 as -> -> ->. exists t', args', lb'. done.
Qed.
Lemma label_stands_more t args lb lb' b : label_stands t lb lb' -> body_keeps (OParser t args lb) b ->
  exists lb2, b = OParser t args lb2 /\ label_stands t lb2 lb'.
Proof.
  intros Hs [-> |(t' & args' & lb2 & [= <- <- ->] & -> & Hm)]; [by exists lb|]. exists lb2. split; [done|].
  destruct Hs as [<-|[-> _]]; by right.
Qed.

(** Objects outside [X] keep their contents; attributes may change. *)
Definition hext_but (X : list nat) (h h' : heap) : Prop :=
  length h <= length h' /\
  forall a o, a ∉ X -> h !! a = Some o -> exists o', h' !! a = Some o' /\ body_keeps (o_body o) (o_body o').
Notation hext := (hext_but []).

Lemma hext_refl X h : hext_but X h h.
Proof. split; [done|]. intros a o _ Ho. exists o. split; [done|by left]. Qed.
Lemma hext_trans X h1 h2 h3 : hext_but X h1 h2 -> hext_but X h2 h3 -> hext_but X h1 h3.
Proof.
  intros [L1 H1] [L2 H2]. split; [lia|]. intros a o Ha Ho. destruct (H1 _ _ Ha Ho) as (o' & Ho' & E1).
  destruct (H2 _ _ Ha Ho') as (o'' & Ho'' & E2). exists o''. split; [done|]. by eapply body_keeps_trans.
Qed.
Lemma hext_weaken X Y h h' : hext_but X h h' -> X ⊆ Y -> hext_but Y h h'.
Proof. intros [L H] HX. split; [done|]. intros a o Ha. apply H. set_solver. Qed.
Lemma hext_app X h l : hext_but X h (h ++ l).
Proof.
  split; [rewrite app_length; lia|]. intros a o _ Ho. exists o. split; [|by left].
  rewrite lookup_app_l; [done|by eapply lookup_lt_Some].
Qed.
Lemma hext_write X h a o : a ∈ X -> hext_but X h (<[a := o]> h).
Proof.
  intros Ha. split; [by rewrite insert_length|]. intros b ob Hb Hob. exists ob. split; [|by left].
  rewrite list_lookup_insert_ne; [done|]. set_solver.
Qed.
Lemma hext_attr X h a o o' : h !! a = Some o -> body_keeps (o_body o) (o_body o') -> hext_but X h (<[a := o']> h).
Proof.
  intros Ha Hb. split; [by rewrite insert_length|]. intros b ob _ Hob. destruct (decide (a = b)) as [<-|Hne].
  - exists o'. rewrite list_lookup_insert by (by eapply lookup_lt_Some). split; [done|]. rewrite Hob in Ha. by injection Ha as ->.
  - exists ob. rewrite list_lookup_insert_ne by done. split; [done|by left].
Qed.
(** What is written to objects that were not there does not count. *)
Lemma hext_drop X a h h' : hext_but (a :: X) h h' -> length h <= a -> hext_but X h h'.
Proof.
  intros [L H] Ha. split; [done|]. intros b o Hb Ho. apply H; [|done]. apply not_elem_of_cons. split; [|done].
  apply lookup_lt_Some in Ho. lia.
Qed.

(** Values survive. *)
Lemma rep_hext_all X P h h' : hext_but X h h' -> X ⊆ P ->
  (forall x v, rep P h x v -> rep P h' x v) /\ (forall l l', reps P h l l' -> reps P h' l l') /\
  (forall m kv, repf P h m kv -> repf P h' m kv).
Proof.
  intros [_ H] HX. apply (rep_mut P h (fun x v _ => rep P h' x v) (fun l l' _ => reps P h' l l') (fun m kv _ => repf P h' m kv));
    intros; try (by econstructor).
  - destruct (H a _ ltac:(set_solver) e) as ([b at'] & Ho & Eb). cbn in Eb.
    destruct Eb as [-> |(? & ? & ? & ? & _)]; [|done]. by eapply rep_map.
  - destruct (H a _ ltac:(set_solver) e) as ([b at'] & Ho & Eb). cbn in Eb.
    destruct (label_stands_more _ _ _ _ _ l0 Eb) as (lb2 & -> & Hs). by eapply rep_parser.
Qed.
Lemma rep_hext X P h h' x v : rep P h x v -> hext_but X h h' -> X ⊆ P -> rep P h' x v.
Proof. intros H1 H2 H3. by apply (rep_hext_all X P h h' H2 H3). Qed.
Lemma reps_hext X P h h' l l' : reps P h l l' -> hext_but X h h' -> X ⊆ P -> reps P h' l l'.
Proof. intros H1 H2 H3. by apply (rep_hext_all X P h h' H2 H3). Qed.
Lemma repf_hext X P h h' m kv : repf P h m kv -> hext_but X h h' -> X ⊆ P -> repf P h' m kv.
Proof. intros H1 H2 H3. by apply (rep_hext_all X P h h' H2 H3). Qed.

Lemma rep_weaken_all P Q h : Q ⊆ P ->
  (forall x v, rep P h x v -> rep Q h x v) /\ (forall l l', reps P h l l' -> reps Q h l l') /\
  (forall m kv, repf P h m kv -> repf Q h m kv).
Proof.
  intros HX. apply (rep_mut P h (fun x v _ => rep Q h x v) (fun l l' _ => reps Q h l l') (fun m kv _ => repf Q h m kv));
    intros; try (by econstructor).
  - eapply rep_map; [|done..]. set_solver.
  - eapply rep_parser; [|done..]. set_solver.
Qed.
Lemma rep_weaken P Q h x v : rep P h x v -> Q ⊆ P -> rep Q h x v.
Proof. intros H1 H2. by apply (rep_weaken_all P Q h H2). Qed.
Lemma reps_weaken P Q h l l' : reps P h l l' -> Q ⊆ P -> reps Q h l l'.
Proof. intros H1 H2. by apply (rep_weaken_all P Q h H2). Qed.
Lemma repf_weaken P Q h m kv : repf P h m kv -> Q ⊆ P -> repf Q h m kv.
Proof. intros H1 H2. by apply (rep_weaken_all P Q h H2). Qed.

(** An object that is not there yet is in no value. *)
Lemma rep_fresh_all P h a : length h <= a ->
  (forall x v, rep P h x v -> rep (a :: P) h x v) /\ (forall l l', reps P h l l' -> reps (a :: P) h l l') /\
  (forall m kv, repf P h m kv -> repf (a :: P) h m kv).
Proof.
  intros HX. apply (rep_mut P h (fun x v _ => rep (a :: P) h x v) (fun l l' _ => reps (a :: P) h l l') (fun m kv _ => repf (a :: P) h m kv));
    intros; try (by econstructor).
  - eapply rep_map; [|done..]. apply not_elem_of_cons. split; [|done]. apply lookup_lt_Some in e. lia.
  - eapply rep_parser; [|done..]. apply not_elem_of_cons. split; [|done]. apply lookup_lt_Some in e. lia.
Qed.
Lemma rep_fresh P h a x v : rep P h x v -> length h <= a -> rep (a :: P) h x v.
Proof. intros H1 H2. by apply (rep_fresh_all P h a H2). Qed.

Lemma reps_app P h l l' k k' : reps P h l l' -> reps P h k k' -> reps P h (l ++ k) (l' ++ k').
Proof. intros H. revert k k'. induction H; intros k k' HK; [done|]. cbn. constructor; auto. Qed.
Lemma reps_rev P h l l' : reps P h l l' -> reps P h (rev l) (rev l').
Proof. induction 1; cbn; [constructor|]. apply reps_app; [done|]. by repeat constructor. Qed.
Lemma reps_length P h l l' : reps P h l l' -> length l = length l'.
Proof. induction 1; cbn; lia. Qed.

(** Setting a key. *)
Lemma repf_lookup P h m kv k v : repf P h m kv -> (k, v) ∈ kv -> exists x, nm_get m k = Some x /\ rep P h x v.
Proof.
  induction 1 as [|m k' v' kv x Hg Hr Hf IH]; intros Hin; [by apply elem_of_nil in Hin|].
  apply elem_of_cons in Hin as [[= -> ->]|Hin]; eauto.
Qed.
Lemma repf_intro P h m kv : (forall k v, (k, v) ∈ kv -> exists x, nm_get m k = Some x /\ rep P h x v) -> repf P h m kv.
Proof.
  induction kv as [|[k v] kv IH]; intros H; [constructor|]. destruct (H k v) as (x & Hx & Hr); [left|].
  econstructor; [done..|]. apply IH. intros k' v' Hin. apply H. by right.
Qed.
Lemma kv_set_keys kv k v : (kv_set kv k v).*1 = if existsb (String.eqb k) kv.*1 then kv.*1 else kv.*1 ++ [k].
Proof.
  induction kv as [|[k' v'] kv IH]; [done|]. cbn. destruct (String.eqb_spec k k') as [->|Hne]; [done|].
  cbn. rewrite IH. by destruct (existsb _ _).
Qed.
Lemma existsb_eqb k l : existsb (String.eqb k) l = true <-> k ∈ l.
Proof.
  rewrite existsb_exists. split.
  - intros (x & Hx & Hk). apply String.eqb_eq in Hk as ->. by apply elem_of_list_In.
  - intros H. exists k. split; [by apply elem_of_list_In|apply String.eqb_refl].
Qed.
Lemma kv_set_elem kv k v k' v' : NoDup kv.*1 -> (k', v') ∈ kv_set kv k v -> (k' = k /\ v' = v) \/ (k' <> k /\ (k', v') ∈ kv).
Proof.
  induction kv as [|[k1 v1] kv IH]; intros Hnd Hin.
  { apply elem_of_list_singleton in Hin. simplify_eq. by left. }
  cbn in Hin. cbn in Hnd. apply NoDup_cons in Hnd as [Hk1 Hnd]. destruct (String.eqb_spec k k1) as [->|Hne].
  - apply elem_of_cons in Hin as [[= -> ->]|Hin]; [by left|]. right. split; [|by right].
    intros ->. apply Hk1. apply elem_of_list_fmap. by exists (k1, v').
  - apply elem_of_cons in Hin as [[= -> ->]|Hin].
    + right. split; [done|left].
    + destruct (IH Hnd Hin) as [?|[? ?]]; [by left|]. right. split; [done|by right].
Qed.
Lemma nm_get_set m k x k' : nm_get (nm_set m k x) k' = if String.eqb k' k then Some x else nm_get m k'.
Proof. done. Qed.
Lemma set_rep P h m kv k x v : has_keys m kv.*1 -> NoDup kv.*1 -> repf P h m kv -> rep P h x v ->
  has_keys (nm_set m k x) (kv_set kv k v).*1 /\ NoDup (kv_set kv k v).*1 /\ repf P h (nm_set m k x) (kv_set kv k v).
Proof.
  intros HK Hnd Hf Hx. rewrite kv_set_keys. split; [|split].
  - destruct HK as [HK HN]. split; [cbn; by rewrite HK|]. intros k' Hk'. rewrite nm_get_set.
    destruct (String.eqb_spec k' k) as [-> |Hne].
    + destruct Hk'. destruct (existsb (String.eqb k) kv.*1) eqn:EB; [by apply existsb_eqb|]. set_solver.
    + apply HN. intros Hin. apply Hk'. destruct (existsb (String.eqb k) kv.*1); set_solver.
  - destruct (existsb (String.eqb k) kv.*1) eqn:EB; [done|]. apply NoDup_app. split; [done|]. split; [|apply NoDup_singleton].
    intros y Hy Hy'. apply elem_of_list_singleton in Hy' as ->. apply existsb_eqb in Hy. congruence.
  - apply repf_intro. intros k' v' Hin. apply kv_set_elem in Hin as [[-> ->]|[Hne Hin]]; [| |done].
    + exists x. split; [|done]. rewrite nm_get_set. by rewrite String.eqb_refl.
    + destruct (repf_lookup _ _ _ _ _ _ Hf Hin) as (y & Hy & Hr). exists y. split; [|done]. rewrite nm_get_set.
      destruct (String.eqb_spec k' k); [done|done].
Qed.

(** ** Runs that end well for all large enough fuels *)
Definition ev {A} (m : nat -> nat -> M A) (s : st) (Q : A -> st -> Prop) : Prop :=
  exists f0 a s', Q a s' /\ forall f lf, f0 <= f -> f0 <= lf -> m f lf s = Ok a s'.

Lemma ev_ret {A} (a : A) s (Q : A -> st -> Prop) : Q a s -> ev (fun _ _ => ret a) s Q.
Proof. intros H. by exists 0, a, s. Qed.
Lemma ev_ok {A} (m : M A) s a s' (Q : A -> st -> Prop) : m s = Ok a s' -> Q a s' -> ev (fun _ _ => m) s Q.
Proof. intros H1 H2. by exists 0, a, s'. Qed.
Lemma ev_bind {A B} (m : nat -> nat -> M A) (k : A -> nat -> nat -> M B) s Q :
  ev m s (fun a s' => ev (k a) s' Q) -> ev (fun f lf => bind (m f lf) (fun a => k a f lf)) s Q.
Proof.
  intros (f0 & a & s' & (f1 & b & s'' & HQ & H1) & H0). exists (max f0 f1), b, s''. split; [done|].
  intros f lf Hf Hlf. unfold bind. rewrite H0 by lia. apply H1; lia.
Qed.
Lemma ev_weaken {A} (m : nat -> nat -> M A) s (Q Q' : A -> st -> Prop) :
  ev m s Q -> (forall a s', Q a s' -> Q' a s') -> ev m s Q'.
Proof. intros (f0 & a & s' & HQ & H) HW. exists f0, a, s'. auto. Qed.
Lemma ev_ext {A} (m m' : nat -> nat -> M A) s Q : ev m s Q -> (forall f lf, m f lf s = m' f lf s) -> ev m' s Q.
Proof. intros (f0 & a & s' & HQ & H) HE. exists f0, a, s'. split; [done|]. intros. rewrite <- HE. auto. Qed.
(** A first step that always does the same. *)
Lemma ev_step {A B} (m : M A) (k : A -> nat -> nat -> M B) s a s' Q :
  m s = Ok a s' -> ev (k a) s' Q -> ev (fun f lf => bind m (fun x => k x f lf)) s Q.
Proof. intros H1 H2. apply (ev_bind (fun _ _ => m) k). by eapply ev_ok. Qed.
(** Loops given the same fuel as the recursion. *)
Lemma ev_diag {A} (m : nat -> nat -> M A) s Q : ev m s Q -> ev (fun f _ => m f f) s Q.
Proof. intros (f0 & a & s' & HQ & H). exists f0, a, s'. auto. Qed.
Lemma ev_tr {A} (m : nat -> nat -> M A) s (Q Q' : A -> st -> Prop) X : ev m s Q ->
  (forall f lf, tr (m f lf) s Q' X) -> ev m s (fun a s' => Q a s' /\ Q' a s').
Proof.
  intros (f0 & a & s' & HQ & H) HT. exists f0, a, s'. split; [|done]. split; [done|].
  specialize (HT f0 f0). unfold tr in HT. by rewrite H in HT.
Qed.
