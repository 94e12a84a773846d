(** Invariants that hold in every execution of the engine, for all grammars,
    inputs and oracles. *)
From Verif Require Import Base Helpers Utf8 Utf8Proofs Stream StreamSpec StreamProofs Native Engine EngSpec.

(** ** Partial correctness *)
Definition tr {A} (m : M A) (s : st) (Q : A -> st -> Prop) (X : panic -> st -> Prop) : Prop :=
  match m s with Ok a s' => Q a s' | Panic p s' => X p s' | OutOfFuel => True end.

Lemma tr_bind {A B} (m : M A) (k : A -> M B) s Q X :
  tr m s (fun a s' => tr (k a) s' Q X) X -> tr (bind m k) s Q X.
Proof. unfold tr, bind. by destruct (m s). Qed.
Lemma tr_mono {A} (m : M A) s (Q Q' : A -> st -> Prop) (X X' : panic -> st -> Prop) :
  tr m s Q X -> (forall a s', Q a s' -> Q' a s') -> (forall p s', X p s' -> X' p s') -> tr m s Q' X'.
Proof. unfold tr. destruct (m s); auto. Qed.
Lemma tr_weaken {A} (m : M A) s (Q Q' : A -> st -> Prop) (X : panic -> st -> Prop) :
  tr m s Q X -> (forall a s', Q a s' -> Q' a s') -> tr m s Q' X.
Proof. intros H1 H2. by eapply tr_mono. Qed.
Lemma tr_ret {A} (a : A) s (Q : A -> st -> Prop) X : Q a s -> tr (ret a) s Q X.
Proof. done. Qed.
Lemma tr_panic {A} p s (Q : A -> st -> Prop) (X : panic -> st -> Prop) : X p s -> tr (panic_ p) s Q X.
Proof. done. Qed.
Lemma tr_gets {A} (f : st -> A) s (Q : A -> st -> Prop) X : Q (f s) s -> tr (gets f) s Q X.
Proof. done. Qed.
Lemma tr_fuel {A} s (Q : A -> st -> Prop) X : tr out_of_fuel s Q X.
Proof. done. Qed.
Lemma tr_lift {A} (r : res A) s (Q : A -> st -> Prop) (X : panic -> st -> Prop) :
  (forall a, r = ROk a -> Q a s) -> (forall p, r = RPanic p -> X p s) -> tr (lift r) s Q X.
Proof. unfold tr, lift. destruct r; auto. Qed.

(** ** Frames and state *)
Definition success {A} (r : option A) : bool := match r with Some _ => true | None => false end.
(** A cached result of a rule that gives the cursor back (when [gb id true] on
    success, when [gb id false] on failure) ends where it began. *)
Definition nil_ok (gb : nat -> bool -> bool) (f : frame) : Prop :=
  gb (f_id f) (success (f_res f)) = true -> forall e, f_end f = Some e -> e = f_pos f.
Definition frame_ok (gb : nat -> bool -> bool) (N L : nat) (f : frame) : Prop :=
  nil_ok gb f /\ f_pos f <= L /\ f_id f < N /\
  (forall e, f_end f = Some e -> f_pos f <= e <= L) /\
  (forall m, f_mask f = Some m -> length m = N) /\
  (f_stage f = 2%Z \/ f_stage f = 3%Z -> f_mask f <> None) /\
  (-1 <= f_stage f <= 3)%Z.

Definition stage_rel (x y : Z) : Prop :=
  x = y \/ (x = (-1)%Z /\ y = 0%Z) \/ (x = 1%Z /\ y = 2%Z).
Definition frel (f g : frame) : Prop :=
  f_pos f = f_pos g /\ f_id f = f_id g /\ stage_rel (f_stage f) (f_stage g) /\
  (f_mask f <> None -> f_mask g <> None).

Lemma frel_refl f : frel f f.
Proof. split; [done|]. split; [done|]. split; [by left|done]. Qed.
Lemma stage_rel_trans x y z : stage_rel x y -> stage_rel y z -> stage_rel x z.
Proof. unfold stage_rel. lia. Qed.
Lemma frel_trans f g h : frel f g -> frel g h -> frel f h.
Proof.
  intros (A1 & A2 & A3 & A4) (B1 & B2 & B3 & B4). split; [congruence|]. split; [congruence|].
  split; [by eapply stage_rel_trans|auto].
Qed.

(** The positions of the frames on the stack, top first, never increase. *)
Fixpoint stack_desc (fh : list frame) (bound : nat) (stk : list nat) : Prop :=
  match stk with
  | [] => True
  | a :: r => exists f, fh !! a = Some f /\ f_pos f <= bound /\ stack_desc fh (f_pos f) r
  end.

Definition code_lines_ok (c : code) : Prop :=
  forall p, p <= length (c_work c) ->
    (exists l, c_line (c_with_pos c p) = ROk l) /\ (exists k, c_col (c_with_pos c p) = ROk k).

Definition ev_pos (e : event) : nat :=
  match e with EvBody _ p | EvSkip _ p | EvRec _ p | EvCb _ p => p end.

Record GI (gb : nat -> bool -> bool) (N : nat) (c0 : code) (s : st) : Prop := {
  gi_code : s_code s = c_with_pos c0 (st_pos s);
  gi_pos : st_pos s <= length (c_work c0);
  gi_len : length (s_frames s) = length (c_work c0) + 1;
  gi_rows : Forall (fun row => length row = N) (s_frames s);
  gi_ent : forall p i a, table_get (s_frames s) p i = Some (Some a) ->
             exists f, s_fheap s !! a = Some f /\ f_pos f = p /\ f_id f = i;
  gi_fr : Forall (frame_ok gb N (length (c_work c0))) (s_fheap s);
  gi_stk : stack_desc (s_fheap s) (st_pos s) (s_stack s);
  gi_log : Forall (fun e => ev_pos e <= length (c_work c0)) (s_log s) }.

Definition ext (s s' : st) : Prop :=
  s_stack s' = s_stack s /\
  forall a f, s_fheap s !! a = Some f -> exists f', s_fheap s' !! a = Some f' /\ frel f f'.

Lemma ext_refl s : ext s s.
Proof. split; [done|]. intros a f H. exists f. split; [done|apply frel_refl]. Qed.
Lemma ext_trans s1 s2 s3 : ext s1 s2 -> ext s2 s3 -> ext s1 s3.
Proof.
  intros [A1 A2] [B1 B2]. split; [congruence|]. intros a f H.
  destruct (A2 _ _ H) as (f' & H' & R1). destruct (B2 _ _ H') as (f'' & H'' & R2).
  exists f''. split; [done|]. by eapply frel_trans.
Qed.

Lemma stack_desc_bound fh b b' stk : stack_desc fh b stk -> b <= b' -> stack_desc fh b' stk.
Proof. destruct stk as [|a r]; [done|]. intros (f & H1 & H2 & H3) Hb. exists f. split; [done|]. split; [lia|done]. Qed.

Lemma stack_desc_ext fh fh' b stk : stack_desc fh b stk ->
  (forall a f, fh !! a = Some f -> exists f', fh' !! a = Some f' /\ f_pos f' = f_pos f) -> stack_desc fh' b stk.
Proof.
  intros H HE. revert b H. induction stk as [|a r IH]; intros b H; [done|].
  destruct H as (f & H1 & H2 & H3). destruct (HE _ _ H1) as (f' & H1' & E). exists f'. rewrite E. auto.
Qed.

Section Gi.
Variable N : nat.
Variable c0 : code.
Notation L := (length (c_work c0)).
Variable gb : nat -> bool -> bool.
Notation G := (GI gb N c0).

Lemma st_pos_set_code s p : st_pos (set_code s (c_with_pos c0 p)) = p.
Proof. unfold st_pos. cbn. apply c_with_pos_pos. Qed.

(** Moving the cursor. *)
Lemma G_move s p : G s -> p <= L -> stack_desc (s_fheap s) p (s_stack s) -> G (set_code s (c_with_pos c0 p)).
Proof.
  intros HG Hp Hs. destruct HG. split; try done; cbn [set_code s_code s_frames s_fheap s_stack];
  rewrite ?st_pos_set_code; done.
Qed.
Lemma G_move_ge s p : G s -> p <= L -> st_pos s <= p -> G (set_code s (c_with_pos c0 p)).
Proof. intros HG Hp Hle. apply G_move; [done..|]. eapply stack_desc_bound; [apply HG|done]. Qed.

Lemma set_pos_eq s p : G s -> p <= L -> set_pos p s = Ok tt (set_code s (c_with_pos c0 p)).
Proof.
  intros HG Hp. unfold set_pos. rewrite (gi_code _ _ _ _ HG).
  rewrite c_set_pos_ok by (by rewrite c_with_pos_work). by rewrite c_with_pos_twice.
Qed.

Lemma set_code_ext s c : ext s (set_code s c).
Proof. destruct (ext_refl s) as [_ H]. by split. Qed.

(** Updating a frame. *)
Lemma G_put s a f f' : G s -> s_fheap s !! a = Some f -> frame_ok gb N L f' ->
  f_pos f' = f_pos f -> f_id f' = f_id f -> G (set_fheap s (<[a := f']> (s_fheap s))).
Proof.
  intros HG Ha Hok Hp Hi. destruct HG as [H1 H2 H3 H4 H5 H6 H7 H8].
  assert (a < length (s_fheap s)) as Hlt by (by eapply lookup_lt_Some).
  split; try done; cbn [set_fheap s_frames s_fheap s_stack].
  - intros p i b Hb. destruct (H5 _ _ _ Hb) as (g & Hg & ? & ?).
    destruct (decide (a = b)) as [<-|Hne].
    + exists f'. rewrite list_lookup_insert by done. split; [done|]. split; congruence.
    + exists g. by rewrite list_lookup_insert_ne.
  - by apply Forall_insert.
  - change (st_pos (set_fheap s (<[a:=f']> (s_fheap s)))) with (st_pos s).
    eapply stack_desc_ext; [exact H7|]. intros b g Hg. destruct (decide (a = b)) as [<-|Hne].
    + exists f'. rewrite list_lookup_insert by done. split; [done|]. congruence.
    + exists g. by rewrite list_lookup_insert_ne.
Qed.
Lemma ext_put s a f f' : s_fheap s !! a = Some f -> frel f f' -> ext s (set_fheap s (<[a := f']> (s_fheap s))).
Proof.
  intros Ha Hr. split; [done|]. cbn [set_fheap s_fheap]. intros b g Hg.
  destruct (decide (a = b)) as [<-|Hne].
  - exists f'. rewrite list_lookup_insert by (by eapply lookup_lt_Some). split; [done|]. by simplify_eq.
  - exists g. rewrite list_lookup_insert_ne by done. split; [done|apply frel_refl].
Qed.

Lemma G_frame s a f : G s -> s_fheap s !! a = Some f -> frame_ok gb N L f.
Proof. intros HG Ha. pose proof (gi_fr _ _ _ _ HG) as H. rewrite Forall_forall in H. apply H. by eapply elem_of_list_lookup_2. Qed.

Lemma G_stack_valid s a : G s -> a ∈ s_stack s -> exists f, s_fheap s !! a = Some f /\ f_pos f <= st_pos s.
Proof.
  intros HG Ha. pose proof (gi_stk _ _ _ _ HG) as H.
  assert (forall stk b, stack_desc (s_fheap s) b stk -> a ∈ stk -> exists f, s_fheap s !! a = Some f /\ f_pos f <= b) as HH.
  { clear. induction stk as [|x r IH]; intros b H Hin; [by apply elem_of_nil in Hin|].
    destruct H as (f & H1 & H2 & H3). apply elem_of_cons in Hin as [->|Hin]; [eauto|].
    destruct (IH _ H3 Hin) as (g & ? & ?). exists g. split; [done|lia]. }
  by eapply HH.
Qed.

(** Table. *)
Lemma table_get_set t p i x q j : table_get t p i <> None ->
  table_get (table_set t p i x) q j = if (bool_decide (p = q) && bool_decide (i = j))%bool then Some x else table_get t q j.
Proof.
  unfold table_get, table_set. destruct (t !! p) as [row|] eqn:E; [|done]. intros Hi.
  assert (i < length row) as Hil by (apply lookup_lt_is_Some; by destruct (row !! i)).
  destruct (decide (p = q)) as [<-|Hpq].
  - rewrite list_lookup_insert by (by eapply lookup_lt_Some).
    destruct (decide (i = j)) as [<-|Hij].
    + rewrite list_lookup_insert by done. by rewrite !bool_decide_eq_true_2.
    + rewrite list_lookup_insert_ne by done. rewrite (bool_decide_eq_false_2 (i = j)) by done.
      by rewrite andb_false_r, E.
  - rewrite list_lookup_insert_ne by done. by rewrite (bool_decide_eq_false_2 (p = q)).
Qed.
Lemma table_set_length t p i x : length (table_set t p i x) = length t.
Proof. unfold table_set. destruct (t !! p); [apply insert_length|done]. Qed.
Lemma table_set_rows t p i x : Forall (fun row => length row = N) t -> Forall (fun row => length row = N) (table_set t p i x).
Proof.
  intros H. unfold table_set. destruct (t !! p) as [row|] eqn:E; [|done].
  apply Forall_insert; [done|]. rewrite insert_length. rewrite Forall_forall in H. apply H. by eapply elem_of_list_lookup_2.
Qed.

Lemma G_row s p : G s -> p <= L -> exists row, s_frames s !! p = Some row /\ length row = N.
Proof.
  intros HG Hp. destruct (lookup_lt_is_Some_2 (s_frames s) p) as [row E]; [rewrite (gi_len _ _ _ _ HG); lia|].
  exists row. split; [done|]. pose proof (gi_rows _ _ _ _ HG) as H. rewrite Forall_forall in H. apply H. by eapply elem_of_list_lookup_2.
Qed.
Lemma G_table_some s p i : G s -> p <= L -> i < N -> exists o, table_get (s_frames s) p i = Some o.
Proof.
  intros HG Hp Hi. destruct (G_row s p HG Hp) as (row & E & El). unfold table_get. rewrite E.
  apply lookup_lt_is_Some_2. lia.
Qed.

Lemma new_frame_ok pos id : pos <= L -> id < N -> frame_ok gb N L (new_frame pos id).
Proof.
  intros. split; [done|]. split; [done|]. split; [done|]. split; [done|]. split; [done|]. cbn. split; [lia|lia].
Qed.

Definition is_frame_at (s : st) (a p i : nat) : Prop :=
  exists f, s_fheap s !! a = Some f /\ f_pos f = p /\ f_id f = i.

Lemma get_frame_ok s i : G s -> i < N -> exists a s', get_frame i s = Ok a s' /\ G s' /\ ext s s' /\
  st_pos s' = st_pos s /\ table_get (s_frames s') (st_pos s) i = Some (Some a) /\
  is_frame_at s' a (st_pos s) i.
Proof.
  intros HG Hi. unfold get_frame.
  destruct (G_table_some s (st_pos s) i HG) as [o Ho]; [apply HG|done|]. rewrite Ho.
  destruct o as [a|].
  - exists a, s. split; [done|]. split; [done|]. split; [apply ext_refl|]. split; [done|]. split; [done|].
    by apply (gi_ent _ _ _ _ HG).
  - eexists _, _. split; [reflexivity|].
    set (s' := set_frames _ _).
    assert (forall a f, s_fheap s !! a = Some f -> s_fheap s' !! a = Some f) as HE.
    { intros a f Ha. cbn. rewrite lookup_app_l; [done|by eapply lookup_lt_Some]. }
    assert (s_fheap s' !! length (s_fheap s) = Some (new_frame (st_pos s) i)) as HN.
    { cbn. by rewrite lookup_app_r, Nat.sub_diag by lia. }
    assert (table_get (s_frames s') (st_pos s) i = Some (Some (length (s_fheap s)))) as HT.
    { cbn. rewrite table_get_set by congruence. by rewrite !bool_decide_eq_true_2. }
    split; [|split; [|split; [done|split; [done|by exists (new_frame (st_pos s) i)]]]].
    + destruct HG as [H1 H2 H3 H4 H5 H6 H7 H8]. split; try done.
      * cbn. by rewrite table_set_length.
      * cbn. by apply table_set_rows.
      * intros p j b Hb. cbn in Hb. rewrite table_get_set in Hb by congruence.
        destruct (bool_decide_reflect (st_pos s = p)), (bool_decide_reflect (i = j)); cbn in Hb; simplify_eq.
        { eexists. split; [exact HN|done]. }
        all: destruct (H5 _ _ _ Hb) as (f & Hf & ? & ?); exists f; split; [by apply HE|done].
      * cbn. apply Forall_app. split; [done|]. apply Forall_singleton. by apply new_frame_ok.
      * change (st_pos s') with (st_pos s). eapply stack_desc_ext; [exact H7|]. intros b g Hg. exists g. split; [by apply HE|done].
    + split; [done|]. intros b g Hg. exists g. split; [by apply HE|apply frel_refl].
Qed.


Definition core (s s' : st) : Prop :=
  s_code s' = s_code s /\ s_frames s' = s_frames s /\ s_fheap s' = s_fheap s /\ s_stack s' = s_stack s /\
  (Forall (fun e => ev_pos e <= L) (s_log s) -> Forall (fun e => ev_pos e <= L) (s_log s')).
Lemma G_core s s' : core s s' -> G s -> G s'.
Proof.
  intros (E1 & E2 & E3 & E4 & E6) HG.
  assert (st_pos s' = st_pos s) as E5 by (unfold st_pos; by rewrite E1).
  destruct HG. split; rewrite ?E1, ?E2, ?E3, ?E4, ?E5; auto.
Qed.
Lemma core_pos s s' : core s s' -> st_pos s' = st_pos s.
Proof. intros (E1 & _). unfold st_pos. by rewrite E1. Qed.
Lemma core_ext s s' : core s s' -> ext s s'.
Proof.
  intros (E1 & E2 & E3 & E4 & _). split; [done|]. rewrite E3. intros a f H. exists f. split; [done|apply frel_refl].
Qed.

Definition GR (s s' : st) : Prop := G s' /\ ext s s' /\ st_pos s <= st_pos s'.
Lemma GR_refl s : G s -> GR s s.
Proof. intros. split; [done|]. split; [apply ext_refl|lia]. Qed.
Lemma GR_trans s1 s2 s3 : GR s1 s2 -> GR s2 s3 -> GR s1 s3.
Proof. intros (A1 & A2 & A3) (B1 & B2 & B3). split; [done|]. split; [by eapply ext_trans|lia]. Qed.
Lemma GR_core s s' : G s -> core s s' -> GR s s'.
Proof. intros HG HC. split; [by eapply G_core|]. split; [by apply core_ext|]. by rewrite (core_pos _ _ HC). Qed.
Lemma GR_emit s e : G s -> ev_pos e <= L -> GR s (add_log s e).
Proof. intros HG He. apply GR_core; [done|]. split; [done|]. split; [done|]. split; [done|]. split; [done|]. by constructor. Qed.
Lemma GR_stack s s' : GR s s' -> s_stack s' = s_stack s.
Proof. intros (_ & [H _] & _). done. Qed.

(** Going back to where a run began. *)
Lemma GR_back s s' : G s -> GR s s' -> GR s (set_code s' (c_with_pos c0 (st_pos s))).
Proof.
  intros HG (HG' & HE & Hp). split; [|split].
  - apply G_move; [done|apply HG|]. destruct HE as [-> HE].
    eapply stack_desc_ext; [apply HG|]. intros a f Ha. destruct (HE _ _ Ha) as (f' & ? & ? & _). by exists f'.
  - eapply ext_trans; [done|apply set_code_ext].
  - by rewrite st_pos_set_code.
Qed.

(** ** Panics *)
Definition internal : list panic := violated :: internal_panics.

Variable E : env.
Hypothesis HN : e_nrules E = N.
Hypothesis Hrx : forall re, rx_ok (e_rx E re).
Hypothesis Hlines : code_lines_ok c0.

Definition XP (p : panic) (s : st) : Prop :=
  p ∉ internal /\ (p = PIndex -> stack_limit <= length (s_stack s) \/ e_loop E = true) /\
  st_pos s <= L.

Definition panic_free (p : panic) : Prop := p ∉ internal /\ p <> PIndex.
Lemma XP_free p s : panic_free p -> st_pos s <= L -> XP p s.
Proof. intros [H1 H2] H3. split; [done|]. split; [done|done]. Qed.

Ltac not_internal := 
  split; [unfold internal, internal_panics; rewrite !elem_of_cons, elem_of_nil; intuition discriminate|discriminate].

(** Operations that only touch the heap of objects. *)
Definition honly {A} (m : M A) : Prop := forall s,
  match m s with
  | Ok _ s' => exists h, s' = set_heap s h
  | Panic p s' => (exists h, s' = set_heap s h) /\ panic_free p
  | OutOfFuel => True
  end.
Lemma set_heap_same s : set_heap s (s_heap s) = s.
Proof. by destruct s. Qed.
Lemma honly_ret {A} (a : A) : honly (ret a).
Proof. intros s. exists (s_heap s). by rewrite set_heap_same. Qed.
Lemma honly_panic {A} p : panic_free p -> honly (panic_ (A:=A) p).
Proof. intros H s. split; [|done]. exists (s_heap s). by rewrite set_heap_same. Qed.
Lemma honly_bind {A B} (m : M A) (k : A -> M B) : honly m -> (forall a, honly (k a)) -> honly (bind m k).
Proof.
  intros H1 H2 s. unfold bind. specialize (H1 s). destruct (m s) as [a s'|p s'|]; [|done|done].
  destruct H1 as [h ->]. specialize (H2 a (set_heap s h)).
  destruct (k a (set_heap s h)) as [b s''|p s''|]; [|destruct H2 as [H2 Hp]; split; [|done]|done];
  destruct H2 as [h' ->]; by exists h'.
Qed.
Lemma honly_alloc o : honly (alloc o).
Proof. intros s. cbn. eauto. Qed.
Lemma honly_write a o : honly (write_obj a o).
Proof. intros s. cbn. eauto. Qed.
Lemma honly_read a : honly (read_obj a).
Proof.
  intros s. unfold read_obj. destruct (s_heap s !! a).
  - exists (s_heap s). by rewrite set_heap_same.
  - split; [exists (s_heap s); by rewrite set_heap_same|]. not_internal.
Qed.
Lemma honly_lift {A} (r : res A) : (forall p, r = RPanic p -> panic_free p) -> honly (lift r).
Proof.
  intros H s. unfold lift. destruct r.
  - exists (s_heap s). by rewrite set_heap_same.
  - split; [exists (s_heap s); by rewrite set_heap_same|]. by apply H.
  - done.
Qed.
Lemma nm_get_or_panic_free m k p : nm_get_or_panic m k = RPanic p -> panic_free p.
Proof. unfold nm_get_or_panic. destruct (nm_get m k); [done|]. intros [= <-]. not_internal. Qed.

Ltac ho1 :=
  first
    [ apply honly_ret | apply honly_alloc | apply honly_write | apply honly_read
    | apply honly_lift; intros ? ?; by eapply nm_get_or_panic_free
    | apply honly_panic; not_internal
    | apply honly_bind; [|intros ?]
    | match goal with
      | |- honly (match ?x with _ => _ end) => destruct x
      | |- honly (if ?x then _ else _) => destruct x
      end ].
Ltac ho := repeat ho1.

Lemma honly_merge_keys dst src ks : honly (merge_keys dst src ks).
Proof. induction ks as [|k ks IH]; cbn [merge_keys]; [ho|]. ho. exact IH. Qed.
Lemma honly_merge_label dst m ks : honly (merge_label dst m ks).
Proof. induction ks as [|k ks IH]; cbn [merge_label]; [ho|]. apply honly_bind; [ho|]. intros _. exact IH. Qed.
Lemma honly_type_of x : honly (type_of x).
Proof. unfold type_of. ho. Qed.
Lemma honly_merge x y : honly (merge x y).
Proof.
  unfold merge. repeat first [apply honly_type_of|apply honly_merge_keys|apply honly_merge_label|ho1].
Qed.
Lemma honly_add_labelled l r x : honly (add_labelled l r x).
Proof. unfold add_labelled. repeat first [apply honly_merge|ho1]. Qed.
Lemma honly_set_origin x o : honly (set_origin x o).
Proof. unfold set_origin. ho. Qed.
Lemma honly_wrap_label i x : honly (wrap_label i x).
Proof. unfold wrap_label. ho. Qed.

Lemma core_heap s h : core s (set_heap s h).
Proof. done. Qed.

Lemma tr_honly {A} (m : M A) s (Q : A -> st -> Prop) : honly m -> G s ->
  (forall a h, Q a (set_heap s h)) -> tr m s Q XP.
Proof.
  intros H HG HQ. unfold tr. specialize (H s). destruct (m s) as [a s'|p s'|]; [| |done].
  - by destruct H as [h ->].
  - destruct H as [[h ->] Hp]. apply XP_free; [done|]. apply HG.
Qed.

(** Logging. *)
Lemma tr_log0 s : s_code s = c_with_pos c0 (st_pos s) -> st_pos s <= L -> tr (log_ E) s (fun _ s' => s' = s) XP.
Proof.
  intros Hc Hp0. unfold log_. destruct (e_skiplog E); [done|].
  apply tr_bind, tr_gets.
  destruct (Hlines (st_pos s)) as [[l Hl] [k Hk]]; [done|].
  rewrite <- Hc in Hl, Hk.
  assert (tr (do! _ := lift (c_line (s_code s)) in do! _ := lift (c_col (s_code s)) in
     do! _ := lift (c_peek_runes (s_code s) (-5)) in ret tt) s (fun _ s' => s' = s) XP) as Hgo.
  { apply tr_bind, tr_lift; [intros _ _|congruence].
    apply tr_bind, tr_lift; [intros _ _|congruence].
    apply tr_bind, tr_lift; [done|]. intros p Hp.
    rewrite c_peek_runes_eq in Hp; [|rewrite Hc; unfold c_wf; rewrite c_with_pos_pos, c_with_pos_work; exact Hp0].
    change (-5 <=? 0)%Z with true in Hp. cbv match in Hp.
    destruct (last_n_runes_any (take (c_pos (s_code s)) (c_work (s_code s))) (- -5)) as [[x Hx]|Hx]; rewrite Hx in Hp; [done|].
    injection Hp as <-. apply XP_free; [not_internal|exact Hp0]. }
  apply tr_bind.
  apply (tr_weaken _ _ (fun _ s' => s' = s)).
  - destruct (e_filter E =? -1)%Z; [done|]. apply tr_bind, tr_lift; [done|congruence].
  - intros [] s' ->; [exact Hgo|done].
Qed.
Lemma tr_log s : G s -> tr (log_ E) s (fun _ s' => s' = s) XP.
Proof. intros HG. apply tr_log0; apply HG. Qed.
Lemma tr_log_if b s : G s -> tr (log_if E b) s (fun _ s' => s' = s) XP.
Proof. destruct b; [apply tr_log|done]. Qed.

Lemma tr_set_pos s p (Q : unit -> st -> Prop) X : G s -> p <= L ->
  Q tt (set_code s (c_with_pos c0 p)) -> tr (set_pos p) s Q X.
Proof. intros HG Hp HQ. unfold tr. by rewrite set_pos_eq. Qed.

(** ** Parse methods *)
Section Body.
Variable P : node -> Prop.
Variable rec : node -> M (option ast).
Hypothesis Hrec : forall n s, P n -> G s -> s_stack s <> [] -> tr (rec n) s (fun _ s' => GR s s') XP.

Lemma GR_nonempty s s' : GR s s' -> s_stack s <> [] -> s_stack s' <> [].
Proof. intros H. by rewrite (GR_stack _ _ H). Qed.

Lemma tr_rec {B} (n : node) (k : option ast -> M B) s0 s (Q : B -> st -> Prop) : P n -> GR s0 s -> s_stack s0 <> [] ->
  (forall r s', GR s0 s' -> tr (k r) s' Q XP) -> tr (bind (rec n) k) s Q XP.
Proof.
  intros Hn Hs Hne Hk. apply tr_bind. eapply tr_weaken; [apply Hrec; [done|apply Hs|by eapply GR_nonempty]|].
  intros r s' Hs'. apply Hk. by eapply GR_trans.
Qed.

Lemma seq_single_inv l : forall acc s0 s, Forall P l -> GR s0 s -> s_stack s0 <> [] -> tr (seq_single rec l acc) s (fun _ s' => GR s0 s') XP.
Proof.
  induction l as [|c l IH]; intros acc s0 s HP Hs Hne; cbn [seq_single]; [by apply tr_ret|].
  apply Forall_cons in HP as [HPc HPl]. eapply tr_rec; [done..|]. intros r s' Hs'. destruct r; [|by apply tr_ret]. by apply IH.
Qed.
Lemma seq_array_inv l : forall acc s0 s, Forall P l -> GR s0 s -> s_stack s0 <> [] -> tr (seq_array rec l acc) s (fun _ s' => GR s0 s') XP.
Proof.
  induction l as [|c l IH]; intros acc s0 s HP Hs Hne; cbn [seq_array]; [by apply tr_ret|].
  apply Forall_cons in HP as [HPc HPl]. eapply tr_rec; [done..|]. intros r s' Hs'. destruct r; [|by apply tr_ret]. by apply IH.
Qed.
Lemma seq_object_inv l : forall acc s0 s, Forall P l -> GR s0 s -> s_stack s0 <> [] -> tr (seq_object rec l acc) s (fun _ s' => GR s0 s') XP.
Proof.
  induction l as [|c l IH]; intros acc s0 s HP Hs Hne; cbn [seq_object]; [by apply tr_ret|].
  apply Forall_cons in HP as [HPc HPl]. eapply tr_rec; [done..|]. intros r s' Hs'. destruct r as [a|]; [|by apply tr_ret].
  apply tr_bind, tr_honly; [apply honly_add_labelled|apply Hs'|]. intros acc' h. apply IH; [done| |done].
  eapply GR_trans; [done|]. apply GR_core; [apply Hs'|apply core_heap].
Qed.

Lemma choice_inv l : forall s, Forall P l -> G s -> s_stack s <> [] ->
  tr (choice_loop rec l) s (fun r s' => GR s s' /\ (r = None -> st_pos s' = st_pos s)) XP.
Proof.
  induction l as [|c l IH]; intros s HP HG Hne; cbn [choice_loop].
  { apply tr_ret. split; [by apply GR_refl|done]. }
  apply Forall_cons in HP as [HPc HPl]. apply tr_bind, tr_gets. eapply tr_rec; [done|by apply GR_refl|done|].
  intros r s' Hs'. destruct r as [a|].
  - apply tr_ret. split; [done|done].
  - apply tr_bind, tr_set_pos; [apply Hs'|apply HG|].
    pose proof (GR_back _ _ HG Hs') as HB.
    eapply tr_weaken; [apply IH; [done|apply HB|by eapply GR_nonempty]|].
    cbn beta. intros r s'' [Hr1 Hr2]. split; [by eapply GR_trans|]. intros Hr. rewrite (Hr2 Hr). by rewrite st_pos_set_code.
Qed.

Lemma pat_loop_inv lf v j mx : P v -> Forall P (opt_list j) -> forall acc s0 s, GR s0 s -> s_stack s0 <> [] ->
  tr (pat_loop rec lf v j mx acc) s (fun _ s' => GR s0 s') XP.
Proof.
  intros Hv Hj. induction lf as [|lf IH]; intros acc s0 s Hs Hne; cbn [pat_loop]; [done|].
  apply tr_bind, tr_gets.
  assert (forall s1, GR s s1 -> tr (set_pos (st_pos s) ;! ret acc) s1 (fun _ s' => GR s0 s') XP) as Hback.
  { intros s1 H1. apply tr_bind, tr_set_pos; [apply H1|apply Hs|]. apply tr_ret. eapply GR_trans; [done|].
    apply GR_back; [apply Hs|done]. }
  assert (tr (match j with None => ret true | Some jn => do! r := rec jn in
                              ret (match r with None => false | Some _ => true end) end) s (fun _ s' => GR s s') XP) as HJ.
  { destruct j as [jn|]; [|apply tr_ret; apply GR_refl, Hs]. apply Forall_cons in Hj as [Hjn _].
    eapply tr_rec; [done|apply GR_refl, Hs|by eapply GR_nonempty|]. intros r s' Hs'. by apply tr_ret. }
  apply tr_bind. eapply tr_weaken; [exact HJ|]. cbn beta. intros [] s1 H1; [|by apply Hback].
  eapply tr_rec; [done|exact H1|by eapply GR_nonempty|].
  intros r s2 H2. destruct r as [a|]; [|by apply Hback].
  destruct (_ && _)%bool; [apply tr_ret; by eapply GR_trans|]. apply IH; [by eapply GR_trans|done].
Qed.

(** Does the parser give the cursor back when it fails (or always, for
    lookaheads)? *)
Definition gives_back (k : kind node) (ok : bool) : bool :=
  match k with
  | KLook _ | KNot _ | KUndef => true
  | KStr _ | KRegex _ | KChoice _ | KPat _ _ _ _ => negb ok
  | _ => false
  end.

Lemma body_inv lf n s : (forall c, c ∈ children n -> P c) ->
  (forall name t, e_rule E name = Some t -> P t) ->
  G s -> s_stack s <> [] ->
  tr (body E rec lf n) s (fun r s' => GR s s' /\ (gives_back (n_kind n) (success r) = true -> st_pos s' = st_pos s)) XP.
Proof.
  intros Hch Hrule HG Hne. unfold body, children in *.
  assert (c_wf (s_code s)) as Hwf.
  { rewrite (gi_code _ _ _ _ HG). unfold c_wf. rewrite c_with_pos_pos, c_with_pos_work. apply HG. }
  assert (forall p, p <= L -> st_pos s <= p -> GR s (set_code s (c_with_pos c0 p))) as Hmv.
  { intros p Hp1 Hp2. split; [by apply G_move_ge|]. split; [apply set_code_ext|]. by rewrite st_pos_set_code. }
  assert (c_work (s_code s) = c_work c0) as HW by (rewrite (gi_code _ _ _ _ HG); apply c_with_pos_work).
  assert (forall p, c_with_pos (s_code s) p = c_with_pos c0 p) as HC.
  { intros p. rewrite (gi_code _ _ _ _ HG). apply c_with_pos_twice. }
  assert (set_code s (s_code s) = s) as Hsame by (by destruct s).
  destruct (n_kind n) as [str|re|name|ty l|l|v j mn mx|a|a|a|] eqn:EK; cbn [gives_back].
  - unfold tr. rewrite c_match_string_eq by done. destruct (bytes_eqb_spec str (take (length str) (drop (c_pos (s_code s)) (c_work (s_code s))))) as [Heq|Hneq].
    + cbn [fmap option_fmap option_map]. split; [|done]. rewrite HC. apply Hmv; change (c_pos (s_code s)) with (st_pos s); [|lia].
      apply (f_equal length) in Heq. rewrite take_length, drop_length, HW in Heq.
      change (c_pos (s_code s)) with (st_pos s) in Heq. pose proof (gi_pos _ _ _ _ HG). lia.
    + cbn [fmap option_fmap option_map]. rewrite Hsame. split; [by apply GR_refl|done].
  - unfold tr. rewrite c_match_regexp_eq by done.
    destruct (e_rx E re (drop (c_pos (s_code s)) (c_work (s_code s)))) as [[[|l0] l1]|] eqn:ER;
    cbn [fmap option_fmap option_map]; rewrite ?Hsame; [|split; [by apply GR_refl|done]..].
    split; [|done]. rewrite HC. apply Hmv; change (c_pos (s_code s)) with (st_pos s); [|lia].
    apply Hrx in ER. rewrite drop_length, HW in ER. change (c_pos (s_code s)) with (st_pos s) in ER.
    pose proof (gi_pos _ _ _ _ HG). lia.
  - destruct (e_rule E name) as [t|] eqn:ET.
    + apply tr_bind. unfold tr at 1, stack_peek. destruct (s_stack s) as [|a stk] eqn:ES; [done|].
      destruct (G_stack_valid s a HG) as (f & Hf & _); [rewrite ES; left|].
      unfold get_fr. rewrite Hf. eapply tr_weaken; [apply Hrec; [by eapply Hrule|done|by rewrite ES]|].
      intros r s' Hs'. split; [done|done].
    + apply tr_panic, XP_free; [not_internal|apply HG].
  - assert (forall (m : M (option ast)), tr m s (fun _ s' => GR s s') XP -> tr m s (fun r s' => GR s s' /\ (false = true -> st_pos s' = st_pos s)) XP) as HWK.
    { intros m Hm. eapply tr_weaken; [exact Hm|]. intros r s' ?. split; done. }
    assert (Forall P l) as HF by (by apply Forall_forall).
    assert (GR s s) as HR by (by apply GR_refl).
    destruct ty; [apply HWK, seq_single_inv; done|apply HWK, seq_array_inv; done|].
    destruct l as [|c l]; [apply tr_ret; split; done|]. apply HWK, seq_object_inv; done.
  - eapply tr_weaken; [apply choice_inv; [by apply Forall_forall|done|done]|].
    cbn beta. intros r s' [H1 H2]. split; [done|]. destruct r; [done|auto].
  - apply tr_bind, tr_gets. eapply tr_rec; [apply Hch; left|by apply GR_refl|done|].
    intros r s1 H1. destruct r as [a|].
    + apply tr_bind. eapply tr_weaken; [apply (pat_loop_inv lf v j mx); [apply Hch; left| |exact H1|done]|].
      { apply Forall_forall. intros x Hx. apply Hch. by right. }
      cbn beta. intros ms s2 H2. destruct (_ && _)%bool.
      * apply tr_bind, tr_set_pos; [apply H2|apply HG|]. apply tr_ret. split; [by apply GR_back|]. by rewrite st_pos_set_code.
      * apply tr_ret. split; [done|done].
    + apply tr_bind, tr_set_pos; [apply H1|apply HG|].
      destruct (0 <? mn)%Z; apply tr_ret; (split; [by apply GR_back|by rewrite st_pos_set_code]).
  - apply tr_bind, tr_gets. eapply tr_rec; [apply Hch; left|by apply GR_refl|done|].
    intros r s1 H1. destruct r as [x|].
    + apply tr_ret. split; [done|done].
    + apply tr_bind, tr_set_pos; [apply H1|apply HG|]. apply tr_ret. split; [by apply GR_back|done].
  - apply tr_bind, tr_gets. eapply tr_rec; [apply Hch; left|by apply GR_refl|done|].
    intros r s1 H1. apply tr_bind, tr_set_pos; [apply H1|apply HG|]. apply tr_ret. split; [by apply GR_back|]. by rewrite st_pos_set_code.
  - apply tr_bind, tr_gets. eapply tr_rec; [apply Hch; left|by apply GR_refl|done|].
    intros r s1 H1. apply tr_bind, tr_set_pos; [apply H1|apply HG|]. apply tr_ret. split; [by apply GR_back|]. by rewrite st_pos_set_code.
  - apply tr_ret. split; [by apply GR_refl|done].
Qed.
End Body.


Lemma tr_run {A B} (m : M A) (k : A -> M B) s a s' (Q : B -> st -> Prop) X :
  m s = Ok a s' -> tr (k a) s' Q X -> tr (bind m k) s Q X.
Proof. intros H1 H2. apply tr_bind. unfold tr at 1. by rewrite H1. Qed.
Lemma bind_Ok {A B} (m : M A) (k : A -> M B) s a s' : m s = Ok a s' -> bind m k s = k a s'.
Proof. unfold bind. by intros ->. Qed.

Lemma get_fr_ok s a f : s_fheap s !! a = Some f -> get_fr a s = Ok f s.
Proof. unfold get_fr. by intros ->. Qed.
Lemma set_stage_ok s a f z : s_fheap s !! a = Some f ->
  set_stage a z s = Ok tt (set_fheap s (<[a := fr_stage f z]> (s_fheap s))).
Proof. intros H. unfold set_stage. by rewrite (bind_Ok _ _ _ _ _ (get_fr_ok _ _ _ H)). Qed.
Lemma cache_set_ok s a f r e : s_fheap s !! a = Some f ->
  cache_set a r e s = Ok tt (set_fheap s (<[a := fr_cache f r e]> (s_fheap s))).
Proof. intros H. unfold cache_set. by rewrite (bind_Ok _ _ _ _ _ (get_fr_ok _ _ _ H)). Qed.
Lemma set_mask_ok s a f m : s_fheap s !! a = Some f ->
  set_mask a m s = Ok tt (set_fheap s (<[a := fr_mask f m]> (s_fheap s))).
Proof. intros H. unfold set_mask. by rewrite (bind_Ok _ _ _ _ _ (get_fr_ok _ _ _ H)). Qed.
Lemma put_same s a f f' : s_fheap s !! a = Some f ->
  s_fheap (set_fheap s (<[a := f']> (s_fheap s))) !! a = Some f'.
Proof. intros H. cbn. apply list_lookup_insert. by eapply lookup_lt_Some. Qed.

Lemma tr_peek s (Q : frame -> st -> Prop) : G s -> s_stack s <> [] -> (forall f, Q f s) -> tr stack_peek s Q XP.
Proof.
  intros HG Hne HQ. unfold tr, stack_peek. destruct (s_stack s) as [|a stk] eqn:ES; [done|].
  destruct (G_stack_valid s a HG) as (f & Hf & _); [rewrite ES; left|]. unfold get_fr. rewrite Hf. apply HQ.
Qed.

Lemma prepare_inv (fp : M (option ast)) (bb bk : bool -> bool) n s : G s -> s_stack s <> [] ->
  (forall b, bk b = true -> bb b = true) -> (bk false = true -> i_cb (n_info n) = None \/ bb true = true) ->
  (forall s', core s s' -> tr fp s' (fun r s'' => GR s' s'' /\ (bb (success r) = true -> st_pos s'' = st_pos s')) XP) ->
  tr (prepare_result E fp n) s
    (fun r s' => GR s s' /\ (bk (success r) = true -> st_pos s' = st_pos s)) XP.
Proof.
  intros HG Hne Hb1 Hb2 Hfp. unfold prepare_result.
  set (s1 := set_counter s (S (s_counter s))).
  assert (core s s1) as HC1 by done.
  eapply (tr_run _ _ s tt s1); [done|]. apply tr_bind.
  eapply tr_weaken; [by apply Hfp|]. cbn beta. intros r s2 [H2 Hn2].
  assert (GR s s2) as HR2. { eapply GR_trans; [|exact H2]. by apply GR_core. }
  destruct r as [x|]; [|apply tr_ret; split; [done|]; intros Hb; by apply Hn2, Hb1].
  apply tr_bind, tr_honly; [apply honly_wrap_label|apply HR2|]. intros x1 h1.
  set (s3 := set_heap s2 h1).
  assert (GR s s3) as HR3. { eapply GR_trans; [exact HR2|]. apply GR_core; [apply HR2|done]. }
  assert (s_stack s3 <> []) as Hne3 by (by rewrite (GR_stack _ _ HR3)).
  assert (forall y s4, GR s s4 -> st_pos s4 = st_pos s2 -> tr (do! fr := stack_peek in
          do! p := get_pos in
          do! c := gets s_code in
          do! line := lift (c_line c) in
          set_origin y (Origin (c_code c) (f_pos fr) p line (i_name (n_info n))) ;!
          ret (Some y)) s4 (fun r s' => GR s s' /\ (bk (success r) = true -> st_pos s' = st_pos s)) XP) as Hend.
  { intros y s4 H4 Hp4. apply tr_bind, tr_peek; [apply H4|by rewrite (GR_stack _ _ H4)|]. intros f.
    apply tr_bind, tr_gets. apply tr_bind, tr_gets.
    destruct (Hlines (st_pos s4)) as [[l Hl] _]; [apply H4|].
    destruct H4 as (HG4 & H4b). rewrite <- (gi_code _ _ _ _ HG4) in Hl.
    apply tr_bind, tr_lift; [|congruence]. intros l' _.
    apply tr_bind, tr_honly; [apply honly_set_origin|done|]. intros _ h. apply tr_ret. split; [|intros Hb; change (st_pos s4 = st_pos s); rewrite Hp4; by apply Hn2, Hb1].
    eapply GR_trans; [split; [exact HG4|exact H4b]|]. by apply GR_core. }
  apply tr_bind. unfold call_cb. destruct (i_cb (n_info n)) as [c|] eqn:Ecb.
  - apply tr_bind, tr_gets. eapply (tr_run _ _ s3 tt (add_log s3 _)); [done|].
    set (s4 := add_log s3 _).
    assert (GR s s4) as HR4. { eapply GR_trans; [exact HR3|]. apply GR_emit; [apply HR3|]. apply (gi_pos _ _ _ _ (proj1 HR3)). }
    unfold tr at 1. destruct (e_cb E c (st_pos s3) _ x1) as [h r|t].
    + destruct r as [y|].
      * apply Hend; [|done]. eapply GR_trans; [exact HR4|]. apply GR_core; [apply HR4|done].
      * apply tr_ret. split; [|intros Hb; apply Hn2; by destruct (Hb2 Hb)]. eapply GR_trans; [exact HR4|]. apply GR_core; [apply HR4|done].
    + apply XP_free; [not_internal|]. apply (gi_pos _ _ _ _ (proj1 HR3)).
  - apply tr_ret. by apply Hend.
Qed.

(** ** Marking the rules of a left recursion *)
Lemma mark_ok s sp id : forall stk mask, G s -> length mask = N -> stack_desc (s_fheap s) sp stk ->
  exists mask', mark stk sp id mask s = Ok mask' s /\ length mask' = N.
Proof.
  induction stk as [|a stk IH]; intros mask HG Hm Hs; cbn [mark]; [by exists mask|].
  destruct Hs as (f & Ha & Hp & Hr). rewrite (bind_Ok _ _ _ _ _ (get_fr_ok _ _ _ Ha)).
  assert (sp <? f_pos f = false) as -> by (apply Nat.ltb_ge; lia).
  destruct ((f_pos f <? sp) || (f_id f =? id))%bool eqn:EB; [by exists mask|].
  apply orb_false_iff in EB as [E1 _]. apply Nat.ltb_ge in E1.
  destruct (G_frame _ _ _ HG Ha) as (_ & _ & Hid & _).
  assert (length mask <=? f_id f = false) as -> by (apply Nat.leb_gt; lia).
  apply IH; [done|by rewrite insert_length|]. eapply stack_desc_bound; [done|lia].
Qed.

(** ** Wiping and restoring *)
Definition sub_table (t t' : list (list (option nat))) : Prop :=
  forall p i a, table_get t' p i = Some (Some a) -> table_get t p i = Some (Some a).

Lemma G_frames s t : G s -> length t = length (s_frames s) -> Forall (fun row => length row = N) t ->
  (forall p i a, table_get t p i = Some (Some a) -> is_frame_at s a p i) -> G (set_frames s t).
Proof. intros HG H1 H2 H3. destruct HG. split; try done. cbn. congruence. Qed.

Definition stash_ok (s : st) (p k : nat) (l : list (option nat)) : Prop :=
  forall j a, l !! j = Some (Some a) -> is_frame_at s a p (k + j) /\ k + j < N.

Lemma wipe_ok s a f m b : G s -> s_fheap s !! a = Some f -> f_mask f = Some m ->
  exists stash s', wipe_with a b s = Ok stash s' /\ G s' /\ core (set_frames s (s_frames s')) s' /\
    stash_ok s (f_pos f) 0 stash.
Proof.
  intros HG Ha Hm. destruct (G_frame _ _ _ HG Ha) as (_ & Hp & Hi & _ & Hl & _). specialize (Hl _ Hm).
  unfold wipe_with. rewrite (bind_Ok _ _ _ _ _ (get_fr_ok _ _ _ Ha)), Hm.
  destruct (G_row s (f_pos f) HG Hp) as (row & Hrow & Hlen). rewrite Hrow, Hl, Hlen, Nat.eqb_refl. cbn [negb].
  eexists _, _. split; [reflexivity|].
  assert (length (zip_with (fun (b : bool) (o : option nat) => if b then None else o) m row) = N) as Hl2
    by (rewrite zip_with_length; lia).
  split; [|split; [done|]].
  - apply G_frames; [done|by rewrite insert_length| |].
    + apply Forall_insert; [apply HG|done].
    + intros p i x Hx. apply (gi_ent _ _ _ _ HG). revert Hx. unfold table_get.
      destruct (decide (f_pos f = p)) as [<-|Hne].
      * rewrite list_lookup_insert by (by eapply lookup_lt_Some). rewrite Hrow. intros Hx.
        apply lookup_zip_with_Some in Hx as (bb & o & Hx & _ & Ho). destruct bb; congruence.
      * by rewrite list_lookup_insert_ne.
  - intros j x Hx. destruct b; [|done].
    apply lookup_zip_with_Some in Hx as (bb & o & Hx & _ & Ho). destruct bb; [|done]. subst o.
    split; [|apply lookup_lt_Some in Ho; cbn; lia].
    apply (gi_ent _ _ _ _ HG). unfold table_get. by rewrite Hrow.
Qed.

Lemma restore_ok sp : sp <= L -> forall l k s, G s -> stash_ok s sp k l ->
  exists s', restore_from k l s = Ok tt s' /\ G s' /\ core (set_frames s (s_frames s')) s'.
Proof.
  intros Hsp. induction l as [|o l IH]; intros k s HG Hst; cbn [restore_from].
  { exists s. split; [done|]. split; [done|]. by destruct s. }
  destruct o as [a|].
  - destruct (Hst 0 a eq_refl) as [(f & Hf & Hp & Hi) Hk]. rewrite Nat.add_0_r in Hi, Hk.
    destruct (G_table_some s sp k HG) as [o Ho]; [done|lia|].
    set (s1 := set_frames s (table_set (s_frames s) sp k (Some a))).
    assert (G s1) as HG1.
    { apply G_frames; [done|by rewrite table_set_length|apply table_set_rows, HG|].
      intros p i b. rewrite table_get_set by congruence.
      destruct (bool_decide_reflect (sp = p)), (bool_decide_reflect (k = i)); cbn [andb];
        [|intros Hb; by apply (gi_ent _ _ _ _ HG)..].
      intros [= <-]. exists f. split; [done|]. split; congruence. }
    assert (stash_ok s1 sp (S k) l) as Hst1.
    { intros j b Hb. specialize (Hst (S j) b Hb). rewrite Nat.add_succ_r in Hst. exact Hst. }
    destruct (IH (S k) s1 HG1 Hst1) as (s' & H1 & H2 & H3). exists s'. split; [|by split].
    unfold bind at 1. rewrite (bind_Ok _ _ _ _ _ (get_fr_ok _ _ _ Hf)). rewrite Hp, Ho. exact H1.
  - assert (stash_ok s sp (S k) l) as Hst1.
    { intros j b Hb. specialize (Hst (S j) b Hb). rewrite Nat.add_succ_r in Hst. exact Hst. }
    destruct (IH (S k) s HG Hst1) as (s' & H1 & H2 & H3). exists s'. by split.
Qed.

(** ** Everything but the frame at [a] evolves as usual *)
Definition frel' (f g : frame) : Prop :=
  f_pos f = f_pos g /\ f_id f = f_id g /\ (f_mask f <> None -> f_mask g <> None).
Definition ext_but (a : nat) (s s' : st) : Prop :=
  s_stack s' = s_stack s /\
  (forall b f, b <> a -> s_fheap s !! b = Some f -> exists f', s_fheap s' !! b = Some f' /\ frel f f') /\
  (forall f, s_fheap s !! a = Some f -> exists f', s_fheap s' !! a = Some f' /\ frel' f f').
Lemma ext_but_of a s s' : ext s s' -> ext_but a s s'.
Proof.
  intros [H1 H2]. split; [done|]. split; [intros; by apply H2|]. intros f Hf.
  destruct (H2 _ _ Hf) as (f' & Hf' & ? & ? & ? & ?). exists f'. by split.
Qed.
Lemma ext_but_trans a s1 s2 s3 : ext_but a s1 s2 -> ext_but a s2 s3 -> ext_but a s1 s3.
Proof.
  intros (A1 & A2 & A3) (B1 & B2 & B3). split; [congruence|]. split.
  - intros b f Hb Hf. destruct (A2 _ _ Hb Hf) as (f' & Hf' & R1). destruct (B2 _ _ Hb Hf') as (f'' & Hf'' & R2).
    exists f''. split; [done|by eapply frel_trans].
  - intros f Hf. destruct (A3 _ Hf) as (f' & Hf' & R1 & R2 & R3). destruct (B3 _ Hf') as (f'' & Hf'' & S1 & S2 & S3).
    exists f''. split; [done|]. split; [congruence|]. split; [congruence|auto].
Qed.
Lemma ext_but_put a s f f' : s_fheap s !! a = Some f -> frel' f f' -> ext_but a s (set_fheap s (<[a := f']> (s_fheap s))).
Proof.
  intros Ha Hr. split; [done|]. cbn [set_fheap s_fheap]. split.
  - intros b g Hb Hg. exists g. rewrite list_lookup_insert_ne by done. split; [done|apply frel_refl].
  - intros g Hg. exists f'. rewrite list_lookup_insert by (by eapply lookup_lt_Some). split; [done|congruence].
Qed.
Lemma ext_but_core a s s' : s_stack s' = s_stack s -> s_fheap s' = s_fheap s -> ext_but a s s'.
Proof.
  intros E1 E2. apply ext_but_of. split; [done|]. rewrite E2. intros b g Hg. exists g. split; [done|apply frel_refl].
Qed.
Lemma ext_but_done a s s' f f' : ext_but a s s' -> s_fheap s !! a = Some f -> s_fheap s' !! a = Some f' ->
  stage_rel (f_stage f) (f_stage f') -> ext s s'.
Proof.
  intros (A1 & A2 & A3) Hf Hf' Hs. split; [done|]. intros b g Hg. destruct (decide (b = a)) as [->|Hne]; [|by apply A2].
  destruct (A3 _ Hg) as (g' & Hg' & R1 & R2 & R3). exists g'. split; [done|]. simplify_eq. by split.
Qed.

Section Loop.
Variable fp : M (option ast).
Variable bk : bool -> bool.
Hypothesis Hfp : forall s, G s -> s_stack s <> [] ->
  tr fp s (fun r s' => GR s s' /\ (bk (success r) = true -> st_pos s' = st_pos s)) XP.

Lemma desc_ext s s' b : ext s s' -> stack_desc (s_fheap s) b (s_stack s) -> stack_desc (s_fheap s') b (s_stack s').
Proof.
  intros [H1 H2] H. rewrite H1. eapply stack_desc_ext; [done|].
  intros x g Hg. destruct (H2 _ _ Hg) as (g' & ? & ? & _). by exists g'.
Qed.
Lemma desc_put s a f f' b : s_fheap s !! a = Some f -> f_pos f' = f_pos f ->
  stack_desc (s_fheap s) b (s_stack s) -> stack_desc (<[a := f']> (s_fheap s)) b (s_stack s).
Proof.
  intros Ha Hp H. eapply stack_desc_ext; [done|]. intros x g Hg. destruct (decide (a = x)) as [<-|Hne].
  - exists f'. rewrite list_lookup_insert by (by eapply lookup_lt_Some). split; [done|]. congruence.
  - exists g. by rewrite list_lookup_insert_ne.
Qed.

Lemma is_frame_ext_but a s s' b p i : ext_but a s s' -> is_frame_at s b p i -> is_frame_at s' b p i.
Proof.
  intros (_ & A2 & A3) (f & Hf & Hp & Hi). destruct (decide (b = a)) as [->|Hne].
  - destruct (A3 _ Hf) as (f' & Hf' & R1 & R2 & _). exists f'. split; [done|]. split; congruence.
  - destruct (A2 _ _ Hne Hf) as (f' & Hf' & R1 & R2 & _). exists f'. split; [done|]. split; congruence.
Qed.

Lemma grow_inv show id a sp lf : forall x s f, G s -> s_stack s <> [] ->
  s_fheap s !! a = Some f -> f_stage f = 3%Z -> f_pos f = sp -> sp <= st_pos s ->
  stack_desc (s_fheap s) sp (s_stack s) ->
  f_id f = id -> (forall b, gb id b = true -> bk b = true) -> (gb id true = true -> st_pos s = sp) ->
  tr (grow E lf fp show id a sp x) s (fun best s' =>
    let '(_, bp, stash) := best in
    G s' /\ ext_but a s s' /\ st_pos s' <= L /\ sp <= st_pos s' /\ sp <= bp <= L /\ stash_ok s' sp 0 stash /\ (gb id true = true -> bp = sp) /\
    exists f', s_fheap s' !! a = Some f' /\ f_stage f' = 3%Z) XP.
Proof.
  induction lf as [|lf IH]; intros x s f HG Hne Ha Hst Hp Hsp Hdesc Hfid Hbk Hstay; cbn [grow]; [done|].
  eapply tr_run; [by apply get_fr_ok|].
  pose proof (G_frame _ _ _ HG Ha) as (Hf0 & Hf1 & Hf2 & Hf3 & Hf4 & Hf5 & Hf6).
  destruct (f_mask f) as [m|] eqn:Hm; [|by destruct Hf5; [right|]].
  destruct (wipe_ok s a f m true HG Ha Hm) as (stash & s1 & Hw & HG1 & (C1 & C2 & C3 & C4 & C5) & Hstash).
  cbn in C1, C2, C3, C4, C5.
  eapply tr_run; [exact Hw|]. apply tr_bind, tr_gets.
  assert (st_pos s1 = st_pos s) as Hps by (unfold st_pos; by rewrite C1).
  assert (s_fheap s1 !! a = Some f) as Ha1 by (by rewrite C3).
  eapply tr_run; [by apply cache_set_ok|].
  set (f2 := fr_cache f (Some x) (Some (st_pos s1))).
  set (s2 := set_fheap s1 _).
  assert (frame_ok gb N L f2) as Hok2.
  { split.
    { unfold nil_ok. cbn. rewrite Hfid, Hp. intros Hg e [= <-]. rewrite Hps. by apply Hstay. } split; [done|]. split; [done|]. split; [|split; [cbn; by rewrite Hm|split; [|done]]].
    - cbn. intros e [= <-]. rewrite Hps. split; [lia|apply HG].
    - cbn. by rewrite Hm. }
  assert (G s2) as HG2 by (by eapply G_put).
  apply tr_bind. eapply tr_weaken; [by apply tr_log_if|]. cbn beta. intros _ ? ->.
  apply tr_bind, tr_set_pos; [done|lia|].
  set (s3 := set_code s2 _).
  assert (stack_desc (s_fheap s2) sp (s_stack s2)) as Hdesc2.
  { cbn. eapply desc_put; [done|done|]. by rewrite C3, C4. }
  assert (G s3) as HG3 by (apply G_move; [done|lia|done]).
  eapply (tr_run _ _ s3 tt (add_log s3 (EvBody id sp))); [done|].
  set (s4 := add_log s3 _).
  assert (GR s3 s4) as HR4 by (apply GR_emit; [done|cbn; lia]).
  assert (ext_but a s s4) as HX4.
  { eapply ext_but_trans; [apply ext_but_core; [exact C4|exact C3]|].
    eapply ext_but_trans; [apply (ext_but_put a s1 f f2); [done|by split]|].
    by apply ext_but_core. }
  apply tr_bind. eapply tr_weaken; [apply Hfp; [apply HR4|]|].
  { change (s_stack s4) with (s_stack s1). by rewrite C4. }
  cbn beta. intros r s5 [H5 Hn5]. apply tr_bind, tr_gets.
  assert (st_pos s3 = sp) as Hp3 by (apply st_pos_set_code).
  change (st_pos s4) with (st_pos s3) in H5.
  assert (ext_but a s s5) as HX5 by (eapply ext_but_trans; [exact HX4|apply ext_but_of, H5]).
  destruct (proj2 (proj1 (proj2 H5)) a f2) as (f5 & Hf5' & R1 & R2 & R3 & R4).
  { cbn. apply list_lookup_insert. by eapply lookup_lt_Some. }
  assert (f_stage f5 = 3%Z) as Hst5. { cbn in R3. rewrite Hst in R3. unfold stage_rel in R3. lia. }
  destruct H5 as (HG5 & HE5 & Hp5).
  assert (G s5 /\ ext_but a s s5 /\ st_pos s5 <= L /\ sp <= st_pos s5 /\ sp <= st_pos s1 <= L /\ stash_ok s5 sp 0 stash /\ (gb id true = true -> st_pos s1 = sp) /\
    exists f', s_fheap s5 !! a = Some f' /\ f_stage f' = 3%Z) as Hfin.
  { split; [done|]. split; [done|]. split; [apply HG5|].
    split; [change (st_pos s4) with (st_pos s3) in Hp5; lia|].
    split; [rewrite Hps; split; [lia|apply HG]|]. split; [|split; [rewrite Hps; exact Hstay|by exists f5]].
    rewrite <- Hp. intros j b Hb. destruct (Hstash j b Hb) as [Hb1 Hb2]. split; [|done]. by eapply is_frame_ext_but. }
  destruct (st_pos s5 <=? st_pos s1); [by apply tr_ret|].
  destruct r as [r|]; [|by apply tr_ret].
  eapply tr_weaken; [eapply (IH r s5 f5); try done|].
  - destruct HE5 as [-> _]. change (s_stack s4) with (s_stack s1). by rewrite C4.
  - cbn in R1. congruence.
  - change (st_pos s4) with (st_pos s3) in Hp5. lia.
  - eapply (desc_ext s4); [done|]. done.
  - cbn in R2. congruence.
  - intros Hg. rewrite Hn5; [exact Hp3|]. cbn. by apply Hbk.
  - intros [[bx bp] bst] s6 (K1 & K2 & K3). split; [done|]. split; [by eapply ext_but_trans|done].
Qed.

Lemma loopify_inv lf n s : i_id (n_info n) < N -> G s -> s_stack s <> [] ->
  stack_desc (s_fheap s) (st_pos s) (tail (s_stack s)) ->
  (forall b, gb (i_id (n_info n)) b = true -> bk b = true) ->
  tr (loopify E lf fp n) s (fun r s' => GR s s' /\ (gb (i_id (n_info n)) (success r) = true -> st_pos s' = st_pos s)) XP.
Proof.
  intros Hid HG Hne Hdesc Hbk. unfold loopify. set (show := (e_stack E || i_debug (n_info n))%bool).
  apply tr_bind. eapply tr_weaken; [by apply tr_log_if|]. cbn beta. intros _ ? ->.
  destruct (i_skip (n_info n)).
  { apply tr_bind, tr_gets. eapply (tr_run _ _ s tt (add_log s _)); [done|]. 
    set (s1 := add_log s _). assert (GR s s1) as HR1 by (apply GR_emit; [done|apply HG]).
    apply tr_bind. eapply tr_weaken; [apply Hfp; [apply HR1|done]|]. cbn beta. intros r s2 [H2 Hn2].
    assert (GR s s2) as HR2 by (eapply GR_trans; [exact HR1|exact H2]).
    apply tr_bind. eapply (tr_weaken _ _ (fun _ s' => s' = s2)).
    - destruct show; [|done]. destruct r; [apply tr_log, HR2|]. apply tr_panic, XP_free; [not_internal|apply HR2].
    - intros _ ? ->. apply tr_ret. split; [done|]. intros Hg. by apply Hn2, Hbk. }
  destruct (get_frame_ok s (i_id (n_info n)) HG Hid) as (a & s1 & Hgf & HG1 & HE1 & Hp1 & HT1 & (f0 & Hf0 & Hf0p & Hf0i)).
  eapply tr_run; [exact Hgf|]. apply tr_bind, tr_gets. eapply tr_run; [by apply get_fr_ok|].
  set (sp := st_pos s1).
  assert (exists s2 f, (if (f_stage f0 <? 0)%Z then set_stage a 0 else ret tt) s1 = Ok tt s2 /\ G s2 /\
    s_fheap s2 !! a = Some f /\ ext s1 s2 /\ st_pos s2 = sp /\ f_pos f = sp /\ f_id f = i_id (n_info n) /\ (0 <= f_stage f)%Z) as
    (s2 & f & Hs2 & HG2 & Hf & HE2 & Hp2 & Hfp2 & Hfid2 & Hst2).
  { pose proof (G_frame _ _ _ HG1 Hf0) as (K0 & K1 & K2 & K3 & K4 & K5 & K6).
    destruct (Z.ltb_spec (f_stage f0) 0).
    - eexists _, (fr_stage f0 0). split; [by apply set_stage_ok|]. split; [|split; [by eapply put_same|split; [|split; [done|split; [|done]]]]].
      + eapply G_put; [done|done| |done|done]. split; [done|]. split; [done|]. split; [done|]. split; [done|]. split; [done|]. cbn. split; [lia|lia].
      + eapply ext_put; [done|]. split; [done|]. split; [done|]. split; [|done]. cbn. unfold stage_rel. lia.
      + cbn. unfold sp. congruence.
    - exists s1, f0. split; [done|]. split; [done|]. split; [done|]. split; [apply ext_refl|]. split; [done|]. unfold sp. split; [congruence|]. split; [done|lia]. }
  eapply tr_run; [exact Hs2|]. eapply tr_run; [by apply get_fr_ok|].
  pose proof (G_frame _ _ _ HG2 Hf) as (K0 & K1 & K2 & K3 & K4 & K5 & K6).
  assert (ext s s2) as HE by (by eapply ext_trans).
  assert (GR s s2) as HR by (split; [done|]; split; [done|]; unfold sp in *; lia).
  assert (s_stack s2 <> []) as Hne2 by (by rewrite (GR_stack _ _ HR)).
  destruct (Z.eqb_spec (f_stage f) 0) as [Hz|Hz].
  - destruct (f_end f) as [e|] eqn:Hend.
    { destruct (K3 e eq_refl) as [Ke1 Ke2]. apply tr_bind. eapply tr_weaken; [by apply tr_log_if|]. cbn beta. intros _ ? ->.
      apply tr_bind, tr_set_pos; [done|done|]. apply tr_ret. split.
      { eapply GR_trans; [exact HR|].
        split; [apply G_move_ge; [done|done|lia]|]. split; [apply set_code_ext|]. rewrite st_pos_set_code. lia. }
      intros Hg. rewrite st_pos_set_code. rewrite (K0 ltac:(by rewrite Hfid2) e Hend). unfold sp in *. lia. }
    eapply tr_run; [by apply set_stage_ok|]. set (s3 := set_fheap s2 _). set (f3 := fr_stage f 1) in *.
    assert (s_fheap s3 !! a = Some f3) as Hf3 by (by eapply put_same).
    eapply tr_run; [by apply cache_set_ok|]. set (s4 := set_fheap s3 _). set (f4 := fr_cache f3 None None) in *.
    assert (s_fheap s4 !! a = Some f4) as Hf4 by (by eapply put_same).
    assert (frame_ok gb N L f3) as Hok3.
    { split; [done|]. split; [done|]. split; [done|]. split; [cbn; by rewrite Hend|]. split; [done|]. cbn. split; [lia|lia]. }
    assert (frame_ok gb N L f4) as Hok4.
    { split; [done|]. split; [done|]. split; [done|]. split; [done|]. split; [done|]. cbn. split; [lia|lia]. }
    assert (G s3) as HG3 by (by eapply G_put).
    assert (G s4) as HG4 by (by eapply G_put).
    assert (ext_but a s2 s4) as HX4.
    { eapply ext_but_trans; [by apply (ext_but_put a s2 f f3)|]. by apply (ext_but_put a s3 f3 f4). }
    eapply (tr_run _ _ s4 tt (add_log s4 _)); [done|]. set (s5 := add_log s4 _).
    assert (GR s4 s5) as HR5 by (apply GR_emit; [done|cbn; unfold sp; rewrite Hp1; apply HG]).
    apply tr_bind. eapply tr_weaken; [apply Hfp; [apply HR5|done]|]. cbn beta. intros r s6 H6.
    destruct H6 as ((HG6 & HE6 & Hp6) & Hn6). change (st_pos s5) with (st_pos s2) in Hn6. change (st_pos s5) with (st_pos s2) in Hp6.
    destruct (proj2 HE6 a f4 Hf4) as (f6 & Hf6 & R1 & R2 & R3 & R4). cbn in R1, R2, R3, R4.
    assert (ext_but a s2 s6) as HX6 by (eapply ext_but_trans; [exact HX4|by apply ext_but_of]).
    eapply tr_run; [by apply get_fr_ok|].
    pose proof (G_frame _ _ _ HG6 Hf6) as (J0 & J1 & J2 & J3 & J4 & J5 & J6).
    assert (forall s7 f7, G s7 -> ext_but a s2 s7 -> st_pos s2 <= st_pos s7 -> s_fheap s7 !! a = Some f7 -> f_stage f7 = 0%Z -> GR s s7) as Hclose.
    { intros s7 f7 HG7 HX7 Hp7 Hf7 Hz7. eapply GR_trans; [exact HR|]. split; [done|]. split; [|done].
      eapply ext_but_done; [done|exact Hf|exact Hf7|]. left. congruence. }
    destruct (Z.eqb_spec (f_stage f6) 1) as [H1|H1].
    + eapply tr_run; [by apply set_stage_ok|]. set (s7 := set_fheap s6 _). set (f7 := fr_stage f6 0) in *.
      assert (s_fheap s7 !! a = Some f7) as Hf7 by (by eapply put_same).
      apply tr_bind, tr_gets. change (st_pos s7) with (st_pos s6).
      eapply tr_run; [by apply cache_set_ok|]. set (s8 := set_fheap s7 _). set (f8 := fr_cache f7 r _) in *.
      assert (s_fheap s8 !! a = Some f8) as Hf8 by (by eapply put_same).
      assert (G s7) as HG7.
      { eapply G_put; [done|done| |done|done]. split; [done|]. split; [done|]. split; [done|]. split; [done|]. split; [done|]. cbn. split; [lia|lia]. }
      assert (G s8) as HG8.
      { eapply G_put; [done|done| |done|done]. split.
        { unfold nil_ok. cbn. rewrite <- R1, <- R2, Hfid2, Hfp2. intros Hg e [= <-]. rewrite (Hn6 (Hbk _ Hg)). exact Hp2. } split; [done|]. split; [done|]. split; [|split; [done|]; cbn; split; [lia|lia]].
        cbn. intros e [= <-]. split; [rewrite <- R1; lia|apply HG6]. }
      assert (ext_but a s2 s8) as HX8.
      { eapply ext_but_trans; [exact HX6|]. eapply ext_but_trans; [by apply (ext_but_put a s6 f6 f7)|]. by apply (ext_but_put a s7 f7 f8). }
      apply tr_bind. eapply tr_weaken; [by apply tr_log_if|]. cbn beta. intros _ ? ->. apply tr_ret.
      split; [eapply Hclose; [done|done|exact Hp6|exact Hf8|done]|].
      intros Hg. change (st_pos s8) with (st_pos s6). rewrite (Hn6 (Hbk _ Hg)). unfold sp in *. lia.
    + destruct (Z.eqb_spec (f_stage f6) 2) as [H2|H2]; [|unfold stage_rel in R3; lia].
      destruct r as [x|].
      * eapply tr_run; [by apply set_stage_ok|]. set (s7 := set_fheap s6 _). set (f7 := fr_stage f6 3) in *.
        assert (s_fheap s7 !! a = Some f7) as Hf7 by (by eapply put_same).
        assert (G s7) as HG7.
        { eapply G_put; [done|done| |done|done]. split; [done|]. split; [done|]. split; [done|]. split; [done|]. split; [done|]. cbn.
          split; [intros _; apply J5; by left|lia]. }
        assert (ext_but a s2 s7) as HX7.
        { eapply ext_but_trans; [exact HX6|]. by apply (ext_but_put a s6 f6 f7). }
        assert (stack_desc (s_fheap s7) sp (s_stack s7)) as Hdesc7.
        { cbn. apply (desc_put s6 a f6 f7); [done|done|]. eapply (desc_ext s5); [exact HE6|].
          change (stack_desc (s_fheap s4) sp (s_stack s4)). rewrite <- Hp2. apply HG4. }
        apply tr_bind. apply (tr_weaken _ _ (fun _ s8 => core s7 s8)).
        { destruct (e_loop E); [|by apply tr_ret]. apply tr_bind, tr_gets. apply tr_bind.
          apply (tr_weaken _ _ (fun _ s8 => core s7 s8)).
          - destruct (e_filter E <? 0)%Z; [by apply tr_ret|].
            destruct (Hlines (st_pos s7)) as [[l Hl] _]; [apply HG7|]. rewrite <- (gi_code _ _ _ _ HG7) in Hl.
            apply tr_bind, tr_lift; [|congruence]. intros l' _. by apply tr_ret.
          - intros [] s8 H8; [|by apply tr_ret]. destruct H8 as (? & ? & ? & ? & ?). unfold tr. cbn. by split. }
        intros _ s8 H8.
        assert (G s8) as HG8 by (by eapply G_core).
        destruct H8 as (C1 & C2 & C3 & C4 & _).
        assert (st_pos s8 = st_pos s6) as Hp8 by (unfold st_pos; by rewrite C1).
        assert (ext_but a s2 s8) as HX8.
        { eapply ext_but_trans; [exact HX7|]. apply ext_but_core; [exact C4|exact C3]. }
        apply tr_bind. eapply tr_weaken.
        { apply (grow_inv show (i_id (n_info n)) a sp lf x s8 f7); [done| | |done| | | | |done|].
          - by rewrite (proj1 HX8).
          - by rewrite C3.
          - cbn. congruence.
          - lia.
          - by rewrite C3, C4.
          - cbn. congruence.
          - intros Hg. rewrite Hp8, (Hn6 (Hbk _ Hg)). exact Hp2. }
        intros [[bx bp] bst] s9 (HG9 & HX9 & HL9 & Hsp9 & Hbp & Hst & Hstay9 & (f9 & Hf9 & Hz9)).
        cbn beta match.
        assert (f_pos f9 = sp) as Hfp9.
        { destruct (proj2 (proj2 HX9) f7) as (g & Hg & Q1 & _); [by rewrite C3|]. simplify_eq. cbn in Q1. congruence. }
        assert (f_mask f9 <> None) as Hm9 by (apply (G_frame _ _ _ HG9 Hf9); by right).
        assert (ext_but a s2 s9) as HX9' by (by eapply ext_but_trans).
        apply tr_bind. apply (tr_weaken _ _ (fun _ s10 => core s9 s10)).
        { destruct (e_loop E) eqn:EL; [|by apply tr_ret]. unfold tr, loop_stack_pop. destruct (s_loopstack s9); [|done].
          split; [unfold internal, internal_panics; rewrite !elem_of_cons, elem_of_nil; intuition discriminate|]. split; [by right|done]. }
        intros _ s10 HC10. pose proof (G_core _ _ HC10 HG9) as HG10. destruct HC10 as (D1 & D2 & D3 & D4 & _).
        assert (s_fheap s10 !! a = Some f9) as Hf10 by (by rewrite D3).
        destruct (f_mask f9) as [m9|] eqn:Em9; [|done].
        destruct (wipe_ok s10 a f9 m9 false HG10 Hf10 Em9) as (st11 & s11 & Hw & HG11 & (F1 & F2 & F3 & F4 & _) & _).
        cbn in F1, F2, F3, F4.
        eapply tr_run; [exact Hw|].
        assert (stash_ok s11 sp 0 bst) as Hst11.
        { intros j b Hb. destruct (Hst j b Hb) as [(g & Hg & Hg') Hj]. split; [|done]. exists g. split; [congruence|done]. }
        destruct (restore_ok sp ltac:(lia) bst 0 s11 HG11 Hst11) as (s12 & Hr & HG12 & (V1 & V2 & V3 & V4 & _)).
        cbn in V1, V2, V3, V4.
        eapply tr_run; [exact Hr|].
        apply tr_bind, tr_set_pos; [done|lia|]. set (s13 := set_code s12 _).
        assert (s_stack s12 = s_stack s2) as Hstk12 by (rewrite V4, F4, D4; apply HX9').
        assert (ext_but a s2 s12) as HX12.
        { eapply ext_but_trans; [exact HX9'|]. apply ext_but_core; [by rewrite V4, F4, D4|by rewrite V3, F3, D3]. }
        assert (stack_desc (s_fheap s12) sp (s_stack s12)) as Hdesc12.
        { rewrite Hstk12. eapply stack_desc_ext; [rewrite <- Hp2; apply (gi_stk _ _ _ _ HG2)|].
          intros b g Hg. destruct (decide (b = a)) as [->|Hba].
          - destruct (proj2 (proj2 HX12) _ Hg) as (g' & ? & ? & _). by exists g'.
          - destruct (proj1 (proj2 HX12) _ _ Hba Hg) as (g' & ? & ? & _). by exists g'. }
        assert (G s13) as HG13.
        { apply G_move; [done|lia|]. eapply stack_desc_bound; [exact Hdesc12|lia]. }
        apply tr_bind. eapply tr_weaken; [by apply tr_log_if|]. cbn beta. intros _ ? ->.
        assert (s_fheap s13 !! a = Some f9) as Hf13 by (cbn; by rewrite V3, F3).
        eapply tr_run; [by apply set_stage_ok|]. apply tr_ret.
        pose proof (G_frame _ _ _ HG13 Hf13) as (I0 & I1 & I2 & I3 & I4 & I5 & I6).
        split; [|intros Hg; change (st_pos s13 = st_pos s); unfold s13; rewrite st_pos_set_code, (Hstay9 Hg); exact Hp1].
        eapply Hclose; [eapply G_put; [done|exact Hf13| |done|done]| | |by eapply put_same|done].
        -- split; [done|]. split; [done|]. split; [done|]. split; [done|]. split; [done|]. cbn. split; [lia|lia].
        -- eapply ext_but_trans; [exact HX12|]. eapply ext_but_trans; [|by apply (ext_but_put a s13 f9 (fr_stage f9 0))].
           by apply ext_but_core.
        -- change (st_pos s2 <= st_pos s13). unfold s13. rewrite st_pos_set_code. lia.
      * apply tr_bind. eapply tr_weaken; [by apply tr_log_if|]. cbn beta. intros _ ? ->.
        eapply tr_run; [by apply set_stage_ok|]. apply tr_ret.
        split; [|intros Hg; change (st_pos s6 = st_pos s); rewrite (Hn6 (Hbk _ Hg)); unfold sp in *; lia].
        eapply Hclose; [eapply G_put; [done|exact Hf6| |done|done]| |exact Hp6|by eapply put_same|done].
        -- split; [done|]. split; [done|]. split; [done|]. split; [done|]. split; [done|]. cbn. split; [lia|lia].
        -- eapply ext_but_trans; [exact HX6|]. by apply (ext_but_put a s6 f6 (fr_stage f6 0)).
  - assert (((f_stage f =? 1) || (f_stage f =? 2) || (f_stage f =? 3))%Z%bool = true) as ->.
    { destruct (Z.eqb_spec (f_stage f) 1), (Z.eqb_spec (f_stage f) 2), (Z.eqb_spec (f_stage f) 3); try done. lia. }
    (* Between the change of stage and the mask the frame is not well formed:
       the two updates are taken together. *)
    set (s3 := if (f_stage f =? 1)%Z then set_fheap s2 (<[a := fr_stage f 2]> (s_fheap s2)) else s2).
    set (f3 := if (f_stage f =? 1)%Z then fr_stage f 2 else f).
    assert ((if (f_stage f =? 1)%Z then set_stage a 2 else ret tt) s2 = Ok tt s3) as Hs3.
    { unfold s3. destruct (f_stage f =? 1)%Z; [by apply set_stage_ok|done]. }
    eapply tr_run; [exact Hs3|]. 
    assert (s_fheap s3 !! a = Some f3) as Hf3.
    { unfold s3, f3. destruct (f_stage f =? 1)%Z; [by eapply put_same|done]. }
    assert (f_pos f3 = f_pos f /\ f_id f3 = f_id f /\ f_mask f3 = f_mask f /\ f_end f3 = f_end f /\ f_res f3 = f_res f) as (Y1 & Y2 & Y3 & Y4 & Y5).
    { unfold f3. by destruct (f_stage f =? 1)%Z. }
    set (mask0 := match f_mask f3 with Some m => m | None => replicate (e_nrules E) false end).
    assert (length mask0 = N) as Hmask0.
    { unfold mask0. rewrite Y3. destruct (f_mask f) as [m|] eqn:Em; [by apply K4|]. by rewrite replicate_length. }
    (* the same marks computed in the well formed state s2 *)
    eapply (tr_run _ _ s3 tt (add_log s3 _)); [done|]. set (s4 := add_log s3 _).
    assert (s_code s4 = s_code s2 /\ s_stack s4 = s_stack s2) as [Ecode Estack].
    { unfold s4, s3. by destruct (f_stage f =? 1)%Z. }
    assert (tr (log_if E show) s4 (fun _ s' => s' = s4) XP) as Hlog.
    { destruct show; [|done]. apply tr_log0; unfold st_pos; rewrite Ecode; apply HG2. }
    apply tr_bind. eapply tr_weaken; [exact Hlog|]. cbn beta. intros _ ? ->.
    eapply tr_run; [by apply (get_fr_ok s4 a f3)|]. fold mask0.
    apply tr_bind, tr_gets. rewrite Estack.
    assert (stack_desc (s_fheap s4) sp (tail (s_stack s2))) as Hd4.
    { assert (stack_desc (s_fheap s2) sp (tail (s_stack s2))) as Hd2.
      { rewrite (proj1 HE). eapply stack_desc_ext; [rewrite <- Hp1 in Hdesc; exact Hdesc|].
        intros b g Hg. destruct (proj2 HE _ _ Hg) as (g' & ? & ? & _). by exists g'. }
      eapply stack_desc_ext; [exact Hd2|]. intros b g Hg.
      destruct (decide (b = a)) as [->|Hba].
      - exists f3. split; [done|]. congruence.
      - exists g. split; [|done]. unfold s4, s3. cbn. destruct (f_stage f =? 1)%Z; [|done]. cbn. by rewrite list_lookup_insert_ne. }
    assert (forall stk mask, length mask = N -> stack_desc (s_fheap s4) sp stk ->
      exists mask', mark stk sp (i_id (n_info n)) mask s4 = Ok mask' s4 /\ length mask' = N) as Hmark.
    { induction stk as [|b stk IHs]; intros mask Hm Hs; cbn [mark]; [by exists mask|].
      destruct Hs as (g & Hb & Hgp & Hr). rewrite (bind_Ok _ _ _ _ _ (get_fr_ok _ _ _ Hb)).
      assert (sp <? f_pos g = false) as -> by (apply Nat.ltb_ge; lia).
      destruct ((f_pos g <? sp) || (f_id g =? i_id (n_info n)))%bool eqn:EB; [by exists mask|].
      apply orb_false_iff in EB as [E1 _]. apply Nat.ltb_ge in E1.
      assert (f_id g < N) as Hgid.
      { destruct (decide (b = a)) as [->|Hba]; [replace g with f3 by (apply (inj Some); rewrite <- Hb, <- Hf3; done); congruence|].
        assert (s_fheap s2 !! b = Some g) as Hb2.
        { revert Hb. unfold s4, s3. cbn. destruct (f_stage f =? 1)%Z; [|done]. cbn. by rewrite list_lookup_insert_ne. }
        apply (G_frame _ _ _ HG2 Hb2). }
      assert (length mask <=? f_id g = false) as -> by (apply Nat.leb_gt; lia).
      apply IHs; [by rewrite insert_length|]. eapply stack_desc_bound; [done|lia]. }
    destruct (Hmark (tail (s_stack s2)) mask0 Hmask0 Hd4) as (mask & Hmk & Hmlen).
    eapply tr_run; [exact Hmk|]. eapply tr_run; [by apply (set_mask_ok s4 a f3)|].
    set (f5 := fr_mask f3 mask). set (s5 := set_fheap s4 _).
    assert (s_fheap s5 !! a = Some f5) as Hf5 by (by eapply put_same).
    assert (s_fheap s5 = <[a := f5]> (s_fheap s2)) as Eh.
    { unfold s5, s4, s3. cbn. destruct (f_stage f =? 1)%Z; [cbn; by rewrite list_insert_insert|done]. }
    set (s5' := set_fheap s2 (<[a := f5]> (s_fheap s2))).
    assert (core s5' s5) as HC5.
    { split; [exact Ecode|]. split; [unfold s5, s4, s3; cbn; by destruct (f_stage f =? 1)%Z|]. split; [exact Eh|]. split; [exact Estack|].
      intros Hlg. unfold s5, s4, s3. cbn. apply Forall_cons. split; [cbn; unfold sp; rewrite Hp1; apply HG|]. by destruct (f_stage f =? 1)%Z. }
    assert ((f_stage f5 = 2 /\ f_stage f = 1)%Z \/ f_stage f5 = f_stage f) as Hstg.
    { unfold f5, f3. destruct (Z.eqb_spec (f_stage f) 1); [by left|by right]. }
    assert (G s5') as HG5'.
    { eapply G_put; [done|exact Hf| |cbn; congruence|cbn; congruence].
      split; [unfold nil_ok; cbn; rewrite Y1, Y2, Y4, Y5; exact K0|]. split; [cbn; congruence|]. split; [cbn; congruence|]. split; [cbn; rewrite Y1, Y4; done|].
      split; [cbn; by intros ? [= <-]|]. split; [done|]. lia. }
    assert (ext s2 s5') as HE5'.
    { eapply ext_put; [exact Hf|]. split; [done|]. split; [done|]. split; [unfold stage_rel; lia|done]. }
    assert (GR s s5) as HR5.
    { eapply GR_trans; [exact HR|]. eapply (GR_trans _ s5').
      - split; [done|]. split; [done|]. change (st_pos s5') with (st_pos s2). lia.
      - by apply GR_core. }
    eapply tr_run; [by apply get_fr_ok|]. cbn [f5 fr_mask f_end f_res]. rewrite Y4.
    apply tr_bind. destruct (f_end f) as [e|] eqn:Eend.
    + destruct (K3 e eq_refl) as [Ke1 Ke2]. apply tr_set_pos; [apply HR5|done|]. apply tr_ret.
      split; [|intros Hg; rewrite st_pos_set_code; rewrite Y5 in Hg; rewrite (K0 ltac:(by rewrite Hfid2) e Eend); unfold sp in *; lia].
      eapply GR_trans; [exact HR5|]. split; [apply G_move_ge; [apply HR5|done|]|].
      * rewrite (core_pos _ _ HC5). change (st_pos s5') with (st_pos s2). lia.
      * split; [apply set_code_ext|]. rewrite st_pos_set_code. rewrite (core_pos _ _ HC5). change (st_pos s5') with (st_pos s2). lia.
    + apply tr_ret. apply tr_ret. split; [done|]. intros _. rewrite (core_pos _ _ HC5). change (st_pos s5') with (st_pos s2). unfold sp in *. lia.
Qed.

Lemma stack_inv lf n s : i_id (n_info n) < N -> G s -> (forall b, gb (i_id (n_info n)) b = true -> bk b = true) ->
  tr (stack_ (loopify E lf fp n) n) s
    (fun r s' => GR s s' /\ (gb (i_id (n_info n)) (success r) = true -> st_pos s' = st_pos s)) XP.
Proof.
  intros Hid HG Hbk. unfold stack_, stack_push.
  destruct (get_frame_ok s (i_id (n_info n)) HG Hid) as (a & s1 & Hgf & HG1 & HE1 & Hp1 & HT1 & (f & Hf & Hfp' & Hfi)).
  apply tr_bind. eapply tr_run; [exact Hgf|]. unfold tr at 1.
  destruct (Nat.leb_spec stack_limit (length (s_stack s1))).
  { split; [unfold internal, internal_panics; rewrite !elem_of_cons, elem_of_nil; intuition discriminate|]. split; [by left|]. apply HG1. }
  set (s2 := set_stack s1 _).
  assert (G s2) as HG2.
  { pose proof (gi_stk _ _ _ _ HG1) as Hd. destruct HG1. split; try done. cbn [s2 set_stack s_fheap s_stack].
    change (st_pos s2) with (st_pos s1). exists f. split; [done|]. split; [lia|]. by rewrite Hfp', <- Hp1. }
  apply tr_bind. eapply tr_weaken; [apply loopify_inv; [done|done|done| |done]|].
  { change (stack_desc (s_fheap s1) (st_pos s1) (s_stack s1)). apply HG1. }
  cbn beta. intros r s3 ((HG3 & HE3 & Hp3) & Hn3).
  eapply (tr_run _ _ s3 tt (set_stack s3 (tail (s_stack s3)))); [done|]. apply tr_ret.
  assert (s_stack s3 = a :: s_stack s1) as ES by (rewrite (proj1 HE3); done).
  split; [|intros Hg; change (st_pos s3 = st_pos s); rewrite (Hn3 Hg); exact Hp1].
  split; [|split].
  - pose proof (gi_stk _ _ _ _ HG3) as Hd. destruct HG3. split; try done. cbn [set_stack s_fheap s_stack]. rewrite ES in Hd |- *.
    destruct Hd as (g & Hg & Hgp & Hd). cbn [tail]. eapply stack_desc_bound; [exact Hd|]. done.
  - split; [cbn; rewrite ES; cbn; apply HE1|]. cbn [set_stack s_fheap].
    intros b g Hg. destruct (proj2 HE1 _ _ Hg) as (g' & Hg' & R1). destruct (proj2 HE3 _ _ Hg') as (g'' & Hg'' & R2).
    exists g''. split; [done|by eapply frel_trans].
  - change (st_pos (set_stack s3 (tail (s_stack s3)))) with (st_pos s3). change (st_pos s2) with (st_pos s1) in Hp3. lia.
Qed.
End Loop.

(** ** Whole parsers *)
Definition stays (n : node) (ok : bool) : bool :=
  match n_kind n with
  | KLook _ | KNot _ | KUndef => true
  | KStr _ | KRegex _ | KChoice _ | KPat _ _ _ _ =>
      (negb ok && match i_cb (n_info n) with None => true | Some _ => false end)%bool
  | _ => false
  end.
Definition post_ok (n : node) (s : st) (r : option ast) (s' : st) : Prop :=
  GR s s' /\ (i_isrule (n_info n) = true -> gb (i_id (n_info n)) (success r) = true -> st_pos s' = st_pos s) /\
  (i_isrule (n_info n) = false -> stays n (success r) = true -> st_pos s' = st_pos s).

Section Wrap.
Variable P : node -> Prop.
Hypothesis HPch : forall n c, P n -> c ∈ children n -> P c.
Hypothesis HPrule : forall name t, e_rule E name = Some t -> P t.
Hypothesis HPid : forall n, P n -> i_isrule (n_info n) = true -> i_id (n_info n) < N.
Hypothesis HPgb : forall n b, P n -> i_isrule (n_info n) = true -> gb (i_id (n_info n)) b = true -> stays n b = true.

Variable rec : node -> M (option ast).
Hypothesis Hrec : forall n s, P n -> G s -> s_stack s <> [] \/ i_isrule (n_info n) = true ->
  tr (rec n) s (post_ok n s) XP.

Lemma stays_back n b : stays n b = true -> gives_back (n_kind n) b = true.
Proof. unfold stays, gives_back. destruct (n_kind n); try done; by destruct b. Qed.

Lemma body_ok lf n s : P n -> G s -> s_stack s <> [] ->
  tr (body E rec lf n) s (fun r s' => GR s s' /\ (gives_back (n_kind n) (success r) = true -> st_pos s' = st_pos s)) XP.
Proof.
  intros HP HG Hne. apply (body_inv P); [|by intros; eapply HPch|done|done|done].
  intros m s' Hm HG' Hne'. eapply tr_weaken; [apply Hrec; [done|done|by left]|]. cbn beta. intros r s'' [H _]. done.
Qed.

Lemma prep_ok lf n s : P n -> G s -> s_stack s <> [] ->
  tr (prepare_result E (body E rec lf n) n) s (fun r s' => GR s s' /\ (stays n (success r) = true -> st_pos s' = st_pos s)) XP.
Proof.
  intros HP HG Hne. apply (prepare_inv _ (gives_back (n_kind n))); [done|done| | |].
  - intros b. apply stays_back.
  - unfold stays. destruct (n_kind n); cbn [gives_back]; try done; destruct (i_cb (n_info n)); auto.
  - intros s' HC. apply body_ok; [done|by eapply G_core|]. destruct HC as (_ & _ & _ & -> & _). done.
Qed.

Lemma wrap_ok lf n s : P n -> G s -> s_stack s <> [] \/ i_isrule (n_info n) = true ->
  tr (wrap E rec lf n) s (post_ok n s) XP.
Proof.
  intros HP HG Hne. unfold wrap, post_ok. destruct (i_isrule (n_info n)) eqn:ER.
  - eapply tr_weaken.
    + apply (stack_inv (prepare_result E (body E rec lf n) n) (stays n)); [|by apply HPid|done|].
      * intros s' HG' Hne'. by apply prep_ok.
      * intros b. by apply HPgb.
    + cbn beta. intros r s' [H1 H2]. split; [done|]. split; [by intros _|done].
  - assert (s_stack s <> []) as Hne' by (by destruct Hne).
    destruct (_ || _)%bool eqn:EW.
    + eapply tr_weaken; [by apply prep_ok|]. cbn beta. intros r s' [H1 H2]. split; [done|]. split; [done|by intros _].
    + eapply tr_weaken; [by apply body_ok|]. cbn beta. intros r s' [H1 H2]. split; [done|]. split; [done|].
      intros _ H. by apply H2, stays_back.
Qed.

Lemma undef_ok n s : P n -> n_kind n = KUndef -> G s -> post_ok n s (Some AUndef) s.
Proof. intros HP HK HG. split; [by apply GR_refl|]. split; done. Qed.

(** The top rank runs with an empty stack. *)
Lemma top_ok_inv lf root s l : P root -> G s -> i_isrule (n_info root) = false ->
  n_kind root = KChoice l -> i_label (n_info root) = EmptyString -> i_cb (n_info root) = None ->
  Forall (fun c => i_isrule (n_info c) = true) l ->
  tr (wrap E rec lf root) s (post_ok root s) XP.
Proof.
  intros HP HG ER HK HL HC HF. unfold wrap. rewrite ER, HL, HC. cbn [negb String.eqb andb orb]. unfold body. rewrite HK.
  assert (Forall P l) as HPl. { apply Forall_forall. intros c Hc. eapply HPch; [exact HP|]. unfold children. by rewrite HK. }
  assert (forall l s, Forall (fun c => i_isrule (n_info c) = true) l -> Forall P l -> G s ->
    tr (choice_loop rec l) s (fun r s' => GR s s' /\ (r = None -> st_pos s' = st_pos s)) XP) as Hgo.
  { clear - Hrec HN Hrx Hlines. intros l. induction l as [|c l IH]; intros s HF HPl HG; cbn [choice_loop].
    { apply tr_ret. split; [by apply GR_refl|done]. }
    apply Forall_cons in HF as [Hc HF]. apply Forall_cons in HPl as [HPc HPl].
    apply tr_bind, tr_gets. apply tr_bind. eapply tr_weaken; [apply Hrec; [done|done|by right]|].
    cbn beta. intros r s' [Hs' _]. destruct r as [a|].
    - apply tr_ret. split; done.
    - apply tr_bind, tr_set_pos; [apply Hs'|apply HG|].
      pose proof (GR_back _ _ HG Hs') as HB.
      eapply tr_weaken; [apply IH; [done|done|apply HB]|].
      cbn beta. intros r s'' [Hr1 Hr2]. split; [by eapply GR_trans|]. intros Hr. rewrite (Hr2 Hr). by rewrite st_pos_set_code. }
  eapply tr_weaken; [by apply Hgo|]. cbn beta. intros r s' [H1 H2]. split; [done|]. split; [by rewrite ER|].
  intros _. unfold stays. rewrite HK, HC. destruct r; [done|auto].
Qed.
End Wrap.

(** Monitored runs keep the invariant when the checks follow from it. *)
Section Monitored.
Variable root : node.
Hypothesis Hfit : ids_fit E root.
Hypothesis Htop : top_ok root.
Hypothesis Hgb : forall n b, reach E root n -> i_isrule (n_info n) = true -> gb (i_id (n_info n)) b = true -> stays n b = true.
Variable pre : node -> st -> bool.
Variable post : node -> st -> option ast -> st -> bool.
Hypothesis Hpre : forall n s, reach E root n -> G s -> pre n s = true.
Hypothesis Hpost : forall n s r s', reach E root n -> G s -> post_ok n s r s' -> post n s r s' = true.

Lemma checked_ok m n s : reach E root n -> G s -> tr m s (post_ok n s) XP ->
  tr (checked pre post m n) s (post_ok n s) XP.
Proof.
  intros Hn HG Hm. unfold tr, checked in *. rewrite (Hpre _ _ Hn HG).
  destruct (m s) as [r s'|p s'|]; [|done|done]. by rewrite (Hpost _ _ _ _ Hn HG Hm).
Qed.

Lemma parse_mon_ok fuel : forall n s, reach E root n -> G s -> s_stack s <> [] \/ i_isrule (n_info n) = true ->
  tr (parse_mon E pre post fuel n) s (post_ok n s) XP.
Proof.
  induction fuel as [|fuel IH]; intros n s Hn HG Hne; cbn [parse_mon]; apply checked_ok; try done.
  destruct (n_kind n) eqn:EK;
    try (apply (wrap_ok (reach E root)); [by intros; eapply reach_child|by intros; eapply reach_rule
      |by intros; rewrite <- HN; apply Hfit|done|done|done|done|done]).
  apply tr_ret. split; [by apply GR_refl|]. split; done.
Qed.

Lemma parse_mon_top fuel s : G s -> tr (parse_mon E pre post fuel root) s (post_ok root s) XP.
Proof.
  intros HG. destruct Htop as [ER|(l & HK & HL & HC & HF)].
  { apply parse_mon_ok; [constructor|done|by right]. }
  destruct (i_isrule (n_info root)) eqn:ER.
  { apply parse_mon_ok; [constructor|done|by right]. }
  destruct fuel as [|fuel]; cbn [parse_mon]; apply checked_ok; try done; [constructor..|]. rewrite HK.
  eapply (top_ok_inv (reach E root)); try done; [by intros; eapply reach_child|by apply parse_mon_ok|constructor].
Qed.
End Monitored.
End Gi.

(** ** Initial states *)
Lemma init_G gb N c : c_pos c <= length (c_work c) -> GI gb N c (init_st c N).
Proof.
  intros Hp. split; cbn.
  - by rewrite c_with_pos_same.
  - done.
  - rewrite replicate_length. unfold c_work_length. by destruct c.
  - apply Forall_replicate. apply replicate_length.
  - intros p i a. unfold table_get. intros H. exfalso. destruct (replicate _ _ !! p) as [row|] eqn:ER; [|done].
    apply lookup_replicate in ER as [-> _]. by apply lookup_replicate in H as [[=] _].
  - constructor.
  - done.
  - constructor.
Qed.
