(** What a call does to the frames in progress. *)
From Verif Require Import Base Helpers Utf8 Stream Native Engine EngSpec EngInv CombProofs Pre LogSpec LogProofs.

Section Stages.
Variable E : env.

Definition G0 (s : st) : Prop :=
  forall p i a, table_get (s_frames s) p i = Some (Some a) -> exists f, s_fheap s !! a = Some f /\ f_pos f = p.
(** Frames stay where they are; those in progress, the one at [x] apart, stay in
    progress unless a rule is met in progress at their position. *)
Definition kept (x : option nat) (l : list event) (s s' : st) : Prop :=
  forall a f, s_fheap s !! a = Some f -> exists f', s_fheap s' !! a = Some f' /\ f_pos f' = f_pos f /\
    (x <> Some a -> f_stage f = 1%Z -> f_stage f' = 1%Z \/ exists i, EvRec i (f_pos f) ∈ l).
Definition R1 (x : option nat) (s s' : st) : Prop :=
  G0 s -> G0 s' /\ exists l, s_log s' = l ++ s_log s /\ kept x l s s'.
Definition X1 (p : panic) (s s' : st) : Prop := True.

Lemma kept_refl x s s' : s_fheap s' = s_fheap s -> kept x [] s s'.
Proof. intros HE a f Ha. exists f. rewrite HE. auto. Qed.
Lemma R1_same x s s' : s_frames s' = s_frames s -> s_fheap s' = s_fheap s -> s_log s' = s_log s -> R1 x s s'.
Proof.
  intros H1 H2 H3 HG. split; [|exists []; split; [done|by apply kept_refl]].
  intros p i a. rewrite H1, H2. apply HG.
Qed.
Lemma R1_refl x s : R1 x s s.
Proof. by apply R1_same. Qed.
Lemma R1_trans x s1 s2 s3 : R1 x s1 s2 -> R1 x s2 s3 -> R1 x s1 s3.
Proof.
  intros H1 H2 HG. destruct (H1 HG) as (G2 & l1 & L1 & K1). destruct (H2 G2) as (G3 & l2 & L2 & K2).
  split; [done|]. exists (l2 ++ l1). split; [by rewrite L2, L1, app_assoc|].
  intros a f Ha. destruct (K1 a f Ha) as (f1 & Ha1 & P1 & S1). destruct (K2 a f1 Ha1) as (f2 & Ha2 & P2 & S2).
  exists f2. split; [done|]. split; [congruence|]. intros Hx Hs. destruct (S1 Hx Hs) as [Hs1|[i Hi]].
  - destruct (S2 Hx Hs1) as [?|[i Hi]]; [by left|]. right. exists i. apply elem_of_app. left. by rewrite <- P1.
  - right. exists i. apply elem_of_app. by right.
Qed.
Lemma R1_weaken x s s' : R1 None s s' -> R1 x s s'.
Proof.
  intros H HG. destruct (H HG) as (G' & l & L & K). split; [done|]. exists l. split; [done|].
  intros a f Ha. destruct (K a f Ha) as (f' & Ha' & P & S). exists f'. split; [done|]. split; [done|]. auto.
Qed.
Lemma R1_strengthen a s s' : R1 (Some a) s s' -> (forall f, s_fheap s !! a = Some f -> f_stage f <> 1%Z) -> R1 None s s'.
Proof.
  intros H Ha HG. destruct (H HG) as (G' & l & L & K). split; [done|]. exists l. split; [done|].
  intros b f Hb. destruct (K b f Hb) as (f' & Hb' & P & S). exists f'. split; [done|]. split; [done|].
  intros _ Hs. apply S; [|done]. intros [= <-]. by apply (Ha f).
Qed.

Notation pre1 x := (pre (R1 x) X1).
Lemma X1_R x p s1 s2 s3 : R1 x s1 s2 -> X1 p s2 s3 -> X1 p s1 s3.
Proof. done. Qed.
Lemma X1_plain x p s s' : (forall t, p <> PUser t) -> R1 x s s' -> X1 p s s'.
Proof. done. Qed.
Lemma R1_core x s s' : s_frames s' = s_frames s -> s_fheap s' = s_fheap s -> s_stack s' = s_stack s ->
  s_log s' = s_log s -> R1 x s s'.
Proof. intros. by apply R1_same. Qed.
Ltac fw := try apply R1_refl; try apply R1_trans; try apply X1_R; try apply X1_plain; try apply R1_core.
Lemma p1_bind x {A B} (m : M A) (k : A -> M B) : pre1 x m -> (forall a, pre1 x (k a)) -> pre1 x (bind m k).
Proof. apply pre_bind; fw. Qed.
Lemma p1_weaken x {A} (m : M A) : pre1 None m -> pre1 x m.
Proof. intros H s. specialize (H s). destruct (m s); [by apply R1_weaken|done|done]. Qed.
Lemma p1_ret x {A} (a : A) : pre1 x (ret a).
Proof. intros s. apply R1_refl. Qed.
Lemma p1_panic x {A} p : pre1 x (panic_ (A:=A) p).
Proof. done. Qed.
Lemma p1_gets x {A} (f : st -> A) : pre1 x (gets f).
Proof. intros s. apply R1_refl. Qed.
Lemma p1_lift x {A} (r : res A) : pre1 x (lift r).
Proof. intros s. unfold lift. destruct r; [apply R1_refl|done|done]. Qed.
Lemma p1_set_pos x p : pre1 x (set_pos p).
Proof. apply pre_set_pos; fw. Qed.
Lemma p1_log_if x b : pre1 x (log_if E b).
Proof. apply pre_log_if; fw. Qed.
Lemma p1_get_fr x a : pre1 x (get_fr a).
Proof. apply pre_get_fr; fw. Qed.

Lemma put_R1 a f f' s : s_fheap s !! a = Some f -> f_pos f' = f_pos f -> R1 (Some a) s (set_fheap s (<[a := f']> (s_fheap s))).
Proof.
  intros Ha HP HG. assert (forall b g, s_fheap s !! b = Some g -> exists g', <[a := f']> (s_fheap s) !! b = Some g' /\ f_pos g' = f_pos g /\
    (b <> a -> g' = g)) as Hh.
  { intros b g Hb. destruct (decide (b = a)) as [->|Hne].
    - exists f'. rewrite list_lookup_insert by (by eapply lookup_lt_Some). split; [done|]. split; [congruence|done].
    - exists g. rewrite list_lookup_insert_ne by done. auto. }
  split.
  - intros p i b Hb. destruct (HG p i b Hb) as (g & Hg & <-). destruct (Hh _ _ Hg) as (g' & Hg' & P & _). by exists g'.
  - exists []. split; [done|]. intros b g Hb. destruct (Hh _ _ Hb) as (g' & Hg' & P & HE). exists g'. split; [done|]. split; [done|].
    intros Hx Hs. left. rewrite HE; [done|]. intros ->. by apply Hx.
Qed.
Lemma p1_put_fr a (g : frame -> frame) : (forall f, f_pos (g f) = f_pos f) -> pre1 (Some a) (do! f := get_fr a in put_fr a (g f)).
Proof.
  intros Hg s. unfold bind, get_fr. destruct (s_fheap s !! a) as [f|] eqn:EA; [|done]. by apply (put_R1 a f).
Qed.
Lemma p1_set_stage a z : pre1 (Some a) (set_stage a z).
Proof. by apply (p1_put_fr a (fun f => fr_stage f z)). Qed.
Lemma p1_cache_set a r e : pre1 (Some a) (cache_set a r e).
Proof. by apply (p1_put_fr a (fun f => fr_cache f r e)). Qed.
Lemma p1_set_mask a m : pre1 (Some a) (set_mask a m).
Proof. by apply (p1_put_fr a (fun f => fr_mask f m)). Qed.
Lemma p1_emit x e : pre1 x (emit e).
Proof. intros s HG. split; [exact HG|]. exists [e]. split; [done|]. intros a f Ha. exists f. auto. Qed.
Lemma p1_wipe x a b : pre1 x (wipe_with a b).
Proof.
  unfold wipe_with. apply p1_bind; [apply p1_get_fr|]. intros f. destruct (f_mask f) as [m|]; [|apply p1_panic].
  intros s. destruct (s_frames s !! f_pos f) as [row|] eqn:ER; [|done]. destruct (negb _); [done|].
  intros HG. split; [|exists []; split; [done|by apply kept_refl]].
  intros p i c. unfold table_get. cbn. destruct (decide (p = f_pos f)) as [->|Hne].
  - rewrite list_lookup_insert by (by eapply lookup_lt_Some). intros H. apply lookup_zip_with_Some in H as (b0 & o & H1 & H2 & H3).
    apply (HG (f_pos f) i). unfold table_get. rewrite ER, H3. destruct b0; congruence.
  - rewrite list_lookup_insert_ne by done. apply HG.
Qed.
Lemma G0_set s t : (forall p i a, table_get t p i = Some (Some a) -> table_get (s_frames s) p i = Some (Some a) \/
    exists f, s_fheap s !! a = Some f /\ f_pos f = p) -> R1 None s (set_frames s t).
Proof.
  intros Ht HG. split; [|exists []; split; [done|by apply kept_refl]].
  intros p i a H. destruct (Ht p i a H) as [H'|H']; [by apply HG in H'|exact H'].
Qed.
Lemma p1_restore x l : forall i, pre1 x (restore_from i l).
Proof.
  induction l as [|o l IH]; intros i; cbn [restore_from]; [apply p1_ret|]. apply p1_bind; [|intros _; apply IH].
  destruct o as [a|]; [|apply p1_ret]. intros s. unfold bind, get_fr. destruct (s_fheap s !! a) as [f|] eqn:EA; [|done].
  destruct (table_get _ _ _) as [o|] eqn:ET; [|done]. apply R1_weaken, G0_set. intros p j b Hb.
  rewrite table_get_set in Hb by congruence. destruct (bool_decide_reflect (f_pos f = p)), (bool_decide_reflect (i = j)); cbn in Hb; simplify_eq; eauto.
Qed.
Lemma p1_get_frame x i : pre1 x (get_frame i).
Proof.
  intros s. unfold get_frame. destruct (table_get _ _ _) as [[a|]|] eqn:ET; [apply R1_refl| |done].
  intros HG. assert (forall b g, s_fheap s !! b = Some g -> (s_fheap s ++ [new_frame (st_pos s) i]) !! b = Some g) as HE.
  { intros b g Hb. rewrite lookup_app_l; [done|by eapply lookup_lt_Some]. }
  split.
  - intros p j b Hb. cbn in Hb. rewrite table_get_set in Hb by congruence.
    destruct (bool_decide_reflect (st_pos s = p)), (bool_decide_reflect (i = j)); cbn in Hb; simplify_eq.
    { exists (new_frame (st_pos s) j). split; [|done]. cbn. by rewrite lookup_app_r, Nat.sub_diag by lia. }
    all: destruct (HG _ _ _ Hb) as (g & Hg & Hp); exists g; split; [by apply HE|done].
  - exists []. split; [done|]. intros b g Hb. exists g. split; [by apply HE|auto].
Qed.
Lemma p1_mark x sp id : forall stk m, pre1 x (mark stk sp id m).
Proof.
  induction stk as [|a stk IH]; intros m; cbn [mark]; [apply p1_ret|]. apply p1_bind; [apply p1_get_fr|]. intros f.
  destruct (_ <? _); [apply p1_panic|]. destruct (_ || _)%bool; [apply p1_ret|]. destruct (_ <=? _); [apply p1_panic|apply IH].
Qed.

Ltac s1 Hfp := repeat first
  [ apply p1_ret | apply p1_panic | apply p1_gets | apply p1_lift | apply p1_set_pos | apply p1_log_if | apply p1_get_fr
  | apply p1_set_stage | apply p1_cache_set | apply p1_set_mask | apply p1_emit | apply p1_wipe | apply p1_restore | apply p1_mark
  | (apply p1_weaken; exact Hfp) | done | (apply p1_bind; [|intros ?])
  | match goal with
    | |- pre _ _ (match ?x with _ => _ end) => destruct x
    | |- pre _ _ (if ?x then _ else _) => destruct x
    | |- pre _ _ (let '(_, _) := ?x in _) => destruct x
    end ].
Lemma p1_grow fp show id a sp lf : pre1 None fp -> forall x, pre1 (Some a) (grow E lf fp show id a sp x).
Proof. intros Hfp. induction lf as [|lf IH]; intros x; cbn [grow]; repeat first [apply IH|s1 Hfp]. Qed.
Lemma p1_loop_push x : pre1 x loop_stack_push.
Proof. intros s. by apply R1_same. Qed.
Lemma p1_loop_pop x : pre1 x loop_stack_pop.
Proof. intros s. unfold loop_stack_pop. destruct (s_loopstack s); [done|by apply R1_same]. Qed.

(** The body of a rule is run. *)
Lemma run_R1 fp show id a sp lf s : pre1 None fp -> (forall f, s_fheap s !! a = Some f -> f_stage f <> 1%Z) ->
  match (set_stage a 1 ;!
          cache_set a None None ;!
          emit (EvBody id sp) ;!
          do! r := fp in
          do! f' := get_fr a in
          if (f_stage f' =? 1)%Z then
            set_stage a 0 ;!
            do! p := get_pos in
            cache_set a r (Some p) ;!
            log_if E show ;!
            ret r
          else if (f_stage f' =? 2)%Z then
            match r with
            | None => log_if E show ;! set_stage a 0 ;! ret None
            | Some x =>
                set_stage a 3 ;!
                (if e_loop E then
                   do! c := gets s_code in
                   do! push := (if (e_filter E <? 0)%Z then ret true
                                else do! l := lift (c_line c) in ret (l =? e_filter E)%Z) in
                   if (push : bool) then loop_stack_push else ret tt
                 else ret tt) ;!
                do! best := grow E lf fp show id a sp x in
                let '(bres, bpos, bstash) := best in
                (if e_loop E then loop_stack_pop else ret tt) ;!
                do! _ := wipe_with a false in
                restore_with bstash ;!
                set_pos bpos ;!
                log_if E show ;!
                set_stage a 0 ;!
                ret (Some bres)
            end
          else panic_ (PMsg "Unexpected stage")) s with
  | Ok _ s' => R1 None s s'
  | _ => True
  end.
Proof.
  intros Hfp Ha. set (m := set_stage a 1 ;! _). assert (pre1 (Some a) m) as Hm.
  { unfold m. repeat first [(apply p1_grow; exact Hfp)|apply p1_loop_push|apply p1_loop_pop|s1 Hfp]. }
  specialize (Hm s). destruct (m s); [by eapply R1_strengthen|done|done].
Qed.

Lemma rec_R1 (show : bool) id a sp (z : Z) s : (forall f, s_fheap s !! a = Some f -> f_pos f = sp) ->
  match ((if (z =? 1)%Z then set_stage a 2 else ret tt) ;!
      emit (EvRec id sp) ;!
      log_if E show ;!
      do! f1 := get_fr a in
      let mask0 := match f_mask f1 with Some m => m | None => replicate (e_nrules E) false end in
      do! stk := gets s_stack in
      do! mask := mark (tail stk) sp id mask0 in
      set_mask a mask ;!
      do! f2 := get_fr a in
      (match f_end f2 with Some e => set_pos e | None => ret tt end) ;!
      ret (f_res f2)) s with
  | Ok _ s' => R1 None s s'
  | _ => True
  end.
Proof.
  intros Ha. set (m := (if (z =? 1)%Z then _ else _) ;! _). destruct (m s) as [r s'| |] eqn:Em; [|done|done].
  unfold m in Em. apply bind_inv in Em as (u1 & s1 & E1 & Em). apply bind_inv in Em as (u2 & s2 & E2 & Em). injection E2 as <- <-.
  apply bind_inv in Em as (u3 & s3 & E3 & Em). apply bind_inv in Em as (f1 & s4 & E4 & Em).
  assert (R1 (Some a) s s1) as H1.
  { assert (pre1 (Some a) (if (z =? 1)%Z then set_stage a 2 else ret tt)) as HH by (destruct (z =? 1)%Z; [apply p1_set_stage|apply p1_ret]).
    specialize (HH s). by rewrite E1 in HH. }
  assert (R1 (Some a) s (add_log s1 (EvRec id sp))) as H2.
  { eapply R1_trans; [exact H1|]. exact (p1_emit (Some a) (EvRec id sp) s1). }
  assert (R1 (Some a) (add_log s1 (EvRec id sp)) s') as H3.
  { pose proof (p1_log_if (Some a) show (add_log s1 (EvRec id sp))) as HL. rewrite E3 in HL.
    eapply R1_trans; [exact HL|]. clear HL. pose proof (p1_get_fr (Some a) a s3) as HL. rewrite E4 in HL. eapply R1_trans; [exact HL|].
    match type of Em with ?k s4 = _ => assert (pre1 (Some a) k) as HP end.
    { s1 p1_emit. }
    specialize (HP s4). by rewrite Em in HP. }
  intros HG. destruct (H1 HG) as (G1 & l1 & L1 & K1). destruct (H3 G1) as (G3 & l3 & L3 & K3).
  split; [done|]. exists (l3 ++ EvRec id sp :: l1). split; [rewrite L3; cbn; rewrite L1, <- app_assoc; done|].
  intros b f Hb. destruct (K1 b f Hb) as (f' & Hb' & P1 & S1). destruct (K3 b f' Hb') as (f'' & Hb'' & P3 & S3).
  exists f''. split; [done|]. split; [congruence|]. intros _ Hs. destruct (decide (b = a)) as [->|Hne].
  - right. exists id. rewrite (Ha _ Hb). apply elem_of_app. right. left.
  - destruct S1 as [S1|[i Hi]]; [congruence|done| |].
    + destruct S3 as [S3|[i Hi]]; [congruence|done|by left|]. right. exists i. rewrite <- P1. apply elem_of_app. by left.
    + right. exists i. apply elem_of_app. right. by right.
Qed.

Lemma p1_loopify fp lf n : pre1 None fp -> pre1 None (loopify E lf fp n).
Proof.
  intros Hfp. unfold loopify. cbn zeta. apply p1_bind; [apply p1_log_if|]. intros _. destruct (i_skip (n_info n)).
  { s1 Hfp. apply pre_log; fw. }
  intros s. destruct (bind _ _ s) as [r s'| |] eqn:Em; [|done|done].
  apply bind_inv in Em as (a & s1 & E1 & Em). apply bind_inv in Em as (sp & s2 & E2 & Em). injection E2 as <- <-.
  apply bind_inv in Em as (f0 & s3 & E3 & Em). unfold get_fr in E3. destruct (s_fheap s1 !! a) as [g0|] eqn:EA; [|done]. injection E3 as <- <-.
  apply bind_inv in Em as (u & s4 & E4 & Em). apply bind_inv in Em as (f & s5 & E5 & Em).
  unfold get_fr in E5. destruct (s_fheap s4 !! a) as [g4|] eqn:EA4; [|done]. injection E5 as <- <-.
  pose proof (p1_get_frame None (i_id (n_info n)) s) as H1. rewrite E1 in H1.
  assert (R1 (Some a) s1 s4) as H4x.
  { assert (pre1 (Some a) (if (f_stage g0 <? 0)%Z then set_stage a 0 else ret tt)) as HH by (destruct (_ <? _)%Z; [apply p1_set_stage|apply p1_ret]).
    specialize (HH s1). by rewrite E4 in HH. }
  assert (R1 None s1 s4) as H4.
  { destruct (Z.ltb_spec (f_stage g0) 0).
    - eapply R1_strengthen; [exact H4x|]. intros g Hg. assert (g = g0) as -> by congruence. lia.
    - injection E4 as _ <-. apply R1_refl. }
  assert (st_pos s4 = st_pos s1) as HP4.
  { destruct (_ <? _)%Z; [|by injection E4 as _ <-]. unfold set_stage, bind, get_fr in E4. rewrite EA in E4. injection E4 as _ <-. done. }
  intros HG. pose proof (R1_trans _ _ _ _ H1 H4) as H14.
  assert (f_pos g4 = st_pos s1) as HPf.
  { destruct (H1 HG) as (G1 & _). destruct (H4 G1) as (G4 & l4 & L4 & K4).
    destruct (K4 a g0 EA) as (g & Hg & Pg & _). assert (g = g4) as -> by congruence. rewrite Pg.
    unfold get_frame in E1. destruct (table_get (s_frames s) (st_pos s) (i_id (n_info n))) as [[b|]|] eqn:ET; [| |done].
    - injection E1 as -> ->. destruct (HG _ _ _ ET) as (h & Hh & Ph). congruence.
    - injection E1 as <- <-. cbn in EA. rewrite lookup_app_r, Nat.sub_diag in EA by lia. injection EA as <-. done. }
  revert HG. change (R1 None s s'). eapply R1_trans; [exact H14|]. clear H1 H4x H4 H14 E4 E1.
  destruct (Z.eqb_spec (f_stage g4) 0) as [Hs0|Hs0].
  - destruct (f_end g4) as [e|].
    + match type of Em with ?k s4 = _ => assert (pre1 None k) as HP by (s1 Hfp) end.
      specialize (HP s4). by rewrite Em in HP.
    + pose proof (run_R1 fp (e_stack E || i_debug (n_info n))%bool (i_id (n_info n)) a (st_pos s1) lf s4 Hfp) as HR.
      rewrite Em in HR. apply HR. intros g Hg. assert (g = g4) as -> by congruence. lia.
  - destruct (_ || _)%bool; [|done].
    pose proof (rec_R1 (e_stack E || i_debug (n_info n))%bool (i_id (n_info n)) a (st_pos s1) (f_stage g4) s4) as HR.
    cbn zeta in HR. rewrite Em in HR. apply HR. intros g Hg. congruence.
Qed.
Lemma p1_parse fuel : forall n, pre1 None (parse E fuel n).
Proof.
  induction fuel as [|fuel IH]; intros n; cbn [parse]; [done|].
  assert (pre1 None (wrap E (parse E fuel) fuel n)) as Hw.
  { assert (pre1 None (body E (parse E fuel) fuel n)) as Hb by (apply pre_body; fw; done).
    assert (pre1 None (prepare_result E (body E (parse E fuel) fuel n) n)) as Hp.
    { apply pre_prepare; fw; try done. intros x. unfold call_cb. destruct (i_cb _); [|apply p1_ret].
      apply p1_bind; [apply p1_gets|]. intros p. apply p1_bind; [apply p1_emit|]. intros _ s. destruct (e_cb E _ _ _ _); [by apply R1_same|done]. }
    unfold wrap. destruct (i_isrule (n_info n)); [|destruct (_ || _)%bool; done].
    unfold stack_. apply p1_bind.
    { unfold stack_push. apply p1_bind; [apply p1_get_frame|]. intros a s. destruct (_ <=? _); [done|by apply R1_same]. }
    intros _. apply p1_bind; [by apply p1_loopify|]. intros r. apply p1_bind; [intros s; by apply R1_same|]. intros _. apply p1_ret. }
  destruct (n_kind n); try exact Hw. apply p1_ret.
Qed.
End Stages.
