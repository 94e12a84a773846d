(** Proofs for CombSpec.v. *)
From Coq Require Import Sorted.
From Verif Require Import Base Helpers Utf8 Stream StreamProofs Native Engine CombSpec.

Lemma moved_pos p s s' : moved p s s' -> st_pos s' = p.
Proof.
  unfold moved, set_pos. destruct (c_set_pos (s_code s) (Z.of_nat p)) as [c| |] eqn:EC; [|done|done]. intros [= <-].
  unfold st_pos. cbn [set_code s_code]. destruct (s_code s) as [r|t]; cbn in EC.
  - unfold rs_set_pos in EC. destruct (_ || _)%bool; [done|]. injection EC as <-. cbn. by rewrite Nat2Z.id.
  - unfold ts_set_pos in EC. destruct (_ || _)%bool; [done|]. injection EC as <-. cbn. by rewrite Nat2Z.id.
Qed.

Section Comb.
Variable E : env.
Variable rec : node -> M (option ast).
Notation runs := (runs rec).
Notation breaks := (breaks rec).

Lemma bind_inv {A B} (m : M A) (k : A -> M B) s b s' : bind m k s = Ok b s' -> exists a s1, m s = Ok a s1 /\ k a s1 = Ok b s'.
Proof. unfold bind. destruct (m s) as [a s1| |]; [|done|done]. eauto. Qed.
Lemma bind_ok {A B} (m : M A) (k : A -> M B) s a s1 : m s = Ok a s1 -> bind m k s = k a s1.
Proof. unfold bind. by intros ->. Qed.

Lemma breaks_here n l s s' : rec n s = Ok None s' -> breaks (n :: l) s s'.
Proof. intros H. exists [], n, l, [], s. split; [done|]. split; [constructor|done]. Qed.
Lemma breaks_later n l s x s1 s' : rec n s = Ok (Some x) s1 -> breaks l s1 s' -> breaks (n :: l) s s'.
Proof.
  intros H (l1 & m & l2 & xs & s2 & -> & H1 & H2). exists (n :: l1), m, l2, (x :: xs), s2. split; [done|]. split; [by econstructor|done].
Qed.
Lemma breaks_inv n l s s' : breaks (n :: l) s s' ->
  rec n s = Ok None s' \/ exists x s1, rec n s = Ok (Some x) s1 /\ breaks l s1 s'.
Proof.
  intros (l1 & m & l2 & xs & s2 & Heq & H1 & H2). destruct l1 as [|n' l1].
  - inversion H1; subst. injection Heq as -> ->. by left.
  - injection Heq as <- ->. inversion H1; subst. right. do 2 eexists. split; [done|]. by exists l1, m, l2, xs0, s2.
Qed.

Lemma captured_cons n l x xs : captured (n :: l) (x :: xs) = (if i_capture (n_info n) then [x] else []) ++ captured l xs.
Proof. unfold captured. cbn. by destruct (i_capture (n_info n)). Qed.

Lemma seq_array_spec l : forall acc s r s', seq_array rec l acc s = Ok r s' <->
  (exists xs, runs l s xs s' /\ r = Some (AArr (rev acc ++ captured l xs))) \/ (breaks l s s' /\ r = None).
Proof.
  induction l as [|n l IH]; intros acc s r s'; cbn [seq_array].
  - split.
    + intros [= <- <-]. left. exists []. split; [constructor|]. by rewrite app_nil_r.
    + intros [(xs & H & ->)|[(l1 & m & l2 & xs & s2 & Heq & _) _]]; [|by destruct l1].
      inversion H; subst. unfold captured. cbn. by rewrite app_nil_r.
  - split.
    + intros (x & s1 & H1 & H2)%bind_inv. destruct x as [x|].
      * apply IH in H2 as [(xs & H & ->)|[H ->]].
        -- left. exists (x :: xs). split; [by econstructor|]. f_equal. f_equal. rewrite captured_cons.
           destruct (i_capture (n_info n)); [|done]. cbn. by rewrite <- app_assoc.
        -- right. split; [by eapply breaks_later|done].
      * injection H2 as <- <-. right. split; [by apply breaks_here|done].
    + intros [(xs & H & ->)|[H ->]].
      * inversion H; subst. erewrite bind_ok by done. cbv beta iota. apply IH. left. exists xs0. split; [done|].
        f_equal. f_equal. rewrite captured_cons. destruct (i_capture (n_info n)); [|done]. cbn. by rewrite <- app_assoc.
      * apply breaks_inv in H as [H|(x & s1 & H & HB)]; erewrite bind_ok by done; cbv beta iota; [done|].
        apply IH. by right.
Qed.

Lemma seq_single_spec l : forall acc s r s', seq_single rec l acc s = Ok r s' <->
  (exists xs, runs l s xs s' /\
     r = Some (match last (captured l xs) with Some x => x | None => match acc with Some a => a | None => AUndef end end)) \/
  (breaks l s s' /\ r = None).
Proof.
  induction l as [|n l IH]; intros acc s r s'; cbn [seq_single].
  - split.
    + intros [= <- <-]. left. exists []. split; [constructor|]. by destruct acc.
    + intros [(xs & H & ->)|[(l1 & m & l2 & xs & s2 & Heq & _) _]]; [|by destruct l1].
      inversion H; subst. by destruct acc.
  - assert (forall x xs, match last (captured l xs) with Some x => x | None =>
        match (if i_capture (n_info n) then Some x else acc) with Some a => a | None => AUndef end end =
      match last (captured (n :: l) (x :: xs)) with Some x => x | None => match acc with Some a => a | None => AUndef end end) as HC.
    { intros x xs. rewrite captured_cons. destruct (i_capture (n_info n)); [|done]. cbn [app].
      destruct (captured l xs) as [|y ys] eqn:EY; [done|]. rewrite last_cons_cons. by destruct (last (y :: ys)) eqn:EL; [|apply last_None in EL]. }
    split.
    + intros (x & s1 & H1 & H2)%bind_inv. destruct x as [x|].
      * apply IH in H2 as [(xs & H & ->)|[H ->]].
        -- left. exists (x :: xs). split; [by econstructor|]. f_equal. apply HC.
        -- right. split; [by eapply breaks_later|done].
      * injection H2 as <- <-. right. split; [by apply breaks_here|done].
    + intros [(xs & H & ->)|[H ->]].
      * inversion H; subst. erewrite bind_ok by done. cbv beta iota. apply IH. left. exists xs0. split; [done|].
        f_equal. symmetry. apply HC.
      * apply breaks_inv in H as [H|(x & s1 & H & HB)]; erewrite bind_ok by done; cbv beta iota; [done|].
        apply IH. by right.
Qed.

Lemma sequence_spec lf n ty l s r s' : n_kind n = KSeq ty l -> ty <> TObject ->
  body E rec lf n s = Ok r s' <->
  (exists xs, runs l s xs s' /\ r = Some (seq_shape ty l xs)) \/ (breaks l s s' /\ r = None).
Proof.
  intros Hk Hty. unfold body. rewrite Hk. destruct ty; [| |done].
  - rewrite seq_single_spec. done.
  - rewrite seq_array_spec. done.
Qed.

Lemma choice_spec l : forall s r s', choice_loop rec l s = Ok r s' <->
  (exists l1 n l2 s1 x, l = l1 ++ n :: l2 /\ all_fail rec (st_pos s) l1 s s1 /\ rec n s1 = Ok (Some x) s' /\ r = Some x) \/
  (all_fail rec (st_pos s) l s s' /\ r = None).
Proof.
  induction l as [|n l IH]; intros s r s'; cbn [choice_loop].
  - split.
    + intros [= <- <-]. right. split; [constructor|done].
    + intros [(l1 & n & l2 & s1 & x & Heq & _)|[H ->]]; [by destruct l1|]. inversion H; subst. done.
  - assert (get_pos s = Ok (st_pos s) s) as Hgp by done. split.
    + intros (p & s0 & H0 & H1)%bind_inv. rewrite Hgp in H0. injection H0 as <- <-.
      apply bind_inv in H1 as (x & s1 & H1 & H2). destruct x as [x|].
      * injection H2 as <- <-. left. exists [], n, l, s, x. split; [done|]. split; [constructor|done].
      * apply bind_inv in H2 as ([] & s2 & H2 & H3). pose proof (moved_pos _ _ _ H2) as Hp.
        apply IH in H3. rewrite Hp in H3. destruct H3 as [(l1 & m & l2 & s3 & x & -> & Ha & Hb & ->)|[Ha ->]].
        -- left. exists (n :: l1), m, l2, s3, x. split; [done|]. split; [by econstructor|done].
        -- right. split; [by econstructor|done].
    + intros H. erewrite bind_ok by exact Hgp. cbv beta. destruct H as [(l1 & m & l2 & s3 & x & Heq & Ha & Hb & ->)|[Ha ->]].
      * destruct l1 as [|n' l1].
        -- inversion Ha; subst. injection Heq as -> ->. by erewrite bind_ok by done.
        -- injection Heq as <- ->. inversion Ha; subst. erewrite bind_ok by done. cbv beta iota. erewrite bind_ok by done. cbv beta.
           apply IH. left. exists l1, m, l2, s3, x. split; [done|].
           match goal with H : moved _ _ _ |- _ => by rewrite (moved_pos _ _ _ H) end.
      * inversion Ha; subst. erewrite bind_ok by done. cbv beta iota. erewrite bind_ok by done. cbv beta.
        apply IH. right. match goal with H : moved _ _ _ |- _ => by rewrite (moved_pos _ _ _ H) end.
Qed.

(** ** Repetitions *)
Lemma pat_loop_spec v j mx lf : forall acc s ms s', pat_loop rec lf v j mx acc s = Ok ms s' ->
  exists xs, ms = rev xs ++ acc /\
    ((exists s1, many rec v j s xs s1 /\ no_more rec v j s1 s') \/
     (many rec v j s xs s' /\ xs <> [] /\ (-1 < mx)%Z /\ (mx <= Z.of_nat (length acc + length xs))%Z)) /\
    (forall k, (-1 < mx)%Z -> 0 < k -> k < length xs -> (Z.of_nat (length acc + k) < mx)%Z).
Proof.
  induction lf as [|lf IH]; intros acc s ms s' H; [done|]. cbn [pat_loop] in H.
  apply bind_inv in H as (p & s0 & H0 & H1). injection H0 as <- <-. apply bind_inv in H1 as (jr & s1 & H1 & H2).
  assert (forall s2 x s3, one_more rec v j s x s2 ->
    (if ((-1 <? mx) && (mx <=? Z.of_nat (length (x :: acc))))%Z%bool then ret (x :: acc) else pat_loop rec lf v j mx (x :: acc)) s2 = Ok ms s3 ->
    exists xs, ms = rev xs ++ acc /\
    ((exists s1, many rec v j s xs s1 /\ no_more rec v j s1 s3) \/
     (many rec v j s xs s3 /\ xs <> [] /\ (-1 < mx)%Z /\ (mx <= Z.of_nat (length acc + length xs))%Z)) /\
    (forall k, (-1 < mx)%Z -> 0 < k -> k < length xs -> (Z.of_nat (length acc + k) < mx)%Z)) as Hmore.
  { intros s2 x s3 Hom Hr. destruct ((-1 <? mx) && _)%Z%bool eqn:EM.
    - injection Hr as <- <-. exists [x]. split; [done|]. apply andb_true_iff in EM as [E1%Z.ltb_lt E2%Z.leb_le]. split.
      + right. split; [by repeat econstructor|]. split; [done|]. split; [lia|]. cbn [length] in *. lia.
      + cbn. lia.
    - apply IH in Hr as (xs & -> & HA & HB). exists (x :: xs). split; [cbn; by rewrite <- app_assoc|].
      apply andb_false_iff in EM. split.
      + destruct HA as [(s4 & Ha & Hb)|(Ha & Hb & Hc & Hd)].
        * left. exists s4. split; [by econstructor|done].
        * right. split; [by econstructor|]. split; [done|]. split; [done|]. cbn [length] in *. lia.
      + intros k Hmx Hk0 Hk. cbn [length] in *. destruct k as [|[|k]]; [lia| |].
        * destruct EM as [E1%Z.ltb_ge|E2%Z.leb_gt]; lia.
        * specialize (HB (S k) Hmx ltac:(lia) ltac:(lia)). lia. }
  assert (forall s2 s3, (forall s4, moved (st_pos s) s2 s4 -> no_more rec v j s s4) ->
     (set_pos (st_pos s) ;! ret acc) s2 = Ok ms s3 -> exists xs, ms = rev xs ++ acc /\
    ((exists s1, many rec v j s xs s1 /\ no_more rec v j s1 s3) \/
     (many rec v j s xs s3 /\ xs <> [] /\ (-1 < mx)%Z /\ (mx <= Z.of_nat (length acc + length xs))%Z)) /\
    (forall k, (-1 < mx)%Z -> 0 < k -> k < length xs -> (Z.of_nat (length acc + k) < mx)%Z)) as Hno.
  { intros s2 s3 Hnm (u & s4 & Hm & Hr)%bind_inv. injection Hr as <- <-. exists []. split; [done|]. split; [|cbn; lia].
    left. exists s. split; [constructor|]. apply Hnm. by destruct u. }
  destruct j as [jn|].
  - apply bind_inv in H1 as (jx & s1' & H1 & Hr). injection Hr as <- <-. destruct jx as [b|].
    + apply bind_inv in H2 as (x & s2 & H2 & H3). destruct x as [x|].
      * eapply Hmore; [|exact H3]. by econstructor.
      * eapply Hno; [|exact H3]. intros s4 Hm. by econstructor.
    + eapply Hno; [|exact H2]. intros s4 Hm. by eapply nm_join.
  - injection H1 as <- <-. apply bind_inv in H2 as (x & s2 & H2 & H3). destruct x as [x|].
    + eapply Hmore; [|exact H3]. by constructor.
    + eapply Hno; [|exact H3]. intros s4 Hm. by econstructor.
Qed.

Lemma pattern_spec lf n v j mn mx s r s' : n_kind n = KPat v j mn mx -> body E rec lf n s = Ok r s' ->
  (exists s1, rec v s = Ok None s1 /\ moved (st_pos s) s1 s' /\ r = if (0 <? mn)%Z then None else Some (AArr [])) \/
  (exists x s1 xs s2, rec v s = Ok (Some x) s1 /\ maximal rec v j mx s1 xs s2 /\
     (forall k, (-1 < mx)%Z -> 1 < k -> k <= length xs -> (Z.of_nat k < mx)%Z) /\
     if ((-1 <? mn) && (Z.of_nat (S (length xs)) <? mn))%Z%bool then r = None /\ moved (st_pos s) s2 s'
     else r = Some (AArr (x :: xs)) /\ s' = s2).
Proof.
  intros Hk H. unfold body in H. rewrite Hk in H. apply bind_inv in H as (p & s0 & H0 & H1). injection H0 as <- <-.
  apply bind_inv in H1 as (x & s1 & H1 & H2). destruct x as [x|].
  - right. apply bind_inv in H2 as (ms & s2 & H2 & H3). apply pat_loop_spec in H2 as (xs & -> & HA & HB).
    exists x, s1, xs, s2. split; [done|]. split.
    { destruct HA as [(s3 & Ha & Hb)|(Ha & Hb & Hc & Hd)]; [left; by exists s3|right]. split; [done|]. split; [done|]. split; [done|].
      cbn [length] in Hd. lia. }
    split. { intros k Hmx Hk1 Hk2. specialize (HB (k - 1) Hmx ltac:(lia) ltac:(lia)). cbn [length] in HB. lia. }
    rewrite app_length, rev_length in H3. cbn [length] in H3. replace (length xs + 1) with (S (length xs)) in H3 by lia.
    destruct ((-1 <? mn) && _)%Z%bool.
    + apply bind_inv in H3 as ([] & s3 & H3 & H4). injection H4 as <- <-. done.
    + injection H3 as <- <-. split; [|done]. by rewrite rev_app_distr, rev_involutive.
  - left. apply bind_inv in H2 as ([] & s2 & H2 & H3). exists s1. split; [done|].
    destruct (0 <? mn)%Z; injection H3 as <- <-; done.
Qed.

(** ** Optional, lookahead, negation *)
Lemma exist_spec lf n a s r s' : n_kind n = KExist a ->
  body E rec lf n s = Ok r s' <->
  (exists x, rec a s = Ok (Some x) s' /\ r = Some x) \/
  (exists s1, rec a s = Ok None s1 /\ moved (st_pos s) s1 s' /\ r = Some AUndef).
Proof.
  intros Hk. unfold body. rewrite Hk. erewrite bind_ok by done. cbv beta. split.
  - intros (x & s1 & H1 & H2)%bind_inv. destruct x as [x|].
    + injection H2 as <- <-. left. eauto.
    + apply bind_inv in H2 as ([] & s2 & H2 & H3). injection H3 as <- <-. right. eauto.
  - intros [(x & H & ->)|(s1 & H & Hm & ->)]; erewrite bind_ok by done; cbv beta iota; [done|]. by erewrite bind_ok by exact Hm.
Qed.
Lemma not_spec lf n a s r s' : n_kind n = KNot a ->
  body E rec lf n s = Ok r s' <->
  exists x s1, rec a s = Ok x s1 /\ moved (st_pos s) s1 s' /\ r = match x with Some _ => None | None => Some AUndef end.
Proof.
  intros Hk. unfold body. rewrite Hk. erewrite bind_ok by done. cbv beta. split.
  - intros (x & s1 & H1 & H2)%bind_inv. apply bind_inv in H2 as ([] & s2 & H2 & H3). injection H3 as <- <-. eauto.
  - intros (x & s1 & H & Hm & ->). erewrite bind_ok by done. cbv beta. by erewrite bind_ok by exact Hm.
Qed.
Lemma look_spec lf n a s r s' : n_kind n = KLook a ->
  body E rec lf n s = Ok r s' <-> exists s1, rec a s = Ok r s1 /\ moved (st_pos s) s1 s'.
Proof.
  intros Hk. unfold body. rewrite Hk. erewrite bind_ok by done. cbv beta. split.
  - intros (x & s1 & H1 & H2)%bind_inv. apply bind_inv in H2 as ([] & s2 & H2 & H3). injection H3 as <- <-. eauto.
  - intros (s1 & H & Hm). erewrite bind_ok by done. cbv beta. by erewrite bind_ok by exact Hm.
Qed.
End Comb.

(** ** Fuel *)
Lemma bind_fuel {A B} (m : M A) (k : A -> M B) s : bind m k s = OutOfFuel -> m s = OutOfFuel \/ exists a s1, m s = Ok a s1 /\ k a s1 = OutOfFuel.
Proof. unfold bind. destruct (m s) as [a s1| |]; [eauto|done|by left]. Qed.

Lemma rbind_fuel {A B} (r : res A) (k : A -> res B) : r <> RFuel -> (forall a, k a <> RFuel) -> rbind r k <> RFuel.
Proof. intros H1 H2. destruct r; cbn; auto. Qed.
Lemma bisect_fuel l x : bisect_right l x <> RFuel.
Proof. destruct (HelpersProofs.bisect_right_total l x) as (i & -> & _). done. Qed.
Lemma go_index_fuel {A} (l : list A) i : go_index l i <> RFuel.
Proof. unfold go_index. destruct (i <? 0)%Z; [done|]. by destruct (l !! _). Qed.
Lemma coords_fuel t w : ts_coords t w <> RFuel.
Proof. unfold ts_coords. destruct (ts_tokens t) eqn:E; [done|]. rewrite <- E. destruct (coords_loop _ _ _ _ _). by destruct (ts_tokens t !! n). Qed.
Lemma c_line_fuel c : c_line c <> RFuel.
Proof.
  destruct c as [r|t]; cbn.
  - apply rbind_fuel; [apply bisect_fuel|done].
  - apply rbind_fuel; [apply coords_fuel|]. intros a. apply rbind_fuel; [apply bisect_fuel|done].
Qed.
Lemma c_col_fuel c : c_col c <> RFuel.
Proof.
  destruct c as [r|t]; cbn.
  - apply rbind_fuel; [apply (c_line_fuel (CRune _))|]. intros a. apply rbind_fuel; [apply go_index_fuel|done].
  - apply rbind_fuel; [apply coords_fuel|]. intros a. apply rbind_fuel; [apply (c_line_fuel (CTok _))|].
    intros b. apply rbind_fuel; [apply go_index_fuel|done].
Qed.
Lemma last_n_fuel n : forall s k, last_n_runes_loop n s k <> RFuel.
Proof.
  induction n as [|n IH]; intros s k; cbn [last_n_runes_loop]; [done|]. destruct s as [|b s]; [done|].
  destruct (decode_last_rune (b :: s)) as [c sz]. destruct (c =? rune_error)%N; [done|apply IH].
Qed.
Lemma go_slice_fuel s i j : go_slice s i j <> RFuel.
Proof. unfold go_slice. by destruct ((i <=? j) && (j <=? length s))%bool. Qed.
Lemma c_peek_fuel c n : c_peek_runes c n <> RFuel.
Proof.
  assert (forall b m, last_n_runes b m <> RFuel) as HL.
  { intros b m. unfold last_n_runes. apply rbind_fuel; [apply last_n_fuel|]. intros k. by destruct (_ <? _). }
  destruct c as [r|t]; cbn; unfold rs_peek_runes, ts_peek_runes; destruct (n <=? 0)%Z; apply rbind_fuel; try apply go_slice_fuel; auto.
Qed.
Lemma lift_fuel {A} (r : res A) s : r <> RFuel -> lift r s <> OutOfFuel.
Proof. by destruct r. Qed.
Lemma bind_nofuel {A B} (m : M A) (k : A -> M B) s : m s <> OutOfFuel -> (forall a s1, k a s1 <> OutOfFuel) -> bind m k s <> OutOfFuel.
Proof. intros H1 H2 H. apply bind_fuel in H as [H|(a & s1 & _ & H)]; [done|by eapply H2]. Qed.
Lemma log_fuel E s : log_ E s <> OutOfFuel.
Proof.
  unfold log_. destruct (e_skiplog E); [done|]. apply bind_nofuel; [done|]. intros c s1. apply bind_nofuel.
  - destruct (e_filter E =? -1)%Z; [done|]. apply bind_nofuel; [apply lift_fuel, c_line_fuel|done].
  - intros [] s2; [|done]. apply bind_nofuel; [apply lift_fuel, c_line_fuel|]. intros ? ?.
    apply bind_nofuel; [apply lift_fuel, c_col_fuel|]. intros ? ?. apply bind_nofuel; [apply lift_fuel, c_peek_fuel|done].
Qed.
Lemma log_if_fuel E b s : log_if E b s <> OutOfFuel.
Proof. destruct b; [apply log_fuel|done]. Qed.
Lemma get_fr_fuel a s : get_fr a s <> OutOfFuel.
Proof. unfold get_fr. by destruct (s_fheap s !! a). Qed.
Lemma cache_set_fuel a r e s : cache_set a r e s <> OutOfFuel.
Proof. apply bind_nofuel; [apply get_fr_fuel|done]. Qed.
Lemma wipe_fuel a b s : wipe_with a b s <> OutOfFuel.
Proof.
  apply bind_nofuel; [apply get_fr_fuel|]. intros f s1. destruct (f_mask f); [|done].
  destruct (s_frames s1 !! f_pos f); [|done]. by destruct (negb _).
Qed.
Lemma set_pos_fuel p s : set_pos p s <> OutOfFuel.
Proof.
  unfold set_pos. destruct (s_code s); cbn; unfold rs_set_pos, ts_set_pos; destruct (_ || _)%bool; done.
Qed.

(** ** The growing loop *)
Section Grow.
Variable E : env.
Variable fp : M (option ast).
Variable show : bool.
Variable id a sp : nat.

(** Listing the ends changes nothing else. *)
Lemma grow_ends_erase lf : forall x s,
  grow E lf fp show id a sp x s =
  bind (grow_ends E lf fp show id a sp x) (fun b => let '(res, e, st, _) := b in ret (res, e, st)) s.
Proof.
  induction lf as [|lf IH]; intros x s; cbn [grow grow_ends]; [done|].
  unfold bind. destruct (get_fr a s) as [f s0| |]; [|done..]. destruct (f_mask f); [|done].
  destruct (wipe_with a true s0) as [st s1| |]; [|done..].
  destruct (get_pos s1) as [bp s2| |]; [|done..]. destruct (cache_set a (Some x) (Some bp) s2) as [? s3| |]; [|done..].
  destruct (log_if E show s3) as [? s4| |]; [|done..]. destruct (set_pos sp s4) as [? s5| |]; [|done..].
  destruct (emit (EvBody id sp) s5) as [? s6| |]; [|done..]. destruct (fp s6) as [r s7| |]; [|done..].
  destruct (get_pos s7) as [q s8| |]; [|done..]. destruct (q <=? bp); [done|]. destruct r as [r'|]; [|done].
  rewrite (IH r' s8). unfold bind. destruct (grow_ends _ _ _ _ _ _ _ _ _) as [[[[? ?] ?] ?] ?| |]; done.
Qed.

Lemma get_fr_code s f s' : get_fr a s = Ok f s' -> s' = s.
Proof. unfold get_fr. destruct (s_fheap s !! a); congruence. Qed.
Lemma wipe_code b s st s' : wipe_with a b s = Ok st s' -> s_code s' = s_code s.
Proof.
  intros H. apply bind_inv in H as (f & s1 & H1 & H). apply get_fr_code in H1 as ->.
  destruct (f_mask f); [|done]. destruct (s_frames s !! f_pos f); [|done]. destruct (negb _); [done|].
  injection H as <- <-. done.
Qed.
Lemma set_pos_pos p s u s' : set_pos p s = Ok u s' -> st_pos s' = p.
Proof.
  unfold set_pos, st_pos. destruct (s_code s) as [c|c]; cbn; unfold rs_set_pos, ts_set_pos.
  all: repeat case_decide; repeat case_match; intros [= <- <-] || intros H; cbn in *; simplify_eq; cbn; try lia.
Qed.

(** One round of the loop. *)
Lemma grow_round lf x s b s' : grow_ends E (S lf) fp show id a sp x s = Ok b s' ->
  exists stash s1 r s2, st_pos s1 = sp /\ fp s1 = Ok r s2 /\
    ((st_pos s2 <= st_pos s \/ r = None) /\ b = (x, st_pos s, stash, [st_pos s]) /\ s' = s2 \/
     exists y res e st l, st_pos s < st_pos s2 /\ r = Some y /\
       grow_ends E lf fp show id a sp y s2 = Ok (res, e, st, l) s' /\ b = (res, e, st, st_pos s :: l)).
Proof.
  cbn [grow_ends]. intros H. apply bind_inv in H as (f & s0 & H0 & H). apply get_fr_code in H0 as ->.
  destruct (f_mask f) as [mk0|]; [|done]. apply bind_inv in H as (stash & s1 & H1 & H). apply wipe_code in H1.
  apply bind_inv in H as (bp & s2 & H2 & H). injection H2 as <- <-.
  assert (st_pos s1 = st_pos s) as Hp by (unfold st_pos; by rewrite H1). rewrite Hp in H. clear H1 Hp.
  apply bind_inv in H as (u3 & s3 & H3 & H). apply bind_inv in H as (u4 & s4 & H4 & H).
  apply bind_inv in H as (u5 & s5 & H5 & H). apply set_pos_pos in H5.
  apply bind_inv in H as (u6 & s6 & H6 & H). injection H6 as <- <-.
  apply bind_inv in H as (r & s7 & H7 & H). apply bind_inv in H as (q & s8 & H8 & H). injection H8 as <- <-.
  exists stash, (add_log s5 (EvBody id sp)), r, s7. split; [done|]. split; [done|].
  destruct (Nat.leb_spec (st_pos s7) (st_pos s)) as [Hle|Hgt].
  - left. injection H as <- <-. auto.
  - destruct r as [y|].
    + right. apply bind_inv in H as ([[[res e] st] l] & s9 & H9 & H). injection H as <- <-.
      exists y, res, e, st, l. auto.
    + left. injection H as <- <-. auto.
Qed.

Lemma grow_ends_spec lf : forall x s res e stash l s',
  grow_ends E lf fp show id a sp x s = Ok (res, e, stash, l) s' ->
  Sorted lt l /\ head l = Some (st_pos s) /\ last l = Some e /\
  exists s1 r, st_pos s1 = sp /\ fp s1 = Ok r s' /\ (st_pos s' <= e \/ r = None).
Proof.
  induction lf as [|lf IH]; intros x s res e stash l s' H; [done|].
  apply grow_round in H as (stash1 & s1 & r & s2 & Hp & Hf & [(Hend & Hb & ->)|(y & res1 & e1 & st & l1 & Hlt & -> & Hg & Hb)]).
  - injection Hb as -> -> -> ->. split; [repeat constructor|]. split; [done|]. split; [done|]. eauto.
  - injection Hb as -> -> -> ->. apply IH in Hg as (Hs & Hh & Hl & Hx).
    destruct l1 as [|z l1]; [done|]. injection Hh as ->. split; [constructor; [done|by constructor]|]. auto.
Qed.

Lemma grow_ends_bound L : (forall s r s', fp s = Ok r s' -> st_pos s' <= L) ->
  forall lf x s res e stash l s', st_pos s <= L ->
  grow_ends E lf fp show id a sp x s = Ok (res, e, stash, l) s' -> length l + st_pos s <= S L.
Proof.
  intros HL. induction lf as [|lf IH]; intros x s res e stash l s' Hs H; [done|].
  apply grow_round in H as (stash1 & s1 & r & s2 & Hp & Hf & [(Hend & Hb & ->)|(y & res1 & e1 & st & l1 & Hlt & -> & Hg & Hb)]).
  - injection Hb as -> -> -> ->. cbn. lia.
  - injection Hb as -> -> -> ->. apply IH in Hg; [cbn; lia|eauto].
Qed.

Lemma grow_fuel L : (forall s, fp s <> OutOfFuel) -> (forall s r s', fp s = Ok r s' -> st_pos s' <= L) ->
  forall lf x s, L - st_pos s < lf -> st_pos s <= L -> grow E lf fp show id a sp x s <> OutOfFuel.
Proof.
  intros HF HL. induction lf as [|lf IH]; intros x s Hlf Hs; [lia|]. cbn [grow]. intros H.
  apply bind_fuel in H as [H|(f & s0 & H0 & H)]; [by eapply get_fr_fuel|]. apply get_fr_code in H0 as ->.
  destruct (f_mask f); [|done].
  apply bind_fuel in H as [H|(st & s1 & H1 & H)]; [by eapply wipe_fuel|]. apply wipe_code in H1.
  apply bind_fuel in H as [H|(bp & s2 & H2 & H)]; [done|]. injection H2 as <- <-.
  assert (st_pos s1 = st_pos s) as Hp by (unfold st_pos; by rewrite H1). rewrite Hp in H. clear H1 Hp.
  apply bind_fuel in H as [H|(u3 & s3 & H3 & H)]; [by eapply cache_set_fuel|].
  apply bind_fuel in H as [H|(u4 & s4 & H4 & H)]; [by eapply log_if_fuel|].
  apply bind_fuel in H as [H|(u5 & s5 & H5 & H)]; [by eapply set_pos_fuel|].
  apply bind_fuel in H as [H|(u6 & s6 & H6 & H)]; [done|].
  apply bind_fuel in H as [H|(r & s7 & H7 & H)]; [by eapply HF|]. apply HL in H7.
  apply bind_fuel in H as [H|(q & s8 & H8 & H)]; [done|]. injection H8 as <- <-.
  destruct (Nat.leb_spec (st_pos s7) (st_pos s)) as [Hle|Hgt]; [done|]. destruct r as [y|]; [|done].
  revert H. apply IH; lia.
Qed.
End Grow.

Lemma plain_called E fuel n s : i_isrule (n_info n) = false -> i_cb (n_info n) = None -> i_label (n_info n) = EmptyString ->
  parse E (S fuel) n s = body E (parse E fuel) fuel n s.
Proof.
  intros HR HC HL. cbn [parse]. unfold wrap. rewrite HR, HC, HL. cbn [negb String.eqb andb orb].
  destruct (n_kind n) eqn:EK; try done. unfold body. by rewrite EK.
Qed.
Lemma choice_body E rec lf n l s r s' : n_kind n = KChoice l ->
  body E rec lf n s = Ok r s' <->
  (exists l1 m l2 s1 x, l = l1 ++ m :: l2 /\ all_fail rec (st_pos s) l1 s s1 /\ rec m s1 = Ok (Some x) s' /\ r = Some x) \/
  (all_fail rec (st_pos s) l s s' /\ r = None).
Proof. intros HK. unfold body. rewrite HK. apply choice_spec. Qed.
Lemma pattern_count E rec lf n v j mn mx s vs s' : n_kind n = KPat v j mn mx -> body E rec lf n s = Ok (Some (AArr vs)) s' ->
  (mn <= Z.of_nat (length vs))%Z /\ ((-1 < mx)%Z -> (Z.of_nat (length vs) <= Z.max 2 mx)%Z).
Proof.
  intros HK H. destruct (pattern_spec E rec lf n v j mn mx s _ s' HK H) as [(s1 & _ & _ & Hr)|(x & s1 & xs & s2 & _ & _ & HB & Hr)].
  - destruct (Z.ltb_spec 0 mn); [done|]. injection Hr as ->. cbn. lia.
  - destruct ((-1 <? mn) && _)%Z%bool eqn:EM; [by destruct Hr|]. destruct Hr as [[= ->] _]. split.
    + cbn [length]. lia.
    + intros Hmx. cbn [length]. destruct (Nat.le_gt_cases (length xs) 1); [lia|].
      specialize (HB (length xs) Hmx). lia.
Qed.
Lemma grow_best E fp show id a sp lf L x s res e stash s' :
  (forall s r s', fp s = Ok r s' -> st_pos s' <= L) -> st_pos s <= L ->
  grow E lf fp show id a sp x s = Ok (res, e, stash) s' ->
  exists l, grow_ends E lf fp show id a sp x s = Ok (res, e, stash, l) s' /\
    Sorted lt l /\ head l = Some (st_pos s) /\ last l = Some e /\ length l + st_pos s <= S L /\
    exists s1 r, st_pos s1 = sp /\ fp s1 = Ok r s' /\ (st_pos s' <= e \/ r = None).
Proof.
  intros HL Hs H. rewrite grow_ends_erase in H. apply bind_inv in H as ([[[res' e'] st'] l] & s1 & H1 & H2).
  injection H2 as -> -> -> ->. exists l. split; [done|]. destruct (grow_ends_spec E fp show id a sp lf _ _ _ _ _ _ _ H1) as (A & B & C & D).
  split; [done|]. split; [done|]. split; [done|]. split; [|done]. by eapply grow_ends_bound.
Qed.
Lemma grow_terminates E fp show id a sp lf L x s :
  (forall s, fp s <> OutOfFuel) -> (forall s r s', fp s = Ok r s' -> st_pos s' <= L) ->
  L - st_pos s < lf -> st_pos s <= L -> grow E lf fp show id a sp x s <> OutOfFuel.
Proof. intros H1 H2 H3 H4. by eapply grow_fuel. Qed.

Lemma rounds_end E rec lf n v j mn mx s L : n_kind n = KPat v j mn mx -> L - st_pos s < lf ->
  (forall m s, rec m s <> OutOfFuel) -> (forall m s r s', rec m s = Ok r s' -> st_pos s' <= L) ->
  (forall m s x s', rec m s = Ok (Some x) s' -> st_pos s <= st_pos s') ->
  (forall s x s', rec v s = Ok (Some x) s' -> st_pos s < st_pos s') ->
  body E rec lf n s <> OutOfFuel.
Proof.
  intros HK Hlf HN HL Hmono Heat.
  assert (forall p s, set_pos p s <> OutOfFuel) as Hset.
  { intros p s0. apply set_pos_fuel. }
  assert (forall lf acc s, L - st_pos s < lf -> pat_loop rec lf v j mx acc s <> OutOfFuel) as Hloop.
  { clear Hlf s. intros lf'. induction lf' as [|lf' IH]; intros acc s Hlf; [lia|]. cbn [pat_loop].
    unfold bind at 1, get_pos, gets. unfold bind at 1.
    assert (forall s0, st_pos s <= st_pos s0 ->
      (do! r := rec v in
       match r with
       | None => set_pos (st_pos s) ;! ret acc
       | Some a => let acc' := a :: acc in
          if ((-1 <? mx) && (mx <=? Z.of_nat (length acc')))%Z%bool then ret acc' else pat_loop rec lf' v j mx acc'
       end) s0 <> OutOfFuel) as Hv.
    { intros s0 H0. unfold bind at 1. destruct (rec v s0) as [[x|] s1|p s1|] eqn:E1; [| |done|by apply HN in E1].
      - cbn zeta. destruct (_ && _)%bool; [done|]. apply IH. pose proof (Heat _ _ _ E1). pose proof (HL _ _ _ _ E1). lia.
      - unfold bind. destruct (set_pos _ s1) eqn:E2; [done|done|by apply Hset in E2]. }
    destruct j as [jn|]; [|apply Hv; lia]. unfold bind at 1.
    destruct (rec jn s) as [[x|] s1|p s1|] eqn:E1; [| |done|by apply HN in E1].
    - apply Hv. by eapply Hmono.
    - cbn. unfold bind. destruct (set_pos _ s1) eqn:E2; [done|done|by apply Hset in E2]. }
  unfold body. rewrite HK. unfold bind at 1, get_pos, gets. unfold bind at 1.
  destruct (rec v s) as [[x|] s1|p s1|] eqn:E1; [| |done|by apply HN in E1].
  - unfold bind at 1. destruct (pat_loop rec lf v j mx [x] s1) as [l s2|p s2|] eqn:E2; [|done|].
    + destruct (_ && _)%bool; [|done]. unfold bind. destruct (set_pos _ s2) eqn:E3; [done|done|by apply Hset in E3].
    + exfalso. apply (Hloop lf [x] s1); [|done]. pose proof (Heat _ _ _ E1). lia.
  - unfold bind. destruct (set_pos _ s1) eqn:E2; [by destruct (0 <? mn)%Z|done|by apply Hset in E2].
Qed.
