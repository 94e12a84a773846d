(** Lemmas about Native.v. *)
From Verif Require Import Base Native NativeSpec.
From Coq Require DecimalZ DecimalFacts.
From Coq Require Import DecimalString Sorted.

(** ** Maps *)
Lemma existsb_eqb k l : existsb (String.eqb k) l = true <-> k ∈ l.
Proof.
  rewrite existsb_exists, elem_of_list_In. split.
  - intros (x & Hx & E). apply String.eqb_eq in E. by subst.
  - intros H. exists k. split; [done|]. apply String.eqb_refl.
Qed.

Definition nm_run (m : nmap) (ops : list (string * ast)) : nmap :=
  fold_left (fun m p => nm_set m (fst p) (snd p)) ops m.

Lemma nm_get_set m k v k' : nm_get (nm_set m k v) k' = if String.eqb k' k then Some v else nm_get m k'.
Proof. done. Qed.

Lemma last_set_nil k : last_set [] k = None.
Proof. done. Qed.
Lemma last_set_snoc ops k v k' : last_set (ops ++ [(k, v)]) k' = if String.eqb k' k then Some v else last_set ops k'.
Proof.
  unfold last_set. rewrite filter_app. destruct (String.eqb_spec k' k) as [->|Hne].
  - rewrite (filter_cons_True _ (k, v)), filter_nil, last_snoc by done. done.
  - rewrite (filter_cons_False _ (k, v)), filter_nil by (cbn; congruence). by rewrite app_nil_r.
Qed.

Lemma nm_run_snoc m ops k v : nm_run m (ops ++ [(k, v)]) = nm_set (nm_run m ops) k v.
Proof. unfold nm_run. by rewrite fold_left_app. Qed.

Lemma nm_run_get m ops k :
  nm_get (nm_run m ops) k = match last_set ops k with Some v => Some v | None => nm_get m k end.
Proof.
  induction ops as [|[k' v] ops IH] using rev_ind; [done|].
  rewrite nm_run_snoc, nm_get_set, last_set_snoc. by destruct (String.eqb k k').
Qed.

Lemma order_snoc_new old ops K k v : in_first_set_order old ops K -> k ∉ old -> k ∉ K ->
  in_first_set_order old (ops ++ [(k, v)]) (K ++ [k]).
Proof.
  intros (H1 & H2 & H3) Ho Hk. split; [|split].
  - apply NoDup_app. split; [done|]. split; [|apply NoDup_singleton].
    intros x Hx Hx'. apply elem_of_list_singleton in Hx'. by subst.
  - intros x. rewrite fmap_app, !elem_of_app, H2. cbn [fmap list_fmap fst]. rewrite elem_of_list_singleton.
    split; [intros [[? ?]| ->]|intros [[?| ->] ?]]; auto.
  - intros K1 K2 K3 a b E.
    assert (b = k /\ K3 = [] /\ K = K1 ++ a :: K2 \/ exists K3', K3 = K3' ++ [k] /\ K = K1 ++ a :: K2 ++ b :: K3') as HC.
    { destruct K3 as [|z K3] using rev_ind.
      - left. replace (K1 ++ a :: K2 ++ [b]) with ((K1 ++ a :: K2) ++ [b]) in E by (by rewrite <- app_assoc).
        apply app_inj_tail in E as [-> ->]. done.
      - clear IHK3. right. exists K3.
        replace (K1 ++ a :: K2 ++ b :: K3 ++ [z]) with ((K1 ++ a :: K2 ++ b :: K3) ++ [z]) in E
          by (rewrite <- app_assoc; cbn; by rewrite <- app_assoc).
        apply app_inj_tail in E as [-> ->]. done. }
    destruct HC as [(-> & -> & EK)|(K3' & -> & EK)].
    + assert (a ∈ K) as Ha by (rewrite EK; apply elem_of_app; right; left).
      apply H2 in Ha as [Ha _]. apply elem_of_list_fmap in Ha as ([a' va] & -> & Ha).
      apply elem_of_list_split in Ha as (p1 & p2 & ->).
      exists p1, (p2 ++ [(k, v)]), va. split; [by rewrite <- app_assoc|].
      intros Hin. apply Hk, H2. split; [|done]. rewrite fmap_app, elem_of_app. by left.
    + destruct (H3 _ _ _ _ _ EK) as (p1 & p2 & va & -> & Hn).
      exists p1, (p2 ++ [(k, v)]), va. split; [by rewrite <- app_assoc|done].
Qed.

Lemma order_snoc_old old ops K k v : in_first_set_order old ops K -> k ∈ old \/ k ∈ K ->
  in_first_set_order old (ops ++ [(k, v)]) K.
Proof.
  intros (H1 & H2 & H3) Hk. split; [done|]. split.
  - intros x. rewrite fmap_app, elem_of_app, H2. cbn [fmap list_fmap fst]. rewrite elem_of_list_singleton.
    split; [intros [? ?]; auto|]. intros [[?| ->] ?]; [auto|].
    destruct Hk as [Hk|Hk]; [done|]. by apply H2 in Hk.
  - intros K1 K2 K3 a b E. destruct (H3 _ _ _ _ _ E) as (p1 & p2 & va & -> & Hn).
    exists p1, (p2 ++ [(k, v)]), va. split; [by rewrite <- app_assoc|done].
Qed.

Lemma nm_run_keys m ops : exists K,
  nm_keys (nm_run m ops) = nm_keys m ++ K /\ in_first_set_order (nm_keys m) ops K.
Proof.
  induction ops as [|[k v] ops IH] using rev_ind.
  - exists []. rewrite app_nil_r. split; [done|]. split; [constructor|]. split.
    + intros k. split; [by intros ?%elem_of_nil|]. intros [?%elem_of_nil _]. done.
    + intros K1 K2 K3 a b E. by destruct K1.
  - destruct IH as (K & EK & HK). rewrite nm_run_snoc. cbn [nm_set nm_keys].
    destruct (existsb (String.eqb k) (nm_keys (nm_run m ops))) eqn:E.
    + apply existsb_eqb in E. rewrite EK, elem_of_app in E.
      exists K. split; [done|]. by apply order_snoc_old.
    + assert (k ∉ nm_keys (nm_run m ops)) as Hn by (intros H; apply existsb_eqb in H; congruence).
      rewrite EK, not_elem_of_app in Hn. destruct Hn as [Hn1 Hn2].
      exists (K ++ [k]). rewrite EK, app_assoc. split; [done|]. by apply order_snoc_new.
Qed.

Lemma string_leb_spec a b : string_leb a b = true <-> bytes_le (s2b a) (s2b b).
Proof.
  revert b. induction a as [|x a IH]; intros b; cbn [string_leb s2b].
  - split; [constructor|done].
  - destruct b as [|y b]; cbn [s2b].
    + split; [done|]. intros H. inversion H.
    + destruct (N_of_ascii x <? N_of_ascii y)%N eqn:E1.
      * split; [|done]. intros _. apply bytes_le_lt. lia.
      * destruct (N_of_ascii y <? N_of_ascii x)%N eqn:E2.
        -- split; [done|]. intros H. inversion H; subst; lia.
        -- rewrite IH. replace (N_of_ascii x) with (N_of_ascii y) by lia. split.
           ++ apply bytes_le_eq.
           ++ intros H. inversion H; subst; [lia|done].
Qed.
Lemma bytes_le_refl s : bytes_le s s.
Proof. induction s; by constructor. Qed.
Lemma bytes_le_trans s t u : bytes_le s t -> bytes_le t u -> bytes_le s u.
Proof.
  intros H. revert u. induction H as [|x y s t Hl|x s t H IH]; intros u H2; [constructor| |].
  - inversion H2; subst; apply bytes_le_lt; lia.
  - inversion H2; subst; [by apply bytes_le_lt|by apply bytes_le_eq, IH].
Qed.
Lemma bytes_le_total s t : bytes_le s t \/ bytes_le t s.
Proof.
  revert t. induction s as [|x s IH]; intros t; [left; constructor|].
  destruct t as [|y t]; [right; constructor|].
  destruct (N.lt_trichotomy x y) as [H|[->|H]].
  - left. by apply bytes_le_lt.
  - destruct (IH t); [left|right]; by apply bytes_le_eq.
  - right. by apply bytes_le_lt.
Qed.

Definition keys_le (a b : string) : Prop := bytes_le (s2b a) (s2b b).
Lemma insert_sorted_perm k l : insert_sorted k l ≡ₚ k :: l.
Proof. induction l as [|x l IH]; [done|]. cbn. destruct (string_leb k x); [done|]. rewrite IH. apply Permutation_swap. Qed.
Lemma sort_strings_perm l : sort_strings l ≡ₚ l.
Proof. induction l as [|x l IH]; [done|]. cbn. rewrite insert_sorted_perm. by f_equiv. Qed.
Lemma insert_sorted_sorted k l : StronglySorted keys_le l -> StronglySorted keys_le (insert_sorted k l).
Proof.
  induction 1 as [|x l Hs IH Hf]; cbn [insert_sorted]; [repeat constructor|].
  destruct (string_leb k x) eqn:E.
  - apply string_leb_spec in E. constructor; [by constructor|]. constructor; [done|].
    eapply Forall_impl; [exact Hf|]. intros y Hy. by eapply bytes_le_trans.
  - constructor; [done|]. apply Forall_forall. intros y Hy.
    rewrite insert_sorted_perm in Hy. apply elem_of_cons in Hy as [->|Hy].
    + destruct (bytes_le_total (s2b x) (s2b k)) as [H|H]; [done|]. apply string_leb_spec in H. congruence.
    + by rewrite Forall_forall in Hf; apply Hf.
Qed.
Lemma sort_strings_sorted l : StronglySorted keys_le (sort_strings l).
Proof. induction l as [|x l IH]; [constructor|]. by apply insert_sorted_sorted. Qed.

Lemma nm_exists_get m k : nm_exists m k = true <-> exists v, nm_get m k = Some v.
Proof. unfold nm_exists. destruct (nm_get m k); split; eauto; [done|]. intros [? ?]. done. Qed.

Lemma nm_props : forall (init ops : list (string * ast)), NoDup init.*1 ->
  let m := nm_run (nm_from_list init) ops in
  (forall k, nm_get m k = match last_set ops k with
                          | Some v => Some v
                          | None => last_set init k
                          end) /\
  (forall k, nm_exists m k = true <-> k ∈ init.*1 \/ k ∈ ops.*1) /\
  (exists S K, nm_keys m = S ++ K /\ S ≡ₚ init.*1 /\
     StronglySorted (fun a b => bytes_le (s2b a) (s2b b)) S /\ in_first_set_order init.*1 ops K) /\
  NoDup (nm_keys m).
Proof.
  intros init ops Hnd m.
  assert (forall l k, NoDup l.*1 -> vals_get l k = last_set l k) as HV.
  { clear. induction l as [|[k v] l IH]; intros k' Hnd; [done|]. cbn [vals_get].
    rewrite fmap_cons in Hnd. apply NoDup_cons in Hnd as [Hn Hnd]. unfold last_set.
    destruct (String.eqb_spec k' k) as [->|Hne].
    - rewrite filter_cons_True by done.
      assert (filter (fun p : string * ast => fst p = k) l = []) as ->; [|done].
      destruct (filter _ l) as [|p f] eqn:E; [done|]. exfalso. apply Hn.
      assert (p ∈ filter (fun p : string * ast => fst p = k) l) as Hp by (rewrite E; left).
      apply elem_of_list_filter in Hp as [<- Hp]. apply elem_of_list_fmap. by exists p.
    - rewrite filter_cons_False by (cbn; congruence). by apply IH. }
  assert (forall l k, (exists v, last_set l k = Some v) <-> k ∈ l.*1) as HL.
  { clear. intros l k. induction l as [|[k' v'] l IH] using rev_ind.
    - split; [intros [? ?]; done|]. by intros ?%elem_of_nil.
    - rewrite last_set_snoc, fmap_app, elem_of_app, <- IH. cbn. rewrite elem_of_list_singleton.
      destruct (String.eqb_spec k k') as [->|Hne].
      + split; [by right|eauto].
      + split; [by left|]. intros [?|?]; done. }
  assert (forall k, nm_get m k = match last_set ops k with Some v => Some v | None => last_set init k end) as HG.
  { intros k. subst m. rewrite nm_run_get. destruct (last_set ops k); [done|]. cbn. by apply HV. }
  split; [done|]. split.
  { intros k. rewrite nm_exists_get, HG. rewrite <- !HL. destruct (last_set ops k) as [v|].
    - split; [right; eauto|eauto].
    - split; [intros [v ?]; left; eauto|]. intros [[v ?]|[v ?]]; [eauto|done]. }
  destruct (nm_run_keys (nm_from_list init) ops) as (K & EK & HK).
  assert (in_first_set_order init.*1 ops K) as HK'.
  { destruct HK as (H1 & H2 & H3). split; [done|]. split; [|done]. intros k. rewrite H2. cbn [nm_keys nm_from_list].
    split; intros [? Hn]; (split; [done|]); intros Hx; apply Hn; [by rewrite sort_strings_perm|by rewrite sort_strings_perm in Hx]. }
  split.
  { exists (sort_strings init.*1), K. split; [done|]. split; [apply sort_strings_perm|]. split; [apply sort_strings_sorted|done]. }
  subst m. rewrite EK. destruct HK as (H1 & H2 & _). apply NoDup_app. split; [cbn; by rewrite sort_strings_perm|].
  split; [|done]. intros x Hx Hx'. apply H2 in Hx' as [_ Hn]. by apply Hn.
Qed.

(** ** Decimal text *)
Lemma atoi_digits_spec s : forall acc,
  atoi_digits s acc = if bool_decide (Forall (fun d => 48 <= d <= 57)%N s)
                      then Some (foldl (fun acc d => acc * 10 + (Z.of_N d - 48))%Z acc s) else None.
Proof.
  induction s as [|b s IH]; intros acc; cbn [atoi_digits foldl].
  - rewrite bool_decide_eq_true_2; [done|constructor].
  - unfold digit_val. destruct ((48 <=? b) && (b <=? 57))%N%bool eqn:E.
    + rewrite IH. destruct (bool_decide_reflect (Forall (fun d => 48 <= d <= 57)%N s)) as [H|H].
      * rewrite bool_decide_eq_true_2; [done|]. constructor; [lia|done].
      * rewrite bool_decide_eq_false_2; [done|]. intros H'. by inversion H'.
    + rewrite bool_decide_eq_false_2; [done|]. intros H. inversion H; subst. lia.
Qed.

Lemma is_digits_head b s : is_digits (b :: s) -> (48 <= b <= 57)%N.
Proof. intros [_ H]. by inversion H. Qed.

Lemma digits_fold_ge ds : Forall (fun d => 48 <= d <= 57)%N ds -> forall acc, (0 <= acc)%Z ->
  (acc <= foldl (fun acc d => acc * 10 + (Z.of_N d - 48))%Z acc ds)%Z.
Proof.
  induction 1 as [|d ds Hd Hds IH]; intros acc Ha; cbn [foldl]; [lia|].
  specialize (IH (acc * 10 + (Z.of_N d - 48))%Z). lia.
Qed.

Lemma denotes_functional s z1 z2 : denotes s z1 -> denotes s z2 -> z1 = z2.
Proof.
  intros H1 H2. inversion H1 as [? Hd|? Hd|? Hd]; subst; inversion H2 as [? Hd'|? Hd'|? Hd']; subst; try done;
  try (apply is_digits_head in Hd; lia); try (apply is_digits_head in Hd'; lia).
Qed.

Lemma atoi_core ds : 
  match ds with [] => None | _ => atoi_digits ds 0 end =
  (if bool_decide (is_digits ds) then Some (digits_value ds) else None).
Proof.
  destruct ds as [|d ds]; [done|]. rewrite atoi_digits_spec. unfold is_digits, digits_value.
  destruct (bool_decide_reflect (Forall (fun d0 => 48 <= d0 <= 57)%N (d :: ds))) as [H|H].
  - by rewrite bool_decide_eq_true_2.
  - rewrite bool_decide_eq_false_2; [done|]. tauto.
Qed.

Lemma atoi_spec s z : atoi s = Some z <-> denotes s z /\ (- 2 ^ 63 <= z < 2 ^ 63)%Z.
Proof.
  assert (forall ds (f : Z -> Z), 
     match ds with [] => None | _ => match atoi_digits ds 0 with
         | Some n => if int64_ok (f n) then Some (f n) else None | None => None end end = Some z
     <-> is_digits ds /\ z = f (digits_value ds) /\ (- 2 ^ 63 <= z < 2 ^ 63)%Z) as HC.
  { intros ds f. pose proof (atoi_core ds) as E. destruct ds as [|d ds].
    - split; [done|]. intros [[H _] _]. done.
    - rewrite E. destruct (bool_decide_reflect (is_digits (d :: ds))) as [H|H].
      + unfold int64_ok. destruct (_ && _)%bool eqn:EB.
        * split; [intros [= <-]; split; [done|]; split; [done|lia]|]. intros (_ & -> & _). done.
        * split; [done|]. intros (_ & -> & ?). lia.
      + split; [done|]. tauto. }
  assert (forall s, (forall r, s <> 45%N :: r) -> (forall r, s <> 43%N :: r) ->
     forall z, denotes s z <-> is_digits s /\ z = digits_value s) as HP.
  { intros s' H1 H2 z'. split.
    - intros H. inversion H; subst; [done|by edestruct H2|by edestruct H1].
    - intros [H ->]. by constructor. }
  unfold atoi.
  destruct s as [|b s].
  { cbn. split; [done|]. intros [H _]. inversion H as [? [? _]|? ?|? ?]; done. }
  destruct (decide (b = 45%N)) as [->|H45].
  { rewrite (HC s Z.opp). split.
    - intros (H & -> & ?). split; [by constructor|done].
    - intros [H ?]. inversion H as [? Hd|? Hd|? Hd]; subst; [apply is_digits_head in Hd; lia|]. done. }
  destruct (decide (b = 43%N)) as [->|H43].
  { rewrite (HC s id). split.
    - intros (H & -> & ?). split; [by constructor|done].
    - intros [H ?]. inversion H as [? Hd|? Hd|? Hd]; subst; [apply is_digits_head in Hd; lia|]. done. }
  assert (forall A (x y w : A), match b with 45%N => x | 43%N => y | _ => w end = w) as HM.
  { intros. clear -H45 H43. destruct b as [|p]; [done|].
    repeat (destruct p as [p|p|]; try done). }
  rewrite HM. rewrite (HC (b :: s) id), HP; [tauto| |]; intros r E; injection E as -> ->; done.
Qed.

Lemma uint_digits d acc : 
  atoi_digits (s2b (NilZero.string_of_uint d)) (Z.pos acc) = 
  atoi_digits (s2b (NilEmpty.string_of_uint d)) (Z.pos acc) \/ d = Decimal.Nil.
Proof. destruct d; auto. Qed.

Lemma nilempty_acc d : forall acc,
  atoi_digits (s2b (NilEmpty.string_of_uint d)) (Z.pos acc) = Some (Z.pos (Pos.of_uint_acc d acc)).
Proof.
  induction d as [|d IH|d IH|d IH|d IH|d IH|d IH|d IH|d IH|d IH|d IH]; intros acc; [done|..];
  cbn [NilEmpty.string_of_uint s2b atoi_digits Pos.of_uint_acc];
  match goal with |- context [digit_val ?x] => let y := eval vm_compute in (digit_val x) in change (digit_val x) with y end;
  cbv match; cbv iota beta;
  rewrite <- IH; f_equal; lia.
Qed.

Lemma nilempty_0 d : atoi_digits (s2b (NilEmpty.string_of_uint d)) 0 = Some (Z.of_N (Pos.of_uint d)).
Proof.
  induction d as [|d IH|d _|d _|d _|d _|d _|d _|d _|d _|d _]; [done|exact IH|..];
  cbn [NilEmpty.string_of_uint s2b atoi_digits Pos.of_uint];
  match goal with |- context [digit_val ?x] => let y := eval vm_compute in (digit_val x) in change (digit_val x) with y end;
  cbv iota beta; apply nilempty_acc.
Qed.

Lemma atoi_digits_inv ds v : ds <> [] -> atoi_digits ds 0 = Some v -> is_digits ds /\ digits_value ds = v.
Proof.
  intros Hn H. pose proof (atoi_core ds) as E. destruct ds as [|d ds]; [done|]. rewrite H in E.
  destruct (bool_decide_reflect (is_digits (d :: ds))) as [Hd|Hd]; [|done]. by injection E as ->.
Qed.

Lemma nonnil_digits d : d <> Decimal.Nil -> s2b (NilEmpty.string_of_uint d) <> [].
Proof. by destruct d. Qed.
Lemma nilzero_nonnil d : d <> Decimal.Nil -> NilZero.string_of_uint d = NilEmpty.string_of_uint d.
Proof. by destruct d. Qed.

Lemma uint_denotes d : d <> Decimal.Nil ->
  is_digits (s2b (NilZero.string_of_uint d)) /\
  digits_value (s2b (NilZero.string_of_uint d)) = Z.of_N (Pos.of_uint d).
Proof.
  intros Hd. rewrite nilzero_nonnil by done.
  apply atoi_digits_inv; [by apply nonnil_digits|apply nilempty_0].
Qed.

Lemma nzhead_not_D0 d d' : Decimal.nzhead d <> Decimal.D0 d'.
Proof. by induction d as [|d IH|d _|d _|d _|d _|d _|d _|d _|d _|d _]. Qed.

Lemma pos_to_uint_head p : forall d, Pos.to_uint p <> Decimal.D0 d.
Proof.
  intros d E.
  pose proof (DecimalZ.to_of (Z.to_int (Z.pos p))) as H. rewrite DecimalZ.of_to in H.
  cbn [Z.to_int Decimal.norm] in H. injection H as H.
  rewrite E in H. unfold Decimal.unorm in H. cbn [Decimal.nzhead] in H.
  destruct (Decimal.nzhead d) eqn:EN; try done.
  - injection H as ->. pose proof (DecimalPos.Unsigned.to_uint_nonzero p) as HZ. by rewrite E in HZ.
  - by apply nzhead_not_D0 in EN.
Qed.

Lemma pos_of_to_uint p : Pos.of_uint (Pos.to_uint p) = Npos p.
Proof. pose proof (DecimalZ.of_to (Z.pos p)) as H. cbn in H. unfold Z.of_uint in H. lia. Qed.

Lemma pos_head_digit p : exists d ds, (49 <= d <= 57)%N /\ s2b (NilZero.string_of_uint (Pos.to_uint p)) = d :: ds.
Proof.
  pose proof (DecimalPos.Unsigned.to_uint_nonnil p) as Hn. pose proof (pos_to_uint_head p) as H0.
  rewrite nilzero_nonnil by done.
  destruct (Pos.to_uint p) as [|u|u|u|u|u|u|u|u|u|u] eqn:E; [done|by edestruct H0|..];
  cbn [NilEmpty.string_of_uint s2b]; eexists _, _; (split; [|reflexivity]); vm_compute; done.
Qed.

Lemma itoa_denotes z : denotes (itoa z) z.
Proof.
  unfold itoa. destruct z as [|p|p]; cbn [Z.to_int NilZero.string_of_int].
  - apply (denotes_plain [48%N]). split; [done|]. repeat constructor; done.
  - destruct (uint_denotes (Pos.to_uint p)) as [H1 H2]; [apply DecimalPos.Unsigned.to_uint_nonnil|].
    rewrite pos_of_to_uint in H2. change (Z.pos p) with (Z.of_N (N.pos p)). rewrite <- H2. by constructor.
  - destruct (uint_denotes (Pos.to_uint p)) as [H1 H2]; [apply DecimalPos.Unsigned.to_uint_nonnil|].
    rewrite pos_of_to_uint in H2. change (Z.neg p) with (- Z.of_N (N.pos p))%Z. rewrite <- H2. cbn [s2b].
    change (N_of_ascii "-") with 45%N. by constructor.
Qed.

Lemma itoa_canonical z : canonical (itoa z).
Proof.
  unfold itoa. destruct z as [|p|p]; cbn [Z.to_int NilZero.string_of_int].
  - by left.
  - destruct (pos_head_digit p) as (d & ds & Hd & ->). right. exists d, ds. auto.
  - cbn [s2b]. destruct (pos_head_digit p) as (d & ds & Hd & ->). right. exists d, ds. auto.
Qed.

Lemma digits_value_snoc ds d : digits_value (ds ++ [d]) = (digits_value ds * 10 + (Z.of_N d - 48))%Z.
Proof. unfold digits_value. by rewrite foldl_app. Qed.
Lemma digits_value_pos d ds : (49 <= d <= 57)%N -> Forall (fun d => 48 <= d <= 57)%N ds -> (0 < digits_value (d :: ds))%Z.
Proof.
  intros Hd Hds. unfold digits_value. cbn [foldl].
  pose proof (digits_fold_ge ds Hds (0 * 10 + (Z.of_N d - 48))%Z). lia.
Qed.

Lemma digits_value_inj d ds : forall d' ds', (49 <= d <= 57)%N -> (49 <= d' <= 57)%N ->
  Forall (fun d => 48 <= d <= 57)%N ds -> Forall (fun d => 48 <= d <= 57)%N ds' ->
  digits_value (d :: ds) = digits_value (d' :: ds') -> d :: ds = d' :: ds'.
Proof.
  induction ds as [|x ds IH] using rev_ind; intros d' ds' Hd Hd' H H' E.
  - destruct ds' as [|y ds' _] using rev_ind.
    + unfold digits_value in E. cbn [foldl] in E. f_equal. lia.
    + apply Forall_app in H' as [H'1 H'2]. rewrite Forall_singleton in H'2.
      rewrite app_comm_cons, digits_value_snoc in E. pose proof (digits_value_pos d' ds' Hd' H'1).
      unfold digits_value at 1 in E. cbn [foldl] in E. lia.
  - apply Forall_app in H as [H1 H2]. rewrite Forall_singleton in H2.
    rewrite app_comm_cons, digits_value_snoc in E.
    destruct ds' as [|y ds' _] using rev_ind.
    + pose proof (digits_value_pos d ds Hd H1). unfold digits_value at 2 in E. cbn [foldl] in E. lia.
    + apply Forall_app in H' as [H'1 H'2]. rewrite Forall_singleton in H'2.
      rewrite (app_comm_cons ds'), digits_value_snoc in E.
      assert (digits_value (d :: ds) = digits_value (d' :: ds')) as E1 by lia.
      assert (x = y) as -> by lia.
      rewrite !app_comm_cons. f_equal. by apply IH.
Qed.

Lemma canonical_cases s z : denotes s z -> canonical s ->
  (s = [48%N] /\ z = 0%Z) \/
  (exists d ds, (49 <= d <= 57)%N /\ Forall (fun d => 48 <= d <= 57)%N ds /\
     ((s = d :: ds /\ z = digits_value (d :: ds)) \/ (s = 45%N :: d :: ds /\ z = (- digits_value (d :: ds))%Z))).
Proof.
  intros HD [->|(d & ds & Hd & [->| ->])].
  - left. split; [done|]. inversion HD; subst. done.
  - right. exists d, ds. split; [done|]. inversion HD as [? [_ Hf]|? ?|? ?]; subst; [|lia|lia].
    inversion Hf; subst. auto.
  - right. exists d, ds. split; [done|]. inversion HD as [? Hf|? ?|? [_ Hf]]; subst.
    + apply is_digits_head in Hf. lia.
    + inversion Hf; subst. auto.
Qed.

Lemma canonical_unique s t z : denotes s z -> canonical s -> denotes t z -> canonical t -> s = t.
Proof.
  intros H1 H2 H3 H4.
  destruct (canonical_cases _ _ H1 H2) as [[-> ->]|(d & ds & Hd & Hds & C2)];
  destruct (canonical_cases _ _ H3 H4) as [[-> E]|(d' & ds' & Hd' & Hds' & C4)]; clear H1 H2 H3 H4.
  - done.
  - pose proof (digits_value_pos d' ds' Hd' Hds'). destruct C4 as [[-> E]|[-> E]]; lia.
  - pose proof (digits_value_pos d ds Hd Hds). destruct C2 as [[-> ?]|[-> ?]]; lia.
  - pose proof (digits_value_pos d ds Hd Hds). pose proof (digits_value_pos d' ds' Hd' Hds').
    destruct C2 as [[-> E]|[-> E]], C4 as [[-> E']|[-> E']]; try lia.
    + apply digits_value_inj; [done..|]. by rewrite <- E, <- E'.
    + f_equal. apply digits_value_inj; [done..|]. lia.
Qed.

Lemma itoa_unique s z : denotes s z -> canonical s -> s = itoa z.
Proof. intros. eapply canonical_unique; [done..|apply itoa_denotes|apply itoa_canonical]. Qed.

(** ** Concat *)
Section Flat.
Variable ostr : ast -> bytes.
Variable h : heap.

Lemma mapr_ok {A B} (f : A -> res B) l ys :
  Forall2 (fun x y => f x = ROk y) l ys -> mapr f l = ROk ys.
Proof. induction 1 as [|x y l ys E _ IH]; [done|]. cbn [mapr]. rewrite E. cbn [rbind]. by rewrite IH. Qed.

Definition eventually (P : nat -> Prop) := exists n, forall fuel, n <= fuel -> P fuel.
Lemma eventually_forall2 {A B} (P : nat -> A -> B -> Prop) l ys :
  Forall2 (fun x y => eventually (fun n => P n x y)) l ys ->
  eventually (fun n => Forall2 (P n) l ys).
Proof.
  induction 1 as [|x y l ys [n Hn] _ [n' Hn']]; [by exists 0; constructor|].
  exists (n `max` n'). intros fuel Hf. constructor; [apply Hn|apply Hn']; lia.
Qed.

Definition arr_step fuel (e : ast) : res bytes :=
  match e with
  | AStr s => ROk s
  | AArr l' => concat_arr ostr fuel h l'
  | AUndef => ROk []
  | _ => ast_string ostr fuel h e
  end.
Definition map_step fuel (e : ast) : res bytes :=
  match e with
  | AObj a => match h !! a with
              | Some (Obj (OMap m') _) => nm_concat ostr fuel h m'
              | _ => RPanic (PMsg "NativeMap.Concat only works with Native* types")
              end
  | AArr l => concat_arr ostr fuel h l
  | AUndef => ROk []
  | AStr s => ROk s
  | AInt z => ROk (itoa z)
  | _ => RPanic (PMsg "NativeMap.Concat only works with Native* types")
  end.
Definition flat_step (b : bool) := if b then map_step else arr_step.

Lemma concat_arr_unfold fuel l : concat_arr ostr (S fuel) h l = let* xs := mapr (arr_step fuel) l in ROk (mjoin xs).
Proof. done. Qed.

Lemma nm_concat_eq fuel m vs ts :
  Forall2 (fun k v => nm_get m k = Some v) (nm_keys m) vs ->
  Forall2 (fun v t => map_step fuel v = ROk t) vs ts ->
  nm_concat ostr (S fuel) h m = ROk (mjoin ts).
Proof.
  intros H1 H2. cbn [nm_concat]. rewrite (mapr_ok _ _ ts); [done|].
  revert ts H2. induction H1 as [|k v ks vs E _ IH]; intros ts H2; inversion H2; subst; constructor; [|by apply IH].
  rewrite E. destruct v; done.
Qed.

Scheme flat_ind2 := Induction for flat Sort Prop with flats_ind2 := Induction for flats Sort Prop.
Combined Scheme flat_mutind from flat_ind2, flats_ind2.

Lemma flat_steps :
  (forall b x s, flat h b x s -> eventually (fun fuel => flat_step b fuel x = ROk s)) /\
  (forall b l s, flats h b l s -> exists ts, s = mjoin ts /\
     eventually (fun fuel => Forall2 (fun x t => flat_step b fuel x = ROk t) l ts)).
Proof.
  apply (flat_mutind h (fun b x s _ => eventually (fun fuel => flat_step b fuel x = ROk s))
    (fun b l s _ => exists ts, s = mjoin ts /\
     eventually (fun fuel => Forall2 (fun x t => flat_step b fuel x = ROk t) l ts))).
  - intros b s. exists 0. by destruct b.
  - intros b z s HD HC. rewrite (itoa_unique s z HD HC). exists 1. intros [|f] Hf; [lia|]. by destruct b.
  - intros b. exists 0. by destruct b.
  - intros b l s Hf (ts & -> & n & Hn). exists (S n). intros [|fuel] Hle; [lia|].
    assert (concat_arr ostr (S fuel) h l = ROk (mjoin ts)) as E.
    { rewrite concat_arr_unfold. rewrite (mapr_ok _ _ ts); [done|]. apply (Hn fuel). lia. }
    by destruct b.
  - intros a m at_ vs s Ea Hvs Hf (ts & -> & n & Hn). exists (S n). intros [|fuel] Hle; [lia|].
    cbn [flat_step map_step]. rewrite Ea. eapply nm_concat_eq; [done|]. apply (Hn fuel). lia.
  - intros b. exists []. split; [done|]. exists 0. constructor.
  - intros b x s l t Hx (n & Hn) Hl (ts & -> & n' & Hn'). exists (s :: ts). split; [done|].
    exists (n `max` n'). intros fuel Hle. constructor; [apply Hn|apply Hn']; lia.
Qed.

Lemma concat_arr_flat b l s : flat h b (AArr l) s ->
  exists n, forall fuel, n <= fuel -> concat_arr ostr fuel h l = ROk s.
Proof. intros H. destruct (proj1 flat_steps _ _ _ H) as [n Hn]. exists n. intros fuel Hf. specialize (Hn fuel Hf). by destruct b. Qed.
Lemma nm_concat_flat a m at_ s : h !! a = Some (Obj (OMap m) at_) -> flat h true (AObj a) s ->
  exists n, forall fuel, n <= fuel -> nm_concat ostr fuel h m = ROk s.
Proof.
  intros Ea H. destruct (proj1 flat_steps _ _ _ H) as [n Hn]. exists n. intros fuel Hf. specialize (Hn fuel Hf).
  cbn [flat_step map_step] in Hn. by rewrite Ea in Hn.
Qed.
End Flat.

Lemma nm_is_empty_inverted (ops : list (string * ast)) :
  nm_is_empty (fold_left (fun m p => nm_set m (fst p) (snd p)) ops nm_empty) = true <-> ops <> [].
Proof.
  destruct ops as [|[k v] ops _] using rev_ind; [done|].
  rewrite fold_left_app. cbn [fold_left nm_set nm_is_empty nm_vals fst snd]. split; [|done]. intros _. by destruct ops.
Qed.

Lemma int_from_text ostr fuel h s :
  (forall z, native_int_from ostr fuel h (AStr s) = ROk (AInt z) <->
             denotes s z /\ (- 2 ^ 63 <= z < 2 ^ 63)%Z) /\
  ((exists z, native_int_from ostr fuel h (AStr s) = ROk (AInt z)) \/
   (exists p, native_int_from ostr fuel h (AStr s) = RPanic p)).
Proof.
  cbn [native_int_from]. split.
  - intros z. rewrite <- atoi_spec. destruct (atoi s); [|done]. split; by intros [= ->].
  - destruct (atoi s); eauto.
Qed.

Lemma int_round_trip ostr fuel h z : (- 2 ^ 63 <= z < 2 ^ 63)%Z ->
  exists s, native_string_from ostr fuel h (AInt z) = ROk (AStr s) /\
            denotes s z /\ canonical s /\
            native_int_from ostr fuel h (AStr s) = ROk (AInt z).
Proof.
  intros Hz. exists (itoa z). split; [done|]. split; [apply itoa_denotes|]. split; [apply itoa_canonical|].
  apply int_from_text. split; [apply itoa_denotes|done].
Qed.

Lemma int_from_array ostr h l s z :
  flat h false (AArr l) s -> denotes s z -> (- 2 ^ 63 <= z < 2 ^ 63)%Z ->
  exists n, forall fuel, n <= fuel -> native_int_from ostr fuel h (AArr l) = ROk (AInt z).
Proof.
  intros Hf HD Hz. destruct (concat_arr_flat ostr h false l s Hf) as [n Hn]. exists n. intros fuel Hle.
  cbn [native_int_from]. rewrite Hn by done. cbn [rbind].
  assert (atoi s = Some z) as -> by (by apply atoi_spec). done.
Qed.
