From Verif Require Import Base Native NativeSpec NativeProofs Access.

(** The map after [Set]s on an empty one. *)
Definition set_all (ops : list (string * ast)) : nmap := fold_left (fun m p => nm_set m (fst p) (snd p)) ops nm_empty.
Lemma set_all_get ops k : nm_get (set_all ops) k = last_set ops k.
Proof.
  pose proof (nm_run_get nm_empty ops k) as H. unfold nm_run in H. unfold set_all. rewrite H. by destruct (last_set ops k).
Qed.
Lemma undefined_spec ops k : nm_is_undefined (set_all ops) k = true <-> last_set ops k = None \/ last_set ops k = Some AUndef.
Proof.
  unfold nm_is_undefined. rewrite set_all_get. destruct (last_set ops k) as [[]|]; split; intros H; try done; try (by left); try (by right);
    destruct H as [H|H]; done.
Qed.
Lemma get_or_panic_spec ops k :
  (forall v, nm_get_or_panic (set_all ops) k = ROk v <-> last_set ops k = Some v) /\
  (last_set ops k = None -> exists m, nm_get_or_panic (set_all ops) k = RPanic (PMsg m)).
Proof.
  unfold nm_get_or_panic. rewrite set_all_get. destruct (last_set ops k) as [v0|]; split; try done.
  - intros v. split; by intros [= ->].
  - intros _. by eexists.
Qed.
Lemma whichever_spec ops ks :
  (forall v, nm_get_whichever (set_all ops) ks = ROk v <->
     exists k1 k k2, ks = k1 ++ k :: k2 /\ Forall (fun x => last_set ops x = None) k1 /\ last_set ops k = Some v) /\
  (Forall (fun x => last_set ops x = None) ks -> exists m, nm_get_whichever (set_all ops) ks = RPanic (PMsg m)).
Proof.
  induction ks as [|k ks [IH1 IH2]]; cbn [nm_get_whichever].
  - split; [|intros _; by eexists]. intros v. split; [done|]. intros (k1 & k & k2 & H & _). by destruct k1.
  - rewrite set_all_get. destruct (last_set ops k) as [v0|] eqn:EK.
    + split; [|intros H; by inversion H; congruence]. intros v. split.
      * intros [= <-]. by exists [], k, ks.
      * intros (k1 & k' & k2 & HE & HF & HL). destruct k1 as [|x k1]; [injection HE as <- <-; congruence|].
        injection HE as <- ->. inversion HF. congruence.
    + split; [|intros H; inversion H; by apply IH2]. intros v. rewrite IH1. split.
      * intros (k1 & k' & k2 & -> & HF & HL). exists (k :: k1), k', k2. split; [done|]. split; [by constructor|done].
      * intros (k1 & k' & k2 & HE & HF & HL). destruct k1 as [|x k1]; [injection HE as <- <-; congruence|].
        injection HE as <- ->. inversion HF. by exists k1, k', k2.
Qed.
Lemma string_exists_spec ostr fuel h ops k :
  match last_set ops k with
  | None => nm_get_string_exists ostr fuel h (set_all ops) k = ROk ([], false)
  | Some (AStr s) => nm_get_string_exists ostr fuel h (set_all ops) k = ROk (s, true)
  | Some (AArr l) => forall s, flat h false (AArr l) s -> exists n, forall fuel, n <= fuel -> nm_get_string_exists ostr fuel h (set_all ops) k = ROk (s, true)
  | Some _ => exists m, nm_get_string_exists ostr fuel h (set_all ops) k = RPanic (PMsg m)
  end.
Proof.
  unfold nm_get_string_exists. rewrite set_all_get. destruct (last_set ops k) as [[]|]; try done; try (by eexists).
  intros s HF. destruct (concat_arr_flat ostr h false _ s HF) as [n Hn]. exists n. intros f Hf. by rewrite Hn.
Qed.
Lemma int_exists_text ostr fuel h ops k s : last_set ops k = Some (AStr s) ->
  (forall z, nm_get_int_exists ostr fuel h (set_all ops) k = ROk (z, true) <-> denotes s z /\ (- 2 ^ 63 <= z < 2 ^ 63)%Z) /\
  ((forall z, ~ (denotes s z /\ (- 2 ^ 63 <= z < 2 ^ 63)%Z)) -> exists m, nm_get_int_exists ostr fuel h (set_all ops) k = RPanic (PMsg m)).
Proof.
  intros HK. unfold nm_get_int_exists. rewrite set_all_get, HK. destruct (atoi s) as [z0|] eqn:EA.
  - pose proof EA as HA%atoi_spec. split.
    + intros z. rewrite <- atoi_spec, EA. split; by intros [= ->].
    + intros HN. by apply HN in HA.
  - split; [|intros _; by eexists]. intros z. rewrite <- atoi_spec, EA. done.
Qed.
Lemma int_exists_spec ostr fuel h ops k :
  match last_set ops k with
  | None => nm_get_int_exists ostr fuel h (set_all ops) k = ROk (0%Z, false)
  | Some (AInt z) => nm_get_int_exists ostr fuel h (set_all ops) k = ROk (z, true)
  | Some (AStr s) => True
  | Some (AArr l) => forall s z, flat h false (AArr l) s -> denotes s z -> (- 2 ^ 63 <= z < 2 ^ 63)%Z ->
      exists n, forall fuel, n <= fuel -> nm_get_int_exists ostr fuel h (set_all ops) k = ROk (z, true)
  | Some _ => exists m, nm_get_int_exists ostr fuel h (set_all ops) k = RPanic (PMsg m)
  end.
Proof.
  unfold nm_get_int_exists. rewrite set_all_get. destruct (last_set ops k) as [[]|]; try done; try (by eexists).
  intros s z0 HF HD HR. destruct (concat_arr_flat ostr h false _ s HF) as [n Hn]. exists n. intros f Hf. rewrite Hn by done. cbn [rbind].
  assert (atoi s = Some z0) as -> by (by apply atoi_spec). done.
Qed.
Lemma int_exists_all ostr fuel h ops k :
  match last_set ops k with
  | None => nm_get_int_exists ostr fuel h (set_all ops) k = ROk (0%Z, false)
  | Some (AInt z) => nm_get_int_exists ostr fuel h (set_all ops) k = ROk (z, true)
  | Some (AStr s) =>
      (forall z, nm_get_int_exists ostr fuel h (set_all ops) k = ROk (z, true) <-> denotes s z /\ (- 2 ^ 63 <= z < 2 ^ 63)%Z) /\
      ((forall z, ~ (denotes s z /\ (- 2 ^ 63 <= z < 2 ^ 63)%Z)) -> exists m, nm_get_int_exists ostr fuel h (set_all ops) k = RPanic (PMsg m))
  | Some (AArr l) => forall s z, flat h false (AArr l) s -> denotes s z -> (- 2 ^ 63 <= z < 2 ^ 63)%Z ->
      exists n, forall fuel, n <= fuel -> nm_get_int_exists ostr fuel h (set_all ops) k = ROk (z, true)
  | Some _ => exists m, nm_get_int_exists ostr fuel h (set_all ops) k = RPanic (PMsg m)
  end.
Proof.
  pose proof (int_exists_spec ostr fuel h ops k) as H. pose proof (int_exists_text ostr fuel h ops k) as HT.
  destruct (last_set ops k) as [[]|]; try done. by apply HT.
Qed.

Lemma bool_round : (forall b, int_bool (int_from_bool b) = b) /\ (forall z, int_from_bool (int_bool z) = z <-> z = 0%Z \/ z = 1%Z).
Proof.
  split; [by intros []|]. intros z. unfold int_bool. destruct (Z.eqb_spec z 0) as [->|Hz]; cbn; [split; [by left|done]|].
  split; [intros <-; by right|intros [?|?]; congruence].
Qed.
