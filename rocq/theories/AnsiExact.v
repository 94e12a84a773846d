(** StripAnsi cuts control sequences, wherever one begins, and nothing else. *)
From Verif Require Import Base Ansi AnsiSpec AnsiProofs.
From stdpp Require Import sets.
Local Open Scope list_scope.

Lemma open_ok b : is_open b = true <-> opens b.
Proof.
  unfold is_open, opens. rewrite existsb_exists. split.
  - intros (x & Hx & ->%N.eqb_eq). apply elem_of_list_In. cbn in Hx |- *. intuition.
  - intros H. exists b. split; [|apply N.eqb_refl]. apply elem_of_list_In in H. cbn in H |- *. intuition.
Qed.
Lemma num_ok b : is_num b = true <-> digit b.
Proof. unfold is_num, within, digit. rewrite andb_true_iff, !N.leb_le. done. Qed.
Lemma word_ok b : is_word b = true <-> wordy_byte b.
Proof. unfold is_word, is_num, within, wordy_byte. rewrite !orb_true_iff, !andb_true_iff, !N.leb_le. tauto. Qed.
Lemma final_ok b : is_final b = true <-> finals b.
Proof.
  unfold is_final, finals. split.
  - rewrite !orb_true_iff, existsb_exists. unfold is_num, within. rewrite !andb_true_iff, !N.leb_le. intros H.
    assert (b ∈ (map N.of_nat (seq 48 10) ++ map N.of_nat (seq 65 16) ++ map N.of_nat (seq 102 9) ++ [82; 90; 99; 116; 113; 114; 121; 61; 62; 60; 126]%N)) as H'.
    { rewrite !elem_of_app, !elem_of_list_In, !in_map_iff. destruct H as [[[H|H]|H]|(x & Hx & ->%N.eqb_eq)].
      - left. exists (N.to_nat b). split; [lia|]. apply in_seq. lia.
      - right. left. exists (N.to_nat b). split; [lia|]. apply in_seq. lia.
      - right. right. left. exists (N.to_nat b). split; [lia|]. apply in_seq. lia.
      - auto. }
    cbn in H'. cbn. set_solver.
  - intros H. assert (forallb is_final (s2b "0123456789ABCDEFGHIJKLMNOPRZcfghijklmntqry=><~") = true) as HA by (by vm_compute).
    rewrite forallb_forall in HA. apply HA. by apply elem_of_list_In.
Qed.

Lemma run_prefix p n s : forallb p (take (run_of p n s) s) = true /\ run_of p n s <= n /\ run_of p n s <= length s.
Proof.
  revert s. induction n as [|n IH]; intros [|b s]; cbn [run_of take forallb length]; try (split; [done|lia]).
  destruct (p b) eqn:E; cbn [take forallb]; [|split; [done|lia]]. rewrite E. destruct (IH s) as (H1 & H2 & H3). split; [done|lia].
Qed.
Lemma run_least p m t n : forallb p m = true -> length m <= n -> length m <= run_of p n (m ++ t).
Proof. intros H1 H2. rewrite run_all; [lia|done..]. Qed.
Lemma down_in n k : In k (down n) <-> k <= n.
Proof. induction n as [|n IH]; cbn [down In]; [lia|]. rewrite IH. lia. Qed.
Lemma first_some_in {A B} (f : A -> option B) l b : first_some f l = Some b -> exists a, In a l /\ f a = Some b.
Proof. induction l as [|a l IH]; cbn; [done|]. destruct (f a) eqn:E; [intros [= ->]; by exists a; auto|]. intros H. destruct (IH H) as (x & ? & ?). by exists x; auto. Qed.
Lemma first_some_none {A B} (f : A -> option B) l a : first_some f l = None -> In a l -> f a = None.
Proof. induction l as [|x l IH]; cbn; [done|]. destruct (f x) eqn:E; [done|]. intros H [->|Hi]; [done|]. by apply IH. Qed.
Lemma forall_ok (p : N -> bool) (P : N -> Prop) s : (forall b, p b = true <-> P b) -> forallb p s = true <-> Forall P s.
Proof. intros H. rewrite forallb_forall, List.Forall_forall. split; intros HH x Hx; apply H; auto. Qed.
Lemma take_S_drop (s : bytes) k b r : drop k s = b :: r -> take (S k) s = take k s ++ [b].
Proof. revert k. induction s as [|x s IH]; intros [|k]; cbn; try done; [by intros [= -> _]|]. intros H. by rewrite (IH k). Qed.

(** *** What is found is a control sequence *)
Lemma bell_sound s n : bell_end s = Some n -> exists w, Forall (fun b => wordy_byte b \/ b = 59%N) w /\ take n s = w ++ [7%N] /\ n = length (w ++ [7%N]).
Proof.
  unfold bell_end. set (p := fun b => _). set (k := run_of p _ _). destruct (drop k s) as [|b r] eqn:E; [done|].
  destruct (N.eq_dec b 7) as [-> |Hn]; [|destruct b as [|q]; [done|]; destruct q as [[[q|q|]|q|]|q|]; done].
  intros [= <-]. exists (take k s). destruct (run_prefix p (length s) s) as (H1 & _ & H2). fold k in H1, H2. split; [|split].
  - apply (forall_ok p); [|done]. intros b. unfold p. by rewrite orb_true_iff, word_ok, N.eqb_eq.
  - by eapply take_S_drop.
  - rewrite app_length, take_length. cbn. lia.
Qed.
Lemma take_add (s : bytes) a b : take (a + b) s = take a s ++ take b (drop a s).
Proof. revert s. induction a as [|a IH]; intros [|x s]; cbn; [done|done|by rewrite take_nil|]. by rewrite IH. Qed.
Lemma num_prefix s k : k <= run_of is_num 4 s -> digits4 (take k s) /\ k <= length s.
Proof.
  intros Hk. destruct (run_prefix is_num 4 s) as (H1 & H2 & H3). split; [split|lia].
  - apply (forall_ok is_num digit); [apply num_ok|].
    replace (take k s) with (take k (take (run_of is_num 4 s) s)) by (rewrite take_take; f_equal; lia).
    rewrite <- (take_drop k (take (run_of is_num 4 s) s)), forallb_app in H1. by apply andb_prop in H1 as [? _].
  - rewrite take_length. lia.
Qed.
Lemma more_sound n : forall s e, In e (more_ends n s) ->
  e <= length s /\ exists gs, Forall digits4 gs /\ take e s = concat (map (cons 59%N) gs).
Proof.
  induction n as [|n IH]; intros s e; cbn [more_ends].
  - intros [<-|[]]. split; [lia|]. by exists [].
  - assert (In e [0] -> e <= length s /\ exists gs, Forall digits4 gs /\ take e s = concat (map (cons 59%N) gs)) as H0.
    { intros [<-|[]]. split; [lia|]. by exists []. }
    destruct s as [|b r]; [exact H0|]. destruct (N.eq_dec b 59) as [-> |Hb].
    + intros [H|H]%in_app_or; [|by apply H0]. apply in_flat_map in H as (k & Hk & H). apply in_map_iff in H as (x & <- & Hx).
      apply down_in, num_prefix in Hk as [Hd Hl]. destruct (IH _ _ Hx) as (Hx1 & gs & Hg & E). rewrite drop_length in Hx1. cbn [length]. split; [lia|].
      exists (take k r :: gs). split; [by constructor|]. cbn [take map concat app]. by rewrite take_add, E.
    + intros H. apply H0. destruct b as [|q]; [done|]. do 6 (try (destruct q as [q|q|]; try done)).
Qed.
Lemma codes_sound s e : In e (code_ends s) -> numbers (take e s) /\ e <= length s.
Proof.
  unfold code_ends. intros [H|[<-|[]]]%in_app_or; [|by split; [left|lia]]. apply in_flat_map in H as (k & Hk & H).
  apply down_in, num_prefix in Hk as [Hd Hl]. destruct k as [|k]; [done|]. apply in_map_iff in H as (x & <- & Hx).
  destruct (more_sound _ _ _ Hx) as (Hx1 & gs & Hg & E). rewrite drop_length in Hx1. split; [|lia]. right.
  exists (take (S k) s), gs. rewrite take_add, E. repeat split; try done; [|by destruct Hd..]. destruct s; cbn in Hl |- *; [lia|done].
Qed.
Lemma code_sound s n : code_end s = Some n -> exists c f, numbers c /\ finals f /\ take n s = c ++ [f] /\ n = length (c ++ [f]).
Proof.
  unfold code_end. destruct (List.find _ _) as [e|] eqn:E; [|done]. intros [= <-]. apply find_some in E as [He Hf].
  destruct (codes_sound _ _ He) as [Hn Hl]. destruct (drop e s) as [|f r] eqn:Ed; [done|]. exists (take e s), f.
  split; [done|]. split; [by apply final_ok|]. split; [by eapply take_S_drop|]. rewrite app_length, take_length. cbn. lia.
Qed.
Lemma open_sound i s n : i = [27%N] \/ i = [194; 155]%N -> after_open s = Some n -> control (i ++ take n s) /\ n <= length s.
Proof.
  intros Hi H. apply first_some_in in H as (k & Hk & H). apply down_in in Hk. destruct (run_prefix is_open (length s) s) as (H1 & H2 & H3).
  assert (Forall opens (take k s)) as Ho.
  { apply (forall_ok is_open opens); [apply open_ok|].
    replace (take k s) with (take k (take (run_of is_open (length s) s) s)) by (rewrite take_take; f_equal; lia).
    rewrite <- (take_drop k (take (run_of is_open (length s) s) s)), forallb_app in H1. by apply andb_prop in H1 as [? _]. }
  destruct (tail_end (drop k s)) as [x|] eqn:E; [|done]. injection H as <-. unfold tail_end in E.
  assert (exists y, take x (drop k s) = y /\ x = length y /\ control (i ++ take k s ++ y)) as (y & Ey & Ex & Hy).
  { destruct (bell_end (drop k s)) as [m|] eqn:Eb.
    - injection E as ->. destruct (bell_sound _ _ Eb) as (w & Hw & E1 & E2). exists (w ++ [7%N]). split; [done|]. split; [done|]. by apply control_bell.
    - destruct (code_sound _ _ E) as (c & f & Hc & Hf & E1 & E2). exists (c ++ [f]). split; [done|]. split; [done|]. by apply control_code. }
  split; [by rewrite take_add, Ey|]. rewrite <- Ey, take_length, drop_length in Ex. lia.
Qed.
Lemma mark_cases s : (exists r, s = 27%N :: r) \/ (exists r, s = 194%N :: 155%N :: r) \/
  mark_end s = None /\ forall i t, i = [27%N] \/ i = [194; 155]%N -> s <> i ++ t.
Proof.
  destruct s as [|b r]; [right; right; split; [done|]; by intros i t [-> | ->]|].
  destruct (N.eq_dec b 27) as [-> |H1]; [eauto|].
  destruct (N.eq_dec b 194) as [-> |H2].
  - destruct r as [|c r]; [right; right; split; [done|]; by intros i t [-> | ->]|].
    destruct (N.eq_dec c 155) as [-> |H3]; [eauto|]. right. right. split; [|by intros i t [-> | ->] [=]].
    apply no_mark; [done|]. by intros _ [= ->].
  - right. right. split; [by apply no_mark|]. by intros i t [-> | ->] [=].
Qed.
Lemma mark_sound s n : mark_end s = Some n -> control (take (S n) s) /\ S n <= length s.
Proof.
  destruct (mark_cases s) as [(r & ->)|[(r & ->)|[-> _]]]; [..|done]; cbn [mark_end].
  - intros H. destruct (open_sound [27%N] r n) as [H1 H2]; [auto|done|]. cbn [length]. split; [done|lia].
  - destruct (after_open r) as [m|] eqn:E; [|done]. intros [= <-]. destruct (open_sound [194; 155]%N r m) as [H1 H2]; [auto|done|]. cbn [length]. split; [done|lia].
Qed.

(** *** A control sequence is found *)
Lemma bell_complete w r : Forall (fun b => wordy_byte b \/ b = 59%N) w -> bell_end (w ++ 7%N :: r) <> None.
Proof.
  intros Hw. unfold bell_end. set (p := fun b => _). rewrite (run_all p w).
  - rewrite app_length. cbn [length]. replace (length w + S (length r) - length w) with (S (length r)) by lia. cbn [run_of]. change (p 7%N) with false. cbv iota.
    rewrite Nat.add_0_r, drop_app. done.
  - apply (forall_ok p) with (P := fun b => wordy_byte b \/ b = 59%N); [|done]. intros b. unfold p. by rewrite orb_true_iff, word_ok, N.eqb_eq.
  - rewrite app_length. lia.
Qed.
Lemma num_run d r : digits4 d -> length d <= run_of is_num 4 (d ++ r).
Proof. intros [H1 H2]. apply run_least; [|done]. apply (forall_ok is_num digit); [apply num_ok|done]. Qed.
Lemma more_complete gs : forall n r, Forall digits4 gs -> length gs <= n -> In (length (concat (map (cons 59%N) gs))) (more_ends n (concat (map (cons 59%N) gs) ++ r)).
Proof.
  induction gs as [|g gs IH]; intros n r Hg Hn; cbn [map concat].
  - assert (forall s, In 0 (more_ends n s)) as H.
    { intros s. destruct n as [|n]; cbn [more_ends]; [by left|]. destruct s as [|b s]; [by left|].
      destruct (N.eq_dec b 59) as [-> |Hb]; [apply in_or_app; right; by left|].
      destruct b as [|q]; [by left|]. do 6 (try (destruct q as [q|q|]; try by left)). done. }
    apply H.
  - destruct n as [|n]; [cbn in Hn; lia|]. apply Forall_cons in Hg as [Hg Hgs]. cbn [app more_ends]. apply in_or_app. left.
    rewrite <- app_assoc. apply in_flat_map. exists (length g). split; [apply down_in; by apply num_run|].
    apply in_map_iff. exists (length (concat (map (cons 59%N) gs))). split; [cbn [length]; rewrite app_length; lia|].
    rewrite drop_app. apply IH; [done|]. cbn in Hn. lia.
Qed.
Lemma gs_length gs : length gs <= length (concat (map (cons 59%N) gs)).
Proof. induction gs as [|g gs IH]; cbn [map concat length]; [lia|]. rewrite app_length. cbn. lia. Qed.
Lemma codes_complete c r : numbers c -> In (length c) (code_ends (c ++ r)).
Proof.
  unfold code_ends. intros [-> |(d & gs & Hd & H4 & Hg & ->)]; apply in_or_app; [right; by left|]. left.
  apply in_flat_map. exists (length d). rewrite <- app_assoc. split; [apply down_in; by apply num_run|].
  destruct (length d) as [|k] eqn:E; [by apply nil_length_inv in E|]. rewrite <- E. apply in_map_iff.
  exists (length (concat (map (cons 59%N) gs))). split; [by rewrite app_length|]. rewrite drop_app. apply more_complete; [done|].
  rewrite !app_length. pose proof (gs_length gs). lia.
Qed.
Lemma code_complete c f r : numbers c -> finals f -> code_end (c ++ f :: r) <> None.
Proof.
  intros Hc Hf. unfold code_end. destruct (List.find _ _) as [e|] eqn:E; [done|]. intros _.
  pose proof (find_none _ _ E _ (codes_complete c (f :: r) Hc)) as H. cbv beta in H. rewrite drop_app in H. apply final_ok in Hf. congruence.
Qed.
Lemma open_complete o s : Forall opens o -> tail_end s <> None -> after_open (o ++ s) <> None.
Proof.
  intros Ho Hs H. unfold after_open in H. apply (first_some_none _ _ (length o)) in H.
  - cbv beta in H. rewrite drop_app in H. destruct (tail_end s); done.
  - apply down_in. apply run_least; [|rewrite app_length; lia]. apply (forall_ok is_open opens); [apply open_ok|done].
Qed.
Lemma mark_complete m r : control m -> mark_end (m ++ r) <> None.
Proof.
  assert (forall i s, i = [27%N] \/ i = [194; 155]%N -> after_open s <> None -> mark_end (i ++ s) <> None) as HI.
  { intros i s [-> | ->] H; cbn [app mark_end]; [done|]. by destruct (after_open s). }
  intros [i o w Hi Ho Hw|i o c f Hi Ho Hc Hf]; rewrite <- !app_assoc; apply HI; try done; apply open_complete; try done; unfold tail_end; cbn [app].
  - pose proof (bell_complete w r Hw). by destruct (bell_end _).
  - destruct (bell_end _); [done|]. by apply code_complete.
Qed.

Lemma strip_exact_from n : forall s, length s <= n -> stripped s (strip_from 0 s).
Proof.
  induction n as [|n IH]; intros [|b r] Hn; try (cbn in Hn; lia); [constructor..|]. cbn [length] in Hn. cbn [strip_from].
  destruct (mark_end (b :: r)) as [k|] eqn:E.
  - destruct (mark_sound _ _ E) as [Hc Hl]. cbn [take length] in Hc, Hl.
    rewrite <- (take_drop (S k) (b :: r)) at 1. apply stripped_cut; [done|]. cbn [drop].
    assert (strip_from k r = strip_from 0 (drop k r)) as ->.
    { rewrite <- (take_drop k r) at 1. rewrite <- (take_length_le r k) at 1; [apply strip_skip|lia]. }
    apply IH. rewrite drop_length. lia.
  - apply stripped_keep; [|apply IH; lia]. intros m t Hm Heq. apply (mark_complete m t Hm). by rewrite <- Heq.
Qed.
Lemma strip_exact s : stripped s (strip_ansi s).
Proof. apply (strip_exact_from (length s)). lia. Qed.
