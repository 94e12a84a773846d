From Verif Require Import Base Native NativeSpec NativeProofs Print Ansi AnsiSpec.
Local Open Scope list_scope.
From stdpp Require Import sets.

Lemma strip_skip m t : strip_from (length m) (m ++ t) = strip_from 0 t.
Proof. induction m as [|b m IH]; cbn [length app strip_from]; [done|]. exact IH. Qed.
Lemma bell_none s : 7%N ∉ s -> bell_end s = None.
Proof.
  intros H. unfold bell_end. set (k := run_of _ _ _). destruct (drop k s) as [|b r] eqn:E; [done|].
  assert (b ∈ s) as Hb. { rewrite <- (take_drop k s), E. set_solver. }
  destruct (N.eq_dec b 7) as [-> |Hn]; [done|]. destruct b as [|p]; [done|]. destruct p as [[[p|p|]|p|]|p|]; done.
Qed.
Lemma mark_found m t : m ∈ marks -> 7%N ∉ t -> mark_end (27%N :: m ++ t) = Some (length m).
Proof.
  intros Hm Ht.
  assert (forall c, c ∈ marks -> 7%N ∉ c) as Hc.
  { intros c H. assert (forallb (fun c => forallb (fun b => negb (b =? 7)%N) c) marks = true) as HA by (by vm_compute).
    rewrite forallb_forall in HA. specialize (HA c ltac:(by apply elem_of_list_In)). rewrite forallb_forall in HA.
    intros H7. specialize (HA 7%N ltac:(by apply elem_of_list_In)). done. }
  specialize (Hc m Hm). unfold marks in Hm. cbn [fmap list_fmap] in Hm.
  repeat (apply elem_of_cons in Hm as [-> |Hm]); [..|by apply elem_of_nil in Hm].
  all: unfold mark_end, after_open.
  all: match goal with |- context [run_of is_open ?n ?s] => replace (run_of is_open n s) with 1 by reflexivity end.
  all: cbn [down first_some].
  all: unfold tail_end; rewrite bell_none; [reflexivity|].
  all: intros H7; apply Ht.
  all: cbn [s2b app drop] in H7; set_solver.
Qed.
Lemma run_all p m t n : forallb p m = true -> length m <= n -> run_of p n (m ++ t) = length m + run_of p (n - length m) t.
Proof.
  revert n. induction m as [|b m IH]; intros n H Hn; cbn [length app]; [by rewrite Nat.sub_0_r|]. cbn [forallb length] in *. apply andb_prop in H as [Hb H].
  destruct n as [|n]; [lia|]. cbn [run_of]. rewrite Hb. rewrite IH; [|done|lia]. done.
Qed.
Lemma mark_bell m s t : m ∈ marks -> Forall (fun b => is_word b = true) s -> mark_end (27%N :: m ++ s ++ 7%N :: t) = Some (S (length m + length s)).
Proof.
  intros Hm Hs. set (p := fun b => (is_word b || (b =? 59)%N)%bool).
  assert (forall c, forallb p c = true -> bell_end (c ++ s ++ 7%N :: t) = Some (S (length c + length s))) as HB.
  { intros c Hc. unfold bell_end. fold p. rewrite (app_assoc c). rewrite (run_all p (c ++ s)).
    - rewrite !app_length. cbn [length].
      replace (length c + length s + S (length t) - (length c + length s)) with (S (length t)) by lia. cbn [run_of]. change (p 7%N) with false. cbv iota.
      rewrite Nat.add_0_r, <- app_length, drop_app. done.
    - rewrite forallb_app, Hc. cbn [andb]. apply forallb_forall. intros b Hb. rewrite List.Forall_forall in Hs. unfold p. by rewrite (Hs b Hb).
    - rewrite !app_length. lia. }
  unfold marks in Hm. cbn [fmap list_fmap] in Hm.
  repeat (apply elem_of_cons in Hm as [-> |Hm]); [..|by apply elem_of_nil in Hm].
  all: unfold mark_end, after_open.
  all: match goal with |- context [run_of is_open ?n ?s] => replace (run_of is_open n s) with 1 by reflexivity end.
  all: cbn [down first_some].
  all: unfold tail_end.
  all: match goal with |- context [drop 1 (s2b ?c ++ ?r)] => change (drop 1 (s2b c ++ r)) with (tail (s2b c) ++ r); rewrite (HB (tail (s2b c))) by (by vm_compute); reflexivity end.
Qed.
Lemma painted_no_bell t s : painted t s -> 7%N ∉ t.
Proof.
  induction 1 as [|b t s Hb _ _ _ IH|m t s Hm _ IH]; [set_solver..|].
  assert (forallb (fun c => forallb (fun b => negb (b =? 7)%N) c) marks = true) as HA by (by vm_compute).
  rewrite forallb_forall in HA. specialize (HA m ltac:(by apply elem_of_list_In)). rewrite forallb_forall in HA.
  intros [H|[H|H]%elem_of_app]%elem_of_cons; [done| |done]. specialize (HA 7%N ltac:(by apply elem_of_list_In)). done.
Qed.
Lemma no_mark b t : b <> 27%N -> (b = 194%N -> head t <> Some 155%N) -> mark_end (b :: t) = None.
Proof.
  intros H1 H2. unfold mark_end. destruct (N.eq_dec b 194) as [-> |H3].
  - destruct t as [|c t]; [done|]. assert (c <> 155%N) as H by (intros ->; by apply H2).
    clear -H. repeat (destruct c as [|c]; try done). all: repeat (destruct c as [c|c|]; try done).
  - clear H2. repeat (destruct b as [|b]; try done). all: repeat (destruct b as [b|b|]; try done).
Qed.
Lemma strip_painted t s : painted t s -> strip_ansi t = s.
Proof.
  unfold strip_ansi. induction 1 as [|b t s H7 H27 H9 Hp IH|m t s Hm Hp IH]; [done| |].
  - cbn [strip_from]. rewrite no_mark; [|done..]. by rewrite IH.
  - cbn [strip_from]. rewrite (mark_found m t Hm); [|by eapply painted_no_bell]. by rewrite strip_skip.
Qed.
Lemma strip_unmarked s : unmarked s -> strip_ansi s = s.
Proof.
  unfold strip_ansi. intros [H1 H2]. induction s as [|b s IH]; [done|]. cbn [strip_from]. rewrite no_mark.
  - f_equal. apply IH; [set_solver|]. intros x y ->. by apply (H2 (b :: x) y).
  - set_solver.
  - intros -> Hh. destruct s as [|c s]; [done|]. injection Hh as ->. by apply (H2 [] s).
Qed.

Fixpoint no_pair (prev : bool) (s : bytes) : bool :=
  match s with
  | [] => true
  | b :: r => (negb (prev && (b =? 155)%N) && no_pair (b =? 194)%N r)%bool
  end.
Lemma no_pair_ok s : forall p, no_pair p s = true -> forall a b, s <> a ++ [194; 155]%N ++ b.
Proof.
  induction s as [|c s IH]; intros p; cbn [no_pair]; [by intros _ [|] ?|]. intros [_ H]%andb_prop [|x a] b E.
  - injection E as -> ->. cbn in H. done.
  - injection E as <- E. by apply (IH _ H a b).
Qed.

Lemma painted_calm s m t u : calm s -> m ∈ marks -> painted t u -> painted (s ++ 27%N :: m ++ t) (s ++ u).
Proof.
  intros (H7 & H27 & H9) Hm Hp. induction s as [|b s IH]; [by constructor|]. cbn [app]. constructor.
  - set_solver.
  - set_solver.
  - intros ->. destruct s as [|c s]; [done|]. cbn. intros [= ->]. by apply (H9 [] s).
  - apply IH; [set_solver..|]. intros x y ->. by apply (H9 (b :: x) y).
Qed.
Lemma painted_coloured c s t u : s2b c ∈ marks -> calm s -> painted t u -> painted (coloured c s ++ t) (s ++ u).
Proof.
  intros Hc Hs Hp. unfold coloured. rewrite <- !app_assoc. cbn [app]. constructor; [done|]. apply (painted_calm s (s2b "[0m")); [done|by vm_compute; set_solver|done].
Qed.
Lemma strip_coloured c s : s2b c ∈ marks -> calm s -> strip_ansi (coloured c s) = s.
Proof. intros Hc Hs. apply strip_painted. pose proof (painted_coloured c s [] [] Hc Hs painted_nil) as H. by rewrite !app_nil_r in H. Qed.

Lemma strip_bell c s t : s2b c ∈ marks -> Forall (fun b => is_word b = true) s -> calm t -> strip_ansi (coloured c (s ++ [7%N] ++ t)) = t.
Proof.
  intros Hc Hs Ht.
  assert (coloured c (s ++ [7%N] ++ t) = 27%N :: s2b c ++ s ++ 7%N :: t ++ 27%N :: s2b "[0m") as ->.
  { unfold coloured. rewrite <- !app_assoc. done. }
  unfold strip_ansi. cbn [strip_from]. rewrite (mark_bell (s2b c) s); [|done|done].
  pose proof (painted_calm t (s2b "[0m") [] [] Ht ltac:(by vm_compute; set_solver) painted_nil) as H. rewrite !app_nil_r in H.
  apply strip_painted in H. rewrite <- H at 2. unfold strip_ansi.
  replace (S (length (s2b c) + length s)) with (length (s2b c ++ s ++ [7%N])) by (rewrite !app_length; cbn [length]; lia).
  assert (forall r, s2b c ++ s ++ 7%N :: r = (s2b c ++ s ++ [7%N]) ++ r) as E by (intros r; by rewrite <- !app_assoc). rewrite (E (t ++ 27%N :: s2b "[0m")). apply strip_skip.
Qed.
Lemma number_bytes z : exists b r, itoa z = b :: r /\ Forall (fun b => 48 <= b <= 57 \/ b = 43 \/ b = 45)%N (b :: r).
Proof.
  assert (forall ds, is_digits ds -> exists b r, ds = b :: r /\ Forall (fun b => 48 <= b <= 57 \/ b = 43 \/ b = 45)%N (b :: r)) as H.
  { intros [|b r] [H1 H2]; [done|]. exists b, r. split; [done|]. eapply Forall_impl; [exact H2|]. cbn. lia. }
  destruct (itoa_denotes z) as [ds Hd|ds Hd|ds Hd]; [by apply H|..]; destruct (H ds Hd) as (b & r & -> & Hr); eexists _, _; (split; [done|]); constructor; (done || lia).
Qed.
