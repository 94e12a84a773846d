(** Parsing a stream from where it stands, and again; grammars without o-lines. *)
From Verif Require Import Base Helpers Utf8 Utf8Proofs Stream StreamSpec StreamProofs Native NativeSpec NativeProofs
  Engine EngSpec EngInv EngMon Fuel FinishProofs Peg PegProofs PegRep PegInv PegBody PegMain PegStd PegStdProofs RunSpec PegRun
  CombProofs Build BuildSpec BuildMain Life.

Section Again.
Variable g : gram.
Variable rx : bytes -> bytes -> option (nat * nat).
Variable cb : nat -> nat -> heap -> ast -> cbres.
Variable o : popts.
Notation E := (mk_env g o rx cb).

Lemma finish_code r s r' s' p : finish r s = Ok r' s' -> c_with_pos (s_code s') p = c_with_pos (s_code s) p.
Proof.
  assert (Hset : forall n s s', set_pos n s = Ok tt s' -> c_with_pos (s_code s') p = c_with_pos (s_code s) p).
  { intros n s1 s2 H. unfold set_pos in H. rewrite c_set_pos_eq in H.
    destruct (_ || _)%bool in H; [done|]. injection H as <-. cbn [set_code s_code]. apply c_with_pos_twice. }
  assert (Hlift : forall A (x : res A) s a s', lift x s = Ok a s' -> s' = s).
  { intros A x s1 a s2 H. unfold lift in H. by destruct x; [injection H|..]. }
  assert (Hb : forall A B (m : M A) (k : A -> M B) s b s', bind m k s = Ok b s' -> exists a s1, m s = Ok a s1 /\ k a s1 = Ok b s').
  { intros A B m k s1 b s2 H. unfold bind in H. destruct (m s1) as [a s3| |] eqn:Em; [|done..]. eauto. }
  unfold finish. intros H. apply Hb in H as (s0 & s1 & [= <- <-] & H). destruct (_ =? _) in H; [by injection H as _ <-|].
  destruct (scan_rows _ _ _ _ _) as [att succ] in H.
  do 4 (apply Hb in H as (? & s2 & H1%Hlift & H); subst s2).
  apply Hb in H as ([] & s2 & H1%Hset & H). apply Hb in H as (? & s3 & [= <- <-] & H). apply Hb in H as (? & s3 & H2%Hlift & H). subst s3.
  apply Hb in H as ([] & s3 & H2%Hset & H). apply Hb in H as (? & s4 & [= <- <-] & H). apply Hb in H as (? & s4 & H3%Hlift & H). subst s4.
  injection H as _ <-. congruence.
Qed.

Hypothesis Hrx : forall re, rx_ok (rx re).
Hypothesis Hfit : ids_fit E (g_rank g).

(** Where a parse leaves the stream. *)
Lemma left_at c fuel r s : code_ok c -> c_pos c <= length (c_work c) -> top_ok (g_rank g) ->
  fst (gram_parse fuel g o rx cb c) = Ok r s ->
  (forall p, c_with_pos (s_code s) p = c_with_pos c p) /\ c_pos c <= c_pos (s_code s) <= length (c_work c) /\
  ((forall k, r <> Some (AErr k)) -> s_code s = c_with_pos c (length (c_work c))).
Proof.
  intros Hc Hp Ht HG. unfold gram_parse in HG. destruct (parse E fuel (g_rank g) _) as [r1 s1| |] eqn:HP; [|done..]. cbn [fst] in HG.
  destruct (final_state E (g_rank g) c Hrx Hc Hp Hfit Ht fuel r1 s1 HP) as (A1 & A2 & _ & _).
  assert (HW : forall p, c_with_pos (s_code s) p = c_with_pos c p).
  { intros p. rewrite (finish_code _ _ _ _ p HG), A2. apply c_with_pos_twice. }
  split; [exact HW|].
  destruct (parse_end g rx cb o Hrx Hfit c fuel r1 s1 Hc Hp Ht HP) as [B1 B2].
  unfold gram_parse in B1, B2. rewrite HP in B1, B2. cbn [fst] in B1, B2. rewrite HG in B1, B2.
  destruct (decide (st_pos s1 = length (c_work c))) as [He|He].
  - injection (B1 He) as -> ->. split; [exact A1|]. intros _. by rewrite A2, He.
  - destruct (B2 He) as (k & s2 & [= -> ->] & B3 & B4). split; [unfold st_pos in *; lia|]. intros Hk. by destruct (Hk k).
Qed.

(** Set back to the start, the stream is parsed as before. *)
Lemma rewound c fuel r s : code_ok c -> c_pos c <= length (c_work c) -> top_ok (g_rank g) ->
  fst (gram_parse fuel g o rx cb c) = Ok r s ->
  c_set_pos (s_code s) (Z.of_nat (c_pos c)) = ROk c.
Proof.
  intros Hc Hp Ht HG. destruct (left_at c fuel r s Hc Hp Ht HG) as (H1 & _ & _).
  assert (c_work (s_code s) = c_work c) as HW.
  { rewrite <- (c_with_pos_work (s_code s) 0), H1. apply c_with_pos_work. }
  rewrite c_set_pos_ok by (by rewrite HW). by rewrite H1, c_with_pos_same.
Qed.
End Again.

Section AgainSem.
Variable g : gram.
Variable rx : bytes -> bytes -> option (nat * nat).
Variable cb : nat -> nat -> heap -> ast -> cbres.
Variable o : popts.
Variable cbf : nat -> nat -> val -> option (option val).
Notation E := (mk_env g o rx cb).
Hypothesis Hg : pure_grammar E (g_rank g) cbf.
Hypothesis Ht : top_rank (g_rank g).
Variable R : nat -> node.
Variable par : nat -> option nat.
Hypothesis HR : lists_rules E (g_rank g) R.
Hypothesis Hpar : parts_ok R par.

(** A parse starts where the stream stands. *)
Lemma gram_meaning_at c r : code_ok c -> c_pos c <= length (c_work c) -> meaning E cbf R par (c_work c) (g_rank g) (c_pos c) r ->
  exists fuel0, forall fuel, fuel0 <= fuel ->
  match r with
  | Some (v, e) =>
      if e =? length (c_work c) then exists x s', fst (gram_parse fuel g o rx cb c) = Ok (Some x) s' /\ rep [] (s_heap s') x v
      else exists k s', fst (gram_parse fuel g o rx cb c) = Ok (Some (AErr k)) s' /\ e <= k <= length (c_work c)
  | None =>
      if c_pos c =? length (c_work c) then exists s', fst (gram_parse fuel g o rx cb c) = Ok None s'
      else exists k s', fst (gram_parse fuel g o rx cb c) = Ok (Some (AErr k)) s' /\ c_pos c <= k <= length (c_work c)
  end.
Proof.
  intros Hc Hcp HM. pose proof Hg as [G1 G2 G3 G4 G5].
  destruct (meaning_run E (g_rank g) c cbf R par Hg Hc Hcp HR Hpar (init_st c (g_nrules g)) (g_rank g) r)
    as (fuel0 & x & s' & Ho & Hrun).
  - apply (ap_init E (g_rank g) c).
  - split; [constructor|by apply top_rank_ok].
  - exact HM.
  - exists fuel0. intros fuel Hf. specialize (Hrun fuel Hf).
    destruct (parse_end g rx cb o G1 G2 c fuel x s' Hc Hcp (top_rank_ok _ Ht) Hrun) as [HE1 HE2].
    destruct r as [[v e]|].
    + destruct Ho as (y & -> & Hy & He). destruct (Nat.eqb_spec e (length (c_work c))).
      * exists y, s'. split; [|done]. apply HE1. lia.
      * destruct HE2 as (k & s1 & H1 & H2 & H3); [lia|]. exists k, s1. split; [done|]. lia.
    + cbn in Ho. subst x. pose proof (top_rank_fails E (g_rank g) c fuel s' G1 Hc Hcp G2 G3 Ht Hrun) as Hs.
      destruct (Nat.eqb_spec (c_pos c) (length (c_work c))).
      * exists s'. apply HE1. lia.
      * destruct HE2 as (k & s1 & H1 & H2 & H3); [lia|]. exists k, s1. split; [done|]. lia.
Qed.

(** The stream of a parse that gave a value, parsed again as it is. *)
Lemma again_at_end c fuel r s : code_ok c -> c_pos c <= length (c_work c) ->
  fst (gram_parse fuel g o rx cb c) = Ok r s -> (forall k, r <> Some (AErr k)) ->
  meaning E cbf R par (c_work c) (g_rank g) (length (c_work c)) None ->
  exists fuel0, forall fuel, fuel0 <= fuel -> exists s', fst (gram_parse fuel g o rx cb (s_code s)) = Ok None s'.
Proof.
  intros Hc Hcp HP Hr HM. pose proof Hg as [G1 G2 G3 G4 G5].
  destruct (left_at g rx cb o G1 G2 c fuel r s Hc Hcp (top_rank_ok _ Ht) HP) as (_ & _ & ->); [|done].
  destruct (gram_meaning_at (c_with_pos c (length (c_work c))) None) as (f0 & Hf).
  - by destruct c.
  - by rewrite c_with_pos_pos, c_with_pos_work.
  - by rewrite c_with_pos_pos, c_with_pos_work.
  - exists f0. intros fuel' Hl. specialize (Hf fuel' Hl). rewrite c_with_pos_pos, c_with_pos_work, Nat.eqb_refl in Hf. exact Hf.
Qed.
End AgainSem.

(** ** Grammars without alternatives *)
Lemma scan_row_none fh n pos att succ : scan_row fh (replicate n None) pos att succ = (att, succ).
Proof. by induction n. Qed.
Lemma scan_rows_none fh m n : forall pos att succ, scan_rows fh (replicate m (replicate n None)) pos att succ = (att, succ).
Proof. induction m as [|m IH]; intros pos att succ; [done|]. cbn [replicate scan_rows]. by rewrite scan_row_none, IH. Qed.

Section Empty.
Variable g : gram.
Variable rx : bytes -> bytes -> option (nat * nat).
Variable cb : nat -> nat -> heap -> ast -> cbres.
Variable o : popts.
Hypothesis H1 : i_isrule (n_info (g_rank g)) = false.
Hypothesis H2 : i_label (n_info (g_rank g)) = EmptyString.
Hypothesis H3 : i_cb (n_info (g_rank g)) = None.
Hypothesis H4 : n_kind (g_rank g) = KChoice [].

Lemma nothing_parse fuel s : parse (mk_env g o rx cb) (S fuel) (g_rank g) s = Ok None s.
Proof.
  rewrite plain_called by done. destruct (g_rank g) as [i k]. cbn [n_kind] in H4. by subst k.
Qed.
Lemma nothing_accepted fuel text :
  (text = [] -> exists s, fst (parse_string (S fuel) g o rx cb text) = Ok None s) /\
  (text <> [] -> exists s, fst (parse_string (S fuel) g o rx cb text) = Ok (Some (AErr 0)) s).
Proof.
  unfold parse_string, gram_parse. rewrite nothing_parse. cbn [fst]. set (c := CRune (new_rune_stream text)).
  assert (HG : GI (fun _ _ => false) (g_nrules g) c (init_st c (g_nrules g))) by (apply init_G; cbn; lia).
  destruct (finish_ok (fun _ _ => false) (g_nrules g) c ltac:(done) None _ HG) as [F1 F2]. split; intros Hx.
  - eexists. apply F1. by subst text.
  - destruct F2 as (k & s' & HF & _). { destruct text; [done|]. cbn. lia. }
    exists s'. rewrite HF. assert (k = 0) as ->; [|done].
    revert HF. unfold finish. unfold bind at 1. unfold get. cbn [init_st s_code].
    assert ((c_pos c =? c_work_length c) = false) as ->. { destruct text; [done|]. done. }
    change (c_pos c) with 0. rewrite drop_0. cbn [init_st s_frames s_fheap]. rewrite scan_rows_none.
    intros HF. clear -HF.
    assert (Hb : forall A B (m : M A) (k : A -> M B) s b s', bind m k s = Ok b s' -> exists a s1, m s = Ok a s1 /\ k a s1 = Ok b s').
    { intros A B m k1 s1 b s2 H. unfold bind in H. destruct (m s1) as [a s3| |] eqn:Em; [|done..]. eauto. }
    do 10 (apply Hb in HF as (? & ? & _ & HF)). by injection HF as <- _.
Qed.
End Empty.

Lemma no_o_lines compile fuel name ls b : build compile fuel name ls = ROk b ->
  names_once ls -> no_singles compile ls -> name <> EmptyString -> o_names name ls 0 = [] ->
  forall o rx cb f text,
  (text = [] -> exists s, fst (parse_string (S f) (gram_of b) o rx cb text) = Ok None s) /\
  (text <> [] -> exists s, fst (parse_string (S f) (gram_of b) o rx cb text) = Ok (Some (AErr 0)) s).
Proof.
  intros Hb Hn Hs He Ho o rx cb f text.
  destruct (named compile fuel name ls b Hb Hn Hs He) as [_ (alts & K1 & K2 & _ & K4 & K5 & K6)].
  rewrite Ho in K2. destruct alts; [|done]. by apply nothing_accepted.
Qed.
Lemma counted compile fuel name ls b : build compile fuel name ls = ROk b ->
  names_once ls -> no_singles compile ls -> name <> EmptyString -> count_rules (gobj_of b) = length (decls name ls).
Proof.
  intros Hb Hn Hs He. destruct (named compile fuel name ls b Hb Hn Hs He) as [HF _]. apply Forall2_length in HF. by rewrite HF.
Qed.
