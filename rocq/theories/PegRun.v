(** Whole parses and the semantics of Peg.v. *)
From stdpp Require Import sets.
From Verif Require Import Base Helpers Utf8 Utf8Proofs Stream StreamSpec StreamProofs Native NativeSpec NativeProofs
  Engine EngSpec EngInv EngMon Fuel FinishProofs Peg PegProofs PegRep PegInv PegBody PegMain PegStd PegStdProofs RunSpec.

Section Run.
Variable E : env.
Variable root : node.
Variable c : code.
Variable cbf : nat -> nat -> val -> option (option val).
Variable R : nat -> node.
Variable par : nat -> option nat.
Hypothesis Hrx : forall re, rx_ok (e_rx E re).
Hypothesis Hok : code_ok c.
Hypothesis Hcp : c_pos c <= length (c_work c).
Hypothesis Hfit : ids_fit E root.
Hypothesis HR : lists_rules E root R.
Hypothesis Hpar : parts_ok R par.
Hypothesis Hcb : cb_pure E root cbf.
Hypothesis Hq : quiet E root.
Notation N := (e_nrules E).
Notation peg := (peg (e_rule E) (e_rx E) cbf R par (c_work c)).
Notation Inv := (Inv E c cbf R par).

Lemma init_Inv : Inv [] [] (init_st c N).
Proof.
  split; try done.
  - by apply init_G.
  - constructor.
Qed.

(** A state between two parses on the same input: nothing in progress. *)
Definition idle (s : st) : Prop := Inv [] [] s /\ s_stack s = [].
Lemma idle_init : idle (init_st c N).
Proof. split; [apply init_Inv|done]. Qed.

Lemma idle_run n p t h r s : idle s -> st_pos s = p -> reach E root n -> top_ok n -> h <= stack_limit -> peg None (JNode n) p t h r ->
  exists f0 x s', idle s' /\ outcome_is r x s' /\ forall f, f0 <= f -> parse E f n s = Ok x s'.
Proof.
  intros [HI Hs] Hp Hn Ht Hh HP. destruct Hq as (Q1 & Q2 & Q3).
  pose proof (peg_ok E c root cbf R par Hrx (code_ok_lines c Hok) Hfit HR Hpar Hcb Q1 Q2 Q3 _ _ _ _ _ _ HP) as Hok'.
  destruct (Hok' [] [] s Hn eq_refl) as (f0 & x & s' & Hpost & Hrun).
  - split; [done|done|done| |done]. rewrite Hs. cbn. lia.
  - by right.
  - destruct Hpost as [B1 B2 B3 B4]. exists f0, x, s'. split; [|split].
    + split; [exact B1|]. rewrite (GR_stack _ _ _ _ _ B2). done.
    + exact B4.
    + intros f Hf. by apply (Hrun f f).
Qed.

Lemma run_peg t h r : top_ok root -> h <= stack_limit -> peg None (JNode root) (c_pos c) t h r ->
  exists f0 x s', outcome_is r x s' /\ forall f, f0 <= f -> parse E f root (init_st c N) = Ok x s'.
Proof.
  intros Ht Hh HP. destruct (idle_run root (c_pos c) t h r (init_st c N)) as (f0 & x & s' & _ & H1 & H2);
    [apply idle_init|done|constructor|done|done|done|]. eauto.
Qed.

Lemma idle_move s p : idle s -> p <= length (c_work c) -> idle (set_code s (c_with_pos c p)).
Proof.
  intros [HI HS] Hp. split; [|done]. destruct HI. split; try done.
  apply G_move; [done|done|]. by rewrite HS.
Qed.

Lemma run_meaning n s r : idle s -> reach E root n -> top_ok n -> meaning E cbf R par (c_work c) n (st_pos s) r ->
  engine_gives E n s r /\ forall fuel x s', parse E fuel n s = Ok x s' -> idle s'.
Proof.
  intros Hi Hn Ht (t & h & Hh & HP).
  destruct (idle_run n _ t h r s Hi eq_refl Hn Ht Hh HP) as (f0 & x & s' & H1 & H2 & H3). split.
  - by exists f0, x, s'.
  - intros fuel x1 s1 H. specialize (H3 (max f0 fuel) ltac:(lia)).
    apply (parse_fuel E fuel (max f0 fuel)) in H; [|lia]. rewrite H3 in H. by injection H as <- <-.
Qed.
End Run.

Section After.
Variable E : env.
Variable root : node.
Variable c : code.
Variable cbf : nat -> nat -> val -> option (option val).
Variable R : nat -> node.
Variable par : nat -> option nat.
Hypothesis Hg : pure_grammar E root cbf.
Hypothesis Hok : code_ok c.
Hypothesis Hcp : c_pos c <= length (c_work c).
Hypothesis HR : lists_rules E root R.
Hypothesis Hpar : parts_ok R par.
Notation out := (meaning E cbf R par (c_work c)).

Lemma after_idle s : after_parses E root c out s -> idle E c cbf R par s.
Proof.
  intros Hs. destruct Hg as [G1 G2 G3 G4 G5]. induction Hs as [|s p _ IH Hp|s n r fuel x s' _ IH [Hn Ht] Htb Hrun].
  - by apply idle_init.
  - by apply idle_move.
  - eapply (run_meaning E root c cbf R par); done.
Qed.

Lemma meaning_run s n r : after_parses E root c out s -> entry E root n -> out n (st_pos s) r -> engine_gives E n s r.
Proof.
  intros Hs [Hn Ht] Htb. pose proof Hg as [G1 G2 G3 G4 G5].
  eapply (run_meaning E root c cbf R par); try done. by apply after_idle.
Qed.
End After.

Section Textbook.
Variable E : env.
Variable root : node.
Variable c : code.
Variable cbf : nat -> nat -> val -> option (option val).
Hypothesis Hg : pure_grammar E root cbf.
Hypothesis Hok : code_ok c.
Hypothesis Hcp : c_pos c <= length (c_work c).

Lemma textbook_meaning R n p r : lists_rules E root R -> reach E root n -> textbook E cbf (c_work c) n p r ->
  meaning E cbf R (fun _ => None) (c_work c) n p r.
Proof.
  intros HR Hn [fuel Hf]. destruct (std_peg E cbf R (c_work c) (fun _ => None) root HR ltac:(done) _ _ _ _ _ Hn Hf) as (h & Hh & HP).
  by exists false, h.
Qed.

Lemma after_mono (out out' : node -> nat -> result -> Prop) s : (forall n p r, reach E root n -> out n p r -> out' n p r) ->
  after_parses E root c out s -> after_parses E root c out' s.
Proof.
  intros H Hs. induction Hs as [|s p _ IH Hp|s n r fuel x s' _ IH [Hn Ht] Htb Hrun]; [constructor|by constructor|].
  eapply ap_parse; [exact IH|done|by apply H|done].
Qed.

Lemma textbook_run s n r : after_parses E root c (textbook E cbf (c_work c)) s -> entry E root n ->
  textbook E cbf (c_work c) n (st_pos s) r -> engine_gives E n s r.
Proof.
  intros Hs Hn Htb. destruct (pg_unique _ _ _ Hg) as [R HR].
  eapply (meaning_run E root c cbf R (fun _ => None)); try done.
  - eapply after_mono; [|exact Hs]. intros. by apply textbook_meaning.
  - apply textbook_meaning; [done|apply Hn|done].
Qed.
End Textbook.

(** ** ParseString *)
Lemma top_rank_ok n : top_rank n -> top_ok n.
Proof. intros (H1 & H2 & H3 & l & H4 & H5). right. by exists l. Qed.

(** A failing top rank leaves the cursor at the start. *)
Lemma top_rank_fails E root c fuel s' : (forall re, rx_ok (e_rx E re)) -> code_ok c -> c_pos c <= length (c_work c) ->
  ids_fit E root -> ids_unique E root -> top_rank root ->
  parse E fuel root (init_st c (e_nrules E)) = Ok None s' -> st_pos s' = c_pos c.
Proof.
  intros H1 H2 H3 H4 H5 HT HP. pose proof HT as (_ & _ & HC & l & HK & _).
  pose proof (cursor_back_inv E root c H1 H2 H3 H4 (top_rank_ok _ HT) fuel H5) as HM. rewrite HP in HM.
  destruct fuel as [|fuel]; cbn [parse_mon] in HM; unfold checked in HM; [done|].
  rewrite HK in HM. destruct (wrap _ _ _ _ _) as [r s1| |]; [|done|done].
  destruct (cursor_back root _ r s1) eqn:EC; [|done]. injection HM as -> ->.
  unfold cursor_back, gives_cursor_back in EC. rewrite HK, HC in EC. cbn in EC.
  apply Nat.eqb_eq in EC. rewrite EC. done.
Qed.

Section Str.
Variable g : gram.
Variable rx : bytes -> bytes -> option (nat * nat).
Variable cb : nat -> nat -> heap -> ast -> cbres.
Variable o : popts.
Notation E := (mk_env g o rx cb).
Hypothesis Hrx : forall re, rx_ok (rx re).
Hypothesis Hfit : ids_fit E (g_rank g).

Lemma parse_end c fuel r s : code_ok c -> c_pos c <= length (c_work c) -> top_ok (g_rank g) ->
  parse E fuel (g_rank g) (init_st c (g_nrules g)) = Ok r s ->
  (st_pos s = length (c_work c) -> fst (gram_parse fuel g o rx cb c) = Ok r s) /\
  (st_pos s <> length (c_work c) -> exists k s', fst (gram_parse fuel g o rx cb c) = Ok (Some (AErr k)) s' /\
     st_pos s <= k <= st_pos s' /\ st_pos s' <= length (c_work c)).
Proof.
  intros Hc Hp Ht HP.
  destruct (mon_eq E (g_rank g) c Hrx Hc Hp Hfit Ht (fun _ _ => false) (fun _ _ => true) (fun _ _ _ _ => true) fuel) as [_ HT]; [done..|].
  unfold tr in HT. change (e_nrules E) with (g_nrules g) in HT. rewrite HP in HT. destruct HT as ((HG & _) & _).
  pose proof (finish_ok (fun _ _ => false) (g_nrules g) c Hc r s HG) as HF.
  unfold gram_parse. rewrite HP. exact HF.
Qed.
End Str.

Section StrSem.
Variable g : gram.
Variable rx : bytes -> bytes -> option (nat * nat).
Variable cb : nat -> nat -> heap -> ast -> cbres.
Variable o : popts.
Variable cbf : nat -> nat -> val -> option (option val).
Notation E := (mk_env g o rx cb).
Hypothesis Hg : pure_grammar E (g_rank g) cbf.
Hypothesis Ht : top_rank (g_rank g).
Variable R : nat -> node.
Variable par : nat -> option nat.
Hypothesis HR : lists_rules E (g_rank g) R.
Hypothesis Hpar : parts_ok R par.

Lemma gram_meaning c r : code_ok c -> c_pos c = 0 -> meaning E cbf R par (c_work c) (g_rank g) 0 r ->
  exists fuel0, forall fuel, fuel0 <= fuel ->
  match r with
  | Some (v, e) =>
      if e =? length (c_work c) then exists x s', fst (gram_parse fuel g o rx cb c) = Ok (Some x) s' /\ rep [] (s_heap s') x v
      else exists k s', fst (gram_parse fuel g o rx cb c) = Ok (Some (AErr k)) s' /\ e <= k <= length (c_work c)
  | None =>
      if 0 =? length (c_work c) then exists s', fst (gram_parse fuel g o rx cb c) = Ok None s'
      else exists k s', fst (gram_parse fuel g o rx cb c) = Ok (Some (AErr k)) s' /\ k <= length (c_work c)
  end.
Proof.
  intros Hc Hp HM. pose proof Hg as [G1 G2 G3 G4 G5].
  assert (c_pos c <= length (c_work c)) as Hcp by lia.
  destruct (meaning_run E (g_rank g) c cbf R par Hg Hc Hcp HR Hpar (init_st c (g_nrules g)) (g_rank g) r)
    as (fuel0 & x & s' & Ho & Hrun).
  - apply (ap_init E (g_rank g) c).
  - split; [constructor|by apply top_rank_ok].
  - change (st_pos (init_st c (g_nrules g))) with (c_pos c). by rewrite Hp.
  - exists fuel0. intros fuel Hf. specialize (Hrun fuel Hf).
    destruct (parse_end g rx cb o G1 G2 c fuel x s' Hc Hcp (top_rank_ok _ Ht) Hrun) as [HE1 HE2].
    destruct r as [[v e]|].
    + destruct Ho as (y & -> & Hy & He). destruct (Nat.eqb_spec e (length (c_work c))).
      * exists y, s'. split; [|done]. apply HE1. lia.
      * destruct HE2 as (k & s1 & H1 & H2 & H3); [lia|]. exists k, s1. split; [done|]. lia.
    + cbn in Ho. subst x. pose proof (top_rank_fails E (g_rank g) c fuel s' G1 Hc Hcp G2 G3 Ht Hrun) as Hs.
      destruct (Nat.eqb_spec 0 (length (c_work c))).
      * exists s'. apply HE1. lia.
      * destruct HE2 as (k & s1 & H1 & H2 & H3); [lia|]. exists k, s1. split; [done|]. lia.
Qed.
End StrSem.
