(** The nodes of the joeson grammar by name, and what its small parts parse. *)
From Verif Require Import Base Helpers Utf8 Utf8Spec Utf8Proofs Stream StreamSpec Native Engine EngSpec EngInv Peg PegProofs PegRep PegBody PegStd PegStdProofs
  Build BuildMain Joeson JoesonSpec JoesonRun Erase JoesonMark Gives TextSpec.
Local Open Scope N_scope.
Local Open Scope nat_scope.

(** ** The nodes *)
Definition an (lb : string) (cap wr : bool) (k : kind node) : node := Node (Info "" lb cap false 0 wr None false false) k.
Definition ru (nm : string) (id : nat) (cb : option nat) (k : kind node) : node := Node (Info nm "" true true id true cb false false) k.
Definition ot (nm : string) (id : nat) (cap : bool) (cb : option nat) (k : kind node) : node := Node (Info nm "" cap false id true cb false false) k.
Definition rf (nm : string) : node := an "" true false (KRef nm).
Definition rc (nm : string) : node := an "" false false (KRef nm).
Definition rw (nm : string) : node := an "" true true (KRef nm).
Definition rcw (nm : string) : node := an "" false true (KRef nm).
Definition lt (s : bytes) : node := an "" false false (KStr s).
Definition ltw (s : bytes) : node := an "" false true (KStr s).

Definition j_b1 : node := an "" false true (KChoice [ltw [32%N]; ltw [10%N]]).
Definition j_gap : node := ot "_" 4 true None (KPat j_b1 None (-1) (-1)).
Definition j_gap1 : node := ot "__" 5 true None (KPat j_b1 None 1 (-1)).
Definition j_WORD : node := ot "WORD" 1 true None (KRegex re_word).
Definition j_LABEL : node := ot "LABEL" 0 false None (KChoice [ltw [38%N]; ltw [64%N]; rw "WORD"]).
Definition j_INT : node := ot "INT" 2 true (Some 12) (KRegex re_int).
Definition j_PIPE : node := ot "_PIPE" 3 true None (KSeq TSingle [rc "_"; lt [124%N]]).
Definition j_any : node := ot "." 6 true None (KRegex re_any).
Definition j_ESC1 : node := ot "ESC1" 7 true None (KSeq TSingle [lt [92%N]; rf "."]).
Definition j_ESC2 : node := ot "ESC2" 8 true (Some 13) (KSeq TSingle [lt [92%N]; rf "."]).
Definition j_ch (stop : N) (esc : string) : node :=
  an "" true true (KSeq TSingle [an "" false false (KNot (ltw [stop])); an "" true false (KChoice [rw esc; rw "."])]).
Definition j_chs (stop : N) (esc : string) : node := an "" true false (KPat (j_ch stop esc) None (-1) (-1)).
Definition j_CODE : node := ru "CODE" 22 (Some 8) (KSeq TSingle [lt [123%N]; j_chs 125 "ESC1"; lt [125%N]]).
Definition j_P0 : node := ru "PRIMARY[0]" 23 (Some 7) (KSeq TArray [rf "WORD"; lt [40%N]; rf "EXPR"; lt [41%N]]).
Definition j_P1 : node := ru "PRIMARY[1]" 24 (Some 7) (KRef "WORD").
Definition j_inl : node := an "inlineLabel" true false (KExist (an "" true false (KSeq TSingle [rf "WORD"; lt [58; 32]%N]))).
Definition j_arrow : node := an "@" true false (KExist (an "" true false (KSeq TObject [rc "_"; lt [45; 62]%N; rc "_"; an "code" true false (KRef "CODE")]))).
Definition j_ex : node := an "expr" true false (KRef "EXPR").
Definition j_P2 : node := ru "PRIMARY[2]" 25 (Some 8) (KSeq TObject [lt [40%N]; j_inl; j_ex; lt [41%N]; j_arrow]).
Definition j_P3 : node := ru "PRIMARY[3]" 26 (Some 9) (KSeq TSingle [lt [39%N]; j_chs 39 "ESC1"; lt [39%N]]).
Definition j_P4 : node := ru "PRIMARY[4]" 27 (Some 10) (KSeq TSingle [lt [47%N]; j_chs 47 "ESC2"; lt [47%N]]).
Definition j_P5 : node := ru "PRIMARY[5]" 28 (Some 11) (KSeq TSingle [lt [91%N]; j_chs 93 "ESC2"; lt [93%N]]).
Definition j_PRIM : node := ru "PRIMARY" 29 None (KChoice [j_P0; j_P1; j_P2; j_P3; j_P4; j_P5]).
Definition j_int (k : string) : node := an k true false (KExist (rf "INT")).
Definition j_RANGE : node := ru "RANGE" 14 None
  (KSeq TObject [lt [123%N]; rc "_"; j_int "min"; rc "_"; lt [44%N]; rc "_"; j_int "max"; rc "_"; lt [125%N]]).
Definition j_val : node := an "value" true false (KRef "PRIMARY").
Definition j_join : node := an "join" true false (KExist (an "" true false (KSeq TSingle [an "" false false (KNot (rcw "__")); rf "PRIMARY"]))).
Definition j_D0 : node := ru "DECORATED[0]" 15 (Some 2) (KSeq TSingle [rf "PRIMARY"; lt [63%N]]).
Definition j_D1 : node := ru "DECORATED[1]" 16 (Some 3) (KSeq TObject [j_val; lt [42%N]; j_join; an "@" true false (KExist (rf "RANGE"))]).
Definition j_D2 : node := ru "DECORATED[2]" 17 (Some 4) (KSeq TObject [j_val; lt [43%N]; j_join]).
Definition j_D3 : node := ru "DECORATED[3]" 18 (Some 3) (KSeq TObject [j_val; an "@" true false (KRef "RANGE")]).
Definition j_D4 : node := ru "DECORATED[4]" 19 (Some 5) (KSeq TSingle [lt [33%N]; rf "PRIMARY"]).
Definition j_L1 : node := an "" true true (KSeq TObject [lt [40; 63]%N; j_ex; lt [41%N]]).
Definition j_L2 : node := an "" true true (KSeq TObject [lt [63%N]; j_ex]).
Definition j_D5 : node := ru "DECORATED[5]" 20 (Some 6) (KChoice [j_L1; j_L2]).
Definition j_DECO : node := ru "DECORATED" 21 None (KChoice [j_D0; j_D1; j_D2; j_D3; j_D4; j_D5]).
Definition j_lab : node := an "@" true false (KExist (an "" true false (KSeq TObject [an "label" true false (KRef "LABEL"); lt [58%N]]))).
Definition j_amp : node := an "&" true false (KChoice [rw "DECORATED"; rw "PRIMARY"]).
Definition j_LA0 : node := ru "LABELED[0]" 13 None (KSeq TObject [j_lab; j_amp]).
Definition j_LABELED : node := ru "LABELED" 30 None (KChoice [j_LA0; j_DECO; j_PRIM]).
Definition j_U0 : node := ru "UNIT[0]" 12 None (KSeq TSingle [rc "_"; rf "LABELED"]).
Definition j_UNIT : node := ru "UNIT" 31 None (KChoice [j_U0; j_LABELED]).
Definition j_S0 : node := ru "SEQUENCE[0]" 11 (Some 1) (KPat (rw "UNIT") None 2 (-1)).
Definition j_SEQ : node := ru "SEQUENCE" 32 None (KChoice [j_S0; j_UNIT]).
Definition j_pipes : node := an "" false false (KPat (rcw "_PIPE") None (-1) (-1)).
Definition j_seqs : node := an "" true false (KPat (rw "SEQUENCE") (Some (rcw "_PIPE")) 2 (-1)).
Definition j_C0 : node := ru "CHOICE[0]" 10 (Some 0) (KSeq TSingle [j_pipes; j_seqs; j_pipes]).
Definition j_CHOICE : node := ru "CHOICE" 33 None (KChoice [j_C0; j_SEQ]).
Definition j_E0 : node := ru "EXPR[0]" 9 None (KSeq TSingle [rf "CHOICE"; rc "_"]).
Definition j_EXPR : node := ru "EXPR" 34 None (KChoice [j_E0; j_CHOICE]).
Definition j_top : node := ot "__joeson__" 0 true None (KChoice [j_EXPR]).

Lemma hand_nodes : hand = (j_top, [("LABEL", j_LABEL); ("WORD", j_WORD); ("INT", j_INT); ("_PIPE", j_PIPE); ("_", j_gap); ("__", j_gap1);
  (".", j_any); ("ESC1", j_ESC1); ("ESC2", j_ESC2); ("EXPR[0]", j_E0); ("CHOICE[0]", j_C0); ("SEQUENCE[0]", j_S0); ("UNIT[0]", j_U0);
  ("LABELED[0]", j_LA0); ("RANGE", j_RANGE); ("DECORATED[0]", j_D0); ("DECORATED[1]", j_D1); ("DECORATED[2]", j_D2); ("DECORATED[3]", j_D3);
  ("DECORATED[4]", j_D4); ("DECORATED[5]", j_D5); ("DECORATED", j_DECO); ("CODE", j_CODE); ("PRIMARY[0]", j_P0); ("PRIMARY[1]", j_P1);
  ("PRIMARY[2]", j_P2); ("PRIMARY[3]", j_P3); ("PRIMARY[4]", j_P4); ("PRIMARY[5]", j_P5); ("PRIMARY", j_PRIM); ("LABELED", j_LABELED);
  ("UNIT", j_UNIT); ("SEQUENCE", j_SEQ); ("CHOICE", j_CHOICE); ("EXPR", j_EXPR)]%string).
Proof. vm_compute. reflexivity. Qed.
Notation jrules := (g_rule (gram_of hand)).
Lemma rule_gap : jrules "_" = Some j_gap. Proof. reflexivity. Qed.
Lemma rule_gap1 : jrules "__" = Some j_gap1. Proof. reflexivity. Qed.
Lemma rule_WORD : jrules "WORD" = Some j_WORD. Proof. reflexivity. Qed.
Lemma rule_LABEL : jrules "LABEL" = Some j_LABEL. Proof. reflexivity. Qed.
Lemma rule_INT : jrules "INT" = Some j_INT. Proof. reflexivity. Qed.
Lemma rule_PIPE : jrules "_PIPE" = Some j_PIPE. Proof. reflexivity. Qed.
Lemma rule_any : jrules "." = Some j_any. Proof. reflexivity. Qed.
Lemma rule_ESC1 : jrules "ESC1" = Some j_ESC1. Proof. reflexivity. Qed.
Lemma rule_ESC2 : jrules "ESC2" = Some j_ESC2. Proof. reflexivity. Qed.
Lemma rule_PRIM : jrules "PRIMARY" = Some j_PRIM. Proof. reflexivity. Qed.
Lemma rule_RANGE : jrules "RANGE" = Some j_RANGE. Proof. reflexivity. Qed.
Lemma rule_DECO : jrules "DECORATED" = Some j_DECO. Proof. reflexivity. Qed.
Lemma rule_LABELED : jrules "LABELED" = Some j_LABELED. Proof. reflexivity. Qed.
Lemma rule_UNIT : jrules "UNIT" = Some j_UNIT. Proof. reflexivity. Qed.
Lemma rule_SEQ : jrules "SEQUENCE" = Some j_SEQ. Proof. reflexivity. Qed.
Lemma rule_CHOICE : jrules "CHOICE" = Some j_CHOICE. Proof. reflexivity. Qed.
Lemma rule_EXPR : jrules "EXPR" = Some j_EXPR. Proof. reflexivity. Qed.

(** ** Characters *)
Lemma letter_b b : letter b -> alpha_b b = true.
Proof. unfold letter, alpha_b. lia. Qed.
Lemma digit_b_of b : digit b -> digit_b b = true.
Proof. unfold digit, digit_b. lia. Qed.
Lemma utf8_head r b c : utf8 r b -> head b = Some c -> (c < 128)%N -> r = c.
Proof. intros Hu Hh Hc. destruct Hu; cbn in Hh; injection Hh as <-; lia. Qed.
Lemma utf8_nonempty r b : utf8 r b -> b <> [].
Proof. intros H%utf8_length. by destruct b; [cbn in H; lia|]. Qed.
Lemma run_len_all f s rest : forallb f s = true -> match head rest with Some b => f b = false | None => True end ->
  run_len f (s ++ rest) = length s.
Proof.
  induction s as [|b s IH]; cbn; intros Hs Hr.
  - destruct rest as [|b rest]; [done|]. cbn in *. by rewrite Hr.
  - apply andb_prop in Hs as [-> Hs]. by rewrite IH.
Qed.
Lemma find_run_late f g s i a b : find_run f g s i = Some (a, b) -> i <= a.
Proof.
  revert i. induction s as [|c s IH]; intros i; cbn; [done|]. destruct (f c); [intros [= <- <-]; lia|]. intros H%IH. lia.
Qed.
Lemma find_run_zero f g s r : match head s with Some b => f b = false | None => True end -> find_run f g s 0 = r ->
  match r with Some (0, _) => False | _ => True end.
Proof.
  destruct s as [|c s]; cbn; [by intros _ <-|]. intros ->. destruct (find_run f g s 1) as [[a b]|] eqn:E; [|by intros <-].
  apply find_run_late in E. destruct a; [lia|]. by intros <-.
Qed.

Section Text.
Variable re_ok : bytes -> bool.
Variable mk : nat -> nat -> option string.
Variable text : bytes.
Notation G := (gives jrules joeson_rx (jcbf re_ok mk) text).
Notation D := (does jrules joeson_rx (jcbf re_ok mk) text).
Notation L := (loops jrules joeson_rx (jcbf re_ok mk) text).
Notation at_ := (Gives.at_ text).

Lemma g_an d lb cap wr k p r : k <> KUndef -> lb = EmptyString \/ wr = false -> D d (an lb cap wr k) p r -> G d (an lb cap wr k) p r.
Proof. intros Hk Hl H. by apply gives_bare; [|done|split|]. Qed.
Lemma g_ot d nm id cap k p r : k <> KUndef -> D d (ot nm id cap None k) p r -> G d (ot nm id cap None k) p r.
Proof. intros Hk H. apply gives_bare; [done|done|by split; [|left]|done]. Qed.
Lemma g_ru d nm id k p r : k <> KUndef -> D d (ru nm id None k) p r -> G (S d) (ru nm id None k) p r.
Proof. intros Hk H. apply gives_bare_rule; [done|done|by split; [|left]|done]. Qed.
Lemma g_ru_cb d nm id c k p v e v' : k <> KUndef -> D d (ru nm id (Some c) k) p (Some (v, e)) -> jcbf re_ok mk c e v = Some (Some v') ->
  G (S d) (ru nm id (Some c) k) p (Some (v', e)).
Proof. intros Hk H Hc. eapply gives_rule; [done|done|exact H|]. cbn. by rewrite Hc. Qed.
Lemma g_ru_no d nm id c k p : k <> KUndef -> D d (ru nm id (Some c) k) p None -> G (S d) (ru nm id (Some c) k) p None.
Proof. intros Hk H. eapply gives_rule; [done|done|exact H|]. done. Qed.
Lemma g_ref d lb cap wr nm m p r : lb = EmptyString \/ wr = false -> jrules nm = Some m -> G d m p r -> G d (an lb cap wr (KRef nm)) p r.
Proof. intros Hl Hm H. apply g_an; [done|done|]. by eapply does_ref. Qed.
Lemma g_lit d lb cap wr s p rest : lb = EmptyString \/ wr = false -> at_ p (s ++ rest) -> G d (an lb cap wr (KStr s)) p (Some (VStr s, p + length s)).
Proof. intros Hl Hp. apply g_an; [done|done|]. eapply does_lit; [done|]. by eapply lit_here. Qed.
Lemma g_lit_no d lb cap wr b s p rest : lb = EmptyString \/ wr = false -> at_ p rest -> head rest <> Some b -> G d (an lb cap wr (KStr (b :: s))) p None.
Proof. intros Hl Hp Hb. apply g_an; [done|done|]. eapply does_lit; [done|]. by eapply lit_not. Qed.
Lemma g_lit1 d lb cap wr b p rest : lb = EmptyString \/ wr = false -> at_ p (b :: rest) -> G d (an lb cap wr (KStr [b])) p (Some (VStr [b], S p)).
Proof. intros Hl Hp. rewrite <- (Nat.add_1_r p). by apply (g_lit d lb cap wr [b] p rest). Qed.

(** ** Gaps *)
Definition nb (s : bytes) : Prop := head s <> Some 32%N /\ head s <> Some 10%N.
Lemma b1_yes d b s p : at_ p (b :: s) -> (b = 32 \/ b = 10)%N -> exists v, G d j_b1 p (Some (v, S p)).
Proof.
  intros Hp [-> | ->]; eexists; apply g_an; [done|by left| |done|by left|]; (eapply does_choice; [done|]).
  - apply alts_take. eapply g_lit1; [by left|exact Hp].
  - apply alts_next; [eapply g_lit_no; [by left|exact Hp|done]|]. apply alts_take. eapply g_lit1; [by left|exact Hp].
Qed.
Lemma b1_no d s p : at_ p s -> nb s -> G d j_b1 p None.
Proof.
  intros Hp [H1 H2]. apply g_an; [done|by left|]. eapply does_choice; [done|].
  apply alts_next; [eapply g_lit_no; [by left|exact Hp|done]|]. apply alts_next; [eapply g_lit_no; [by left|exact Hp|done]|]. apply alts_nil.
Qed.
Lemma b1_loops d w rest : gap w -> nb rest -> forall acc p, at_ p (w ++ rest) -> exists l, L d j_b1 None (-1) acc p l (p + length w).
Proof.
  intros Hw Hr. induction Hw as [|b w Hb Hw IH]; intros acc p Hp.
  - exists acc. rewrite Nat.add_0_r. apply loops_end. by eapply b1_no.
  - cbn [app length] in *. destruct (b1_yes d b _ p Hp Hb) as [v Hv]. destruct (IH (acc ++ [v]) (S p)) as [l Hl]; [by apply at_cons in Hp|].
    exists l. rewrite Nat.add_succ_r. by eapply loops_more; [exact Hv|done|exact Hl].
Qed.
Lemma g_gap d w rest p : gap w -> nb rest -> at_ p (w ++ rest) -> exists v, G d (rc "_") p (Some (v, p + length w)).
Proof.
  intros Hw Hr Hp.
  assert (exists v, G d j_gap p (Some (v, p + length w))) as [v Hv].
  2: { exists v. eapply g_ref; [by left|apply rule_gap|exact Hv]. }
  destruct Hw as [|b w Hb Hw].
  - eexists. cbn [length]. rewrite Nat.add_0_r. apply g_ot; [done|].
    eapply (does_pat_none _ _ _ _ _ _ j_b1 None (-1) (-1)); [done|]. by eapply b1_no.
  - cbn [app length] in *. destruct (b1_yes d b _ p Hp Hb) as [v Hv].
    destruct (b1_loops d w rest Hw Hr [v] (S p)) as [l Hl]; [by apply at_cons in Hp|].
    eexists. rewrite Nat.add_succ_r. apply g_ot; [done|].
    eapply (does_pat_some _ _ _ _ _ _ j_b1 None (-1) (-1)); [done|exact Hv|exact Hl].
Qed.
Lemma g_gap0 d p rest : nb rest -> at_ p rest -> exists v, G d (rc "_") p (Some (v, p)).
Proof.
  intros Hr Hp. destruct (g_gap d [] rest p ltac:(constructor) Hr Hp) as [v Hv]. exists v. by rewrite Nat.add_0_r in Hv.
Qed.
(** Where no gap may be. *)
Lemma g_nogap_yes d p rest : nb rest -> at_ p rest -> exists v, G d (an "" false false (KNot (rcw "__"))) p (Some (v, p)).
Proof.
  intros Hr Hp. eexists. apply g_an; [done|by left|]. eapply does_not; [done|]. eapply g_ref; [by left|apply rule_gap1|]. apply g_ot; [done|].
  apply (does_pat_none _ _ _ _ d _ j_b1 None 1 (-1)); [done|]. by eapply b1_no.
Qed.
Lemma g_nogap_no d p w rest : gap w -> w <> [] -> nb rest -> at_ p (w ++ rest) -> G d (an "" false false (KNot (rcw "__"))) p None.
Proof.
  intros Hw Hw0 Hr Hp. apply g_an; [done|by left|]. destruct Hw as [|b w Hb Hw]; [done|].
  cbn [app length] in *. destruct (b1_yes d b _ p Hp Hb) as [v Hv].
  destruct (b1_loops d w rest Hw Hr [v] (S p)) as [l Hl]; [by apply at_cons in Hp|].
  assert (L d j_b1 None (-1) [v] (S p) l (S p + length w)) as Hl' by exact Hl.
  assert (1 <= length l) as Hlen.
  { clear -Hl. destruct Hl as [f0 Hf]. specialize (Hf f0 (max f0 1) (le_n _) ltac:(lia)).
    assert (forall k acc p l e, std_loop (std jrules joeson_rx (jcbf re_ok mk) text f0 d) k j_b1 None (-1) acc p = Some (l, e) -> length acc <= length l) as HM.
    { induction k as [|k IH]; intros acc q l1 e; cbn [std_loop]; [done|].
      destruct (std jrules joeson_rx (jcbf re_ok mk) text f0 d j_b1 q) as [[[a q']|]|]; [|intros [= <- <-]; lia|done].
      change (enough (-1) (S (length acc))) with false. cbv iota. intros H%IH. rewrite app_length in H. cbn in H. lia. }
    apply HM in Hf. exact Hf. }
  eapply does_not_fail; [done|]. eapply g_ref; [by left|apply rule_gap1|]. apply g_ot; [done|].
  pose proof (does_pat_some _ _ _ _ d j_gap1 j_b1 None 1 (-1) p v (S p) l (S p + length w) eq_refl Hv Hl) as HD.
  assert (too_few 1 (length l) = false) as HT by (unfold too_few; lia). rewrite HT in HD. exact HD.
Qed.

(** ** Words and numbers *)
Definition no_letter (s : bytes) : Prop := match head s with Some b => alpha_b b = false | None => True end.
Definition no_alnum (s : bytes) : Prop := match head s with Some b => alnum_b b = false | None => True end.
Lemma name_split nm : name nm -> exists b r, s2b nm = b :: r /\ alpha_b b = true /\ forallb alnum_b r = true.
Proof.
  unfold name. destruct (s2b nm) as [|b r]; [done|]. intros [Hb Hr]. exists b, r. split; [done|]. split; [by apply letter_b|].
  apply forallb_forall. intros c Hc. rewrite Forall_forall in Hr. apply elem_of_list_In in Hc. unfold alnum_b.
  destruct (Hr c Hc) as [H|H]; [by rewrite letter_b|]. rewrite digit_b_of by done. apply orb_true_r.
Qed.
Lemma g_word d nm rest p : name nm -> no_alnum rest -> at_ p (s2b nm ++ rest) -> G d j_WORD p (Some (VStr (s2b nm), p + length (s2b nm))).
Proof.
  intros (b & r & -> & Hb & Hr)%name_split Hn Hp. apply g_ot; [done|]. eapply does_regex; [done|].
  unfold rgx. unfold Gives.at_ in Hp. rewrite Hp. unfold joeson_rx. change (bytes_eqb re_word re_word) with true. cbv iota. cbn [app find_run]. rewrite Hb.
  rewrite run_len_all by done. cbn [Nat.add take]. by rewrite take_app.
Qed.
Lemma g_word_no d rest p : no_letter rest -> at_ p rest -> G d j_WORD p None.
Proof.
  intros Hn Hp. apply g_ot; [done|]. eapply does_regex; [done|]. unfold rgx. unfold Gives.at_ in Hp. rewrite Hp. unfold joeson_rx.
  change (bytes_eqb re_word re_word) with true. cbv iota. pose proof (find_run_zero alpha_b alnum_b rest _ Hn eq_refl) as H.
  by destruct (find_run alpha_b alnum_b rest 0) as [[[] ?]|].
Qed.
Lemma g_int d s z rest p : s <> [] -> Forall digit s -> atoi s = Some z -> match head rest with Some b => digit_b b = false | None => True end ->
  at_ p (s ++ rest) -> G d j_INT p (Some (VInt z, p + length s)).
Proof.
  intros Hs Hd Hz Hr Hp. eapply (gives_plain _ _ _ _ _ _ _ (Some (VStr s, p + length s))); [done|done| |].
  2: { cbn. unfold jcbf. cbn [jval]. by rewrite Hz. }
  eapply does_regex; [done|]. unfold rgx. unfold Gives.at_ in Hp. rewrite Hp. unfold joeson_rx. change (bytes_eqb re_int re_word) with false. change (bytes_eqb re_int re_int) with true.
  cbv iota. destruct Hd as [|b s Hb Hd]; [done|]. cbn [app find_run]. rewrite digit_b_of by done.
  rewrite run_len_all; [|apply forallb_forall; intros c Hc; rewrite Forall_forall in Hd; apply digit_b_of, Hd; by apply elem_of_list_In|done].
  cbn [Nat.add take]. by rewrite take_app.
Qed.
Lemma g_int_no d rest p : match head rest with Some b => digit_b b = false | None => True end -> at_ p rest -> G d j_INT p None.
Proof.
  intros Hr Hp. eapply (gives_plain _ _ _ _ _ _ _ None); [done|done| |done].
  eapply does_regex; [done|]. unfold rgx. unfold Gives.at_ in Hp. rewrite Hp. unfold joeson_rx. change (bytes_eqb re_int re_word) with false. change (bytes_eqb re_int re_int) with true.
  cbv iota. pose proof (find_run_zero digit_b digit_b rest _ Hr eq_refl) as H.
  by destruct (find_run digit_b digit_b rest 0) as [[[] ?]|].
Qed.

(** ** Characters in quotes *)
Lemma g_any d r b rest p : utf8 r b -> at_ p (b ++ rest) -> G d j_any p (Some (VStr b, p + length b)).
Proof.
  intros Hu Hp. apply g_ot; [done|]. eapply does_regex; [done|]. unfold rgx. unfold Gives.at_ in Hp. rewrite Hp. unfold joeson_rx.
  change (bytes_eqb re_any re_word) with false. change (bytes_eqb re_any re_int) with false. change (bytes_eqb re_any re_any) with true.
  cbv iota. pose proof (utf8_nonempty _ _ Hu) as Hb. rewrite (decode_rune_spec r b rest Hu). destruct b as [|c b]; [done|]. cbn [app snd].
  change (c :: b ++ rest) with ((c :: b) ++ rest). by rewrite take_app.
Qed.
(** One character, plain or after a backslash. *)
Lemma g_ch_plain d stop esc m r b rest p : jrules esc = Some m -> (m = j_ESC1 \/ m = j_ESC2) -> (stop < 128)%N -> utf8 r b -> r <> stop -> r <> 92%N ->
  at_ p (b ++ rest) -> G d (j_ch stop esc) p (Some (VStr b, p + length b)).
Proof.
  intros Hm Hmm Hst Hu H1 H2 Hp. pose proof (utf8_nonempty _ _ Hu) as Hb0. destruct b as [|c b]; [done|].
  assert (c <> stop) as Hc1 by (intros ->; by apply H1, (utf8_head r (stop :: b) stop)).
  assert (c <> 92%N) as Hc2 by (intros ->; by apply H2, (utf8_head r (92%N :: b) 92%N)).
  apply g_an; [done|by left|]. eapply does_single; [done|].
  eapply singles_cons; [apply g_an; [done|by left|]; eapply does_not; [done|]; eapply g_lit_no; [by left|exact Hp|cbn; congruence]|].
  cbn [i_capture n_info an]. eapply singles_cons.
  - apply g_an; [done|by left|]. eapply does_choice; [done|]. apply alts_next.
    + eapply g_ref; [by left|exact Hm|].
      assert (D d m p None) as HD.
      { destruct Hmm as [-> | ->]; (eapply does_single; [done|]); apply singles_fail; (eapply g_lit_no; [by left|exact Hp|cbn; congruence]). }
      destruct Hmm as [-> | ->]; [by apply g_ot|]. by eapply (gives_plain _ _ _ _ _ _ _ None).
    + apply alts_take. eapply g_ref; [by left|apply rule_any|]. by eapply g_any.
  - apply singles_nil.
Qed.
Definition esc_val (m : node) (b : bytes) : bytes := match i_cb (n_info m) with Some _ => s2b "\" ++ b | None => b end.
Lemma g_ch_esc d stop esc m r b rest p : jrules esc = Some m -> (m = j_ESC1 \/ m = j_ESC2) -> stop <> 92%N -> utf8 r b ->
  at_ p ((92 :: b)%N ++ rest) -> G d (j_ch stop esc) p (Some (VStr (esc_val m b), p + S (length b))).
Proof.
  intros Hm Hmm Hst Hu Hp. apply g_an; [done|by left|]. eapply does_single; [done|]. cbn [app] in Hp.
  eapply singles_cons; [apply g_an; [done|by left|]; eapply does_not; [done|]; eapply g_lit_no; [by left|exact Hp|cbn; congruence]|].
  cbn [i_capture n_info an].
  apply (singles_cons _ _ _ _ _ _ _ _ _ (VStr (esc_val m b)) (p + S (length b))); [|apply (singles_nil _ _ _ _ d (Some (VStr (esc_val m b))))].
  apply g_an; [done|by left|]. eapply does_choice; [done|]. apply alts_take. eapply g_ref; [by left|exact Hm|].
  assert (D d m p (Some (VStr b, p + S (length b)))) as HD.
  { destruct Hmm as [-> | ->]; (eapply does_single; [done|]); (eapply singles_cons; [eapply g_lit1; [by left|exact Hp]|]); cbn [i_capture n_info an lt];
      apply at_cons in Hp; (eapply singles_cons; [eapply g_ref; [by left|apply rule_any|by eapply g_any]|]); cbn [i_capture n_info an rf];
      replace (p + S (length b)) with (S p + length b) by lia; apply (singles_nil _ _ _ _ d (Some (VStr b))). }
  destruct Hmm as [-> | ->].
  - by apply g_ot.
  - eapply (gives_plain _ _ _ _ d j_ESC2 p); [done|done|exact HD|]. done.
Qed.
Lemma g_ch_stop d stop esc rest p : at_ p (stop :: rest) -> G d (j_ch stop esc) p None.
Proof.
  intros Hp. apply g_an; [done|by left|]. eapply does_single; [done|]. apply singles_fail. apply g_an; [done|by left|].
  eapply does_not_fail; [done|]. eapply g_lit1; [by left|exact Hp].
Qed.
End Text.
