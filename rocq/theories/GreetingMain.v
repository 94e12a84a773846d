(** ParseString with the greeting grammars. *)
From stdpp Require Import sets.
From Verif Require Import Base Helpers Utf8 Utf8Proofs Stream StreamSpec Native Engine EngSpec EngInv Toy Peg PegProofs PegRep PegBody PegStd PegStdProofs
  RunSpec PegLaws PegRun Build BuildSpec BuildMain Joeson JoesonSpec JoesonRun Calc CalcRun CalcSpec CalcPeg CalcMain Brave LispRead LispReadPeg LispReadText LispReadTop Gives
  Color ColorRun ColorSpec Readers ColorPeg ColorMain Games GamesSpec GamesPeg GamesMain Greeting GreetingRun GreetingSpec.
Local Open Scope list_scope.

Definition g_name (v : val) : option val := match v with VArr l => match strs l with Some s => Some (VStr s) | None => None end | _ => None end.
Definition greet_cbf (f pos : nat) (v : val) : option (option val) :=
  match f with
  | 0 => match g_name v with Some w => Some (Some w) | None => None end
  | 1 => match v with VStr s => Some (Some (VStr s)) | _ => None end
  | _ => None
  end.
Lemma greet_keeps E f : e_cb E = greet_cb -> cb_keeps E greet_cbf f.
Proof.
  intros HE p h x v P Hr _. rewrite HE. destruct f as [|[|f]]; cbn [greet_cbf greet_cb]; [| |done].
  - destruct Hr as [| | | |l l' Hl| | |]; try done. cbn [g_name]. destruct (strs l') as [s|] eqn:ES; [|done].
    rewrite (strs_rep_S _ _ _ _ _ _ Hl ES). exists h, (Some (AStr s)). split; [done|]. split; [apply hext_refl|]. eexists. split; [done|constructor].
  - destruct Hr as [s| | | | | | |]; try done. exists h, (Some (AStr s)). split; [done|]. split; [apply hext_refl|]. eexists. split; [done|constructor].
Qed.
Lemma greet_rx_ok re : rx_ok (greet_rx re).
Proof.
  intros s a b H. unfold greet_rx in H. destruct (bytes_eqb re _); [|done].
  apply leftmost_in in H; [lia|]. intros x n Hx. apply class_length in Hx. lia.
Qed.

(** ** The nodes *)
Definition e_sp (i : nat) : node := rl "_" false i None (KPat (nd "" false true (KStr [32%N])) None (-1) (-1)).
Definition e_name (i : nat) : node := rl "NAME" true i (Some 0) (KPat (o_class re_letter) None (-1) (-1)).
Definition e_in (nm : string) (c : option nat) : node := rl nm true 2 c (KSeq TSingle [o_lit (s2b "hi"); n_sp; rf "NAME"]).
Definition e_top (nm : string) (c : option nat) : node := Node (Info "my grammar" "" true false 0 true None false false) (KChoice [e_in nm c]).
Lemma greet_nodes :
  greet1 = (e_top "INPUT" None, [("_", e_sp 0); ("NAME", e_name 1); ("INPUT", e_in "INPUT" None)]%string) /\
  greet2 = (e_top "INPUT" (Some 1), [("NAME", e_name 0); ("_", e_sp 1); ("INPUT", e_in "INPUT" (Some 1))]%string) /\
  greet3 = (e_top "my grammar[0]" (Some 1), [("NAME", e_name 0); ("_", e_sp 1); ("my grammar[0]", e_in "my grammar[0]" (Some 1))]%string).
Proof. done. Qed.
Definition space_b (b : N) : bool := (b =? 32)%N.
Definition f_space : reader := r_star (m_class space_b).
Definition f_name : reader := r_cb g_name (r_star (m_class letter_b)).
Definition f_greet : reader := r_single [(false, r_lit (s2b "hi")); (false, f_space); (true, f_name)] None.
Lemma name_inv s v k : f_name s = Some (v, k) -> exists n, s = n ++ drop k s /\ k = length n /\ v = VStr n /\ Forall (fun b => letter_b b = true) n.
Proof.
  unfold f_name, r_cb. destruct (r_star _ s) as [[u j]|] eqn:E; [|done]. apply star_inv in E as (w & Hs & -> & -> & Hw & _).
  unfold chars. cbn [g_name]. rewrite strs_chars. intros [= <- <-]. by exists w.
Qed.
Lemma greet_value s v k : f_greet s = Some (v, k) -> exists n, v = VStr n.
Proof.
  unfold f_greet. intros (v1 & k1 & k2 & _ & H & _)%single_inv. apply single_inv in H as (v3 & k3 & k4 & _ & H & _).
  apply single_inv in H as (v5 & k5 & k6 & HN & H & _). apply name_inv in HN as (n & _ & _ & -> & _). cbn [r_single default] in H. injection H as <- _. by exists n.
Qed.
Section Text.
Variable text : bytes.
Variable rules : string -> option node.
Variables i j : nat.
Hypothesis Hsp : rules "_"%string = Some (e_sp i).
Hypothesis Hname : rules "NAME"%string = Some (e_name j).
Notation reads := (Readers.reads rules greet_rx greet_cbf text).
Lemma space_reads d : reads d (nd "" false true (KStr [32%N])) (r_re (m_class space_b)).
Proof.
  assert (reads d (nd "" false true (KStr [32%N])) (r_lit [32%N])) as H by (apply reads_bare; [done|done|by split; [|left]|]; by apply doing_lit).
  intros p s Hp. specialize (H p s Hp). enough (r_re (m_class space_b) s = r_lit [32%N] s) as -> by done.
  unfold r_re, r_lit, m_class, space_b. destruct s as [|b s]; [done|]. cbn [length take]. rewrite take_0.
  destruct (N.eqb_spec b 32) as [-> |Hb]; [by rewrite bool_decide_true|]. rewrite bool_decide_false; [done|]. by intros [= ->].
Qed.
Lemma greet_reads nm c : c = None \/ c = Some 1 -> reads 3 (e_top nm c) f_greet.
Proof.
  intros Hc.
  assert (Readers.doing rules greet_rx greet_cbf text 2 (e_in nm c) f_greet) as HD.
  { eapply doing_single; [reflexivity|]. constructor; [split; [done|]; apply reads_bare; [done|done|by split; [|left]|]; by apply doing_lit|].
    constructor; [split; [done|]; apply reads_bare; [done|done|by split; [|left]|]|].
    - eapply doing_ref; [reflexivity|exact Hsp|]. apply reads_rule; [done|done|by split; [|left]|]. eapply doing_star; [reflexivity|apply class_length|apply space_reads].
    - constructor; [|constructor]. split; [done|]. apply reads_bare; [done|done|by split; [|left]|]. eapply doing_ref; [reflexivity|exact Hname|].
      apply (reads_cb _ _ _ _ _ _ _ _ 0); [done|done|done|done| |].
      + eapply doing_star; [reflexivity|apply class_length|]. apply reads_bare; [done|done|by split; [|left]|]. by eapply doing_re.
      + intros q s v k p _ Hv. apply star_inv in Hv as (w & _ & _ & -> & _). cbn [greet_cbf]. unfold chars. cbn [g_name]. by rewrite strs_chars. }
  assert (reads 3 (e_in nm c) f_greet) as H.
  { destruct Hc as [-> | ->]; [apply reads_rule; [done|done|by split; [|left]|exact HD]|].
    pose proof (reads_cb rules greet_rx greet_cbf text 2 (e_in nm (Some 1)) f_greet (fun v => Some v) 1 ltac:(done) eq_refl eq_refl eq_refl HD) as H.
    intros p s Hp. specialize (H ltac:(intros q s' v k p' _ (n & ->)%greet_value; done) p s Hp).
    unfold r_cb in H. by destruct (f_greet s) as [[v k]|]. }
  intros p s Hp. apply gives_bare; [done|done|by split; [|left]|]. eapply does_choice; [reflexivity|].
  specialize (H p s Hp). destruct (f_greet s) as [[v k]|]; [by apply alts_take|]. apply alts_next; [done|]. apply alts_nil.
Qed.
End Text.

(** ** Texts *)
Lemma letter_is b : letter_b b = true <-> a_letter b.
Proof. unfold letter_b, a_letter. rewrite orb_true_iff, !andb_true_iff, !N.leb_le. lia. Qed.
Lemma spaces w : Forall (fun b => space_b b = true) w <-> w = repeat 32%N (length w).
Proof.
  induction w as [|b w IH]; [done|]. cbn [length repeat]. split.
  - intros H. inversion H as [|x l Hb Hw]; subst. apply N.eqb_eq in Hb as ->. f_equal. by apply IH.
  - intros [= -> H]. constructor; [done|]. by apply IH.
Qed.
Lemma greet_sound s v : f_greet s = Some (v, length s) -> exists k n, greets s k n.
Proof.
  unfold f_greet. intros (v1 & k1 & k2 & H1 & H & E1)%single_inv. apply lit_inv in H1 as [Hs ->].
  apply single_inv in H as (v3 & k3 & k4 & H3 & H & ->). apply star_inv in H3 as (w & Hw & -> & _ & Hf & _).
  apply single_inv in H as (v5 & k5 & k6 & HN & H & ->). apply name_inv in HN as (n & Hn & -> & _ & Hl). cbn [r_single] in H. injection H as _ <-.
  exists (length w), n. split; [|eapply Forall_impl; [exact Hl|]; apply letter_is]. rewrite <- (proj1 (spaces w) Hf).
  rewrite (drop_ge _ (length n)), app_nil_r in Hn; [by rewrite <- Hn, <- Hw, <- Hs|]. rewrite !drop_length. lia.
Qed.
Lemma greet_complete s k n : greets s k n -> f_greet s = Some (VStr n, length s).
Proof.
  intros [-> Hn]. unfold f_greet. cbn [r_single]. rewrite lit_yes, drop_here. unfold f_space. rewrite star_here.
  - rewrite drop_here. unfold f_name, r_cb. pose proof (star_here letter_b n []) as HS. rewrite app_nil_r in HS.
    rewrite HS; [|eapply Forall_impl; [exact Hn|]; apply letter_is|done]. unfold chars. cbn [g_name]. rewrite strs_chars.
    change (default VUndef (Some (VStr n))) with (VStr n). f_equal. f_equal. rewrite !app_length. lia.
  - apply spaces. by rewrite repeat_length.
  - intros b Hb. destruct Hn as [|c n Hc _]; [done|]. injection Hb as ->. unfold space_b. apply N.eqb_neq. unfold a_letter in Hc. lia.
Qed.

(** ** ParseString *)
Section Run.
Variable o : popts.
Hypothesis Ho : po_debug o = false.
Variable b : built.
Hypothesis Hb : b = greet1 \/ b = greet2 \/ b = greet3.
Notation parse fuel s := (fst (parse_string fuel (gram_of b) o greet_rx greet_cb s)).
Lemma greet_run s : exists fuel0, forall fuel, fuel0 <= fuel ->
  match f_greet s with
  | Some (v, e) =>
      if e =? length s then exists x s', parse fuel s = Ok (Some x) s' /\ rep [] (s_heap s') x v
      else exists k s', parse fuel s = Ok (Some (AErr k)) s' /\ e <= k <= length s
  | None =>
      if 0 =? length s then exists s', parse fuel s = Ok None s'
      else exists k s', parse fuel s = Ok (Some (AErr k)) s' /\ k <= length s
  end.
Proof.
  assert (Gives.gives (g_rule (gram_of b)) greet_rx greet_cbf s 3 (fst b) 0 (f_greet s)) as HG.
  { assert (forall r nm c i j, g_rule r "_" = Some (e_sp i) -> g_rule r "NAME" = Some (e_name j) -> c = None \/ c = Some 1 ->
      Gives.gives (g_rule r) greet_rx greet_cbf s 3 (e_top nm c) 0 (f_greet s)) as HG.
    { intros r nm c i j Hi Hj Hc. pose proof (greet_reads s (g_rule r) i j Hi Hj nm c Hc 0 s eq_refl) as H. by destruct (f_greet s) as [[v k]|]. }
    destruct greet_nodes as (E1 & E2 & E3).
    destruct Hb as [-> |[-> | ->]]; [rewrite E1|rewrite E2|rewrite E3]; (eapply HG; [reflexivity|reflexivity|by auto]). }
  refine (gen_run b o Ho greet_rx greet_cb greet_cbf greet_rx_ok _ _ _ s 3 _ HG _).
  - intros f. left. by apply greet_keeps.
  - destruct greet_names_once as (N1 & N2 & N3). destruct greet_no_singles as (S1 & S2 & S3). destruct greet_eq as (E1 & E2 & E3).
    destruct Hb as [-> |[-> | ->]].
    + pose proof (ready greet_compile 300 "my grammar" greet1_lines greet1 E1 N1 S1 ltac:(done) ltac:(by vm_compute) o greet_rx greet_cb) as (H1 & H2 & H3 & _); exact (conj H1 (conj H2 H3)).
    + pose proof (ready greet_compile 300 "my grammar" greet2_lines greet2 E2 N2 S2 ltac:(done) ltac:(by vm_compute) o greet_rx greet_cb) as (H1 & H2 & H3 & _); exact (conj H1 (conj H2 H3)).
    + pose proof (ready greet_compile 300 "my grammar" greet3_lines greet3 E3 N3 S3 ltac:(done) ltac:(by vm_compute) o greet_rx greet_cb) as (H1 & H2 & H3 & _); exact (conj H1 (conj H2 H3)).
  - by destruct Hb as [-> |[-> | ->]]; vm_compute.
  - unfold stack_limit. lia.
Qed.
Lemma greet_answer s k n : greets s k n -> exists fuel0, forall fuel, fuel0 <= fuel -> exists s', parse fuel s = Ok (Some (AStr n)) s'.
Proof.
  intros H. destruct (greet_run s) as (f0 & HF). exists f0. intros fuel Hl. specialize (HF fuel Hl).
  rewrite (greet_complete s k n H), Nat.eqb_refl in HF. destruct HF as (x & s' & Hx & Hr). exists s'. inversion Hr; subst. exact Hx.
Qed.
Lemma greet_others s : (forall k n, ~ greets s k n) -> exists fuel0, forall fuel, fuel0 <= fuel -> exists s',
  match s with
  | [] => parse fuel s = Ok None s'
  | _ => exists k, parse fuel s = Ok (Some (AErr k)) s' /\ k <= length s
  end.
Proof.
  intros Hno. destruct (greet_run s) as (f0 & Hf). exists f0. intros fuel Hl. specialize (Hf fuel Hl).
  destruct (f_greet s) as [[v q]|] eqn:EF.
  - destruct (Nat.eqb_spec q (length s)) as [-> |Hq]; [apply greet_sound in EF as (k & n & H); by destruct (Hno k n)|].
    destruct Hf as (k & s' & Hx & Hk). exists s'. destruct s as [|c s]; [cbn in Hk, Hq; lia|]. exists k. split; [exact Hx|lia].
  - destruct s as [|c s]; [destruct Hf as (s' & Hx); by exists s'|]. destruct Hf as (k & s' & Hx & Hk). exists s'. by exists k.
Qed.
End Run.
