(** The engine computes the semantics of Peg.v: the cases of everything but rules. *)
From stdpp Require Import sets.
From Verif Require Import Base Helpers Utf8 Utf8Proofs Stream StreamSpec StreamProofs Native NativeSpec NativeProofs
  Engine EngSpec EngInv EngMon Peg PegProofs PegRep PegInv PegBody.

Section Cases.
Variable E : env.
Variable c0 : code.
Variable root : node.
Variable cbf : nat -> nat -> val -> option (option val).
Variable R : nat -> node.
Variable par : nat -> option nat.
Notation N := (e_nrules E).
Notation G := (GI (fun _ _ => false) N c0).
Notation GR := (GR N c0 (fun _ _ => false)).
Notation skips i := (i_skip (n_info (R i)) = true).
Notation Inv := (Inv E c0 cbf R par).
Notation reach := (reach E root).
Notation pre := (pre E c0 cbf R par).
Notation postx := (postx E c0 cbf R par).
Notation post := (postx []).
Notation posto := (posto E c0 cbf R par).
Notation ok := (ok E c0 root cbf R par).

Hypothesis Hrx : forall re, rx_ok (e_rx E re).
Hypothesis Hlines : code_lines_ok c0.
Hypothesis Hfit : ids_fit E root.
Hypothesis HR : forall n, reach n -> is_rule n -> R (i_id (n_info n)) = n.
Hypothesis Hpar : forall i F, par i = Some F -> par F = None /\ i_skip (n_info (R F)) = false.
Hypothesis Hcb : cb_pure E root cbf.

(** Bodies whose result is not a new map. *)
Lemma ok_body c n p t h r : makes_map n = false ->
  (forall P acts s, Forall reach (children n) -> ctx_of acts = c -> pre P acts p h s ->
     s_stack s <> [] \/ (exists l, n_kind n = KChoice l /\ Forall is_rule l) ->
     ev (fun f lf => body E (parse E f) lf n) s (post P acts t r s)) -> ok c (JBody n) p t h r.
Proof.
  intros Hm H P acts s H1 H2 H3 H4. eapply ev_weaken; [by apply H|]. intros x s' Hx. rewrite Hm. by apply post_posto.
Qed.

Lemma ok_undef c n p : n_kind n = KUndef -> ok c (JNode n) p false 0 (Some (VUndef, p)).
Proof.
  intros Hk P acts s Hr Hc HP Hs. exists 1, (Some AUndef), s. split.
  - eapply post_nil; [exact HP|]. exists AUndef. split; [done|]. split; [constructor|apply HP].
  - intros f lf Hf _. destruct f as [|f]; [lia|]. cbn [parse]. by rewrite Hk.
Qed.

Lemma reach_children n : reach n -> Forall reach (children n).
Proof. intros H. apply Forall_forall. intros x Hx. by eapply reach_child. Qed.

Lemma ok_plain c n p t h r r' : n_kind n <> KUndef -> i_isrule (n_info n) = false ->
  ok c (JBody n) p t h r -> prepared cbf (n_info n) r = Some r' -> ok c (JNode n) p t h r'.
Proof.
  intros Hk Hir HB Hprep P acts s Hr Hc HP Hs. apply ev_parse; [done|]. unfold wrap. rewrite Hir.
  destruct ((negb (String.eqb (i_label (n_info n)) "") && i_wraps (n_info n)) ||
    match i_cb (n_info n) with Some _ => true | None => false end)%bool eqn:EW.
  - assert (s_stack s <> []) as Hne.
    { destruct Hs as [Hs|[Hs|(l & _ & El & Ec & _)]]; [done|congruence|]. by rewrite El, Ec in EW. }
    apply (ev_diag (fun f lf => prepare_result E (body E (parse E f) lf n) n)).
    eapply (prep_ev _ _ _ _ _ _ Hrx Hlines Hfit HR Hpar Hcb); [exact Hprep|done|exact HP|done|]. intros s1 HP1 Hs1. apply HB; [by apply reach_children|done|done|].
    left. by rewrite Hs1.
  - apply orb_false_iff in EW as [EW1 EW2].
    assert (r' = r) as ->.
    { destruct r as [[v e]|]; cbn in Hprep; [|congruence]. destruct (i_cb (n_info n)); [done|].
      unfold labelled in Hprep. rewrite EW1 in Hprep. congruence. }
    apply (ev_diag (fun f lf => body E (parse E f) lf n)). eapply ev_weaken.
    2: { intros x s'. apply (posto_post _ _ _ _ _ _ Hrx Hlines Hfit HR Hpar Hcb). }
    apply HB; [by apply reach_children|done|done|].
    destruct Hs as [Hs|[Hs|(l & Hl & _ & _ & Hall)]]; [by left|congruence|]. right. by exists l.
Qed.

(** ** Leaves *)
Lemma pre_G P acts p h s : pre P acts p h s -> G s.
Proof. intros HP. apply HP. Qed.
(** Moving forward. *)
Lemma pre_move P acts p h s q v x : pre P acts p h s -> p <= q <= length (c_work c0) -> rep P (s_heap s) x v ->
  post P acts false (Some (v, q)) s (Some x) (set_code s (c_with_pos c0 q)).
Proof.
  intros HP Hq Hrep. pose proof (pre_G _ _ _ _ _ HP) as HG. pose proof (pr_pos _ _ _ _ _ _ _ _ _ _ HP) as Hpos. subst p.
  assert (GR s (set_code s (c_with_pos c0 q))) as HR1.
  { split; [apply G_move_ge; [done|lia..]|]. split; [apply set_code_ext|]. rewrite st_pos_set_code. lia. }
  split; [|done|apply hext_refl|].
  - rewrite touch_false. eapply (Inv_heap _ _ _ _ _ Hpar); [apply HP|apply HR1|done|done|apply hext_refl].
  - exists x. split; [done|]. split; [done|]. apply st_pos_set_code.
Qed.
Lemma pre_code P acts p h s : pre P acts p h s -> c_wf (s_code s) /\ c_work (s_code s) = c_work c0 /\ c_pos (s_code s) = p /\
  (forall q, c_with_pos (s_code s) q = c_with_pos c0 q) /\ p <= length (c_work c0) /\ set_code s (s_code s) = s.
Proof.
  intros HP. pose proof (pre_G _ _ _ _ _ HP) as HG. pose proof (pr_pos _ _ _ _ _ _ _ _ _ _ HP) as Hpos. subst p.
  split; [|split; [|split; [|split; [|split]]]].
  - rewrite (gi_code _ _ _ _ HG). unfold c_wf. rewrite c_with_pos_pos, c_with_pos_work. apply HG.
  - rewrite (gi_code _ _ _ _ HG). apply c_with_pos_work.
  - done.
  - intros q. rewrite (gi_code _ _ _ _ HG). apply c_with_pos_twice.
  - apply HG.
  - by destruct s.
Qed.

Lemma ok_str c n p b : n_kind n = KStr b -> ok c (JBody n) p false 0 (lit (c_work c0) b p).
Proof.
  intros Hk. apply ok_body; [by unfold makes_map; rewrite Hk|]. intros P acts s Hr Hc HP Hs. unfold body. rewrite Hk.
  destruct (pre_code _ _ _ _ _ HP) as (Hwf & HW & Hcp & HC & Hple & Hsame).
  unfold lit. case_bool_decide as HT.
  - eapply ev_ok.
    + rewrite c_match_string_eq by done. rewrite HW, Hcp, HT.
      destruct (bytes_eqb_spec b b) as [_|Hbb]; [|by destruct Hbb]. rewrite HC. reflexivity.
    + eapply pre_move; [exact HP| |constructor].
      apply (f_equal length) in HT. rewrite take_length, drop_length in HT. lia.
  - eapply ev_ok.
    + rewrite c_match_string_eq by done. rewrite HW, Hcp.
      destruct (bytes_eqb_spec b (take (length b) (drop p (c_work c0)))) as [Heq|_]; [congruence|]. rewrite Hsame. reflexivity.
    + by eapply post_nil.
Qed.

Lemma ok_regex c n p re : n_kind n = KRegex re -> ok c (JBody n) p false 0 (rgx (e_rx E) (c_work c0) re p).
Proof.
  intros Hk. apply ok_body; [by unfold makes_map; rewrite Hk|]. intros P acts s Hr Hc HP Hs. unfold body. rewrite Hk.
  destruct (pre_code _ _ _ _ _ HP) as (Hwf & HW & Hcp & HC & Hple & Hsame).
  unfold rgx. destruct (e_rx E re (drop p (c_work c0))) as [[[|a] l]|] eqn:ER.
  - eapply ev_ok.
    + rewrite c_match_regexp_eq by done. rewrite HW, Hcp, ER, HC. cbn beta iota. unfold slice.
      replace (p + l - p) with l by lia. reflexivity.
    + eapply pre_move; [exact HP| |constructor].
      apply Hrx in ER. rewrite drop_length in ER. lia.
  - eapply ev_ok; [|by eapply post_nil].
    rewrite c_match_regexp_eq by done. rewrite HW, Hcp, ER, Hsame. reflexivity.
  - eapply ev_ok; [|by eapply post_nil].
    rewrite c_match_regexp_eq by done. rewrite HW, Hcp, ER, Hsame. reflexivity.
Qed.

Lemma ok_ref c n m p name t h r : n_kind n = KRef name -> e_rule E name = Some m ->
  ok c (JNode m) p t h r -> ok c (JBody n) p t h r.
Proof.
  intros Hk Hrule HN. apply ok_body; [by unfold makes_map; rewrite Hk|]. intros P acts s Hr Hc HP Hs. unfold body. rewrite Hk, Hrule.
  destruct Hs as [Hne|(l & Hl & _)]; [|congruence].
  assert (exists f, stack_peek s = Ok f s) as [f Hf].
  { unfold stack_peek. destruct (s_stack s) as [|a stk] eqn:ES; [congruence|].
    destruct (G_stack_valid N c0 _ s a (pre_G _ _ _ _ _ HP)) as (f & Hf & _); [rewrite ES; left|]. unfold get_fr. rewrite Hf. eauto. }
  eapply (ev_step stack_peek (fun _ f lf => parse E f m)); [exact Hf|].
  apply HN; [by eapply reach_rule|done|done|by left].
Qed.

(** ** Sequences *)
Lemma pre_max1 P acts p h h' s : pre P acts p (max h h') s -> pre P acts p h s.
Proof. intros H. eapply pre_le; [done..|lia]. Qed.
Lemma pre_max2 P acts p h h' s : pre P acts p (max h h') s -> pre P acts p h' s.
Proof. intros H. eapply pre_le; [done..|lia]. Qed.

(** A child that fails ends the whole. *)
Lemma ev_child {B} n c p t h r P acts s (k : option ast -> nat -> nat -> M B) Q :
  ok c (JNode n) p t h r -> reach n -> ctx_of acts = c -> pre P acts p h s -> s_stack s <> [] \/ top_ok n ->
  (forall x s1, post P acts t r s x s1 -> ev (k x) s1 Q) ->
  ev (fun f lf => do! x := parse E f n in k x f lf) s Q.
Proof.
  intros HN Hr Hc HP Hs HK. apply (ev_bind (fun f _ => parse E f n) k). eapply ev_weaken; [by apply HN|]. cbn beta. apply HK.
Qed.
(** Where the rest starts after a child. *)
Lemma post_pre P acts p h s t r x s1 : pre P acts p h s -> post P acts t r s x s1 -> pre P (touch t acts) (st_pos s1) h s1.
Proof. intros HP HQ. eapply pre_post; [exact HP|apply HQ|apply HQ]. Qed.
Lemma post_stack P acts s t r x s1 : post P acts t r s x s1 -> s_stack s1 = s_stack s.
Proof. intros HQ. eapply GR_stack, HQ. Qed.

Ltac child HN := eapply (ev_child _ _ _ _ _ _ _ _ _ (fun x f lf => _)); [exact HN|done|done|done|by left|]; cbn beta.

Lemma post_fail P acts t s x s1 : post P acts t None s x s1 -> x = None.
Proof. by intros [_ _ _ H]. Qed.
Lemma post_some P acts t v e s x s1 : post P acts t (Some (v, e)) s x s1 ->
  exists y, x = Some y /\ rep P (s_heap s1) y v /\ st_pos s1 = e.
Proof. by intros [_ _ _ H]. Qed.

Lemma ok_single c n l p t h r : n_kind n = KSeq TSingle l -> ok c (JSingle l None) p t h r -> ok c (JBody n) p t h r.
Proof.
  intros Hk HL. apply ok_body; [by unfold makes_map; rewrite Hk|]. intros P acts s Hr Hc HP Hs. unfold body. rewrite Hk. unfold children in Hr. rewrite Hk in Hr.
  destruct Hs as [Hne|(l' & Hl & _)]; [|congruence]. by apply HL.
Qed.
Lemma ok_array c n l p t h r : n_kind n = KSeq TArray l -> ok c (JArray l []) p t h r -> ok c (JBody n) p t h r.
Proof.
  intros Hk HL. apply ok_body; [by unfold makes_map; rewrite Hk|]. intros P acts s Hr Hc HP Hs. unfold body. rewrite Hk. unfold children in Hr. rewrite Hk in Hr.
  destruct Hs as [Hne|(l' & Hl & _)]; [|congruence]. apply HL; try done. constructor.
Qed.
Lemma ok_object c n l p t h r : n_kind n = KSeq TObject l -> ok c (JObject l MNone) p t h r -> ok c (JBody n) p t h r.
Proof.
  intros Hk HL P acts s Hr Hc HP Hs. unfold body. rewrite Hk. unfold children in Hr. rewrite Hk in Hr.
  destruct Hs as [Hne|(l' & Hl & _)]; [|congruence]. unfold makes_map. rewrite Hk.
  assert (own_rep P (s_heap s) MNone None None) as Ho by (split; [done|by left]).
  pose proof (HL P acts s None None Hr Hc HP Hne Ho) as HE. by destruct l.
Qed.

Lemma ok_single_nil c acc p : ok c (JSingle [] acc) p false 0 (Some (default VUndef acc, p)).
Proof.
  intros P acts s x _ Hc HP Hne Hacc. apply ev_ret. eapply post_nil; [exact HP|].
  destruct acc as [v|], x as [y|]; try done; (eexists; split; [done|]; split; [|apply HP]); [done|constructor].
Qed.
Lemma ok_single_fail c n l acc p t h : ok c (JNode n) p t h None -> ok c (JSingle (n :: l) acc) p t h None.
Proof.
  intros HN P acts s x Hl Hc HP Hne Hacc. apply Forall_cons in Hl as [Hn Hl]. cbn [seq_single].
  child HN. intros y s1 H1. pose proof (post_fail _ _ _ _ _ _ H1) as ->. by apply ev_ret.
Qed.
Lemma ok_single_cons c n l acc p t t' h h' v q r : ok c (JNode n) p t h (Some (v, q)) ->
  ok c (JSingle l (if i_capture (n_info n) then Some v else acc)) q t' h' r ->
  ok c (JSingle (n :: l) acc) p (t || t')%bool (max h h') r.
Proof.
  intros HN HL P acts s x Hl Hc HP Hne Hacc. apply Forall_cons in Hl as [Hn Hl]. cbn [seq_single].
  pose proof (pre_max1 _ _ _ _ _ _ HP) as HP1. pose proof (pre_max2 _ _ _ _ _ _ HP) as HP2.
  child HN. intros y0 s1 H1. destruct (post_some _ _ _ _ _ _ _ _ H1) as (y & -> & Hy & <-).
  eapply ev_weaken; [apply HL|].
  - done.
  - by rewrite touch_ctx.
  - by eapply post_pre.
  - by rewrite (post_stack _ _ _ _ _ _ _ H1).
  - destruct (i_capture (n_info n)); [done|]. destruct acc as [w|], x as [z|]; try done.
    cbn. eapply rep_hext; [exact Hacc|apply H1|set_solver].
  - intros z s2 H2. eapply post_trans; [exact H1|exact H2].
Qed.

Lemma ok_array_nil c acc p : ok c (JArray [] acc) p false 0 (Some (VArr acc, p)).
Proof.
  intros P acts s x _ Hc HP Hne Hacc. apply ev_ret. eapply post_nil; [exact HP|].
  eexists; split; [done|]. split; [by constructor|apply HP].
Qed.
Lemma ok_array_fail c n l acc p t h : ok c (JNode n) p t h None -> ok c (JArray (n :: l) acc) p t h None.
Proof.
  intros HN P acts s x Hl Hc HP Hne Hacc. apply Forall_cons in Hl as [Hn Hl]. cbn [seq_array].
  child HN. intros y s1 H1. pose proof (post_fail _ _ _ _ _ _ H1) as ->. by apply ev_ret.
Qed.
Lemma ok_array_cons c n l acc p t t' h h' v q r : ok c (JNode n) p t h (Some (v, q)) ->
  ok c (JArray l (if i_capture (n_info n) then acc ++ [v] else acc)) q t' h' r ->
  ok c (JArray (n :: l) acc) p (t || t')%bool (max h h') r.
Proof.
  intros HN HL P acts s x Hl Hc HP Hne Hacc. apply Forall_cons in Hl as [Hn Hl]. cbn [seq_array].
  pose proof (pre_max1 _ _ _ _ _ _ HP) as HP1. pose proof (pre_max2 _ _ _ _ _ _ HP) as HP2.
  child HN. intros y0 s1 H1. destruct (post_some _ _ _ _ _ _ _ _ H1) as (y & -> & Hy & <-).
  assert (reps P (s_heap s1) (rev x) acc) as Hacc1 by (eapply reps_hext; [exact Hacc|apply H1|set_solver]).
  eapply ev_weaken; [apply HL|].
  - done.
  - by rewrite touch_ctx.
  - by eapply post_pre.
  - by rewrite (post_stack _ _ _ _ _ _ _ H1).
  - destruct (i_capture (n_info n)); [|done]. cbn. apply reps_app; [done|]. by repeat constructor.
  - intros z s2 H2. eapply post_trans; [exact H1|exact H2].
Qed.

(** Objects. *)
Lemma hext_hext_but X h h' : hext h h' -> hext_but X h h'.
Proof. intros H. eapply hext_weaken; [exact H|set_solver]. Qed.
Lemma posto_trans X P' P acts t t' r1 r new s x1 s1 x s2 : post P' acts t r1 s x1 s1 -> posto X P (touch t acts) t' r new s1 x s2 ->
  posto X P acts (t || t') r new s x s2.
Proof.
  intros [A1 A2 A3 A4] (own & B1 & B2 & B3 & B4 & B5 & B6). exists own. split; [by rewrite <- touch_touch|]. split; [by eapply GR_trans|].
  split; [eapply hext_trans; [by apply hext_hext_but|exact B3]|]. split; [done|]. split; [|done].
  intros a Ha. destruct (B5 a Ha) as (kv & e & H1 & H2 & H3 & H4). exists kv, e. split; [done|]. split; [done|]. split; [done|].
  destruct H4 as [H4|H4]; [by left|]. right. destruct A3. lia.
Qed.

Lemma ok_object_nil c m p : ok c (JObject [] m) p false 0 (Some (made_val m, p)).
Proof.
  intros P acts s own x _ Hc HP Hne Hacc. apply ev_ret. exists own. split; [rewrite touch_false; apply HP|].
  split; [apply GR_refl, HP|]. split; [apply hext_hext_but, hext_refl|]. split; [|split].
  - destruct m as [|kv|v]; cbn in Hacc.
    + destruct Hacc as [-> [-> | ->]]; exists AUndef; (split; [done|]; split; [constructor|apply HP]).
    + destruct Hacc as (a & -> & -> & Ha & m & at_ & Hm & Hk & Hnd & Hf). exists (AObj a). split; [done|]. split; [|apply HP].
      eapply rep_map; [done|exact Hm|done|done|]. eapply repf_weaken; [exact Hf|set_solver].
    + destruct Hacc as (-> & _ & y & -> & Hy). exists y. split; [done|]. split; [done|apply HP].
  - intros a ->. destruct m as [|kv|v]; [by destruct Hacc| |by destruct Hacc]. destruct Hacc as (a' & [= <-] & -> & Ho).
    exists kv, p. split; [done|]. split; [done|]. split; [done|]. left. set_solver.
  - intros Hn _. destruct m; [done| |done]. by destruct Hacc as (a & -> & _).
Qed.
Lemma ok_object_fail c n l m p t h : ok c (JNode n) p t h None -> ok c (JObject (n :: l) m) p t h None.
Proof.
  intros HN P acts s own x Hl Hc HP Hne Hacc. apply Forall_cons in Hl as [Hn Hl]. cbn [seq_object].
  child HN. intros y s1 H1. pose proof (post_fail _ _ _ _ _ _ H1) as ->. apply ev_ret. exists None.
  split; [eapply (Inv_shrink _ _ _ _ _ _ Hrx Hlines Hfit HR Hpar Hcb), H1|]. split; [apply H1|]. split; [apply hext_hext_but, H1|]. done.
Qed.
Lemma owned_map_hext P h h' a kv : owned_map P h a kv -> hext h h' -> owned_map P h' a kv.
Proof.
  intros (Ha & m & at_ & Hm & Hk & Hnd & Hf) HX. split; [done|].
  destruct (proj2 HX a _ (not_elem_of_nil a) Hm) as ([b at'] & Ho & Eb). cbn in Eb.
  destruct Eb as [-> |(? & ? & ? & ? & _)]; [|done].
  exists m, at'. split; [done|]. split; [done|]. split; [done|]. eapply repf_hext; [exact Hf|exact HX|set_solver].
Qed.
Lemma own_rep_hext P m x own h h' : own_rep P h m x own -> hext h h' -> own_rep P h' m x own.
Proof.
  destruct m as [|kv|v]; [done| |].
  - intros (a & -> & -> & Ho) HX. exists a. split; [done|]. split; [done|]. by eapply owned_map_hext.
  - intros (-> & Hv & y & -> & Hy) HX. split; [done|]. split; [done|]. exists y. split; [done|]. eapply rep_hext; [exact Hy|exact HX|set_solver].
Qed.
Lemma first_proper_cons n l : first_proper (n :: l) =
  if String.eqb (i_label (n_info n)) "" then first_proper l
  else negb (String.eqb (i_label (n_info n)) "@" || String.eqb (i_label (n_info n)) "&").
Proof. done. Qed.
Lemma owned_joined n l m v m' : joined (i_label (n_info n)) m v = Some m' -> owned m (n :: l) = true -> owned m' l = true.
Proof.
  unfold joined. destruct m as [|kv|w]; cbn [owned]; [rewrite first_proper_cons| |done];
    destruct (String.eqb (i_label (n_info n)) ""); try (by intros [= <-]).
  - destruct (_ || _)%bool; [done|]. by intros [= <-].
  - destruct (_ || _)%bool; [|by intros [= <-]]. destruct (String.eqb _ _); [|done]. destruct v; try done; by intros [= <-].
Qed.

(** Copying the keys of another map. *)
Lemma merge_keys_rep P a b m2 at2 kv2 : a <> b -> forall ks s kv, owned_map P (s_heap s) a kv -> s_heap s !! b = Some (Obj (OMap m2) at2) ->
  ks = kv2.*1 -> repf (a :: P) (s_heap s) m2 kv2 ->
  exists h2, merge_keys a b ks s = Ok tt (set_heap s h2) /\ hext_but [a] (s_heap s) h2 /\ owned_map P h2 a (kv_all kv kv2).
Proof.
  intros Hab. induction kv2 as [|[k v] kv2 IH]; intros ks s kv Ho Hb -> Hf.
  { exists (s_heap s). split; [by destruct s|]. split; [apply hext_refl|done]. }
  inversion Hf as [|m0 k0 v0 kv0 x Hx Hr Hf']; subst. destruct Ho as (Ha & m & at_ & Hm & Hk & Hnd & Hfm).
  set (h1 := <[a := Obj (OMap (nm_set m k x)) at_]> (s_heap s)).
  assert (hext_but [a] (s_heap s) h1) as Hx1 by (apply hext_write; left).
  destruct (IH kv2.*1 (set_heap s h1) (kv_set kv k v)) as (h2 & Hm2 & Hx2 & Ho2).
  - split; [done|]. exists (nm_set m k x), at_. split.
    { cbn. unfold h1. apply list_lookup_insert. by eapply lookup_lt_Some. }
    apply set_rep; [done|done| |].
    + cbn. eapply repf_hext; [exact Hfm|exact Hx1|set_solver].
    + cbn. eapply rep_hext; [exact Hr|exact Hx1|set_solver].
  - cbn. unfold h1. by rewrite list_lookup_insert_ne.
  - done.
  - cbn. eapply repf_hext; [exact Hf'|exact Hx1|set_solver].
  - exists h2. split; [|split; [|exact Ho2]].
    + cbn [merge_keys fmap list_fmap fst]. unfold bind at 1, bind at 1, read_obj. rewrite Hb. cbn [o_body].
      unfold nm_get_or_panic. rewrite Hx. cbn [lift]. unfold bind at 1, lift. cbn. unfold bind at 1, read_obj. rewrite Hm. cbn [o_body o_attr].
      unfold write_obj. fold h1. rewrite Hm2. by destruct s.
    + eapply hext_trans; [exact Hx1|exact Hx2].
Qed.

Lemma is_undefined_obj P h y v : rep P h y v -> v <> VUndef -> is_undefined (Some y) = false.
Proof. intros H Hv. by destruct H. Qed.
Lemma set_heap_same s : set_heap s (s_heap s) = s.
Proof. by destruct s. Qed.

Lemma joined_step P acts lab m v m' own x y s : joined lab m v = Some m' -> own_rep P (s_heap s) m x own ->
  rep (opt_list own ++ P) (s_heap s) y v -> Inv (opt_list own ++ P) acts s ->
  exists x' own' h2, add_labelled lab x y s = Ok x' (set_heap s h2) /\ own_rep P h2 m' x' own' /\
    Inv (opt_list own' ++ P) acts (set_heap s h2) /\ hext_but (opt_list own) (s_heap s) h2 /\
    (own' = own \/ (own = None /\ exists a, own' = Some a /\ length (s_heap s) <= a)).
Proof.
  intros Hj Ho Hy HI.
  assert (forall (C : M (option ast)) x' own' m1, C s = Ok x' s -> own' = own -> m' = m1 -> own_rep P (s_heap s) m1 x' own' ->
    exists x' own' h2, C s = Ok x' (set_heap s h2) /\ own_rep P h2 m' x' own' /\
    Inv (opt_list own' ++ P) acts (set_heap s h2) /\ hext_but (opt_list own) (s_heap s) h2 /\
    (own' = own \/ (own = None /\ exists a, own' = Some a /\ length (s_heap s) <= a))) as Hsame.
  { intros C x' own' m1 H1 -> -> H2. exists x', own, (s_heap s). rewrite set_heap_same. split; [done|]. split; [done|]. split; [done|].
    split; [apply hext_refl|by left]. }
  assert (forall h2, core c0 s (set_heap s h2)) as HC by done.
  unfold joined in Hj. unfold add_labelled in *.
  destruct (String.eqb_spec lab "") as [-> |L1].
  { injection Hj as <-. eapply (Hsame _ x); [done|done|done|done]. }
  destruct (String.eqb_spec lab "@") as [-> |L2]; cbn [orb String.eqb Ascii.eqb Bool.eqb] in *.
  { destruct m as [|kv|w].
    - destruct Ho as [-> Hx]. cbn in Hy.
      assert (is_undefined x = true) as -> by (destruct Hx as [-> | ->]; done).
      eapply (Hsame _ (Some y)); [done|done|reflexivity|]. injection Hj as <-. destruct Hy; cbn; try (split; [done|]; split; [done|]; eexists; split; [done|]; by econstructor).
      split; [done|by right].
    - destruct Ho as (a & -> & -> & Ho). cbn [is_undefined].
      destruct v as [| | | |kv2| | |]; try done; injection Hj as <-.
      + inversion Hy; subst. eapply (Hsame _ (Some (AObj a))); [done|done|done|]. exists a. done.
      + inversion Hy as [| | | | | |b m2 at2 kv2' Hb Hm2 Hk2 Hnd2 Hf2|]; subst.
        cbn [opt_list app] in *.
        destruct (merge_keys_rep P a b m2 at2 kv2) with (ks := kv2.*1) (s := s) (kv := kv) as (h2 & Hmk & Hx2 & Ho2); [set_solver|done|done|done|done|].
        exists (Some (AObj a)), (Some a), h2. split.
        { unfold bind at 1, merge. unfold bind at 1, type_of, read_obj at 1. unfold bind at 1. rewrite Hm2. cbn [o_body ret].
          destruct Ho as (Ha & m & at_ & Hm & _). unfold bind at 1. unfold bind at 1, read_obj. rewrite Hm. cbn [o_body ret].
          unfold bind. rewrite (proj1 Hk2), Hmk. done. }
        split; [by exists a|]. split; [|split; [done|by left]].
        eapply Inv_same; [exact HI|eapply G_core; [apply HC|apply HI]|done|done| |].
        * eapply Forall_impl; [apply (iv_P _ _ _ _ _ _ _ _ HI)|]. cbn. intros b' Hb'. destruct Hx2. cbn in *. lia.
        * intros z w Hz. cbn. eapply rep_hext; [exact Hz|exact Hx2|set_solver].
    - destruct v; try done. injection Hj as <-. destruct Ho as (-> & Hw & z & -> & Hz). inversion Hy; subst.
      rewrite (is_undefined_obj _ _ _ _ Hz Hw). eapply (Hsame _ (Some z)); [done|done|done|]. split; [done|]. split; [done|]. by exists z. }
  destruct (String.eqb_spec lab "&") as [-> |L3]; cbn [orb String.eqb Ascii.eqb Bool.eqb] in *.
  { destruct m as [|kv|w]; [|done|].
    - destruct Ho as [-> Hx]. cbn in Hy.
      assert (is_undefined x = true) as -> by (destruct Hx as [-> | ->]; done).
      eapply (Hsame _ (Some y)); [done|done|reflexivity|]. injection Hj as <-. destruct Hy; cbn; try (split; [done|]; split; [done|]; eexists; split; [done|]; by econstructor).
      split; [done|by right].
    - destruct w as [| | | |[|[k [sl| | | | | | |]] [|]]| | |]; try done. destruct v as [| | | | |tg args [|]| |]; try done.
      destruct (String.eqb_spec k "label") as [-> |]; [|done]. cbn [andb] in Hj. destruct (tag_label tg) as [lb|] eqn:EM; [|done].
      destruct (String.eqb_spec lb (b2s sl)) as [-> |]; [|done]. injection Hj as <-.
      destruct Ho as (-> & Hw & z & -> & Hz). cbn [opt_list app] in *.
      inversion Hz as [| | | | | |b m2 at2 kv2' Hb Hm2 Hk2 Hnd2 Hf2|]; subst.
      inversion Hf2 as [|m0 k0 v0 kv0 x0 Hx0 Hr0 Hf0]; subst. inversion Hr0; subst.
      inversion Hy as [| | | | | | |a t0 l l' lb0 lb' at_ Ha Hm Hl Hst]; subst.
      set (h2 := <[a := Obj (OParser tg l (b2s sl)) at_]> (s_heap s)).
      assert (hext (s_heap s) h2) as Hx2.
      { eapply hext_attr; [exact Hm|]. cbn. destruct Hst as [-> |[_ Hst]].
        - right. by exists tg, l, (b2s sl).
        - rewrite EM in Hst. injection Hst as <-. by left. }
      exists (Some (AObj a)), None, h2. split; [|split; [|split; [|split; [done|by left]]]].
      + cbn [is_undefined]. unfold bind at 1, merge. unfold bind at 1, type_of, read_obj at 1. unfold bind at 1. rewrite Hm2. cbn [o_body ret].
        unfold bind at 1. unfold bind at 1, read_obj at 1. rewrite Hm. cbn [o_body ret]. destruct Hk2 as [Hk2 _]. cbn in Hk2. rewrite Hk2. cbn [merge_label String.eqb Ascii.eqb Bool.eqb].
        unfold nm_get_or_panic. rewrite Hx0. unfold bind at 1, lift. unfold bind at 1. unfold bind at 1. unfold bind at 1. unfold read_obj. rewrite Hm. cbn [o_body o_attr].
        done.
      + split; [done|]. split; [done|]. exists (AObj a). split; [done|]. eapply (rep_parser _ _ a tg l args (b2s sl) (b2s sl) at_).
        * done.
        * unfold h2. apply list_lookup_insert. by eapply lookup_lt_Some.
        * eapply reps_hext; [exact Hl|exact Hx2|set_solver].
        * by left.
      + eapply (Inv_heap _ _ _ _ _ Hpar); [exact HI|eapply G_core; [apply HC|apply HI]|done|done|exact Hx2]. }
  destruct m as [|kv|w]; [| |done]; injection Hj as <-.
  - destruct Ho as [-> Hx]. cbn [opt_list app] in *.
    assert (is_undefined x = true) as -> by (destruct Hx as [-> | ->]; done).
    set (a := length (s_heap s)). set (h2 := s_heap s ++ [Obj (OMap (nm_set nm_empty lab y)) attr0]).
    assert (hext (s_heap s) h2) as Hx2 by apply hext_app.
    assert (Forall (fun a => a < length (s_heap s)) P) as HPl by apply (iv_P _ _ _ _ _ _ _ _ HI).
    assert (a ∉ P) as HaP.
    { intros Hin. rewrite Forall_forall in HPl. specialize (HPl _ Hin). unfold a in HPl. lia. }
    assert (forall z w, rep P (s_heap s) z w -> rep (a :: P) h2 z w) as Hup.
    { intros z w Hz. eapply rep_hext; [eapply rep_fresh; [exact Hz|done]|exact Hx2|set_solver]. }
    exists (Some (AObj a)), (Some a), h2. split; [done|]. split; [|split; [|split; [done|right; split; [done|by exists a]]]].
    + exists a. split; [done|]. split; [done|]. split; [done|]. exists (nm_set nm_empty lab y), attr0. split.
      { cbn. unfold h2, a. by rewrite lookup_app_r, Nat.sub_diag by lia. }
      apply (set_rep _ _ nm_empty [] lab y v); [by split|constructor|constructor|by apply Hup].
    + eapply Inv_same; [exact HI|eapply G_core; [apply HC|apply HI]|done|done| |exact Hup].
      cbn. unfold h2. rewrite app_length. cbn. apply Forall_cons. split; [unfold a; lia|].
      eapply Forall_impl; [exact HPl|]. cbn. lia.
  - destruct Ho as (a & -> & -> & Ha & m & at_ & Hm & Hk & Hnd & Hf). cbn [opt_list app is_undefined] in *.
    set (h2 := <[a := Obj (OMap (nm_set m lab y)) at_]> (s_heap s)).
    assert (hext_but [a] (s_heap s) h2) as Hx2 by (apply hext_write; left).
    exists (Some (AObj a)), (Some a), h2. split; [|split; [|split; [|split; [done|by left]]]].
    + unfold bind, read_obj, write_obj, ret. by rewrite Hm.
    + exists a. split; [done|]. split; [done|]. split; [done|]. exists (nm_set m lab y), at_. split.
      { unfold h2. apply list_lookup_insert. by eapply lookup_lt_Some. }
      apply set_rep; [done|done| |].
      * eapply repf_hext; [exact Hf|exact Hx2|set_solver].
      * eapply rep_hext; [exact Hy|exact Hx2|set_solver].
    + eapply Inv_same; [exact HI|eapply G_core; [apply HC|apply HI]|done|done| |].
      * pose proof (iv_P _ _ _ _ _ _ _ _ HI) as HPl. cbn. unfold h2. by rewrite insert_length.
      * intros z w Hz. eapply rep_hext; [exact Hz|exact Hx2|set_solver].
Qed.

Lemma ok_object_cons c n l m m' p t t' h h' v q r : ok c (JNode n) p t h (Some (v, q)) ->
  joined (i_label (n_info n)) m v = Some m' -> ok c (JObject l m') q t' h' r ->
  ok c (JObject (n :: l) m) p (t || t')%bool (max h h') r.
Proof.
  intros HN Hj HL P acts s own x Hl Hc HP Hne Hacc. apply Forall_cons in Hl as [Hn Hl]. cbn [seq_object].
  pose proof (pre_max1 _ _ _ _ _ _ HP) as HP1. pose proof (pre_max2 _ _ _ _ _ _ HP) as HP2.
  child HN. intros y0 s1 H1. destruct (post_some _ _ _ _ _ _ _ _ H1) as (y & -> & Hy & Hq).
  assert (pre (opt_list own ++ P) (touch t acts) q h' s1) as HP3 by (rewrite <- Hq; by eapply post_pre).
  destruct (joined_step P (touch t acts) _ _ _ _ own x y s1 Hj) as (x' & own' & h2 & Hadd & Ho' & HI' & Hx' & Hown).
  { eapply own_rep_hext; [exact Hacc|apply H1]. }
  { done. }
  { apply H1. }
  eapply (ev_step _ (fun acc' f lf => seq_object (parse E f) l acc')); [exact Hadd|].
  eapply ev_weaken.
  - apply (HL P (touch t acts) (set_heap s1 h2) own' x').
    + done.
    + by rewrite touch_ctx.
    + destruct HP3 as [Q1 Q2 Q3 Q4 Q5]. by split.
    + cbn. by rewrite (post_stack _ _ _ _ _ _ _ H1).
    + done.
  - intros z s3 (own3 & B1 & B2 & B3 & B4 & B5 & B6). destruct H1 as [A1 A2 A3 A4].
    assert (length (s_heap s) <= length (s_heap s1)) as HL1 by apply A3.
    assert (length (s_heap s1) <= length h2) as HL2 by apply Hx'. cbn [s_heap set_heap] in *.
    exists own3. split; [by rewrite <- touch_touch|]. split; [|split; [|split; [done|split]]].
    + eapply GR_trans; [exact A2|]. eapply GR_trans; [|exact B2]. apply GR_core; [apply A2|done].
    + assert (hext_but (opt_list own) (s_heap s) h2) as H02 by (eapply hext_trans; [by apply hext_hext_but|exact Hx']).
      destruct Hown as [-> |(-> & a & -> & Ha)]; [by eapply hext_trans|].
      apply (hext_drop [] a); [|lia]. eapply hext_trans; [by apply hext_hext_but|exact B3].
    + intros a Ha. destruct (B5 a Ha) as (kv & e & E1 & E2 & E3 & E4). exists kv, e. split; [done|]. split; [done|]. split; [done|].
      destruct E4 as [E4|E4]; [|right; lia]. destruct Hown as [-> |(-> & b & -> & Hb)]; [by left|]. right. apply elem_of_list_singleton in E4 as ->. lia.
    + intros Hnew. apply B6. by eapply owned_joined.
Qed.

(** ** Choices *)
Lemma ok_choice c n l p t h r : n_kind n = KChoice l -> ok c (JAlt l) p t h r -> ok c (JBody n) p t h r.
Proof.
  intros Hk HL. apply ok_body; [by unfold makes_map; rewrite Hk|]. intros P acts s Hr Hc HP Hs. unfold body. rewrite Hk. unfold children in Hr. rewrite Hk in Hr.
  apply HL; [done..|]. destruct Hs as [Hne|(l' & Hl & Ha)]; [by left|]. right. rewrite Hk in Hl. by injection Hl as ->.
Qed.
Lemma ok_alt_nil c p : ok c (JAlt []) p false 0 None.
Proof. intros P acts s Hl Hc HP Hs. apply ev_ret. by eapply post_nil. Qed.
Lemma alt_first n l s : s_stack s <> [] \/ Forall is_rule (n :: l) -> s_stack s <> [] \/ top_ok n.
Proof. intros [H|H]; [by left|]. apply Forall_cons in H as [H _]. right. by left. Qed.
Lemma ok_alt_take c n l p t h v e : ok c (JNode n) p t h (Some (v, e)) -> ok c (JAlt (n :: l)) p t h (Some (v, e)).
Proof.
  intros HN P acts s Hl Hc HP Hs. apply Forall_cons in Hl as [Hn Hl]. cbn [choice_loop].
  eapply (ev_step get_pos (fun p f lf => _)); [reflexivity|].
  eapply (ev_child _ _ _ _ _ _ _ _ _ (fun x f lf => _)); [exact HN|done|done|done|by eapply alt_first|]. cbn beta.
  intros y s1 H1. destruct (post_some _ _ _ _ _ _ _ _ H1) as (z & -> & _). by apply ev_ret.
Qed.

(** Back at the start after a child. *)
Lemma post_back P acts p h s t r x s1 : pre P acts p h s -> post P acts t r s x s1 ->
  exists s2, set_pos (st_pos s) s1 = Ok tt s2 /\ s_heap s2 = s_heap s1 /\ st_pos s2 = p /\
    forall r' x', gives P r' x' s2 -> post P acts t r' s x' s2.
Proof.
  intros HP H1. pose proof (pr_pos _ _ _ _ _ _ _ _ _ _ HP) as Hpos. rewrite Hpos.
  destruct (pre_back _ _ _ _ _ Hpar _ _ _ _ _ _ _ HP (po_inv _ _ _ _ _ _ _ _ _ _ _ _ _ H1) (po_GR _ _ _ _ _ _ _ _ _ _ _ _ _ H1))
    as (s2 & H2 & HI & HGR & Hh & Hp). exists s2. split; [done|]. split; [done|]. split; [done|].
  intros r' x' Hg. split; [done|done|rewrite Hh; apply H1|done].
Qed.

Lemma ok_alt_next c n l p t t' h h' r : ok c (JNode n) p t h None -> ok c (JAlt l) p t' h' r ->
  ok c (JAlt (n :: l)) p (t || t')%bool (max h h') r.
Proof.
  intros HN HL P acts s Hl Hc HP Hs. apply Forall_cons in Hl as [Hn Hl]. cbn [choice_loop].
  pose proof (pre_max1 _ _ _ _ _ _ HP) as HP1. pose proof (pre_max2 _ _ _ _ _ _ HP) as HP2.
  eapply (ev_step get_pos (fun p f lf => _)); [reflexivity|].
  eapply (ev_child _ _ _ _ _ _ _ _ _ (fun x f lf => _)); [exact HN|done|done|done|by eapply alt_first|]. cbn beta.
  intros y s1 H1. pose proof (post_fail _ _ _ _ _ _ H1) as ->.
  destruct (post_back _ _ _ _ _ _ _ _ _ HP H1) as (s2 & Hs2 & Hh & Hp2 & Hpost).
  specialize (Hpost None None eq_refl).
  eapply (ev_step _ (fun _ f lf => choice_loop (parse E f) l)); [exact Hs2|].
  eapply ev_weaken; [apply HL|].
  - done.
  - by rewrite touch_ctx.
  - rewrite <- Hp2. by eapply post_pre.
  - rewrite (post_stack _ _ _ _ _ _ _ Hpost). destruct Hs as [Hs|Hs]; [by left|]. right. by apply Forall_cons in Hs as [_ Hs].
  - intros z s3 H3. eapply post_trans; [exact Hpost|exact H3].
Qed.

(** ** Repetitions *)
Lemma ok_pat_none c n v j mn mx p t h : n_kind n = KPat v j mn mx -> ok c (JNode v) p t h None ->
  ok c (JBody n) p t h (if (0 <? mn)%Z then None else Some (VArr [], p)).
Proof.
  intros Hk HN. apply ok_body; [by unfold makes_map; rewrite Hk|]. intros P acts s Hr Hc HP Hs. unfold body. rewrite Hk. unfold children in Hr. rewrite Hk in Hr.
  destruct Hs as [Hne|(l' & Hl & _)]; [|congruence]. apply Forall_cons in Hr as [Hv Hj].
  eapply (ev_step get_pos (fun p f lf => _)); [reflexivity|]. child HN.
  intros y s1 H1. pose proof (post_fail _ _ _ _ _ _ H1) as ->.
  destruct (post_back _ _ _ _ _ _ _ _ _ HP H1) as (s2 & Hs2 & Hh & Hp2 & Hpost).
  eapply (ev_step _ (fun _ f lf => _)); [exact Hs2|]. cbn beta. destruct (0 <? mn)%Z; apply ev_ret, Hpost; [done|].
  exists (AArr []). split; [done|]. split; [repeat constructor|done].
Qed.
Lemma rev_length_reps P hp x l : reps P hp (rev x) l -> length x = length l.
Proof. intros H. apply reps_length in H. by rewrite rev_length in H. Qed.
Lemma ok_pat_some c n v j mn mx p t t' h h' a q l e : n_kind n = KPat v j mn mx ->
  ok c (JNode v) p t h (Some (a, q)) -> ok c (JLoop v j mx [a]) q t' h' (Some (VArr l, e)) ->
  ok c (JBody n) p (t || t')%bool (max h h') (if too_few mn (length l) then None else Some (VArr l, e)).
Proof.
  intros Hk HN HL. apply ok_body; [by unfold makes_map; rewrite Hk|]. intros P acts s Hr Hc HP Hs. unfold body. rewrite Hk. unfold children in Hr. rewrite Hk in Hr.
  destruct Hs as [Hne|(l' & Hl & _)]; [|congruence]. apply Forall_cons in Hr as [Hv Hj].
  pose proof (pre_max1 _ _ _ _ _ _ HP) as HP1. pose proof (pre_max2 _ _ _ _ _ _ HP) as HP2.
  eapply (ev_step get_pos (fun p f lf => _)); [reflexivity|]. child HN.
  intros y0 s1 H1. destruct (post_some _ _ _ _ _ _ _ _ H1) as (y & -> & Hy & <-).
  apply (ev_bind (fun f lf => pat_loop (parse E f) lf v j mx [y]) (fun ms f lf => _)).
  eapply ev_weaken; [apply (HL P (touch t acts))|].
  - done.
  - done.
  - by rewrite touch_ctx.
  - by eapply post_pre.
  - by rewrite (post_stack _ _ _ _ _ _ _ H1).
  - by repeat constructor.
  - cbn beta. intros ms s2 H2. pose proof (post_trans _ _ _ _ _ _ _ _ _ _ _ _ _ _ _ _ H1 H2) as H3.
    destruct (post_some _ _ _ _ _ _ _ _ H3) as (z & [= <-] & Hz & Hp). assert (reps P (s_heap s2) (rev ms) l) as Hms by (by inversion Hz).
    pose proof (rev_length_reps _ _ _ _ Hms) as Hlen. unfold too_few. rewrite Hlen.
    destruct ((-1 <? mn) && (Z.of_nat (length l) <? mn))%Z%bool.
    + destruct (post_back _ _ _ _ _ _ _ _ _ HP H3) as (s3 & Hs3 & Hh & Hp3 & Hpost).
      eapply (ev_step _ (fun _ f lf => ret None)); [exact Hs3|]. apply ev_ret. by apply Hpost.
    + by apply ev_ret.
Qed.

(** One round of the loop. *)
Lemma ev_loop v j mx x s Q :
  ev (fun f lf => do! pos2 := get_pos in
      do! jr := (match j with
                 | None => ret true
                 | Some jn => do! r := parse E f jn in ret (match r with None => false | Some _ => true end)
                 end) in
      if (jr : bool) then
        do! r := parse E f v in
        match r with
        | None => set_pos pos2 ;! ret x
        | Some a =>
            let acc' := a :: x in
            if ((-1 <? mx) && (mx <=? Z.of_nat (length acc')))%Z%bool then ret acc'
            else pat_loop (parse E f) lf v j mx acc'
        end
      else set_pos pos2 ;! ret x) s Q -> ev (fun f lf => pat_loop (parse E f) lf v j mx x) s Q.
Proof.
  intros (f0 & a & s' & HQ & H). exists (S f0), a, s'. split; [done|]. intros f lf Hf Hlf. destruct lf as [|lf]; [lia|].
  rewrite <- (H f lf) by lia. reflexivity.
Qed.

Lemma loop_end P acts p h s t r x0 s1 acc x : pre P acts p h s -> reps P (s_heap s) (rev x) acc -> post P acts t r s x0 s1 ->
  ev (fun f lf => set_pos (st_pos s) ;! ret x) s1 (fun ms s' => post P acts t (Some (VArr acc, p)) s (Some (AArr (rev ms))) s').
Proof.
  intros HP Hacc H1. destruct (post_back _ _ _ _ _ _ _ _ _ HP H1) as (s2 & Hs2 & Hh & Hp2 & Hpost).
  eapply (ev_step _ (fun _ f lf => ret x)); [exact Hs2|]. apply ev_ret, Hpost. eexists. split; [done|]. split; [|done].
  constructor. rewrite Hh. eapply reps_hext; [exact Hacc|apply H1|set_solver].
Qed.
Lemma loop_add P acts s t r x0 s1 acc x y a : reps P (s_heap s) (rev x) acc -> post P acts t r s x0 s1 -> rep P (s_heap s1) y a ->
  reps P (s_heap s1) (rev (y :: x)) (acc ++ [a]) /\ length (y :: x) = S (length acc).
Proof.
  intros Hacc H1 Hy. pose proof (rev_length_reps _ _ _ _ Hacc) as Hlen. split; [|cbn; lia]. cbn.
  apply reps_app; [|by repeat constructor]. eapply reps_hext; [exact Hacc|apply H1|set_solver].
Qed.

Lemma ok_loop_end c v mx acc p t h : ok c (JNode v) p t h None -> ok c (JLoop v None mx acc) p t h (Some (VArr acc, p)).
Proof.
  intros HN P acts s x Hv Hj Hc HP Hne Hacc. apply ev_loop.
  eapply (ev_step get_pos (fun p f lf => _)); [reflexivity|]. eapply (ev_step (ret true) (fun b f lf => _)); [reflexivity|]. cbn beta iota.
  child HN. intros y s1 H1. pose proof (post_fail _ _ _ _ _ _ H1) as ->. by eapply loop_end.
Qed.
Lemma ok_loop_full c v mx acc p t h a q : ok c (JNode v) p t h (Some (a, q)) -> enough mx (S (length acc)) = true ->
  ok c (JLoop v None mx acc) p t h (Some (VArr (acc ++ [a]), q)).
Proof.
  intros HN Hen P acts s x Hv Hj Hc HP Hne Hacc. apply ev_loop.
  eapply (ev_step get_pos (fun p f lf => _)); [reflexivity|]. eapply (ev_step (ret true) (fun b f lf => _)); [reflexivity|]. cbn beta iota.
  child HN. intros y0 s1 H1. destruct (post_some _ _ _ _ _ _ _ _ H1) as (y & -> & Hy & Hq).
  destruct (loop_add _ _ _ _ _ _ _ _ _ _ _ Hacc H1 Hy) as [Hreps Hlen]. cbv zeta. rewrite Hlen. unfold enough in Hen. rewrite Hen.
  apply ev_ret. split; [apply H1..|]. eexists. split; [done|]. split; [by constructor|done].
Qed.
Lemma ok_loop_more c v mx acc p t t' h h' a q r : ok c (JNode v) p t h (Some (a, q)) -> enough mx (S (length acc)) = false ->
  ok c (JLoop v None mx (acc ++ [a])) q t' h' r -> ok c (JLoop v None mx acc) p (t || t')%bool (max h h') r.
Proof.
  intros HN Hen HL P acts s x Hv Hj Hc HP Hne Hacc. apply ev_loop.
  pose proof (pre_max1 _ _ _ _ _ _ HP) as HP1. pose proof (pre_max2 _ _ _ _ _ _ HP) as HP2.
  eapply (ev_step get_pos (fun p f lf => _)); [reflexivity|]. eapply (ev_step (ret true) (fun b f lf => _)); [reflexivity|]. cbn beta iota.
  child HN. intros y0 s1 H1. destruct (post_some _ _ _ _ _ _ _ _ H1) as (y & -> & Hy & <-).
  destruct (loop_add _ _ _ _ _ _ _ _ _ _ _ Hacc H1 Hy) as [Hreps Hlen]. cbv zeta. rewrite Hlen. unfold enough in Hen. rewrite Hen.
  eapply ev_weaken; [apply (HL P (touch t acts))|].
  - done.
  - done.
  - by rewrite touch_ctx.
  - by eapply post_pre.
  - by rewrite (post_stack _ _ _ _ _ _ _ H1).
  - done.
  - cbn beta. intros ms s2 H2. eapply post_trans; [exact H1|exact H2].
Qed.

(** With a separator. *)
Lemma ok_join_end c v j mx acc p t h : ok c (JNode j) p t h None -> ok c (JLoop v (Some j) mx acc) p t h (Some (VArr acc, p)).
Proof.
  intros HN P acts s x Hv Hj Hc HP Hne Hacc. apply ev_loop. assert (reach j) as Hjr by (by apply Forall_cons in Hj as [? _]).
  eapply (ev_step get_pos (fun p f lf => _)); [reflexivity|].
  apply (ev_bind (fun f _ => do! r := parse E f j in ret (match r with None => false | Some _ => true end)) (fun b f lf => _)).
  child HN. intros y s1 H1. pose proof (post_fail _ _ _ _ _ _ H1) as ->. apply ev_ret. by eapply loop_end.
Qed.
Lemma ok_join_back c v j mx acc p t t' h h' b q : ok c (JNode j) p t h (Some (b, q)) -> ok c (JNode v) q t' h' None ->
  ok c (JLoop v (Some j) mx acc) p (t || t')%bool (max h h') (Some (VArr acc, p)).
Proof.
  intros HN HV P acts s x Hv Hj Hc HP Hne Hacc. apply ev_loop. assert (reach j) as Hjr by (by apply Forall_cons in Hj as [? _]).
  pose proof (pre_max1 _ _ _ _ _ _ HP) as HP1. pose proof (pre_max2 _ _ _ _ _ _ HP) as HP2.
  eapply (ev_step get_pos (fun p f lf => _)); [reflexivity|].
  apply (ev_bind (fun f _ => do! r := parse E f j in ret (match r with None => false | Some _ => true end)) (fun b f lf => _)).
  child HN. intros y0 s1 H1. destruct (post_some _ _ _ _ _ _ _ _ H1) as (y & -> & Hy & <-). apply ev_ret. cbn beta iota.
  assert (s_stack s1 <> []) as Hne1 by (by rewrite (post_stack _ _ _ _ _ _ _ H1)).
  eapply (ev_child _ _ _ _ _ _ _ _ _ (fun x f lf => _)); [exact HV|done|by rewrite touch_ctx|by eapply post_pre|by left|]; cbn beta.
  intros z s2 H2. pose proof (post_fail _ _ _ _ _ _ H2) as ->.
  pose proof (post_trans _ _ _ _ _ _ _ _ _ _ _ _ _ _ _ _ H1 H2) as H3. by eapply loop_end.
Qed.
Lemma ok_join_full c v j mx acc p t t' h h' b q a q' : ok c (JNode j) p t h (Some (b, q)) ->
  ok c (JNode v) q t' h' (Some (a, q')) -> enough mx (S (length acc)) = true ->
  ok c (JLoop v (Some j) mx acc) p (t || t')%bool (max h h') (Some (VArr (acc ++ [a]), q')).
Proof.
  intros HN HV Hen P acts s x Hv Hj Hc HP Hne Hacc. apply ev_loop. assert (reach j) as Hjr by (by apply Forall_cons in Hj as [? _]).
  pose proof (pre_max1 _ _ _ _ _ _ HP) as HP1. pose proof (pre_max2 _ _ _ _ _ _ HP) as HP2.
  eapply (ev_step get_pos (fun p f lf => _)); [reflexivity|].
  apply (ev_bind (fun f _ => do! r := parse E f j in ret (match r with None => false | Some _ => true end)) (fun b f lf => _)).
  child HN. intros y0 s1 H1. destruct (post_some _ _ _ _ _ _ _ _ H1) as (y & -> & Hy & <-). apply ev_ret. cbn beta iota.
  assert (s_stack s1 <> []) as Hne1 by (by rewrite (post_stack _ _ _ _ _ _ _ H1)).
  eapply (ev_child _ _ _ _ _ _ _ _ _ (fun x f lf => _)); [exact HV|done|by rewrite touch_ctx|by eapply post_pre|by left|]; cbn beta.
  intros z0 s2 H2. pose proof (post_trans _ _ _ _ _ _ _ _ _ _ _ _ _ _ _ _ H1 H2) as H3.
  destruct (post_some _ _ _ _ _ _ _ _ H3) as (z & -> & Hz & Hq).
  destruct (loop_add _ _ _ _ _ _ _ _ _ _ _ Hacc H3 Hz) as [Hreps Hlen]. cbv zeta. rewrite Hlen. unfold enough in Hen. rewrite Hen.
  apply ev_ret. split; [apply H3..|]. eexists. split; [done|]. split; [by constructor|done].
Qed.
Lemma ok_join_more c v j mx acc p t t' t'' h h' h'' b q a q' r : ok c (JNode j) p t h (Some (b, q)) ->
  ok c (JNode v) q t' h' (Some (a, q')) -> enough mx (S (length acc)) = false ->
  ok c (JLoop v (Some j) mx (acc ++ [a])) q' t'' h'' r ->
  ok c (JLoop v (Some j) mx acc) p (t || (t' || t''))%bool (max h (max h' h'')) r.
Proof.
  intros HN HV Hen HL P acts s x Hv Hj Hc HP Hne Hacc. apply ev_loop. pose proof Hj as Hj'. assert (reach j) as Hjr by (by apply Forall_cons in Hj as [? _]).
  pose proof (pre_max1 _ _ _ _ _ _ HP) as HP1. pose proof (pre_max2 _ _ _ _ _ _ HP) as HP2.
  eapply (ev_step get_pos (fun p f lf => _)); [reflexivity|].
  apply (ev_bind (fun f _ => do! r := parse E f j in ret (match r with None => false | Some _ => true end)) (fun b f lf => _)).
  child HN. intros y0 s1 H1. destruct (post_some _ _ _ _ _ _ _ _ H1) as (y & -> & Hy & <-). apply ev_ret. cbn beta iota.
  assert (s_stack s1 <> []) as Hne1 by (by rewrite (post_stack _ _ _ _ _ _ _ H1)).
  pose proof (post_pre _ _ _ _ _ _ _ _ _ HP2 H1) as HP3.
  eapply (ev_child _ _ _ _ _ _ _ _ _ (fun x f lf => _)); [exact HV|done|by rewrite touch_ctx|by eapply pre_max1|by left|]; cbn beta.
  intros z0 s2 H2. pose proof (post_trans _ _ _ _ _ _ _ _ _ _ _ _ _ _ _ _ H1 H2) as H3.
  destruct (post_some _ _ _ _ _ _ _ _ H3) as (z & -> & Hz & <-).
  destruct (loop_add _ _ _ _ _ _ _ _ _ _ _ Hacc H3 Hz) as [Hreps Hlen]. cbv zeta. rewrite Hlen. unfold enough in Hen. rewrite Hen.
  rewrite orb_assoc.
  eapply ev_weaken; [apply (HL P (touch (t || t') acts))|].
  - done.
  - done.
  - by rewrite touch_ctx.
  - eapply post_pre; [|exact H3]. eapply pre_max2, HP2.
  - by rewrite (post_stack _ _ _ _ _ _ _ H3).
  - done.
  - cbn beta. intros ms s3 H4. eapply post_trans; [exact H3|exact H4].
Qed.

(** ** Optional, lookahead, negation *)
Ltac unary Hk := unfold body; rewrite Hk;
  match goal with Hr : Forall _ (children _) |- _ => unfold children in Hr; rewrite Hk, Forall_singleton in Hr end;
  match goal with Hs : _ \/ _ |- _ => destruct Hs as [Hne|(l' & Hl & _)]; [|congruence] end;
  eapply (ev_step get_pos (fun p f lf => _)); [reflexivity|].
Lemma ok_exist_none c n a p t h : n_kind n = KExist a -> ok c (JNode a) p t h None -> ok c (JBody n) p t h (Some (VUndef, p)).
Proof.
  intros Hk HN. apply ok_body; [by unfold makes_map; rewrite Hk|]. intros P acts s Hr Hc HP Hs. unary Hk. child HN. intros y s1 H1. pose proof (post_fail _ _ _ _ _ _ H1) as ->.
  destruct (post_back _ _ _ _ _ _ _ _ _ HP H1) as (s2 & Hs2 & Hh & Hp2 & Hpost).
  eapply (ev_step _ (fun _ f lf => _)); [exact Hs2|]. apply ev_ret, Hpost. eexists. split; [done|]. split; [constructor|done].
Qed.
Lemma ok_exist_some c n a p t h v e : n_kind n = KExist a -> ok c (JNode a) p t h (Some (v, e)) -> ok c (JBody n) p t h (Some (v, e)).
Proof.
  intros Hk HN. apply ok_body; [by unfold makes_map; rewrite Hk|]. intros P acts s Hr Hc HP Hs. unary Hk. child HN. intros y0 s1 H1.
  destruct (post_some _ _ _ _ _ _ _ _ H1) as (y & -> & Hy & Hq). by apply ev_ret.
Qed.
Lemma ok_look_fail c n a p t h : n_kind n = KLook a -> ok c (JNode a) p t h None -> ok c (JBody n) p t h None.
Proof.
  intros Hk HN. apply ok_body; [by unfold makes_map; rewrite Hk|]. intros P acts s Hr Hc HP Hs. unary Hk. child HN. intros y s1 H1. pose proof (post_fail _ _ _ _ _ _ H1) as ->.
  destruct (post_back _ _ _ _ _ _ _ _ _ HP H1) as (s2 & Hs2 & Hh & Hp2 & Hpost).
  eapply (ev_step _ (fun _ f lf => _)); [exact Hs2|]. apply ev_ret, Hpost. done.
Qed.
Lemma ok_look c n a p t h v e : n_kind n = KLook a -> ok c (JNode a) p t h (Some (v, e)) -> ok c (JBody n) p t h (Some (v, p)).
Proof.
  intros Hk HN. apply ok_body; [by unfold makes_map; rewrite Hk|]. intros P acts s Hr Hc HP Hs. unary Hk. child HN. intros y0 s1 H1.
  destruct (post_some _ _ _ _ _ _ _ _ H1) as (y & -> & Hy & Hq).
  destruct (post_back _ _ _ _ _ _ _ _ _ HP H1) as (s2 & Hs2 & Hh & Hp2 & Hpost).
  eapply (ev_step _ (fun _ f lf => _)); [exact Hs2|]. apply ev_ret, Hpost. exists y. rewrite Hh. done.
Qed.
Lemma ok_not c n a p t h : n_kind n = KNot a -> ok c (JNode a) p t h None -> ok c (JBody n) p t h (Some (VUndef, p)).
Proof.
  intros Hk HN. apply ok_body; [by unfold makes_map; rewrite Hk|]. intros P acts s Hr Hc HP Hs. unary Hk. child HN. intros y s1 H1. pose proof (post_fail _ _ _ _ _ _ H1) as ->.
  destruct (post_back _ _ _ _ _ _ _ _ _ HP H1) as (s2 & Hs2 & Hh & Hp2 & Hpost).
  eapply (ev_step _ (fun _ f lf => _)); [exact Hs2|]. apply ev_ret, Hpost. eexists. split; [done|]. split; [constructor|done].
Qed.
Lemma ok_not_fail c n a p t h v e : n_kind n = KNot a -> ok c (JNode a) p t h (Some (v, e)) -> ok c (JBody n) p t h None.
Proof.
  intros Hk HN. apply ok_body; [by unfold makes_map; rewrite Hk|]. intros P acts s Hr Hc HP Hs. unary Hk. child HN. intros y0 s1 H1.
  destruct (post_some _ _ _ _ _ _ _ _ H1) as (y & -> & Hy & Hq).
  destruct (post_back _ _ _ _ _ _ _ _ _ HP H1) as (s2 & Hs2 & Hh & Hp2 & Hpost).
  eapply (ev_step _ (fun _ f lf => _)); [exact Hs2|]. apply ev_ret, Hpost. done.
Qed.
End Cases.
