(** The engine computes the semantics of Peg.v: everything but rules. *)
From stdpp Require Import sets.
From Verif Require Import Base Helpers Utf8 Utf8Proofs Stream StreamSpec StreamProofs Native NativeSpec NativeProofs
  Engine EngSpec EngInv EngMon Peg PegProofs PegRep PegInv.

(** The map under construction: the object [own], in heap [h], holds [kv], and
    no part of [kv] uses it. *)
Definition owned_map (P : list nat) (h : heap) (own : nat) (kv : list (string * val)) : Prop :=
  own ∉ P /\ exists m at_, h !! own = Some (Obj (OMap m) at_) /\ has_keys m kv.*1 /\ NoDup kv.*1 /\ repf (own :: P) h m kv.

(** A callback that computes [cbf]: it neither depends on addresses, attributes
    or other objects, nor changes the contents of existing ones. *)
Definition cb_keeps (E : env) (cbf : nat -> nat -> val -> option (option val)) (c : nat) : Prop :=
  forall p h x v P, rep P h x v -> Forall (fun a => a < length h) P ->
  match cbf c p v with
  | None => True
  | Some o => exists h' y, e_cb E c p h x = CbRet h' y /\ hext h h' /\
      match o with None => y = None | Some v' => exists z, y = Some z /\ rep P h' z v' end
  end.
(** The same for maps that nobody else has: these the callback may change. *)
Definition cb_owns (E : env) (cbf : nat -> nat -> val -> option (option val)) (c : nat) : Prop :=
  forall p h a kv P, owned_map P h a kv -> Forall (fun a => a < length h) (a :: P) ->
  match cbf c p (VMap kv) with
  | None => True
  | Some o => exists h' y, e_cb E c p h (AObj a) = CbRet h' y /\ hext_but [a] h h' /\
      match o with None => y = None | Some v' => exists z, y = Some z /\ rep P h' z v' end
  end.
(** Sequences whose result is always a new map: the first label is not [@] or [&]. *)
Fixpoint first_proper (l : list node) : bool :=
  match l with
  | [] => false
  | n :: l' =>
      if String.eqb (i_label (n_info n)) "" then first_proper l'
      else negb (String.eqb (i_label (n_info n)) "@" || String.eqb (i_label (n_info n)) "&")
  end.
Definition makes_map (n : node) : bool := match n_kind n with KSeq TObject l => first_proper l | _ => false end.
(** All callbacks keep what exists; one that changes the map it is given stands
    at sequences that make a new map. *)
Definition cb_pure (E : env) (root : node) (cbf : nat -> nat -> val -> option (option val)) : Prop :=
  forall c, cb_keeps E cbf c \/
    (cb_owns E cbf c /\ forall n, reach E root n -> i_cb (n_info n) = Some c ->
       makes_map n = true /\ (i_label (n_info n) = EmptyString \/ i_wraps (n_info n) = false)).

Lemma ev_parse E n s (Q : option ast -> st -> Prop) : n_kind n <> KUndef -> ev (fun f _ => wrap E (parse E f) f n) s Q -> ev (fun f _ => parse E f n) s Q.
Proof.
  intros Hk (f0 & a & s' & HQ & H). exists (S f0), a, s'. split; [done|]. intros f lf Hf _. destruct f as [|f]; [lia|].
  cbn [parse]. rewrite <- (H f f0) by lia. by destruct (n_kind n).
Qed.


Section Body.
Variable E : env.
Variable c0 : code.
Variable root : node.
Variable cbf : nat -> nat -> val -> option (option val).
Variable R : nat -> node.
Variable par : nat -> option nat.
Notation N := (e_nrules E).
Notation G := (GI (fun _ _ => false) N c0).
Notation GR := (GR N c0 (fun _ _ => false)).
Notation peg := (peg (e_rule E) (e_rx E) cbf R par (c_work c0)).
Notation skips i := (i_skip (n_info (R i)) = true).
Notation Inv := (Inv E c0 cbf R par).
Notation reach := (reach E root).

Hypothesis Hrx : forall re, rx_ok (e_rx E re).
Hypothesis Hlines : code_lines_ok c0.
Hypothesis Hfit : ids_fit E root.
Hypothesis HR : forall n, reach n -> is_rule n -> R (i_id (n_info n)) = n.
Hypothesis Hpar : forall i F, par i = Some F -> par F = None /\ i_skip (n_info (R F)) = false.
Hypothesis Hcb : cb_pure E root cbf.

(** The parsers on the stack above the innermost active rule are its current
    alternative or are not cached. *)
Definition seg_ok (acts : list act) (s : st) : Prop :=
  match acts with
  | [] => True
  | A :: _ => exists seg rest, s_stack s = seg ++ ac_a A :: rest /\
      Forall (fun b => (exists f, fr s b f /\ skips (f_id f)) \/ (exists X tx, ac_in A = Some (b, X, tx))) seg /\
      (forall ax X tx, ac_in A = Some (ax, X, tx) -> ax ∈ seg)
  end.

Record pre (P : list nat) (acts : list act) (p h : nat) (s : st) : Prop := {
  pr_inv : Inv P acts s;
  pr_pos : st_pos s = p;
  pr_seg : seg_ok acts s;
  pr_len : length (s_stack s) + h <= stack_limit;
  pr_h : Forall (fun A => h < ac_h A) acts }.

Definition gives (P : list nat) (r : result) (x : option ast) (s' : st) : Prop :=
  match r with
  | None => x = None
  | Some (v, e) => exists y, x = Some y /\ rep P (s_heap s') y v /\ st_pos s' = e
  end.
Record postx (X P : list nat) (acts : list act) (t : bool) (r : result) (s : st) (x : option ast) (s' : st) : Prop := {
  po_inv : Inv P (touch t acts) s';
  po_GR : GR s s';
  po_heap : hext_but X (s_heap s) (s_heap s');
  po_res : gives P r x s' }.
Notation post := (postx []).

Lemma seg_ok_ext t acts s s' : seg_ok acts s -> ext s s' -> seg_ok (touch t acts) s'.
Proof.
  destruct acts as [|A acts]; [done|]. intros (seg & rest & H1 & H2 & H3) [HS HE].
  exists seg, rest. split; [|split].
  - rewrite HS, H1. done.
  - eapply Forall_impl; [exact H2|]. cbn beta. intros b [(f & Hf & Hsk)|(X & tx & Hin)].
    + left. destruct (HE _ _ Hf) as (f' & Hf' & _ & Hid & _). exists f'. split; [done|]. by rewrite <- Hid.
    + right. cbn. rewrite Hin. eauto.
  - cbn. intros ax X tx. destruct (ac_in A) as [[[ax' X'] tx']|] eqn:EI; [|done]. intros [= <- <- _]. by eapply H3.
Qed.

Lemma pre_le P acts p h h' s : pre P acts p h s -> h' <= h -> pre P acts p h' s.
Proof.
  intros [H1 H2 H3 H4 H5] Hle. split; [done..|lia|]. eapply Forall_impl; [exact H5|]. cbn. lia.
Qed.
Lemma touch_h t acts h : Forall (fun A => h < ac_h A) acts -> Forall (fun A => h < ac_h A) (touch t acts).
Proof. destruct acts as [|A r]; [done|]. intros H. apply Forall_cons in H as [H1 H2]. by apply Forall_cons. Qed.
Lemma pre_post P acts p h s t s' : pre P acts p h s -> Inv P (touch t acts) s' -> GR s s' -> pre P (touch t acts) (st_pos s') h s'.
Proof.
  intros [H1 H2 H3 H4 H5] HI HG. split; [done|done| | |by apply touch_h].
  - eapply seg_ok_ext; [done|apply HG].
  - by rewrite (GR_stack _ _ _ _ _ HG).
Qed.
(** Back where a run began. *)
Lemma pre_back P acts p h s t s' : pre P acts p h s -> Inv P (touch t acts) s' -> GR s s' ->
  exists s'', set_pos p s' = Ok tt s'' /\ Inv P (touch t acts) s'' /\ GR s s'' /\ s_heap s'' = s_heap s' /\ st_pos s'' = p.
Proof.
  intros HP HI HG. destruct HP as [H1 H2 H3 H4 H5]. subst p.
  pose proof (GR_back N c0 _ _ _ (iv_G _ _ _ _ _ _ _ _ H1) HG) as HGR.
  eexists. split; [apply (set_pos_eq N c0 (fun _ _ => false)); [apply HG|apply H1]|].
  split; [|split; [done|split; [done|apply st_pos_set_code]]].
  eapply (Inv_heap _ _ _ _ _ Hpar); [exact HI|apply HGR|done|done|apply hext_refl].
Qed.

(** Two runs one after the other. *)
Lemma post_trans P acts t t' r1 r s x1 s1 x s2 : post P acts t r1 s x1 s1 -> post P (touch t acts) t' r s1 x s2 ->
  post P acts (t || t') r s x s2.
Proof.
  intros [A1 A2 A3 A4] [B1 B2 B3 B4]. split; [by rewrite <- touch_touch|by eapply GR_trans|by eapply hext_trans|done].
Qed.
Lemma post_nil P acts p h s r x : pre P acts p h s -> gives P r x s -> post P acts false r s x s.
Proof.
  intros [H1 H2 H3 H4 H5] Hg. split; [by rewrite touch_false|apply GR_refl, H1|apply hext_refl|done].
Qed.

(** What evaluating a task amounts to in the engine. *)
Definition acc_rep (P : list nat) (h : heap) (acc : option val) (x : option ast) : Prop :=
  match acc, x with
  | None, None => True
  | Some v, Some y => rep P h y v
  | _, _ => False
  end.
(** The result under construction: [own] is its map if it is one. *)
Definition own_rep (P : list nat) (h : heap) (m : made) (x : option ast) (own : option nat) : Prop :=
  match m with
  | MNone => own = None /\ (x = None \/ x = Some AUndef)
  | MMap kv => exists a, own = Some a /\ x = Some (AObj a) /\ owned_map P h a kv
  | MTook v => own = None /\ v <> VUndef /\ exists y, x = Some y /\ rep P h y v
  end.
Definition owned (m : made) (l : list node) : bool :=
  match m with MNone => first_proper l | MMap _ => true | MTook _ => false end.
(** The result may be a map that is still unknown to others. *)
Definition posto (X P : list nat) (acts : list act) (t : bool) (r : result) (new : bool) (s : st) (x : option ast) (s' : st) : Prop :=
  exists own, Inv (opt_list own ++ P) (touch t acts) s' /\ GR s s' /\ hext_but X (s_heap s) (s_heap s') /\ gives P r x s' /\
    (forall a, own = Some a -> exists kv e, r = Some (VMap kv, e) /\ x = Some (AObj a) /\ owned_map P (s_heap s') a kv /\
       (a ∈ X \/ length (s_heap s) <= a)) /\
    (new = true -> r <> None -> own <> None).

Definition with_seed (A : act) (sd : result) : act :=
  Act (ac_a A) (ac_id A) (ac_pos A) sd (ac_h A) (ac_out A) true None.

Definition ok (c : option ctx) (j : task) (p : nat) (t : bool) (h : nat) (r : result) : Prop :=
  match j with
  | JNode n => forall P acts s, reach n -> ctx_of acts = c -> pre P acts p h s -> s_stack s <> [] \/ top_ok n ->
      ev (fun f _ => parse E f n) s (post P acts t r s)
  | JBody n => forall P acts s, Forall reach (children n) -> ctx_of acts = c -> pre P acts p h s ->
      s_stack s <> [] \/ (exists l, n_kind n = KChoice l /\ Forall is_rule l) ->
      ev (fun f lf => body E (parse E f) lf n) s (posto [] P acts t r (makes_map n) s)
  | JSingle l acc => forall P acts s x, Forall reach l -> ctx_of acts = c -> pre P acts p h s -> s_stack s <> [] ->
      acc_rep P (s_heap s) acc x -> ev (fun f _ => seq_single (parse E f) l x) s (post P acts t r s)
  | JArray l acc => forall P acts s x, Forall reach l -> ctx_of acts = c -> pre P acts p h s -> s_stack s <> [] ->
      reps P (s_heap s) (rev x) acc -> ev (fun f _ => seq_array (parse E f) l x) s (post P acts t r s)
  | JObject l m => forall P acts s own x, Forall reach l -> ctx_of acts = c -> pre (opt_list own ++ P) acts p h s -> s_stack s <> [] ->
      own_rep P (s_heap s) m x own ->
      ev (fun f _ => seq_object (parse E f) l x) s (posto (opt_list own) P acts t r (owned m l) s)
  | JAlt l => forall P acts s, Forall reach l -> ctx_of acts = c -> pre P acts p h s -> s_stack s <> [] \/ Forall is_rule l ->
      ev (fun f _ => choice_loop (parse E f) l) s (post P acts t r s)
  | JLoop v j mx acc => forall P acts s x, reach v -> Forall reach (opt_list j) -> ctx_of acts = c -> pre P acts p h s -> s_stack s <> [] ->
      reps P (s_heap s) (rev x) acc ->
      ev (fun f lf => pat_loop (parse E f) lf v j mx x) s (fun ms s' => post P acts t r s (Some (AArr (rev ms))) s')
  | JRule id => forall P acts s, reach (R id) -> par id = None -> pre P acts p h s ->
      ev (fun f _ => parse E f (R id)) s (post P acts false r s)
  | JGrow id v e => forall P A rest s x fa stk, reach (R id) -> ac_id A = id -> ac_pos A = p -> ac_in A = None ->
      ac_out A <> None -> Inv P (A :: rest) s -> fr s (ac_a A) fa -> f_stage fa = 3%Z -> f_mask fa <> None ->
      s_stack s = ac_a A :: stk -> st_pos s = e -> rep P (s_heap s) x v -> length (s_stack s) + h <= stack_limit ->
      Forall (fun A => h < ac_h A) (A :: rest) ->
      ev (fun f lf => grow E lf (prepare_result E (body E (parse E f) f (R id)) (R id)) false id (ac_a A) p x) s
        (fun best s' => exists v' e' bx stash, best = (bx, e', stash) /\ r = Some (v', e') /\ rep P (s_heap s') bx v' /\
           hext (s_heap s) (s_heap s') /\ Inv P (with_seed A r :: rest) s' /\ s_stack s' = s_stack s /\
           (exists f', fr s' (ac_a A) f' /\ f_stage f' = 3%Z /\ f_mask f' <> None) /\ stash_ok N s' p 0 stash /\
           (forall i b, stash !! i = Some (Some b) -> par i = Some id \/ skips i) /\ p <= e' <= length (c_work c0))
  end.

(** ** Labels and callbacks *)
Lemma pre_core P acts p h s s' : core c0 s s' -> s_heap s' = s_heap s -> pre P acts p h s -> pre P acts p h s'.
Proof.
  intros HC Hh [H1 H2 H3 H4 H5]. pose proof HC as (E1 & E2 & E3 & E4 & E6).
  split.
  - eapply (Inv_heap _ _ _ _ _ Hpar); [exact H1| |done|done|rewrite Hh; apply hext_refl]. eapply G_core; [exact HC|apply H1].
  - by rewrite (core_pos _ _ _ HC).
  - destruct acts as [|A acts]; [done|]. destruct H3 as (seg & rest & S1 & S2 & S3). exists seg, rest.
    split; [congruence|]. split; [|done]. unfold fr. by rewrite E3.
  - by rewrite E4.
  - done.
Qed.

Lemma Inv_shrink X P acts s : Inv (X ++ P) acts s -> Inv P acts s.
Proof.
  intros HI. eapply Inv_same; [exact HI|apply HI|done|done| |].
  - pose proof (iv_P _ _ _ _ _ _ _ _ HI) as H. by apply Forall_app in H as [_ H].
  - intros y v Hy. eapply rep_weaken; [exact Hy|set_solver].
Qed.
Lemma post_posto P acts t r s x s' : post P acts t r s x s' -> posto [] P acts t r false s x s'.
Proof. intros [A1 A2 A3 A4]. by exists None. Qed.
Lemma posto_post X P acts t r new s x s' : posto X P acts t r new s x s' -> postx X P acts t r s x s'.
Proof. intros (own & A1 & A2 & A3 & A4 & A5 & A6). split; [by eapply Inv_shrink|done..]. Qed.

Lemma prep_ev P acts n (m : nat -> nat -> M (option ast)) p h s t r r' : prepared cbf (n_info n) r = Some r' ->
  reach n -> pre P acts p h s -> s_stack s <> [] ->
  (forall s1, pre P acts p h s1 -> s_stack s1 = s_stack s -> ev m s1 (posto [] P acts t r (makes_map n) s1)) ->
  ev (fun f lf => prepare_result E (m f lf) n) s (post P acts t r' s).
Proof.
  intros Hprep Hreach HP Hne Hm. unfold prepare_result.
  set (s1 := set_counter s (S (s_counter s))).
  assert (core c0 s s1) as HC1 by done.
  assert (pre P acts p h s1) as HP1 by (by eapply pre_core).
  eapply (ev_step _ _ s tt s1); [done|].
  apply (ev_bind m (fun r f lf => _)). eapply ev_weaken; [by apply Hm|]. cbn beta.
  intros x s2 (own & B0 & B2 & B3 & B4 & B5 & B6). pose proof (Inv_shrink _ _ _ _ B0) as B1.
  assert (GR s s2) as HR2. { eapply GR_trans; [|exact B2]. apply GR_core; [apply HP|done]. }
  change (s_heap s1) with (s_heap s) in B3.
  destruct r as [[v e]|]; cbn [prepared] in Hprep.
  2: { injection Hprep as <-. cbn in B4. subst x. apply ev_ret. split; done. }
  destruct B4 as (y & -> & Hrep & Hpos).
  assert (forall z s4 w, Inv P (touch t acts) s4 -> GR s s4 -> hext (s_heap s) (s_heap s4) -> st_pos s4 = e -> rep P (s_heap s4) z w ->
    ev (fun _ _ => do! fr := stack_peek in
          do! p := get_pos in
          do! c := gets s_code in
          do! line := lift (c_line c) in
          set_origin z (Origin (c_code c) (f_pos fr) p line (i_name (n_info n))) ;!
          ret (Some z)) s4 (post P acts t (Some (w, e)) s)) as Hend.
  { intros z s4 w HI4 HR4 Hx4 Hp4 Hz.
    assert (exists f, stack_peek s4 = Ok f s4) as [f Hf].
    { unfold stack_peek. pose proof (GR_stack _ _ _ _ _ HR4) as HS. destruct (s_stack s4) as [|a stk] eqn:ES; [congruence|].
      destruct (G_stack_valid N c0 _ s4 a (iv_G _ _ _ _ _ _ _ _ HI4)) as (f & Hf & _); [rewrite ES; left|]. unfold get_fr. rewrite Hf. eauto. }
    eapply (ev_step stack_peek (fun fr _ _ => _)); [exact Hf|].
    eapply (ev_step get_pos (fun p _ _ => _)); [reflexivity|].
    eapply (ev_step (gets s_code) (fun c _ _ => _)); [reflexivity|].
    destruct (Hlines (st_pos s4)) as [[l Hl] _]; [apply HI4|].
    rewrite <- (gi_code _ _ _ _ (iv_G _ _ _ _ _ _ _ _ HI4)) in Hl.
    eapply (ev_step (lift _) (fun l _ _ => _)); [by rewrite Hl|].
    assert (exists h5, set_origin z (Origin (c_code (s_code s4)) (f_pos f) (st_pos s4) l (i_name (n_info n))) s4 = Ok tt (set_heap s4 h5) /\
      hext (s_heap s4) h5) as (h5 & Hso & Hh5).
    { unfold set_origin. destruct z as [| | | |a| |]; try (exists (s_heap s4); split; [by destruct s4|apply hext_refl]).
      assert (exists o, s_heap s4 !! a = Some o) as [o Ho] by (inversion Hz; eauto).
      eexists. split; [unfold bind, read_obj; rewrite Ho; reflexivity|]. eapply hext_attr; [exact Ho|by left]. }
    eapply (ev_step _ (fun _ _ _ => _)); [exact Hso|]. apply ev_ret.
    split.
    - eapply (Inv_heap _ _ _ _ _ Hpar); [exact HI4| |done|done|done]. eapply G_core; [|apply HI4]. done.
    - eapply GR_trans; [exact HR4|]. apply GR_core; [apply HR4|done].
    - by eapply hext_trans.
    - exists z. split; [done|]. split; [|done]. cbn. eapply rep_hext; [exact Hz|exact Hh5|set_solver]. }
  assert ((forall c, i_cb (n_info n) = Some c -> cb_keeps E cbf c) \/ exists c a kv, i_cb (n_info n) = Some c /\ cb_owns E cbf c /\
    own = Some a /\ v = VMap kv /\ y = AObj a /\ owned_map P (s_heap s2) a kv /\ length (s_heap s) <= a /\ (i_label (n_info n) = EmptyString \/ i_wraps (n_info n) = false)) as Hcase.
  { destruct (i_cb (n_info n)) as [c|] eqn:EC; [|by left]. destruct (Hcb c) as [Hk|[Ho Hn]]; [left; by intros ? [= <-]|].
    right. destruct (Hn n Hreach EC) as [Hmk Hlb]. destruct own as [a|]; [|by destruct (B6 Hmk)].
    destruct (B5 a eq_refl) as (kv & e0 & [= -> <-] & [= ->] & Hom & [Hin|Hlen]); [by apply elem_of_nil in Hin|]. exists c, a, kv. done. }
  destruct Hcase as [Hkeeps|(c & a & kv & HC & Howns & -> & -> & -> & Hom & Hlen & Hlb)].
  2: {
    assert (wrap_label (n_info n) (AObj a) s2 = Ok (AObj a) s2) as Hw.
    { unfold wrap_label. destruct Hlb as [-> | ->]; [done|]. by rewrite andb_false_r. }
    assert (labelled (n_info n) (VMap kv) = VMap kv) as Hlab.
    { unfold labelled. destruct Hlb as [-> | ->]; [done|]. by rewrite andb_false_r. }
    rewrite HC, Hlab in Hprep.
    eapply (ev_step _ (fun x1 f lf => _)); [exact Hw|]. unfold call_cb. rewrite HC.
    set (s4 := add_log s2 (EvCb c (st_pos s2))).
    pose proof (Howns (st_pos s4) (s_heap s4) a kv P Hom (iv_P _ _ _ _ _ _ _ _ B0)) as Hc.
    change (st_pos s4) with (st_pos s2) in Hc. rewrite Hpos in Hc.
    destruct (cbf c e (VMap kv)) as [o|]; [|done]. destruct Hc as (h' & y' & Hcbr & Hxh & Hout).
    assert (GR s s4) as HR4. { eapply GR_trans; [exact HR2|]. apply GR_emit; [apply HR2|]. apply (gi_pos _ _ _ _ (proj1 HR2)). }
    assert (GR s (set_heap s4 h')) as HR5. { eapply GR_trans; [exact HR4|]. apply GR_core; [apply HR4|done]. }
    assert (Inv P (touch t acts) (set_heap s4 h')) as HI5.
    { apply (Inv_shrink [a]). eapply Inv_same; [exact B0|apply HR5|done|done| |].
      - eapply Forall_impl; [apply (iv_P _ _ _ _ _ _ _ _ B0)|]. cbn. intros b Hb. destruct Hxh. cbn in *. lia.
      - intros z w Hz. cbn. eapply rep_hext; [exact Hz|exact Hxh|set_solver]. }
    assert (hext (s_heap s) h') as Hx5.
    { apply (hext_drop [] a).
      - eapply hext_trans; [eapply hext_weaken; [exact B3|set_solver]|exact Hxh].
      - exact Hlen. }
    eapply (ev_step _ (fun r2 _ _ => _)).
    { unfold bind at 1, get_pos, gets. cbn beta iota. unfold bind at 1, emit. cbn beta iota. fold s4. rewrite Hpos. cbn [s_heap add_log s4].
      change (s_heap s2) with (s_heap s4). rewrite Hcbr. reflexivity. }
    destruct o as [v'|].
    - injection Hprep as <-. destruct Hout as (z & -> & Hz). cbn beta iota. by apply Hend.
    - injection Hprep as <-. subst y'. cbn beta iota. apply ev_ret. by split. }
  apply (ev_bind (fun _ _ => wrap_label (n_info n) y) (fun x1 f lf => _)).
  assert (exists x1 s3, wrap_label (n_info n) y s2 = Ok x1 s3 /\ rep P (s_heap s3) x1 (labelled (n_info n) v) /\
    Inv P (touch t acts) s3 /\ GR s s3 /\ hext (s_heap s) (s_heap s3) /\ st_pos s3 = e) as (x1 & s3 & Hw & Hrep3 & HI3 & HR3 & Hx3 & Hp3).
  { unfold wrap_label, labelled. destruct (negb (String.eqb (i_label (n_info n)) "") && i_wraps (n_info n))%bool.
    - eexists _, _. split; [reflexivity|]. set (h3 := s_heap s2 ++ _).
      assert (hext (s_heap s2) h3) as Hx by apply hext_app.
      split; [|split; [|split; [|split]]].
      + cbn. eapply rep_map with (m := nm_single (i_label (n_info n)) y).
        * intros Hin. pose proof (iv_P _ _ _ _ _ _ _ _ B1) as HPl. rewrite Forall_forall in HPl. specialize (HPl _ Hin). lia.
        * unfold h3. by rewrite lookup_app_r, Nat.sub_diag by lia.
        * split; [done|]. intros k Hk. unfold nm_get. cbn. cbn in Hk. destruct (String.eqb_spec k (i_label (n_info n))) as [-> |]; [set_solver|done].
        * cbn. apply NoDup_singleton.
        * econstructor; [|eapply rep_hext; [exact Hrep|exact Hx|set_solver]|constructor]. unfold nm_get. cbn. by rewrite String.eqb_refl.
      + eapply (Inv_heap _ _ _ _ _ Hpar); [exact B1| |done|done|exact Hx]. eapply G_core; [|apply B1]. done.
      + eapply GR_trans; [exact HR2|]. apply GR_core; [apply HR2|done].
      + by eapply hext_trans.
      + done.
    - eexists _, _. split; [reflexivity|]. done. }
  eapply ev_ok; [exact Hw|].
  assert (s_stack s3 <> []) as Hne3 by (by rewrite (GR_stack _ _ _ _ _ HR3)).
  unfold call_cb. destruct (i_cb (n_info n)) as [c|].
  2: { injection Hprep as <-. eapply (ev_step (ret (Some x1)) (fun r2 _ _ => _)); [reflexivity|]. cbn beta iota. by apply Hend. }
  set (s4 := add_log s3 (EvCb c (st_pos s3))).
  pose proof (Hkeeps c eq_refl (st_pos s4) (s_heap s4) x1 (labelled (n_info n) v) P Hrep3 (iv_P _ _ _ _ _ _ _ _ HI3)) as Hc.
  change (st_pos s4) with (st_pos s3) in Hc. rewrite Hp3 in Hc.
  destruct (cbf c e (labelled (n_info n) v)) as [o|]; [|done].
  destruct Hc as (h' & y' & Hcbr & Hxh & Hout).
  assert (GR s s4) as HR4. { eapply GR_trans; [exact HR3|]. apply GR_emit; [apply HR3|]. apply (gi_pos _ _ _ _ (proj1 HR3)). }
  assert (GR s (set_heap s4 h')) as HR5. { eapply GR_trans; [exact HR4|]. apply GR_core; [apply HR4|done]. }
  assert (Inv P (touch t acts) (set_heap s4 h')) as HI5.
  { eapply (Inv_heap _ _ _ _ _ Hpar); [exact HI3|apply HR5|done|done|exact Hxh]. }
  eapply (ev_step _ (fun r2 _ _ => _)).
  { unfold bind at 1, get_pos, gets. cbn beta iota. unfold bind at 1, emit. cbn beta iota. fold s4. rewrite Hp3. cbn [s_heap add_log s4].
    change (s_heap s3) with (s_heap s4). rewrite Hcbr. reflexivity. }
  destruct o as [v'|].
  - injection Hprep as <-. destruct Hout as (z & -> & Hz). cbn beta iota. apply Hend; [done|done| |done|done].
    cbn. eapply hext_trans; [exact Hx3|exact Hxh].
  - injection Hprep as <-. subst y'. cbn beta iota. apply ev_ret. split; [done|done| |done]. cbn. eapply hext_trans; [exact Hx3|exact Hxh].
Qed.
End Body.
