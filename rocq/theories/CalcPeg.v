(** The textbook reading of the calculator's grammar. *)
From stdpp Require Import sets.
From Verif Require Import Base Helpers Utf8 Stream StreamSpec Native Engine EngSpec Peg PegStd PegRep PegStdProofs Build Joeson JoesonSpec JoesonRun Calc CalcRun CalcSpec.

(** ** The parsers by name *)
Definition nd (lb : string) (cap wr : bool) (k : kind node) : node := Node (Info "" lb cap false 0 wr None false false) k.
Definition rl (nm : string) (cap : bool) (id : nat) (cb : option nat) (k : kind node) : node := Node (Info nm "" cap true id true cb false false) k.
Definition rf (s : string) : node := nd "" true false (KRef s).
Definition n_sp : node := nd "" false false (KRef "_").
Definition n_pair (op opd : string) : node := nd "" true true (KSeq TArray [n_sp; rf op; n_sp; rf opd]).
Definition n_rest (op opd : string) : node := nd "rest" true false (KPat (n_pair op opd) None (-1) (-1)).
Definition n_first (opd : string) : node := nd "first" true false (KRef opd).
Definition r_expr : node := rl "Expr" true 6 (Some 0) (KSeq TObject [n_sp; n_first "Term"; n_rest "AddOp" "Term"; n_sp]).
Definition r_term : node := rl "Term" true 0 (Some 0) (KSeq TObject [n_first "Factor"; n_rest "MulOp" "Factor"]).
Definition n_paren : node := nd "" true true (KSeq TSingle [nd "" false false (KStr [40%N]); rf "Expr"; nd "" false false (KStr [41%N])]).
Definition n_integer : node := nd "" true true (KRef "Integer").
Definition r_factor : node := rl "Factor" true 1 None (KChoice [n_paren; n_integer]).
Definition n_lit (b : N) : node := nd "" false true (KStr [b]).
Definition r_addop : node := rl "AddOp" false 2 None (KChoice [n_lit 43; n_lit 45]).
Definition r_mulop : node := rl "MulOp" false 3 None (KChoice [n_lit 42; n_lit 47]).
Definition n_blank : node := nd "" true true (KRegex re_blank).
Definition r_blank : node := rl "_" true 4 None (KPat n_blank None (-1) (-1)).
Definition r_integer : node := rl "Integer" true 5 (Some 1) (KRegex re_number).
Definition n_top : node := Node (Info "calc" "" true false 0 true None false false) (KChoice [r_expr]).
Lemma calc_nodes : calc = (n_top, [("Term", r_term); ("Factor", r_factor); ("AddOp", r_addop); ("MulOp", r_mulop);
  ("_", r_blank); ("Integer", r_integer); ("Expr", r_expr)]%string).
Proof. reflexivity. Qed.

(** ** The callbacks as functions of values *)
Definition kv_get (kv : list (string * val)) (k : string) : option val := snd <$> List.find (fun q => String.eqb k (fst q)) kv.
Fixpoint fold_v (a : Z) (l : list val) : option Z :=
  match l with
  | [] => Some a
  | VArr [VStr op; VInt b] :: l' => match calc_op op a b with Some c => fold_v c l' | None => None end
  | _ => None
  end.
(** [Some None]: the callback panics. *)
Definition calc_val (f : nat) (v : val) : option (option val) :=
  match f, v with
  | 0, VMap kv =>
      match kv_get kv "first", kv_get kv "rest" with
      | Some (VInt z), Some (VArr l) => Some (VInt <$> fold_v z l)
      | Some _, Some _ => Some None
      | _, _ => None
      end
  | 1, VStr s => Some (VInt <$> atoi s)
  | _, _ => None
  end.
(** With [t = Some k] the callbacks return a user value instead of panicking. *)
Definition calc_cbf (t : option nat) (f pos : nat) (v : val) : option (option val) :=
  match calc_val f v with
  | None => None
  | Some (Some y) => Some (Some y)
  | Some None => match t with Some k => Some (Some (VUser k [])) | None => None end
  end.
Definition calc_cb_with (t : option nat) (f pos : nat) (h : heap) (x : ast) : cbres :=
  match t, calc_cb f pos h x with
  | Some k, CbPanic _ => CbRet h (Some (AUser k []))
  | _, r => r
  end.

(** ** Values of expressions *)
Definition val_of (t : option nat) (e : aexp) : option val :=
  match value e with Some z => Some (VInt z) | None => match t with Some k => Some (VUser k []) | None => None end end.

Section Text.
Variable t : option nat.
Variable text : bytes.
Notation rules := (g_rule (gram_of calc)).
Notation ev := (std rules calc_rx (calc_cbf t) text).
Notation ebody := (std_body rules calc_rx text).
Notation prep := (prepared (calc_cbf t)).

Lemma ev_rl f d nm cap id cb k p : k <> KUndef -> ev (S f) (S d) (rl nm cap id cb k) p =
  match ebody (ev f d) f (rl nm cap id cb k) p with None => None | Some r => prep (n_info (rl nm cap id cb k)) r end.
Proof. by destruct k. Qed.
Lemma ev_nd f d lb cap wr k p : k <> KUndef -> ev (S f) d (nd lb cap wr k) p =
  match ebody (ev f d) f (nd lb cap wr k) p with None => None | Some r => prep (n_info (nd lb cap wr k)) r end.
Proof. by destruct k. Qed.

Definition gives (d : nat) (n : node) (p : nat) (r : result) : Prop := exists f0, forall f, f0 <= f -> ev f d n p = Some r.
Lemma gives_deeper d d' n p r : gives d n p r -> d <= d' -> gives d' n p r.
Proof.
  intros [f0 H] Hd. exists f0. intros f Hf.
  exact (std_mono (Env 0 rules calc_rx (fun _ _ h _ => CbPanic 0) false false 0 false) (calc_cbf t) (fun _ => n_top) text f f d d' n p r (le_n _) Hd (H f Hf)).
Qed.
Lemma gives_rl d nm cap id k p r : k <> KUndef ->
  (exists f0, forall f, f0 <= f -> ebody (ev f d) f (rl nm cap id None k) p = Some r) -> gives (S d) (rl nm cap id None k) p r.
Proof.
  intros Hk [f0 H]. exists (S f0). intros [|f] Hf; [lia|]. rewrite ev_rl by done. rewrite H by lia. by destruct r as [[v e]|].
Qed.
Lemma gives_rl_cb d nm cap id c k p v e v' : k <> KUndef ->
  (exists f0, forall f, f0 <= f -> ebody (ev f d) f (rl nm cap id (Some c) k) p = Some (Some (v, e))) ->
  calc_cbf t c e v = Some (Some v') -> gives (S d) (rl nm cap id (Some c) k) p (Some (v', e)).
Proof.
  intros Hk [f0 H] Hc. exists (S f0). intros [|f] Hf; [lia|]. rewrite ev_rl by done. rewrite H by lia. cbn. by rewrite Hc.
Qed.
Lemma gives_rl_fail d nm cap id cb k p : k <> KUndef ->
  (exists f0, forall f, f0 <= f -> ebody (ev f d) f (rl nm cap id cb k) p = Some None) ->
  gives (S d) (rl nm cap id cb k) p None.
Proof.
  intros Hk [f0 H]. exists (S f0). intros [|f] Hf; [lia|]. rewrite ev_rl by done. by rewrite H by lia.
Qed.
Lemma gives_nd d lb cap wr k p r : k <> KUndef -> lb = EmptyString \/ wr = false ->
  (exists f0, forall f, f0 <= f -> ebody (ev f d) f (nd lb cap wr k) p = Some r) -> gives d (nd lb cap wr k) p r.
Proof.
  intros Hk Hl [f0 H]. exists (S f0). intros [|f] Hf; [lia|]. rewrite ev_nd by done. rewrite H by lia. destruct r as [[v e]|]; [|done].
  cbn. unfold labelled. cbn. destruct Hl as [-> | ->]; [done|]. by rewrite andb_false_r.
Qed.
Lemma gives_ref d lb cap wr nm m p r : lb = EmptyString \/ wr = false -> rules nm = Some m -> gives d m p r ->
  gives d (nd lb cap wr (KRef nm)) p r.
Proof. intros Hl Hm [f0 H]. apply gives_nd; [done..|]. exists f0. intros f Hf. cbn [std_body nd n_kind]. rewrite Hm. by apply H. Qed.

(** ** Reading the text *)
Definition at_ (p : nat) (s : bytes) : Prop := drop p text = s.
Lemma at_app p a b : at_ p (a ++ b) -> at_ (p + length a) b.
Proof. unfold at_. intros H. rewrite <- drop_drop, H. by rewrite drop_app. Qed.

Lemma gives_lit d lb cap wr s p rest : lb = EmptyString \/ wr = false -> at_ p (s ++ rest) ->
  gives d (nd lb cap wr (KStr s)) p (Some (VStr s, p + length s)).
Proof.
  intros Hl Hp. apply gives_nd; [done..|]. exists 0. intros f _. cbn [std_body nd n_kind]. unfold lit. rewrite Hp, take_app. by rewrite bool_decide_true.
Qed.
Lemma gives_no_lit d lb cap wr b p rest : lb = EmptyString \/ wr = false -> at_ p rest -> head rest <> Some b ->
  gives d (nd lb cap wr (KStr [b])) p None.
Proof.
  intros Hl Hp Hh. apply gives_nd; [done..|]. exists 0. intros f _. cbn [std_body nd n_kind]. unfold lit. rewrite Hp. rewrite bool_decide_false; [done|].
  destruct rest as [|c rest]; [done|]. cbn in *. intros [= ->]. done.
Qed.

(** Blanks. *)
Definition not_blank (s : bytes) : Prop := forall b, head s = Some b -> blank_b b = false.
Lemma rx_blank b s : blank_b b = true -> calc_rx re_blank (b :: s) = Some (0, 1).
Proof. intros H. unfold calc_rx. change (bytes_eqb re_blank re_blank) with true. cbn [find_first]. by rewrite H. Qed.
Lemma find_first_far f s : forall i a b, find_first f s i = Some (a, b) -> i <= a.
Proof.
  induction s as [|c s IH]; intros i a b; cbn; [done|]. destruct (f c); [intros [= <- <-]; lia|]. intros H%IH. lia.
Qed.
Lemma rx_no_blank s : not_blank s -> match calc_rx re_blank s with Some (O, _) => False | _ => True end.
Proof.
  intros H. unfold calc_rx. change (bytes_eqb re_blank re_blank) with true. cbv iota. destruct s as [|b s]; [done|].
  cbn [find_first]. rewrite (H b) by done. destruct (find_first blank_b s 1) as [[a c]|] eqn:E; [|done]. apply find_first_far in E. by destruct a; [lia|].
Qed.
Lemma gives_blank1 d b s p : at_ p (b :: s) -> blank_b b = true -> gives d n_blank p (Some (VStr [b], S p)).
Proof.
  intros Hp Hb. apply gives_nd; [discriminate|by left|]. exists 0. intros f _. cbn [std_body nd n_kind]. unfold rgx. rewrite Hp, rx_blank by done.
  unfold at_ in Hp. rewrite Hp. cbn. by rewrite Nat.add_1_r.
Qed.
Lemma gives_no_blank d s p : at_ p s -> not_blank s -> gives d n_blank p None.
Proof.
  intros Hp Hb. apply gives_nd; [discriminate|by left|]. exists 0. intros f _. cbn [std_body nd n_kind]. unfold rgx. rewrite Hp.
  pose proof (rx_no_blank s Hb). by destruct (calc_rx re_blank s) as [[[] ?]|].
Qed.

(** Loops without a bound and a join. *)
Definition loops (d : nat) (n : node) (acc : list val) (p : nat) (l : list val) (e : nat) : Prop :=
  exists f0, forall f k, f0 <= f -> f0 <= k -> std_loop (ev f d) k n None (-1) acc p = Some (l, e).
Lemma loops_end d n acc p : gives d n p None -> loops d n acc p acc p.
Proof. intros [f0 H]. exists (S f0). intros f [|k] Hf Hk; [lia|]. cbn [std_loop]. by rewrite H by lia. Qed.
Lemma loops_more d n acc p v q l e : gives d n p (Some (v, q)) -> loops d n (acc ++ [v]) q l e -> loops d n acc p l e.
Proof.
  intros [f0 H] [f1 H1]. exists (S (f0 + f1)). intros f [|k] Hf Hk; [lia|]. cbn [std_loop]. rewrite H by lia. cbn. apply H1; lia.
Qed.
Lemma pat_none d lb cap wr n p : gives d n p None -> exists f0, forall f, f0 <= f ->
  ebody (ev f d) f (nd lb cap wr (KPat n None (-1) (-1))) p = Some (Some (VArr [], p)).
Proof. intros [f0 H]. exists f0. intros f Hf. cbn [std_body nd n_kind]. by rewrite H by lia. Qed.
Lemma pat_some d i n p v q l e : gives d n p (Some (v, q)) -> loops d n [v] q l e -> exists f0, forall f, f0 <= f ->
  ebody (ev f d) f (Node i (KPat n None (-1) (-1))) p = Some (Some (VArr l, e)).
Proof.
  intros [f0 H] [f1 H1]. exists (f0 + f1). intros f Hf. cbn [std_body nd n_kind]. rewrite H by lia. by rewrite H1 by lia.
Qed.
Lemma pat_empty d i n p : gives d n p None -> exists f0, forall f, f0 <= f ->
  ebody (ev f d) f (Node i (KPat n None (-1) (-1))) p = Some (Some (VArr [], p)).
Proof. intros [f0 H]. exists f0. intros f Hf. cbn [std_body n_kind]. by rewrite H by lia. Qed.

Lemma blank_bool b : b = 32%N \/ b = 9%N -> blank_b b = true.
Proof. by intros [-> | ->]. Qed.
Lemma at_cons p b s : at_ p (b :: s) -> at_ (S p) s.
Proof. intros H. rewrite <- (Nat.add_1_r p). by apply (at_app p [b]). Qed.
Lemma loops_blank d w rest : blank w -> not_blank rest -> forall acc p, at_ p (w ++ rest) ->
  exists l, loops d n_blank acc p l (p + length w).
Proof.
  intros Hw Hr. induction Hw as [|b w Hb Hw IH]; intros acc p Hp.
  - exists acc. rewrite Nat.add_0_r. apply loops_end. by eapply gives_no_blank.
  - cbn [app length] in *. destruct (IH (acc ++ [VStr [b]]) (S p)) as [l Hl]; [by apply at_cons in Hp|].
    exists l. rewrite Nat.add_succ_r. eapply loops_more; [|exact Hl]. eapply gives_blank1; [exact Hp|by apply blank_bool].
Qed.
Lemma gives_blanks d w rest p : blank w -> not_blank rest -> at_ p (w ++ rest) ->
  exists v, gives (S d) r_blank p (Some (v, p + length w)).
Proof.
  intros Hw Hr Hp. destruct Hw as [|b w Hb Hw].
  - exists (VArr []). cbn [length]. rewrite Nat.add_0_r. apply gives_rl; [done|]. apply pat_empty. by eapply gives_no_blank.
  - cbn [app length] in *. destruct (loops_blank d w rest Hw Hr [VStr [b]] (S p)) as [l Hl]; [by apply at_cons in Hp|].
    exists (VArr l). rewrite Nat.add_succ_r. apply gives_rl; [done|]. eapply pat_some; [|exact Hl].
    eapply gives_blank1; [exact Hp|by apply blank_bool].
Qed.
Lemma gives_sp d w rest p : blank w -> not_blank rest -> at_ p (w ++ rest) -> exists v, gives (S d) n_sp p (Some (v, p + length w)).
Proof. intros Hw Hr Hp. destruct (gives_blanks d w rest p Hw Hr Hp) as [v Hv]. exists v. eapply gives_ref; [by left| |exact Hv]. done. Qed.

(** Choices, sequences. *)
Lemma alt_first d i n l p x : gives d n p (Some x) -> exists f0, forall f, f0 <= f -> ebody (ev f d) f (Node i (KChoice (n :: l))) p = Some (Some x).
Proof. intros [f0 H]. exists f0. intros f Hf. cbn [std_body n_kind std_alt]. by rewrite H by lia. Qed.
Lemma alt_second d i n m p r : gives d n p None -> gives d m p r -> exists f0, forall f, f0 <= f -> ebody (ev f d) f (Node i (KChoice [n; m])) p = Some r.
Proof.
  intros [f0 H] [f1 H1]. exists (f0 + f1). intros f Hf. cbn [std_body n_kind std_alt]. rewrite H by lia. rewrite H1 by lia. by destruct r.
Qed.
Lemma gives_pair d op mo opd m p v1 q1 vo q2 v3 q3 v4 q4 : rules op = Some mo -> rules opd = Some m ->
  gives d n_sp p (Some (v1, q1)) -> gives d mo q1 (Some (vo, q2)) -> gives d n_sp q2 (Some (v3, q3)) -> gives d m q3 (Some (v4, q4)) ->
  gives d (n_pair op opd) p (Some (VArr [vo; v4], q4)).
Proof.
  intros Ho Hm H1 H2 H3 H4. apply (gives_ref d "" true false op) in H2; [|by right|done]. apply (gives_ref d "" true false opd) in H4; [|by right|done].
  destruct H1 as [f1 H1], H2 as [f2 H2], H3 as [f3 H3], H4 as [f4 H4].
  apply gives_nd; [discriminate|by left|]. exists (f1 + f2 + f3 + f4). intros f Hf. cbn [std_body n_kind nd std_array]. unfold rf.
  rewrite H1 by lia. cbn [i_capture n_info nd n_sp]. rewrite H2 by lia. cbn [i_capture n_info nd n_sp]. rewrite H3 by lia. cbn [i_capture n_info nd n_sp].
  by rewrite H4 by lia.
Qed.
Lemma gives_no_pair d op mo opd p v1 q1 : rules op = Some mo ->
  gives d n_sp p (Some (v1, q1)) -> gives d mo q1 None -> gives d (n_pair op opd) p None.
Proof.
  intros Ho H1 H2. apply (gives_ref d "" true false op) in H2; [|by right|done].
  destruct H1 as [f1 H1], H2 as [f2 H2].
  apply gives_nd; [discriminate|by left|]. exists (f1 + f2). intros f Hf. cbn [std_body n_kind nd std_array]. unfold rf.
  rewrite H1 by lia. cbn [i_capture n_info nd n_sp]. by rewrite H2 by lia.
Qed.

(** Operators. *)
Definition op_rule (l : nat) : node := match l with 0 => r_mulop | _ => r_addop end.
Definition op_name (l : nat) : string := match l with 0 => "MulOp" | _ => "AddOp" end.
Lemma op_rules l : rules (op_name l) = Some (op_rule l).
Proof. by destruct l. Qed.
Lemma gives_op d l o p rest : level o = S l -> at_ p (sign o :: rest) -> gives (S d) (op_rule l) p (Some (VStr [sign o], S p)).
Proof.
  intros Hl Hp.
  assert (forall b, sign o = b -> gives d (n_lit b) p (Some (VStr [b], S p))) as Hyes.
  { intros b <-. replace (S p) with (p + length [sign o]) by (cbn; lia). eapply gives_lit; [by left|]. exact Hp. }
  assert (forall b, sign o <> b -> gives d (n_lit b) p None) as Hno.
  { intros b Hb. eapply gives_no_lit; [by left|exact Hp|]. cbn. congruence. }
  destruct o, l as [|[|]]; try discriminate Hl; (apply gives_rl; [discriminate|]).
  - apply alt_first. by apply Hyes.
  - eapply alt_second; [by apply Hno|by apply Hyes].
  - apply alt_first. by apply Hyes.
  - eapply alt_second; [by apply Hno|by apply Hyes].
Qed.
(** What may follow an operand of level [l]. *)
Definition after (l : nat) : list N := match l with 0 => [43; 45; 42; 47; 41]%N | 1 => [43; 45; 41]%N | _ => [41]%N end.
Definition ends (l : nat) (s : bytes) : Prop := forall b, head s = Some b -> b ∈ after l.
Definition stops (l : nat) (s : bytes) : Prop := exists w r, s = w ++ r /\ blank w /\ ends l r.
Lemma gives_no_op d l p r : l < 2 -> at_ p r -> ends (S l) r -> gives (S d) (op_rule l) p None.
Proof.
  intros Hl Hp He.
  assert (forall b, b ∉ after (S l) -> gives d (n_lit b) p None) as Hno.
  { intros b Hb. eapply gives_no_lit; [by left|exact Hp|]. intros Hh. apply Hb. by apply He. }
  destruct l as [|[|]]; [| |lia]; (apply gives_rl; [discriminate|]); eapply alt_second; apply Hno; cbn; set_solver.
Qed.
Lemma ends_not_blank l r : ends l r -> not_blank r.
Proof.
  intros H b Hb. specialize (H b Hb). destruct l as [|[|l]]; cbn in H; unfold blank_b;
    repeat (apply elem_of_cons in H as [-> | H]; [done|]); by apply elem_of_nil in H.
Qed.

(** ** Operands and operators in turn *)
Definition item := (bytes * arith * bytes * aexp * bytes)%type.
Definition it_text (i : item) : bytes := let '(w, o, w', e, s) := i in w ++ [sign o] ++ w' ++ s.
Definition it_ok (l d : nat) (i : item) : Prop :=
  let '(w, o, w', e, s) := i in blank w /\ blank w' /\ level o = S l /\ prints l d e s.
Definition it_join (a : aexp) (i : item) : aexp := let '(w, o, w', e, s) := i in Bin o a e.
Definition it_val (i : item) (v : val) : Prop := let '(w, o, w', e, s) := i in val_of t e = Some v.
Definition it_pair (i : item) (v : val) : val := let '(w, o, w', e, s) := i in VArr [VStr [sign o]; v].

Lemma mjoin_app (l l' : list bytes) : mjoin (l ++ l') = mjoin l ++ mjoin l'.
Proof. induction l as [|x l IH]; [done|]. change (x ++ mjoin (l ++ l') = (x ++ mjoin l) ++ mjoin l'). by rewrite IH, app_assoc. Qed.
Lemma spine l d e s : prints (S l) d e s -> exists e0 s0 its, prints l d e0 s0 /\ Forall (it_ok l d) its /\
  s = s0 ++ mjoin (it_text <$> its) /\ e = fold_left it_join its e0.
Proof.
  intros H. remember (S l) as l1 eqn:El. revert l El. induction H as [d z s H|d e s w w' Hw Hw' H IH|l1 d e s H IH|l1 d o a b s w w' s' Ho Hw Hw' Ha IHa Hb IHb]; intros l [= ].
  - subst l1. exists e, s, []. cbn. rewrite app_nil_r. done.
  - subst l1. destruct (IHa l eq_refl) as (e0 & s0 & its & H0 & H1 & -> & ->).
    exists e0, s0, (its ++ [(w, o, w', b, s')]). split; [done|]. split; [apply Forall_app; split; [done|]; by repeat constructor|].
    rewrite fmap_app, mjoin_app, fold_left_app. cbn. rewrite app_nil_r, <- app_assoc. done.
Qed.

Lemma prints_head l d e s : prints l d e s -> exists b s', s = b :: s' /\ blank_b b = false.
Proof.
  assert (forall ds, ds <> [] -> Forall is_digit ds -> exists b s', ds = b :: s' /\ blank_b b = false) as Hds.
  { intros [|b ds] Hn Hf; [done|]. apply Forall_cons in Hf as [Hb _]. exists b, ds. split; [done|]. unfold is_digit in Hb. unfold blank_b.
    apply orb_false_iff. split; apply N.eqb_neq; lia. }
  induction 1 as [d z s H|d e s w w' Hw Hw' H IH|l d e s H IH|l d o a b s w w' s' Ho Hw Hw' Ha IHa Hb IHb].
  - destruct H as [ds Hn Hf|ds Hn Hf]; [by apply Hds|]. by exists 45%N, ds.
  - by eexists _, _.
  - done.
  - destruct IHa as (b' & s'' & -> & ?). by eexists _, _.
Qed.
Lemma not_blank_prints l d e s r : prints l d e s -> not_blank (s ++ r).
Proof. intros (b & s' & -> & Hb)%prints_head. intros c. cbn. by intros [= <-]. Qed.

Lemma sign_after l o : level o = S l -> sign o ∈ after l.
Proof. destruct o; intros [= <-]; cbn; set_solver. Qed.
Lemma after_up l : after (S l) ⊆ after l.
Proof. destruct l as [|[|l]]; cbn; set_solver. Qed.
Lemma stops_up l s : stops (S l) s -> stops l s.
Proof. intros (w & r & -> & Hw & Hr). exists w, r. split; [done|]. split; [done|]. intros b Hb. apply after_up. by apply Hr. Qed.
Lemma stops_items l d its post : Forall (it_ok l d) its -> stops (S l) post -> stops l (mjoin (it_text <$> its) ++ post).
Proof.
  intros [|[[[[w o] w'] e] s] its' H _]; cbn; intros Hp; [by apply stops_up|].
  destruct H as (Hw & _ & Ho & _). exists w. eexists. rewrite <- !app_assoc. split; [done|]. split; [done|].
  intros b. cbn. intros [= <-]. by apply sign_after.
Qed.

Section Chain.
Variables (l d D : nat) (opd : string) (m : node).
Hypothesis Hl : l < 2.
Hypothesis Hm : rules opd = Some m.
Hypothesis Hopd : forall e s v p post, prints l d e s -> val_of t e = Some v -> at_ p (s ++ post) -> stops l post ->
  gives (S D) m p (Some (v, p + length s)).

Lemma chain_stop p post : at_ p post -> stops (S l) post -> gives (S D) (n_pair (op_name l) opd) p None.
Proof.
  intros Hp (w & r & -> & Hw & Hr). destruct (gives_sp D w r p Hw (ends_not_blank _ _ Hr) Hp) as [v Hv].
  eapply gives_no_pair; [apply op_rules|exact Hv|]. eapply gives_no_op; [done| |exact Hr]. by apply at_app.
Qed.
Lemma chain_one i v p rest : it_ok l d i -> it_val i v -> at_ p (it_text i ++ rest) -> stops l rest ->
  gives (S D) (n_pair (op_name l) opd) p (Some (it_pair i v, p + length (it_text i))).
Proof.
  destruct i as [[[[w o] w'] e] s]. cbn [it_ok it_val it_text it_pair]. intros (Hw & Hw' & Ho & He) Hv Hp Hr.
  rewrite <- !app_assoc in Hp.
  destruct (gives_sp D w ([sign o] ++ w' ++ s ++ rest) p Hw) as [v1 H1]; [|done|].
  { intros b. cbn. intros [= <-]. by destruct o. }
  apply at_app in Hp. cbn [app] in Hp. pose proof (gives_op D l o _ _ Ho Hp) as H2. apply at_cons in Hp.
  destruct (gives_sp D w' (s ++ rest) _ Hw' (not_blank_prints _ _ _ _ _ He) Hp) as [v3 H3].
  apply at_app in Hp. pose proof (Hopd _ _ _ _ _ He Hv Hp Hr) as H4.
  replace (p + length (w ++ [sign o] ++ w' ++ s)) with (S (p + length w) + length w' + length s) by (rewrite !app_length; cbn; lia).
  by eapply gives_pair; [apply op_rules|exact Hm| | | |].
Qed.
Lemma chain_loops its vs : Forall2 it_val its vs -> Forall (it_ok l d) its -> forall acc p post,
  at_ p (mjoin (it_text <$> its) ++ post) -> stops (S l) post ->
  loops (S D) (n_pair (op_name l) opd) acc p (acc ++ zip_with it_pair its vs) (p + length (mjoin (it_text <$> its))).
Proof.
  induction 1 as [|i v its vs Hi Hv IH]; intros Hok acc p post Hp Hs; cbn [fmap list_fmap mjoin list_join zip_with] in *.
  - rewrite app_nil_r, Nat.add_0_r. apply loops_end. by eapply chain_stop.
  - apply Forall_cons in Hok as [Hi1 Hok]. rewrite <- app_assoc in Hp.
    eapply loops_more; [eapply chain_one; [done|done|exact Hp|by eapply stops_items]|].
    apply at_app in Hp. specialize (IH Hok (acc ++ [it_pair i v]) _ _ Hp Hs).
    rewrite <- app_assoc in IH. cbn [app] in IH. by rewrite app_length, Nat.add_assoc.
Qed.
Lemma chain_rest its vs p post : Forall2 it_val its vs -> Forall (it_ok l d) its ->
  at_ p (mjoin (it_text <$> its) ++ post) -> stops (S l) post ->
  gives (S D) (n_rest (op_name l) opd) p (Some (VArr (zip_with it_pair its vs), p + length (mjoin (it_text <$> its)))).
Proof.
  intros Hv Hok Hp Hs. apply gives_nd; [discriminate|by right|]. destruct Hv as [|i v its vs Hi Hv].
  - cbn. rewrite Nat.add_0_r. eapply (pat_empty _ (Info "" "rest" true false 0 false None false false)). by eapply chain_stop.
  - cbn [fmap list_fmap mjoin list_join zip_with] in *. apply Forall_cons in Hok as [Hi1 Hok]. rewrite <- app_assoc in Hp.
    eapply pat_some; [eapply chain_one; [done|done|exact Hp|by eapply stops_items]|]. apply at_app in Hp.
    pose proof (chain_loops its vs Hv Hok [it_pair i v] _ _ Hp Hs) as H. by rewrite app_length, Nat.add_assoc.
Qed.
End Chain.

(** ** Values *)
Lemma op_sign o a b : calc_op [sign o] a b = compute o a b.
Proof. by destruct o. Qed.
Lemma strict its : forall e0 v, val_of t (fold_left it_join its e0) = Some v ->
  exists v0 vs, val_of t e0 = Some v0 /\ Forall2 it_val its vs.
Proof.
  induction its as [|[[[[w o] w'] e] s] its IH]; intros e0 v Hv; cbn [fold_left] in Hv; [by exists v, []|].
  destruct (IH _ _ Hv) as (v1 & vs & H1 & H2). cbn [it_join] in H1. unfold val_of in H1. cbn [value] in H1.
  destruct (val_of t e0) as [v0|] eqn:E0, (val_of t e) as [v2|] eqn:E2.
  - exists v0, (v2 :: vs). by repeat constructor.
  - exfalso. unfold val_of in E2. destruct (value e); [done|]. destruct t; [done|]. by destruct (value e0).
  - exfalso. unfold val_of in E0. destruct (value e0); [done|]. by destruct t.
  - exfalso. unfold val_of in E0. destruct (value e0); [done|]. by destruct t.
Qed.
Lemma val_int e v : val_of t e = Some v -> match v with VInt z => value e = Some z | _ => value e = None end.
Proof. unfold val_of. destruct (value e); [by intros [= <-]|]. destruct t; [by intros [= <-]|done]. Qed.
Lemma fold_none its e0 : value e0 = None -> value (fold_left it_join its e0) = None.
Proof. revert e0. induction its as [|[[[[w o] w'] e] s] its IH]; intros e0 H; cbn; [done|]. apply IH. cbn. by rewrite H. Qed.
Lemma fold_value its vs : Forall2 it_val its vs -> forall e0 z, value e0 = Some z ->
  fold_v z (zip_with it_pair its vs) = value (fold_left it_join its e0).
Proof.
  induction 1 as [|[[[[w o] w'] e] s] v its vs Hi Hv IH]; intros e0 z H0; cbn [zip_with fold_left]; [done|].
  cbn [it_val it_pair it_join] in *. apply val_int in Hi. cbn [fold_v].
  destruct v as [|z2| | | | | |]; try (symmetry; apply fold_none; cbn; rewrite H0, Hi; done).
  rewrite op_sign. destruct (compute o z z2) as [c|] eqn:Ec.
  - apply IH. cbn. by rewrite H0, Hi.
  - symmetry. apply fold_none. cbn. by rewrite H0, Hi.
Qed.
Lemma fold_cb its vs e0 v0 v p : Forall2 it_val its vs -> val_of t e0 = Some v0 -> val_of t (fold_left it_join its e0) = Some v ->
  calc_cbf t 0 p (VMap [("first"%string, v0); ("rest"%string, VArr (zip_with it_pair its vs))]) = Some (Some v).
Proof.
  intros Hvs H0 Hv. unfold calc_cbf, calc_val. cbn [kv_get List.find fst snd String.eqb Ascii.eqb Bool.eqb fmap option_fmap option_map].
  pose proof (val_int _ _ H0) as Hz. unfold val_of in Hv.
  destruct v0 as [|z| | | | | |]; try (rewrite fold_none in Hv by done; destruct t; [injection Hv as <-; reflexivity|done]).
  cbn. rewrite (fold_value _ _ Hvs e0 z Hz). destruct (value (fold_left it_join its e0)); cbn; [by injection Hv as <-|].
  destruct t; [by injection Hv as <-|done].
Qed.

(** ** Numbers *)
Lemma digits10 b : is_digit b -> b = 48%N \/ b = 49%N \/ b = 50%N \/ b = 51%N \/ b = 52%N \/ b = 53%N \/ b = 54%N \/ b = 55%N \/ b = 56%N \/ b = 57%N.
Proof. unfold is_digit. lia. Qed.
Lemma digits_fold ds : Forall is_digit ds -> forall acc,
  atoi_digits ds acc = Some (fold_left (fun n b => 10 * n + (Z.of_N b - 48))%Z ds acc).
Proof.
  induction 1 as [|b ds Hb H IH]; intros acc; [done|]. cbn [atoi_digits fold_left]. unfold digit_val, is_digit in *.
  replace ((48 <=? b) && (b <=? 57))%N%bool with true by (symmetry; apply andb_true_iff; split; apply N.leb_le; lia).
  rewrite IH. f_equal. f_equal. lia.
Qed.
Lemma atoi_numeral s z : numeral s z -> atoi s = if fits z then Some z else None.
Proof.
  intros [ds Hn Hf|ds Hn Hf].
  - destruct Hf as [|b ds Hb Hf]; [done|]. pose proof (digits_fold (b :: ds) ltac:(by constructor) 0) as H. fold (decimal (b :: ds)) in H.
    unfold atoi. destruct (digits10 b Hb) as [-> |[-> |[-> |[-> |[-> |[-> |[-> |[-> |[-> | ->]]]]]]]]]; cbv iota beta; rewrite H; reflexivity.
  - destruct Hf as [|b ds Hb Hf]; [done|]. pose proof (digits_fold (b :: ds) ltac:(by constructor) 0) as H. fold (decimal (b :: ds)) in H.
    unfold atoi. cbv iota beta. rewrite H. reflexivity.
Qed.
Lemma run_digits ds r : Forall is_digit ds -> (forall b, head r = Some b -> ~ is_digit b) -> run_len digit_b (ds ++ r) = length ds.
Proof.
  intros H Hr. induction H as [|b ds Hb H IH]; cbn.
  - destruct r as [|b r]; [done|]. cbn. specialize (Hr b eq_refl). unfold digit_b. unfold is_digit in Hr.
    destruct (_ && _)%bool eqn:E; [|done]. apply andb_prop in E as [E1 E2]. apply N.leb_le in E1, E2. lia.
  - unfold digit_b, is_digit in *. replace ((48 <=? b) && (b <=? 57))%N%bool with true by (symmetry; apply andb_true_iff; split; apply N.leb_le; lia).
    by rewrite IH.
Qed.
Lemma rx_number s z r : numeral s z -> (forall b, head r = Some b -> ~ is_digit b) -> calc_rx re_number (s ++ r) = Some (0, length s).
Proof.
  intros H Hr. unfold calc_rx. change (bytes_eqb re_number re_blank) with false. change (bytes_eqb re_number re_number) with true. cbv iota.
  destruct H as [ds Hn Hf|ds Hn Hf].
  - pose proof (run_digits ds r Hf Hr) as HL. destruct Hf as [|b ds Hb Hf]; [done|]. cbn [app] in *.
    destruct (digits10 b Hb) as [-> |[-> |[-> |[-> |[-> |[-> |[-> |[-> |[-> | ->]]]]]]]]]; cbv iota beta; rewrite HL; reflexivity.
  - cbn [app]. rewrite (run_digits ds r Hf Hr). by destruct ds.
Qed.
Lemma stops_no_digit l r : stops l r -> forall b, head r = Some b -> ~ is_digit b.
Proof.
  intros (w & r' & -> & Hw & Hr) b Hb Hd. unfold is_digit in Hd. destruct Hw as [|c w Hc Hw]; cbn in Hb.
  - specialize (Hr b Hb). destruct l as [|[|l]]; cbn in Hr; repeat (apply elem_of_cons in Hr as [-> | Hr]; [lia|]); by apply elem_of_nil in Hr.
  - injection Hb as ->. lia.
Qed.
Lemma gives_integer d s z v p post : numeral s z -> val_of t (Num z) = Some v -> at_ p (s ++ post) -> stops 0 post ->
  gives (S d) r_integer p (Some (v, p + length s)).
Proof.
  intros Hn Hv Hp Hs. eapply gives_rl_cb; [discriminate| |].
  - exists 0. intros f _. cbn [std_body rl n_kind]. unfold rgx. unfold at_ in Hp. rewrite Hp.
    rewrite (rx_number s z) by (done || by eapply stops_no_digit). rewrite take_app. reflexivity.
  - unfold calc_cbf, calc_val. rewrite (atoi_numeral s z Hn). unfold val_of in Hv. cbn [value] in Hv. destruct (fits z); cbn; [by injection Hv as <-|].
    destruct t; [by injection Hv as <-|done].
Qed.

(** ** Factors, terms, expressions *)
Definition factors (d : nat) : Prop := forall e s v p post, prints 0 d e s -> val_of t e = Some v -> at_ p (s ++ post) -> stops 0 post ->
  gives (3 * d + 2) r_factor p (Some (v, p + length s)).
Definition terms (d : nat) : Prop := forall e s v p post, prints 1 d e s -> val_of t e = Some v -> at_ p (s ++ post) -> stops 1 post ->
  gives (3 * d + 3) r_term p (Some (v, p + length s)).
Definition exprs (d : nat) : Prop := forall e s v p w w' post, prints 2 d e s -> blank w -> blank w' -> val_of t e = Some v ->
  at_ p (w ++ s ++ w' ++ post) -> ends 2 post -> gives (3 * d + 4) r_expr p (Some (v, p + length (w ++ s ++ w'))).

Lemma stops_blank l w r : blank w -> ends l r -> stops l (w ++ r).
Proof. intros. by exists w, r. Qed.

Lemma terms_from d : factors d -> terms d.
Proof.
  intros HF e s v p post Hpr Hv Hp Hs. destruct (spine 0 d e s Hpr) as (e0 & s0 & its & H0 & Hok & -> & ->).
  destruct (strict _ _ _ Hv) as (v0 & vs & Hv0 & Hvs). rewrite <- app_assoc in Hp.
  replace (3 * d + 3) with (S (S (S (3 * d)))) by lia.
  assert (forall e s v p post, prints 0 d e s -> val_of t e = Some v -> at_ p (s ++ post) -> stops 0 post ->
    gives (S (S (3 * d))) r_factor p (Some (v, p + length s))) as HF'.
  { intros. replace (S (S (3 * d))) with (3 * d + 2) by lia. by eapply HF. }
  pose proof (HF' _ _ _ _ _ H0 Hv0 Hp (stops_items _ _ _ _ Hok Hs)) as H1.
  apply (gives_ref _ "first" true false "Factor") in H1; [|by right|done].
  apply at_app in Hp.
  pose proof (chain_rest 0 d (S (3 * d)) "Factor" r_factor ltac:(lia) eq_refl HF' its vs _ _ Hvs Hok Hp Hs) as H2.
  destruct H1 as [f1 H1], H2 as [f2 H2]. rewrite app_length, Nat.add_assoc. eapply gives_rl_cb; [discriminate| |by eapply fold_cb].
  exists (f1 + f2). intros f Hf. cbn [std_body rl n_kind std_object]. unfold n_first. rewrite H1 by lia. cbn [n_info nd i_label String.eqb Ascii.eqb Bool.eqb orb].
  change "MulOp"%string with (op_name 0). rewrite H2 by lia. reflexivity.
Qed.
Lemma exprs_from d : terms d -> exprs d.
Proof.
  intros HT e s v p w w' post Hpr Hw Hw' Hv Hp Hs. destruct (spine 1 d e s Hpr) as (e0 & s0 & its & H0 & Hok & -> & ->).
  destruct (strict _ _ _ Hv) as (v0 & vs & Hv0 & Hvs). rewrite <- !app_assoc in Hp.
  replace (3 * d + 4) with (S (S (S (S (3 * d))))) by lia.
  assert (forall e s v p post, prints 1 d e s -> val_of t e = Some v -> at_ p (s ++ post) -> stops 1 post ->
    gives (S (S (S (3 * d)))) r_term p (Some (v, p + length s))) as HT'.
  { intros. replace (S (S (S (3 * d)))) with (3 * d + 3) by lia. by eapply HT. }
  destruct (gives_sp (S (S (3 * d))) w _ p Hw (not_blank_prints _ _ _ _ _ H0) Hp) as [u Hu]. apply at_app in Hp.
  pose proof (stops_blank 2 _ _ Hw' Hs) as Hst.
  pose proof (HT' _ _ _ _ _ H0 Hv0 Hp (stops_items _ _ _ _ Hok Hst)) as H1.
  apply (gives_ref _ "first" true false "Term") in H1; [|by right|done].
  apply at_app in Hp.
  pose proof (chain_rest 1 d (S (S (3 * d))) "Term" r_term ltac:(lia) eq_refl HT' its vs _ _ Hvs Hok Hp Hst) as H2.
  apply at_app in Hp. destruct (gives_sp (S (S (3 * d))) w' _ _ Hw' (ends_not_blank _ _ Hs) Hp) as [u' Hu'].
  destruct H1 as [f1 H1], H2 as [f2 H2], Hu as [f3 H3], Hu' as [f4 H4]. rewrite !app_length, !Nat.add_assoc. eapply gives_rl_cb; [discriminate| |by eapply fold_cb].
  exists (f1 + f2 + f3 + f4). intros f Hf. cbn [std_body rl n_kind std_object]. rewrite H3 by lia. cbn [n_info nd n_sp i_label String.eqb Ascii.eqb Bool.eqb orb].
  unfold n_first. rewrite H1 by lia. cbn [n_info nd i_label String.eqb Ascii.eqb Bool.eqb orb].
  change "AddOp"%string with (op_name 1). rewrite H2 by lia. cbn [n_info nd n_rest i_label String.eqb Ascii.eqb Bool.eqb orb].
  rewrite H4 by lia. reflexivity.
Qed.
Lemma numeral_head s z r b : numeral s z -> head (s ++ r) = Some b -> b <> 40%N.
Proof.
  intros [ds Hn Hf|ds Hn Hf]; cbn.
  - destruct Hf as [|c ds Hc Hf]; [done|]. cbn. unfold is_digit in Hc. intros [= <-]. lia.
  - by intros [= <-].
Qed.
Lemma gives_single3 d a b c p v1 q1 v2 q2 v3 q3 lb1 lb2 : 
  gives d (nd lb1 false false a) p (Some (v1, q1)) -> gives d (nd lb2 true false b) q1 (Some (v2, q2)) -> gives d (nd lb1 false false c) q2 (Some (v3, q3)) ->
  gives d (nd "" true true (KSeq TSingle [nd lb1 false false a; nd lb2 true false b; nd lb1 false false c])) p (Some (v2, q3)).
Proof.
  intros [f1 H1] [f2 H2] [f3 H3]. apply gives_nd; [discriminate|by left|]. exists (f1 + f2 + f3). intros f Hf. cbn [std_body nd n_kind std_single].
  change (Node (Info "" lb1 false false 0 false None false false) a) with (nd lb1 false false a).
  change (Node (Info "" lb2 true false 0 false None false false) b) with (nd lb2 true false b).
  change (Node (Info "" lb1 false false 0 false None false false) c) with (nd lb1 false false c).
  rewrite H1 by lia. cbn [n_info nd i_capture]. rewrite H2 by lia. cbn [n_info nd i_capture]. rewrite H3 by lia. reflexivity.
Qed.
Lemma gives_no_paren d p s : at_ p s -> head s <> Some 40%N -> gives d n_paren p None.
Proof.
  intros Hp Hh. destruct (gives_no_lit d "" false false 40 p s (or_introl eq_refl) Hp Hh) as [f0 H].
  apply gives_nd; [discriminate|by left|]. exists f0. intros f Hf. cbn [std_body nd n_kind std_single].
  change (Node (Info "" "" false false 0 false None false false) (KStr [40%N])) with (nd "" false false (KStr [40%N])). by rewrite H by lia.
Qed.
Lemma factors_from d : (forall d', d = S d' -> exprs d') -> factors d.
Proof.
  intros IH e s v p post Hpr Hv Hp Hs. inversion Hpr as [d' z s' Hn|d' e' s' w w' Hw Hw' Hpr'| |]; subst.
  - replace (3 * d + 2) with (S (S (3 * d))) by lia. apply gives_rl; [discriminate|]. eapply alt_second.
    + eapply gives_no_paren; [exact Hp|]. intros Hh. by eapply numeral_head in Hh.
    + eapply gives_ref; [by left|reflexivity|by eapply gives_integer].
  - replace (3 * S d' + 2) with (S (3 * d' + 4)) by lia. apply gives_rl; [discriminate|]. apply alt_first.
    rewrite <- !app_assoc in Hp. cbn [app length] in *.
    pose proof (gives_lit (3 * d' + 4) "" false false [40%N] p _ (or_introl eq_refl) Hp) as H1. apply at_cons in Hp.
    assert (ends 2 (41%N :: post)) as Hend by (intros b [= <-]; cbn; set_solver).
    pose proof (IH d' eq_refl _ _ _ _ _ _ _ Hpr' Hw Hw' Hv Hp Hend) as H2.
    rewrite !app_assoc in Hp. apply at_app in Hp. rewrite <- !app_assoc in Hp.
    pose proof (gives_lit (3 * d' + 4) "" false false [41%N] _ post (or_introl eq_refl) Hp) as H3. cbn [length] in *.
    rewrite Nat.add_1_r in H1. apply (gives_ref _ "" true false "Expr") in H2; [|by left|done].
    pose proof (gives_single3 _ _ _ _ _ _ _ _ _ _ _ _ _ H1 H2 H3) as H.
    replace (p + S (length (w ++ s' ++ w' ++ [41%N]))) with (S p + length (w ++ s' ++ w') + 1) by (rewrite !app_length; cbn; lia).
    exact H.
Qed.
Lemma exprs_all d : exprs d.
Proof. induction d as [|d IH]; apply exprs_from, terms_from, factors_from; [done|]. by intros ? [= <-]. Qed.
End Text.
