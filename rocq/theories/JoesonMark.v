(** The parse functions of the joeson grammar as functions of values; the same
    with marks in the tags of the parsers that will be given a label. *)
From stdpp Require Import sets.
From Verif Require Import Base Helpers Utf8 Stream StreamSpec Native Engine EngSpec EngInv Peg PegRep PegBody PegStd RunSpec PegRun Build BuildMain
  Joeson JoesonSpec JoesonRun Erase.

(** ** Tags *)
Definition mark_tag (m : option string) (t : string) : string :=
  match m with None => t | Some l => ("!" ++ t ++ "!" ++ l)%string end.
Fixpoint no_bang (t : string) : bool :=
  match t with EmptyString => true | String c r => (negb (Ascii.eqb c "!"%char) && no_bang r)%bool end.
Lemma before_bang_mark t l : no_bang t = true -> before_bang (t ++ "!" ++ l) = t.
Proof. induction t as [|c t IH]; [done|]. cbn. destruct (Ascii.eqb c "!"); [done|]. intros H. cbn in H. f_equal. by apply IH. Qed.
Lemma after_bang_mark t l : no_bang t = true -> after_bang (t ++ "!" ++ l) = Some l.
Proof. induction t as [|c t IH]; [done|]. cbn. destruct (Ascii.eqb c "!"); [done|]. intros H. by apply IH. Qed.
Lemma er_plain t : no_bang t = true -> er_tag t = t.
Proof. destruct t as [|c t]; [done|]. cbn. by destruct (Ascii.eqb c "!"). Qed.
Lemma er_mark m t : no_bang t = true -> er_tag (mark_tag m t) = t.
Proof. intros H. destruct m as [l|]; [|by apply er_plain]. by apply (before_bang_mark t l). Qed.
Lemma tag_mark l t : no_bang t = true -> tag_label (mark_tag (Some l) t) = Some l.
Proof. intros H. by apply (after_bang_mark t l). Qed.

(** ** The functions on values *)
Definition kv_at (kv : list (string * val)) (k : string) : option val := snd <$> List.find (fun q => String.eqb k (fst q)) kv.
Definition v_parser (v : val) : bool := match v with VUndef | VParser _ _ _ => true | _ => false end.
Fixpoint v_strings (l : list val) : option bytes :=
  match l with
  | [] => Some []
  | VStr s :: l' => match v_strings l' with Some r => Some (s ++ r) | None => None end
  | _ => None
  end.
Definition v_cat (v : val) : option bytes := match v with VArr l => v_strings l | _ => None end.
Definition v_bound (o : option val) : option Z :=
  match o with None | Some VUndef => Some (-1)%Z | Some (VInt z) => Some z | _ => None end.
(** A new parser, or a value. *)
Inductive made_by := New (t : string) (args : list val) | Old (v : val).
Definition jv_pat (kv : list (string * val)) (mn mx : option Z) : option made_by :=
  match kv_at kv "value", mn, mx with
  | Some v, Some mn, Some mx =>
      let j := default VUndef (kv_at kv "join") in
      if (v_parser v && v_parser j)%bool then Some (New t_pat [v; j; VInt mn; VInt mx]) else None
  | _, _, _ => None
  end.
Section Oracle.
Variable re_ok : bytes -> bool.
Definition jv_regex (pre post : bytes) (v : val) : option made_by :=
  match v_cat v with
  | Some s => if re_ok (pre ++ s ++ post) then Some (New t_regex [VStr (pre ++ s ++ post)]) else None
  | None => None
  end.
Definition jval (c : nat) (v : val) : option made_by :=
  match c, v with
  | 0, VArr l => if forallb v_parser l then Some (New t_choice l) else None
  | 1, VArr l => if forallb v_parser l then Some (New t_seq l) else None
  | 2, _ => if v_parser v then Some (New t_exist [v]) else None
  | 3, VMap kv => jv_pat kv (v_bound (kv_at kv "min")) (v_bound (kv_at kv "max"))
  | 4, VMap kv => jv_pat kv (Some 1%Z) (Some (-1)%Z)
  | 5, _ => if v_parser v then Some (New t_not [v]) else None
  | 6, VMap kv => match kv_at kv "expr" with Some e => if v_parser e then Some (New t_look [e]) else None | None => None end
  | 7, VStr (b :: s) => Some (New t_ref [VStr (b :: s)])
  | 7, VArr [VStr (b :: s); e] => if v_parser e then Some (New t_ref [VStr (b :: s); e]) else None
  | 8, VMap kv => match kv_at kv "code", kv_at kv "expr" with None, Some e => Some (Old e) | _, _ => None end
  | 9, _ => match v_cat v with Some s => Some (New t_str [VStr s]) | None => None end
  | 10, _ => jv_regex [] [] v
  | 11, _ => jv_regex (s2b "[") (s2b "]") v
  | 12, VStr s => match atoi s with Some z => Some (Old (VInt z)) | None => None end
  | 13, VStr s => Some (Old (VStr (s2b "\" ++ s)))
  | _, _ => None
  end.

(** Which parser will be given which label: by parse function and end. *)
Variable mk : nat -> nat -> option string.
Definition jcbf (c e : nat) (v : val) : option (option val) :=
  match jval c v with
  | Some (New t args) => Some (Some (VParser (mark_tag (mk c e) t) args ""))
  | Some (Old w) => Some (Some w)
  | None => None
  end.

(** The parse functions, marking. *)
Definition mark_at (m : option string) (k : nat) (h : heap) : heap :=
  match h !! k with
  | Some (Obj (OParser t args lb) at_) => <[k := Obj (OParser (mark_tag m t) args lb) at_]> h
  | _ => h
  end.
Definition mcb (c p : nat) (h : heap) (x : ast) : cbres :=
  match joeson_cb re_ok c p h x with
  | CbRet h' y => CbRet (mark_at (mk c p) (length h) h') y
  | CbPanic t => CbPanic t
  end.

(** ** Erasing the marks *)
Lemma er_parser h x : is_parser (er_heap h) x = is_parser h x.
Proof. destruct x as [| | | |a| |]; try done. cbn. rewrite er_heap_lookup. by destruct (h !! a) as [[[] ]|]. Qed.
Lemma er_map_at h x : map_at (er_heap h) x = map_at h x.
Proof. destruct x as [| | | |a| |]; try done. cbn. rewrite er_heap_lookup. by destruct (h !! a) as [[[] ]|]. Qed.
Lemma mapr_ext {A B} (f g : A -> res B) l : (forall x, f x = g x) -> mapr f l = mapr g l.
Proof. intros H. induction l as [|x l IH]; [done|]. cbn. by rewrite H, IH. Qed.
Lemma er_string fuel : forall h x, ast_string (fun _ => []) fuel (er_heap h) x = ast_string (fun _ => []) fuel h x.
Proof.
  induction fuel as [|fuel IH]; intros h x; [done|]. destruct x as [| | |l|a| |]; try done.
  - cbn [ast_string]. by rewrite (mapr_ext _ (ast_string (fun _ => []) fuel h) l (IH h)).
  - cbn [ast_string]. rewrite er_heap_lookup. destruct (h !! a) as [[[m|t args lb] at_]|]; try done. cbn.
    f_equal. apply mapr_ext. intros k. destruct (nm_get_or_panic m k); [|done|done]. cbn. by rewrite IH.
Qed.
Lemma er_concat fuel : forall h l, concat_arr (fun _ => []) fuel (er_heap h) l = concat_arr (fun _ => []) fuel h l.
Proof.
  induction fuel as [|fuel IH]; intros h l; [done|]. cbn [concat_arr]. f_equal. apply mapr_ext. intros [| | | | | |]; try done; first [apply er_string|apply IH].
Qed.
Local Opaque concat_arr ast_string.
Lemma er_cat h x : cat (er_heap h) x = cat h x.
Proof. destruct x as [| | |l| | |]; unfold cat; [reflexivity|reflexivity|reflexivity| |reflexivity|reflexivity|reflexivity]. rewrite er_concat. reflexivity. Qed.
Lemma er_new h t args : no_bang t = true -> new_obj (er_heap h) t args = er_cb (new_obj h t args).
Proof. intros H. unfold new_obj. cbn. rewrite er_heap_length. unfold er_heap. rewrite map_app. cbn. unfold er_obj. cbn. by rewrite er_plain. Qed.
Lemma er_pat h x : cb_pat (er_heap h) x = er_cb (cb_pat h x).
Proof.
  unfold cb_pat. rewrite er_map_at. destruct (map_at h x) as [[[a m] at_]|]; [|done]. destruct (nm_get m "value"); [|done]. cbn zeta.
  rewrite !er_parser. destruct (_ && _)%bool; [|done]. destruct (bound_of m "min"), (bound_of m "max"); try done. by apply er_new.
Qed.
Lemma er_joeson c p h x : joeson_cb re_ok c p (er_heap h) x = er_cb (joeson_cb re_ok c p h x).
Proof.
  assert (forall l, forallb (is_parser (er_heap h)) l = forallb (is_parser h) l) as HL.
  { induction l as [|y l IH]; [done|]. cbn. by rewrite er_parser, IH. }
  do 14 (try destruct c as [|c]); cbn [joeson_cb]; try done.
  - destruct x as [| | |l| | |]; try done. cbn. rewrite HL. destruct (forallb _ _); [by apply er_new|done].
  - destruct x as [| | |l| | |]; try done. cbn. rewrite HL. destruct (forallb _ _); [by apply er_new|done].
  - unfold cb_one. rewrite er_parser. destruct (is_parser h x); [by apply er_new|done].
  - apply er_pat.
  - unfold cb_plus. rewrite er_map_at. destruct (map_at h x) as [[[a m] at_]|]; [|done].
    rewrite <- er_pat. f_equal. unfold er_heap. symmetry. apply (list_fmap_insert er_obj).
  - unfold cb_one. rewrite er_parser. destruct (is_parser h x); [by apply er_new|done].
  - unfold cb_look. rewrite er_map_at. destruct (map_at h x) as [[[a m] at_]|]; [|done]. destruct (nm_get m "expr") as [e|]; [|done].
    rewrite er_parser. destruct (is_parser h e); [by apply er_new|done].
  - unfold cb_ref. destruct x as [[|b s]| | |l| | |]; try done; [by apply er_new|].
    destruct l as [|[[|b s]| | | | | |] l]; try done. destruct l as [|q l]; [by apply er_new|]. rewrite er_parser. destruct (is_parser h q); [by apply er_new|done].
  - unfold cb_code. rewrite er_map_at. destruct (map_at h x) as [[[a m] at_]|]; [|done]. destruct (nm_is_undefined m "code"); [|done]. by destruct (nm_get m "expr").
  - unfold cb_str. rewrite er_cat. destruct (cat h x); [by apply er_new|done].
  - unfold cb_regex. rewrite er_cat. destruct (cat h x); [|done]. destruct (re_ok _); [by apply er_new|done].
  - unfold cb_regex. rewrite er_cat. destruct (cat h x); [|done]. destruct (re_ok _); [by apply er_new|done].
  - destruct x as [| | |l| | |]; try done; cbn [native_int_from]; [by destruct (atoi s)|]. rewrite er_concat. destruct (concat_arr _ _ _ _); cbn; try done. by destruct (atoi _).
  - by destruct x.
Qed.

(** What a parse function leaves at the end of the heap. *)
Lemma joeson_new c p h x h' y : joeson_cb re_ok c p h x = CbRet h' y ->
  length h' = length h \/ exists h0 t args, h' = h0 ++ [Obj (OParser t args "") attr0] /\ length h0 = length h /\ no_bang t = true.
Proof.
  assert (forall h1 t args, no_bang t = true -> length h1 = length h -> new_obj h1 t args = CbRet h' y ->
    length h' = length h \/ exists h0 t args, h' = h0 ++ [Obj (OParser t args "") attr0] /\ length h0 = length h /\ no_bang t = true) as HN.
  { intros h1 t args Ht Hl [= <- <-]. right. by exists h1, t, args. }
  assert (forall h1, length h1 = length h -> cb_pat h1 x = CbRet h' y ->
    length h' = length h \/ exists h0 t args, h' = h0 ++ [Obj (OParser t args "") attr0] /\ length h0 = length h /\ no_bang t = true) as HP.
  { intros h1 Hl. unfold cb_pat. destruct (map_at h1 x) as [[[a m] at_]|]; [|done]. destruct (nm_get m "value"); [|done]. cbn zeta.
    destruct (_ && _)%bool; [|done]. destruct (bound_of m "min"), (bound_of m "max"); try done. by apply HN. }
  do 14 (try destruct c as [|c]); cbn [joeson_cb]; try done.
  - destruct x as [| | |l| | |]; try done. cbn. destruct (forallb _ _); [by apply HN|done].
  - destruct x as [| | |l| | |]; try done. cbn. destruct (forallb _ _); [by apply HN|done].
  - unfold cb_one. destruct (is_parser h x); [by apply HN|done].
  - by apply HP.
  - unfold cb_plus. destruct (map_at h x) as [[[a m] at_]|]; [|done]. apply HP. apply insert_length.
  - unfold cb_one. destruct (is_parser h x); [by apply HN|done].
  - unfold cb_look. destruct (map_at h x) as [[[a m] at_]|]; [|done]. destruct (nm_get m "expr") as [e|]; [|done].
    destruct (is_parser h e); [by apply HN|done].
  - unfold cb_ref. destruct x as [[|b s]| | |l| | |]; try done; [by apply HN|].
    destruct l as [|[[|b s]| | | | | |] l]; try done. destruct l as [|q l]; [by apply HN|]. destruct (is_parser h q); [by apply HN|done].
  - unfold cb_code. destruct (map_at h x) as [[[a m] at_]|]; [|done]. destruct (nm_is_undefined m "code"); [|done]. destruct (nm_get m "expr"); [|done]. intros [= <- <-]. by left.
  - unfold cb_str. destruct (cat h x); [by apply HN|done].
  - unfold cb_regex. destruct (cat h x); [|done]. destruct (re_ok _); [by apply HN|done].
  - unfold cb_regex. destruct (cat h x); [|done]. destruct (re_ok _); [by apply HN|done].
  - destruct (native_int_from _ _ _ _); try done. intros [= <- <-]. by left.
  - destruct x; try done. intros [= <- <-]. by left.
Qed.
Lemma mark_at_none m h k : length h = k -> mark_at m k h = h.
Proof. intros <-. unfold mark_at. by rewrite (lookup_ge_None_2 h (length h)). Qed.
Lemma mark_at_new m h0 k t args : length h0 = k -> mark_at m k (h0 ++ [Obj (OParser t args "") attr0]) = h0 ++ [Obj (OParser (mark_tag m t) args "") attr0].
Proof.
  intros <-. unfold mark_at. rewrite lookup_app_r, Nat.sub_diag by lia. cbn.
  rewrite (insert_app_r_alt _ _ (length h0)) by lia. by rewrite Nat.sub_diag.
Qed.
Lemma er_mcb c p h x : joeson_cb re_ok c p (er_heap h) x = er_cb (mcb c p h x).
Proof.
  rewrite er_joeson. unfold mcb. destruct (joeson_cb re_ok c p h x) as [h' y|] eqn:EJ; [|done]. cbn. f_equal.
  destruct (joeson_new _ _ _ _ _ _ EJ) as [Hl|(h0 & t & args & -> & Hl & Ht)].
  - by rewrite mark_at_none.
  - rewrite (mark_at_new _ h0) by done. unfold er_heap. rewrite !map_app. cbn. unfold er_obj. cbn. by rewrite er_mark, er_plain.
Qed.

(** ** The functions compute the values *)
Lemma rep_is_parser P h x v : rep P h x v -> is_parser h x = v_parser v.
Proof. destruct 1 as [| | | | | |a m at_ kv Ha Hh|a t l l' lb lb' at_ Ha Hh]; try done; cbn; by rewrite Hh. Qed.
Lemma reps_parsers P h l l' : reps P h l l' -> forallb (is_parser h) l = forallb v_parser l'.
Proof. induction 1 as [|x v l l' Hx Hl IH]; [done|]. cbn. by rewrite (rep_is_parser _ _ _ _ Hx), IH. Qed.
Local Transparent concat_arr.
Lemma reps_cat fuel P h l l' : reps P h l l' -> forall s, v_strings l' = Some s ->
  exists xs, mapr (fun e => match e with AStr s => ROk s | AArr l' => concat_arr (fun _ => []) fuel h l' | AUndef => ROk [] | _ => ast_string (fun _ => []) fuel h e end) l
    = ROk xs /\ mjoin xs = s.
Proof.
  induction 1 as [|x v l l' Hx Hl IH]; intros s; cbn [v_strings]; [intros [= <-]; by exists []|].
  destruct v as [s1| | | | | | |]; try done. destruct (v_strings l') as [r|]; [|done]. intros [= <-]. inversion Hx; subst.
  destruct (IH r eq_refl) as (xs & H1 & H2). exists (s1 :: xs). cbn [mapr rbind]. rewrite H1. cbn. split; [reflexivity|]. by rewrite <- H2.
Qed.
Lemma reps_concat fuel P h l l' s : reps P h l l' -> v_strings l' = Some s -> concat_arr (fun _ => []) (S fuel) h l = ROk s.
Proof. intros Hl Hs. destruct (reps_cat fuel P h l l' Hl s Hs) as (xs & H1 & H2). cbn [concat_arr]. rewrite H1. cbn. by rewrite H2. Qed.
Lemma rep_cat P h x v s : rep P h x v -> v_cat v = Some s -> cat h x = Some s.
Proof.
  destruct 1 as [| | | |l l' Hl| | |]; try discriminate. cbn [v_cat]. intros Hs. unfold cat. by rewrite (reps_concat 9 _ _ _ _ _ Hl Hs).
Qed.
Local Opaque concat_arr.
Lemma kv_at_some P h m kv k v : repf P h m kv -> kv_at kv k = Some v -> exists x, nm_get m k = Some x /\ rep P h x v.
Proof.
  unfold kv_at. induction 1 as [|m k' v' kv x Hx Hr Hf IH]; [done|]. cbn [List.find fst].
  destruct (String.eqb_spec k k') as [-> |]; [cbn; intros [= ->]; eauto|]. done.
Qed.
Lemma kv_at_none m kv k : has_keys m kv.*1 -> kv_at kv k = None -> nm_get m k = None.
Proof.
  intros [_ H] HK. apply H. intros Hin. apply elem_of_list_fmap in Hin as ([k' v'] & -> & Hin). cbn in HK.
  unfold kv_at in HK. destruct (List.find _ kv) eqn:EF; [done|]. apply elem_of_list_In in Hin.
  pose proof (List.find_none _ _ EF _ Hin) as HE. cbn in HE. by rewrite String.eqb_refl in HE.
Qed.
Lemma bound_rep P h m kv k z : has_keys m kv.*1 -> repf P h m kv -> v_bound (kv_at kv k) = Some z -> bound_of m k = Some z.
Proof.
  intros HK Hf. unfold bound_of. destruct (kv_at kv k) as [v|] eqn:EK.
  - destruct (kv_at_some _ _ _ _ _ _ Hf EK) as (x & -> & Hx). destruct Hx; try done.
  - by rewrite (kv_at_none _ _ _ HK EK).
Qed.
(** Reading the parts of a pattern. *)
Lemma pat_rep P h h1 x a m at_ kv mn mx r : x = AObj a -> h1 !! a = Some (Obj (OMap m) at_) -> has_keys m kv.*1 -> repf P h m kv ->
  (forall y v, rep P h y v -> rep P h1 y v) ->
  bound_of m "min" = Some mn -> bound_of m "max" = Some mx -> jv_pat kv (Some mn) (Some mx) = Some r ->
  exists t args args', r = New t args /\ cb_pat h1 x = CbRet (h1 ++ [Obj (OParser t args' "") attr0]) (Some (AObj (length h1))) /\ reps P h1 args' args.
Proof.
  intros -> Hh HK Hf Hup Hmn Hmx. unfold jv_pat. destruct (kv_at kv "value") as [v|] eqn:EV; [|done]. cbn zeta.
  destruct (kv_at_some _ _ _ _ _ _ Hf EV) as (xv & Hv & Rv). apply Hup in Rv.
  assert (exists xj, default AUndef (nm_get m "join") = xj /\ rep P h1 xj (default VUndef (kv_at kv "join"))) as (xj & Hj & Rj).
  { destruct (kv_at kv "join") as [j|] eqn:EJ.
    - destruct (kv_at_some _ _ _ _ _ _ Hf EJ) as (xj & -> & Rj). exists xj. split; [done|]. by apply Hup.
    - rewrite (kv_at_none _ _ _ HK EJ). exists AUndef. split; [done|constructor]. }
  destruct (v_parser v && v_parser _)%bool eqn:EP; [|done]. intros [= <-].
  eexists _, _, [xv; xj; AInt mn; AInt mx]. split; [done|]. split.
  - unfold cb_pat, map_at. rewrite Hh, Hv, Hj. cbn zeta. rewrite (rep_is_parser _ _ _ _ Rv), (rep_is_parser _ _ _ _ Rj), EP, Hmn, Hmx. done.
  - repeat constructor; done.
Qed.

Definition owns (c : nat) : bool := c =? 4.
Lemma mcb_keeps E c : e_cb E = mcb -> owns c = false -> cb_keeps E jcbf c.
Proof.
  intros HE Hc p h x v P Hr HP. rewrite HE. unfold jcbf, mcb.
  assert (forall t args args', no_bang t = true -> joeson_cb re_ok c p h x = new_obj h t args' -> reps P h args' args ->
    exists h' y, (match joeson_cb re_ok c p h x with CbRet h' y => CbRet (mark_at (mk c p) (length h) h') y | CbPanic t => CbPanic t end) = CbRet h' y /\
      hext h h' /\ exists z, y = Some z /\ rep P h' z (VParser (mark_tag (mk c p) t) args "")) as HN.
  { intros t args args' Ht -> Ha. unfold new_obj. rewrite mark_at_new by done. eexists _, _. split; [reflexivity|]. split; [apply hext_app|].
    eexists. split; [done|]. eapply (rep_parser _ _ _ _ args' args "" ""); [| |eapply reps_hext; [exact Ha|apply (hext_app [])|set_solver]|by left].
    - intros Hin. rewrite Forall_forall in HP. specialize (HP _ Hin). lia.
    - by rewrite lookup_app_r, Nat.sub_diag by lia. }
  assert (forall y w, joeson_cb re_ok c p h x = CbRet h (Some y) -> rep P h y w ->
    exists h' y, (match joeson_cb re_ok c p h x with CbRet h' y => CbRet (mark_at (mk c p) (length h) h') y | CbPanic t => CbPanic t end) = CbRet h' y /\
      hext h h' /\ exists z, y = Some z /\ rep P h' z w) as HO.
  { intros y w -> Hw. rewrite mark_at_none by done. eexists _, _. split; [reflexivity|]. split; [apply hext_refl|]. by exists y. }
  do 14 (try destruct c as [|c]); cbn [jval]; try done.
  - destruct Hr as [| | | |l l' Hl| | |]; try done. destruct (forallb v_parser l') eqn:EF; [|done].
    apply (HN _ _ l); [done| |done]. cbn. by rewrite (reps_parsers _ _ _ _ Hl), EF.
  - destruct Hr as [| | | |l l' Hl| | |]; try done. destruct (forallb v_parser l') eqn:EF; [|done].
    apply (HN _ _ l); [done| |done]. cbn. by rewrite (reps_parsers _ _ _ _ Hl), EF.
  - destruct (v_parser v) eqn:EF; [|done]. apply (HN _ _ [x]); [done| |repeat constructor; done]. cbn. unfold cb_one. by rewrite (rep_is_parser _ _ _ _ Hr), EF.
  - destruct Hr as [| | | | | |a m at_ kv Ha Hh HK Hnd Hf|]; try done.
    destruct (v_bound (kv_at kv "min")) as [mn|] eqn:E1; [|unfold jv_pat; by destruct (kv_at kv "value")].
    destruct (v_bound (kv_at kv "max")) as [mx|] eqn:E2; [|unfold jv_pat; by destruct (kv_at kv "value")].
    destruct (jv_pat kv (Some mn) (Some mx)) as [r|] eqn:EJ; [|done].
    destruct (pat_rep P h h (AObj a) a m at_ kv mn mx r eq_refl Hh HK Hf ltac:(done) (bound_rep _ _ _ _ _ _ HK Hf E1) (bound_rep _ _ _ _ _ _ HK Hf E2) EJ)
      as (t & args & args' & -> & HC & HA).
    apply (HN t args args'); [|exact HC|done]. unfold jv_pat in EJ. destruct (kv_at kv "value"); [|done]. cbn zeta in EJ. destruct (_ && _)%bool; [|done]. by injection EJ as <- _.
  - destruct (v_parser v) eqn:EF; [|done]. apply (HN _ _ [x]); [done| |repeat constructor; done]. cbn. unfold cb_one. by rewrite (rep_is_parser _ _ _ _ Hr), EF.
  - destruct Hr as [| | | | | |a m at_ kv Ha Hh HK Hnd Hf|]; try done. destruct (kv_at kv "expr") as [e|] eqn:EE; [|done].
    destruct (kv_at_some _ _ _ _ _ _ Hf EE) as (xe & He & Re). destruct (v_parser e) eqn:EF; [|done]. apply (HN _ _ [xe]); [done| |repeat constructor; done].
    cbn. unfold cb_look, map_at. by rewrite Hh, He, (rep_is_parser _ _ _ _ Re), EF.
  - destruct Hr as [[|b s]| | | |l l' Hl| | |]; try done.
    + apply (HN _ _ [AStr (b :: s)]); [done|done|repeat constructor].
    + destruct Hl as [|x1 v1 l l' Hx1 Hl]; [done|]. destruct Hx1 as [[|b s]| | | | | | |]; try done. destruct Hl as [|x2 v2 l l' Hx2 Hl]; [done|].
      destruct Hl; [|done]. destruct (v_parser v2) eqn:EF; [|done]. apply (HN _ _ [AStr (b :: s); x2]); [done| |repeat constructor; done].
      cbn. by rewrite (rep_is_parser _ _ _ _ Hx2), EF.
  - destruct Hr as [| | | | | |a m at_ kv Ha Hh HK Hnd Hf|]; try done. destruct (kv_at kv "code") eqn:EC; [done|]. destruct (kv_at kv "expr") as [e|] eqn:EE; [|done].
    destruct (kv_at_some _ _ _ _ _ _ Hf EE) as (xe & He & Re). apply (HO xe); [|done]. cbn. unfold cb_code, map_at. rewrite Hh.
    unfold nm_is_undefined. by rewrite (kv_at_none _ _ _ HK EC), He.
  - destruct (v_cat v) as [s|] eqn:EC; [|done]. apply (HN _ _ [AStr s]); [done| |repeat constructor]. cbn. unfold cb_str. by rewrite (rep_cat _ _ _ _ _ Hr EC).
  - unfold jv_regex. destruct (v_cat v) as [s|] eqn:EC; [|done]. destruct (re_ok _) eqn:ER; [|done].
    apply (HN _ _ [AStr ([] ++ s ++ [])]); [done| |repeat constructor]. cbn [joeson_cb]. unfold cb_regex. by rewrite (rep_cat _ _ _ _ _ Hr EC), ER.
  - unfold jv_regex. destruct (v_cat v) as [s|] eqn:EC; [|done]. destruct (re_ok _) eqn:ER; [|done].
    apply (HN _ _ [AStr (s2b "[" ++ s ++ s2b "]")]); [done| |repeat constructor]. cbn [joeson_cb]. unfold cb_regex. by rewrite (rep_cat _ _ _ _ _ Hr EC), ER.
  - destruct Hr as [s| | | | | | |]; try done. destruct (atoi s) as [z|] eqn:EA; [|done]. apply (HO (AInt z)); [|constructor].
    cbn [joeson_cb native_int_from]. by rewrite EA.
  - destruct Hr as [s| | | | | | |]; try done. apply (HO (AStr (s2b "\" ++ s))); [done|constructor].
Qed.
Lemma mcb_owns E : e_cb E = mcb -> cb_owns E jcbf 4.
Proof.
  intros HE p h a kv P (Ha & m & at_ & Hh & HK & Hnd & Hf) HP. rewrite HE. unfold jcbf, mcb. cbn [jval].
  destruct (jv_pat kv (Some 1%Z) (Some (-1)%Z)) as [r|] eqn:EJ; [|done].
  set (m' := nm_set (nm_set m "min" (AInt 1)) "max" (AInt (-1))). set (h1 := <[a := Obj (OMap m') at_]> h).
  assert (hext_but [a] h h1) as Hx1 by (apply hext_write; left).
  assert (h1 !! a = Some (Obj (OMap m') at_)) as Hh1 by (apply list_lookup_insert; by eapply lookup_lt_Some).
  assert (has_keys m' (kv_set (kv_set kv "min" (VInt 1)) "max" (VInt (-1))).*1 /\ NoDup (kv_set (kv_set kv "min" (VInt 1)) "max" (VInt (-1))).*1 /\
    repf (a :: P) h m' (kv_set (kv_set kv "min" (VInt 1)) "max" (VInt (-1)))) as (HK' & Hnd' & Hf').
  { destruct (set_rep (a :: P) h m kv "min" (AInt 1) (VInt 1) HK Hnd Hf ltac:(constructor)) as (A1 & A2 & A3).
    exact (set_rep (a :: P) h _ _ "max" (AInt (-1)) (VInt (-1)) A1 A2 A3 ltac:(constructor)). }
  assert (forall k, k <> "min"%string -> k <> "max"%string -> kv_at (kv_set (kv_set kv "min" (VInt 1)) "max" (VInt (-1))) k = kv_at kv k) as Hat.
  { assert (forall kv k k' w, k <> k' -> kv_at (kv_set kv k' w) k = kv_at kv k) as Hne.
    { intros kv0 k k' w Hkk. unfold kv_at. induction kv0 as [|[k1 v1] kv0 IH]; cbn [kv_set List.find fst].
      - destruct (String.eqb_spec k k'); [done|done].
      - destruct (String.eqb_spec k' k1) as [<-|]; cbn [List.find fst].
        + destruct (String.eqb_spec k k'); [done|done].
        + by destruct (String.eqb k k1). }
    intros k H1 H2. by rewrite !Hne. }
  assert (jv_pat (kv_set (kv_set kv "min" (VInt 1)) "max" (VInt (-1))) (Some 1%Z) (Some (-1)%Z) = Some r) as EJ'.
  { unfold jv_pat in EJ |- *. rewrite !Hat in * by done. exact EJ. }
  destruct (pat_rep (a :: P) h h1 (AObj a) a m' at_ _ 1%Z (-1)%Z r eq_refl Hh1 HK' Hf') as (t & args & args' & -> & HC & HA).
  - intros y v Hy. eapply rep_hext; [exact Hy|exact Hx1|set_solver].
  - done.
  - done.
  - exact EJ'.
  - assert (no_bang t = true) as Ht.
    { unfold jv_pat in EJ'. destruct (kv_at _ "value"); [|done]. cbn zeta in EJ'. destruct (_ && _)%bool; [|done]. by injection EJ' as <- _. }
    cbn [joeson_cb]. unfold cb_plus, map_at. rewrite Hh. fold m'. fold h1. rewrite HC.
    rewrite (mark_at_new _ h1) by apply insert_length.
    eexists _, _. split; [reflexivity|]. split; [eapply hext_trans; [exact Hx1|apply hext_app]|].
    eexists. split; [done|]. eapply (rep_parser _ _ _ _ args' args "" ""); [| |eapply reps_hext; [eapply reps_weaken; [exact HA|set_solver]|apply (hext_app [])|set_solver]|by left].
    + intros Hin. apply Forall_cons in HP as [_ HP]. rewrite Forall_forall in HP. specialize (HP _ Hin). unfold h1 in HP. rewrite insert_length in HP. lia.
    + by rewrite lookup_app_r, Nat.sub_diag by lia.
Qed.
Lemma mcb_pure E root : e_cb E = mcb ->
  (forall n, reach E root n -> i_cb (n_info n) = Some 4 -> makes_map n = true /\ (i_label (n_info n) = EmptyString \/ i_wraps (n_info n) = false)) ->
  cb_pure E root jcbf.
Proof.
  intros HE HN c. destruct (owns c) eqn:EO; [|left; by apply mcb_keeps]. apply Nat.eqb_eq in EO as ->. right. split; [by apply mcb_owns|done].
Qed.
End Oracle.
