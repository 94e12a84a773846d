(** The parser does not look at the marks in the tags of parsers: with callbacks
    that do not look at them either, erasing them commutes with parsing. *)
From Verif Require Import Base Helpers Utf8 Stream Native Engine.

(** [!t!l] becomes [t]. *)
Fixpoint before_bang (s : string) : string :=
  match s with
  | EmptyString => EmptyString
  | String c r => if Ascii.eqb c "!"%char then EmptyString else String c (before_bang r)
  end.
Definition er_tag (t : string) : string :=
  match t with
  | String c r => if Ascii.eqb c "!"%char then before_bang r else t
  | EmptyString => t
  end.
Definition er_body (b : objbody) : objbody := match b with OParser t args lb => OParser (er_tag t) args lb | OMap m => OMap m end.
Definition er_obj (o : obj) : obj := Obj (er_body (o_body o)) (o_attr o).
Definition er_heap (h : heap) : heap := map er_obj h.
Definition er (s : st) : st := set_heap s (er_heap (s_heap s)).
Definition er_out {A} (o : outcome A) : outcome A :=
  match o with Ok a s => Ok a (er s) | Panic p s => Panic p (er s) | OutOfFuel => OutOfFuel end.
Definition er_cb (r : cbres) : cbres := match r with CbRet h x => CbRet (er_heap h) x | CbPanic t => CbPanic t end.

Definition com {A} (m m' : M A) : Prop := forall s, m' (er s) = er_out (m s).

Lemma er_heap_lookup h a : er_heap h !! a = er_obj <$> h !! a.
Proof. apply list_lookup_fmap. Qed.
Lemma er_heap_length h : length (er_heap h) = length h.
Proof. apply map_length. Qed.

Lemma com_bind {A B} (m m' : M A) (k k' : A -> M B) : com m m' -> (forall a, com (k a) (k' a)) -> com (bind m k) (bind m' k').
Proof. intros H1 H2 s. unfold bind. rewrite H1. destruct (m s) as [a s'| |]; [apply H2|done|done]. Qed.
Lemma com_ret {A} (a : A) : com (ret a) (ret a).
Proof. done. Qed.
Lemma com_panic {A} p : com (panic_ (A:=A) p) (panic_ p).
Proof. done. Qed.
Lemma com_fuel {A} : com (out_of_fuel (A:=A)) out_of_fuel.
Proof. done. Qed.
Lemma com_lift {A} (r : res A) : com (lift r) (lift r).
Proof. intros s. by destruct r. Qed.
Lemma com_gets {A} (f : st -> A) : (forall s, f (er s) = f s) -> com (gets f) (gets f).
Proof. intros H s. unfold gets, er_out. by rewrite H. Qed.
Lemma com_pos : com get_pos get_pos.
Proof. by apply com_gets. Qed.
Lemma com_code : com (gets s_code) (gets s_code).
Proof. by apply com_gets. Qed.
Lemma com_set_pos p : com (set_pos p) (set_pos p).
Proof. intros s. unfold set_pos. cbn. by destruct (c_set_pos _ _). Qed.
Lemma com_emit e : com (emit e) (emit e).
Proof. done. Qed.
Lemma com_alloc o o' : o' = er_obj o -> com (alloc o) (alloc o').
Proof. intros -> s. unfold alloc, er. cbn. unfold er, set_heap. cbn. rewrite er_heap_length. do 2 f_equal. unfold er_heap. by rewrite map_app. Qed.
Lemma com_read {B} a (k k' : obj -> M B) : (forall o, com (k o) (k' (er_obj o))) -> com (bind (read_obj a) k) (bind (read_obj a) k').
Proof. intros H s. unfold bind, read_obj. cbn. rewrite er_heap_lookup. destruct (s_heap s !! a) as [o|]; cbn; [apply H|done]. Qed.
Lemma com_write a o o' : o' = er_obj o -> com (write_obj a o) (write_obj a o').
Proof. intros -> s. unfold write_obj, er. cbn. unfold er, set_heap. cbn. do 2 f_equal. symmetry. apply (list_fmap_insert er_obj). Qed.
Lemma com_get_fr a : com (get_fr a) (get_fr a).
Proof. intros s. unfold get_fr. cbn. by destruct (s_fheap s !! a). Qed.
Lemma com_put_fr a f : com (put_fr a f) (put_fr a f).
Proof. done. Qed.
Lemma com_set_stage a n : com (set_stage a n) (set_stage a n).
Proof. apply com_bind; [apply com_get_fr|]. intros f. apply com_put_fr. Qed.
Lemma com_cache_set a r e : com (cache_set a r e) (cache_set a r e).
Proof. apply com_bind; [apply com_get_fr|]. intros f. apply com_put_fr. Qed.
Lemma com_set_mask a m : com (set_mask a m) (set_mask a m).
Proof. apply com_bind; [apply com_get_fr|]. intros f. apply com_put_fr. Qed.
Lemma com_get_frame i : com (get_frame i) (get_frame i).
Proof.
  intros s. unfold get_frame. change (st_pos (er s)) with (st_pos s). change (s_frames (er s)) with (s_frames s).
  destruct (table_get _ _ _) as [[a|]|]; done.
Qed.
Lemma com_push i : com (stack_push i) (stack_push i).
Proof.
  apply com_bind; [apply com_get_frame|]. intros a s. change (s_stack (er s)) with (s_stack s). by destruct (stack_limit <=? _).
Qed.
Lemma com_pop : com stack_pop stack_pop.
Proof. done. Qed.
Lemma com_peek : com stack_peek stack_peek.
Proof. intros s. unfold stack_peek. change (s_stack (er s)) with (s_stack s). destruct (s_stack s); [done|]. apply com_get_fr. Qed.
Lemma com_wipe a b : com (wipe_with a b) (wipe_with a b).
Proof.
  apply com_bind; [apply com_get_fr|]. intros f. destruct (f_mask f); [|apply com_panic]. intros s.
  change (s_frames (er s)) with (s_frames s). destruct (s_frames s !! f_pos f); [|done]. by destruct (negb _).
Qed.
Lemma com_restore l : forall i, com (restore_from i l) (restore_from i l).
Proof.
  induction l as [|o l IH]; intros i; cbn [restore_from]; [apply com_ret|]. apply com_bind; [|intros _; apply IH].
  destruct o as [a|]; [|apply com_ret]. apply com_bind; [apply com_get_fr|]. intros f s.
  change (s_frames (er s)) with (s_frames s). by destruct (table_get _ _ _).
Qed.
Lemma com_lpush : com loop_stack_push loop_stack_push.
Proof. done. Qed.
Lemma com_lpop : com loop_stack_pop loop_stack_pop.
Proof. intros s. unfold loop_stack_pop. cbn. by destruct (s_loopstack s). Qed.
Lemma com_log E : com (log_ E) (log_ E).
Proof.
  unfold log_. destruct (e_skiplog E); [apply com_ret|]. apply com_bind; [apply com_code|]. intros c. apply com_bind.
  { destruct (_ =? _)%Z; [apply com_ret|]. apply com_bind; [apply com_lift|]. intros l. apply com_ret. }
  intros []; [|apply com_ret]. do 3 (apply com_bind; [apply com_lift|intros ?]). apply com_ret.
Qed.
Lemma com_log_if E b : com (log_if E b) (log_if E b).
Proof. destruct b; [apply com_log|apply com_ret]. Qed.

(** ** Merging *)
Lemma com_merge_keys a b ks : com (merge_keys a b ks) (merge_keys a b ks).
Proof.
  induction ks as [|k ks IH]; cbn [merge_keys]; [apply com_ret|].
  apply com_read. intros [[m|tg ar lb0] att]; (apply com_bind; [|intros _; exact IH]); cbn; [|apply com_panic]. apply com_bind; [apply com_lift|]. intros v.
  apply com_read. intros [[m2|tg ar lb0] att2]; cbn; [|apply com_panic]. by apply com_write.
Qed.
Lemma com_merge_label d m ks : com (merge_label d m ks) (merge_label d m ks).
Proof.
  induction ks as [|k ks IH]; cbn [merge_label]; [apply com_ret|]. apply com_bind; [|intros _; exact IH].
  destruct (String.eqb _ _); [|apply com_panic]. apply com_bind; [apply com_lift|]. intros [s| | | | | |]; try apply com_panic.
  destruct d as [a|]; [|apply com_ret]. apply com_read. intros [[m1|t args lb] att]; cbn; [apply com_panic|]. by apply com_write.
Qed.
Lemma com_type x : com (type_of x) (type_of x).
Proof. destruct x as [| | | |a| |]; try apply com_ret. apply com_read. intros [[m|t args lb] att]; apply com_ret. Qed.
Lemma com_merge x y : com (merge x y) (merge x y).
Proof.
  apply com_bind; [apply com_type|]. intros [| | |]; [apply com_ret| | |apply com_panic].
  - apply com_bind; [apply com_type|]. intros [| | |]; [| | |apply com_panic];
      (apply com_bind; [first [apply com_merge_keys|apply com_merge_label]|intros _; apply com_ret]).
  - apply com_bind; [apply com_type|]. intros [| | |]; apply com_panic.
Qed.
Lemma com_add l r x : com (add_labelled l r x) (add_labelled l r x).
Proof.
  unfold add_labelled. destruct (String.eqb _ _).
  { destruct (is_undefined r); [apply com_ret|]. destruct r; [|apply com_ret]. apply com_bind; [apply com_merge|]. intros y. apply com_ret. }
  destruct (String.eqb _ _).
  { destruct (is_undefined r); [apply com_ret|]. destruct r; [|apply com_ret]. apply com_bind; [apply com_merge|]. intros y. apply com_ret. }
  destruct (String.eqb _ _); [apply com_ret|]. destruct (is_undefined r).
  { apply com_bind; [by apply com_alloc|]. intros a. apply com_ret. }
  destruct r as [[| | | |a| |]|]; try apply com_panic. apply com_read. intros [[m|tg ar lb0] att]; cbn; [|apply com_panic].
  apply com_bind; [by apply com_write|]. intros _. apply com_ret.
Qed.

Section Com.
(** [E] with marks, [E'] without. *)
Variables E E' : env.
Hypothesis Hrules : e_rule E' = e_rule E.
Hypothesis Hrx : e_rx E' = e_rx E.
Hypothesis Hn : e_nrules E' = e_nrules E.
Hypothesis Hst : e_stack E' = e_stack E.
Hypothesis Hlo : e_loop E' = e_loop E.
Hypothesis Hfi : e_filter E' = e_filter E.
Hypothesis Hsk : e_skiplog E' = e_skiplog E.
Hypothesis Hcb : forall c p h x, e_cb E' c p (er_heap h) x = er_cb (e_cb E c p h x).

Section Rec.
Variable rec rec' : node -> M (option ast).
Hypothesis Hrec : forall n, com (rec n) (rec' n).

Lemma com_seq_single l : forall acc, com (seq_single rec l acc) (seq_single rec' l acc).
Proof. induction l as [|c l IH]; intros acc; cbn [seq_single]; [apply com_ret|]. apply com_bind; [apply Hrec|]. intros [a|]; [apply IH|apply com_ret]. Qed.
Lemma com_seq_array l : forall acc, com (seq_array rec l acc) (seq_array rec' l acc).
Proof. induction l as [|c l IH]; intros acc; cbn [seq_array]; [apply com_ret|]. apply com_bind; [apply Hrec|]. intros [a|]; [apply IH|apply com_ret]. Qed.
Lemma com_seq_object l : forall acc, com (seq_object rec l acc) (seq_object rec' l acc).
Proof.
  induction l as [|c l IH]; intros acc; cbn [seq_object]; [apply com_ret|]. apply com_bind; [apply Hrec|].
  intros [a|]; [|apply com_ret]. apply com_bind; [apply com_add|]. intros acc'. apply IH.
Qed.
Lemma com_choice l : com (choice_loop rec l) (choice_loop rec' l).
Proof.
  induction l as [|c l IH]; cbn [choice_loop]; [apply com_ret|]. apply com_bind; [apply com_pos|]. intros p.
  apply com_bind; [apply Hrec|]. intros [a|]; [apply com_ret|]. apply com_bind; [apply com_set_pos|]. intros _. exact IH.
Qed.
Lemma com_pat v j mx lf : forall acc, com (pat_loop rec lf v j mx acc) (pat_loop rec' lf v j mx acc).
Proof.
  induction lf as [|lf IH]; intros acc; [apply com_fuel|]. cbn [pat_loop].
  apply com_bind; [apply com_pos|]. intros p. apply com_bind.
  { destruct j; [|apply com_ret]. apply com_bind; [apply Hrec|]. intros ?. apply com_ret. }
  intros []; [|apply com_bind; [apply com_set_pos|intros _; apply com_ret]].
  apply com_bind; [apply Hrec|]. intros [a|]; [|apply com_bind; [apply com_set_pos|intros _; apply com_ret]].
  cbn zeta. destruct (_ && _)%bool; [apply com_ret|apply IH].
Qed.
Lemma com_back {A} p (a : A) : com (set_pos p ;! ret a) (set_pos p ;! ret a).
Proof. apply com_bind; [apply com_set_pos|]. intros _. apply com_ret. Qed.
Lemma com_body lf n : com (body E rec lf n) (body E' rec' lf n).
Proof.
  unfold body. rewrite Hrules, Hrx. destruct (n_kind n) as [s|re|name|ty l|l|v j mn mx|a|a|a|].
  - intros st0. cbn. destruct (c_match_string _ _) as [[? ?]| |]; done.
  - intros st0. cbn. destruct (c_match_regexp _ _) as [[? ?]| |]; done.
  - destruct (e_rule E name); [|apply com_panic]. apply com_bind; [apply com_peek|]. intros _. apply Hrec.
  - destruct ty; [apply com_seq_single|apply com_seq_array|]. destruct l; [apply com_ret|apply com_seq_object].
  - apply com_choice.
  - apply com_bind; [apply com_pos|]. intros p. apply com_bind; [apply Hrec|]. intros [a|].
    + apply com_bind; [by apply com_pat|]. intros ms. destruct (_ && _)%bool; [apply com_back|apply com_ret].
    + apply com_bind; [apply com_set_pos|]. intros _. destruct (_ <? _)%Z; apply com_ret.
  - apply com_bind; [apply com_pos|]. intros p. apply com_bind; [apply Hrec|]. intros [r|]; [apply com_ret|apply com_back].
  - apply com_bind; [apply com_pos|]. intros p. apply com_bind; [apply Hrec|]. intros r. apply com_back.
  - apply com_bind; [apply com_pos|]. intros p. apply com_bind; [apply Hrec|]. intros r. apply com_back.
  - apply com_ret.
Qed.
End Rec.

Lemma log_same' : log_ E' = log_ E.
Proof. unfold log_. by rewrite Hsk, Hfi. Qed.
Lemma log_if_same' b : log_if E' b = log_if E b.
Proof. unfold log_if. by rewrite log_same'. Qed.
Lemma com_call i x : com (call_cb E i x) (call_cb E' i x).
Proof.
  unfold call_cb. destruct (i_cb i) as [c|]; [|apply com_ret]. apply com_bind; [apply com_pos|]. intros p. apply com_bind; [apply com_emit|]. intros _ s.
  cbn. rewrite Hcb. destruct (e_cb E c p (s_heap s) x); done.
Qed.
Lemma com_set_origin x o : com (set_origin x o) (set_origin x o).
Proof. destruct x as [| | | |a| |]; try apply com_ret. apply com_read. intros ob. by apply com_write. Qed.
Lemma com_prepare m m' n : com m m' -> com (prepare_result E m n) (prepare_result E' m' n).
Proof.
  intros H. unfold prepare_result. apply com_bind; [done|]. intros _. apply com_bind; [done|].
  intros [x|]; [|apply com_ret]. apply com_bind.
  { unfold wrap_label. destruct (_ && _)%bool; [|apply com_ret]. apply com_bind; [by apply com_alloc|]. intros a. apply com_ret. }
  intros x1. apply com_bind; [apply com_call|]. intros [y|]; [|apply com_ret].
  apply com_bind; [apply com_peek|]. intros fr. apply com_bind; [apply com_pos|]. intros p. apply com_bind; [apply com_code|]. intros c.
  apply com_bind; [apply com_lift|]. intros l. apply com_bind; [apply com_set_origin|]. intros _. apply com_ret.
Qed.
Lemma com_grow m m' show id a sp lf : com m m' -> forall x, com (grow E lf m show id a sp x) (grow E' lf m' show id a sp x).
Proof.
  intros H. induction lf as [|lf IH]; intros x; [apply com_fuel|]. cbn [grow]. rewrite log_if_same'.
  apply com_bind; [apply com_get_fr|]. intros f. destruct (f_mask f); [|apply com_panic].
  apply com_bind; [apply com_wipe|]. intros stash. apply com_bind; [apply com_pos|]. intros bp.
  apply com_bind; [apply com_cache_set|]. intros _. apply com_bind; [apply com_log_if|]. intros _.
  apply com_bind; [apply com_set_pos|]. intros _. apply com_bind; [apply com_emit|]. intros _.
  apply com_bind; [exact H|]. intros r. apply com_bind; [apply com_pos|]. intros p.
  destruct (p <=? _); [apply com_ret|]. destruct r; [apply IH|apply com_ret].
Qed.
Lemma com_mark stk sp id : forall mask, com (mark stk sp id mask) (mark stk sp id mask).
Proof.
  induction stk as [|a stk IH]; intros mask; cbn [mark]; [apply com_ret|]. apply com_bind; [apply com_get_fr|]. intros f.
  destruct (_ <? _); [apply com_panic|]. destruct (_ || _)%bool; [apply com_ret|]. destruct (_ <=? _); [apply com_panic|apply IH].
Qed.
Ltac cstep := first [apply com_get_frame|apply com_pos|apply com_get_fr|apply com_set_stage|apply com_cache_set|apply com_emit|apply com_log_if|apply com_set_pos|apply com_code|apply com_lift|apply com_ret|apply com_panic|apply com_lpush|apply com_lpop|apply com_wipe|apply com_restore|apply com_mark|apply com_set_mask|by apply com_gets].
Ltac cgo := repeat (apply com_bind; [first [cstep|assumption]|intros ?]).
Lemma com_loopify m m' lf n : com m m' -> com (loopify E lf m n) (loopify E' lf m' n).
Proof.
  intros H. unfold loopify. rewrite !log_if_same', log_same', Hst, Hlo, Hfi, Hn. apply com_bind; [cstep|]. intros _. destruct (i_skip (n_info n)).
  { cgo. apply com_bind; [|intros _; apply com_ret]. destruct (_ || _)%bool; [|apply com_ret]. destruct a1; [apply com_log|apply com_panic]. }
  cgo. apply com_bind. { destruct (_ <? _)%Z; cstep. } intros _. cgo.
  destruct (_ =? 0)%Z.
  - destruct (f_end _); [cgo; cstep|]. cgo. destruct (_ =? 1)%Z; [cgo; cstep|]. destruct (_ =? 2)%Z; [|cstep].
    match goal with |- context [match ?r with Some _ => _ | None => _ end] => destruct r as [x|] end; [|cgo; cstep].
    apply com_bind; [cstep|]. intros _. apply com_bind.
    { destruct (e_loop E); [|cstep]. apply com_bind; [cstep|]. intros c. apply com_bind; [destruct (_ <? _)%Z; [cstep|cgo; cstep]|].
      intros []; cstep. }
    intros _. apply com_bind; [by apply com_grow|]. intros [[bres bpos] bst]. apply com_bind; [destruct (e_loop E); cstep|]. intros _.
    cgo. cstep.
  - destruct (_ || _)%bool; [|cstep]. apply com_bind; [destruct (_ =? 1)%Z; cstep|]. intros _. cgo.
    apply com_bind; [destruct (f_end _); cstep|]. intros _. cstep.
Qed.
Lemma com_wrap rec rec' lf n : (forall n, com (rec n) (rec' n)) -> com (wrap E rec lf n) (wrap E' rec' lf n).
Proof.
  intros H. unfold wrap. destruct (i_isrule (n_info n)).
  - unfold stack_. apply com_bind; [apply com_push|]. intros _. apply com_bind; [|intros r; apply com_bind; [apply com_pop|intros _; apply com_ret]].
    apply com_loopify, com_prepare, com_body; done.
  - destruct (_ || _)%bool; [apply com_prepare|]; by apply com_body.
Qed.
Lemma com_parse fuel : forall n, com (parse E fuel n) (parse E' fuel n).
Proof.
  induction fuel as [|fuel IH]; intros n; [apply com_fuel|]. cbn [parse].
  assert (com (wrap E (parse E fuel) fuel n) (wrap E' (parse E' fuel) fuel n)) as H by (by apply com_wrap).
  destruct (n_kind n); try exact H. apply com_ret.
Qed.
End Com.

Definition report (c : code) (fh : list frame) (fr : list (list (option nat))) (r : option ast) : M (option ast) :=
  if c_pos c =? c_work_length c then ret r
  else
    let p := c_pos c in
    let '(att, succ) := scan_rows fh (drop p fr) p p p in
    do! _ := lift (c_pos_to_line c (Z.of_nat succ)) in
    do! _ := lift (c_pos_to_col c (Z.of_nat succ)) in
    do! _ := lift (c_peek_lines c [(-2)%Z]) in
    do! _ := lift (c_peek_runes c (Z.of_nat succ - Z.of_nat p)) in
    set_pos succ ;!
    do! c1 := gets s_code in
    do! _ := lift (c_peek_runes c1 (Z.of_nat att - Z.of_nat (c_pos c1))) in
    set_pos att ;!
    do! c2 := gets s_code in
    do! _ := lift (c_peek_lines c2 [2%Z]) in
    ret (Some (AErr succ)).
Lemma com_finish r : com (finish r) (finish r).
Proof.
  intros s. change (finish r (er s)) with (report (s_code s) (s_fheap s) (s_frames s) r (er s)).
  change (finish r s) with (report (s_code s) (s_fheap s) (s_frames s) r s). revert s.
  assert (forall c fh fr, com (report c fh fr r) (report c fh fr r)) as H; [|intros s; apply H].
  intros c fh fr. unfold report. destruct (_ =? _); [apply com_ret|]. cbn zeta. destruct (scan_rows _ _ _ _ _) as [att succ].
  repeat (apply com_bind; [first [apply com_lift|apply com_set_pos|apply com_code]|intros ?]). apply com_ret.
Qed.
(** A whole parse. *)
Lemma com_gram fuel g o rx cb cb' c : (forall f p h x, cb' f p (er_heap h) x = er_cb (cb f p h x)) ->
  fst (gram_parse fuel g o rx cb' c) = er_out (fst (gram_parse fuel g o rx cb c)).
Proof.
  intros H. unfold gram_parse.
  pose proof (com_parse (mk_env g o rx cb) (mk_env g o rx cb') eq_refl eq_refl eq_refl eq_refl eq_refl eq_refl eq_refl H fuel (g_rank g) (init_st c (g_nrules g))) as HP.
  change (er (init_st c (g_nrules g))) with (init_st c (g_nrules g)) in HP. rewrite HP.
  destruct (parse (mk_env g o rx cb) fuel (g_rank g) _) as [r s| |]; [|done|done]. cbn. apply com_finish.
Qed.
