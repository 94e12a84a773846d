(** Proofs about TokenStreamFromGoCode. *)
From Coq Require Import ssreflect.
From Verif Require Import Base Helpers Utf8 Stream StreamSpec StreamProofs GoTokens GoTokensSpec.

(** ** Words of two texts side by side *)
Lemma words_from_head w t : (forall b, head t = Some b -> word_byte b = false) -> words_from w t = flush w ++ words t.
Proof.
  destruct t as [|b t]; intros H; [by rewrite /words; cbn; rewrite app_nil_r|].
  rewrite /words. cbn [words_from]. by rewrite (H b eq_refl).
Qed.

Lemma words_from_app_r w s t : (forall b, head t = Some b -> word_byte b = false) ->
  words_from w (s ++ t) = words_from w s ++ words t.
Proof.
  intros H. revert w. induction s as [|b s IH]; intros w; [by apply words_from_head|].
  cbn [words_from app]. destruct (word_byte b); [apply IH|]. by rewrite IH app_assoc.
Qed.

Lemma words_from_app_l w s t : (exists b, last s = Some b /\ word_byte b = false) ->
  words_from w (s ++ t) = words_from w s ++ words t.
Proof.
  revert w. induction s as [|c s IH]; intros w (b & Hl & Hb); [done|].
  destruct s as [|c' s].
  - injection Hl as ->. cbn [app words_from]. rewrite Hb. by cbn; rewrite app_nil_r.
  - cbn [app words_from]. cbn [app] in IH. cbn [words_from] in IH.
    destruct (word_byte c); [apply IH; by exists b|]. rewrite -app_assoc. f_equal. apply (IH []). by exists b.
Qed.

Lemma words_app s t : (forall a b, last s = Some a -> head t = Some b -> word_byte a = true -> word_byte b = true -> False) ->
  words (s ++ t) = words s ++ words t.
Proof.
  intros H. destruct (last s) as [a|] eqn:Hl; [|].
  2:{ apply last_None in Hl as ->. done. }
  destruct (word_byte a) eqn:Ha.
  - apply words_from_app_r. intros b Hb. destruct (word_byte b) eqn:Hw; [|done]. by destruct (H a b eq_refl Hb Ha Hw).
  - apply words_from_app_l. by exists a.
Qed.

(** ** Texts of tokens *)
Lemma automatic_dec x : {automatic x} + {~ automatic x}.
Proof. unfold automatic. by apply (decide (lx_str x = s2b ";" /\ lx_lit x = [10%N])). Qed.

Lemma automatic_test x : (bytes_eqb (lx_str x) (s2b ";") && bytes_eqb (lx_lit x) [10%N])%bool = true <-> automatic x.
Proof.
  unfold automatic. destruct (bytes_eqb_spec (lx_str x) (s2b ";")) as [->|H1], (bytes_eqb_spec (lx_lit x) [10%N]) as [->|H2]; cbn [andb]; naive_solver.
Qed.

Lemma shows_fun x s s' : shows x s -> shows x s' -> s = s'.
Proof. intros [(?&->)|[(?&?&->)|(?&?&->)]] [(?&->)|[(?&?&->)|(?&?&->)]]; done. Qed.

Lemma shows_total x : exists s, shows x s.
Proof.
  destruct (automatic_dec x) as [H|H]; [exists (s2b ";" ++ [10%N]); by left|].
  destruct (lx_lit x) as [|b l] eqn:E.
  - exists (lx_str x). right. by right.
  - exists (b :: l). right. left. by rewrite E.
Qed.

(** The token text, with or without a space before it. *)
Definition padded (prev : bytes) (x : lexeme) : bool :=
  (negb (bytes_eqb (lx_str x) (s2b ";") && bytes_eqb (lx_lit x) [10%N]) && space_after prev &&
   match lx_lit x with [] => lx_comma x | _ => true end)%bool.

Lemma go_repr_shows prev x s : shows x s -> go_repr prev x = if padded prev x then s2b " " ++ s else s.
Proof.
  intros H. unfold go_repr, padded.
  destruct (bytes_eqb (lx_str x) (s2b ";") && bytes_eqb (lx_lit x) [10%N])%bool eqn:E.
  - apply automatic_test in E. destruct H as [(_&->)|[(Hn&_)|(Hn&_)]]; [done|done|done].
  - assert (~ automatic x) as Hn by (rewrite -automatic_test E; done).
    destruct H as [(Ha&_)|[(_&Hl&->)|(_&Hl&->)]]; [done| |].
    + destruct (lx_lit x) as [|b l]; [done|]. cbn [negb andb]. by destruct (space_after prev).
    + rewrite Hl. cbn [negb andb]. by destruct (space_after prev), (lx_comma x).
Qed.

Lemma padded_iff prev x : padded prev x = true <->
  ~ automatic x /\ space_after prev = true /\ (lx_lit x <> [] \/ lx_comma x = true).
Proof.
  unfold padded. rewrite !andb_true_iff negb_true_iff.
  assert ((bytes_eqb (lx_str x) (s2b ";") && bytes_eqb (lx_lit x) [10%N])%bool = false <-> ~ automatic x) as ->.
  { rewrite -automatic_test. by destruct (_ && _)%bool. }
  destruct (lx_lit x) as [|b l]; naive_solver.
Qed.

(** ** The loop *)
Lemma go_tokens_length prev off xs : length (go_tokens prev off xs) = length xs.
Proof. revert prev off. induction xs as [|x xs IH]; intros; cbn [go_tokens length]; [done|]. by rewrite IH. Qed.

(** The text of the token before number [k]. *)
Lemma go_tokens_at prev off xs k x : xs !! k = Some x ->
  let toks := go_tokens prev off xs in
  exists before, (match k with 0 => before = prev | S j => exists t, toks !! j = Some t /\ before = tk_repr t end) /\
    toks !! k = Some (Token (go_repr before x) (Z.of_nat (lx_pos x))
                        (Z.of_nat (off + length prev + work_start (tk_repr <$> toks) k))).
Proof.
  revert prev off k. induction xs as [|y xs IH]; intros prev off k Hk; [done|].
  destruct k as [|k].
  - injection Hk as ->. cbn [go_tokens]. exists prev. split; [done|]. cbn [lookup list_lookup]. do 2 f_equal.
    unfold work_start. cbn. lia.
  - cbn [go_tokens]. cbn zeta. destruct (IH (go_repr prev y) (off + length prev) k Hk) as (before & Hb & Ht).
    exists before. split.
    + destruct k as [|k]; [eexists; by split|exact Hb].
    + change ((?a :: ?l) !! S k) with (l !! k). rewrite Ht. do 2 f_equal. unfold work_start. cbn [fmap list_fmap take mjoin list_join tk_repr].
      rewrite (app_length (go_repr prev y)). rewrite Nat.add_assoc. done.
Qed.

Lemma space_after_pad s : space_after (s2b " " ++ s) = space_after s.
Proof. destruct s as [|b s]; [done|]. done. Qed.

Lemma space_after_repr prev x s : shows x s -> space_after (go_repr prev x) = space_after s.
Proof. intros H. rewrite (go_repr_shows prev x s H). destruct (padded prev x); [by rewrite space_after_pad|done]. Qed.

Lemma space_after_iff s : space_after s = true <-> tight s.
Proof.
  unfold space_after, tight. destruct (last s) as [b|]; [|split; [done|by intros (?&?&_)]].
  split.
  - intros H. exists b. split; [done|]. unfold word_byte.
    rewrite !orb_true_iff !andb_true_iff !N.leb_le !N.eqb_eq in H |- *. lia.
  - intros (b' & Hb & H). injection Hb as <-. unfold word_byte in H.
    rewrite !orb_true_iff !andb_true_iff !N.leb_le !N.eqb_eq in H |- *. lia.
Qed.

(** Where the space is. *)
Lemma padded_spaced xs k x before :
  xs !! k = Some x ->
  (match k with 0 => before = [] | S j => exists t, go_tokens [] 0 xs !! j = Some t /\ before = tk_repr t end) ->
  padded before x = true <-> spaced xs k.
Proof.
  intros Hk Hb. rewrite padded_iff. split.
  - intros (Ha & Hs & Hc). destruct k as [|j]; [by subst before|]. destruct Hb as (t & Ht & ->).
    destruct (xs !! j) as [y|] eqn:Ey.
    2:{ apply lookup_ge_None in Ey. apply lookup_lt_Some in Hk. lia. }
    destruct (shows_total y) as [s Hsh].
    destruct (go_tokens_at [] 0 xs j y Ey) as (before & _ & Hat). rewrite Ht in Hat. injection Hat as ->.
    cbn [tk_repr] in Hs. rewrite (space_after_repr before y s Hsh) in Hs. apply space_after_iff in Hs.
    by exists j, x, y, s.
  - intros (j & x' & y & s & -> & Hx & Ey & Hsh & Hti & Ha & Hc). rewrite Hk in Hx. injection Hx as <-.
    destruct Hb as (t & Ht & ->).
    destruct (go_tokens_at [] 0 xs j y Ey) as (before & _ & Hat). rewrite Ht in Hat. injection Hat as ->. cbn [tk_repr].
    rewrite (space_after_repr before y s Hsh). split; [done|]. split; [by apply space_after_iff|done].
Qed.

Lemma from_go_stream es src sc : sc_init sc = [] ->
  fst (from_go es src sc) = GoStream (new_token_stream src (go_tokens [] 0 (sc_lexemes sc))).
Proof. intros H. unfold from_go. by rewrite H. Qed.

Theorem go_tokens_prop es src sc : sc_init sc = [] ->
  exists ts, fst (from_go es src sc) = GoStream ts /\ ts_original ts = src /\
    ts_work ts = mjoin (tk_repr <$> ts_tokens ts) /\
    length (ts_tokens ts) = length (sc_lexemes sc) /\
    forall k x s, sc_lexemes sc !! k = Some x -> shows x s ->
      exists t, ts_tokens ts !! k = Some t /\ tk_orig t = Z.of_nat (lx_pos x) /\
        tk_work t = Z.of_nat (work_start (tk_repr <$> ts_tokens ts) k) /\
        ((spaced (sc_lexemes sc) k /\ tk_repr t = s2b " " ++ s) \/
         (~ spaced (sc_lexemes sc) k /\ tk_repr t = s)).
Proof.
  intros H. rewrite (from_go_stream es src sc H). eexists. split; [done|]. cbn [new_token_stream ts_original ts_work ts_tokens].
  split; [done|]. split.
  { generalize (go_tokens [] 0 (sc_lexemes sc)). intros l. induction l as [|t l IH]; [done|]. cbn. f_equal. exact IH. }
  split; [apply go_tokens_length|]. intros k x s Hk Hs.
  destruct (go_tokens_at [] 0 _ k x Hk) as (before & Hb & Hat). eexists. split; [exact Hat|]. cbn [tk_orig tk_work tk_repr].
  split; [done|]. split; [done|]. pose proof (padded_spaced _ k x before Hk Hb) as Hp.
  rewrite (go_repr_shows before x s Hs). destruct (padded before x); [left|right]; (split; [|done]).
  - by apply Hp.
  - intros Hsp. apply Hp in Hsp. done.
Qed.

(** ** Words *)
Lemma words_pad s : words (s2b " " ++ s) = words s.
Proof. done. Qed.

Lemma head_after prev off xs : Forall operator_plain xs ->
  (exists b, last prev = Some b /\ word_byte b = true /\ (b < 128)%N) ->
  forall b, head (mjoin (tk_repr <$> go_tokens prev off xs)) = Some b -> word_byte b = false.
Proof.
  intros Ho Hp b Hb. destruct xs as [|x xs]; [done|]. cbn [go_tokens fmap list_fmap mjoin list_join tk_repr] in Hb.
  apply Forall_cons in Ho as [Hx _]. destruct (shows_total x) as [s Hs].
  assert (space_after prev = true) as Hsp.
  { apply space_after_iff. destruct Hp as (c & ? & ? & ?). exists c. split; [done|]. by left. }
  rewrite (go_repr_shows prev x s Hs) in Hb. destruct (padded prev x) eqn:Ep; [by injection Hb as <-|].
  assert (~ (~ automatic x /\ (lx_lit x <> [] \/ lx_comma x = true))) as Hn.
  { intros [? ?]. assert (padded prev x = true); [by apply padded_iff|congruence]. }
  destruct Hs as [(_&->)|[(Ha&Hl&->)|(Ha&Hl&->)]].
  - by injection Hb as <-.
  - destruct Hn. split; [done|by left].
  - destruct (Hx Hl) as (c & t & Ec & Hc). rewrite Ec in Hb. injection Hb as <-. done.
Qed.

Lemma last_repr prev x s b : shows x s -> last (go_repr prev x) = Some b -> word_byte b = true -> last s = Some b.
Proof.
  intros Hs Hl Hb. rewrite (go_repr_shows prev x s Hs) in Hl. destruct (padded prev x); [|done].
  destruct s as [|c s]; [by injection Hl as <-|]. exact Hl.
Qed.

Lemma go_words prev off xs ss : Forall2 shows xs ss -> Forall operator_plain xs -> Forall ends_ascii ss ->
  words (mjoin (tk_repr <$> go_tokens prev off xs)) = mjoin (words <$> ss).
Proof.
  intros H. revert prev off. induction H as [|x s xs ss Hs H IH]; intros prev off Ho He; [done|].
  apply Forall_cons in Ho as [Hx Ho]. apply Forall_cons in He as [Hes He].
  change (mjoin (tk_repr <$> go_tokens prev off (x :: xs))) with
    (go_repr prev x ++ mjoin (tk_repr <$> go_tokens (go_repr prev x) (off + length prev) xs)).
  change (mjoin (words <$> s :: ss)) with (words s ++ mjoin (words <$> ss)).
  rewrite words_app; last first.
  - rewrite (IH _ _ Ho He). f_equal. rewrite (go_repr_shows prev x s Hs). by destruct (padded prev x).
  - intros a b Ha Hb Wa Wb. pose proof (last_repr prev x s a Hs Ha Wa) as Hl.
    assert (word_byte b = false); [|congruence].
    eapply (head_after (go_repr prev x)); [exact Ho| |exact Hb]. exists a. split; [done|]. split; [done|]. by apply Hes.
Qed.

Theorem go_words_prop es src sc ss : sc_init sc = [] -> Forall2 shows (sc_lexemes sc) ss ->
  Forall operator_plain (sc_lexemes sc) -> Forall ends_ascii ss ->
  exists w, token_text (fst (from_go es src sc)) w /\ words w = mjoin (words <$> ss).
Proof.
  intros Hi Hs Ho He. destruct (go_tokens_prop es src sc Hi) as (ts & Hr & _ & Hw & _).
  exists (ts_work ts). split; [by exists ts|]. rewrite Hw.
  rewrite (from_go_stream es src sc Hi) in Hr. injection Hr as <-. by apply go_words.
Qed.

(** ** Positions *)
Lemma newlines_step src o b : src !! o = Some b -> b <> 10%N -> newlines (take (S o) src) = newlines (take o src).
Proof.
  intros Hb Hn. rewrite (take_S_r _ _ _ Hb). unfold newlines. rewrite filter_app app_length.
  rewrite (filter_cons_False _ b); [done|]. cbn. lia.
Qed.

Lemma column_step src o b c : src !! o = Some b -> b <> 10%N -> column_of src (S o) c ->
  exists c', c = S c' /\ column_of src o c'.
Proof.
  intros Hb Hn (st & E & Hst & Hno). destruct c as [|c'].
  - exfalso. destruct Hst as [->|[_ Hst]]; [lia|]. replace (st - 1) with o in Hst by lia. congruence.
  - exists c'. split; [done|]. exists st. split; [lia|]. split; [done|]. intros k Hk. apply Hno. lia.
Qed.

Lemma occurs_lookup s src p j b : occurs_at s src p -> s !! j = Some b -> src !! (p + j) = Some b.
Proof.
  intros [post E] Hj. rewrite -lookup_drop E. by apply lookup_app_l_Some.
Qed.

Theorem go_coords_prop es src sc k x s j : sc_init sc = [] ->
  sc_lexemes sc !! k = Some x -> S k < length (sc_lexemes sc) -> shows x s ->
  occurs_at s src (lx_pos x) -> 10%N ∉ s -> j < length s ->
  exists ts t c, fst (from_go es src sc) = GoStream ts /\ ts_tokens ts !! k = Some t /\
    column_of src (lx_pos x + j) c /\
    let w := Z.of_nat (work_start (tk_repr <$> ts_tokens ts) k + (length (tk_repr t) - length s) + j) in
    ts_pos_to_line ts w = ROk (Z.of_nat (newlines (take (lx_pos x + j) src))) /\
    ((~ spaced (sc_lexemes sc) k /\ ts_pos_to_col ts w = ROk (Z.of_nat c)) \/
     (spaced (sc_lexemes sc) k /\ ts_pos_to_col ts w = ROk (Z.of_nat (S c)))).
Proof.
  intros Hi Hk Hlast Hs Hocc Hnl Hj.
  pose proof (from_go_stream es src sc Hi) as Hr.
  destruct (go_tokens_prop es src sc Hi) as (ts & Hr' & _ & _ & Hlen & Hall).
  rewrite Hr in Hr'. injection Hr' as Ets.
  destruct (Hall k x s Hk Hs) as (t & Ht & Horig & Hwork & Hcase).
  assert (ts = new_token_stream src (ts_tokens ts)) as Enew by (by rewrite -Ets).
  set (w := work_start (tk_repr <$> ts_tokens ts) k + (length (tk_repr t) - length s) + j).
  assert (work_start (tk_repr <$> ts_tokens ts) k <= w < work_start (tk_repr <$> ts_tokens ts) k + length (tk_repr t)) as Hw.
  { unfold w. assert (length s <= length (tk_repr t)); [|lia]. destruct Hcase as [(_&->)|(_&->)]; [rewrite app_length|]; lia. }
  destruct (token_coords_prop src (ts_tokens ts) k t w) as (Hline & c & Hcol & Hc).
  { intros i u Hu.
    destruct (sc_lexemes sc !! i) as [y|] eqn:Ey.
    2:{ apply lookup_ge_None in Ey. apply lookup_lt_Some in Hu. lia. }
    destruct (shows_total y) as [sy Hsy]. destruct (Hall i y sy Ey Hsy) as (u' & Hu' & _ & E & _).
    rewrite Hu in Hu'. by injection Hu' as <-. }
  { exact Ht. } { rewrite Horig. lia. } { left. by rewrite Hlen. } { exact Hw. }
  rewrite -Enew in Hline Hcol.
  destruct (lookup_lt_is_Some_2 s j Hj) as [b Hb].
  pose proof (occurs_lookup s src (lx_pos x) j b Hocc Hb) as Hsrc.
  assert (b <> 10%N) as Hbn. { intros ->. apply Hnl. by eapply elem_of_list_lookup_2. }
  rewrite Horig Nat2Z.id in Hline Hc.
  exists ts, t. destruct Hcase as [(Hsp&Er)|(Hsp&Er)].
  - replace (lx_pos x + (w - work_start (tk_repr <$> ts_tokens ts) k)) with (S (lx_pos x + j)) in Hline, Hc
      by (unfold w; rewrite Er app_length; cbn [length s2b app]; cbn; lia).
    destruct (column_step _ _ _ _ Hsrc Hbn Hc) as (c' & -> & Hc'). exists c'.
    split; [by rewrite Hr -Ets|]. split; [done|]. split; [done|]. split.
    + rewrite Hline. by rewrite (newlines_step _ _ _ Hsrc Hbn).
    + right. by split.
  - replace (lx_pos x + (w - work_start (tk_repr <$> ts_tokens ts) k)) with (lx_pos x + j) in Hline, Hc
      by (unfold w; rewrite Er; lia).
    exists c. split; [by rewrite Hr -Ets|]. split; [done|]. split; [done|]. split; [done|]. left. by split.
Qed.

(** ** Errors *)
Lemma errors_nil {A B} (l : list (A * list B)) : (l ≫= snd) = [] <-> Forall (fun st => snd st = []) l.
Proof.
  induction l as [|[a es] l IH]; [done|]. rewrite Forall_cons -IH. cbn. split.
  - intros H. by apply app_nil in H.
  - by intros [-> ->].
Qed.

Lemma quiet_after es src sc : snd (from_go es src sc) = [] <-> es = [] /\ quiet sc.
Proof.
  unfold from_go, quiet. destruct (sc_init sc) as [|e l] eqn:E; cbn [length Nat.ltb Nat.leb app].
  - rewrite app_nil_r. cbn [snd]. rewrite -errors_nil. split.
    + intros H. apply app_nil in H as [-> H]. by apply app_nil in H as [-> ->].
    + intros (-> & _ & -> & ->). done.
  - split; [|by intros (_ & ? & _)]. intros H. exfalso.
    assert (es ++ e :: l = []) as H'; [|by destruct es].
    revert H. by destruct (_ =? _).
Qed.

(** The variable after a history of calls. *)
Definition go_after (es : list bytes) (h : list (bytes * scan)) : list bytes :=
  foldl (fun es c => snd (from_go es (fst c) (snd c))) es h.

Lemma go_calls_app es h src sc : go_calls es (h ++ [(src, sc)]) = go_calls es h ++ [fst (from_go (go_after es h) src sc)].
Proof.
  revert es. induction h as [|[a b] h IH]; intros es; [done|]. cbn [app go_calls]. f_equal. rewrite IH. done.
Qed.

Lemma go_calls_length es h : length (go_calls es h) = length h.
Proof. revert es. induction h as [|[a b] h IH]; intros es; [done|]. cbn [go_calls length]. by rewrite IH. Qed.

Lemma go_after_quiet es h : go_after es h = [] <-> es = [] /\ Forall (fun c => quiet (snd c)) h.
Proof.
  revert es. induction h as [|[a b] h IH]; intros es; [naive_solver|].
  cbn [go_after foldl fst snd]. rewrite IH quiet_after Forall_cons. naive_solver.
Qed.

Lemma go_last h src sc : last (go_calls [] (h ++ [(src, sc)])) = Some (fst (from_go (go_after [] h) src sc)).
Proof. by rewrite go_calls_app last_snoc. Qed.

Theorem go_errors_prop h src sc :
  (sc_init sc = [] -> exists ts, last (go_calls [] (h ++ [(src, sc)])) = Some (GoStream ts)) /\
  (sc_init sc <> [] -> Forall (fun c => quiet (snd c)) h -> last (go_calls [] (h ++ [(src, sc)])) = Some (GoErrors (sc_init sc))) /\
  (sc_init sc <> [] -> ~ Forall (fun c => quiet (snd c)) h -> last (go_calls [] (h ++ [(src, sc)])) = Some GoPanic).
Proof.
  rewrite go_last. split; [|split].
  - intros H. rewrite (from_go_stream _ _ _ H). by eexists.
  - intros H Hq. assert (go_after [] h = []) as -> by (by apply go_after_quiet).
    unfold from_go. cbn [app]. destruct (sc_init sc) as [|e l]; [done|]. cbn [length Nat.ltb Nat.leb]. by rewrite Nat.eqb_refl.
  - intros H Hq. unfold from_go. destruct (go_after [] h) as [|e0 l0] eqn:E.
    { apply go_after_quiet in E as [_ E]. done. }
    destruct (sc_init sc) as [|e l]; [done|]. cbn [app length Nat.ltb Nat.leb].
    assert ((S (length l) =? S (length (l0 ++ e :: l))) = false) as ->; [|done].
    apply Nat.eqb_neq. rewrite app_length. cbn [length]. lia.
Qed.
