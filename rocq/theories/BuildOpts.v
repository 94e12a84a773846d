(** Options given to [O] and [I]. *)
From Verif Require Import Base Helpers Native Engine Build BuildSpec BuildMain.

(** What a list of options asks for: of each kind the last one counts. *)
Definition asked {A} (f : opt -> option A) (d : A) (l : list opt) : A := default d (last (omap f l)).
Definition asks_cb (x : opt) : option (option nat) := match x with OCb f => Some (Some f) | _ => None end.
Definition asks_skip (x : opt) : option bool := match x with OSkipCache b => Some b | _ => None end.
Definition asks_debug (x : opt) : option bool := match x with ODebug b => Some b | _ => None end.

Lemma asked_last {A} (f : opt -> option A) d l x : asked f d (l ++ [x]) = match f x with Some y => y | None => asked f d l end.
Proof.
  unfold asked. rewrite omap_app. cbn. destruct (f x); cbn; [by rewrite last_snoc|by rewrite app_nil_r].
Qed.
Lemma apply_opts_last o l x o' : apply_opts o (l ++ [x]) = ROk o' -> exists o1, apply_opts o l = ROk o1 /\ apply_opt o1 x = ROk o'.
Proof.
  revert o. induction l as [|y l IH]; intros o; cbn.
  - destruct (apply_opt o x) as [o1| |] eqn:H; cbn; [|done..]. intros [= <-]. by exists o.
  - destruct (apply_opt o y); cbn; [apply IH|done..].
Qed.
Lemma apply_opts_asked l o : apply_opts no_opts l = ROk o ->
  o = LOpts (asked asks_cb None l) (asked asks_skip false l) (asked asks_debug false l).
Proof.
  revert o. induction l as [|x l IH] using rev_ind; intros o; [cbn; by intros [= <-]|].
  intros (o1 & H1 & H2)%apply_opts_last. rewrite !asked_last. apply IH in H1. subst o1.
  destruct x; cbn in H2; try discriminate H2; injection H2 as <-; reflexivity.
Qed.
Lemma o_opts a l nm c o : mk_o a l = ROk (LO nm c o) ->
  o = LOpts (asked asks_cb None l) (asked asks_skip false l) (asked asks_debug false l).
Proof.
  unfold mk_o, line_init. destruct (match a with GText _ => _ | _ => _ end) as [nc| |]; [|done..]. cbn [rbind].
  destruct (apply_opts no_opts l) as [o'| |] eqn:H; [|done..]. cbn. intros [= <- <- <-]. by apply apply_opts_asked.
Qed.
Lemma i_opts a l nm c o : mk_i a l = ROk (LI nm c o) ->
  o = LOpts (asked asks_cb None l) (asked asks_skip false l) (asked asks_debug false l).
Proof.
  unfold mk_i, line_init. destruct (match a with GText _ => _ | _ => _ end) as [nc| |]; [|done..]. cbn [rbind].
  destruct (apply_opts no_opts l) as [o'| |] eqn:H; [|done..]. cbn. destruct (String.eqb _ _); [done|]. intros [= <- <- <-]. by apply apply_opts_asked.
Qed.

Section Kept.
Variables (compile : bytes -> res pexp) (fuel : nat) (name : string) (ls : list line) (b : node * list (string * node)).
Hypothesis Hb : build compile fuel name ls = ROk b.
Hypothesis Hnames : names_once ls.
Hypothesis Hsingle : no_singles compile ls.
Hypothesis Hname : name <> EmptyString.
Lemma kept i d : decls name ls !! i = Some d -> exists n, snd b !! i = Some (d_name d, n) /\
  i_cb (n_info n) = lo_cb (d_opts d) /\
  (forall s, d_what d = WText s -> i_skip (n_info n) = lo_skip (d_opts d) /\ i_debug (n_info n) = lo_debug (d_opts d)).
Proof.
  intros Hd. destruct (named compile fuel name ls b Hb Hnames Hsingle Hname) as [HF _].
  destruct (Forall2_lookup_l _ _ _ _ _ HF Hd) as ([nm n] & Hn & Hq & Hr & Hcb & Hw). cbn [fst snd] in *. subst nm. exists n. split; [done|]. split; [done|].
  intros s Hs. rewrite Hs in Hw. destruct Hw as (e & _ & _ & _ & H1 & H2). done.
Qed.
End Kept.
