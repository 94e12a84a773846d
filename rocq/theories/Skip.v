(** The textbook reading does not see SkipCache marks. *)
From Verif Require Import Base Native Engine Peg PegStd SkipSpec.

Section Skip.
Variable rules : string -> option node.
Variable rx : bytes -> bytes -> option (nat * nat).
Variable cbf : nat -> nat -> val -> option (option val).
Variable text : bytes.
Notation rules' := (fun name => option_map unskip (rules name)).

Section Step.
Variables ev ev' : node -> nat -> option result.
Hypothesis Hev : forall n p, ev' (unskip n) p = ev n p.
Lemma unskip_capture n : i_capture (n_info (unskip n)) = i_capture (n_info n).
Proof. by destruct n. Qed.
Lemma unskip_label n : i_label (n_info (unskip n)) = i_label (n_info n).
Proof. by destruct n. Qed.
Lemma single_unskip l : forall acc p, std_single ev' (map unskip l) acc p = std_single ev l acc p.
Proof.
  induction l as [|n l IH]; intros acc p; cbn [map std_single]; [done|]. rewrite Hev, unskip_capture.
  destruct (ev n p) as [[[v q]|]|]; [apply IH|done|done].
Qed.
Lemma array_unskip l : forall acc p, std_array ev' (map unskip l) acc p = std_array ev l acc p.
Proof.
  induction l as [|n l IH]; intros acc p; cbn [map std_array]; [done|]. rewrite Hev, unskip_capture.
  destruct (ev n p) as [[[v q]|]|]; [apply IH|done|done].
Qed.
Lemma object_unskip l : forall acc p, std_object ev' (map unskip l) acc p = std_object ev l acc p.
Proof.
  induction l as [|n l IH]; intros acc p; cbn [map std_object]; [done|]. rewrite Hev, unskip_label.
  destruct (ev n p) as [[[v q]|]|]; [|done|done]. destruct (joined _ _ _); [apply IH|done].
Qed.
Lemma alt_unskip l : forall p, std_alt ev' (map unskip l) p = std_alt ev l p.
Proof. induction l as [|n l IH]; intros p; cbn [map std_alt]; [done|]. rewrite Hev. destruct (ev n p) as [[?|]|]; [done|apply IH|done]. Qed.
Lemma loop_unskip v j mx fuel : forall acc p, std_loop ev' fuel (unskip v) (option_map unskip j) mx acc p = std_loop ev fuel v j mx acc p.
Proof.
  induction fuel as [|fuel IH]; intros acc p; cbn [std_loop]; [done|].
  destruct j as [jn|]; cbn [option_map] in *; rewrite ?Hev.
  - destruct (ev jn p) as [[[? q]|]|]; [|done|done]. rewrite Hev. destruct (ev v q) as [[[a q']|]|]; [|done|done]. destruct (enough _ _); [done|apply IH].
  - destruct (ev v p) as [[[a q']|]|]; [|done|done]. destruct (enough _ _); [done|apply IH].
Qed.
Lemma body_unskip fuel n p : std_body rules' rx text ev' fuel (unskip n) p = std_body rules rx text ev fuel n p.
Proof.
  destruct n as [i k]. unfold std_body. cbn [unskip n_kind]. destruct k as [s|re|name|ty l|l|v j mn mx|a|a|a|]; cbn [map_kind]; try done.
  - destruct (rules name) as [m|]; cbn; [apply Hev|done].
  - destruct ty; [apply single_unskip|apply array_unskip|apply object_unskip].
  - apply alt_unskip.
  - rewrite Hev. destruct (ev v p) as [[[a q]|]|]; [|done|done]. by rewrite loop_unskip.
  - by rewrite Hev.
  - by rewrite Hev.
  - by rewrite Hev.
Qed.
End Step.

Lemma std_unskip fuel : forall depth n p, std rules' rx cbf text fuel depth (unskip n) p = std rules rx cbf text fuel depth n p.
Proof.
  induction fuel as [|fuel IH]; intros depth n p; cbn [std]; [done|].
  assert (forall d, std_body rules' rx text (std rules' rx cbf text fuel d) fuel (unskip n) p = std_body rules rx text (std rules rx cbf text fuel d) fuel n p) as HB.
  { intros d. apply body_unskip. intros m q. apply IH. }
  assert (n_kind (unskip n) = map_kind unskip (n_kind n) /\ n_info (unskip n) = info_unskip (n_info n)) as [-> ->] by (by destruct n).
  assert (forall X Y : option result, (match map_kind unskip (n_kind n) with KUndef => X | _ => Y end = match n_kind n with KUndef => X | _ => Y end)) as HK.
  { intros. by destruct (n_kind n). }
  rewrite HK. destruct (n_kind n); try done; cbn [info_unskip i_isrule]; (destruct (i_isrule (n_info n)); [destruct depth; [done|]|]); rewrite HB; done.
Qed.
End Skip.

Lemma std_alike rules1 rules2 rx cbf text fuel depth n1 n2 p : rules_alike rules1 rules2 -> alike n1 n2 ->
  std rules1 rx cbf text fuel depth n1 p = std rules2 rx cbf text fuel depth n2 p.
Proof.
  intros Hr Hn. rewrite <- (std_unskip rules1), <- (std_unskip rules2), Hn. clear n1 Hn. revert depth n2 p.
  assert (forall ra rb, (forall name : string, ra name = rb name :> option node) ->
    forall fuel depth n p, std ra rx cbf text fuel depth n p = std rb rx cbf text fuel depth n p) as HE; [|intros; by apply HE].
  clear. intros ra rb Hr. induction fuel as [|fuel IH]; intros depth n p; cbn [std]; [done|].
  assert (forall d, std_body ra rx text (std ra rx cbf text fuel d) fuel n p = std_body rb rx text (std rb rx cbf text fuel d) fuel n p) as HB.
  { intros d. assert (forall m q, std ra rx cbf text fuel d m q = std rb rx cbf text fuel d m q) as Hev by (intros; apply IH).
    unfold std_body. destruct (n_kind n) as [s|re|name|ty l|l|v j mn mx|a|a|a|]; try done.
    - rewrite Hr. destruct (rb name); [apply Hev|done].
    - destruct ty.
      + generalize (@None val). revert p. induction l as [|m l IHl]; intros q acc; cbn [std_single]; [done|]. rewrite Hev.
        destruct (std _ _ _ _ _ _ m q) as [[[? ?]|]|]; [apply IHl|done|done].
      + generalize (@nil val). revert p. induction l as [|m l IHl]; intros q acc; cbn [std_array]; [done|]. rewrite Hev.
        destruct (std _ _ _ _ _ _ m q) as [[[? ?]|]|]; [apply IHl|done|done].
      + generalize MNone. revert p. induction l as [|m l IHl]; intros q acc; cbn [std_object]; [done|]. rewrite Hev.
        destruct (std _ _ _ _ _ _ m q) as [[[? ?]|]|]; [|done|done]. destruct (joined _ _ _); [apply IHl|done].
    - revert p. induction l as [|m l IHl]; intros q; cbn [std_alt]; [done|]. rewrite Hev. destruct (std _ _ _ _ _ _ m q) as [[?|]|]; [done|apply IHl|done].
    - rewrite Hev. destruct (std _ _ _ _ _ _ v p) as [[[a q]|]|]; [|done|done].
      assert (forall f acc q, std_loop (std ra rx cbf text fuel d) f v j mx acc q = std_loop (std rb rx cbf text fuel d) f v j mx acc q) as ->; [|done].
      induction f as [|f IHf]; intros acc q0; cbn [std_loop]; [done|]. destruct j as [jn|].
      + rewrite Hev. destruct (std _ _ _ _ _ _ jn q0) as [[[? q1]|]|]; [|done|done]. rewrite Hev. destruct (std _ _ _ _ _ _ v q1) as [[[? ?]|]|]; [|done|done].
        destruct (enough _ _); [done|apply IHf].
      + rewrite Hev. destruct (std _ _ _ _ _ _ v q0) as [[[? ?]|]|]; [|done|done]. destruct (enough _ _); [done|apply IHf].
    - by rewrite Hev.
    - by rewrite Hev.
    - by rewrite Hev. }
  destruct (n_kind n); try done; (destruct (i_isrule (n_info n)); [destruct depth; [done|]|]); rewrite HB; done.
Qed.
