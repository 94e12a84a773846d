(** Rules for the textbook evaluator: what a parser gives from some fuel on. *)
From Verif Require Import Base Helpers Utf8 Stream Native Engine EngSpec Peg PegProofs PegStd PegStdProofs.

Section Gives.
Variable rules : string -> option node.
Variable rx : bytes -> bytes -> option (nat * nat).
Variable cbf : nat -> nat -> val -> option (option val).
Variable text : bytes.
Notation ev := (std rules rx cbf text).
Notation ebody := (std_body rules rx text).

(** From some fuel on. *)
Definition late (P : nat -> Prop) : Prop := exists f0, forall f, f0 <= f -> P f.
Lemma late_all (P : nat -> Prop) : (forall f, P f) -> late P.
Proof. intros H. by exists 0. Qed.
Lemma late_imp (P Q : nat -> Prop) : late P -> (forall f, P f -> Q f) -> late Q.
Proof. intros [f0 H] HQ. exists f0. intros f Hf. by apply HQ, H. Qed.
Lemma late_imp2 (P Q S : nat -> Prop) : late P -> late Q -> (forall f, P f -> Q f -> S f) -> late S.
Proof. intros [f0 H] [f1 H1] HQ. exists (max f0 f1). intros f Hf. apply HQ; [apply H|apply H1]; lia. Qed.

Definition gives (d : nat) (n : node) (p : nat) (r : result) : Prop := late (fun f => ev f d n p = Some r).
Definition does (d : nat) (n : node) (p : nat) (r : result) : Prop := late (fun f => ebody (ev f d) f n p = Some r).
Definition singles d l acc p r : Prop := late (fun f => std_single (ev f d) l acc p = Some r).
Definition arrays d l acc p r : Prop := late (fun f => std_array (ev f d) l acc p = Some r).
Definition objects d l acc p r : Prop := late (fun f => std_object (ev f d) l acc p = Some r).
Definition alts d l p r : Prop := late (fun f => std_alt (ev f d) l p = Some r).
Definition loops d v j mx acc p l e : Prop := exists f0, forall f k, f0 <= f -> f0 <= k -> std_loop (ev f d) k v j mx acc p = Some (l, e).

Lemma gives_deeper d d' n p r : gives d n p r -> d <= d' -> gives d' n p r.
Proof.
  intros [f0 H] Hd. exists f0. intros f Hf.
  exact (std_mono (Env 0 rules rx (fun _ _ h _ => CbPanic 0) false false 0 false) cbf (fun _ => Node (Info "" "" false false 0 false None false false) KUndef)
    text f f d d' n p r (le_n _) Hd (H f Hf)).
Qed.

(** ** Parsers *)
Lemma gives_plain d n p r r' : n_kind n <> KUndef -> i_isrule (n_info n) = false -> does d n p r ->
  prepared cbf (n_info n) r = Some r' -> gives d n p r'.
Proof.
  intros Hk Hr [f0 H] Hp. exists (S f0). intros [|f] Hf; [lia|]. cbn [std]. rewrite Hr.
  rewrite H by lia. rewrite Hp. by destruct (n_kind n).
Qed.
Lemma gives_rule d n p r r' : n_kind n <> KUndef -> i_isrule (n_info n) = true -> does d n p r ->
  prepared cbf (n_info n) r = Some r' -> gives (S d) n p r'.
Proof.
  intros Hk Hr [f0 H] Hp. exists (S f0). intros [|f] Hf; [lia|]. cbn [std]. rewrite Hr.
  rewrite H by lia. rewrite Hp. by destruct (n_kind n).
Qed.
(** No label that wraps, no callback. *)
Definition bare (i : info) : Prop := i_cb i = None /\ (i_label i = EmptyString \/ i_wraps i = false).
Lemma bare_prepared i r : bare i -> prepared cbf i r = Some r.
Proof.
  intros [Hc Hl]. destruct r as [[v e]|]; [|done]. unfold prepared, labelled. rewrite Hc. destruct Hl as [-> | ->]; [done|].
  by rewrite andb_false_r.
Qed.
Lemma gives_bare d n p r : n_kind n <> KUndef -> i_isrule (n_info n) = false -> bare (n_info n) -> does d n p r -> gives d n p r.
Proof. intros. eapply gives_plain; [done|done|done|]. by apply bare_prepared. Qed.
Lemma gives_bare_rule d n p r : n_kind n <> KUndef -> i_isrule (n_info n) = true -> bare (n_info n) -> does d n p r -> gives (S d) n p r.
Proof. intros. eapply gives_rule; [done|done|done|]. by apply bare_prepared. Qed.

(** ** Bodies *)
Lemma does_ref d n nm m p r : n_kind n = KRef nm -> rules nm = Some m -> gives d m p r -> does d n p r.
Proof. intros Hk Hm H. eapply late_imp; [exact H|]. intros f Hf. unfold std_body. by rewrite Hk, Hm. Qed.
Lemma does_lit d n s p r : n_kind n = KStr s -> lit text s p = r -> does d n p r.
Proof. intros Hk <-. apply late_all. intros f. unfold std_body. by rewrite Hk. Qed.
Lemma does_regex d n re p r : n_kind n = KRegex re -> rgx rx text re p = r -> does d n p r.
Proof. intros Hk <-. apply late_all. intros f. unfold std_body. by rewrite Hk. Qed.
Lemma does_single d n l p r : n_kind n = KSeq TSingle l -> singles d l None p r -> does d n p r.
Proof. intros Hk H. eapply late_imp; [exact H|]. intros f Hf. unfold std_body. by rewrite Hk. Qed.
Lemma does_array d n l p r : n_kind n = KSeq TArray l -> arrays d l [] p r -> does d n p r.
Proof. intros Hk H. eapply late_imp; [exact H|]. intros f Hf. unfold std_body. by rewrite Hk. Qed.
Lemma does_object d n l p r : n_kind n = KSeq TObject l -> objects d l MNone p r -> does d n p r.
Proof. intros Hk H. eapply late_imp; [exact H|]. intros f Hf. unfold std_body. by rewrite Hk. Qed.
Lemma does_choice d n l p r : n_kind n = KChoice l -> alts d l p r -> does d n p r.
Proof. intros Hk H. eapply late_imp; [exact H|]. intros f Hf. unfold std_body. by rewrite Hk. Qed.
Lemma does_pat_none d n v j mn mx p : n_kind n = KPat v j mn mx -> gives d v p None ->
  does d n p (if (0 <? mn)%Z then None else Some (VArr [], p)).
Proof. intros Hk H. eapply late_imp; [exact H|]. intros f Hf. unfold std_body. by rewrite Hk, Hf. Qed.
Lemma does_pat_some d n v j mn mx p a q l e : n_kind n = KPat v j mn mx -> gives d v p (Some (a, q)) -> loops d v j mx [a] q l e ->
  does d n p (if too_few mn (length l) then None else Some (VArr l, e)).
Proof.
  intros Hk [f0 H] [f1 H1]. exists (max f0 f1). intros f Hf. unfold std_body. rewrite Hk, H by lia. by rewrite H1 by lia.
Qed.
Lemma does_exist_none d n a p : n_kind n = KExist a -> gives d a p None -> does d n p (Some (VUndef, p)).
Proof. intros Hk H. eapply late_imp; [exact H|]. intros f Hf. unfold std_body. by rewrite Hk, Hf. Qed.
Lemma does_exist_some d n a p v e : n_kind n = KExist a -> gives d a p (Some (v, e)) -> does d n p (Some (v, e)).
Proof. intros Hk H. eapply late_imp; [exact H|]. intros f Hf. unfold std_body. by rewrite Hk, Hf. Qed.
Lemma does_not d n a p : n_kind n = KNot a -> gives d a p None -> does d n p (Some (VUndef, p)).
Proof. intros Hk H. eapply late_imp; [exact H|]. intros f Hf. unfold std_body. by rewrite Hk, Hf. Qed.
Lemma does_not_fail d n a p v e : n_kind n = KNot a -> gives d a p (Some (v, e)) -> does d n p None.
Proof. intros Hk H. eapply late_imp; [exact H|]. intros f Hf. unfold std_body. by rewrite Hk, Hf. Qed.
Lemma does_look d n a p v e : n_kind n = KLook a -> gives d a p (Some (v, e)) -> does d n p (Some (v, p)).
Proof. intros Hk H. eapply late_imp; [exact H|]. intros f Hf. unfold std_body. by rewrite Hk, Hf. Qed.
Lemma does_look_fail d n a p : n_kind n = KLook a -> gives d a p None -> does d n p None.
Proof. intros Hk H. eapply late_imp; [exact H|]. intros f Hf. unfold std_body. by rewrite Hk, Hf. Qed.

(** ** Lists *)
Lemma singles_nil d acc p : singles d [] acc p (Some (default VUndef acc, p)).
Proof. by apply late_all. Qed.
Lemma singles_cons d n l acc p v q r : gives d n p (Some (v, q)) -> singles d l (if i_capture (n_info n) then Some v else acc) q r ->
  singles d (n :: l) acc p r.
Proof. intros H1 H2. eapply late_imp2; [exact H1|exact H2|]. intros f E1 E2. cbn [std_single]. by rewrite E1. Qed.
Lemma singles_fail d n l acc p : gives d n p None -> singles d (n :: l) acc p None.
Proof. intros H1. eapply late_imp; [exact H1|]. intros f E1. cbn [std_single]. by rewrite E1. Qed.
Lemma arrays_nil d acc p : arrays d [] acc p (Some (VArr acc, p)).
Proof. by apply late_all. Qed.
Lemma arrays_cons d n l acc p v q r : gives d n p (Some (v, q)) -> arrays d l (if i_capture (n_info n) then acc ++ [v] else acc) q r ->
  arrays d (n :: l) acc p r.
Proof. intros H1 H2. eapply late_imp2; [exact H1|exact H2|]. intros f E1 E2. cbn [std_array]. by rewrite E1. Qed.
Lemma arrays_fail d n l acc p : gives d n p None -> arrays d (n :: l) acc p None.
Proof. intros H1. eapply late_imp; [exact H1|]. intros f E1. cbn [std_array]. by rewrite E1. Qed.
Lemma objects_nil d m p : objects d [] m p (Some (made_val m, p)).
Proof. by apply late_all. Qed.
Lemma objects_cons d n l m m' p v q r : gives d n p (Some (v, q)) -> joined (i_label (n_info n)) m v = Some m' -> objects d l m' q r ->
  objects d (n :: l) m p r.
Proof. intros H1 Hj H2. eapply late_imp2; [exact H1|exact H2|]. intros f E1 E2. cbn [std_object]. by rewrite E1, Hj. Qed.
Lemma objects_fail d n l acc p : gives d n p None -> objects d (n :: l) acc p None.
Proof. intros H1. eapply late_imp; [exact H1|]. intros f E1. cbn [std_object]. by rewrite E1. Qed.
Lemma alts_nil d p : alts d [] p None.
Proof. by apply late_all. Qed.
Lemma alts_take d n l p v e : gives d n p (Some (v, e)) -> alts d (n :: l) p (Some (v, e)).
Proof. intros H1. eapply late_imp; [exact H1|]. intros f E1. cbn [std_alt]. by rewrite E1. Qed.
Lemma alts_next d n l p r : gives d n p None -> alts d l p r -> alts d (n :: l) p r.
Proof. intros H1 H2. eapply late_imp2; [exact H1|exact H2|]. intros f E1 E2. cbn [std_alt]. by rewrite E1. Qed.

(** Repetitions. *)
Lemma loops_end d v mx acc p : gives d v p None -> loops d v None mx acc p acc p.
Proof. intros [f0 H]. exists (S f0). intros f [|k] Hf Hk; [lia|]. cbn [std_loop]. by rewrite H by lia. Qed.
Lemma loops_more d v mx acc p a q l e : gives d v p (Some (a, q)) -> enough mx (S (length acc)) = false ->
  loops d v None mx (acc ++ [a]) q l e -> loops d v None mx acc p l e.
Proof.
  intros [f0 H] Hm [f1 H1]. exists (S (f0 + f1)). intros f [|k] Hf Hk; [lia|]. cbn [std_loop]. rewrite H by lia. rewrite Hm. apply H1; lia.
Qed.
Lemma loops_join_end d v j mx acc p : gives d j p None -> loops d v (Some j) mx acc p acc p.
Proof. intros [f0 H]. exists (S f0). intros f [|k] Hf Hk; [lia|]. cbn [std_loop]. by rewrite H by lia. Qed.
Lemma loops_join_back d v j mx acc p b q : gives d j p (Some (b, q)) -> gives d v q None -> loops d v (Some j) mx acc p acc p.
Proof.
  intros [f0 H] [f1 H1]. exists (S (f0 + f1)). intros f [|k] Hf Hk; [lia|]. cbn [std_loop]. rewrite H by lia. by rewrite H1 by lia.
Qed.
Lemma loops_join_more d v j mx acc p b q a q' l e : gives d j p (Some (b, q)) -> gives d v q (Some (a, q')) -> enough mx (S (length acc)) = false ->
  loops d v (Some j) mx (acc ++ [a]) q' l e -> loops d v (Some j) mx acc p l e.
Proof.
  intros [f0 H] [f1 H1] Hm [f2 H2]. exists (S (f0 + f1 + f2)). intros f [|k] Hf Hk; [lia|]. cbn [std_loop]. rewrite H by lia.
  rewrite H1 by lia. rewrite Hm. apply H2; lia.
Qed.

(** ** The text *)
Definition at_ (p : nat) (s : bytes) : Prop := drop p text = s.
Lemma at_app p a b : at_ p (a ++ b) -> at_ (p + length a) b.
Proof. unfold at_. intros H. rewrite <- drop_drop, H. by rewrite drop_app. Qed.
Lemma at_cons p b s : at_ p (b :: s) -> at_ (S p) s.
Proof. intros H. rewrite <- (Nat.add_1_r p). by apply (at_app p [b]). Qed.
Lemma lit_here p s rest : at_ p (s ++ rest) -> lit text s p = Some (VStr s, p + length s).
Proof. intros Hp. unfold lit. rewrite Hp, take_app. by rewrite bool_decide_true. Qed.
Lemma lit_not p b s rest : at_ p rest -> head rest <> Some b -> lit text (b :: s) p = None.
Proof.
  intros Hp Hh. unfold lit. rewrite Hp. rewrite bool_decide_false; [done|]. destruct rest as [|c rest]; [done|]. cbn in *. intros [= -> _]. done.
Qed.
End Gives.
