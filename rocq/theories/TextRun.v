(** Compiling a text with the joeson grammar gives the parser it writes. *)
From Verif Require Import Base Helpers Utf8 Utf8Proofs Stream StreamSpec Native Engine EngSpec EngInv Toy Peg PegProofs PegRep PegBody PegStd PegStdProofs
  RunSpec PegLaws PegRun Build BuildSpec BuildMain Joeson JoesonSpec JoesonRun Erase JoesonMark CalcPeg Gives TextSpec TextNodes TextPrim TextHeads TextMain.

(** ** Reading the result back *)
Lemma tag_none t : no_bang t = true -> tag_label t = None.
Proof. destruct t as [|c t]; [done|]. cbn. by destruct (Ascii.eqb c "!"). Qed.
Lemma tag_of_plain {A} (k : kind A) : no_bang (tag_of k) = true.
Proof. by destruct k. Qed.
Lemma label_own t lb l : no_bang t = true -> label_stands (mark_tag (mark_of l) t) lb l -> lb = l.
Proof.
  intros Ht [-> |[-> H]]; [done|]. unfold mark_of in H. cbn in H. by rewrite (tag_none t Ht) in H.
Qed.
Lemma rep_obj h x l k : rep [] h x (pval (PExp l k)) -> exists a args at_, x = AObj a /\ er_heap h !! a = Some (Obj (OParser (tag_of k) args l) at_) /\ reps [] h args (kargs k).
Proof.
  rewrite pval_pv. cbn [pv lab_of]. inversion 1 as [| | | | | | |a t args l' lb lb' at0 Hnp Ha Hargs Hl Hx Hv]; subst.
  apply label_own in Hl as ->; [|apply tag_of_plain]. exists a, args, at0. split; [done|]. split; [|done].
  rewrite er_heap_lookup, Ha. cbn. do 3 f_equal. unfold er_obj. cbn. by rewrite er_mark by apply tag_of_plain.
Qed.

Definition readable (e : pexp) : Prop := exists f0, forall h x fuel, rep [] h x (pval e) -> f0 <= fuel -> read_parser fuel (er_heap h) x = Some e.
Definition reads (f : form) : Prop :=
  match f with
  | Prim e | Deco e | Unit e | Sequ e | Alter e | Expr e => readable e
  | Join j => forall e, j = Some e -> readable e
  | Units l | Sequs l => Forall readable l
  end.
Lemma read_all l : Forall readable l -> exists f0, forall h xs fuel, reps [] h xs (map pval l) -> f0 <= fuel -> mapM (read_parser fuel (er_heap h)) xs = Some l.
Proof.
  induction 1 as [|e l [f1 H1] Hl [f2 H2]]; cbn [map].
  - exists 0. intros h xs fuel. inversion 1; subst. done.
  - exists (max f1 f2). intros h xs fuel. inversion 1 as [|x v xs' l' Hx Hxs]; subst. intros Hf. change (mapM (read_parser fuel (er_heap h)) (x :: xs')) with
      (y ← read_parser fuel (er_heap h) x; k ← mapM (read_parser fuel (er_heap h)) xs'; Some (y :: k)). erewrite H1, H2 by (done || lia). done.
Qed.
Lemma reps_one h xs v : reps [] h xs [v] -> exists x, xs = [x] /\ rep [] h x v.
Proof. inversion 1 as [|x v' xs' l' Hx Hxs]; subst. inversion Hxs; subst. by exists x. Qed.
(** A parser is read by its parts, whatever its label. *)
Definition parts_readable (k : kind pexp) : Prop := forall l, readable (PExp l k).
Ltac obj H := apply rep_obj in H as (a & args & at0 & -> & Ha & Hargs); cbn [kargs tag_of] in *.
Lemma rd_str s : parts_readable (KStr s).
Proof.
  intros l. exists 1. intros h x [|f] H Hf; [lia|]. obj H. apply reps_one in Hargs as (y & -> & Hy). inversion Hy; subst. cbn [read_parser]. rewrite Ha. reflexivity.
Qed.
Lemma rd_regex s : parts_readable (KRegex s).
Proof.
  intros l. exists 1. intros h x [|f] H Hf; [lia|]. obj H. apply reps_one in Hargs as (y & -> & Hy). inversion Hy; subst. cbn [read_parser]. rewrite Ha. reflexivity.
Qed.
Lemma rd_ref s : parts_readable (KRef s).
Proof.
  intros l. exists 1. intros h x [|f] H Hf; [lia|]. obj H. apply reps_one in Hargs as (y & -> & Hy). inversion Hy; subst. cbn [read_parser]. rewrite Ha.
  change (Some (PExp l (KRef (b2s (s2b s)))) = Some (PExp l (KRef s))). by rewrite b2s_s2b.
Qed.
Lemma rd_one (mkk : pexp -> kind pexp) e : (mkk = KExist \/ mkk = KLook \/ mkk = KNot) -> readable e -> parts_readable (mkk e).
Proof.
  intros Hk [f0 He] l. exists (S f0). intros h x [|f] H Hf; [lia|]. apply rep_obj in H as (a & args & at0 & -> & Ha & Hargs).
  assert (kargs (mkk e) = [pval e]) as Hka by (by destruct Hk as [-> |[-> | ->]]). rewrite Hka in Hargs.
  apply reps_one in Hargs as (y & -> & Hy). pose proof (He h y f Hy ltac:(lia)) as H0. cbn [read_parser]. rewrite Ha.
  destruct Hk as [-> |[-> | ->]]; cbn [tag_of].
  - change (match read_parser f (er_heap h) y with Some e => Some (PExp l (KExist e)) | None => None end = Some (PExp l (KExist e))). by rewrite H0.
  - change (match read_parser f (er_heap h) y with Some e => Some (PExp l (KLook e)) | None => None end = Some (PExp l (KLook e))). by rewrite H0.
  - change (match read_parser f (er_heap h) y with Some e => Some (PExp l (KNot e)) | None => None end = Some (PExp l (KNot e))). by rewrite H0.
Qed.
Lemma rd_seq es : Forall readable es -> parts_readable (KSeq TSingle es).
Proof.
  intros He l. destruct (read_all es He) as [f0 H0]. exists (S f0). intros h x [|f] H Hf; [lia|]. obj H. cbn [read_parser]. rewrite Ha.
  change (match mapM (read_parser f (er_heap h)) args with Some l0 => Some (PExp l (KSeq TSingle l0)) | None => None end = Some (PExp l (KSeq TSingle es))).
  by rewrite (H0 h args f Hargs) by lia.
Qed.
Lemma rd_choice es : Forall readable es -> parts_readable (KChoice es).
Proof.
  intros He l. destruct (read_all es He) as [f0 H0]. exists (S f0). intros h x [|f] H Hf; [lia|]. obj H. cbn [read_parser]. rewrite Ha.
  change (match mapM (read_parser f (er_heap h)) args with Some l0 => Some (PExp l (KChoice l0)) | None => None end = Some (PExp l (KChoice es))).
  by rewrite (H0 h args f Hargs) by lia.
Qed.
Lemma rd_pat e j mn mx : readable e -> (forall x, j = Some x -> readable x) -> parts_readable (KPat e j mn mx).
Proof.
  intros [f0 He] Hj l.
  assert (exists f1, forall h z f, rep [] h z match j with Some x => pval x | None => VUndef end -> f1 <= f -> match z with
     | AUndef => Some (PExp l (KPat e None mn mx))
     | _ => match read_parser f (er_heap h) z with Some ej => Some (PExp l (KPat e (Some ej) mn mx)) | None => None end end = Some (PExp l (KPat e j mn mx))) as [f1 H1].
  { destruct j as [x|].
    - destruct (Hj x eq_refl) as [f1 H1]. exists f1. intros h z f Hz Hf. rewrite (H1 h z f Hz Hf). destruct x as [lx kx]. apply rep_obj in Hz as (b & ? & ? & -> & _). done.
    - exists 0. intros h z f Hz _. inversion Hz; subst. done. }
  exists (S (max f0 f1)). intros h x [|f] H Hf; [lia|]. obj H.
  inversion Hargs as [|y v ys l1 Hy Hys]; subst. inversion Hys as [|z v2 zs l2 Hz Hzs]; subst.
  inversion Hzs as [|m1 v3 ms l3 Hm Hms]; subst. inversion Hms as [|m2 v4 ms2 l4 Hm2 Hms2]; subst. inversion Hm; subst. inversion Hm2; subst. inversion Hms2; subst.
  cbn [read_parser]. rewrite Ha.
  change (match read_parser f (er_heap h) y with
    | Some ev => match z with
       | AUndef => Some (PExp l (KPat ev None mn mx))
       | _ => match read_parser f (er_heap h) z with Some ej => Some (PExp l (KPat ev (Some ej) mn mx)) | None => None end end
    | None => None end = Some (PExp l (KPat e j mn mx))).
  rewrite (He h y f Hy) by lia. apply H1; [done|lia].
Qed.
(** Texts write only parsers that can be read; their parts as well. *)
Definition reads' (f : form) : Prop := reads f /\ match f with Deco (PExp l k) | Prim (PExp l k) => l = ""%string -> parts_readable k | Unit (PExp l k) | Sequ (PExp l k) | Alter (PExp l k) | Expr (PExp l k) => l = ""%string -> parts_readable k | _ => True end.
Lemma parts_form l k : parts_readable k -> readable (PExp l k) /\ (l = ""%string -> parts_readable k).
Proof. intros H. split; [apply H|done]. Qed.
Lemma writes_reads re_ok n f s : writes re_ok n f s -> reads' f.
Proof.
  induction 1 as [n nm Hn|n s t Hq|n t Hq Hre|n t Hq Hre|n e s H IH|n|n e s H IH|n e s H IH|n e s H IH|n e j s s' H IH H' IH'
    |n e j mn mx s s' t H IH H' IH' Hr|n e j s s' H IH H' IH'|n e mn mx s t H IH Hr|n e s H IH|n e s H IH|n e s H IH|n l k s H IH Hl
    |n e s H IH|n e l s w s' H IH Hw Hw0 H' IH'|n e s H IH|n l s H IH Hlen|n e s H IH|n e l s w w' s' H IH Hw Hw' H' IH'|n e s H IH|n l s H IH Hlen|n e w s w' H IH Hw Hw'];
    unfold reads' in *; cbn [reads] in *.
  - apply parts_form, rd_ref.
  - apply parts_form, rd_str.
  - apply parts_form, rd_regex.
  - apply parts_form, rd_regex.
  - exact IH.
  - done.
  - split; [|done]. intros e' [= <-]. apply IH.
  - exact IH.
  - apply parts_form, (rd_one KExist); [by left|apply IH].
  - apply parts_form, rd_pat; [apply IH|apply IH'].
  - apply parts_form, rd_pat; [apply IH|apply IH'].
  - apply parts_form, rd_pat; [apply IH|apply IH'].
  - apply parts_form, rd_pat; [apply IH|done].
  - apply parts_form, (rd_one KNot); [by right; right|apply IH].
  - apply parts_form, (rd_one KLook); [by right; left|apply IH].
  - exact IH.
  - destruct IH as [_ IH]. apply parts_form. by apply IH.
  - split; [|done]. constructor; [apply IH|constructor].
  - split; [|done]. constructor; [apply IH|apply IH'].
  - exact IH.
  - apply parts_form, rd_seq, IH.
  - split; [|done]. constructor; [apply IH|constructor].
  - split; [|done]. constructor; [apply IH|apply IH'].
  - exact IH.
  - apply parts_form, rd_choice, IH.
  - exact IH.
Qed.

(** ** The grammar is one the refinement covers *)
Lemma run_len_le f s : run_len f s <= length s.
Proof. induction s as [|c s IH]; cbn; [lia|]. destruct (f c); lia. Qed.
Lemma find_run_ok f g s i a b : find_run f g s i = Some (a, b) -> a <= b <= i + length s.
Proof.
  revert i. induction s as [|c s IH]; intros i; cbn; [done|]. destruct (f c).
  - intros [= <- <-]. pose proof (run_len_le g s). lia.
  - intros H%IH. lia.
Qed.
Lemma joeson_rx_ok re : rx_ok (joeson_rx re).
Proof.
  intros s a b. unfold joeson_rx. destruct (bytes_eqb re re_word); [by intros H%find_run_ok|]. destruct (bytes_eqb re re_int); [by intros H%find_run_ok|].
  destruct (bytes_eqb re re_any); [|done]. destruct s as [|c s]; [done|]. intros H. pose proof (decode_rune_width (c :: s) ltac:(done)) as HW. remember (snd (decode_rune (c :: s))) as w eqn:Ew. clear Ew. injection H as <- <-. lia.
Qed.

Lemma reach_all (b : built) o rx cb n : reach (mk_env (gram_of b) o rx cb) (fst b) n -> n ∈ all_nodes (fst b) (snd b).
Proof.
  intros H. induction H as [|n c _ IH Hc|name n H].
  - apply elem_of_flat_map. exists (fst b). split; [left|apply subnodes_self].
  - apply elem_of_flat_map in IH as (m & Hm & IH). apply elem_of_flat_map. exists m. split; [done|]. by eapply subnodes_child.
  - apply last_of_split in H as (i & Hi & _). apply elem_of_list_lookup_2 in Hi.
    apply elem_of_flat_map. exists n. split; [right; apply elem_of_list_fmap; by exists (name, n)|apply subnodes_self].
Qed.
Lemma ids_all compile fuel name ls b : build compile fuel name ls = ROk b -> names_once ls -> forall o rx cb,
  ids_fit (mk_env (gram_of b) o rx cb) (fst b) /\ ids_unique (mk_env (gram_of b) o rx cb) (fst b).
Proof.
  intros Hb Ho o rx cb. pose proof (numbered _ _ _ _ _ Hb Ho) as [_ Hn2]. split.
  - intros n Hr Hi. specialize (Hn2 o rx cb n Hr Hi). by apply lookup_lt_Some in Hn2.
  - exists (fun i => snd (default (EmptyString, fst b) (snd b !! i))). intros n Hr Hi. by rewrite (Hn2 o rx cb n Hr Hi).
Qed.
Section Run.
Variable re_ok : bytes -> bool.
Variable mk : nat -> nat -> option string.
Notation g := (gram_of hand).
Notation o := (POpts false false false).
Notation E := (mk_env g o joeson_rx (mcb re_ok mk)).
Lemma hand_once : names_once joeson_rules.
Proof. apply (bool_decide_unpack _). vm_compute. exact I. Qed.
Lemma hand_reach n : reach E j_top n -> n ∈ all_nodes j_top (snd hand).
Proof. exact (reach_all hand o joeson_rx (mcb re_ok mk) n). Qed.
Lemma hand_built : build no_compile 50 joeson_name joeson_rules = ROk hand.
Proof. vm_compute. reflexivity. Qed.
Lemma hand_ids0 : ids_fit E (fst hand) /\ ids_unique E (fst hand).
Proof. exact (ids_all no_compile 50 joeson_name joeson_rules hand hand_built hand_once o joeson_rx (mcb re_ok mk)). Qed.
Lemma hand_fst : fst hand = j_top.
Proof. rewrite hand_nodes. reflexivity. Qed.
Lemma hand_ids : ids_fit E j_top /\ ids_unique E j_top.
Proof. rewrite <- hand_fst. exact hand_ids0. Qed.

Lemma hand_top : top_rank j_top.
Proof. split; [done|]. split; [done|]. split; [done|]. exists [j_EXPR]. split; [done|]. by repeat constructor. Qed.
Lemma hand_quiet : quiet E j_top.
Proof.
  split; [done|]. split; [done|]. intros n Hn%hand_reach.
  assert (forallb (fun n => negb (i_debug (n_info n))) (all_nodes j_top (snd hand)) = true) as H by (vm_compute; reflexivity).
  rewrite forallb_forall in H. apply elem_of_list_In in Hn. specialize (H n Hn). by destruct (i_debug (n_info n)).
Qed.
Definition plus_ok (n : node) : bool :=
  match i_cb (n_info n) with
  | Some 4 => (makes_map n && (String.eqb (i_label (n_info n)) "" || negb (i_wraps (n_info n))))%bool
  | _ => true
  end.
Lemma hand_pure : cb_pure E j_top (jcbf re_ok mk).
Proof.
  apply mcb_pure; [done|]. intros n Hn%hand_reach Hc.
  assert (forallb plus_ok (all_nodes j_top (snd hand)) = true) as H by (vm_compute; reflexivity).
  rewrite forallb_forall in H. apply elem_of_list_In in Hn. specialize (H n Hn). unfold plus_ok in H. rewrite Hc in H.
  apply andb_prop in H as [H1 H2]. split; [done|]. apply orb_prop in H2 as [H2|H2]; [left; by apply String.eqb_eq|right]. by destruct (i_wraps (n_info n)).
Qed.
Lemma hand_grammar : pure_grammar E j_top (jcbf re_ok mk).
Proof. destruct hand_ids. split; [apply joeson_rx_ok|done|done|apply hand_quiet|apply hand_pure]. Qed.
End Run.

(** ** Marks *)
Definition mk_of (ms : marks) (c e : nat) : option string :=
  match List.find (fun x => (x.1.1 =? c) && (x.1.2 =? e)) ms with Some x => x.2 | None => None end.
Lemma mk_of_agrees ms : NoDup ms.*1 -> agrees (mk_of ms) ms.
Proof.
  intros H. apply Forall_forall. intros [[c e] l] Hx. cbn. unfold mk_of.
  induction ms as [|[[c' e'] l'] ms IH]; [by apply elem_of_nil in Hx|]. cbn [List.find fst snd]. cbn [fmap list_fmap] in H. apply NoDup_cons in H as [H1 H2].
  apply elem_of_cons in Hx as [[= <- <- <-]|Hx].
  - by rewrite !Nat.eqb_refl.
  - destruct ((c' =? c) && (e' =? e)) eqn:EE; [|by apply IH]. apply andb_prop in EE as [E1 E2]. apply Nat.eqb_eq in E1 as ->. apply Nat.eqb_eq in E2 as ->.
    exfalso. apply H1. apply elem_of_list_fmap. by exists ((c, e), l).
Qed.

(** ** Whole texts *)
Theorem compile_writes re_ok n e s : writes re_ok n (Expr e) s -> n <= 72 ->
  exists f0, forall fuel, f0 <= fuel -> compile_with re_ok fuel (gram_of hand) s = ROk e.
Proof.
  intros H Hn. pose proof (writes_good re_ok n _ s H 0) as HG. cbn [good] in HG. cbv zeta in HG. apply many_one in HG as (ms & [Hnd _] & HG).
  set (mk := mk_of ms). specialize (HG mk (mk_of_agrees ms Hnd)).
  assert (gives jrules joeson_rx (jcbf re_ok mk) s 1024 j_EXPR 0 (Some (pval e, length s))) as HE.
  { rewrite pval_pv. apply (HG s 1024 []); [unfold Gives.at_; by rewrite app_nil_r|done|lia]. }
  assert (textbook (mk_env (gram_of hand) (POpts false false false) joeson_rx (mcb re_ok mk)) (jcbf re_ok mk) s j_top 0 (Some (pval e, length s))) as HT.
  { assert (gives jrules joeson_rx (jcbf re_ok mk) s 1024 j_top 0 (Some (pval e, length s))) as [f Hf].
    { apply g_ot; [done|]. eapply does_choice; [done|]. by apply alts_take. }
    exists f. by apply Hf. }
  pose proof (hand_grammar re_ok mk) as Hpure. pose proof Hpure as [_ _ [R HR] _ _].
  pose proof (textbook_meaning _ j_top (CRune (new_rune_stream s)) (jcbf re_ok mk) R j_top 0 _ HR ltac:(constructor) HT) as HM.
  destruct (gram_meaning (gram_of hand) joeson_rx (mcb re_ok mk) (POpts false false false) (jcbf re_ok mk) Hpure hand_top R (fun _ => None) HR ltac:(done)
    (CRune (new_rune_stream s)) _ (rune_code_ok _) eq_refl HM) as (f0 & Hf).
  destruct (writes_reads _ _ _ _ H) as [Hread _]. cbn [reads] in Hread.
  destruct Hread as [f1 Hread]. exists (max f0 f1). intros fuel Hl. specialize (Hf fuel ltac:(lia)). cbn [c_work] in Hf. rewrite Nat.eqb_refl in Hf.
  destruct Hf as (x & s' & Hx & Hr).
  pose proof (com_gram fuel (gram_of hand) (POpts false false false) joeson_rx (mcb re_ok mk) (joeson_cb re_ok) (CRune (new_rune_stream s)) (er_mcb re_ok mk)) as HC.
  rewrite Hx in HC. unfold compile_with, parse_string. rewrite HC. cbn [er_out]. rewrite (Hread _ _ _ Hr) by lia.
  destruct e as [l k]. apply rep_obj in Hr as (a & ? & ? & -> & _). done.
Qed.
