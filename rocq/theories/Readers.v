(** Grammars without recursion: what their rules read, as functions of the rest
    of the text. *)
From stdpp Require Import sets.
From Verif Require Import Base Helpers Utf8 Utf8Proofs Stream StreamSpec Native Engine EngSpec EngInv Toy Peg PegProofs PegRep PegBody PegStd PegStdProofs
  RunSpec PegLaws PegRun Build BuildSpec BuildMain Joeson JoesonSpec JoesonRun CalcRun CalcPeg LispRead LispReadPeg LispReadTop Gives MossPeg Color.
Local Open Scope list_scope.

(** ** Grammars that are ready to run *)
Section Gram.
Variable b : node * list (string * node).
Variable o : popts.
Hypothesis Ho : po_debug o = false.
Variable rx : bytes -> bytes -> option (nat * nat).
Variable cb : nat -> nat -> heap -> ast -> cbres.
Variable cbf : nat -> nat -> val -> option (option val).
Notation g := (gram_of b).
Notation E := (mk_env g o rx cb).
Notation top := (fst b).
Hypothesis Hrx : forall re, rx_ok (rx re).
Hypothesis Hcb : cb_pure E top cbf.
Hypothesis Hready : ids_fit E top /\ ids_unique E top /\ top_rank top.
Hypothesis Hdebug : forallb (fun n => negb (i_debug (n_info n))) (all_nodes top (snd b)) = true.

Lemma gen_reach n : reach E top n -> n ∈ all_nodes top (snd b).
Proof.
  intros H. induction H as [|n c _ IH Hc|name n H].
  - apply elem_of_flat_map. exists top. split; [left|apply subnodes_self].
  - apply elem_of_flat_map in IH as (m & Hm & IH). apply elem_of_flat_map. exists m. split; [done|]. by eapply subnodes_child.
  - apply last_of_split in H as (i & Hi & _). apply elem_of_list_lookup_2 in Hi.
    apply elem_of_flat_map. exists n. split; [right; apply elem_of_list_fmap; by exists (name, n)|apply subnodes_self].
Qed.
Lemma gen_quiet : quiet E top.
Proof.
  split; [done|]. split; [done|]. intros n Hn%gen_reach. pose proof Hdebug as H.
  rewrite forallb_forall in H. apply elem_of_list_In in Hn. specialize (H n Hn). by destruct (i_debug (n_info n)).
Qed.
Lemma gen_grammar : pure_grammar E top cbf.
Proof. destruct Hready as (H1 & H2 & H3). split; [apply Hrx|done|done|apply gen_quiet|done]. Qed.
Lemma gen_run text d r : Gives.gives (g_rule g) rx cbf text d top 0 r -> d <= stack_limit -> exists fuel0, forall fuel, fuel0 <= fuel ->
  match r with
  | Some (v, e) =>
      if e =? length text then exists x s', fst (parse_string fuel g o rx cb text) = Ok (Some x) s' /\ rep [] (s_heap s') x v
      else exists k s', fst (parse_string fuel g o rx cb text) = Ok (Some (AErr k)) s' /\ e <= k <= length text
  | None =>
      if 0 =? length text then exists s', fst (parse_string fuel g o rx cb text) = Ok None s'
      else exists k s', fst (parse_string fuel g o rx cb text) = Ok (Some (AErr k)) s' /\ k <= length text
  end.
Proof.
  intros HG Hd. destruct Hready as (H1 & [R HR] & H3).
  assert (textbook E cbf text top 0 r) as HT.
  { apply (Gives.gives_deeper _ _ _ _ _ stack_limit) in HG; [|done]. destruct HG as [f0 H]. exists f0. apply H. lia. }
  pose proof (textbook_meaning E top (CRune (new_rune_stream text)) cbf R top 0 _ HR ltac:(constructor) HT) as HM.
  exact (gram_meaning g rx cb o cbf gen_grammar H3 R (fun _ => None) HR ltac:(done) _ _ (rune_code_ok _) eq_refl HM).
Qed.
End Gram.

(** ** Readers *)
Definition reader : Type := bytes -> option (val * nat).
Definition r_lit (w : bytes) : reader := fun s => if bool_decide (take (length w) s = w) then Some (VStr w, length w) else None.
Definition r_re (m : bytes -> option nat) : reader := fun s => match m s with Some n => Some (VStr (take n s), n) | None => None end.
Fixpoint pieces (m : bytes -> option nat) (fuel : nat) (s : bytes) : list bytes :=
  match fuel with
  | O => []
  | S f => match m s with Some n => take n s :: pieces m f (drop n s) | None => [] end
  end.
Definition r_star (m : bytes -> option nat) : reader :=
  fun s => let l := pieces m (length s) s in Some (VArr (VStr <$> l), length (List.concat l)).
Fixpoint r_single (l : list (bool * reader)) (acc : option val) (s : bytes) : option (val * nat) :=
  match l with
  | [] => Some (default VUndef acc, 0)
  | (c, F) :: l' =>
      match F s with
      | None => None
      | Some (v, k) => match r_single l' (if c then Some v else acc) (drop k s) with Some (w, k') => Some (w, k + k') | None => None end
      end
  end.
Fixpoint r_array (l : list (bool * reader)) (acc : list val) (s : bytes) : option (val * nat) :=
  match l with
  | [] => Some (VArr acc, 0)
  | (c, F) :: l' =>
      match F s with
      | None => None
      | Some (v, k) => match r_array l' (if c then acc ++ [v] else acc) (drop k s) with Some (w, k') => Some (w, k + k') | None => None end
      end
  end.
Fixpoint r_alt (l : list reader) (s : bytes) : option (val * nat) :=
  match l with
  | [] => None
  | F :: l' => match F s with Some r => Some r | None => r_alt l' s end
  end.
Definition r_cb (G : val -> option val) (F : reader) : reader :=
  fun s => match F s with Some (v, k) => match G v with Some w => Some (w, k) | None => None end | None => None end.
(** At most [n] more. *)
Fixpoint r_more (n : nat) (F J : reader) (s : bytes) : list val * nat :=
  match n with
  | O => ([], 0)
  | S n' =>
      match J s with
      | None => ([], 0)
      | Some (_, k) =>
          match F (drop k s) with
          | None => ([], 0)
          | Some (a, k') => let '(l, e) := r_more n' F J (drop (k + k') s) in (a :: l, k + k' + e)
          end
      end
  end.
Definition r_exactly (n : nat) (F J : reader) : reader := fun s =>
  match F s with
  | None => None
  | Some (a, k) => let '(l, e) := r_more n F J (drop k s) in if length l =? n then Some (VArr (a :: l), k + e) else None
  end.

Section Reads.
Variable rules : string -> option node.
Variable rx : bytes -> bytes -> option (nat * nat).
Variable cbf : nat -> nat -> val -> option (option val).
Variable text : bytes.
Notation gives := (Gives.gives rules rx cbf text).
Notation does := (Gives.does rules rx cbf text).
Notation at_ := (Gives.at_ text).
Definition shift (p : nat) (r : option (val * nat)) : result := match r with Some (v, k) => Some (v, p + k) | None => None end.
Definition reads (d : nat) (n : node) (F : reader) : Prop := forall p s, at_ p s -> gives d n p (shift p (F s)).
Definition doing (d : nat) (n : node) (F : reader) : Prop := forall p s, at_ p s -> does d n p (shift p (F s)).

Lemma reads_deeper d d' n F : reads d n F -> d <= d' -> reads d' n F.
Proof. intros H Hd p s Hp. eapply gives_deeper; [by apply H|done]. Qed.
Lemma reads_bare d n F : n_kind n <> KUndef -> i_isrule (n_info n) = false -> bare (n_info n) -> doing d n F -> reads d n F.
Proof. intros H1 H2 H3 H p s Hp. by apply gives_bare; [..|apply H]. Qed.
Lemma reads_rule d n F : n_kind n <> KUndef -> i_isrule (n_info n) = true -> bare (n_info n) -> doing d n F -> reads (S d) n F.
Proof. intros H1 H2 H3 H p s Hp. by apply gives_bare_rule; [..|apply H]. Qed.
Lemma reads_cb d n F G c : n_kind n <> KUndef -> i_isrule (n_info n) = true -> i_cb (n_info n) = Some c -> i_label (n_info n) = EmptyString ->
  doing d n F -> (forall q s v k p, at_ q s -> F s = Some (v, k) -> cbf c p v = Some (G v)) -> reads (S d) n (r_cb G F).
Proof.
  intros H1 H2 H3 H4 H HG p s Hp. eapply gives_rule; [done|done|by apply H|]. unfold r_cb.
  destruct (F s) as [[v k]|] eqn:E; [|done]. cbn [shift]. unfold prepared, labelled. rewrite H3, H4. cbn [String.eqb negb andb].
  rewrite (HG p s v k _ Hp E). by destruct (G v).
Qed.
Lemma doing_lit d n w : n_kind n = KStr w -> doing d n (r_lit w).
Proof. intros Hk p s Hp. eapply does_lit; [exact Hk|]. unfold lit, r_lit. unfold Gives.at_ in Hp. rewrite Hp. by destruct (bool_decide _). Qed.
Lemma doing_ref d n nm m F : n_kind n = KRef nm -> rules nm = Some m -> reads d m F -> doing d n F.
Proof. intros Hk Hm H p s Hp. eapply does_ref; [exact Hk|exact Hm|by apply H]. Qed.
Lemma re_reads re m p s : (forall s, rx re s = leftmost m (S (length s)) s 0) -> at_ p s -> rgx rx text re p = shift p (r_re m s).
Proof.
  intros Hm Hp. unfold rgx, Gives.at_ in *. rewrite Hp, Hm. unfold r_re. destruct (m s) as [n|] eqn:EM; [cbn [leftmost]; by rewrite EM|].
  destruct (leftmost m _ s 0) as [[a b]|] eqn:EL; [|done]. pose proof (leftmost_no _ _ _ _ _ EM EL). by destruct a; [lia|].
Qed.
Lemma doing_re d n re m : n_kind n = KRegex re -> (forall s, rx re s = leftmost m (S (length s)) s 0) -> doing d n (r_re m).
Proof. intros Hk Hm p s Hp. eapply does_regex; [exact Hk|]. by apply re_reads. Qed.
Lemma at_drop p s k : at_ p s -> at_ (p + k) (drop k s).
Proof. unfold Gives.at_. intros <-. by rewrite drop_drop. Qed.
Definition seqs d l (fs : list (bool * reader)) : Prop := Forall2 (fun n f => i_capture (n_info n) = f.1 /\ reads d n f.2) l fs.
Lemma doing_single d n l fs : n_kind n = KSeq TSingle l -> seqs d l fs -> doing d n (r_single fs None).
Proof.
  intros Hk H p s Hp. eapply does_single; [exact Hk|]. clear Hk. revert p s Hp. generalize (@None val) as acc.
  induction H as [|m [c F] l fs [Hc HF] _ IH]; intros acc p s Hp.
  - cbn. rewrite Nat.add_0_r. apply singles_nil.
  - cbn [r_single]. cbn [fst snd] in *. specialize (HF p s Hp). destruct (F s) as [[v k]|]; cbn [shift] in *; [|by apply singles_fail].
    eapply singles_cons; [exact HF|]. rewrite Hc. specialize (IH (if c then Some v else acc) (p + k) (drop k s) (at_drop _ _ _ Hp)).
    destruct (r_single fs _ _) as [[w k']|]; cbn [shift] in *; [|done]. by rewrite Nat.add_assoc.
Qed.
Lemma doing_array d n l fs : n_kind n = KSeq TArray l -> seqs d l fs -> doing d n (r_array fs []).
Proof.
  intros Hk H p s Hp. eapply does_array; [exact Hk|]. clear Hk. revert p s Hp. generalize (@nil val) as acc.
  induction H as [|m [c F] l fs [Hc HF] _ IH]; intros acc p s Hp.
  - cbn. rewrite Nat.add_0_r. apply arrays_nil.
  - cbn [r_array]. cbn [fst snd] in *. specialize (HF p s Hp). destruct (F s) as [[v k]|]; cbn [shift] in *; [|by apply arrays_fail].
    eapply arrays_cons; [exact HF|]. rewrite Hc. specialize (IH (if c then acc ++ [v] else acc) (p + k) (drop k s) (at_drop _ _ _ Hp)).
    destruct (r_array fs _ _) as [[w k']|]; cbn [shift] in *; [|done]. by rewrite Nat.add_assoc.
Qed.
Lemma doing_alt d n l fs : n_kind n = KChoice l -> Forall2 (reads d) l fs -> doing d n (r_alt fs).
Proof.
  intros Hk H p s Hp. eapply does_choice; [exact Hk|]. clear Hk. induction H as [|m F l fs HF _ IH]; [apply alts_nil|].
  cbn [r_alt]. specialize (HF p s Hp). destruct (F s) as [[v k]|]; cbn [shift] in *; [by apply alts_take|by apply alts_next].
Qed.
(** A repetition of a regular expression. *)
Lemma loop_star d v m : (forall s n, m s = Some n -> 0 < n <= length s) -> reads d v (r_re m) -> forall f s p acc, length s <= f -> at_ p s ->
  loops rules rx cbf text d v None (-1) acc p (acc ++ (VStr <$> pieces m f s)) (p + length (List.concat (pieces m f s))).
Proof.
  intros Hm Hv. induction f as [|f IH]; intros s p acc Hf Hp; cbn [pieces].
  - cbn. rewrite app_nil_r, Nat.add_0_r. apply loops_end. specialize (Hv p s Hp). unfold r_re in Hv. destruct (m s) as [n|] eqn:E; [|exact Hv].
    apply Hm in E. lia.
  - specialize (Hv p s Hp). unfold r_re in Hv. destruct (m s) as [n|] eqn:E; cbn [shift] in Hv.
    + pose proof (Hm s n E) as [H1 H2]. eapply loops_more; [exact Hv|done|].
      specialize (IH (drop n s) (p + n) (acc ++ [VStr (take n s)]) ltac:(rewrite drop_length; lia) (at_drop _ _ _ Hp)).
      cbn [fmap list_fmap List.concat]. rewrite app_length, take_length, Nat.min_l by lia. rewrite <- app_assoc in IH. cbn [app] in IH.
      by rewrite Nat.add_assoc.
    + cbn. rewrite app_nil_r, Nat.add_0_r. by apply loops_end.
Qed.
Lemma doing_star d n v m : n_kind n = KPat v None (-1) (-1) -> (forall s n, m s = Some n -> 0 < n <= length s) -> reads d v (r_re m) -> doing d n (r_star m).
Proof.
  intros Hk Hm Hv p s Hp. unfold r_star. destruct (m s) as [k|] eqn:E.
  - pose proof (Hm s k E) as [H1 H2]. destruct (length s) as [|f] eqn:EL; [lia|]. cbn [pieces]. rewrite E. cbn [fmap list_fmap List.concat shift].
    rewrite app_length, take_length, Nat.min_l by lia. pose proof (Hv p s Hp) as HV. unfold r_re in HV. rewrite E in HV. cbn [shift] in HV.
    pose proof (loop_star d v m Hm Hv f (drop k s) (p + k) [VStr (take k s)] ltac:(rewrite drop_length; lia) (at_drop _ _ _ Hp)) as HL.
    pose proof (does_pat_some _ _ _ _ _ _ _ _ _ _ _ _ _ _ _ Hk HV HL) as HD. rewrite <- Nat.add_assoc in HD. exact HD.
  - pose proof (Hv p s Hp) as HV. unfold r_re in HV. rewrite E in HV.
    pose proof (does_pat_none _ _ _ _ _ _ _ _ _ _ _ Hk HV) as HD. destruct (length s) as [|f]; cbn [pieces]; [|rewrite E]; cbn; rewrite Nat.add_0_r; exact HD.
Qed.
(** A joined repetition with both bounds the same. *)
Lemma loops_join_last d v j mx acc p b q a q' : gives d j p (Some (b, q)) -> gives d v q (Some (a, q')) -> enough mx (S (length acc)) = true ->
  loops rules rx cbf text d v (Some j) mx acc p (acc ++ [a]) q'.
Proof.
  intros [f0 H] [f1 H1] Hm. exists (S (f0 + f1)). intros f [|k] Hf Hk; [lia|]. cbn [std_loop]. rewrite H by lia. rewrite H1 by lia. by rewrite Hm.
Qed.
Lemma loop_more d v j F J n : reads d v F -> reads d j J -> forall k acc p s, S n = k + length acc -> 0 < k -> at_ p s ->
  loops rules rx cbf text d v (Some j) (Z.of_nat (S n)) acc p (acc ++ (r_more k F J s).1) (p + (r_more k F J s).2).
Proof.
  intros HF HJ. induction k as [|k IH]; intros acc p s Hn Hk Hp; [lia|]. cbn [r_more].
  pose proof (HJ p s Hp) as H1. destruct (J s) as [[b e]|]; cbn [shift] in H1.
  2: { cbn. rewrite app_nil_r, Nat.add_0_r. by apply loops_join_end. }
  pose proof (HF (p + e) (drop e s) (at_drop _ _ _ Hp)) as H2. destruct (F (drop e s)) as [[a e']|]; cbn [shift] in H2.
  2: { cbn. rewrite app_nil_r, Nat.add_0_r. by eapply loops_join_back. }
  destruct k as [|k].
  - cbn [r_more fst snd]. rewrite Nat.add_0_r. rewrite Nat.add_assoc. eapply loops_join_last; [exact H1|exact H2|]. unfold enough.
    replace (S (length acc)) with (S n) by lia. rewrite Z.leb_refl. destruct (Z.ltb_spec (-1) (Z.of_nat (S n))); [done|lia].
  - specialize (IH (acc ++ [a]) (p + (e + e')) (drop (e + e') s) ltac:(rewrite app_length; cbn; lia) ltac:(lia) (at_drop _ _ _ Hp)).
    destruct (r_more (S k) F J (drop (e + e') s)) as [l x]. cbn [fst snd] in *. rewrite <- app_assoc in IH. cbn [app] in IH.
    eapply loops_join_more; [exact H1|exact H2| |].
    + unfold enough. destruct (Z.leb_spec (Z.of_nat (S n)) (Z.of_nat (S (length acc)))); [lia|by rewrite andb_false_r].
    + rewrite <- Nat.add_assoc. rewrite !Nat.add_assoc in *. exact IH.
Qed.
Lemma more_length F J k : forall s, length (r_more k F J s).1 <= k.
Proof.
  induction k as [|k IH]; intros s; [done|]. cbn [r_more]. destruct (J s) as [[]|]; [|cbn; lia]. destruct (F _) as [[]|]; [|cbn; lia].
  specialize (IH (drop (n + n0) s)). destruct (r_more k F J _). cbn in *. lia.
Qed.
Lemma doing_exactly d n v j k F J : n_kind n = KPat v (Some j) (Z.of_nat (S k)) (Z.of_nat (S k)) -> 0 < k -> reads d v F -> reads d j J ->
  doing d n (r_exactly k F J).
Proof.
  intros Hk H0 HF HJ p s Hp. unfold r_exactly. pose proof (HF p s Hp) as H1. destruct (F s) as [[a e]|]; cbn [shift] in H1.
  - pose proof (loop_more d v j F J k HF HJ k [a] (p + e) (drop e s) ltac:(cbn; lia) H0 (at_drop _ _ _ Hp)) as HL.
    pose proof (does_pat_some _ _ _ _ _ _ _ _ _ _ _ _ _ _ _ Hk H1 HL) as HD. pose proof (more_length F J k (drop e s)) as HM.
    destruct (r_more k F J (drop e s)) as [l x]. cbn [fst snd] in *. revert HD. unfold too_few. cbn [app length].
    destruct (Z.ltb_spec (-1) (Z.of_nat (S k))); [|lia]. cbn [andb].
    destruct (Nat.eqb_spec (length l) k) as [He|He]; destruct (Z.ltb_spec (Z.of_nat (S (length l))) (Z.of_nat (S k))); try lia; cbn [shift]; [by rewrite Nat.add_assoc|done].
  - pose proof (does_pat_none _ _ _ _ _ _ _ _ _ _ _ Hk H1) as HD. destruct (Z.ltb_spec 0 (Z.of_nat (S k))); [exact HD|lia].
Qed.
End Reads.
(** Sequences with labels. *)
Fixpoint r_object (l : list (string * reader)) (m : made) (s : bytes) : option (val * nat) :=
  match l with
  | [] => Some (made_val m, 0)
  | (lb, F) :: l' =>
      match F s with
      | None => None
      | Some (v, k) =>
          match joined lb m v with
          | None => None
          | Some m' => match r_object l' m' (drop k s) with Some (w, k') => Some (w, k + k') | None => None end
          end
      end
  end.
Definition no_at (lb : string) : bool := negb (String.eqb lb "@" || String.eqb lb "&").
Section Objects.
Variable rules : string -> option node.
Variable rx : bytes -> bytes -> option (nat * nat).
Variable cbf : nat -> nat -> val -> option (option val).
Variable text : bytes.
Notation at_ := (Gives.at_ text).
Notation reads := (reads rules rx cbf text).
Notation doing := (doing rules rx cbf text).
Lemma joined_map lb m v : no_at lb = true -> (forall w, m <> MTook w) -> exists m', joined lb m v = Some m' /\ forall w, m' <> MTook w.
Proof.
  unfold no_at, joined. intros H Hm. destruct (String.eqb lb ""); [by exists m|]. destruct (_ || _)%bool; [done|].
  destruct m as [|kv|w]; [by eexists|by eexists|by destruct (Hm w)].
Qed.
Lemma doing_object d n l fs : n_kind n = KSeq TObject l -> Forall2 (fun n f => i_label (n_info n) = f.1 /\ no_at f.1 = true /\ reads d n f.2) l fs ->
  doing d n (r_object fs MNone).
Proof.
  intros Hk H p s Hp. eapply does_object; [exact Hk|]. clear Hk. assert (forall w, MNone <> MTook w) as Hm by done. revert Hm p s Hp. generalize MNone as m.
  induction H as [|x [lb F] l fs (Hc & Ha & HF) _ IH]; intros m Hm p s Hp.
  - cbn. rewrite Nat.add_0_r. apply objects_nil.
  - cbn [r_object]. cbn [fst snd] in *. specialize (HF p s Hp). destruct (F s) as [[v k]|]; cbn [shift] in *; [|by apply objects_fail].
    destruct (joined_map lb m v Ha Hm) as (m' & Hj & Hm'). rewrite Hj.
    eapply objects_cons; [exact HF|by rewrite Hc|]. specialize (IH m' Hm' (p + k) (drop k s) (at_drop _ _ _ _ Hp)).
    destruct (r_object fs _ _) as [[w k']|]; cbn [shift] in *; [|done]. by rewrite Nat.add_assoc.
Qed.
End Objects.
