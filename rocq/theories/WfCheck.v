(** Computing that a grammar is in order. *)
From Verif Require Import Base Helpers Utf8 Stream StreamSpec Native Engine EngSpec EngInv Toy TermSpec Term Peg WfSpec Wf.

Section Tables.
Variable rules : list (string * node).
Variable rxe : bytes -> bool.

(** Which parsers move on if the rules in [good] do. *)
Section Eats.
Variable good : list string.
Fixpoint eats_by (n : node) : bool :=
  match n with
  | Node _ k =>
      match k with
      | KStr s => negb (length s =? 0)
      | KRegex re => rxe re
      | KRef name => existsb (String.eqb name) good
      | KSeq _ l => (fix ex l := match l with [] => false | c :: l' => eats_by c || ex l' end) l
      | KChoice l => (fix all l := match l with [] => true | c :: l' => eats_by c && all l' end) l
      | KPat v _ mn _ => ((0 <? mn)%Z && eats_by v)%bool
      | KExist _ | KLook _ | KNot _ | KUndef => false
      end%bool
  end.
End Eats.
Fixpoint good_after (k : nat) : list string :=
  match k with
  | O => fst <$> rules
  | S k' => let g := good_after k' in fst <$> List.filter (fun q => eats_by g (snd q)) rules
  end.
(** How many rules follow each other from a parser at one position, if those in
    [tbl] have the number given there. *)
Section Ord.
Variable eats : node -> bool.
Variable tbl : list (string * nat).
Definition tbl_get (name : string) : nat := default 0 (snd <$> List.find (fun p => String.eqb name (fst p)) tbl).
Fixpoint ord_by (n : node) : nat :=
  match n with
  | Node i k =>
      (if i_isrule i then 1 else 0) +
      match k with
      | KStr _ | KRegex _ | KUndef => 0
      | KRef name => tbl_get name
      | KSeq _ l => (fix go l := match l with [] => 0 | c :: l' => Nat.max (ord_by c) (if eats c then 0 else go l') end) l
      | KChoice l => (fix go l := match l with [] => 0 | c :: l' => Nat.max (ord_by c) (go l') end) l
      | KPat v j _ _ => Nat.max (ord_by v) (match j with Some x => ord_by x | None => 0 end)
      | KExist a | KLook a | KNot a => ord_by a
      end
  end.
End Ord.
Fixpoint ord_after (eats : node -> bool) (k : nat) : list (string * nat) :=
  match k with
  | O => (fun q => (fst q, 0)) <$> rules
  | S k' => let t := ord_after eats k' in (fun q => (fst q, ord_by eats t (snd q))) <$> rules
  end.
End Tables.

(** ** Checks *)
Section Check.
Variable E : env.
Variable root : node.
Variable rules : list (string * node).
Hypothesis HE : forall name n, e_rule E name = Some n -> n ∈ (snd <$> rules).
Lemma reach_in n : reach E root n -> n ∈ all_nodes root rules.
Proof.
  intros H. induction H as [|n c _ IH Hc|name n H].
  - apply elem_of_flat_map. exists root. split; [left|apply subnodes_self].
  - apply elem_of_flat_map in IH as (m & Hm & IH). apply elem_of_flat_map. exists m. split; [done|]. by eapply subnodes_child.
  - apply elem_of_flat_map. exists n. split; [right; by eapply HE|apply subnodes_self].
Qed.
Lemma check_all (f : node -> bool) n : forallb f (all_nodes root rules) = true -> reach E root n -> f n = true.
Proof. intros H Hn. rewrite List.forallb_forall in H. apply H, elem_of_list_In. by apply reach_in. Qed.

Definition rep_ok (eats : node -> bool) (n : node) : bool :=
  match n_kind n with KPat v j _ _ => eats v || match j with Some x => eats x | None => false end | _ => true end%bool.
Definition ref_ok (n : node) : bool := match n_kind n with KRef nm => match e_rule E nm with Some t => i_isrule (n_info t) | None => false end | _ => true end.
Definition down_ok (eats : node -> bool) (ord : node -> nat) (n : node) : bool :=
  forallb (fun c => if i_isrule (n_info n) then ord c <? ord n else ord c <=? ord n) (left E eats n).
Lemma eating_in rxe eats : (forall re s b, rxe re = true -> e_rx E re s = Some (0, b) -> 0 < b) ->
  forallb (fun n => implb (eats n) (ate E rxe eats n)) (all_nodes root rules) = true -> eating E root rxe eats.
Proof. intros HX H. split; [done|]. intros n Hn He. pose proof (check_all _ _ H Hn) as Hc. cbn beta in Hc. by rewrite He in Hc. Qed.
Lemma reps_in eats : forallb (rep_ok eats) (all_nodes root rules) = true -> reps_eat E root eats.
Proof.
  intros H n v j mn mx Hn HK. pose proof (check_all _ _ H Hn) as Hc. unfold rep_ok in Hc. rewrite HK in Hc.
  destruct (eats v); [by left|]. destruct j; [|done]. right. eauto.
Qed.
Lemma heights_in D : forallb (fun n => height n <=? D) (all_nodes root rules) = true -> heights E root D.
Proof. intros H n Hn. apply Nat.leb_le. by apply (check_all _ _ H). Qed.
Lemma down_in eats ord : forallb (down_ok eats ord) (all_nodes root rules) = true -> goes_down E root eats ord.
Proof.
  intros H n c Hn Hc. pose proof (check_all _ _ H Hn) as HC. unfold down_ok in HC. rewrite List.forallb_forall in HC.
  specialize (HC c ltac:(by apply elem_of_list_In)). destruct (i_isrule (n_info n)); [by apply Nat.ltb_lt|by apply Nat.leb_le].
Qed.
Lemma refs_in : forallb ref_ok (all_nodes root rules) = true -> refs_defined E root.
Proof.
  intros H n nm Hn HK. pose proof (check_all _ _ H Hn) as Hc. unfold ref_ok in Hc. rewrite HK in Hc. by destruct (e_rule E nm).
Qed.
Lemma rules_in : forallb (fun q => i_isrule (n_info (snd q))) rules = true -> refs_to_rules E.
Proof.
  intros H nm t Ht. rewrite List.forallb_forall in H. apply HE in Ht. apply elem_of_list_fmap in Ht as (q & -> & Hq).
  by apply H, elem_of_list_In.
Qed.
Lemma most_in ord K : forallb (fun n => ord n <=? K) (all_nodes root rules) = true -> forall n, reach E root n -> ord n <= K.
Proof. intros H n Hn. apply Nat.leb_le. by apply (check_all _ _ H). Qed.
Lemma labels_in : forallb (fun n => negb (String.eqb (i_label (n_info n)) "@" || String.eqb (i_label (n_info n)) "&")) (all_nodes root rules) = true ->
  plain_labels E root.
Proof.
  intros H n Hn. pose proof (check_all _ _ H Hn) as Hc. cbn beta in Hc.
  destruct (String.eqb_spec (i_label (n_info n)) "@"); [done|]. destruct (String.eqb_spec (i_label (n_info n)) "&"); [done|]. done.
Qed.
End Check.

(** Everything that concerns left recursion and repetitions. *)
Definition runs_straight (E : env) (root : node) (rules : list (string * node)) (rxe : bytes -> bool) (k : nat) : bool :=
  let eats := eats_by rxe (good_after rules rxe k) in
  let ord := ord_by eats (ord_after rules eats k) in
  let ns := all_nodes root rules in
  (forallb (fun n => implb (eats n) (ate E rxe eats n)) ns && forallb (rep_ok eats) ns && forallb (ref_ok E) ns &&
   forallb (down_ok E eats ord) ns && forallb (fun q => i_isrule (n_info (snd q))) rules)%bool.
