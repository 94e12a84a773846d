(** Small grammars for examples and counterexamples. *)
From Verif Require Import Base Helpers Utf8 Stream StreamSpec Native Engine EngSpec.

(** ** Builders *)
Definition ni (cap : bool) : info := Info "" "" cap false 0 false None false false.
Definition ri (nm : string) (id : nat) : info := Info nm "" true true id false None false false.
Definition str (s : string) : node := Node (ni false) (KStr (s2b s)).
Definition cstr (s : string) : node := Node (ni true) (KStr (s2b s)).
Definition ref (s : string) : node := Node (ni true) (KRef s).
Definition seq1 (l : list node) : node := Node (ni true) (KSeq TSingle l).
Definition seqA (l : list node) : node := Node (ni true) (KSeq TArray l).
Definition alt (l : list node) : node := Node (ni true) (KChoice l).
Definition rule (nm : string) (id : nat) (k : kind node) : node := Node (ri nm id) k.
Definition rank (l : list node) : node := Node (Info "__root__" "" true false 0 false None false false) (KChoice l).
(** The given name, label, callback and SkipCache. *)
Definition named (l : string) (n : node) : node :=
  match n with Node i k => Node (Info (i_name i) l (i_capture i) (i_isrule i) (i_id i) (i_wraps i) (i_cb i) (i_skip i) (i_debug i)) k end.
Definition with_cb (c : nat) (n : node) : node :=
  match n with Node i k => Node (Info (i_name i) (i_label i) (i_capture i) (i_isrule i) (i_id i) (i_wraps i) (Some c) (i_skip i) (i_debug i)) k end.
Definition skipping (n : node) : node :=
  match n with Node i k => Node (Info (i_name i) (i_label i) (i_capture i) (i_isrule i) (i_id i) (i_wraps i) (i_cb i) true (i_debug i)) k end.

Definition look_up (l : list (string * node)) (k : string) : option node :=
  snd <$> List.find (fun p => String.eqb k (fst p)) l.
Definition no_rx : bytes -> bytes -> option (nat * nat) := fun _ _ => None.
Definition no_cb : nat -> nat -> heap -> ast -> cbres := fun _ _ h x => CbRet h (Some x).

Definition toy_env (n : nat) (rules : list (string * node)) (cb : nat -> nat -> heap -> ast -> cbres) : env :=
  Env n (look_up rules) no_rx cb false false (-1) false.
Definition toy_gram (top : node) (n : nat) (rules : list (string * node)) : gram :=
  Gram top n (look_up rules) false false (-1).
Definition mute : popts := POpts false false false.
Definition toy_run (fuel : nat) (g : gram) (s : string) : outcome (option ast) :=
  fst (parse_string fuel g mute no_rx no_cb (s2b s)).
(** Only the value. *)
Inductive summary := Value (r : option ast) (pos : nat) | Panicked (p : panic) | Fuel.
Definition sum {A} (f : A -> option ast) (o : outcome A) : summary :=
  match o with Ok a s => Value (f a) (st_pos s) | Panic p _ => Panicked p | OutOfFuel => Fuel end.
Lemma sum_ok (o : outcome (option ast)) r p : sum id o = Value r p -> exists s, o = Ok r s /\ st_pos s = p.
Proof. destruct o as [a s| |]; cbn; [|done|done]. intros [= <- <-]. eauto. Qed.
Definition toy (fuel : nat) (g : gram) (s : string) : summary := sum id (toy_run fuel g s).

(** E <- E '+' N | N ; N <- 'n' *)
Definition sum_rules : list (string * node) :=
  [("E", rule "E" 0 (KChoice [rule "E[0]" 1 (KSeq TArray [ref "E"; str "+"; ref "N"]); ref "N"]));
   ("N", rule "N" 2 (KStr (s2b "n")))]%string.
Definition sum_top : node := rank [rule "__root__[0]" 3 (KRef "E")].
Definition sum_env : env := toy_env 4 sum_rules no_cb.
Definition sum_gram : gram := toy_gram sum_top 4 sum_rules.

Example sum_run : toy 50 sum_gram "n+n+n" =
  Value (Some (AArr [AArr [AStr (s2b "n"); AStr (s2b "n")]; AStr (s2b "n")])) 5.
Proof. vm_compute. reflexivity. Qed.

(** ** Checking the hypotheses of theorems by computation *)
Fixpoint subnodes (n : node) : list node :=
  n :: match n with Node _ k =>
       match k with
       | KSeq _ l | KChoice l => flat_map subnodes l
       | KPat v j _ _ => subnodes v ++ match j with Some x => subnodes x | None => [] end
       | KExist a | KLook a | KNot a => subnodes a
       | _ => []
       end end.

Lemma all_of_cons (P : node -> Prop) x l : P x -> (forall c, c ∈ l -> P c) -> forall c, c ∈ x :: l -> P c.
Proof. intros Hx Hl c Hc. apply elem_of_cons in Hc as [->|Hc]; auto. Qed.
Lemma all_of_nil (P : node -> Prop) : forall c, c ∈ [] -> P c.
Proof. intros c Hc. by apply elem_of_nil in Hc. Qed.
Definition node_ind2 (P : node -> Prop) (H : forall n, (forall c, c ∈ children n -> P c) -> P n) : forall n, P n :=
  fix IH (n : node) : P n :=
    match n with
    | Node i k =>
        let all := fix all (l : list node) : forall c, c ∈ l -> P c :=
          match l with [] => all_of_nil P | x :: l' => all_of_cons P x l' (IH x) (all l') end in
        H (Node i k)
          (match k as k0 return forall c, c ∈ children (Node i k0) -> P c with
           | KSeq _ l => all l
           | KChoice l => all l
           | KPat v j _ _ => all_of_cons P v _ (IH v)
               (match j as j0 return forall c, c ∈ opt_list j0 -> P c with
                | Some x => all_of_cons P x _ (IH x) (all_of_nil P) | None => all_of_nil P end)
           | KExist a => all_of_cons P a _ (IH a) (all_of_nil P)
           | KLook a => all_of_cons P a _ (IH a) (all_of_nil P)
           | KNot a => all_of_cons P a _ (IH a) (all_of_nil P)
           | KStr _ => all_of_nil P
           | KRegex _ => all_of_nil P
           | KRef _ => all_of_nil P
           | KUndef => all_of_nil P
           end)
    end.

Lemma subnodes_self n : n ∈ subnodes n.
Proof. destruct n. left. Qed.
Lemma elem_of_flat_map {A B} (f : A -> list B) l y : y ∈ flat_map f l <-> exists x, x ∈ l /\ y ∈ f x.
Proof.
  induction l as [|a l IH]; cbn.
  - split; [intros H; by apply elem_of_nil in H|intros (x & H & _); by apply elem_of_nil in H].
  - rewrite elem_of_app, IH. split.
    + intros [H|(x & H1 & H2)]; [exists a; split; [left|done]|exists x; split; [by right|done]].
    + intros (x & H1 & H2). apply elem_of_cons in H1 as [->|H1]; [by left|right; eauto].
Qed.
Lemma subnodes_unfold n : subnodes n = n :: flat_map subnodes (children n).
Proof.
  destruct n as [i k]. cbn [subnodes]. unfold children. cbn [n_kind].
  destruct k as [| | | | |v [j|]| | | |]; cbn; rewrite ?app_nil_r; done.
Qed.
Lemma subnodes_child m : forall n c, n ∈ subnodes m -> c ∈ children n -> c ∈ subnodes m.
Proof.
  induction m as [m IH] using node_ind2. intros n c Hn Hc. rewrite subnodes_unfold in Hn |- *. right.
  apply elem_of_cons in Hn as [->|Hn].
  - apply elem_of_flat_map. exists c. split; [done|apply subnodes_self].
  - apply elem_of_flat_map in Hn as (x & Hx & Hn). apply elem_of_flat_map. exists x. split; [done|]. by eapply IH.
Qed.

Definition all_nodes (root : node) (rules : list (string * node)) : list node :=
  flat_map subnodes (root :: (snd <$> rules)).
Lemma look_up_in rules name n : look_up rules name = Some n -> n ∈ (snd <$> rules).
Proof.
  unfold look_up. destruct (List.find _ rules) as [p|] eqn:E; [|done]. cbn. intros [= <-].
  apply List.find_some in E as [H _]. apply elem_of_list_fmap. exists p. split; [done|]. by apply elem_of_list_In.
Qed.
Lemma reach_all E root rules n : e_rule E = look_up rules -> reach E root n -> n ∈ all_nodes root rules.
Proof.
  intros HE H. induction H as [|n c _ IH Hc|name n H].
  - apply elem_of_flat_map. exists root. split; [left|apply subnodes_self].
  - apply elem_of_flat_map in IH as (m & Hm & IH). apply elem_of_flat_map. exists m. split; [done|]. by eapply subnodes_child.
  - rewrite HE in H. apply elem_of_flat_map. exists n. split; [right; by eapply look_up_in|apply subnodes_self].
Qed.

Lemma ids_fit_check E root rules : e_rule E = look_up rules ->
  forallb (fun n => negb (i_isrule (n_info n)) || (i_id (n_info n) <? e_nrules E))%bool (all_nodes root rules) = true ->
  ids_fit E root.
Proof.
  intros HE H n Hn Hr. rewrite List.forallb_forall in H.
  specialize (H n ltac:(apply elem_of_list_In; by eapply reach_all)). rewrite Hr in H. cbn in H. by apply Nat.ltb_lt.
Qed.

Lemma ids_unique_check E root rules : e_rule E = look_up rules ->
  NoDup ((fun n => i_id (n_info n)) <$> List.filter (fun n => i_isrule (n_info n)) (all_nodes root rules)) ->
  ids_unique E root.
Proof.
  intros HE H. set (l := List.filter _ _) in H.
  exists (fun i => match List.find (fun n => i_id (n_info n) =? i) l with Some n => n | None => root end).
  intros n Hn Hr. assert (n ∈ l) as Hl.
  { apply elem_of_list_In, List.filter_In. split; [apply elem_of_list_In; by eapply reach_all|done]. }
  destruct (List.find _ l) as [m|] eqn:EF.
  - apply List.find_some in EF as [Hm Hi]. apply Nat.eqb_eq in Hi. apply elem_of_list_In in Hm.
    apply elem_of_list_lookup in Hl as [i1 H1]. apply elem_of_list_lookup in Hm as [i2 H2].
    assert (i2 = i1) as ->. { eapply (NoDup_lookup _ i2 i1 (i_id (n_info n))); [exact H| |]; rewrite list_lookup_fmap.
      - rewrite H2. cbn. by rewrite Hi.
      - by rewrite H1. }
    congruence.
  - apply elem_of_list_In in Hl. pose proof (List.find_none _ _ EF n Hl) as HH. cbn in HH. by rewrite Nat.eqb_refl in HH.
Qed.

Lemma no_rx_ok re : rx_ok (no_rx re).
Proof. intros s a b H. discriminate H. Qed.

Lemma sum_fits : ids_fit sum_env sum_top.
Proof. by apply (ids_fit_check _ _ sum_rules). Qed.
Lemma sum_unique : ids_unique sum_env sum_top.
Proof. apply (ids_unique_check _ _ sum_rules); [done|]. apply (bool_decide_unpack _). vm_compute. done. Qed.
Lemma sum_top_ok : top_ok sum_top.
Proof. right. eexists. split; [done|]. split; [done|]. split; [done|]. by repeat constructor. Qed.
Lemma rune_code_ok text : code_ok (CRune (new_rune_stream text)).
Proof. done. Qed.
