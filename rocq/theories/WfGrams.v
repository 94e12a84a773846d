(** The grammars that come with the library: none is left-recursive, except that
    of the precedence example, and all repetitions move on. *)
From Verif Require Import Base Helpers Utf8 Utf8Spec Utf8Proofs Stream StreamSpec StreamProofs Native Engine EngSpec EngInv Toy TermSpec Term Peg Build BuildSpec
  BuildProofs Joeson JoesonSpec JoesonRun TextRun Calc CalcRun CalcMain Moss MossRun MossPeg LispRead LispReadRun LispReadTop WfSpec Wf WfCheck.

(** ** Levels *)
Section Levels.
Variable rule_of : string -> option node.
Variable tbl : list (string * nat).
Fixpoint lvl_by (n : node) : nat :=
  match n with
  | Node _ k =>
      match k with
      | KSeq _ l | KChoice l => S (fold_right (fun c m => Nat.max (lvl_by c) m) 0 l)
      | KPat v j _ _ => S (Nat.max (lvl_by v) (match j with Some x => lvl_by x | None => 0 end))
      | KExist a | KLook a | KNot a => S (lvl_by a)
      | KRef name => match rule_of name with Some t => if i_isrule (n_info t) then 1 else S (tbl_get tbl name) | None => 1 end
      | KStr _ | KRegex _ | KUndef => 1
      end
  end.
End Levels.
Fixpoint lvl_after (rule_of : string -> option node) (rules : list (string * node)) (k : nat) : list (string * nat) :=
  match k with
  | O => (fun q => (fst q, 0)) <$> rules
  | S k' => let t := lvl_after rule_of rules k' in (fun q => (fst q, lvl_by rule_of t (snd q))) <$> rules
  end.
Definition lvl_ok (E : env) (lvl : node -> nat) (D : nat) (n : node) : bool :=
  ((lvl n <=? D) && forallb (fun c => lvl c <? lvl n) (children n) &&
   match n_kind n with
   | KRef name => match e_rule E name with Some t => i_isrule (n_info t) || (lvl t <? lvl n) | None => true end
   | _ => true
   end)%bool.
Lemma levels_in E root rules lvl D : (forall name n, e_rule E name = Some n -> n ∈ (snd <$> rules)) ->
  forallb (lvl_ok E lvl D) (all_nodes root rules) = true -> levels E root lvl D.
Proof.
  intros HE H n Hn. pose proof (check_all E root rules HE _ _ H Hn) as Hc. unfold lvl_ok in Hc.
  apply andb_prop in Hc as [Hc Hr]. apply andb_prop in Hc as [HD Hc]. split; [by apply Nat.leb_le|]. split.
  - intros c Hcc. rewrite List.forallb_forall in Hc. apply Nat.ltb_lt, Hc. by apply elem_of_list_In.
  - intros name t HK Ht. rewrite HK, Ht in Hr. apply orb_prop in Hr as [Hr|Hr]; [by left|right]. by apply Nat.ltb_lt.
Qed.

(** ** Built grammars *)
Definition no_cb0 (f pos : nat) (h : heap) (x : ast) : cbres := CbRet h (Some x).
Definition env0 (b : built) : env := mk_env (gram_of b) (POpts false false false) (fun _ _ => None) no_cb0.
Definition eats_of (b : built) (k : nat) : node -> bool := eats_by (fun _ => true) (good_after (snd b) (fun _ => true) k).
Definition lvl_of (b : built) (k : nat) : node -> nat := lvl_by (last_of (snd b)) (lvl_after (last_of (snd b)) (snd b) k).
Definition ord_of (b : built) (k : nat) : node -> nat := ord_by (eats_of b k) (ord_after (snd b) (eats_of b k) k).
Definition moves_on (b : built) (k D : nat) : bool :=
  let eats := eats_of b k in
  let lvl := lvl_of b k in
  let ns := all_nodes (fst b) (snd b) in
  (forallb (fun n => implb (eats n) (ate (env0 b) (fun _ => true) eats n)) ns && forallb (rep_ok eats) ns && forallb (lvl_ok (env0 b) lvl D) ns)%bool.
Definition not_left (b : built) (k : nat) : bool :=
  forallb (down_ok (env0 b) (eats_of b k) (ord_of b k)) (all_nodes (fst b) (snd b)).

Definition rx_moves (rx : bytes -> bytes -> option (nat * nat)) : Prop := forall re s b, rx re s = Some (0, b) -> 0 < b.
Lemma in_rules (b : built) o rx cb name n : e_rule (mk_env (gram_of b) o rx cb) name = Some n -> n ∈ (snd <$> snd b).
Proof. intros H. cbn in H. apply last_of_in in H. apply elem_of_list_fmap. by exists (name, n). Qed.
Lemma moves_on_ok b k D o rx cb : moves_on b k D = true -> rx_moves rx ->
  let E := mk_env (gram_of b) o rx cb in
  eating E (fst b) (fun _ => true) (eats_of b k) /\ reps_eat E (fst b) (eats_of b k) /\ levels E (fst b) (lvl_of b k) D.
Proof.
  intros H Hrx E. unfold moves_on in H. apply andb_prop in H as [H H3]. apply andb_prop in H as [H1 H2].
  pose proof (in_rules b o rx cb) as HE. split; [|split].
  - apply (eating_in E (fst b) (snd b) HE); [intros re s x _; apply Hrx|exact H1].
  - by apply (reps_in E (fst b) (snd b) HE).
  - apply (levels_in E (fst b) (snd b)); [exact HE|exact H3].
Qed.
Lemma not_left_ok b k o rx cb : not_left b k = true -> goes_down (mk_env (gram_of b) o rx cb) (fst b) (eats_of b k) (ord_of b k).
Proof. intros H. apply (down_in _ (fst b) (snd b) (in_rules b o rx cb)). exact H. Qed.
(** Parsing ends. *)
Lemma built_ends compile fuel0 name ls b k D : build compile fuel0 name ls = ROk b -> names_once ls -> moves_on b k D = true ->
  forall rx, rx_moves rx -> (forall re, rx_ok (rx re)) -> forall o cb c fuel, c_pos c <= length (c_work c) ->
  TermSpec.enough D (length (c_work c)) <= fuel -> fst (gram_parse fuel (gram_of b) o rx cb c) <> OutOfFuel.
Proof.
  intros Hb Hn Hm rx Hx Hrx o cb c fuel Hc Hf. destruct (moves_on_ok b k D o rx cb Hm Hx) as (H1 & H2 & H3).
  destruct (ids_all _ _ _ _ _ Hb Hn o rx cb) as [_ H4].
  by apply (gram_ends fuel (gram_of b) o rx cb c (fun _ => true) (eats_of b k) (lvl_of b k) D H1 H2 Hrx H4 H3).
Qed.
(** No left recursion. *)
Lemma built_straight compile fuel0 name ls b k D : build compile fuel0 name ls = ROk b -> names_once ls -> moves_on b k D = true ->
  not_left b k = true -> forall rx, rx_moves rx -> (forall re, rx_ok (rx re)) -> forall o cb,
  let E := mk_env (gram_of b) o rx cb in
  eating E (fst b) (fun _ => true) (eats_of b k) /\ no_left_recursion E (fst b) (eats_of b k) /\ ids_unique E (fst b) /\ ids_fit E (fst b).
Proof.
  intros Hb Hn Hm Hl rx Hx Hrx o cb E. destruct (moves_on_ok b k D o rx cb Hm Hx) as (H1 & H2 & H3).
  destruct (ids_all _ _ _ _ _ Hb Hn o rx cb) as [H5 H4]. split; [done|]. split; [|done].
  apply (down_no_left _ _ _ (ord_of b k)); [done|]. by apply not_left_ok.
Qed.

(** ** Their regular expressions *)
Lemma find_run_moves f g s i b : find_run f g s i = Some (0, b) -> 0 < b.
Proof.
  revert i. induction s as [|c s IH]; intros i; cbn; [done|]. destruct (f c); [|apply IH]. intros [= -> <-]. lia.
Qed.
Lemma joeson_moves : rx_moves joeson_rx.
Proof.
  intros re s b. unfold joeson_rx. destruct (bytes_eqb re re_word); [apply find_run_moves|]. destruct (bytes_eqb re re_int); [apply find_run_moves|].
  destruct (bytes_eqb re re_any); [|done]. destruct s as [|c s]; [done|]. intros H. pose proof (decode_rune_width (c :: s) ltac:(done)) as HW.
  remember (snd (decode_rune (c :: s))) as w eqn:Ew. clear Ew. injection H as <-. lia.
Qed.
Lemma find_first_moves f s i b : find_first f s i = Some (0, b) -> 0 < b.
Proof. revert i. induction s as [|c s IH]; intros i; cbn; [done|]. destruct (f c); [|apply IH]. intros [= -> <-]. lia. Qed.
Lemma calc_moves : rx_moves calc_rx.
Proof.
  intros re s b. unfold calc_rx. destruct (bytes_eqb re re_blank); [apply find_first_moves|]. destruct (bytes_eqb re re_number); [|done].
  destruct (match s with [] => (0, s) | _ => _ end) as [k ds]. destruct (run_len digit_b ds); [done|]. intros [= <-]. lia.
Qed.
Lemma moss_moves : rx_moves moss_rx.
Proof.
  intros re s b. unfold moss_rx. destruct (bytes_eqb re re_blank); [apply find_first_moves|]. destruct (bytes_eqb re re_glyph); [apply find_first_moves|done].
Qed.
Lemma leftmost_moves m : (forall s, m s <> Some 0) -> forall fuel s i b, leftmost m fuel s i = Some (0, b) -> 0 < b.
Proof.
  intros Hm. induction fuel as [|fuel IH]; intros s i b; cbn; [done|]. destruct (m s) as [n|] eqn:E.
  - intros [= -> <-]. destruct n; [by apply Hm in E|lia].
  - destruct s; [done|]. apply IH.
Qed.
Lemma lisp_moves : rx_moves lisp_rx.
Proof.
  intros re s b. unfold lisp_rx.
  destruct (bytes_eqb re re_unquote); [apply leftmost_moves|destruct (bytes_eqb re re_signed); [apply leftmost_moves|destruct (bytes_eqb re re_ident); [apply leftmost_moves|done]]].
  - intros [|x s']; unfold m_unquote; [done|]. destruct (x =? 34)%N; [done|]. pose proof (decode_rune_width (x :: s') ltac:(done)) as HW.
    remember (snd (decode_rune (x :: s'))) as w eqn:Ew. clear Ew. intros [= ->]. lia.
  - intros s'. unfold m_signed. destruct (match s' with [] => _ | _ => _ end) as [k ds]. destruct (run_len digit_b ds); [done|]. intros [= H]. lia.
  - intros [|x s']; unfold m_ident; [done|]. by destruct (word_b x).
Qed.

(** ** The checks *)
Lemma hand_moves : moves_on hand 40 40 = true.  Proof. vm_compute. reflexivity. Qed.
Lemma hand_straight : not_left hand 40 = true.  Proof. vm_compute. reflexivity. Qed.
Lemma lisp_moves_on : moves_on lisp 40 40 = true.  Proof. vm_compute. reflexivity. Qed.
Lemma lisp_straight : not_left lisp 40 = true.  Proof. vm_compute. reflexivity. Qed.
Lemma calc_moves_on : moves_on calc 40 40 = true.  Proof. vm_compute. reflexivity. Qed.
Lemma calc_straight : not_left calc 40 = true.  Proof. vm_compute. reflexivity. Qed.
Lemma moss_moves_on : moves_on moss 40 40 = true.  Proof. vm_compute. reflexivity. Qed.

(** The grammars with their regular expressions. *)
Inductive shipped : built -> (bytes -> bytes -> option (nat * nat)) -> Prop :=
| ship_joeson : shipped hand joeson_rx
| ship_lisp : shipped lisp lisp_rx
| ship_calc : shipped calc calc_rx.
Lemma shipped_ok b rx : shipped b rx -> exists compile fuel name ls, build compile fuel name ls = ROk b /\ names_once ls /\
  moves_on b 40 40 = true /\ not_left b 40 = true /\ rx_moves rx /\ (forall re, rx_ok (rx re)).
Proof.
  intros []; eexists _, _, _, _.
  - split; [exact hand_built|]. split; [exact hand_once|]. split; [exact hand_moves|]. split; [exact hand_straight|]. split; [exact joeson_moves|exact joeson_rx_ok].
  - split; [exact lisp_eq|]. split; [exact lisp_names_once|]. split; [exact lisp_moves_on|]. split; [exact lisp_straight|]. split; [exact lisp_moves|exact lisp_rx_ok].
  - split; [exact calc_eq|]. split; [exact calc_names_once|]. split; [exact calc_moves_on|]. split; [exact calc_straight|]. split; [exact calc_moves|exact calc_rx_ok].
Qed.
Lemma shipped_top b rx : shipped b rx -> top_ok (fst b).
Proof.
  intros []; right; eexists; (split; [vm_compute; reflexivity|]); (split; [vm_compute; reflexivity|]); (split; [vm_compute; reflexivity|]);
    repeat (apply Forall_cons; split; [vm_compute; split; reflexivity|]); apply Forall_nil; done.
Qed.
