(** From lines to a tree of parsers: what [getRule] and [rankFromLines] make. *)
From Verif Require Import Base Helpers Native Engine EngSpec Build BuildSpec BuildWalk.

Section LineInd.
Variable P : line -> Prop.
Hypothesis HS : forall s, P (LS s).
Hypothesis HC : forall a p, P (LC a p).
Hypothesis HA : forall ls, Forall P ls -> P (LA ls).
Hypothesis HO : forall nm c o, P c -> P (LO nm c o).
Hypothesis HI : forall nm c o, P c -> P (LI nm c o).
Fixpoint line_ind2 (l : line) : P l :=
  match l with
  | LS s => HS s
  | LC a p => HC a p
  | LA ls => HA ls ((fix go (l : list line) : Forall P l :=
      match l with [] => Forall_nil_2 _ | c :: l' => Forall_cons_2 _ c l' (line_ind2 c) (go l') end) ls)
  | LO nm c o => HO nm c o (line_ind2 c)
  | LI nm c o => HI nm c o (line_ind2 c)
  end.
End LineInd.

Definition e_label (e : pexp) : string := match e with PExp lb _ => lb end.
Definition e_kind (e : pexp) : kind pexp := match e with PExp _ k => k end.

(** ** Declarations of a rank *)
Fixpoint i_decls (ls : list line) : list decl :=
  match ls with
  | LI nm c o' :: ls' => decls_of nm o' c ++ i_decls ls'
  | _ :: ls' => i_decls ls'
  | [] => []
  end.
Section ODecls.
Variable name : string.
Fixpoint o_decls (ls : list line) (i : nat) : list decl :=
  match ls with
  | LO nm c o' :: ls' => decls_of (written_name nm name i) o' c ++ o_decls ls' (S i)
  | _ :: ls' => o_decls ls' i
  | [] => []
  end.
End ODecls.
Lemma decls_of_rank name o ls : decls_of name o (LA ls) = (i_decls ls ++ o_decls name ls 0) ++ [Decl name (WRank ls) o].
Proof.
  cbn [decls_of]. rewrite <- app_assoc. f_equal.
Qed.
Lemma decls_eq name ls : decls name ls = i_decls ls ++ o_decls name ls 0.
Proof. unfold decls. rewrite decls_of_rank. apply removelast_last. Qed.

Section Lines.
Variable compile : bytes -> res pexp.

(** ** A parser of the tree made for a declaration *)
Definition made (d : decl) (x : pn) : Prop :=
  let i := pn_info x in
  pi_name i = d_name d /\ pi_reg i = true /\ lo_cb (pi_opts i) = lo_cb (d_opts d) /\
  match d_what d with
  | WText s => exists e, compile s = ROk e /\ pn_rules x = [] /\ pn_kind x = kmap plant (e_kind e) /\ pi_label i = e_label e /\
      pi_wrap i = false /\ pi_rank i = false /\
      lo_skip (pi_opts i) = lo_skip (d_opts d) /\ lo_debug (pi_opts i) = lo_debug (d_opts d)
  | WParser a e => pn_rules x = [] /\ pn_kind x = kmap plant (e_kind e) /\ pi_label i = e_label e /\
      pi_wrap i = a /\ pi_rank i = false /\ lo_skip (pi_opts i) = false /\ lo_debug (pi_opts i) = false
  | WRank ls => pi_label i = EmptyString /\ pi_wrap i = false /\ pi_rank i = true /\
      lo_skip (pi_opts i) = false /\ lo_debug (pi_opts i) = false /\
      exists alts, pn_kind x = KChoice alts /\ pi_name ∘ pn_info <$> alts = o_names (d_name d) ls 0 /\
        Forall (fun y => pi_reg (pn_info y) = true) alts
  end.

(** ** The loop of [rankFromLines] *)
Inductive rr (name : string) : list line -> nat -> list (string * pn) -> list pn -> Prop :=
| rr_nil i : rr name [] i [] []
| rr_o nm c o ls i x xs ys : get_rule compile c (written_name nm name i) name o = ROk x ->
    rr name ls (S i) xs ys -> rr name (LO nm c o :: ls) i xs (x :: ys)
| rr_i nm c o ls i x xs ys : get_rule compile c nm name o = ROk x ->
    rr name ls i xs ys -> rr name (LI nm c o :: ls) i ((nm, x) :: xs) ys.

Lemma rank_name ls : forall r r', rank_lines compile ls r = ROk r' -> pi_name (pn_info r) <> EmptyString ->
  pi_name (pn_info r') = pi_name (pn_info r).
Proof.
  induction ls as [|l ls IH]; intros [i rs k] r' H Hn; cbn [rank_lines] in H; [by injection H as <-|].
  destruct l as [s|a p|l|nm c o|nm c o]; try done.
  - destruct (get_rule _ _ _ _ _) as [x| |] in H; [|done..]. cbn [rbind] in H. apply IH in H; done.
  - destruct (get_rule _ _ _ _ _) as [x| |] in H; [|done..]. cbn [rbind] in H. cbn [pn_info] in *.
    apply String.eqb_neq in Hn. apply IH in H; cbn [rank_include pn_info pi_name] in *; rewrite Hn in *; [done|by apply String.eqb_neq].
Qed.
Definition same_info (i i' : pinfo) : Prop := i' = i.
Lemma rank_loop ls : forall r r', rank_lines compile ls r = ROk r' ->
  pi_name (pn_info r') = pi_name (pn_info r) -> (exists l, pn_kind r = KChoice l) ->
  pn_info r' = pn_info r /\ exists xs ys, pn_rules r' = pn_rules r ++ xs /\ pn_kind r' = KChoice (choices r ++ ys) /\
    rr (pi_name (pn_info r)) ls (length (choices r)) xs ys.
Proof.
  induction ls as [|l ls IH]; intros [i rs k] r' H Hn [al Hk]; cbn [rank_lines] in H.
  - injection H as <-. split; [done|]. exists [], []. cbn [pn_kind] in Hk. subst k. rewrite !app_nil_r. split; [done|]. split; [done|constructor].
  - cbn [pn_kind] in Hk. subst k. destruct l as [s|a p|l|nm c o|nm c o]; try done.
    + destruct (get_rule _ _ _ _ _) as [x| |] eqn:Hg in H; [|done..]. cbn [rbind] in H.
      apply IH in H as (Hi & xs & ys & Hxs & Hys & Hrr); [|done|by eexists].
      cbn [rank_append pn_info pn_rules choices pn_kind kids] in *. split; [done|]. exists xs, (x :: ys).
      split; [done|]. split; [by rewrite Hys, <- app_assoc|]. rewrite app_length in Hrr. cbn [length] in Hrr.
      rewrite Nat.add_1_r in Hrr. constructor; [|done]. unfold written_name. unfold o_name in Hg.
      destruct (String.eqb nm ""); exact Hg.
    + destruct (get_rule _ _ _ _ _) as [x| |] eqn:Hg in H; [|done..]. cbn [rbind] in H.
      assert (Hsame : rank_include (Pn i rs (KChoice al)) nm x = Pn i (rs ++ [(nm, x)]) (KChoice al)).
      { cbn [rank_include]. destruct (String.eqb_spec (pi_name i) "") as [He|He]; [|by destruct i].
        destruct (decide (nm = EmptyString)) as [->|Hne]; [destruct i; cbn in He |- *; by rewrite He|].
        apply rank_name in H as H'; cbn [rank_include pn_info pi_name] in *; rewrite He in *; cbn in *; congruence. }
      rewrite Hsame in H. apply IH in H as (Hi & xs & ys & Hxs & Hys & Hrr); [|done|by eexists].
      cbn [pn_info pn_rules choices pn_kind kids] in *. split; [done|]. exists ((nm, x) :: xs), ys.
      split; [by rewrite Hxs, <- app_assoc|]. split; [done|]. by constructor.
Qed.
Lemma rr_names name ls i xs ys : rr name ls i xs ys -> fst <$> xs = i_names ls.
Proof. induction 1; cbn; congruence. Qed.

(** ** [getRule] *)
Definition regs_at (p : path) (ph : bool) (x : pn) : list visit := List.filter is_reg (posts (walk p ph x)).
Definition good (l : line) : Prop := Forall (fun l => NoDup (i_names l)) (ranks l).
Definition plants (l : line) : Prop := forall name parent o x, get_rule compile l name parent o = ROk x -> good l ->
  once x /\ pi_name (pn_info x) = name /\ pi_reg (pn_info x) = true /\ lo_cb (pi_opts (pn_info x)) = lo_cb o /\
  forall p ph, Forall2 (fun d v => made d (v_node v)) (decls_of name o l) (regs_at p ph x).

Lemma plant_once e : once (plant e).
Proof.
  induction e as [lb k IH] using pexp_ind2. cbn [plant]. constructor; [apply NoDup_nil_2|done|constructor|].
  destruct k as [s|s|s|ty l|l|v [x|] mn mx|a|a|a|]; cbn [kmap kids] in *; rewrite ?Forall_cons, ?Forall_nil in *; try tauto.
  - by apply Forall_map.
  - by apply Forall_map.
Qed.
Lemma filter_app_bool {A} (f : A -> bool) l l' : List.filter f (l ++ l') = List.filter f l ++ List.filter f l'.
Proof. induction l as [|x l IH]; [done|]. cbn. rewrite IH. by destruct (f x). Qed.
Lemma regs_at_eq p ph i rs k : NoDup (fst <$> rs) -> regs_at p ph (Pn i rs k) =
  List.filter is_reg (posts (wrules p (handles ph (Pn i rs k)) 0 rs)) ++
  List.filter is_reg (posts (wkids p (handles ph (Pn i rs k)) 0 (kids k))) ++
  if pi_reg i then [Visit p ph (Pn i rs k)] else [].
Proof.
  intros Hnd. unfold regs_at. rewrite walk_eq by done. cbn [posts]. by rewrite !posts_app, !filter_app_bool.
Qed.
Lemma plant_regs e : forall p ph, regs_at p ph (plant e) = [].
Proof.
  induction e as [lb k IH] using pexp_ind2. intros p ph. cbn [plant]. rewrite regs_at_eq by apply NoDup_nil_2.
  cbn [wrules posts List.filter app pi_reg]. rewrite app_nil_r.
  assert (forall h j l, Forall (fun e => forall p ph, regs_at p ph (plant e) = []) l -> List.filter is_reg (posts (wkids p h j (map plant l))) = []) as Hm.
  { intros h j l. revert j. induction l as [|c l IHl]; intros j HF; [done|]. apply Forall_cons in HF as [H1 HF]. cbn [map wkids].
    rewrite posts_app, filter_app_bool, IHl by done. rewrite app_nil_r. apply H1. }
  set (h := handles _ _). clearbody h.
  destruct k as [s|s|s|ty l|l|v [x|] mn mx|a|a|a|]; cbn [kmap kids] in *; try done.
  - by apply Hm.
  - by apply Hm.
  - by apply (Hm _ 0 [v; x]).
  - by apply (Hm _ 0 [v]).
  - by apply (Hm _ 0 [a]).
  - by apply (Hm _ 0 [a]).
  - by apply (Hm _ 0 [a]).
Qed.

Lemma register_ok name o x y : register name o x = ROk y -> y = set_reg_cb x (lo_cb o) /\ (pi_name (pn_info x) = EmptyString \/ pi_name (pn_info x) = name).
Proof.
  unfold register. destruct (String.eqb_spec (pi_name (pn_info x)) "") as [->|H1]; cbn [negb andb].
  - intros [= <-]. auto.
  - destruct (String.eqb_spec (pi_name (pn_info x)) name); cbn [negb]; [|done]. intros [= <-]. auto.
Qed.

Lemma plants_plant e nm o w : forall x, x = set_reg_cb (set_wrap (set_opts (set_name (plant e) nm) o) w) (lo_cb o) ->
  once x /\ forall p ph, regs_at p ph x = [Visit p ph x].
Proof.
  intros x ->. pose proof (plant_once e) as Ho. destruct e as [lb k]. cbn [plant set_name set_opts set_wrap set_reg_cb] in *.
  inversion Ho; subst. split; [by constructor|]. intros p ph.
  pose proof (plant_regs (PExp lb k) p ph) as H0. cbn [plant] in H0. rewrite regs_at_eq in H0 |- * by apply NoDup_nil_2.
  cbn [pi_reg] in H0 |- *. rewrite app_nil_r in H0. cbn [wrules posts List.filter app] in *.
  unfold handles in *. cbn [pn_kind] in *. by rewrite H0.
Qed.

Lemma rr_once name ls i xs ys : rr name ls i xs ys ->
  Forall (fun l => match l with LO _ c _ | LI _ c _ => plants c /\ good c | _ => True end) ls ->
  Forall (fun q => once (snd q)) xs /\ Forall once ys /\
  pi_name ∘ pn_info <$> ys = o_names name ls i /\ Forall (fun y => pi_reg (pn_info y) = true) ys /\
  (forall p h j, Forall2 (fun d v => made d (v_node v)) (i_decls ls) (List.filter is_reg (posts (wrules p h j xs)))) /\
  (forall p h j, Forall2 (fun d v => made d (v_node v)) (o_decls name ls i) (List.filter is_reg (posts (wkids p h j ys)))).
Proof.
  induction 1 as [i|nm c o ls i x xs ys Hg Hrr IH|nm c o ls i x xs ys Hg Hrr IH]; intros HF.
  - repeat split; constructor.
  - apply Forall_cons in HF as [[Hp Hgo] HF]. destruct (IH HF) as (H1 & H2 & H3 & H4 & H5 & H6).
    destruct (Hp _ _ _ _ Hg Hgo) as (Ho & Hn & Hr & Hcb & Hd). split; [done|]. split; [by constructor|].
    split; [cbn [o_names fmap list_fmap compose]; by rewrite Hn, <- H3|]. split; [by constructor|]. split; [done|].
    intros p h j. cbn [o_decls wkids]. rewrite posts_app, filter_app_bool. apply Forall2_app; [apply Hd|apply H6].
  - apply Forall_cons in HF as [[Hp Hgo] HF]. destruct (IH HF) as (H1 & H2 & H3 & H4 & H5 & H6).
    destruct (Hp _ _ _ _ Hg Hgo) as (Ho & Hn & Hr & Hcb & Hd). split; [by constructor|]. split; [done|].
    split; [done|]. split; [done|]. split; [|done].
    intros p h j. cbn [i_decls wrules snd]. rewrite posts_app, filter_app_bool. apply Forall2_app; [apply Hd|apply H5].
Qed.

Lemma good_inside ls : good (LA ls) -> NoDup (i_names ls) /\ Forall good ls.
Proof.
  unfold good. cbn [ranks]. intros H. apply Forall_cons in H as [H1 H2]. split; [done|]. clear H1.
  induction ls as [|l ls IH]; [constructor|]. cbn [flat_map] in H2. apply Forall_app in H2 as [H2 H3]. constructor; [done|]. by apply IH.
Qed.

Lemma all_plant l : plants l /\ match l with LO _ c _ | LI _ c _ => plants c | _ => True end.
Proof.
  induction l as [s|a e|ls IH|nm c o [IH _]|nm c o [IH _]] using line_ind2; (split; [|done]).
  - intros name parent o x H _. cbn [get_rule] in H. destruct (compile s) as [e| |] eqn:He; [|done..]. cbn [rbind] in H.
    apply register_ok in H as [-> _].
    destruct (plants_plant e name o false _ eq_refl) as [Ho Hr]. destruct e as [lb k].
    cbn [plant set_name set_opts set_wrap set_reg_cb pi_name pi_label pi_reg pi_wrap pi_rank pi_opts lo_skip lo_debug] in *.
    split; [done|]. split; [done|]. split; [done|]. split; [done|]. intros p ph. rewrite Hr. cbn [decls_of].
    apply Forall2_cons. split; [|constructor]. unfold made. cbn [v_node pn_info pn_rules pn_kind d_name d_opts d_what lo_cb lo_skip lo_debug].
    split; [done|]. split; [done|]. split; [done|]. exists (PExp lb k). done.
  - intros name parent o x H _. cbn [get_rule] in H.
    apply register_ok in H as [-> _].
    assert (once (set_reg_cb (set_wrap (set_name (plant e) name) a) (lo_cb o)) /\
      forall p ph, regs_at p ph (set_reg_cb (set_wrap (set_name (plant e) name) a) (lo_cb o)) = [Visit p ph (set_reg_cb (set_wrap (set_name (plant e) name) a) (lo_cb o))]) as [Ho Hr].
    { destruct (plants_plant e name (LOpts (lo_cb o) false false) a _ eq_refl) as [Ho Hr]. by destruct e as [lb k]. }
    destruct e as [lb k].
    cbn [plant set_name set_opts set_wrap set_reg_cb pi_name pi_label pi_reg pi_wrap pi_rank pi_opts lo_skip lo_debug] in *.
    split; [done|]. split; [done|]. split; [done|]. split; [done|]. intros p ph. rewrite Hr. cbn [decls_of].
    apply Forall2_cons. split; [|constructor]. unfold made. cbn [v_node pn_info pn_rules pn_kind d_name d_opts d_what lo_cb lo_skip lo_debug].
    done.
  - intros name parent o x H Hgood. apply good_inside in Hgood as [Hnd Hgood].
    change (get_rule compile (LA ls) name parent o) with
      (rbind (rank_lines compile ls (empty_rank name)) (fun r => register name o r)) in H.
    destruct (rank_lines compile ls (empty_rank name)) as [r| |] eqn:Hr; [|done..]. cbn [rbind] in H.
    apply register_ok in H as [-> Hname].
    assert (Hname' : pi_name (pn_info r) = pi_name (pn_info (empty_rank name))).
    { cbn [empty_rank pn_info pi_name]. destruct Hname as [H|H]; [|done]. rewrite H.
      destruct (decide (name = EmptyString)) as [->|Hne]; [done|]. apply rank_name in Hr; [|done]. rewrite H in Hr. exact Hr. }
    apply rank_loop in Hr as (Hi & xs & ys & Hxs & Hys & Hrr); [|done|by eexists].
    cbn [empty_rank pn_rules choices pn_kind pn_info pi_name kids app length] in *.
    pose proof (rr_names _ _ _ _ _ Hrr) as Hnames.
    destruct (rr_once _ _ _ _ _ Hrr) as (H1 & H2 & H3 & H4 & H5 & H6).
    { rewrite Forall_forall in IH, Hgood |- *. intros l Hl. specialize (IH l Hl). specialize (Hgood l Hl).
      destruct l; try done; split; [apply IH|exact Hgood|apply IH|exact Hgood]. }
    destruct r as [i rs k]. cbn [pn_info pn_rules pn_kind set_reg_cb pi_name pi_label pi_reg pi_wrap pi_rank pi_opts lo_skip lo_debug] in *. subst.
    cbn [pi_name pi_label pi_reg pi_wrap pi_rank pi_opts lo_skip lo_debug no_opts lo_cb].
    split; [constructor; [by rewrite Hnames|done..]|]. split; [done|]. split; [done|]. split; [done|].
    intros p ph. rewrite regs_at_eq by (by rewrite Hnames). rewrite decls_of_rank. cbn [pi_reg kids]. rewrite app_assoc.
    apply Forall2_app; [apply Forall2_app; [apply H5|apply H6]|].
    apply Forall2_cons. split; [|constructor]. unfold made. cbn. repeat split; try done. by exists ys.
  - intros name parent o' x H Hgood. cbn [get_rule] in H. destruct (get_rule compile c _ parent o') as [y| |] eqn:Hg in H; [|done..].
    cbn [rbind] in H. destruct (IH _ _ _ _ Hg Hgood) as (Ho & Hn & Hreg & Hcb & Hd).
    apply register_ok in H as [-> Hname].
    assert (Hne : pi_name (pn_info y) <> EmptyString).
    { rewrite Hn. unfold o_name. destruct (String.eqb_spec nm "") as [->|H1]; cbn [negb]; [|done].
      destruct (String.eqb_spec name "") as [->|H2]; cbn [negb]; [|done]. by destruct parent. }
    rewrite (proj2 (String.eqb_neq _ _) Hne) in Hname |- *.
    assert (Hnm : o_name nm name parent 0 = name) by (rewrite <- Hn; by destruct Hname).
    rewrite Hnm in *.
    assert (set_reg_cb y (lo_cb o') = y) as ->.
    { destruct y as [i rs k]. cbn [pn_info set_reg_cb] in *. destruct i as [a1 a2 a3 a4 a5 [b1 b2 b3]]. cbn in *. by subst. }
    split; [done|]. split; [done|]. split; [done|]. split; [done|]. exact Hd.
  - intros name parent o' x H. done.
Qed.
End Lines.
