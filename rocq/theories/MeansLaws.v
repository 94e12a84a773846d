(** Two ways to write a grammar that mean the same. *)
From Verif Require Toy.
From Verif Require Import Base Helpers Utf8 Stream StreamSpec Native Engine EngSpec EngInv Peg PegRep PegBody PegStd RunSpec PegRun
  Build BuildSpec BuildWalk BuildLines BuildMono BuildPrep BuildProofs BuildMain MeansSpec MeansBuild Means.

Scheme moved_ind2 := Minimality for moved Sort Prop
  with moved_in_ind2 := Minimality for moved_in Sort Prop.
Combined Scheme moved_mutind from moved_ind2, moved_in_ind2.
Scheme flattened_ind2 := Minimality for flattened Sort Prop
  with flattened_in_ind2 := Minimality for flattened_in Sort Prop.
Combined Scheme flattened_mutind from flattened_ind2, flattened_in_ind2.

(** ** Rules by name *)
Section Named.
Variable compile : bytes -> res pexp.
Definition sd (d : decl) : string * option node := (d_name d, rule_said compile d).

Lemma rules_in ds d : NoDup (d_name <$> ds) -> d ∈ ds -> rules_said compile ds (d_name d) = rule_said compile d.
Proof.
  intros Hnd Hin. unfold rules_said. pose proof (find_named ds (d_name d)) as Hf. destruct (List.find _ ds) as [d'|].
  - destruct Hf as (i & Hi & He). apply elem_of_list_lookup in Hin as [j Hj].
    assert (i = j) as <-; [|congruence]. eapply NoDup_lookup; [exact Hnd|rewrite list_lookup_fmap, Hi; cbn; by rewrite He|by rewrite list_lookup_fmap, Hj].
  - destruct Hf. apply elem_of_list_fmap. by exists d.
Qed.
Lemma rules_out ds nm : nm ∉ d_name <$> ds -> rules_said compile ds nm = None.
Proof.
  intros Hn. unfold rules_said. pose proof (find_named ds nm) as Hf. destruct (List.find _ ds) as [d|]; [|done].
  destruct Hf as (i & Hi & He). destruct Hn. apply elem_of_list_fmap. exists d. split; [done|]. by eapply elem_of_list_lookup_2.
Qed.
Lemma sd_names (ds : list decl) : fst <$> (sd <$> ds) = d_name <$> ds.
Proof. rewrite <- list_fmap_compose. done. Qed.
Lemma rules_perm (ds ds' : list decl) nm : sd <$> ds ≡ₚ sd <$> ds' -> NoDup (d_name <$> ds) ->
  rules_said compile ds nm = rules_said compile ds' nm.
Proof.
  intros Hp Hnd. assert (Hn : d_name <$> ds ≡ₚ d_name <$> ds') by (rewrite <- !sd_names; by apply fmap_Permutation).
  assert (Hnd' : NoDup (d_name <$> ds')) by (by rewrite <- Hn).
  destruct (decide (nm ∈ d_name <$> ds)) as [Hin|Hout].
  - apply elem_of_list_fmap in Hin as (d & -> & Hd). rewrite (rules_in ds d Hnd Hd).
    assert (Hs : sd d ∈ sd <$> ds') by (rewrite <- Hp; apply elem_of_list_fmap; by exists d).
    apply elem_of_list_fmap in Hs as (d' & He & Hd'). injection He as E1 E2. rewrite E1, (rules_in ds' d' Hnd' Hd'). done.
  - rewrite (rules_out ds nm Hout), (rules_out ds' nm); [done|]. by rewrite <- Hn.
Qed.
End Named.

(** Equal rules, equal outcomes. *)
Lemma same_kind_eq {A} (R : A -> A -> Prop) (k : kind A) : Forall (fun c => R c c) (kids k) -> same_kind R k k.
Proof.
  destruct k as [s|s|s|t l|l|v j mn mx|a|a|a|]; cbn [kids]; intros HF; constructor; rewrite ?Forall_singleton in HF; try done.
  - by apply Forall_Forall2_diag.
  - by apply Forall_Forall2_diag.
  - apply Forall_cons in HF. apply HF.
  - apply Forall_cons in HF as [_ HF]. destruct j as [x|]; constructor. by apply Forall_cons in HF as [HF _].
Qed.
Lemma std_ext rules rules' rx cbf text f : (forall nm, rules nm = rules' nm) -> forall d n p r,
  std rules rx cbf text f d n p = Some r -> std rules' rx cbf text f d n p = Some r.
Proof.
  intros He. induction f as [|f IH]; intros d n p r; [done|]. rewrite !std_S.
  assert (Hb : forall d0 r0, std_body rules rx text (std rules rx cbf text f d0) f n p = Some r0 ->
    std_body rules' rx text (std rules' rx cbf text f d0) f n p = Some r0).
  { intros d0 r0. apply (body_sim _ _ _ _ _ _ eq); [|..|lia| |by apply same_kind_eq, Forall_true|by destruct (n_kind n)].
    - intros a a' p0 r1 ->. apply IH.
    - by intros a a' ->.
    - intros nm m p0 r1 _ Hm Hs. exists m. split; [by rewrite <- He|]. by apply IH. }
  destruct (n_kind n); [..|done]; (destruct (i_isrule (n_info n)); [destruct d as [|d0]; [done|]|];
    (destruct (std_body rules _ _ _ _ _ _) as [r0|] eqn:Eb; [|done]); by rewrite (Hb _ _ Eb)).
Qed.

(** ** i-lines elsewhere *)
Section Moved.
Variable compile : bytes -> res pexp.
Section What.
Context {A : Type} (g : decl -> A).
Hypothesis Hg : forall nm o ls ls', (forall parent i, o_names parent ls i = o_names parent ls' i) -> g (Decl nm (WRank ls) o) = g (Decl nm (WRank ls') o).
Definition all_of (parent : string) (ls : list line) (i : nat) : list A := g <$> i_decls ls ++ o_decls parent ls i.
Lemma all_i parent nm c o ls i : all_of parent (LI nm c o :: ls) i = (g <$> decls_of nm o c) ++ all_of parent ls i.
Proof. unfold all_of. cbn [i_decls o_decls]. by rewrite !fmap_app, app_assoc. Qed.
Lemma all_o parent nm c o ls i : all_of parent (LO nm c o :: ls) i ≡ₚ (g <$> decls_of (written_name nm parent i) o c) ++ all_of parent ls (S i).
Proof. unfold all_of. cbn [i_decls o_decls]. rewrite !fmap_app. apply Permutation_app_swap_app. Qed.
Lemma all_rank nm o ls : g <$> decls_of nm o (LA ls) = all_of nm ls 0 ++ [g (Decl nm (WRank ls) o)].
Proof. by rewrite decls_of_rank, fmap_app. Qed.
Lemma into nm c o nm' o' ls1 : g <$> decls_of nm' o' (LA (LI nm c o :: ls1)) = (g <$> decls_of nm o c) ++ (g <$> decls_of nm' o' (LA ls1)).
Proof. rewrite !all_rank, all_i, <- app_assoc. do 3 f_equal. by apply Hg. Qed.
Lemma moved_decls :
  (forall ls ls', moved ls ls' ->
     (forall parent i, o_names parent ls i = o_names parent ls' i) /\ forall parent i, all_of parent ls i ≡ₚ all_of parent ls' i) /\
  (forall l l', moved_in l l' ->
     (forall nm o, g <$> decls_of nm o l ≡ₚ g <$> decls_of nm o l') /\
     match l, l' with
     | LO nm c o, LO nm' c' o' | LI nm c o, LI nm' c' o' => nm = nm' /\ o = o' /\ forall x o, g <$> decls_of x o c ≡ₚ g <$> decls_of x o c'
     | LA _, LA _ => True
     | _, _ => l = l'
     end).
Proof.
  assert (Hswap : forall nm c o l ls parent i, all_of parent (LI nm c o :: l :: ls) i ≡ₚ all_of parent (l :: LI nm c o :: ls) i).
  { intros nm c o l ls parent i. destruct l; [done..| |].
    - rewrite all_i, !all_o, all_i. apply Permutation_app_swap_app.
    - rewrite !all_i. apply Permutation_app_swap_app. }
  assert (Ho : forall nm c o nm' o' ls1 ls parent i, all_of parent (LI nm c o :: LO nm' (LA ls1) o' :: ls) i ≡ₚ all_of parent (LO nm' (LA (LI nm c o :: ls1)) o' :: ls) i).
  { intros nm c o nm' o' ls1 ls parent i. by rewrite all_i, !all_o, into, app_assoc. }
  assert (Hi : forall nm c o nm' o' ls1 ls parent i, all_of parent (LI nm c o :: LI nm' (LA ls1) o' :: ls) i ≡ₚ all_of parent (LI nm' (LA (LI nm c o :: ls1)) o' :: ls) i).
  { intros nm c o nm' o' ls1 ls parent i. by rewrite !all_i, into, app_assoc. }
  apply moved_mutind.
  - done.
  - intros nm c o l ls. split; [intros parent i; by destruct l|done].
  - intros nm c o l ls. split; [intros parent i; by destruct l|done].
  - done.
  - done.
  - done.
  - done.
  - intros l l' ls ls' _ [_ Hl] _ (H1 & H2).
    destruct l as [s|a e|l|nm c o|nm c o], l' as [s'|a' e'|l'|nm' c' o'|nm' c' o']; try done.
    + destruct Hl as (<- & <- & Hl). split; [intros; cbn [o_names]; by rewrite H1|]. intros. by rewrite !all_o, Hl, H2.
    + destruct Hl as (<- & <- & Hl). split; [done|]. intros. by rewrite !all_i, Hl, H2.
  - intros ls1 ls2 ls3 _ (H1 & H2) _ (G1 & G2). split; [intros; by rewrite H1|]. intros. by rewrite H2.
  - intros l. split; [done|]. by destruct l.
  - intros ls ls' _ (H1 & H2). split; [|done]. intros nm o. rewrite !all_rank, H2. by rewrite (Hg _ _ _ _ H1).
  - intros nm c c' o _ [H _]. split; [|done]. intros x o'. apply H.
  - intros nm c c' o _ [H _]. split; [|done]. intros x o'. done.
Qed.
Lemma moved_all name ls ls' : moved ls ls' -> g <$> decls name ls ≡ₚ g <$> decls name ls'.
Proof. intros Hm. rewrite !decls_eq. apply (proj1 moved_decls _ _ Hm). Qed.
End What.
Lemma moved_o_names ls ls' : moved ls ls' -> forall parent i, o_names parent ls i = o_names parent ls' i.
Proof. intros Hm. apply (proj1 (moved_decls d_name ltac:(done)) _ _ Hm). Qed.
Lemma moved_said name ls ls' rx cbf depth text r : moved ls ls' -> NoDup (d_name <$> decls name ls) ->
  said compile name ls rx cbf depth text r <-> said compile name ls' rx cbf depth text r.
Proof.
  intros Hm Hnd.
  assert (Hp : forall nm, rules_said compile (decls name ls) nm = rules_said compile (decls name ls') nm).
  { intros nm. apply rules_perm; [|done]. apply moved_all; [|done]. intros x o l l' Ho. unfold sd, rule_said. cbn. by rewrite Ho. }
  unfold said. rewrite <- (moved_o_names _ _ Hm). split; intros [f Hf]; exists f; (eapply std_ext; [|exact Hf]); congruence.
Qed.
Lemma moved_parts {A} (g : line -> list A) : (forall nm c o, g (LI nm c o) = g c) -> (forall nm c o, g (LO nm c o) = g c) -> (forall ls, g (LA ls) = flat_map g ls) ->
  (forall ls ls', moved ls ls' -> flat_map g ls ≡ₚ flat_map g ls') /\ (forall l l', moved_in l l' -> g l ≡ₚ g l').
Proof.
  intros Gi Go Ga. apply moved_mutind; intros; cbn [flat_map]; rewrite ?Gi, ?Go, ?Ga; cbn [flat_map]; rewrite ?Gi, ?app_assoc; try done.
  - rewrite <- !app_assoc. apply Permutation_app_swap_app.
  - rewrite <- !app_assoc. apply Permutation_app_swap_app.
  - by rewrite H0, H2.
  - by rewrite H0.
Qed.
Lemma moved_words name ls ls' : moved ls ls' -> in_words compile name ls -> names_once ls' -> in_words compile name ls'.
Proof.
  intros Hm [W1 W2 W3 W4 W5 W6 W7] Hn. pose proof (proj1 (moved_parts texts ltac:(done) ltac:(done) ltac:(done)) _ _ Hm) as H3.
  pose proof (proj1 (moved_parts parsers ltac:(done) ltac:(done) ltac:(done)) _ _ Hm) as H4. cbn [parsers] in W4. constructor.
  - done.
  - unfold no_singles, written in *. cbn [texts parsers] in *. by rewrite <- H3, <- H4.
  - done.
  - cbn [parsers]. rewrite W4 in H4. by apply Permutation_nil.
  - unfold plain_labels, written in *. cbn [texts parsers] in *. by rewrite <- H3, <- H4.
  - by rewrite <- (moved_all d_name ltac:(done) name _ _ Hm).
  - assert (Hf : Forall (fun o => lo_debug o = false) (d_opts <$> decls name ls)) by (by apply Forall_fmap).
    rewrite (moved_all d_opts ltac:(done) name _ _ Hm) in Hf. by apply Forall_fmap in Hf.
Qed.
End Moved.

(** ** A rank as a choice *)
Inductive clean (B : string -> Prop) : node -> Prop :=
| clean_node i k : (forall nm, k = KRef nm -> ~ B nm) -> Forall (clean B) (kids k) -> clean B (Node i k).

Section Flat.
Variables rules rules' : string -> option node.
Variable rx : bytes -> bytes -> option (nat * nat).
Variable cbf : nat -> nat -> val -> option (option val).
Variable text : bytes.
Variable B : string -> Prop.

(** The rule of a rank of texts, and that of their choice. *)
Record rank_choice (n n' : node) : Prop := {
  rc_label : i_label (n_info n) = EmptyString;
  rc_label' : i_label (n_info n') = EmptyString;
  rc_cb : i_cb (n_info n) = i_cb (n_info n');
  rc_rule : i_isrule (n_info n) = true;
  rc_rule' : i_isrule (n_info n') = true;
  rc_alts : exists names es, n_kind n = KChoice (map to_rule names) /\ n_kind n' = KChoice (map (stand false) es) /\
    Forall2 (fun x e => rules x = Some (as_rule x None (stand false e)) /\ clean B (stand false e)) names es }.
Definition flat_alike (n n' : node) : Prop := (n = n' /\ clean B n) \/ rank_choice n n'.
Hypothesis Hrules : forall nm, ~ B nm -> match rules nm, rules' nm with
  | Some n, Some n' => flat_alike n n'
  | None, None => True
  | _, _ => False
  end.

Lemma body_mono rs f d d' i i' k p r : d <= d' -> std_body rs rx text (std rs rx cbf text f d) f (Node i k) p = Some r ->
  std_body rs rx text (std rs rx cbf text f d') f (Node i' k) p = Some r.
Proof.
  intros Hd. apply (body_sim _ _ _ _ _ _ eq); [|..|lia| |by apply same_kind_eq, Forall_true|by destruct k].
  - intros c c' p0 r1 ->. by apply mono.
  - by intros c c' ->.
  - intros nm m p0 r1 _ Hm Hs. exists m. split; [done|]. revert Hs. by apply mono.
Qed.
Lemma as_rule_down rs f d x e p r : std rs rx cbf text f d (as_rule x None (stand false e)) p = Some r -> std rs rx cbf text f d (stand false e) p = Some r.
Proof.
  destruct f as [|f]; [done|]. rewrite !std_S. destruct e as [lb k]. cbn [stand as_rule n_kind n_info i_isrule]. destruct d as [|d]; [by destruct k|].
  destruct k; try done; (destruct (std_body _ _ _ (std _ _ _ _ _ d) _ _ _) as [r0|] eqn:Eb; [|done]; eapply body_mono in Eb; [|apply (Nat.le_succ_diag_r d)]; rewrite Eb; done).
Qed.
Lemma as_rule_up rs f d x e p r : std rs rx cbf text f d (stand false e) p = Some r -> std rs rx cbf text f (S d) (as_rule x None (stand false e)) p = Some r.
Proof.
  destruct f as [|f]; [done|]. rewrite !std_S. destruct e as [lb k]. cbn [stand as_rule n_kind n_info i_isrule]. by destruct k.
Qed.

Lemma flat_to f : forall d n n' p r, flat_alike n n' -> std rules rx cbf text f d n p = Some r -> std rules' rx cbf text f d n' p = Some r.
Proof.
  induction f as [|f IH]; intros d n n' p r Hal; [done|]. destruct Hal as [[<- Hc]|[E1 E2 E3 E4 E5 (names & es & K1 & K2 & HF)]].
  - rewrite !std_S.
    assert (Hb : forall d0 r0, std_body rules rx text (std rules rx cbf text f d0) f n p = Some r0 ->
      std_body rules' rx text (std rules' rx cbf text f d0) f n p = Some r0).
    { destruct Hc as [i k Hr HF]. intros d0 r0. apply (body_sim _ _ _ _ _ _ (fun a a' => a = a' /\ clean B a)); [|..|lia| | |by destruct k].
      - intros a a' p0 r1 [<- Ha]. apply IH. by left.
      - by intros a a' [<- _].
      - cbn [n_kind]. intros nm m p0 r1 Hk Hm Hs. specialize (Hrules nm (Hr nm Hk)). rewrite Hm in Hrules. destruct (rules' nm) as [m'|]; [|done].
        exists m'. split; [done|]. by eapply IH.
      - cbn [n_kind]. apply same_kind_eq. eapply Forall_impl; [exact HF|]. done. }
    destruct (n_kind n); [..|done]; (destruct (i_isrule (n_info n)); [destruct d as [|d0]; [done|]|];
      (destruct (std_body rules _ _ _ _ _ _) as [r0|] eqn:Eb; [|done]); by rewrite (Hb _ _ Eb)).
  - rewrite !std_S, K1, K2, E4, E5. destruct d as [|d0]; [done|].
    assert (Hb : forall r0, std_body rules rx text (std rules rx cbf text f d0) f n p = Some r0 ->
      std_body rules' rx text (std rules' rx cbf text f d0) f n' p = Some r0).
    { intros r0. unfold std_body. rewrite K1, K2. apply alt_sim. apply Forall2_fmap. eapply Forall2_impl; [exact HF|].
      intros x e [Hx Hc] p0 r1 He. cbn beta in Hx, He. destruct f as [|f']; [done|]. rewrite to_rule_eq, Hx in He. apply as_rule_down in He.
      eapply mono in He; [|apply (Nat.le_succ_diag_r f')|reflexivity]. eapply IH; [|exact He]. by left. }
    destruct (std_body rules _ _ _ _ _ _) as [r0|] eqn:Eb; [|done]. rewrite (Hb _ eq_refl).
    rewrite (prepared_alike cbf (n_info n) (n_info n') r0); [done|congruence|by right|done].
Qed.
Lemma flat_from f : forall d n n' p r, flat_alike n n' -> std rules' rx cbf text f d n' p = Some r -> std rules rx cbf text (3 * f) (2 * d) n p = Some r.
Proof.
  induction f as [|f IH]; intros d n n' p r Hal; [done|]. replace (3 * S f) with (S (S (S (3 * f)))) by lia.
  assert (IH1 : forall d n n' p r, flat_alike n n' -> std rules' rx cbf text f d n' p = Some r -> std rules rx cbf text (S (S (3 * f))) (2 * d) n p = Some r).
  { intros d0 n0 n0' p0 r0 Ha He. eapply mono; [|reflexivity|eapply IH; [exact Ha|exact He]]. lia. }
  destruct Hal as [[<- Hc]|[E1 E2 E3 E4 E5 (names & es & K1 & K2 & HF)]].
  - rewrite (std_S _ _ _ rules'), (std_S _ _ _ rules).
    assert (Hb : forall d0 d1 r0, 2 * d0 <= d1 -> std_body rules' rx text (std rules' rx cbf text f d0) f n p = Some r0 ->
      std_body rules rx text (std rules rx cbf text (S (S (3 * f))) d1) (S (S (3 * f))) n p = Some r0).
    { destruct Hc as [i k Hr HF]. intros d0 d1 r0 Hd. apply (body_sim _ _ _ _ _ _ (fun a a' => a = a' /\ clean B a)); [|..|lia| | |by destruct k].
      - intros a a' p0 r1 [<- Ha] He. eapply mono; [reflexivity|exact Hd|]. eapply IH1; [|exact He]. by left.
      - by intros a a' [<- _].
      - cbn [n_kind]. intros nm m p0 r1 Hk Hm Hs. specialize (Hrules nm (Hr nm Hk)). rewrite Hm in Hrules. destruct (rules nm) as [m'|]; [|done].
        exists m'. split; [done|]. eapply mono; [reflexivity|exact Hd|]. by eapply IH1.
      - cbn [n_kind]. apply same_kind_eq. eapply Forall_impl; [exact HF|]. done. }
    assert (HH : forall x, match (if i_isrule (n_info n) then match d with O => None | S d0 => std_body rules' rx text (std rules' rx cbf text f d0) f n p end
              else std_body rules' rx text (std rules' rx cbf text f d) f n p) with None => None | Some r0 => prepared cbf (n_info n) r0 end = Some x ->
      match (if i_isrule (n_info n) then match 2 * d with O => None | S d0 => std_body rules rx text (std rules rx cbf text (S (S (3 * f))) d0) (S (S (3 * f))) n p end
              else std_body rules rx text (std rules rx cbf text (S (S (3 * f))) (2 * d)) (S (S (3 * f))) n p) with None => None | Some r0 => prepared cbf (n_info n) r0 end = Some x).
    { intros x. destruct (i_isrule (n_info n)).
      - destruct d as [|d0]; [done|]. replace (2 * S d0) with (S (S (2 * d0))) by lia. destruct (std_body rules' _ _ _ _ _ _) as [r0|] eqn:Eb; [|done].
        by rewrite (Hb d0 (S (2 * d0)) r0 ltac:(lia) Eb).
      - destruct (std_body rules' _ _ _ _ _ _) as [r0|] eqn:Eb; [|done]. by rewrite (Hb d (2 * d) r0 ltac:(lia) Eb). }
    destruct (n_kind n); first [exact (HH r)|done].
  - rewrite (std_S _ _ _ rules'), (std_S _ _ _ rules), K1, K2, E4, E5. destruct d as [|d0]; [done|]. replace (2 * S d0) with (S (S (2 * d0))) by lia.
    assert (Hb : forall r0, std_body rules' rx text (std rules' rx cbf text f d0) f n' p = Some r0 ->
      std_body rules rx text (std rules rx cbf text (S (S (3 * f))) (S (2 * d0))) (S (S (3 * f))) n p = Some r0).
    { intros r0. unfold std_body. rewrite K1, K2. apply alt_sim. apply Forall2_fmap. eapply Forall2_flip, Forall2_impl; [exact HF|].
      intros x e [Hx Hc] p0 r1 He. cbn beta in Hx, He. rewrite to_rule_eq, Hx. apply as_rule_up. eapply mono; [|reflexivity|eapply IH; [|exact He]]; [lia|]. by left. }
    destruct (std_body rules' _ _ _ _ _ _) as [r0|] eqn:Eb; [|done]. rewrite (Hb _ eq_refl).
    rewrite (prepared_alike cbf (n_info n') (n_info n) r0); [done|congruence|by right|done].
Qed.
End Flat.

Lemma stand_clean B e : forall used, (forall nm, nm ∈ refers e -> ~ B nm) -> clean B (stand used e).
Proof.
  induction e as [lb k IH] using pexp_ind2. intros used Hr.
  assert (Hk : forall c u, c ∈ kids k -> clean B (stand u c)).
  { intros c u Hc. rewrite Forall_forall in IH. apply (IH c Hc). intros nm Hnm. apply Hr. destruct k; cbn [kids refers] in *; try (by apply elem_of_nil in Hc).
    - apply elem_of_list_In, in_flat_map. exists c. split; by apply elem_of_list_In.
    - apply elem_of_list_In, in_flat_map. exists c. split; by apply elem_of_list_In.
    - apply elem_of_app. apply elem_of_cons in Hc as [->|Hc]; [by left|]. right. destruct j as [x|]; [|by apply elem_of_nil in Hc].
      by apply elem_of_list_singleton in Hc as ->.
    - by apply elem_of_list_singleton in Hc as ->.
    - by apply elem_of_list_singleton in Hc as ->.
    - by apply elem_of_list_singleton in Hc as ->. }
  pose proof (stand_kids used lb k) as Hs. destruct (stand used (PExp lb k)) as [i k'] eqn:He. cbn [n_kind] in Hs. subst k'. constructor.
  - intros nm Hn. apply Hr. destruct k; cbn in Hn; try done. injection Hn as ->. cbn [refers]. by left.
  - assert (Hf : forall u, Forall (clean B) (map (stand u) (kids k))).
    { intros u. apply Forall_map, Forall_forall. intros c Hc. by apply Hk. }
    destruct k; try (rewrite kids_kmap; apply Hf). cbn [kids]. apply Hf.
Qed.
Lemma decls_texts l : (forall nm o d s, d ∈ decls_of nm o l -> d_what d = WText s -> s ∈ texts l) /\
  match l with LO _ c _ | LI _ c _ => forall nm o d s, d ∈ decls_of nm o c -> d_what d = WText s -> s ∈ texts c | _ => True end.
Proof.
  induction l as [t|a e|l IH|nm c o [IH _]|nm c o [IH _]] using line_ind2; (split; [|done]); intros nm' o' d s Hd Hs.
  - apply elem_of_list_singleton in Hd as ->. injection Hs as ->. by left.
  - apply elem_of_list_singleton in Hd as ->. done.
  - rewrite decls_of_rank in Hd. cbn [texts]. apply elem_of_app in Hd as [Hd|Hd]; [|by apply elem_of_list_singleton in Hd as ->].
    apply elem_of_app in Hd as [Hd|Hd].
    + induction l as [|x l IHl]; [by apply elem_of_nil in Hd|]. apply Forall_cons in IH as [[_ H1] IH]. cbn [flat_map]. apply elem_of_app.
      destruct x; cbn [i_decls] in Hd; try (right; by apply IHl). apply elem_of_app in Hd as [Hd|Hd]; [left|right; by apply IHl]. cbn [texts]. by eapply H1.
    + revert Hd. generalize 0. induction l as [|x l IHl]; intros i Hd; [by apply elem_of_nil in Hd|]. apply Forall_cons in IH as [[_ H1] IH]. cbn [flat_map]. apply elem_of_app.
      destruct x; cbn [o_decls] in Hd; try (right; by eapply IHl). apply elem_of_app in Hd as [Hd|Hd]; [left|right; by eapply IHl]. cbn [texts]. by eapply H1.
  - cbn [decls_of texts] in *. by eapply IH.
  - by apply elem_of_nil in Hd.
Qed.

Section Flattened.
Variable compile : bytes -> res pexp.
Notation sd := (sd compile).
Definition same_decls (D D' : list decl) : Prop := sd <$> D = sd <$> D'.
Definition swapped (D D' : list decl) : Prop := exists pre pre' post post' x o ts t es,
  D = pre ++ decls_of x o (LA ts) ++ post /\ D' = pre' ++ [Decl x (WText t) o] ++ post' /\
  same_decls pre pre' /\ same_decls post post' /\
  compile t = ROk (PExp "" (KChoice es)) /\ Forall2 (is_text compile) ts es.
Definition like_decls (D D' : list decl) : Prop := same_decls D D' \/ swapped D D'.
Lemma content_decls l : forall nm o, decls_of nm o l = decls_of nm o (content l).
Proof. induction l as [s|a e|l _|nm c o IH|nm c o _] using line_ind2; done. Qed.
Lemma same_app D D' E E' : same_decls D D' -> same_decls E E' -> same_decls (D ++ E) (D' ++ E').
Proof. unfold same_decls. intros H1 H2. by rewrite !fmap_app, H1, H2. Qed.
Lemma like_l D D' E E' : like_decls D D' -> same_decls E E' -> like_decls (D ++ E) (D' ++ E').
Proof.
  intros [H|(pre & pre' & post & post' & x & o & ts & t & es & -> & -> & H1 & H2 & H3)] HE; [left; by apply same_app|right].
  exists pre, pre', (post ++ E), (post' ++ E'), x, o, ts, t, es. rewrite <- !app_assoc. split; [done|]. split; [done|]. split; [done|]. split; [by apply same_app|done].
Qed.
Lemma like_r D D' E E' : same_decls E E' -> like_decls D D' -> like_decls (E ++ D) (E' ++ D').
Proof.
  intros HE [H|(pre & pre' & post & post' & x & o & ts & t & es & -> & -> & H1 & H2 & H3)]; [left; by apply same_app|right].
  exists (E ++ pre), (E' ++ pre'), post, post', x, o, ts, t, es. rewrite <- !app_assoc. split; [done|]. split; [done|]. split; [by apply same_app|done].
Qed.
Lemma flat_decls :
  (forall ls ls', flattened compile ls ls' ->
     (forall parent i, o_names parent ls i = o_names parent ls' i) /\
     ((like_decls (i_decls ls) (i_decls ls') /\ forall parent i, same_decls (o_decls parent ls i) (o_decls parent ls' i)) \/
      (same_decls (i_decls ls) (i_decls ls') /\ forall parent i, like_decls (o_decls parent ls i) (o_decls parent ls' i)))) /\
  (forall l l', flattened_in compile l l' -> forall nm o, like_decls (decls_of nm o l) (decls_of nm o l')).
Proof.
  apply flattened_mutind.
  - intros nm c c' o ls _ Hl. split; [done|]. right. split; [done|]. intros. by apply like_l.
  - intros nm c c' o ls _ Hl. split; [done|]. left. split; [|done]. by apply like_l.
  - intros l ls ls' _ (H1 & H2). split; [intros parent i; destruct l; cbn [o_names]; by rewrite ?H1|].
    destruct H2 as [[H2 H3]|[H2 H3]]; [left|right]; (split; [|intros parent i]); destruct l; cbn [i_decls o_decls]; try done; try (by apply same_app); by apply like_r.
  - intros ls es l t HF Hl Ht nm o. right. exists [], [], [], [], nm, o, ls, t, es. rewrite app_nil_r. split; [done|]. split; [by rewrite content_decls, Hl|done].
  - intros ls ls' _ (H1 & H2) nm o. rewrite !decls_of_rank. apply like_l.
    + destruct H2 as [[H2 H3]|[H2 H3]]; [by apply like_l|by apply like_r].
    + unfold same_decls, MeansLaws.sd, rule_said. cbn. by rewrite H1.
  - intros nm c c' o _ H x o'. apply H.
Qed.
Lemma flat_all name ls ls' : flattened compile ls ls' -> o_names name ls 0 = o_names name ls' 0 /\ like_decls (decls name ls) (decls name ls').
Proof.
  intros H. destruct (proj1 flat_decls _ _ H) as (H1 & H2). split; [done|]. rewrite !decls_eq. destruct H2 as [[H2 H3]|[H2 H3]]; [by apply like_l|by apply like_r].
Qed.

(** The rank. *)
Lemma rank_decls x o ts es : Forall2 (is_text compile) ts es -> decls_of x o (LA ts) = o_decls x ts 0 ++ [Decl x (WRank ts) o].
Proof.
  intros HF. rewrite decls_of_rank. f_equal. replace (i_decls ts) with (@nil decl); [done|].
  by induction HF as [|l e ls es (nm & c & o' & s & -> & _) HF IH].
Qed.
Lemma rank_lines_of x ts es : Forall2 (is_text compile) ts es -> forall i, length (o_names x ts i) = length es /\
  Forall2 (fun nm d => d_name d = nm) (o_names x ts i) (o_decls x ts i) /\
  Forall2 (fun d e => exists s, d_what d = WText s /\ lo_cb (d_opts d) = None /\ compile s = ROk e) (o_decls x ts i) es.
Proof.
  induction 1 as [|l e ls es (nm & c & o' & s & -> & Hc & Ho & Hs) HF IH]; intros i; [by repeat constructor|]. cbn [o_names o_decls].
  destruct (IH (S i)) as (H1 & H2 & H3). rewrite content_decls, Hc. cbn [decls_of app]. split; [cbn; by rewrite H1|]. split; constructor; try done. by exists s.
Qed.

Variables (fuel' : nat) (name : string) (ls ls' : list line) (b' : node * list (string * node)).
Hypothesis Hb' : build compile fuel' name ls' = ROk b'.
Hypothesis Hw : in_words compile name ls.
Hypothesis Hw' : in_words compile name ls'.
Hypothesis Hnew : no_new_names compile name ls ls'.
Hypothesis Hflat : flattened compile ls ls'.

(** The o-lines of a rank are declared. *)
Lemma o_names_declared d l : d ∈ decls name ls' -> d_what d = WRank l -> forall nm, nm ∈ o_names (d_name d) l 0 -> nm ∈ d_name <$> decls name ls'.
Proof.
  intros Hd Hl nm Hnm. destruct (named _ _ _ _ _ Hb' (iw_once _ _ _ Hw') (iw_single _ _ _ Hw') (iw_name _ _ _ Hw')) as [HF _].
  rewrite <- (table_names _ _ _ _ _ Hb' Hw'). apply elem_of_list_lookup in Hd as [i Hi]. destruct (Forall2_lookup_l _ _ _ _ _ HF Hi) as (q & Hq & _ & Hr).
  destruct Hr as (_ & _ & Hr). rewrite Hl in Hr. destruct Hr as (_ & _ & _ & _ & alts & _ & Ha & Hal). rewrite <- Ha in Hnm.
  apply elem_of_list_fmap in Hnm as (a & -> & Hin). rewrite Forall_forall in Hal. apply elem_of_list_fmap. by eexists (_, a); split; [|by apply Hal].
Qed.
Lemma top_declared nm : nm ∈ o_names name ls' 0 -> nm ∈ d_name <$> decls name ls'.
Proof.
  intros Hnm. destruct (named _ _ _ _ _ Hb' (iw_once _ _ _ Hw') (iw_single _ _ _ Hw') (iw_name _ _ _ Hw')) as [_ (alts & _ & Ha & Hal & _)].
  rewrite <- (table_names _ _ _ _ _ Hb' Hw'). rewrite <- Ha in Hnm.
  apply elem_of_list_fmap in Hnm as (a & -> & Hin). rewrite Forall_forall in Hal. apply elem_of_list_fmap. by eexists (_, a); split; [|by apply Hal].
Qed.
Lemma choice_clean (B : string -> Prop) i names : (forall nm, nm ∈ names -> ~ B nm) -> clean B (Node i (KChoice (map to_rule names))).
Proof.
  intros H. constructor; [done|]. cbn [kids]. apply Forall_map, Forall_forall. intros nm Hnm. constructor; [|constructor].
  intros x Hx. injection Hx as <-. by apply H.
Qed.
Lemma as_rule_clean B x cb n : clean B n -> clean B (as_rule x cb n).
Proof. intros [i k H1 H2]. by constructor. Qed.

Lemma same_names D D' : same_decls D D' -> d_name <$> D = d_name <$> D'.
Proof. unfold same_decls. intros H. by rewrite <- !(sd_names compile), H. Qed.
Lemma same_in D D' d' : same_decls D D' -> d' ∈ D' -> exists d, d ∈ D /\ sd d = sd d'.
Proof.
  unfold same_decls. intros H Hd. assert (Hs : sd d' ∈ sd <$> D) by (rewrite H; apply elem_of_list_fmap; by exists d').
  apply elem_of_list_fmap in Hs as (d & He & Hin). by exists d.
Qed.
Lemma flattened_rules : swapped (decls name ls) (decls name ls') -> exists B : string -> Prop, (forall nm, B nm -> nm ∉ d_name <$> decls name ls') /\
  forall nm, ~ B nm -> match rules_said compile (decls name ls) nm, rules_said compile (decls name ls') nm with
    | Some n, Some n' => flat_alike (rules_said compile (decls name ls)) B n n'
    | None, None => True
    | _, _ => False
    end.
Proof.
  intros (pre & pre' & post & post' & x & o & ts & t & es & HD & HD' & H1 & H2 & Ht & HF).
  destruct (rank_lines_of x ts es HF 0) as (HL0 & HL1 & HL2). rewrite (rank_decls _ _ _ _ HF) in HD.
  set (od := o_decls x ts 0) in *. set (B := fun nm => nm ∈ o_names x ts 0).
  assert (Hod : d_name <$> od = o_names x ts 0).
  { clear -HL1. induction HL1 as [|nm d l l' Hd _ IH]; [done|]. cbn. by rewrite IH, Hd. }
  pose proof (iw_names _ _ _ Hw) as Hnd. pose proof (iw_names _ _ _ Hw') as Hnd'.
  assert (Hbad : forall nm, B nm -> nm ∉ d_name <$> decls name ls').
  { intros nm HB Hin. unfold B in HB. rewrite <- Hod in HB. rewrite HD' in Hin. rewrite HD in Hnd. rewrite !fmap_app in Hnd, Hin.
    rewrite <- (same_names _ _ H1), <- (same_names _ _ H2) in Hin. apply NoDup_app in Hnd as (_ & Hn1 & Hnd). apply NoDup_app in Hnd as (Hnd & Hn2 & _).
    rewrite ?fmap_app in Hnd, Hn2, Hn1. apply NoDup_app in Hnd as (_ & Hn3 & _). apply elem_of_app in Hin as [Hin|Hin].
    - apply (Hn1 _ Hin). apply elem_of_app. left. apply elem_of_app. by left.
    - apply elem_of_app in Hin as [Hin|Hin]; [by apply (Hn3 _ HB)|]. apply (Hn2 nm); [|done]. apply elem_of_app. by left. }
  assert (Hold : forall nm, B nm -> nm ∈ d_name <$> decls name ls).
  { intros nm HB. unfold B in HB. rewrite <- Hod in HB. rewrite HD, !fmap_app, !elem_of_app. tauto. }
  exists B. split; [done|]. intros nm HB.
  assert (Hts : forall s e, s ∈ texts (LA ls) ++ texts (LA ls') -> compile s = ROk e -> clean B (stand false e)).
  { intros s e Hs He. apply stand_clean. intros y Hy HBy. apply (Hbad y HBy). eapply Hnew; [exact Hs|exact He|exact Hy|by apply Hold]. }
  assert (Hfine : forall d', d' ∈ decls name ls' -> forall n, rule_said compile d' = Some n -> clean B n).
  { intros d' Hd' n Hn. unfold rule_said in Hn. destruct (d_what d') as [s|a e|l] eqn:Hwhat.
    - destruct (compile s) as [e| |] eqn:He; [|done..]. injection Hn as <-. apply as_rule_clean. eapply Hts; [|exact He]. apply elem_of_app. right.
      eapply (proj1 (decls_texts (LA ls')) name no_opts d'); [|exact Hwhat]. rewrite decls_of_rank, <- decls_eq. apply elem_of_app. by left.
    - pose proof (no_parser_decls (LA ls') name no_opts (iw_texts _ _ _ Hw')) as Hall. rewrite decls_of_rank, <- decls_eq in Hall.
      apply Forall_app in Hall as [Hall _]. rewrite Forall_forall in Hall. specialize (Hall _ Hd'). by rewrite Hwhat in Hall.
    - injection Hn as <-. apply choice_clean. intros y Hy HBy. apply (Hbad y HBy). by eapply o_names_declared. }
  assert (Hsame : forall d', d' ∈ pre' ++ post' -> match rules_said compile (decls name ls) (d_name d'), rules_said compile (decls name ls') (d_name d') with
    | Some n, Some n' => flat_alike (rules_said compile (decls name ls)) B n n' | None, None => True | _, _ => False end).
  { intros d' Hd'. assert (Hin' : d' ∈ decls name ls') by (rewrite HD', !elem_of_app; apply elem_of_app in Hd'; tauto).
    destruct (same_in (pre ++ post) (pre' ++ post') d') as (d & Hd & He); [by apply same_app|done|]. injection He as E1 E2.
    assert (Hin : d ∈ decls name ls) by (rewrite HD, !elem_of_app; apply elem_of_app in Hd; tauto).
    rewrite (rules_in _ _ _ Hnd' Hin'), <- E1, (rules_in _ _ _ Hnd Hin), <- E2. destruct (rule_said compile d) as [n|] eqn:Hn; [|done].
    left. split; [done|]. by apply (Hfine d'). }
  destruct (decide (nm ∈ d_name <$> decls name ls')) as [Hin|Hout].
  - apply elem_of_list_fmap in Hin as (d' & -> & Hd'). pose proof Hd' as Hd0. rewrite HD' in Hd0. apply elem_of_app in Hd0 as [Hd0|Hd0]; [apply Hsame, elem_of_app; by left|].
    apply elem_of_app in Hd0 as [Hd0|Hd0]; [|apply Hsame, elem_of_app; by right]. apply elem_of_list_singleton in Hd0 as ->.
    rewrite (rules_in _ _ _ Hnd' Hd'). set (dr := Decl x (WRank ts) o). change (d_name (Decl x (WText t) o)) with (d_name dr).
    rewrite (rules_in _ _ dr Hnd); [|rewrite HD, !elem_of_app; right; left; right; by apply elem_of_list_singleton].
    unfold rule_said. cbn [d_what dr d_name d_opts]. rewrite Ht. right. constructor; [done..|].
    exists (o_names x ts 0), es. split; [done|]. split; [done|]. apply Forall2_same_length_lookup_2; [done|].
    intros i y e Hy He. destruct (Forall2_lookup_l _ _ _ _ _ HL1 Hy) as (d & Hd & Hdn). destruct (Forall2_lookup_l _ _ _ _ _ HL2 Hd) as (e' & He' & s & Hw1 & Hcb & Hc).
    rewrite He in He'. injection He' as <-.
    assert (Hdin : d ∈ decls name ls) by (rewrite HD, !elem_of_app; right; left; left; by eapply elem_of_list_lookup_2).
    pose proof (rules_in compile _ _ Hnd Hdin) as Hr. unfold rule_said in Hr. rewrite Hw1, Hcb, Hdn, Hc in Hr. split; [exact Hr|].
    eapply Hts; [|exact Hc]. apply elem_of_app. left. eapply (proj1 (decls_texts (LA ls)) name no_opts d); [|exact Hw1].
    rewrite decls_of_rank, <- decls_eq. apply elem_of_app. by left.
  - rewrite (rules_out _ (decls name ls') nm Hout), (rules_out _ (decls name ls) nm); [done|].
    rewrite HD, !fmap_app, Hod. rewrite HD', !fmap_app, <- (same_names _ _ H1), <- (same_names _ _ H2) in Hout. unfold B in HB. rewrite !elem_of_app in *. tauto.
Qed.
Lemma flattened_said rx cbf depth text r :
  (said compile name ls rx cbf depth text r -> said compile name ls' rx cbf depth text r) /\
  (said compile name ls' rx cbf depth text r -> said compile name ls rx cbf (2 * depth) text r).
Proof.
  destruct (flat_all name _ _ Hflat) as [Ho Hl]. unfold said. rewrite Ho. destruct Hl as [Hs|Hs].
  - assert (Hp : forall nm, rules_said compile (decls name ls) nm = rules_said compile (decls name ls') nm).
    { intros nm. apply rules_perm; [|apply (iw_names _ _ _ Hw)]. unfold same_decls in Hs. by rewrite Hs. }
    split; intros [f Hf]; exists f; [by eapply std_ext|]. eapply mono; [reflexivity| |eapply std_ext; [|exact Hf]; done]. lia.
  - destruct (flattened_rules Hs) as (B & HB & HR).
    assert (Ht : flat_alike (rules_said compile (decls name ls)) B (choice_of (o_names name ls' 0)) (choice_of (o_names name ls' 0))).
    { left. split; [done|]. apply choice_clean. intros nm Hnm HBn. by apply (HB nm), top_declared. }
    split; intros [f Hf]; [exists f; by eapply flat_to|exists (3 * f); by eapply flat_from].
Qed.
End Flattened.

(** ** ParseString *)
Section Answers.
Variables (compile : bytes -> res pexp) (fuel fuel' : nat) (name : string) (ls ls' : list line) (b b' : node * list (string * node)).
Variables (o : popts) (rx : bytes -> bytes -> option (nat * nat)) (cb : nat -> nat -> heap -> ast -> cbres) (cbf : nat -> nat -> val -> option (option val))
  (text : bytes) (r : result).
Lemma both : build compile fuel name ls = ROk b -> build compile fuel' name ls' = ROk b' -> in_words compile name ls -> in_words compile name ls' ->
  (forall re, rx_ok (rx re)) -> (forall c, cb_keeps (mk_env (gram_of b) o rx cb) cbf c) -> po_debug o = false ->
  said compile name ls rx cbf stack_limit text r -> said compile name ls' rx cbf stack_limit text r ->
  exists fuel0, forall f, fuel0 <= f -> answer text r (fst (parse_string f (gram_of b) o rx cb text)) /\
    answer text r (fst (parse_string f (gram_of b') o rx cb text)).
Proof.
  intros Hb Hb' Hw Hw' Hrx Hcb Hd H1 H2. destruct (parses_as_said _ _ _ _ _ Hb Hw o rx cb cbf text r Hrx Hcb Hd H1) as [f1 F1].
  destruct (parses_as_said _ _ _ _ _ Hb' Hw' o rx cb cbf text r Hrx Hcb Hd H2) as [f2 F2].
  exists (f1 + f2). intros f Hf. split; [apply F1; lia|apply F2; lia].
Qed.
End Answers.
Lemma moved_answers compile fuel fuel' name ls ls' b b' : moved ls ls' -> names_once ls' ->
  build compile fuel name ls = ROk b -> build compile fuel' name ls' = ROk b' -> in_words compile name ls ->
  forall o rx cb cbf text r, (forall re, rx_ok (rx re)) -> (forall c, cb_keeps (mk_env (gram_of b) o rx cb) cbf c) -> po_debug o = false ->
  said compile name ls rx cbf stack_limit text r ->
  exists fuel0, forall f, fuel0 <= f -> answer text r (fst (parse_string f (gram_of b) o rx cb text)) /\
    answer text r (fst (parse_string f (gram_of b') o rx cb text)).
Proof.
  intros Hm Hn Hb Hb' Hw o rx cb cbf text r Hrx Hcb Hd Hs. eapply both; try done; [by eapply moved_words|].
  by apply (moved_said compile name ls ls' rx cbf stack_limit text r Hm (iw_names _ _ _ Hw)).
Qed.
Lemma flattened_answers compile fuel fuel' name ls ls' b b' : flattened compile ls ls' ->
  build compile fuel name ls = ROk b -> build compile fuel' name ls' = ROk b' ->
  in_words compile name ls -> in_words compile name ls' -> no_new_names compile name ls ls' ->
  forall o rx cb cbf text r, (forall re, rx_ok (rx re)) -> (forall c, cb_keeps (mk_env (gram_of b) o rx cb) cbf c) -> po_debug o = false ->
  said compile name ls rx cbf stack_limit text r \/ (exists depth, 2 * depth <= stack_limit /\ said compile name ls' rx cbf depth text r) ->
  exists fuel0, forall f, fuel0 <= f -> answer text r (fst (parse_string f (gram_of b) o rx cb text)) /\
    answer text r (fst (parse_string f (gram_of b') o rx cb text)).
Proof.
  intros Hf Hb Hb' Hw Hw' Hnew o rx cb cbf text r Hrx Hcb Hd Hs.
  pose proof (fun depth => flattened_said compile fuel' name ls ls' b' Hb' Hw Hw' Hnew Hf rx cbf depth text r) as HF.
  assert (said compile name ls rx cbf stack_limit text r) as H1.
  { destruct Hs as [Hs|(depth & Hle & Hs)]; [done|]. apply HF in Hs as [f Hs]. exists f. eapply mono; [reflexivity|exact Hle|exact Hs]. }
  eapply both; try done. by apply HF.
Qed.
