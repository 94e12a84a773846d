(** Other names for the rules, same answers. *)
From Verif Require Toy.
From Verif Require Import Base Helpers Utf8 Stream StreamSpec Native Engine EngSpec EngInv Peg PegRep PegBody PegStd RunSpec PegRun
  Build BuildSpec BuildWalk BuildLines BuildMono BuildPrep BuildProofs BuildMain MeansSpec MeansBuild Means MeansLaws RenameSpec.
Local Open Scope list_scope.

Definition infos (i i' : info) : Prop :=
  i_label i = i_label i' /\ i_capture i = i_capture i' /\ i_isrule i = i_isrule i' /\ i_wraps i = i_wraps i' /\ i_cb i = i_cb i'.
Section Ren.
Variable R : string -> string -> Prop.
Inductive ren : node -> node -> Prop :=
| ren_ref i i' nm nm' : infos i i' -> R nm nm' -> ren (Node i (KRef nm)) (Node i' (KRef nm'))
| ren_node i i' k k' : infos i i' -> match k with KRef _ => False | _ => True end -> same_kind ren k k' -> same_type k k' -> ren (Node i k) (Node i' k').
Lemma ren_infos n n' : ren n n' -> infos (n_info n) (n_info n').
Proof. by intros []. Qed.
Lemma same_type_flip {A B} (k : kind A) (k' : kind B) : same_type k k' -> same_type k' k.
Proof. by destruct k, k'. Qed.

Section Std.
Variables rules rules' : string -> option node.
Variable rx : bytes -> bytes -> option (nat * nat).
Variable cbf : nat -> nat -> val -> option (option val).
Variable text : bytes.
Hypothesis Hrules : forall nm nm', R nm nm' -> exists m m', rules nm = Some m /\ rules' nm' = Some m' /\ ren m m'.
Lemma step_same rs rs' f d n n' p r : infos (n_info n) (n_info n') -> (n_kind n = KUndef <-> n_kind n' = KUndef) ->
  (forall d0 r0, std_body rs rx text (std rs rx cbf text f d0) f n p = Some r0 -> std_body rs' rx text (std rs' rx cbf text f d0) f n' p = Some r0) ->
  std rs rx cbf text (S f) d n p = Some r -> std rs' rx cbf text (S f) d n' p = Some r.
Proof.
  intros (E1 & E2 & E3 & E4 & E5) Hu Hb. rewrite !std_S. rewrite <- E3.
  assert (Hpr : forall r0, prepared cbf (n_info n) r0 = prepared cbf (n_info n') r0).
  { intros r0. unfold prepared, labelled. by rewrite <- E1, <- E4, <- E5. }
  assert (HH : match (if i_isrule (n_info n) then match d with O => None | S d0 => std_body rs rx text (std rs rx cbf text f d0) f n p end
            else std_body rs rx text (std rs rx cbf text f d) f n p) with None => None | Some r0 => prepared cbf (n_info n) r0 end = Some r ->
    match (if i_isrule (n_info n) then match d with O => None | S d0 => std_body rs' rx text (std rs' rx cbf text f d0) f n' p end
            else std_body rs' rx text (std rs' rx cbf text f d) f n' p) with None => None | Some r0 => prepared cbf (n_info n') r0 end = Some r).
  { destruct (i_isrule (n_info n)).
    - destruct d as [|d0]; [done|]. destruct (std_body rs _ _ _ _ _ _) as [r0|] eqn:Eb; [|done]. rewrite (Hb _ _ Eb). by rewrite Hpr.
    - destruct (std_body rs _ _ _ _ _ _) as [r0|] eqn:Eb; [|done]. rewrite (Hb _ _ Eb). by rewrite Hpr. }
  destruct (n_kind n) eqn:Ek, (n_kind n') eqn:Ek'; first [exact HH | done | (exfalso; by destruct Hu as [? Hu2]; discriminate Hu2) | (exfalso; destruct Hu as [Hu1 ?]; discriminate Hu1; done) | idtac].
Qed.
Lemma ren_undef n n' : ren n n' -> n_kind n = KUndef <-> n_kind n' = KUndef.
Proof. intros [i i' nm nm'|i i' k k' _ _ Hk _]; [done|]. cbn [n_kind]. destruct Hk; done. Qed.
Lemma ren_to f : forall d n n' p r, ren n n' -> std rules rx cbf text f d n p = Some r -> std rules' rx cbf text f d n' p = Some r.
Proof.
  induction f as [|f IH]; intros d n n' p r Hr; [done|]. apply step_same; [by apply ren_infos|by apply ren_undef|]. intros d0 r0.
  destruct Hr as [i i' nm nm' Hi Hn|i i' k k' Hi Hnr Hk Ht].
  - unfold std_body. cbn [n_kind]. destruct (Hrules _ _ Hn) as (m & m' & -> & -> & Hm). by apply IH.
  - apply (body_sim _ _ _ _ _ _ ren); [|..|lia| |exact Hk|exact Ht].
    + intros a a' p0 r1 Ha. by apply IH.
    + intros a a' Ha. destruct (ren_infos _ _ Ha) as (E1 & E2 & _). done.
    + intros nm m p0 r1 E. cbn [n_kind] in E. by subst k.
Qed.
Lemma ren_from f : forall d n n' p r, ren n n' -> std rules' rx cbf text f d n' p = Some r -> std rules rx cbf text f d n p = Some r.
Proof.
  induction f as [|f IH]; intros d n n' p r Hr; [done|]. apply step_same.
  { destruct (ren_infos _ _ Hr) as (E1 & E2 & E3 & E4 & E5). by repeat split. }
  { symmetry. by apply ren_undef. }
  intros d0 r0. destruct Hr as [i i' nm nm' Hi Hn|i i' k k' Hi Hnr Hk Ht].
  - unfold std_body. cbn [n_kind]. destruct (Hrules _ _ Hn) as (m & m' & -> & -> & Hm). by apply IH.
  - apply (body_sim _ _ _ _ _ _ (flip ren)); [|..|lia| |by apply same_kind_flip|by apply same_type_flip].
    + intros a a' p0 r1 Ha. by apply IH.
    + intros a a' Ha. destruct (ren_infos _ _ Ha) as (E1 & E2 & _). done.
    + intros nm m p0 r1 E. cbn [n_kind] in E. subst k'. by inversion Hk; subst.
Qed.
End Std.

(** ** Written parsers *)
Lemma looks e : forall e', renamed R e e' -> w_labels e = w_labels e' /\ w_captures e = w_captures e' /\ w_capture0 e = w_capture0 e' /\ w_label e = w_label e' /\ w_capture e = w_capture e'.
Proof.
  induction e as [lb k IH] using pexp_ind2. intros e' H.
  assert (HL : forall l l', Forall (fun e => forall e', renamed R e e' -> w_labels e = w_labels e' /\ w_captures e = w_captures e' /\ w_capture0 e = w_capture0 e' /\ w_label e = w_label e' /\ w_capture e = w_capture e') l ->
    Forall2 (renamed R) l l' -> flat_map w_labels l = flat_map w_labels l' /\ map w_captures l = map w_captures l' /\
    forallb (fun c => match c with PExp _ (KSeq _ _) => true | c => 0 <? w_captures c end) l = forallb (fun c => match c with PExp _ (KSeq _ _) => true | c => 0 <? w_captures c end) l').
  { intros l l' Hl HF. induction HF as [|a a' l l' Ha HF IHF]; [done|]. apply Forall_cons in Hl as [H1 H2]. destruct (IHF H2) as (F1 & F2 & F3).
    destruct (H1 _ Ha) as (G1 & G2 & G3 & G4 & G5). cbn [flat_map map forallb]. rewrite F1, F2, F3, G1. split; [done|]. split; [by rewrite G2|]. f_equal. exact G5. }
  inversion H as [lb0 nm nm' Hn Hu|lb0 k0 k' Hnr Hk]; subst.
  - cbn. by rewrite Hu.
  - destruct Hk as [s|s|s|t t' l l' HF|l l' HF|v v' j j' mn mx Hv Hj|a a' Ha|a a' Ha|a a' Ha|]; cbn [kids] in IH; try done.
    + destruct (HL _ _ IH HF) as (F1 & F2 & F3). cbn [w_labels w_captures w_capture0 w_label w_capture]. by rewrite F1, F2.
    + destruct (HL _ _ IH HF) as (F1 & F2 & F3). cbn [w_labels w_captures w_capture0 w_label w_capture]. by rewrite F3.
    + apply Forall_cons in IH as [I1 _]. destruct (I1 _ Hv) as (G1 & G2 & G3 & G4 & G5). cbn [w_labels w_captures w_capture0 w_label w_capture]. by rewrite G3.
    + apply Forall_cons in IH as [I1 _]. destruct (I1 _ Ha) as (G1 & G2 & G3 & G4 & G5). cbn [w_labels w_captures w_capture0 w_label w_capture]. by rewrite G1, G2.
Qed.
Lemma stand_infos used e e' : renamed R e e' -> infos (n_info (stand used e)) (n_info (stand used e')).
Proof. intros H. destruct (looks _ _ H) as (G1 & G2 & G3 & G4 & G5). destruct e as [lb k], e' as [lb' k']. cbn [stand n_info]. unfold infos. by rewrite <- G4, <- G5. Qed.
Lemma stand_ren e : forall e' used, renamed R e e' -> ren (stand used e) (stand used e').
Proof.
  induction e as [lb k IH] using pexp_ind2. intros e' used H. pose proof (stand_infos used _ _ H) as Hi.
  assert (HL : forall u l l', Forall (fun e => forall e' used, renamed R e e' -> ren (stand used e) (stand used e')) l -> Forall2 (renamed R) l l' -> Forall2 ren (map (stand u) l) (map (stand u) l')).
  { intros u l l' Hl HF. induction HF as [|a a' l l' Ha HF IHF]; [constructor|]. apply Forall_cons in Hl as [H1 H2]. cbn [map]. constructor; auto. }
  inversion H as [lb0 nm nm' Hn Hu|lb0 k0 k' Hnr Hk]; subst.
  - cbn [stand n_info] in *. by apply ren_ref.
  - destruct Hk as [s|s|s|t t' l l' HF|l l' HF|v v' j j' mn mx Hv Hj|a a' Ha|a a' Ha|a a' Ha|]; cbn [kids] in IH; try done; cbn [stand n_info uses_labels] in *.
    + apply ren_node; [done|done|constructor|done].
    + apply ren_node; [done|done|constructor|done].
    + apply ren_node; [done|done|constructor; by apply HL|]. cbn [same_type]. unfold w_type.
      assert (flat_map w_labels l = flat_map w_labels l' /\ map w_captures l = map w_captures l') as [-> ->]; [|done].
      clear -HF. induction HF as [|a a' l l' Ha HF [I1 I2]]; [done|]. destruct (looks _ _ Ha) as (G1 & G2 & _). cbn [flat_map map]. by rewrite I1, I2, G1, G2.
    + apply ren_node; [done|done|constructor; by apply HL|done].
    + apply Forall_cons in IH as [I1 I2]. apply ren_node; [done|done| |done]. constructor; [by apply I1|]. destruct Hj as [x x' Hx|]; constructor.
      apply Forall_cons in I2 as [I2 _]. by apply I2.
    + apply Forall_cons in IH as [I1 I2]. apply ren_node; [done|done| |done]. constructor. by apply I1.
    + apply Forall_cons in IH as [I1 I2]. apply ren_node; [done|done| |done]. constructor. by apply I1.
    + apply Forall_cons in IH as [I1 I2]. apply ren_node; [done|done| |done]. constructor. by apply I1.
    + apply ren_node; [done|done|constructor|done].
Qed.
Lemma as_rule_ren nm nm' cb n n' : ren n n' -> ren (as_rule nm cb n) (as_rule nm' cb n').
Proof.
  intros [i i' x x' (E1 & E2 & E3 & E4 & E5) Hn|i i' k k' (E1 & E2 & E3 & E4 & E5) Hnr Hk Ht]; cbn [as_rule]; [apply ren_ref|apply ren_node]; try done.
Qed.
Lemma choice_ren names names' : Forall2 R names names' -> ren (choice_of names) (choice_of names').
Proof.
  intros H. apply ren_node; [done|done| |done]. constructor. induction H as [|x x' l l' Hx HF IH]; [constructor|]. cbn [map]. constructor; [|done]. by apply ren_ref.
Qed.

(** ** Lines *)
Variable compile : bytes -> res pexp.
Notation rline := (renamed_line compile R).
Definition decl_ren (d d' : decl) : Prop := R (d_name d) (d_name d') /\
  match rule_said compile d, rule_said compile d' with Some n, Some n' => ren n n' | _, _ => False end.
Definition nmR (d d' : decl) : Prop := R (d_name d) (d_name d').
Definition inner_line (P : line -> Prop) (l : line) : Prop := match l with LI _ c _ | LO _ c _ => P c | _ => True end.
Lemma len_i (P : line -> Prop) (HP : forall c c', P c -> rline false c c' -> forall nm o nm' o', length (decls_of nm o c) = length (decls_of nm' o' c')) ls ls' :
  Forall (inner_line P) ls -> Forall2 (rline true) ls ls' -> length (i_decls ls) = length (i_decls ls') /\ forall nm nm' i, length (o_decls nm ls i) = length (o_decls nm' ls' i).
Proof.
  intros Hl HF. induction HF as [|l l' ls ls' H HF IHF]; [done|]. apply Forall_cons in Hl as [H1 H2]. destruct (IHF H2) as [I1 I2].
  inversion H; subst; cbn [i_decls o_decls inner_line] in *; split; try intros nm0 nm0' i; rewrite ?app_length, ?I1; try done; rewrite ?(I2 nm0 nm0'); try done; f_equal; by apply HP.
Qed.
Lemma len_decls l : (forall l', rline false l l' -> forall nm o nm' o', length (decls_of nm o l) = length (decls_of nm' o' l')) /\
  inner_line (fun c => forall c', rline false c c' -> forall nm o nm' o', length (decls_of nm o c) = length (decls_of nm' o' c')) l.
Proof.
  induction l as [s|a e|ls IH|nm c o [IH _]|nm c o [IH _]] using line_ind2; (split; [|try done]); intros l' H; inversion H; subst; intros nm0 o0 nm0' o0'.
  - done.
  - rewrite !decls_of_rank, !app_length. cbn [length].
    destruct (len_i (fun c => forall c', rline false c c' -> forall nm o nm' o', length (decls_of nm o c) = length (decls_of nm' o' c')) ltac:(auto) ls ls') as [E1 E2]; [|done|].
    { eapply Forall_impl; [exact IH|]. by intros x [_ Hx]. }
    rewrite E1. by rewrite (E2 nm0 nm0').
  - cbn [decls_of]. by apply IH.
Qed.
Lemma len_rank ls ls' : Forall2 (rline true) ls ls' -> length (i_decls ls) = length (i_decls ls') /\ forall nm nm' i, length (o_decls nm ls i) = length (o_decls nm' ls' i).
Proof.
  apply (len_i (fun c => forall c', rline false c c' -> forall nm o nm' o', length (decls_of nm o c) = length (decls_of nm' o' c'))); [auto|].
  apply Forall_true. intros l. apply len_decls.
Qed.
Lemma app_both {A B} (Q : A -> B -> Prop) l1 l2 m1 m2 : length l1 = length m1 -> Forall2 Q (l1 ++ l2) (m1 ++ m2) -> Forall2 Q l1 m1 /\ Forall2 Q l2 m2.
Proof. intros HL H. apply Forall2_app_inv in H; done. Qed.
Lemma last_name l : forall l', rline false l l' -> forall nm o nm' o', Forall2 nmR (decls_of nm o l) (decls_of nm' o' l') -> R nm nm'.
Proof.
  induction l as [s|a e|ls IH|nm c o IH|nm c o IH] using line_ind2; intros l' H; inversion H; subst; intros nm0 o0 nm0' o0' HF.
  - apply Forall2_cons in HF as [HF _]. exact HF.
  - rewrite !decls_of_rank in HF. destruct (len_rank _ _ ltac:(eassumption)) as [E1 E2]. apply app_both in HF as [_ HF]; [|rewrite !app_length, E1; by rewrite (E2 nm0 nm0')].
    apply Forall2_cons in HF as [HF _]. exact HF.
  - cbn [decls_of] in HF. by eapply IH.
Qed.
Lemma o_names_ren ls ls' : Forall2 (rline true) ls ls' -> forall nm nm' i, Forall2 nmR (o_decls nm ls i) (o_decls nm' ls' i) -> Forall2 R (o_names nm ls i) (o_names nm' ls' i).
Proof.
  induction 1 as [|l l' ls ls' H HF IH]; intros nm nm' i Hd; [constructor|]. inversion H; subst; cbn [o_decls o_names] in *; [|by apply IH].
  apply app_both in Hd as [H1 H2]; [|by apply len_decls]. constructor; [by eapply last_name|by apply IH].
Qed.
Definition made_ren (l : line) : Prop := forall l' nm nm' o, rline false l l' -> Forall2 nmR (decls_of nm o l) (decls_of nm' o l') -> Forall2 decl_ren (decls_of nm o l) (decls_of nm' o l').
Lemma rank_ren ls ls' : Forall (inner_line made_ren) ls -> Forall2 (rline true) ls ls' ->
  (Forall2 nmR (i_decls ls) (i_decls ls') -> Forall2 decl_ren (i_decls ls) (i_decls ls')) /\
  (forall nm nm' i, Forall2 nmR (o_decls nm ls i) (o_decls nm' ls' i) -> Forall2 decl_ren (o_decls nm ls i) (o_decls nm' ls' i)).
Proof.
  intros Hl HF. induction HF as [|l l' ls ls' H HF IHF]; [split; intros; constructor|]. apply Forall_cons in Hl as [H1 H2]. destruct (IHF H2) as [I1 I2].
  inversion H; subst; cbn [i_decls o_decls inner_line] in *; split; try done.
  - intros nm0 nm0' i Hd. apply app_both in Hd as [D1 D2]; [|by apply len_decls]. apply Forall2_app; [by apply H1|by apply I2].
  - intros Hd. apply app_both in Hd as [D1 D2]; [|by apply len_decls]. apply Forall2_app; [by apply H1|by apply I1].
Qed.
Lemma decls_ren l : made_ren l /\ inner_line made_ren l.
Proof.
  induction l as [s|a e|ls IH|nm c o [IH _]|nm c o [IH _]] using line_ind2; (split; [|try done]); intros l' nm0 nm0' o0 H HF; inversion H; subst.
  - apply Forall2_cons in HF as [HF _]. constructor; [|constructor]. split; [exact HF|]. cbn [decl_ren rule_said d_what d_name d_opts].
    match goal with H1 : compile s = _, H2 : compile s' = _ |- _ => rewrite H1, H2 end. by apply as_rule_ren, stand_ren.
  - rewrite !decls_of_rank in *. destruct (len_rank _ _ ltac:(eassumption)) as [E1 E2]. apply app_both in HF as [D1 D2]; [|rewrite !app_length, E1; by rewrite (E2 nm0 nm0')].
    apply app_both in D1 as [D1 D3]; [|done]. destruct (rank_ren ls ls') as [R1 R2]; [|done|].
    { eapply Forall_impl; [exact IH|]. by intros x [_ Hx]. }
    apply Forall2_app; [apply Forall2_app; [by apply R1|by apply R2]|]. constructor; [|constructor]. apply Forall2_cons in D2 as [D2 _]. split; [exact D2|].
    cbn [rule_said d_what d_name d_opts]. apply as_rule_ren, choice_ren. by apply o_names_ren.
  - cbn [decls_of] in *. by apply IH.
Qed.
Lemma top_ren name ls name' ls' : rline false (LA ls) (LA ls') -> Forall2 nmR (decls name ls) (decls name' ls') ->
  Forall2 decl_ren (decls name ls) (decls name' ls') /\ Forall2 R (o_names name ls 0) (o_names name' ls' 0).
Proof.
  intros H HF. inversion H; subst. rewrite !decls_eq in *. destruct (len_rank _ _ ltac:(eassumption)) as [E1 E2]. apply app_both in HF as [D1 D2]; [|done].
  destruct (rank_ren ls ls') as [R1 R2]; [|done|].
  { apply Forall_true. intros x. apply decls_ren. }
  split; [apply Forall2_app; [by apply R1|by apply R2]|]. by apply o_names_ren.
Qed.
Lemma top_len name ls name' ls' : rline false (LA ls) (LA ls') -> length (decls name ls) = length (decls name' ls').
Proof. intros H. inversion H; subst. destruct (len_rank _ _ ltac:(eassumption)) as [E1 E2]. rewrite !decls_eq, !app_length, E1. by rewrite (E2 name name'). Qed.
End Ren.

Lemma find_at ds : NoDup (d_name <$> ds) -> forall i d, ds !! i = Some d -> List.find (fun x => String.eqb (d_name x) (d_name d)) ds = Some d.
Proof.
  induction ds as [|x ds IH]; intros Hn i d Hi; [done|]. cbn [fmap list_fmap] in Hn. apply NoDup_cons in Hn as [Hx Hn]. cbn [List.find].
  destruct i as [|i]; cbn in Hi.
  - injection Hi as ->. by rewrite String.eqb_refl.
  - destruct (String.eqb (d_name x) (d_name d)) eqn:E; [|by eapply IH]. apply String.eqb_eq in E. exfalso. apply Hx. rewrite E. apply elem_of_list_fmap. exists d. split; [done|].
    by eapply elem_of_list_lookup_2.
Qed.
Lemma renamed_said compile name ls name' ls' rx cbf depth text r : renamed_lines compile name ls name' ls' ->
  NoDup (d_name <$> decls name ls) -> NoDup (d_name <$> decls name' ls') ->
  said compile name ls rx cbf depth text r <-> said compile name' ls' rx cbf depth text r.
Proof.
  intros H N1 N2. unfold renamed_lines in H. set (R := stands_for name ls name' ls') in *.
  assert (HF : Forall2 (nmR R) (decls name ls) (decls name' ls')).
  { apply Forall2_same_length_lookup_2; [by eapply top_len|]. intros i d d' H1 H2. by exists i, d, d'. }
  destruct (top_ren R compile name ls name' ls' H HF) as [HD HO].
  assert (HR : forall nm nm', R nm nm' -> exists m m', rules_said compile (decls name ls) nm = Some m /\ rules_said compile (decls name' ls') nm' = Some m' /\ ren R m m').
  { intros nm nm' (i & d & d' & H1 & H2 & <- & <-). unfold rules_said. rewrite (find_at _ N1 _ _ H1), (find_at _ N2 _ _ H2).
    destruct (Forall2_lookup_lr _ _ _ _ _ _ HD H1 H2) as [_ Hs]. destruct (rule_said compile d) as [m|]; [|done]. destruct (rule_said compile d') as [m'|]; [|done].
    by exists m, m'. }
  unfold said. split; intros [f Hf]; exists f.
  - exact (ren_to R _ _ rx cbf text HR f _ _ _ _ _ (choice_ren R _ _ HO) Hf).
  - exact (ren_from R _ _ rx cbf text HR f _ _ _ _ _ (choice_ren R _ _ HO) Hf).
Qed.
Lemma renamed_answers compile fuel fuel' name ls name' ls' b b' : renamed_lines compile name ls name' ls' ->
  build compile fuel name ls = ROk b -> build compile fuel' name' ls' = ROk b' -> in_words compile name ls -> in_words compile name' ls' ->
  forall o rx cb cbf text r, (forall re, rx_ok (rx re)) -> (forall c, cb_keeps (mk_env (gram_of b) o rx cb) cbf c) ->
  (forall c, cb_keeps (mk_env (gram_of b') o rx cb) cbf c) -> po_debug o = false ->
  said compile name ls rx cbf stack_limit text r \/ said compile name' ls' rx cbf stack_limit text r ->
  exists fuel0, forall f, fuel0 <= f -> answer text r (fst (parse_string f (gram_of b) o rx cb text)) /\
    answer text r (fst (parse_string f (gram_of b') o rx cb text)).
Proof.
  intros Hr Hb Hb' Hw Hw' o rx cb cbf text r Hrx Hcb Hcb' Hd Hs.
  pose proof (renamed_said compile name ls name' ls' rx cbf stack_limit text r Hr (iw_names _ _ _ Hw) (iw_names _ _ _ Hw')) as HE.
  assert (said compile name ls rx cbf stack_limit text r /\ said compile name' ls' rx cbf stack_limit text r) as [H1 H2] by tauto.
  destruct (parses_as_said _ _ _ _ _ Hb Hw o rx cb cbf text r Hrx Hcb Hd H1) as [f1 F1].
  destruct (parses_as_said _ _ _ _ _ Hb' Hw' o rx cb cbf text r Hrx Hcb' Hd H2) as [f2 F2].
  exists (f1 + f2). intros f Hf. split; [apply F1|apply F2]; lia.
Qed.
