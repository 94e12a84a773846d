From Verif Require Import Base Native Engine Peg PegStd PegStdProofs ShapeSpec RunSpec PegRun Stream EngSpec.

Lemma kv_set_new kv k v : k ∉ (fst <$> kv) -> kv_set kv k v = kv ++ [(k, v)].
Proof.
  induction kv as [|[k' v'] kv IH]; cbn; [done|]. rewrite not_elem_of_cons. intros [H1 H2].
  destruct (String.eqb_spec k k'); [congruence|]. by rewrite IH.
Qed.
Lemma entries_keys l : forall vs, length vs = length l -> fst <$> entries l vs = labels l.
Proof.
  induction l as [|n l IH]; intros [|v vs]; try done. cbn [length]. intros [= H]. unfold entries, labels in *. cbn.
  destruct (negb (String.eqb (i_label (n_info n)) "")); cbn; by rewrite (IH vs H).
Qed.

Section Std.
Variable ev : node -> nat -> option result.
Notation out := (fun n p r => ev n p = Some r).

Definition object_val (kv : list (string * val)) : val := match kv with [] => VUndef | _ => VMap kv end.

Lemma object_shape l : forall kv p r,
  NoDup ((fst <$> kv) ++ labels l) -> named l ->
  std_object ev l (match kv with [] => MNone | _ => MMap kv end) p = Some r ->
  match r with
  | Some (v, e) => exists vs, parts out l p vs e /\ v = object_val (kv ++ entries l vs)
  | None => stops out l p
  end.
Proof.
  induction l as [|n l IH]; intros kv p r HN HL H; cbn [std_object] in H.
  - injection H as <-. exists []. split; [constructor|]. unfold entries. cbn. rewrite app_nil_r. by destruct kv.
  - destruct (ev n p) as [[[v q]|]|] eqn:EV; [| |done].
    + assert (forall kv', NoDup ((fst <$> kv') ++ labels l) -> named l -> (forall vs, kv' ++ entries l vs = kv ++ entries (n :: l) (v :: vs)) ->
        std_object ev l (match kv' with [] => MNone | _ => MMap kv' end) q = Some r ->
        match r with
        | Some (w, e) => exists vs, parts out (n :: l) p vs e /\ w = object_val (kv ++ entries (n :: l) vs)
        | None => stops out (n :: l) p
        end) as Hgo.
      { intros kv' HN' HL' HE H'. apply IH in H'; [|done..]. destruct r as [[w e]|].
        - destruct H' as (vs & Hp & ->). exists (v :: vs). split; [by econstructor|]. by rewrite HE.
        - destruct H' as (l1 & m & l2 & vs & q' & -> & Hp & Hm). exists (n :: l1), m, l2, (v :: vs), q'.
          split; [done|]. split; [by econstructor|done]. }
      unfold named, labels, entries in Hgo, HN, HL. cbn [map List.filter zip fst] in Hgo, HN, HL. cbn in Hgo, HN, HL. unfold joined in H.
      destruct (String.eqb_spec (i_label (n_info n)) "") as [EL|EL]; cbn in H, Hgo, HN, HL.
      * apply (Hgo kv); done.
      * rewrite !elem_of_cons in HL. destruct HL as [HL1 HL2].
        destruct (String.eqb_spec (i_label (n_info n)) "@") as [E1|E1]; [by destruct HL1; left|].
        destruct (String.eqb_spec (i_label (n_info n)) "&") as [E2|E2]; [by destruct HL2; left|]. cbn in H.
        apply (Hgo (kv ++ [(i_label (n_info n), v)])).
        -- rewrite fmap_app, <- app_assoc. done.
        -- split; intros Hin; [apply HL1|apply HL2]; by right.
        -- intros vs. by rewrite <- app_assoc.
        -- replace (match match kv with [] => MNone | _ => MMap kv end with MNone => Some (MMap [(i_label (n_info n), v)])
             | MMap kv0 => Some (MMap (kv_set kv0 (i_label (n_info n)) v)) | MTook _ => None end)
             with (Some (MMap (kv_set kv (i_label (n_info n)) v))) in H by (by destruct kv).
           rewrite kv_set_new in H.
           ++ destruct kv; cbn in *; exact H.
           ++ apply NoDup_app in HN as (_ & HN & _). intros Hin. apply (HN (i_label (n_info n))); [|by left].
              by destruct kv.
    + injection H as <-. exists [], n, l, [], p. split; [done|]. split; [constructor|done].
Qed.
End Std.

Lemma parts_mono (o1 o2 : node -> nat -> result -> Prop) l p vs e : (forall n p r, o1 n p r -> o2 n p r) -> parts o1 l p vs e -> parts o2 l p vs e.
Proof. intros H. induction 1; econstructor; eauto. Qed.

Lemma textbook_shape E cbf text n l p r : n_kind n = KSeq TObject l -> i_cb (n_info n) = None -> i_wraps (n_info n) = false ->
  NoDup (labels l) -> named l -> textbook E cbf text n p r ->
  match r with
  | Some (v, e) => exists vs, parts (textbook E cbf text) l p vs e /\ v = shaped l vs
  | None => stops (textbook E cbf text) l p
  end.
Proof.
  intros HK HC HW HN HL [fuel HT]. destruct fuel as [|fuel]; [done|]. cbn [std] in HT. rewrite HK in HT.
  assert (exists d r0, d <= stack_limit /\ std_object (std (e_rule E) (e_rx E) cbf text fuel d) l MNone p = Some r0 /\ r0 = r) as (d & r0 & Hd & HO & ->).
  { assert (forall r0, prepared cbf (n_info n) r0 = Some r -> r0 = r) as HP.
    { intros r0. unfold prepared, labelled. rewrite HC, HW, andb_false_r. destruct r0 as [[v e]|]; congruence. }
    destruct (i_isrule (n_info n)).
    - destruct stack_limit as [|d]; [done|]. unfold std_body in HT. rewrite HK in HT.
      destruct (std_object _ l MNone p) as [r0|] eqn:EO; [|done]. exists d, r0. split; [lia|]. split; [done|auto].
    - unfold std_body in HT. rewrite HK in HT.
      destruct (std_object _ l MNone p) as [r0|] eqn:EO; [|done]. exists stack_limit, r0. split; [lia|]. split; [done|auto]. }
  apply (object_shape _ l []) in HO; [|done..].
  assert (forall m q r0, std (e_rule E) (e_rx E) cbf text fuel d m q = Some r0 -> textbook E cbf text m q r0) as Hm.
  { intros m q r0 H. exists fuel. eapply (std_mono E cbf (fun _ => n) text fuel fuel d stack_limit); [reflexivity|exact Hd|exact H]. }
  destruct r as [[v e]|].
  - destruct HO as (vs & Hp & ->). exists vs. split; [exact (parts_mono _ _ _ _ _ _ Hm Hp)|]. unfold shaped, object_val. cbn. by destruct (entries l vs).
  - destruct HO as (l1 & m & l2 & vs & q & -> & Hp & Hm'). exists l1, m, l2, vs, q. split; [done|]. split; [exact (parts_mono _ _ _ _ _ _ Hm Hp)|auto].
Qed.

Lemma labels_run E root c cbf s n l r :
  pure_grammar E root cbf -> code_ok c -> c_pos c <= length (c_work c) ->
  after_parses E root c (textbook E cbf (c_work c)) s -> entry E root n ->
  n_kind n = KSeq TObject l -> i_cb (n_info n) = None -> i_wraps (n_info n) = false -> NoDup (labels l) -> named l ->
  textbook E cbf (c_work c) n (st_pos s) r ->
  engine_gives E n s r /\
  match r with
  | Some (v, e) => exists vs, parts (textbook E cbf (c_work c)) l (st_pos s) vs e /\ v = shaped l vs
  | None => stops (textbook E cbf (c_work c)) l (st_pos s)
  end.
Proof.
  intros H1 H2 H3 H4 H5 H6 H7 H8 H9 H10 H11. split; [by apply (textbook_run E root c cbf)|].
  by apply (textbook_shape E cbf (c_work c) n l).
Qed.
