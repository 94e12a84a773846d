(** The calculator as an example for Props_Means.v. *)
From Verif Require Import Base Helpers Utf8 Stream Native NativeSpec Engine EngSpec EngInv Peg PegRep PegBody PegStd RunSpec
  Build BuildSpec Joeson JoesonSpec JoesonRun Calc CalcRun CalcSpec CalcPeg CalcMain MeansSpec.

(** A check of [in_words]. *)
Definition words_check (compile : bytes -> res pexp) (name : string) (ls : list line) : bool :=
  (bool_decide (Forall (fun l => NoDup (i_names l)) (ranks (LA ls))) && written_check no_single compile (LA ls) && negb (String.eqb name "") &&
   (length (parsers (LA ls)) =? 0) && written_check plain_at compile (LA ls) && bool_decide (NoDup (d_name <$> decls name ls)) &&
   forallb (fun d => negb (lo_debug (d_opts d))) (decls name ls))%bool.
Lemma words_checked compile name ls : words_check compile name ls = true -> in_words compile name ls.
Proof.
  unfold words_check. rewrite !andb_true_iff. intros ((((((H1 & H2) & H3) & H4) & H5) & H6) & H7). constructor.
  - by apply bool_decide_eq_true in H1.
  - by apply written_checked.
  - intros ->. done.
  - apply Nat.eqb_eq in H4. by destruct (parsers (LA ls)).
  - by apply written_checked.
  - by apply bool_decide_eq_true in H6.
  - apply Forall_forall. intros d Hd. rewrite forallb_forall in H7. apply elem_of_list_In in Hd. specialize (H7 d Hd). by destruct (lo_debug (d_opts d)).
Qed.
Lemma calc_words : in_words calc_compile "calc" calc_lines.
Proof. apply words_checked. vm_compute. reflexivity. Qed.
(** The parse functions of the calculator. *)
Lemma calc_keeps E c : e_cb E = calc_cb -> cb_keeps E (calc_cbf None) c.
Proof.
  intros HE p h x v P Hr _. rewrite HE. pose proof (calc_cb_val c p h x v P Hr) as H. unfold calc_cbf.
  destruct (calc_val c v) as [[v'|]|]; [|done..]. destruct H as (y & -> & Hy). exists h, (Some y). split; [done|]. split; [apply hext_refl|]. by exists y.
Qed.

(** The lines with [Integer] and [_] first. *)
Definition calc_moved : list line := drop 5 calc_lines ++ take 5 calc_lines.
(** With the rule [AddOp] as a rank of two lines. *)
Definition calc_rank : list line :=
  take 3 calc_lines ++ LI "AddOp" (LA [o_s "'+'"; o_s "'-'"]) no_opts :: drop 4 calc_lines.
Lemma calc_rank_words : in_words calc_compile "calc" calc_rank.
Proof. apply words_checked. vm_compute. reflexivity. Qed.
Lemma move_up nm c o pre : forall ls, moved (pre ++ LI nm c o :: ls) (LI nm c o :: pre ++ ls).
Proof.
  induction pre as [|l pre IH]; intros ls; [apply mv_same|]. cbn [app]. eapply mv_then; [|apply mv_back].
  apply mv_line; [apply mi_same|apply IH].
Qed.
Lemma calc_has_moved : moved calc_lines calc_moved.
Proof.
  set (i5 := calc_lines !! 5). set (i6 := calc_lines !! 6). vm_compute in i5, i6.
  eapply mv_then; [exact (move_up "_" _ _ (take 5 calc_lines) (drop 6 calc_lines))|].
  apply (mv_line _ _ _ _ (mi_same _)). exact (move_up "Integer" _ _ (take 5 calc_lines) []).
Qed.
Lemma calc_flattened : flattened calc_compile calc_rank calc_lines.
Proof.
  do 3 apply fl_next. apply fl_i. eapply (fi_rank _ _ [PExp "" (KStr (s2b "+")); PExp "" (KStr (s2b "-"))]); [|reflexivity|vm_compute; reflexivity].
  repeat constructor; (eexists _, _, _, _; split; [reflexivity|]; split; [reflexivity|]; split; [reflexivity|]; vm_compute; reflexivity).
Qed.
Lemma calc_rank_names : no_new_names calc_compile "calc" calc_rank calc_lines.
Proof.
  assert (H : forallb (fun s => match calc_compile s with ROk e => forallb (fun nm => negb (bool_decide (nm ∈ ["AddOp[0]"; "AddOp[1]"]%string))) (refers e) | _ => true end)
    (texts (LA calc_rank) ++ texts (LA calc_lines)) = true) by (vm_compute; reflexivity).
  intros s e nm Hs He Hr Hn. rewrite forallb_forall in H. apply elem_of_list_In in Hs. specialize (H s Hs). rewrite He in H.
  rewrite forallb_forall in H. apply elem_of_list_In in Hr. specialize (H nm Hr). apply negb_true_iff, bool_decide_eq_false in H.
  replace (d_name <$> decls "calc" calc_rank) with (["Term"; "Factor"; "AddOp[0]"; "AddOp[1]"; "AddOp"; "MulOp"; "_"; "Integer"; "Expr"]%string) in Hn by (vm_compute; reflexivity).
  replace (d_name <$> decls "calc" calc_lines) with (["Term"; "Factor"; "AddOp"; "MulOp"; "_"; "Integer"; "Expr"]%string) by (vm_compute; reflexivity).
  rewrite !elem_of_cons in *. tauto.
Qed.
