(** The lisp grammar on whole texts. *)
From Verif Require Import Base Helpers Utf8 Utf8Proofs Stream StreamSpec Native Engine EngSpec EngInv Toy Peg PegProofs PegRep PegBody PegStd PegStdProofs
  RunSpec PegLaws PegRun Build BuildSpec BuildMain Joeson JoesonSpec JoesonRun Calc CalcRun CalcSpec CalcPeg Brave LispRead LispReadRun LispReadSpec
  LispReadPeg LispReadText Gives.

Scheme says_min := Minimality for says Sort Prop
with says_all_min := Minimality for says_all Sort Prop.
Combined Scheme says_both from says_min, says_all_min.

(** What may follow an expression: nothing, space, a closing parenthesis. *)
Definition ends (rest : bytes) : Prop := forall b, head rest = Some b -> b = 32%N \/ b = 9%N \/ b = 10%N \/ b = 41%N.
Lemma ends_no_digit rest : ends rest -> no_digit rest.
Proof. intros H b Hb Hd. apply H in Hb. unfold is_digit in Hd. lia. Qed.
Lemma ends_no_letter rest : ends rest -> forall b, head rest = Some b -> ~ letter2 b.
Proof. intros H b Hb Hl. apply H in Hb. unfold letter2, letter, is_digit in Hl. lia. Qed.
Lemma symbol_here x rest : x ∈ symbols -> ends rest -> op_here (x ++ rest) = Some x.
Proof.
  intros Hx He.
  assert (exists a, rest = [] \/ exists r, rest = a :: r /\ (a = 32%N \/ a = 9%N \/ a = 10%N \/ a = 41%N)) as (a & Hr).
  { destruct rest as [|a r]; [exists 0%N; by left|]. exists a. right. exists r. split; [done|]. by apply He. }
  unfold symbols in Hx. cbn [fmap list_fmap] in Hx.
  repeat (apply elem_of_cons in Hx as [-> |Hx]; [destruct Hr as [-> |(r & -> & Ha)]; [reflexivity|]; destruct Ha as [-> |[-> |[-> | ->]]]; reflexivity|]).
  by apply elem_of_nil in Hx.
Qed.
Lemma symbol_head x rest : x ∈ symbols -> ends rest -> head (x ++ rest) <> Some 40%N /\ head (x ++ rest) <> Some 34%N /\ m_signed (x ++ rest) = None.
Proof.
  intros Hx He. pose proof (ends_no_digit _ He) as Hd.
  unfold symbols in Hx. cbn [fmap list_fmap] in Hx.
  repeat (apply elem_of_cons in Hx as [-> |Hx];
    [split; [done|split; [done|]]; first [by apply signed_minus | apply signed_no; [intros b [= <-]; unfold is_digit; lia|done]]|]).
  by apply elem_of_nil in Hx.
Qed.
Lemma numeral_heads s z rest : numeral s z -> head (s ++ rest) <> Some 40%N /\ head (s ++ rest) <> Some 34%N.
Proof.
  intros [ds Hn Hf|ds Hn Hf]; [|done]. destruct Hf as [|b ds Hb Hf]; [done|]. unfold is_digit in Hb. cbn. split; intros [= ->]; lia.
Qed.

Lemma says_solid e s rest : says e s -> solid (s ++ rest) /\ s <> [].
Proof.
  intros H. destruct H as [z s Hn|s Hs|b s Hb Hs|s Hs|l w s w' Hw Hw' Hl].
  - destruct Hn as [ds Hn Hf|ds Hn Hf]; [|split; [intros b [= <-]; lia|done]]. destruct Hf as [|b ds Hb Hf]; [done|].
    split; [|done]. intros c [= <-]. unfold is_digit in Hb. lia.
  - split; [intros b [= <-]; lia|done].
  - split; [|done]. intros c [= <-]. unfold letter in Hb. lia.
  - unfold symbols in Hs. cbn [fmap list_fmap] in Hs.
    repeat (apply elem_of_cons in Hs as [-> |Hs]; [split; [intros b [= <-]; lia|done]|]). by apply elem_of_nil in Hs.
  - split; [intros b [= <-]; lia|done].
Qed.
Lemma says_all_solid e l s rest : says_all (e :: l) s -> solid (s ++ rest).
Proof. intros H. inversion H; subst; [by eapply says_solid|]. rewrite <- app_assoc. by eapply says_solid. Qed.
Lemma space_ends w rest : space w -> w <> [] -> ends (w ++ rest).
Proof. intros Hw Hn. destruct Hw as [|b w Hb Hw]; [done|]. intros c [= <-]. tauto. Qed.
Lemma space_ends2 w rest : space w -> ends rest -> ends (w ++ rest).
Proof. intros Hw Hr. destruct w; [done|]. by apply space_ends. Qed.

Section Text.
Variable t : option nat.
Variable text : bytes.
Hypothesis Ht : forall k, t = Some k -> k <= 1.
Notation rules := (g_rule (gram_of lisp)).
Notation gives := (gives rules lisp_rx (lisp_cbf t) text).
Notation does := (does rules lisp_rx (lisp_cbf t) text).
Notation loops := (Gives.loops rules lisp_rx (lisp_cbf t) text).
Notation at_ := (Gives.at_ text).
Notation sv := (sval (default 0 t)).

Lemma sv_exprs l : forallb is_expr_v (sv <$> l) = true.
Proof.
  induction l as [|e l IH]; [done|]. cbn [fmap list_fmap forallb]. rewrite IH. rewrite sval_expr; [done|]. destruct t as [k|] eqn:E; cbn; [by apply Ht|lia].
Qed.

(** ** The alternatives of an expression *)
Lemma list_no d s p : at_ p s -> head s <> Some 40%N -> gives (S d) nr_list p None.
Proof.
  intros Hp Hh. eapply (gives_rule _ _ _ _ _ _ _ None); [done|done| |done]. eapply does_single; [done|]. apply singles_fail. by eapply lit_no.
Qed.
Lemma expr_as_list d p r : gives d nr_list p (Some r) -> gives (S d) nr_expr p (Some r).
Proof. intros H. apply gives_bare_rule; [done|done|by split; [|left]|]. eapply does_choice; [done|]. destruct r. by apply alts_take. Qed.
Lemma expr_as_string d s p r : at_ p s -> head s = Some 34%N -> gives (S d) nr_string p (Some r) -> gives (S (S d)) nr_expr p (Some r).
Proof.
  intros Hp Hh H. apply gives_bare_rule; [done|done|by split; [|left]|]. eapply does_choice; [done|]. destruct r.
  apply alts_next; [eapply list_no; [exact Hp|by rewrite Hh]|]. by apply alts_take.
Qed.
Lemma expr_as_number d s p r : at_ p s -> head s <> Some 40%N -> head s <> Some 34%N ->
  gives (S d) nr_number p (Some r) -> gives (S (S d)) nr_expr p (Some r).
Proof.
  intros Hp Hh Hh' H. apply gives_bare_rule; [done|done|by split; [|left]|]. eapply does_choice; [done|]. destruct r.
  apply alts_next; [by eapply list_no|]. apply alts_next; [by eapply string_no|]. by apply alts_take.
Qed.
Lemma expr_as_op d s p r : at_ p s -> head s <> Some 40%N -> head s <> Some 34%N -> m_signed s = None ->
  gives (S d) nr_operator p r -> gives (S (S d)) nr_expr p r.
Proof.
  intros Hp Hh Hh' Hm H. apply gives_bare_rule; [done|done|by split; [|left]|]. eapply does_choice; [done|].
  apply alts_next; [by eapply list_no|]. apply alts_next; [by eapply string_no|]. apply alts_next; [by eapply number_no|].
  destruct r as [[]|]; [by apply alts_take|]. apply alts_next; [done|apply alts_nil].
Qed.
(** No expression starts with a closing parenthesis. *)
Lemma expr_close d p rest : at_ p (41%N :: rest) -> gives (S (S (S d))) nr_expr p None.
Proof.
  intros Hp. eapply expr_as_op; [exact Hp|done|done| |].
  - apply signed_no; [|done]. intros b [= <-]. unfold is_digit. lia.
  - pose proof (op_rule t text d p _ Hp) as H. exact H.
Qed.

Lemma list_yes d p w s w' rest l e0 v0 : e0 = (p + 1 + length w) + length s ->
  space w -> space w' -> solid (s ++ w' ++ [41%N] ++ rest) -> at_ p ([40%N] ++ w ++ s ++ w' ++ [41%N] ++ rest) ->
  gives (S (S d)) n_items (p + 1 + length w) (Some (VArr l, e0)) -> forallb is_expr_v l = true -> v0 = VUser 2 l ->
  gives (S (S (S d))) nr_list p (Some (v0, p + length ([40%N] ++ w ++ s ++ w' ++ [41%N]))).
Proof.
  intros -> Hw Hw' Hs Hp Hl He ->. eapply (gives_rule _ _ _ _ _ _ _ (Some (VArr l, _))); [done|done| |].
  2: { cbn. unfold lisp_cbf, lisp_val. by rewrite He. }
  eapply does_single; [done|]. pose proof (at_app _ _ _ _ Hp) as Hp1. cbn [length] in Hp1.
  destruct (sp t text d w _ _ Hw Hs Hp1) as [v1 H1]. pose proof (at_app _ _ _ _ Hp1) as Hp2. apply at_app in Hp2.
  assert (solid ([41%N] ++ rest)) as Hs' by (intros b [= <-]; lia).
  destruct (sp t text d w' _ _ Hw' Hs' Hp2) as [v2 H2]. apply at_app in Hp2.
  eapply singles_cons; [eapply lit_yes; exact Hp|]. cbn [i_capture n_info nd ns_lit length].
  eapply singles_cons; [exact H1|]. cbn [i_capture n_info nd ns_ref].
  eapply singles_cons; [exact Hl|]. cbn [i_capture n_info nd n_items].
  eapply singles_cons; [exact H2|]. cbn [i_capture n_info nd ns_ref].
  eapply singles_cons; [eapply lit_yes; exact Hp2|]. cbn [i_capture n_info nd ns_lit length].
  match goal with |- context [Some (VArr l, ?q)] => replace q with (p + 1 + length w + length s + length w' + 1) by (rewrite !app_length; cbn; lia) end.
  apply singles_nil.
Qed.

(** The repetition stops before the closing parenthesis. *)
Lemma loop_stops n acc p w rest : space w -> at_ p (w ++ [41%N] ++ rest) -> loops (2 * n + 3) n_item (Some n_apart) (-1) acc p acc p.
Proof.
  intros Hw Hp. replace (2 * n + 3) with (S (S (S (2 * n)))) by lia. assert (solid ([41%N] ++ rest)) as Hs by (intros b [= <-]; lia).
  destruct w as [|b w].
  - apply loops_join_end. by eapply gap_no.
  - destruct (gap_yes t text (S (2 * n)) (b :: w) _ p ltac:(done) Hw Hs Hp) as [v Hv]. apply at_app in Hp.
    eapply loops_join_back; [exact Hv|]. eapply ref_to; [reflexivity|]. by eapply expr_close.
Qed.

(** ** Every text of an expression is read *)
Definition fine (e : sexp) : Prop := t = None -> all_fit e = true.
Definition reads (e : sexp) (s : bytes) : Prop := forall n p rest, nest e <= n -> fine e -> ends rest -> at_ p (s ++ rest) ->
  gives (2 * n + 3) nr_expr p (Some (sv e, p + length s)).
Definition reads_all (l : list sexp) (s : bytes) : Prop :=
  match l with
  | [] => s = []
  | e :: l' => forall n p w rest, Forall (fun x => nest x <= n) l -> Forall fine l -> space w -> at_ p (s ++ w ++ [41%N] ++ rest) ->
      exists q, gives (2 * n + 3) nr_expr p (Some (sv e, q)) /\
        forall acc, loops (2 * n + 3) n_item (Some n_apart) (-1) acc q (acc ++ (sv <$> l')) (p + length s)
  end.
Lemma nest_all l n : fold_right (fun x k => max (nest x) k) 0 l <= n -> Forall (fun x => nest x <= n) l.
Proof. induction l as [|e l IH]; cbn; [constructor|]. intros H. constructor; [lia|]. apply IH. lia. Qed.
Lemma fine_all l : fine (SList l) -> Forall fine l.
Proof.
  intros H. apply Forall_forall. intros e He HT. specialize (H HT). cbn in H. rewrite forallb_forall in H. apply H. by apply elem_of_list_In.
Qed.
Lemma says_reads : (forall e s, says e s -> reads e s) /\ (forall l s, says_all l s -> reads_all l s).
Proof.
  apply says_both.
  - intros z s Hn n p rest _ Hf He Hp. destruct (numeral_heads s z rest Hn) as [H1 H2].
    replace (2 * n + 3) with (S (S (S (2 * n)))) by lia. eapply expr_as_number; [exact Hp|done|done|].
    apply number_yes with (rest := rest); [done|by eapply signed_yes; [|apply ends_no_digit]|done|exact Hf].
  - intros s Hs n p rest _ Hf He Hp. replace (2 * n + 3) with (S (S (S (2 * n)))) by lia. rewrite <- !app_assoc in Hp.
    eapply expr_as_string; [exact Hp|done|]. by eapply string_yes.
  - intros b s Hb Hs n p rest _ Hf He Hp. replace (2 * n + 3) with (S (S (S (2 * n)))) by lia.
    assert (op_here ((b :: s) ++ rest) = Some (b :: s)) as HO.
    { unfold op_here. cbn [app]. rewrite (ident_yes b s rest Hb Hs) by by apply ends_no_letter. cbn [take]. change (firstn (length s) (s ++ rest)) with (take (length s) (s ++ rest)). by rewrite take_app. }
    unfold letter in Hb. eapply expr_as_op; [exact Hp|cbn; intros [= ->]; lia|cbn; intros [= ->]; lia| |].
    + apply signed_no; [|cbn; intros [= ->]; lia]. intros c [= <-]. unfold is_digit. lia.
    + pose proof (op_rule t text (2 * n) p _ Hp) as H. rewrite HO in H. exact H.
  - intros s Hs n p rest _ Hf He Hp. replace (2 * n + 3) with (S (S (S (2 * n)))) by lia.
    destruct (symbol_head s rest Hs He) as (H1 & H2 & H3). eapply expr_as_op; [exact Hp|done..|].
    pose proof (op_rule t text (2 * n) p _ Hp) as H. rewrite (symbol_here s rest Hs He) in H. exact H.
  - intros l w s w' Hw Hw' Hl IH n p rest Hn Hf He Hp. cbn [nest] in Hn. destruct n as [|n]; [lia|].
    pose proof (nest_all l n ltac:(lia)) as Hns. pose proof (fine_all l Hf) as Hfs.
    replace (2 * S n + 3) with (S (S (2 * n + 3))) by lia. apply expr_as_list.
    replace (([40%N] ++ w ++ s ++ w' ++ [41%N]) ++ rest) with ([40%N] ++ w ++ s ++ w' ++ [41%N] ++ rest) in Hp by by rewrite <- !app_assoc.
    replace (2 * n + 3) with (S (S (2 * n + 1))) by lia.
    destruct l as [|e l].
    + cbn in IH. subst s. cbn [app] in Hp.
      assert (space (w ++ w')) as Hww by by apply Forall_app.
      replace ([40%N] ++ w ++ [] ++ w' ++ [41%N]) with ([40%N] ++ (w ++ w') ++ [] ++ [] ++ [41%N]) by by rewrite <- !app_assoc.
      replace (40%N :: w ++ w' ++ 41%N :: rest) with ([40%N] ++ (w ++ w') ++ [] ++ [] ++ [41%N] ++ rest) in Hp by by rewrite <- !app_assoc.
      eapply (list_yes _ p (w ++ w') [] [] rest []); [reflexivity|done|constructor|intros b [= <-]; lia|done| |done|done].
      cbn [length]. rewrite Nat.add_0_r. apply gives_bare; [done|done|by split; [|left]|].
      eapply (does_pat_none _ _ _ _ _ _ n_item (Some n_apart) (-1) (-1)); [done|]. eapply ref_to; [reflexivity|].
      replace (S (S (2 * n + 1))) with (S (S (S (2 * n)))) by lia. eapply (expr_close _ _ rest).
      apply at_app in Hp. apply at_app in Hp. exact Hp.
    + eapply (list_yes _ p w s w' rest (sv <$> (e :: l))); [reflexivity|done|done|by eapply says_all_solid|done| |apply sv_exprs|done].
      replace (S (S (2 * n + 1))) with (2 * n + 3) by lia.
      destruct (IH n (p + 1 + length w) w' rest Hns Hfs Hw') as (q & HQ & HL).
      { apply at_app in Hp. apply at_app in Hp. exact Hp. }
      apply gives_bare; [done|done|by split; [|left]|].
      eapply (does_pat_some _ _ _ _ _ _ n_item (Some n_apart) (-1) (-1)); [done|eapply ref_to; [reflexivity|exact HQ]|exact (HL [sv e])].
  - reflexivity.
  - intros e s He IH n p w rest Hn Hf Hw Hp. apply Forall_cons in Hn as [Hn _]. apply Forall_cons in Hf as [Hf _].
    exists (p + length s). split; [apply IH with (rest := w ++ [41%N] ++ rest); [done|done| |done]|].
    { apply space_ends2; [done|]. intros b [= <-]. lia. }
    intros acc. cbn [fmap list_fmap]. rewrite app_nil_r. apply at_app in Hp. by eapply loop_stops.
  - intros e s w e' l s' He IH Hwn Hw Hl IHl n p w' rest Hn Hf Hw' Hp. apply Forall_cons in Hn as [Hn Hns]. apply Forall_cons in Hf as [Hf Hfs].
    rewrite <- !app_assoc in Hp. exists (p + length s). split.
    { apply IH with (rest := w ++ s' ++ w' ++ [41%N] ++ rest); [done|done| |done]. by apply space_ends. }
    intros acc. apply at_app in Hp.
    destruct (gap_yes t text (2 * n + 1) w _ _ Hwn Hw (says_all_solid _ _ _ (w' ++ [41%N] ++ rest) Hl) Hp) as [v Hv].
    replace (S (S (2 * n + 1))) with (2 * n + 3) in Hv by lia.
    apply at_app in Hp. destruct (IHl n _ w' rest Hns Hfs Hw' Hp) as (q & HQ & HL).
    eapply loops_join_more; [exact Hv|eapply ref_to; [reflexivity|exact HQ]|done|].
    specialize (HL (acc ++ [sv e'])). rewrite <- app_assoc in HL. cbn [app fmap list_fmap] in *.
    replace (p + length (s ++ w ++ s')) with (p + length s + length w + length s') by (rewrite !app_length; lia). exact HL.
Qed.

(** ** Whatever is read is the text of an expression *)
Hypothesis Hfit : t = None -> numbers_fit text.
Definition sound (s : bytes) (p : nat) (r : result) : Prop :=
  match r with
  | None => True
  | Some (v, q) => exists e u rest, s = u ++ rest /\ q = p + length u /\ v = sv e /\ says e u
  end.
Lemma at_fits p u rest z : at_ p (u ++ rest) -> numeral u z -> t = None -> fits z = true.
Proof. intros Hp Hn HT. apply (Hfit HT (take p text) u rest z); [|done]. rewrite <- Hp. by rewrite take_drop. Qed.
Lemma opens_app a b : opens (a ++ b) = opens a + opens b.
Proof. unfold opens. rewrite List.filter_app. apply app_length. Qed.
Lemma opens_cons b s : opens s <= opens (b :: s).
Proof. unfold opens. cbn [List.filter]. destruct (40 =? b)%N; cbn; lia. Qed.

(** What is in a list after the first element: further ones. *)
Definition more (s : bytes) (l : list sexp) (u : bytes) : Prop :=
  l = [] /\ u = [] \/ exists w u', u = w ++ u' /\ w <> [] /\ space w /\ l <> [] /\ says_all l u'.
Definition reader (m D : nat) : Prop := forall s, length s <= m -> 2 * opens s + 3 <= D -> forall p, at_ p s -> exists r, gives D nr_expr p r /\ sound s p r.
Lemma loop_total m D : reader m D -> forall k s, length s <= k -> k <= m -> 2 * opens s + 3 <= D -> forall acc p, at_ p s ->
  exists l u rest, s = u ++ rest /\ more s l u /\ loops D n_item (Some n_apart) (-1) acc p (acc ++ (sv <$> l)) (p + length u).
Proof.
  intros HR. induction k as [|k IH]; intros s Hk Hm HD acc p Hp.
  - destruct s; [|cbn in Hk; lia]. exists [], [], []. split; [done|]. split; [by left|]. cbn. rewrite app_nil_r, Nat.add_0_r.
    apply loops_join_end. replace D with (S (S (D - 2))) by lia. eapply (gap_no _ _ _ []); [by intros b|exact Hp].
  - destruct (split_space s) as (w & s1 & -> & Hw & Hs1). destruct w as [|b w].
    + exists [], [], s1. split; [done|]. split; [by left|]. cbn. rewrite app_nil_r, Nat.add_0_r.
      apply loops_join_end. replace D with (S (S (D - 2))) by lia. by eapply gap_no.
    + destruct (gap_yes t text (D - 2) (b :: w) s1 p ltac:(done) Hw Hs1 Hp) as [v Hv]. replace (S (S (D - 2))) with D in Hv by lia.
      pose proof (at_app _ _ _ _ Hp) as Hp1. rewrite opens_app in HD. rewrite app_length in Hk. cbn [length] in Hk.
      destruct (HR s1 ltac:(lia) ltac:(lia) _ Hp1) as (r & Hr & Hsnd). destruct r as [[ev q]|].
      * destruct Hsnd as (e & u & rest & -> & -> & -> & He). pose proof (at_app _ _ _ _ Hp1) as Hp2. rewrite opens_app in HD. rewrite app_length in Hk.
        destruct (says_solid e u [] He) as [_ Hu]. destruct u as [|c u]; [done|]. cbn [length] in Hk.
        destruct (IH rest ltac:(lia) ltac:(lia) ltac:(lia) (acc ++ [sv e]) _ Hp2) as (l & u2 & rest2 & -> & Hmore & HL).
        exists (e :: l), ((b :: w) ++ (c :: u) ++ u2), rest2. split; [by rewrite <- !app_assoc|]. split.
        -- right. exists (b :: w), ((c :: u) ++ u2). split; [done|]. split; [done|]. split; [done|]. split; [done|].
           destruct Hmore as [[-> ->]|(w2 & u' & -> & Hw2 & Hs2 & Hl & Hall)]; [rewrite app_nil_r; by constructor|].
           destruct l as [|e2 l]; [done|]. by constructor.
        -- eapply loops_join_more; [exact Hv|eapply ref_to; [reflexivity|exact Hr]|done|]. rewrite <- app_assoc in HL. cbn [app] in HL.
           cbn [fmap list_fmap]. replace (p + length ((b :: w) ++ (c :: u) ++ u2)) with (p + length (b :: w) + length (c :: u) + length u2) by (rewrite !app_length; lia). exact HL.
      * exists [], [], ((b :: w) ++ s1). split; [done|]. split; [by left|]. cbn [length fmap list_fmap]. rewrite app_nil_r, Nat.add_0_r.
        eapply loops_join_back; [exact Hv|eapply ref_to; [reflexivity|exact Hr]].
Qed.
Lemma items_total m D s p : reader m D -> length s <= m -> 2 * opens s + 3 <= D -> at_ p s ->
  exists l u rest, s = u ++ rest /\ says_all l u /\ gives D n_items p (Some (VArr (sv <$> l), p + length u)).
Proof.
  intros HR Hm HD Hp. destruct (HR s Hm HD p Hp) as (r & Hr & Hsnd). destruct r as [[v q]|].
  - destruct Hsnd as (e & u & rest & -> & -> & -> & He). pose proof (at_app _ _ _ _ Hp) as Hp1. rewrite opens_app in HD. rewrite app_length in Hm.
    destruct (loop_total m D HR m rest ltac:(lia) ltac:(lia) ltac:(lia) [sv e] _ Hp1) as (l & u2 & rest2 & -> & Hmore & HL).
    exists (e :: l), (u ++ u2), rest2. split; [by rewrite <- app_assoc|]. split.
    + destruct Hmore as [[-> ->]|(w2 & u' & -> & Hw2 & Hs2 & Hl & Hall)]; [rewrite app_nil_r; by constructor|].
      destruct l as [|e2 l]; [done|]. by constructor.
    + apply gives_bare; [done|done|by split; [|left]|]. rewrite app_length, Nat.add_assoc.
      eapply (does_pat_some _ _ _ _ _ _ n_item (Some n_apart) (-1) (-1)); [done|eapply ref_to; [reflexivity|exact Hr]|exact HL].
  - exists [], [], s. split; [done|]. split; [constructor|]. cbn [length fmap list_fmap]. rewrite Nat.add_0_r. apply gives_bare; [done|done|by split; [|left]|].
    eapply (does_pat_none _ _ _ _ _ _ n_item (Some n_apart) (-1) (-1)); [done|eapply ref_to; [reflexivity|exact Hr]].
Qed.
Lemma list_total m D s p : reader m (S (S D)) -> length s <= m -> 2 * opens s + 3 <= S (S D) -> at_ p (40%N :: s) ->
  exists r, gives (S (S (S D))) nr_list p r /\ sound (40%N :: s) p r.
Proof.
  intros HR Hm HD Hp. destruct (split_space s) as (w & s1 & -> & Hw & Hs1).
  pose proof (at_app _ p [40%N] (w ++ s1) Hp) as Hp1. cbn [length] in Hp1. pose proof (at_app _ _ _ _ Hp1) as Hp2.
  rewrite opens_app in HD. rewrite app_length in Hm.
  destruct (items_total m (S (S D)) s1 _ HR ltac:(lia) ltac:(lia) Hp2) as (l & u & rest & -> & Hl & HL).
  destruct (split_space rest) as (w' & s2 & -> & Hw' & Hs2).
  pose proof (at_app _ _ _ _ Hp2) as Hp3. pose proof (at_app _ _ _ _ Hp3) as Hp4.
  destruct s2 as [|c s2]; [|destruct (decide (c = 41%N)) as [-> |Hc]].
  2: { eexists (Some (VUser 2 (sv <$> l), _)). split.
    - eapply (list_yes D p w u w' s2 (sv <$> l)); [reflexivity|done|done|done|exact Hp|exact HL|apply sv_exprs|done].
    - exists (SList l), ([40%N] ++ w ++ u ++ w' ++ [41%N]), s2. split; [cbn [app]; by rewrite <- !app_assoc|]. split; [done|]. split; [done|]. by constructor. }
  all: exists None; split; [|done]; eapply (gives_rule _ _ _ _ _ _ _ None); [done|done| |done]; eapply does_single; [done|].
  all: destruct (sp t text D w _ _ Hw Hs1 Hp1) as [v1 H1].
  all: eapply singles_cons; [by eapply (lit_yes _ _ _ _ _ [40%N]); exact Hp|]; cbn [i_capture n_info nd ns_lit length].
  all: eapply singles_cons; [exact H1|]; cbn [i_capture n_info nd ns_ref].
  all: eapply singles_cons; [exact HL|]; cbn [i_capture n_info nd n_items].
  all: destruct (sp t text D w' _ _ Hw' Hs2 Hp3) as [v2 H2]; eapply singles_cons; [exact H2|]; cbn [i_capture n_info nd ns_ref].
  all: apply singles_fail; eapply lit_no; [exact Hp4|]. { done. } intros [= ->]. done.
Qed.
Lemma reader_all m D : reader m D.
Proof.
  revert D. induction m as [|m IH]; intros D s Hm HD p Hp.
  - destruct s; [|cbn in Hm; lia]. exists None. split; [|done]. replace D with (S (S (S (D - 3)))) by lia.
    eapply expr_as_op; [exact Hp|done|done|done|]. pose proof (op_rule t text (D - 3) p [] Hp) as H. exact H.
  - destruct s as [|b s].
    { exists None. split; [|done]. replace D with (S (S (S (D - 3)))) by lia.
      eapply expr_as_op; [exact Hp|done|done|done|]. pose proof (op_rule t text (D - 3) p [] Hp) as H. exact H. }
    destruct (decide (b = 40%N)) as [-> |Hb1]; [|destruct (decide (b = 34%N)) as [-> |Hb2]].
    + assert (opens (40%N :: s) = S (opens s)) as E by done. rewrite E in HD. cbn [length] in Hm.
      destruct (list_total m (D - 4) s p) as (r & Hr & Hs); [apply IH|lia|lia|done|].
      replace (S (S (S (D - 4)))) with (D - 1) in Hr by lia. destruct r as [r|].
      * exists (Some r). split; [|done]. replace D with (S (D - 1)) by lia. by apply expr_as_list.
      * exists None. split; [|done]. replace D with (S (D - 1)) by lia. apply gives_bare_rule; [done|done|by split; [|left]|]. eapply does_choice; [done|].
        apply alts_next; [done|]. replace (D - 1) with (S (S (D - 3))) by lia.
        apply alts_next; [eapply string_no; [exact Hp|done]|]. apply alts_next; [eapply number_no; [exact Hp|reflexivity]|].
        apply alts_next; [|apply alts_nil]. pose proof (op_rule t text (D - 3) p _ Hp) as H. exact H.
    + destruct (split_quote s) as (u & rest & -> & Hu & Hr). destruct Hr as [-> |Hr].
      * rewrite app_nil_r in Hp. exists None. split; [|done]. replace D with (S (S (S (D - 3)))) by lia. apply gives_bare_rule; [done|done|by split; [|left]|]. eapply does_choice; [done|].
        apply alts_next; [eapply list_no; [exact Hp|done]|]. apply alts_next; [eapply string_open; [exact Hu|exact Hp]|]. apply alts_next; [eapply number_no; [exact Hp|reflexivity]|].
        apply alts_next; [|apply alts_nil]. pose proof (op_rule t text (D - 3) p _ Hp) as H. exact H.
      * destruct rest as [|c rest]; [done|]. injection Hr as ->. exists (Some (VUser 0 [VStr u], p + length ([34%N] ++ u ++ [34%N]))). split.
        -- replace D with (S (S (S (D - 3)))) by lia. eapply expr_as_string; [exact Hp|done|]. exact (string_yes t text (S (D - 3)) u rest p Hu Hp).
        -- exists (SStr u), ([34%N] ++ u ++ [34%N]), rest. split; [cbn [app]; by rewrite <- app_assoc|]. split; [done|]. split; [done|]. by constructor.
    + replace D with (S (S (S (D - 3)))) by lia. assert (head (b :: s) <> Some 40%N) as H1 by (cbn; congruence).
      assert (head (b :: s) <> Some 34%N) as H2 by (cbn; congruence).
      destruct (m_signed (b :: s)) as [n|] eqn:E.
      * destruct (signed_some _ _ E) as (u & rest & z & Es & -> & Hn). rewrite Es in *.
        exists (Some (sv (SNum z), p + length u)). split.
        -- eapply expr_as_number; [exact Hp|done|done|]. eapply number_yes; [exact Hp|done|done|]. by eapply at_fits.
        -- exists (SNum z), u, rest. split; [done|]. split; [done|]. split; [done|]. by constructor.
      * pose proof (op_rule t text (D - 3) p _ Hp) as H. eexists. split; [eapply expr_as_op; [exact Hp|done|done|done|exact H]|].
        destruct (op_here (b :: s)) as [x|] eqn:EO; [|done]. destruct (op_here_len _ _ EO) as (rest & ->).
        exists (SOp x), x, rest. split; [done|]. split; [done|]. split; [done|]. by eapply op_here_says.
Qed.
End Text.
