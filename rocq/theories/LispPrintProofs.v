From Verif Require Import Base Helpers Utf8 Stream Native NativeSpec NativeProofs Engine Build JoesonRun CalcSpec Print Ansi AnsiSpec AnsiProofs Lisp LispRead LispReadRun LispReadSpec LispReadPeg LispReadWhole LispRepl LispReplSpec LispPrint LispPrintSpec.
From stdpp Require Import sets.
Local Open Scope list_scope.

Section Show.
Context {A : arith}.
Variables (of_int : Z -> num A) (fmt : num A -> bytes).
Notation shown e := (expr_string fmt (lexp_of of_int e)).
Definition good (e : sexp) : Prop := exists s, says e s /\ forall t u, painted t u -> painted (shown e ++ t) (s ++ u).
Lemma symbols_calm s : a_name s -> all_bytes s /\ calm s.
Proof.
  intros Hn. assert (Forall (fun b => b < 128 /\ b <> 7 /\ b <> 27)%N s) as Hs.
  { destruct Hn as [Hs|(b & r & -> & Hb & Hr)].
    - assert (forallb (fun s => forallb (fun b => (b <? 128) && negb (b =? 7) && negb (b =? 27))%N%bool s) symbols = true) as HA by (by vm_compute).
      rewrite forallb_forall in HA. specialize (HA s ltac:(by apply elem_of_list_In)). rewrite forallb_forall in HA. apply Forall_forall. intros b Hb.
      specialize (HA b ltac:(by apply elem_of_list_In)). rewrite !andb_true_iff, N.ltb_lt, !negb_true_iff, !N.eqb_neq in HA. lia.
    - constructor; [unfold letter in Hb; lia|]. eapply Forall_impl; [exact Hr|]. intros c [Hc|[Hc|Hc]]; [unfold letter in Hc|unfold is_digit in Hc|]; lia. }
  rewrite Forall_forall in Hs. split; [|split; [|split]].
  - apply Forall_forall. intros b Hb. specialize (Hs b Hb). unfold is_byte. lia.
  - intros H. specialize (Hs _ H). lia.
  - intros H. specialize (Hs _ H). lia.
  - intros x y ->. specialize (Hs 194%N ltac:(set_solver)). lia.
Qed.
Lemma all_good e : wordy e -> good e.
Proof.
  induction e as [z|s|s|l IH] using sexp_ind2; intros Hw; inversion Hw as [s0 H1 H2 H3|s0 H1|l0 H1]; subst; unfold good; cbn [lexp_of expr_string].
  - exists ([34%N] ++ s ++ [34%N]). split; [by constructor|]. intros t u Hp. rewrite s2b_b2s by done. rewrite <- !app_assoc.
    apply painted_coloured; [by vm_compute; set_solver|by repeat split; [set_solver..|intros [|? [|]] ?]|].
    apply painted_coloured; [by vm_compute; set_solver|done|].
    apply painted_coloured; [by vm_compute; set_solver|by repeat split; [set_solver..|intros [|? [|]] ?]|done].
  - destruct (symbols_calm s H1) as [Hb Hc]. exists s. split; [destruct H1 as [Hq|(b & r & -> & Hq & Hr)]; by constructor|].
    intros t u Hp. rewrite s2b_b2s by done. apply painted_coloured; [by vm_compute; set_solver|done|done].
  - assert (exists s, says_all l s /\ forall t u, painted t u -> painted (join_space (map (expr_string fmt) (lexp_of of_int <$> l)) ++ t) (s ++ u)) as (s & Hs & Hp).
    { clear Hw. induction IH as [|e l He _ IHl]; [exists []; split; [constructor|done]|]. apply Forall_cons in H1 as [H1 H2].
      destruct (He H1) as (s & Hse & Hsp). destruct (IHl H2) as (s' & Hs' & Hp').
      destruct l as [|e' l]; [exists s; split; [by constructor|done]|]. exists (s ++ [32%N] ++ s'). split; [apply says_more; [done|done|repeat constructor|done]|].
      intros t u Hp. cbn [fmap list_fmap map join_space]. rewrite <- !app_assoc. apply Hsp. cbn [app]. constructor; [done..|]. by apply Hp'. }
    exists ([40%N] ++ [] ++ s ++ [] ++ [41%N]). split; [constructor; [constructor|constructor|done]|]. intros t u Hpt. cbn [app]. rewrite <- !app_assoc.
    apply (painted_coloured "[1;36m" [40%N]); [by vm_compute; set_solver|by repeat split; [set_solver..|intros [|? [|]] ?]|].
    apply Hp. apply (painted_coloured "[1;36m" [41%N]); [by vm_compute; set_solver|by repeat split; [set_solver..|intros [|? [|]] ?]|done].
Qed.
Lemma wordy_fits e : wordy e -> all_fit e = true.
Proof.
  induction e as [z|s|s|l IH] using sexp_ind2; intros Hw; inversion Hw as [s0 H1 H2 H3|s0 H1|l0 H1]; subst; [done..|]. cbn [all_fit].
  apply forallb_forall. intros e He%elem_of_list_In. rewrite Forall_forall in IH, H1. by apply IH, H1.
Qed.
Lemma shown_says e : wordy e -> says e (strip_ansi (shown e)).
Proof.
  intros He. destruct (all_good e He) as (s & Hs & Hp). specialize (Hp [] [] painted_nil). rewrite !app_nil_r in Hp. by rewrite (strip_painted _ _ Hp).
Qed.
Lemma shown_reads o e : po_debug o = false -> wordy e -> nest e <= 510 -> exists fuel0, forall fuel, fuel0 <= fuel -> exists s',
  fst (parse_string fuel (gram_of lisp) o lisp_rx lisp_cb (strip_ansi (shown e))) = Ok (Some (sexp_ast e)) s'.
Proof.
  intros Ho He Hn. apply (lisp_reads o Ho e); [|done|by apply wordy_fits]. exists [], (strip_ansi (shown e)), []. rewrite app_nil_r.
  split; [done|]. split; [constructor|]. split; [constructor|]. by apply shown_says.
Qed.
End Show.

Lemma number_calm z : calm (itoa z ++ s2b ".000000").
Proof.
  destruct (number_bytes z) as (b & r & -> & Hr).
  assert (Forall (fun b => b < 128 /\ b <> 7 /\ b <> 27)%N ((b :: r) ++ s2b ".000000")) as Hs.
  { apply Forall_app. split; [eapply Forall_impl; [exact Hr|]; cbn; lia|]. change (s2b ".000000") with [46; 48; 48; 48; 48; 48; 48]%N. repeat (apply List.Forall_cons; [lia|]). apply List.Forall_nil. }
  rewrite Forall_forall in Hs. split; [|split].
  - intros H. specialize (Hs _ H). lia.
  - intros H. specialize (Hs _ H). lia.
  - intros x y E. rewrite E in Hs. specialize (Hs 194%N ltac:(set_solver)). lia.
Qed.
Lemma number_shown z : strip_ansi (expr_string fmt_exact (lexp_of (A:=exact_arith) Some (SNum z))) = itoa z ++ s2b ".000000".
Proof. cbn [lexp_of expr_string fmt_exact]. apply strip_coloured; [by vm_compute; set_solver|]. apply number_calm. Qed.
Lemma number_unread z e : ~ says_text e (itoa z ++ s2b ".000000").
Proof.
  destruct (number_bytes z) as (b & r & Ez & Hr). rewrite Ez. intros (w & s & w' & E & Hw & Hw' & Hs).
  destruct w as [|c w]; [|injection E as <- _; apply Forall_cons in Hw as [Hw _]; apply Forall_cons in Hr as [Hr _]; lia]. cbn [app] in E.
  assert (w' = []) as ->.
  { destruct w' as [|c w'] using rev_ind; [done|]. apply Forall_app in Hw' as [_ Hc]. apply Forall_cons in Hc as [Hc _].
    change (b :: r ++ s2b ".000000") with ((b :: r) ++ s2b ".00000" ++ [48%N]) in E. rewrite !app_assoc in E. apply app_inj_tail in E as [_ <-]. lia. }
  rewrite app_nil_r in E. subst s. change (says e ((b :: r) ++ s2b ".000000")) in Hs. remember ((b :: r) ++ s2b ".000000") as t eqn:Et.
  assert (46%N ∈ t) as Hdot by (rewrite Et; apply elem_of_app; right; left).
  assert (head t = Some b) as Hh by (by rewrite Et). apply Forall_cons in Hr as [Hb _]. clear Et Ez.
  destruct Hs as [z' s Hn|s Hq|c s Hc Hl|s Hy|l v s v' H1 H2 H3].
  - destruct Hn as [ds _ Hd|ds _ Hd].
    + rewrite Forall_forall in Hd. specialize (Hd _ Hdot). unfold is_digit in Hd. lia.
    + apply elem_of_cons in Hdot as [|Hdot]; [done|]. rewrite Forall_forall in Hd. specialize (Hd _ Hdot). unfold is_digit in Hd. lia.
  - injection Hh as <-. lia.
  - injection Hh as <-. unfold letter in Hc. lia.
  - assert (forallb (fun s => forallb (fun b => negb (b =? 46))%N s) symbols = true) as HA by (by vm_compute).
    rewrite forallb_forall in HA. specialize (HA s ltac:(by apply elem_of_list_In)). rewrite forallb_forall in HA.
    specialize (HA 46%N ltac:(by apply elem_of_list_In)). done.
  - injection Hh as <-. lia.
Qed.
