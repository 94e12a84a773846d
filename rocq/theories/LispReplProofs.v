(** Proofs on the loop of the lisp example. *)
From Verif Require Import Base Helpers Utf8 Stream StreamSpec Native Engine EngSpec Build JoesonRun CalcSpec CalcPeg
  LispRead LispReadRun LispReadSpec LispReadPeg LispReadText LispReadMain LispReadWhole Lisp LispSpec LispProofs LispRepl LispReplSpec.
Local Open Scope list_scope.

(** ** Trimming *)
Lemma trim_left_split s : exists w, s = w ++ trim_left s /\ blanks w.
Proof.
  induction s as [|b s IH]; [exists []; split; [done|constructor]|]. cbn [trim_left]. destruct (N.eqb_spec b 32) as [-> |Hb].
  - destruct IH as (w & E & Hw). exists (32%N :: w). split; [by rewrite E at 1|by constructor].
  - exists []. split; [done|constructor].
Qed.
Lemma blanks_rev w : blanks w -> blanks (List.rev w).
Proof. unfold blanks. rewrite !List.Forall_forall. intros H x Hx. apply H. by apply in_rev. Qed.
Lemma space_rev w : space w -> space (List.rev w).
Proof. unfold space. rewrite !List.Forall_forall. intros H x Hx. apply H. by apply in_rev. Qed.
Lemma blanks_space w : blanks w -> space w.
Proof. intros H. eapply Forall_impl; [exact H|]. intros x ->. by left. Qed.
Lemma space_app w w' : space (w ++ w') <-> space w /\ space w'.
Proof. unfold space. apply Forall_app. Qed.
Lemma trim_right s : exists w, trim_left s = trim s ++ w /\ blanks w.
Proof.
  unfold trim. destruct (trim_left_split (List.rev (trim_left s))) as (w & E & Hw). exists (List.rev w). split; [|by apply blanks_rev].
  rewrite <- rev_app_distr, <- E. by rewrite rev_involutive.
Qed.
Lemma trim_split s : exists w w', s = w ++ trim s ++ w' /\ blanks w /\ blanks w'.
Proof.
  destruct (trim_left_split s) as (w & E & Hw). destruct (trim_right s) as (w' & E' & Hw'). exists w, w'. split; [by rewrite <- E'|done].
Qed.
Lemma trim_left_space w t : space w -> head t <> Some 32%N -> exists w2, trim_left (w ++ t) = w2 ++ t /\ space w2.
Proof.
  intros Hw Ht. induction Hw as [|b w Hb Hw IH]; cbn [app].
  - exists []. split; [|constructor]. destruct t as [|b t]; [done|]. cbn [trim_left]. destruct (N.eqb_spec b 32) as [-> |]; done.
  - cbn [trim_left]. destruct (N.eqb_spec b 32) as [-> |]; [done|]. exists (b :: w). split; [done|by constructor].
Qed.
Lemma trim_core w s w' : space w -> space w' -> s = [] \/ (s <> [] /\ head s <> Some 32%N /\ head (List.rev s) <> Some 32%N) ->
  exists w2 w2', trim (w ++ s ++ w') = w2 ++ s ++ w2' /\ space w2 /\ space w2'.
Proof.
  intros Hw Hw' [-> |(Hn & Hh & Hl)]; unfold trim; cbn [app].
  - destruct (trim_left_space (w ++ w') []) as (w2 & E & H2); [by apply space_app|done|]. rewrite app_nil_r in E. rewrite E. rewrite app_nil_r.
    destruct (trim_left_space (List.rev w2) []) as (w3 & E3 & H3); [by apply space_rev|done|]. rewrite app_nil_r in E3. rewrite E3, app_nil_r.
    exists (List.rev w3), []. rewrite app_nil_r. split; [done|]. split; [by apply space_rev|constructor].
  - destruct (trim_left_space w (s ++ w')) as (w2 & E & H2); [done|by destruct s|]. rewrite E. rewrite !rev_app_distr.
    rewrite <- app_assoc. destruct (trim_left_space (List.rev w') (List.rev s ++ List.rev w2)) as (w3 & E3 & H3); [by apply space_rev| |].
    { destruct (List.rev s) as [|b r] eqn:E4; [|done]. apply (f_equal (@List.rev _)) in E4. rewrite rev_involutive in E4. done. }
    rewrite E3. rewrite !rev_app_distr, !rev_involutive. exists w2, (List.rev w3). rewrite <- app_assoc. split; [done|]. split; [done|by apply space_rev].
Qed.
Lemma trim_left_at w b s : blanks w -> b <> 32%N -> trim_left (w ++ b :: s) = b :: s.
Proof.
  intros Hw Hb. induction Hw as [|c w -> Hw IH]; cbn [app trim_left]; [|done]. destruct (N.eqb_spec b 32); done.
Qed.
Lemma opened_head line : opened line <-> head (trim line) = Some 40%N.
Proof.
  split.
  - intros (w & rest & -> & Hw). destruct (trim_right (w ++ [40%N] ++ rest)) as (w' & E & Hw'). change (w ++ [40%N] ++ rest) with (w ++ 40%N :: rest) in *. rewrite trim_left_at in E by done.
    destruct (trim _) as [|b t]; [|by injection E as <- _]. cbn [app] in E. rewrite <- E in Hw'. apply Forall_cons in Hw' as [? _]. done.
  - intros H. destruct (trim_split line) as (w & w' & E & Hw & Hw'). destruct (trim line) as [|b t]; [done|]. injection H as ->.
    exists w, (t ++ w'). split; [done|done].
Qed.
Lemma newline_off line : trim_newline (line ++ [10%N]) = line.
Proof. unfold trim_newline. rewrite rev_app_distr. cbn [List.rev app]. cbn. by rewrite rev_involutive. Qed.
Lemma repl_text_line line : (opened line /\ repl_text (line ++ [10%N]) = trim line) \/ (~ opened line /\ repl_text (line ++ [10%N]) = [40%N] ++ trim line ++ [41%N]).
Proof.
  unfold repl_text. rewrite newline_off. rewrite opened_head. destruct (trim line) as [|b t] eqn:E; [by right|]. destruct (N.eqb_spec b 40) as [-> |Hb]; [by left|].
  right. split; [|done]. cbn. congruence.
Qed.

(** ** Texts of lists *)
Definition last_byte (s : bytes) : option N := head (List.rev s).
Lemma last_app s t : t <> [] -> last_byte (s ++ t) = last_byte t.
Proof.
  intros Ht. unfold last_byte. rewrite rev_app_distr. destruct (List.rev t) as [|b r] eqn:E; [|done]. apply (f_equal (@List.rev _)) in E. by rewrite rev_involutive in E.
Qed.
Lemma last_in s b : last_byte s = Some b -> b ∈ s.
Proof. unfold last_byte. intros H. apply elem_of_list_In, in_rev. destruct (List.rev s); [done|]. injection H as ->. by left. Qed.
Lemma says_last : (forall e s, says e s -> last_byte s <> Some 32%N) /\ (forall l s, says_all l s -> last_byte s <> Some 32%N).
Proof.
  apply says_both.
  - intros z s Hz H%last_in. assert (Forall (fun b => b = 45 \/ is_digit b)%N s) as HF.
    { destruct Hz as [ds _ Hd|ds _ Hd]; [|constructor; [by left|]]; (eapply Forall_impl; [exact Hd|]); intros; by right. }
    rewrite Forall_forall in HF. destruct (HF _ H) as [|HH]; [done|]. unfold is_digit in HH. lia.
  - intros s _. rewrite app_assoc, last_app by done. done.
  - intros b s Hb Hs H%last_in. assert (letter2 32) as HH. { apply elem_of_cons in H as [<- |H]; [by left|]. rewrite Forall_forall in Hs. by apply Hs. }
    unfold letter2, letter, is_digit in HH. lia.
  - intros s Hs. unfold symbols in Hs. cbn [fmap list_fmap] in Hs. rewrite !elem_of_cons in Hs. repeat (destruct Hs as [-> |Hs]; [by vm_compute|]). by apply elem_of_nil in Hs.
  - intros l w s w' _ _ _ _. rewrite !app_assoc, last_app by done. done.
  - done.
  - done.
  - intros e s w e' l s' _ _ _ _ Ha IH. rewrite app_assoc. rewrite last_app; [done|]. intros ->.
    pose proof (says_all_solid e' l [] [] Ha) as _. inversion Ha as [|e1 s1 H1|e1 s1 w1 e2 l2 s2 H1]; subst.
    + by apply (says_solid _ _ []) in H1 as [_ ?].
    + apply (says_solid _ _ []) in H1 as [_ ?]. by destruct s1.
Qed.
Lemma says_all_core l s : says_all l s -> s = [] \/ (s <> [] /\ head s <> Some 32%N /\ head (List.rev s) <> Some 32%N).
Proof.
  intros H. destruct s as [|b s]; [by left|]. right. split; [done|]. split; [|by apply (proj2 says_last l)].
  destruct l as [|e l]; [by inversion H|]. pose proof (says_all_solid e l _ [] H) as Hs. rewrite app_nil_r in Hs. intros [= ->].
  specialize (Hs 32%N eq_refl). cbv beta in Hs. tauto.
Qed.

(** An expression whose text starts with a parenthesis is a list. *)
Lemma says_open e s rest : says e s -> head (s ++ rest) = Some 40%N -> exists l w t w', e = SList l /\ s = [40%N] ++ w ++ t ++ w' ++ [41%N] /\ space w /\ space w' /\ says_all l t.
Proof.
  intros H Hh. destruct H as [z s Hz|s Hs|b s Hb Hs|s Hs|l w t w' Hw Hw' Hl].
  - by destruct (numeral_heads s z rest Hz).
  - done.
  - injection Hh as ->. unfold letter in Hb. lia.
  - unfold symbols in Hs. cbn [fmap list_fmap] in Hs. rewrite !elem_of_cons in Hs. repeat (destruct Hs as [-> |Hs]; [done|]). by apply elem_of_nil in Hs.
  - exists l, w, t, w'. done.
Qed.
Lemma text_open e text : says_text e text -> head text = Some 40%N ->
  exists l s w', e = SList l /\ text = s ++ w' /\ space w' /\ says (SList l) s.
Proof.
  intros (w & s & w' & -> & Hw & Hw' & He) Hh. destruct Hw as [|b w Hb Hw]; [|injection Hh as ->; lia].
  cbn [app] in Hh. destruct (says_open _ _ _ He Hh) as (l & _ & _ & _ & -> & _). exists l, s, w'. done.
Qed.
Lemma typed_text line e : says_text e (repl_text (line ++ [10%N])) <-> exists l, e = SList l /\ typed l line.
Proof.
  destruct (trim_split line) as (a & a' & Hline & Ha & Ha'). destruct (repl_text_line line) as [[Ho ->] |[Ho ->]].
  - split.
    + intros He. apply text_open in He as (l & s & w' & -> & E & Hw' & Hs); [|by apply opened_head]. exists l. split; [done|].
      rewrite Hline, E. rewrite <- app_assoc. apply typed_list; [done|by apply space_app; split; [|by apply blanks_space]|done].
    + intros (l & -> & HT). destruct HT as [l w s w' Hw Hw' Hs|]; [|done].
      destruct (trim_core w s w') as (w2 & w2' & -> & H2 & H2'); [by apply blanks_space|done| |by exists w2, s, w2'].
      right. pose proof (proj1 says_last _ _ Hs). inversion Hs; subst. done.
  - split.
    + intros He. apply text_open in He as (l & s & w' & -> & E & Hw' & Hs); [|done]. exists l. split; [done|].
      inversion Hs as [| | | |l0 w1 t w1' Hw1 Hw1' Hl]; subst. rewrite <- !app_assoc in E. apply (inj (app [40%N])) in E.
      assert (w' = []) as ->.
      { destruct w' as [|b w'] using rev_ind; [done|]. rewrite !app_assoc in E. apply app_inj_tail in E as [_ <-]. apply space_app in Hw' as [_ Hb]. apply Forall_cons in Hb as [Hb _]. lia. }
      rewrite app_nil_r, !app_assoc in E. apply app_inj_tail in E as [E _]. rewrite <- app_assoc in E.
      assert (line = (a ++ w1) ++ t ++ (w1' ++ a')) as EL. { rewrite Hline, E. by rewrite <- !app_assoc. }
      rewrite EL in Ho |- *. apply typed_bare; [apply space_app; split; [by apply blanks_space|done]|apply space_app; split; [done|by apply blanks_space]|done|done].
    + intros (l & -> & HT). destruct HT as [l w s w' Hw Hw' Hs|l w s w' Hw Hw' Hs _].
      * exfalso. apply Ho. exists w. inversion Hs; subst. eexists. split; [|done]. by rewrite <- !app_assoc.
      * destruct (trim_core w s w') as (w2 & w2' & -> & H2 & H2'); [done|done|by eapply says_all_core|].
        exists [], ([40%N] ++ w2 ++ s ++ w2' ++ [41%N]), []. split; [by rewrite app_nil_r, <- !app_assoc|]. split; [constructor|]. split; [constructor|]. by constructor.
Qed.

(** ** Lines *)
Lemma opens_part a s b : opens s <= opens (a ++ s ++ b).
Proof. rewrite !opens_app. lia. Qed.
Lemma fit_part a s b : numbers_fit (a ++ s ++ b) -> numbers_fit s.
Proof. intros H a' n b' z -> Hn. apply (H (a ++ a') n (b' ++ b) z); [by rewrite <- !app_assoc|done]. Qed.
Lemma numeral_bytes n z : numeral n z -> n <> [] /\ Forall (fun b => b = 45 \/ is_digit b)%N n.
Proof. intros [ds Hn Hd|ds Hn Hd]; (split; [done|]); [|constructor; [by left|]]; (eapply Forall_impl; [exact Hd|]); intros; by right. Qed.
Lemma fit_wrapped s : numbers_fit s -> numbers_fit ([40%N] ++ s ++ [41%N]).
Proof.
  intros H a n b z E Hn. destruct (numeral_bytes _ _ Hn) as [Hne HF]. rewrite Forall_forall in HF.
  destruct a as [|x a]; cbn [app] in E.
  { destruct n as [|y n]; [done|]. injection E as <- _. destruct (HF 40%N ltac:(by left)) as [|HH]; [done|]. unfold is_digit in HH. lia. }
  injection E as _ E. destruct b as [|y b] using rev_ind.
  - rewrite app_nil_r in E. destruct n as [|y n] using rev_ind; [done|]. rewrite app_assoc in E. apply app_inj_tail in E as [_ <-].
    destruct (HF 41%N) as [|HH]; [apply elem_of_app; right; by left|done|]. unfold is_digit in HH. lia.
  - rewrite !app_assoc in E. apply app_inj_tail in E as [E _]. rewrite <- app_assoc in E. by apply (H a n b z).
Qed.
Lemma modest_text line : modest line -> opens (repl_text (line ++ [10%N])) <= 510 /\ numbers_fit (repl_text (line ++ [10%N])).
Proof.
  intros (_ & Ho & Hf). destruct (trim_split line) as (a & a' & E & _). rewrite E in Ho, Hf. pose proof (opens_part a (trim line) a'). apply fit_part in Hf.
  destruct (repl_text_line line) as [[_ ->]|[_ ->]]; [split; [lia|done]|]. split; [|by apply fit_wrapped]. rewrite !opens_app. cbn. lia.
Qed.
Section Lines.
Context {A : arith}.
Variable of_int : Z -> num A.
Variable o : popts.
Hypothesis Ho : po_debug o = false.
Lemma expr_of_sexp e : expr_of of_int (sexp_ast e) = Some (lexp_of of_int e).
Proof.
  induction e as [z|s|s|l IH] using sexp_ind2; [done..|]. cbn [sexp_ast expr_of lexp_of].
  set (exprs := fix exprs (l : list ast) : option (list (lexp A)) :=
    match l with
    | [] => Some []
    | x :: l' => match expr_of of_int x, exprs l' with Some e, Some r => Some (e :: r) | _, _ => None end
    end).
  assert (exprs (sexp_ast <$> l) = Some (lexp_of of_int <$> l)) as ->; [|done].
  induction IH as [|e l He _ IHl]; [done|]. cbn [fmap list_fmap exprs]. fold exprs. by rewrite He, IHl.
Qed.
Lemma line_value m line l : typed l line -> nest (SList l) <= 510 -> all_fit (SList l) = true ->
  exists fuel0, forall fuel, fuel0 <= fuel -> repl_line of_int fuel o m (line ++ [10%N]) = REval (eval fuel m (LList (lexp_of of_int <$> l))).
Proof.
  intros HT Hn Hf. destruct (lisp_reads o Ho (SList l) (repl_text (line ++ [10%N]))) as (f0 & H); [apply typed_text; by exists l|done|done|].
  exists f0. intros fuel Hl. destruct (H fuel Hl) as (s' & E). unfold repl_line. rewrite E. cbv iota beta.
  pose proof (expr_of_sexp (SList l)) as HE. cbn [sexp_ast] in HE |- *. rewrite HE. done.
Qed.
Lemma line_all line : modest line ->
  (exists l, typed l line /\ forall m, exists fuel0, forall fuel, fuel0 <= fuel -> repl_line of_int fuel o m (line ++ [10%N]) = REval (eval fuel m (LList (lexp_of of_int <$> l)))) \/
  ((forall l, ~ typed l line) /\ forall m, exists fuel0, forall fuel, fuel0 <= fuel -> repl_line of_int fuel o m (line ++ [10%N]) = RParseError).
Proof.
  intros Hm. destruct (modest_text line Hm) as [H1 H2]. destruct (lisp_exact o Ho _ H1 H2) as [(e & He & f0 & H)|(HN & f0 & H)].
  - left. apply typed_text in He as (l & -> & HT). exists l. split; [done|]. intros m. exists f0. intros fuel Hl. destruct (H fuel Hl) as (s' & E).
    unfold repl_line. rewrite E. cbv iota beta. pose proof (expr_of_sexp (SList l)) as HE. cbn [sexp_ast] in HE |- *. rewrite HE. done.
  - right. split.
    + intros l HT. apply (HN (SList l)). apply typed_text. by exists l.
    + intros m. exists f0. intros fuel Hl. destruct (H fuel Hl) as (s' & E). unfold repl_line.
      destruct (repl_text (line ++ [10%N])) as [|b t] eqn:ET; [|destruct E as (k & -> & _); done].
      exfalso. destruct (repl_text_line line) as [[Hop HE]|[_ HE]]; rewrite ET in HE; [|done]. apply opened_head in Hop. by rewrite <- HE in Hop.
Qed.
Lemma line_same l l' line : modest line -> typed l line -> typed l' line -> l = l'.
Proof.
  intros Hm H1 H2. destruct (modest_text line Hm) as [_ Hf].
  assert (says_text (SList l) (repl_text (line ++ [10%N]))) as S1 by (apply typed_text; by exists l).
  assert (says_text (SList l') (repl_text (line ++ [10%N]))) as S2 by (apply typed_text; by exists l').
  pose proof (says_unique _ _ _ S1 S2 (text_fit _ _ S1 Hf) (text_fit _ _ S2 Hf)). congruence.
Qed.

(** ** Sessions *)
Lemma upto_none c : upto_newline c = None <-> 10%N ∉ c.
Proof.
  induction c as [|b c IH]; cbn [upto_newline]; [split; [intros _ H; by apply elem_of_nil in H|done]|]. rewrite elem_of_cons. destruct (N.eqb_spec b 10) as [-> |Hb].
  - split; [done|]. intros H. exfalso. apply H. by left.
  - destruct (upto_newline c).
    + split; [done|]. intros H. exfalso. apply H. right. destruct (decide (10%N ∈ c)) as [|Hn]; [done|]. by apply IH in Hn.
    + split; [|done]. intros _ [? | H]; [congruence|]. by apply IH in H.
Qed.
Lemma upto_some c : 10%N ∉ c -> forall r, upto_newline (c ++ 10%N :: r) = Some (c ++ [10%N]).
Proof.
  induction c as [|b c IH]; intros Hc r; cbn [app upto_newline]; [done|]. apply not_elem_of_cons in Hc as [Hb Hc]. destruct (N.eqb_spec b 10); [congruence|].
  by rewrite IH.
Qed.
Lemma read_line cs line reads : 10%N ∉ line -> forall before, concat cs = line ++ [10%N] -> (forall c, c ∈ cs -> c <> []) ->
  read_string before (cs ++ reads) = Some (before ++ line ++ [10%N], reads).
Proof.
  revert line. induction cs as [|c cs IH]; intros line Hl before HE Hc; cbn [concat app read_string] in *; [by destruct line|].
  apply app_eq_inv in HE as [(k & E1 & E2)|(k & E1 & E2)].
  - destruct k as [|b k].
    + rewrite app_nil_r in E1. subst c. cbn [app] in E2. rewrite (proj2 (upto_none line)) by done.
      rewrite (IH [] ltac:(by apply not_elem_of_nil) (before ++ line)); [by rewrite <- !app_assoc|done|intros c' Hc'; apply Hc; by right].
    + injection E2 as <- E2. symmetry in E2. apply app_eq_nil in E2 as [-> E2].
      assert (cs = []) as ->. { destruct cs as [|c' cs]; [done|]. cbn [concat] in E2. apply app_eq_nil in E2 as [-> _]. exfalso. by apply (Hc []); [right; left|]. }
      rewrite E1, upto_some by done. done.
  - rewrite (proj2 (upto_none c)) by (intros H; apply Hl; rewrite E1; apply elem_of_app; by left).
    rewrite (IH k); [by rewrite E1, <- !app_assoc| |done|intros c' Hc'; apply Hc; by right]. intros H. apply Hl. rewrite E1. apply elem_of_app. by right.
Qed.
Lemma session m lines rs reads : replies of_int m lines rs -> Forall modest lines -> reads_of lines reads ->
  exists fuel0, forall n fuel, length lines <= n -> fuel0 <= fuel -> repl of_int n fuel o m reads = rs.
Proof.
  intros HR. revert reads. induction HR as [m|m line l v m' lines rs HT [fe He] HR IH|m line lines rs HN HR IH|m line l lines HT [fe He]]; intros reads Hm Hd.
  - inversion Hd; subst. exists 0. intros [|n] fuel _ _; done.
  - apply Forall_cons in Hm as [Hm Hms]. inversion Hd as [|line0 cs lines0 reads0 Hnl Hcs Hd0 Hne]; subst. destruct (IH reads0 Hms Hd0) as (f1 & H1).
    destruct (line_all line Hm) as [(l' & HT' & H)|[H _]]; [|by destruct (H l)]. rewrite (line_same _ _ _ Hm HT HT') in *. destruct (H m) as (f0 & H0).
    exists (f0 + f1 + fe). intros [|n] fuel Hn Hf; [cbn in Hn; lia|]. cbn [repl]. rewrite (read_line cs line) by done. cbn [app].
    rewrite H0 by lia. rewrite (eval_more fe fuel m _ _ ltac:(lia) He ltac:(done)). cbv iota beta zeta. f_equal. apply H1; [cbn in Hn; lia|lia].
  - apply Forall_cons in Hm as [Hm Hms]. inversion Hd as [|line0 cs lines0 reads0 Hnl Hcs Hd0 Hne]; subst. destruct (IH reads0 Hms Hd0) as (f1 & H1).
    destruct (line_all line Hm) as [(l' & HT' & _)|[_ H]]; [by destruct (HN l')|]. destruct (H m) as (f0 & H0).
    exists (f0 + f1). intros [|n] fuel Hn Hf; [cbn in Hn; lia|]. cbn [repl]. rewrite (read_line cs line) by done. cbn [app].
    rewrite H0 by lia. cbv iota beta zeta. f_equal. apply H1; [cbn in Hn; lia|lia].
  - apply Forall_cons in Hm as [Hm Hms]. inversion Hd as [|line0 cs lines0 reads0 Hnl Hcs Hd0 Hne]; subst.
    destruct (line_all line Hm) as [(l' & HT' & H)|[H _]]; [|by destruct (H l)]. rewrite (line_same _ _ _ Hm HT HT') in *. destruct (H m) as (f0 & H0).
    exists (f0 + fe). intros [|n] fuel Hn Hf; [cbn in Hn; lia|]. cbn [repl]. rewrite (read_line cs line) by done. cbn [app].
    rewrite H0 by lia. rewrite (eval_more fe fuel m _ _ ltac:(lia) He ltac:(done)). done.
Qed.
End Lines.

Lemma both_typed l s : says_all l s -> ~ opened s -> typed l s /\ typed l ([40%N] ++ s ++ [41%N]).
Proof.
  intros Hs Ho. split.
  - replace s with ([] ++ s ++ []) in * by (by rewrite app_nil_r). apply typed_bare; [constructor|constructor|by rewrite app_nil_r in Hs|done].
  - replace ([40%N] ++ s ++ [41%N]) with ([] ++ ([40%N] ++ [] ++ s ++ [] ++ [41%N]) ++ []) by (by rewrite app_nil_r). apply typed_list; [constructor|constructor|].
    constructor; [constructor|constructor|done].
Qed.
Lemma tab_typed l s : says (SList l) s -> typed [SList l] (9%N :: s).
Proof.
  intros Hs. replace (9%N :: s) with ([9%N] ++ s ++ []) by (by rewrite app_nil_r). apply typed_bare; [repeat constructor; tauto|constructor|by constructor|].
  intros (w & rest & E & Hw). destruct Hw as [|b w -> Hw]; done.
Qed.
Lemma line_counts o (Ho : po_debug o = false) line l t : modest line -> typed l line -> LList (lexp_of (A := exact_arith) Some <$> l) = term_lisp t ->
  exists fuel0, forall fuel, fuel0 <= fuel -> repl_line (A := exact_arith) Some fuel o new_machine (line ++ [10%N]) = REval (LOk (qn (term_value t)) new_machine).
Proof.
  intros Hm HT HE. destruct (line_all (A := exact_arith) Some o Ho line Hm) as [(l' & HT' & H)|[H _]]; [|by destruct (H l)].
  rewrite <- (line_same _ _ _ Hm HT HT') in H. destruct (H new_machine) as (f0 & H0).
  destruct (terms_evaluate new_machine t) as (fe & He); [repeat split; done|]. exists (f0 + fe). intros fuel Hf. rewrite H0 by lia. rewrite HE.
  by rewrite (eval_more fe fuel _ _ _ ltac:(lia) He ltac:(done)).
Qed.
Lemma pipe_loses {A : arith} (of_int : Z -> num A) n fuel o (m : machine A) line more : 10%N ∉ line ->
  length (repl of_int n fuel o m [line ++ [10%N] ++ more]) <= 1.
Proof.
  intros Hl. destruct n as [|n]; cbn [repl]; [cbn; lia|]. cbn [read_string app]. rewrite upto_some by done. cbv iota beta zeta.
  assert (forall n m, repl of_int n fuel o m [] = []) as HN by (by intros [|?] ?).
  cbn [length]. destruct (repl_line _ _ _ _ _) as [|[v m'| |]| |]; rewrite ?HN; cbn; lia.
Qed.

(** ** An example *)
Lemma decimal_bound ds : Forall is_digit ds -> (0 <= decimal ds < 10 ^ Z.of_nat (length ds))%Z.
Proof.
  unfold decimal. induction ds as [|b ds IH] using rev_ind; intros H; [cbn; lia|]. apply Forall_app in H as [H Hb]. apply Forall_cons in Hb as [Hb _].
  rewrite fold_left_app, app_length. cbn [fold_left length]. specialize (IH H). unfold is_digit in Hb.
  replace (Z.of_nat (length ds + 1)) with (Z.succ (Z.of_nat (length ds))) by lia. rewrite Z.pow_succ_r by lia. lia.
Qed.
Lemma short_fits s : length s <= 18 -> numbers_fit s.
Proof.
  intros Hs a n b z -> Hn. rewrite !app_length in Hs.
  assert (forall ds, length ds <= 18 -> Forall is_digit ds -> (0 <= decimal ds < 10 ^ 18)%Z) as HB.
  { intros ds Hl Hd. pose proof (decimal_bound ds Hd) as H. pose proof (Z.pow_le_mono_r 10 (Z.of_nat (length ds)) 18 ltac:(lia) ltac:(lia)). lia. }
  unfold fits. apply andb_true_intro. rewrite Z.leb_le, Z.ltb_lt.
  destruct Hn as [ds _ Hd|ds _ Hd]; cbn [length] in Hs; pose proof (HB ds ltac:(lia) Hd); lia.
Qed.
Lemma digit_num b : is_digit b -> says (SNum (Z.of_N b - 48)) [b].
Proof.
  intros H. constructor. replace (Z.of_N b - 48)%Z with (decimal [b]) by (unfold decimal; cbn [fold_left]; lia).
  apply numeral_pos; [done|by apply Forall_cons].
Qed.
Definition a_text : bytes := s2b "+ 1 (* 2 3)".
Definition a_list : list sexp := [SOp (s2b "+"); SNum 1; SList [SOp (s2b "*"); SNum 2; SNum 3]].
Lemma a_text_modest : modest a_text.
Proof.
  split; [|split; [apply Nat.leb_le; by vm_compute|apply short_fits; apply Nat.leb_le; by vm_compute]].
  intros H. cbn in H. rewrite !elem_of_cons in H. repeat (destruct H as [H|H]; [done|]). by apply elem_of_nil in H.
Qed.
Lemma a_text_typed : typed a_list a_text.
Proof.
  assert (space (s2b " ")) as Hb by (repeat constructor).
  assert (says_all a_list a_text) as Hs; [|apply both_typed; [done|intros H%opened_head; by vm_compute in H]].
  apply (says_more _ (s2b "+") (s2b " ")); [apply says_symbol; unfold symbols; cbn; repeat (first [left|right])|done|done|].
  apply (says_more _ (s2b "1") (s2b " ")); [apply (digit_num 49); unfold is_digit; lia|done|done|]. apply says_one.
  apply (says_list _ [] (s2b "* 2 3") []); [constructor|constructor|].
  apply (says_more _ (s2b "*") (s2b " ")); [apply says_symbol; unfold symbols; cbn; repeat (first [left|right])|done|done|].
  apply (says_more _ (s2b "2") (s2b " ")); [apply (digit_num 50); unfold is_digit; lia|done|done|]. apply says_one. apply (digit_num 51). unfold is_digit; lia.
Qed.
Lemma a_line_typed : modest a_text /\ exists l, typed l a_text /\
  LList (lexp_of (A := exact_arith) Some <$> l) = term_lisp (TAdd [TInt 1; TMul [TInt 2; TInt 3]]).
Proof. split; [exact a_text_modest|]. exists a_list. split; [exact a_text_typed|reflexivity]. Qed.
Lemma a_session_replies : exists rs, replies (A := exact_arith) Some new_machine [a_text; a_text] rs /\ length rs = 2 /\
  reads_of [a_text; a_text] [s2b "+ 1"; s2b " (* 2 3)" ++ [10%N]; s2b "+ 1 (* 2 3)" ++ [10%N]].
Proof.
  destruct (terms_evaluate new_machine (TAdd [TInt 1; TMul [TInt 2; TInt 3]])) as (fe & He); [repeat split; done|].
  eexists. split; [|split; [|]].
  - eapply replies_value; [exact a_text_typed|exists fe; exact He|]. eapply replies_value; [exact a_text_typed|exists fe; exact He|]. constructor.
  - done.
  - apply (reads_line a_text [s2b "+ 1"; s2b " (* 2 3)" ++ [10%N]] [a_text] [s2b "+ 1 (* 2 3)" ++ [10%N]]); [apply a_text_modest|done| |].
    + apply (reads_line a_text [s2b "+ 1 (* 2 3)" ++ [10%N]] [] []); [apply a_text_modest|done|constructor|]. intros c Hc. apply elem_of_list_singleton in Hc as ->. done.
    + intros c Hc. rewrite !elem_of_cons in Hc. destruct Hc as [-> |[-> |Hc]]; [done|done|]. by apply elem_of_nil in Hc.
Qed.
