From Verif Require Import Base Helpers HelpersProofs Utf8 Utf8Spec Utf8Proofs Stream StreamSpec StreamProofs Native NativeSpec NativeProofs Engine EngSpec EngInv EngMon
  FinishProofs SimTop PegRun Print Ansi AnsiSpec AnsiProofs ErrMsg ErrMsgSpec.
From stdpp Require Import sets.
Local Open Scope list_scope.

(** ** Plain texts *)
Lemma tame_calm s : tame s -> calm s.
Proof.
  unfold tame. rewrite Forall_forall. intros Hs. split; [|split].
  - intros H. specialize (Hs _ H). lia.
  - intros H. specialize (Hs _ H). lia.
  - intros x y ->. specialize (Hs 194%N ltac:(set_solver)). lia.
Qed.
Lemma tame_app s t : tame s -> tame t -> tame (s ++ t).
Proof. intros. by apply Forall_app. Qed.
Lemma tame_num z : tame (itoa z).
Proof. destruct (number_bytes z) as (b & r & -> & H). eapply Forall_impl; [exact H|]. cbn. lia. Qed.
Lemma painted_tame s t u : tame s -> painted t u -> painted (s ++ t) (s ++ u).
Proof. intros Hs Hp. induction Hs as [|b s Hb Hs IH]; [done|]. cbn [app]. constructor; [lia|lia|lia|done]. Qed.
Definition tame_b (s : bytes) : bool := forallb (fun b => (b <? 128) && negb (b =? 7) && negb (b =? 27))%N%bool s.
Lemma tame_ok s : tame_b s = true -> tame s.
Proof.
  unfold tame_b. rewrite forallb_forall. intros H. apply Forall_forall. intros b Hb. specialize (H b ltac:(by apply elem_of_list_In)).
  rewrite !andb_true_iff, N.ltb_lt, !negb_true_iff, !N.eqb_neq in H. lia.
Qed.
Lemma calm_drop n s : calm s -> calm (drop n s).
Proof.
  intros (H1 & H2 & H3). assert (forall x, x ∈ drop n s -> x ∈ s) as HD by (intros x Hx; rewrite <- (take_drop n s); set_solver).
  split; [set_solver|]. split; [set_solver|]. intros a b E. apply (H3 (take n s ++ a) b). rewrite <- app_assoc, <- E. by rewrite take_drop.
Qed.
Lemma calm_take n s : calm s -> calm (take n s).
Proof.
  intros (H1 & H2 & H3). assert (forall x, x ∈ take n s -> x ∈ s) as HD by (intros x Hx; rewrite <- (take_drop n s); set_solver).
  split; [set_solver|]. split; [set_solver|]. intros a b E. apply (H3 a (b ++ drop n s)). rewrite <- (take_drop n s) at 1. rewrite E. by rewrite <- !app_assoc.
Qed.
Lemma tame_drop n s : tame s -> tame (drop n s).
Proof. apply Forall_drop. Qed.
Lemma tame_take n s : tame s -> tame (take n s).
Proof. apply Forall_take. Qed.
Lemma tame_split s : tame s -> Forall tame (split_lines s).
Proof.
  induction 1 as [|b s Hb Hs IH]; cbn [split_lines].
  { apply List.Forall_cons; [apply List.Forall_nil|apply List.Forall_nil]. }
  destruct (b =? 10)%N; [apply List.Forall_cons; [apply List.Forall_nil|done]|].
  destruct (split_lines s) as [|l ls]; [apply List.Forall_cons; [apply List.Forall_cons; [done|apply List.Forall_nil]|apply List.Forall_nil]|]. apply Forall_cons in IH as [H1 H2]. constructor; [|done]. by constructor.
Qed.
Lemma tame_join ls : Forall tame ls -> tame (join_lines ls).
Proof.
  induction 1 as [|l ls Hl Hls IH]; [constructor|]. destruct ls as [|l' ls]; [done|].
  change (join_lines (l :: l' :: ls)) with (l ++ 10%N :: join_lines (l' :: ls)). apply tame_app; [done|]. constructor; [lia|done].
Qed.
Lemma tame_lines text i j : tame text -> tame (lines_between text i j).
Proof. intros H. apply tame_join, Forall_take, Forall_drop, tame_split, H. Qed.

(** ** The place *)
Lemma slice_before text p : p <= length text -> slice_string text (Z.max 0 (Z.of_nat p - 20)) (Z.of_nat p) = ROk (ending 20 (take p text)).
Proof.
  intros Hp. unfold slice_string, ending. rewrite take_length, Nat.min_l by done.
  destruct (Z.leb_spec (Z.of_nat (length text)) (Z.max 0 (Z.of_nat p - 20))) as [H|H].
  { destruct text; [|cbn [length] in *; lia]. rewrite take_nil, drop_nil. done. }
  destruct (Z.ltb_spec (Z.max 0 (Z.of_nat p - 20)) 0); [lia|]. destruct (Z.ltb_spec (Z.of_nat p) 0); [lia|].
  destruct (Z.leb_spec (Z.of_nat p) (Z.max 0 (Z.of_nat p - 20))).
  { assert (p = 0) as -> by lia. done. }
  destruct (Z.ltb_spec (Z.of_nat (length text)) (Z.of_nat p)); [lia|].
  assert (((Z.max 0 (Z.of_nat p - 20) <? 0) || (Z.of_nat p <? Z.max 0 (Z.of_nat p - 20)) || (Z.of_nat (length text) <? Z.of_nat p))%Z%bool = false) as -> by lia.
  unfold slice. rewrite skipn_firstn_comm. f_equal. replace (Z.to_nat (Z.max 0 (Z.of_nat p - 20))) with (p - 20) by lia. by rewrite Nat2Z.id.
Qed.
Lemma slice_after text p : p <= length text -> slice_string text (Z.of_nat p) (Z.of_nat p + 40) = ROk (take 40 (drop p text)).
Proof.
  intros Hp. unfold slice_string.
  destruct (Z.leb_spec (Z.of_nat (length text)) (Z.of_nat p)) as [H|H].
  { rewrite drop_ge by lia. by rewrite take_nil. }
  destruct (Z.ltb_spec (Z.of_nat p) 0); [lia|]. destruct (Z.ltb_spec (Z.of_nat p + 40) 0); [lia|].
  destruct (Z.leb_spec (Z.of_nat p + 40) (Z.of_nat p)); [lia|].
  destruct (Z.ltb_spec (Z.of_nat (length text)) (Z.of_nat p + 40)).
  - assert (((Z.of_nat p <? 0) || (Z.of_nat (length text) <? Z.of_nat p) || (Z.of_nat (length text) <? Z.of_nat (length text)))%Z%bool = false) as -> by lia.
    unfold slice. rewrite !Nat2Z.id. f_equal. rewrite !take_ge; [done|rewrite drop_length; lia..].
  - assert (((Z.of_nat p <? 0) || (Z.of_nat p + 40 <? Z.of_nat p) || (Z.of_nat (length text) <? Z.of_nat p + 40))%Z%bool = false) as -> by lia.
    unfold slice. f_equal. f_equal; [lia|]. f_equal. lia.
Qed.
Ltac a_mark := vm_compute; set_solver.
Ltac plainly := apply painted_tame; [first [apply tame_num | by apply tame_ok]|].
Ltac marked := apply painted_coloured; [a_mark| |].
Lemma place_painted text p t u : calm text -> p <= length text -> painted t u ->
  exists s, print_at text (Z.of_nat p) = ROk s /\ painted (s ++ t) (place_text text p ++ u).
Proof.
  intros Hc Hp Hu. unfold print_at. rewrite slice_before, slice_after by done. cbn [rbind]. eexists. split; [done|].
  unfold place_text, num_text. rewrite <- !app_assoc.
  plainly. marked; [apply tame_calm, tame_num|]. plainly. marked; [apply tame_calm, tame_num|]. plainly.
  marked; [apply calm_drop, calm_take, Hc|]. marked; [apply tame_calm; by apply tame_ok|]. marked; [apply calm_take, calm_drop, Hc|]. plainly. exact Hu.
Qed.
Lemma place_shown text p : calm text -> p <= length text ->
  exists s, c_print (CRune (rs_with_pos (new_rune_stream text) p)) = ROk s /\ strip_ansi s = place_text text p.
Proof.
  intros Hc Hp. destruct (place_painted text p [] [] Hc Hp painted_nil) as (s & H1 & H2). rewrite !app_nil_r in H2.
  exists s. split; [exact H1|]. by apply strip_painted.
Qed.

(** ** The message *)
Lemma tame_utf8 s : tame s -> utf8s s s.
Proof.
  induction 1 as [|b s [Hb _] Hs IH]; [constructor|]. change (b :: s) with ([b] ++ s) at 2. constructor; [by constructor|done].
Qed.
Lemma not_utf8 rs s : utf8s rs s -> peek_forward s (length s) = s.
Proof.
  intros H. destruct (peek_forward_utf8s rs s (length s) H) as (b & H1 & ->). rewrite take_ge in H1 by (by apply utf8s_length). by eapply utf8s_inj.
Qed.
Lemma peek_tame text p q : tame text -> p <= q <= length text ->
  rs_peek_runes (rs_with_pos (new_rune_stream text) p) (Z.of_nat q - Z.of_nat p) = ROk (part text p q).
Proof.
  intros Ht Hq. change (c_peek_runes (CRune (rs_with_pos (new_rune_stream text) p)) (Z.of_nat q - Z.of_nat p) = ROk (part text p q)).
  rewrite c_peek_runes_eq by (unfold c_wf; cbn; lia). cbn [c_pos c_work rs_with_pos rs_text rs_pos new_rune_stream]. unfold part.
  destruct (Z.leb_spec (Z.of_nat q - Z.of_nat p) 0).
  - assert (q = p) as -> by lia. replace (- (Z.of_nat p - Z.of_nat p))%Z with 0%Z by lia. rewrite Nat.sub_diag. rewrite take_0. unfold last_n_runes. change (last_n_runes_loop (Z.to_nat 0) (take p text) 0) with (ROk 0). cbn [rbind]. rewrite Nat.sub_0_r, drop_all. done.
  - f_equal. replace (Z.to_nat (Z.of_nat q - Z.of_nat p)) with (q - p) by lia.
    destruct (peek_forward_utf8s (drop p text) (drop p text) (q - p)) as (b & H1 & ->); [by apply tame_utf8, tame_drop|].
    eapply utf8s_inj; [exact H1|]. by apply tame_utf8, tame_take, tame_drop.
Qed.
Lemma lines_le text p : newlines (take p text) <= newlines text.
Proof. apply newlines_take_le. Qed.
Lemma message_shown text p succ att : tame text -> p <= succ -> succ <= att -> att <= length text ->
  exists s col, error_message (CRune (rs_with_pos (new_rune_stream text) p)) succ att = ROk s /\ column_of text succ col /\
    strip_ansi s = message_text text p succ att col.
Proof.
  intros Ht H1 H2 H3. unfold error_message. cbn [c_pos_to_line c_pos_to_col c_peek_lines c_peek_runes c_print c_pos].
  change (rs_pos_to_line (rs_with_pos (new_rune_stream text) p)) with (rs_pos_to_line (new_rune_stream text)).
  change (rs_pos_to_col (rs_with_pos (new_rune_stream text) p)) with (rs_pos_to_col (new_rune_stream text)).
  destruct (line_col_prop text succ) as [-> (col & -> & Hcol)]. cbn [rbind]. change (rs_text (rs_with_pos (new_rune_stream text) p)) with text.
  change (rs_pos (rs_with_pos (new_rune_stream text) p)) with p.
  pose proof (lines_le text p) as L1. pose proof (lines_le text att) as L2.
  assert (rs_peek_lines (rs_with_pos (new_rune_stream text) p) [(-2)%Z] = ROk (lines_between text (line_of text p - 2) (line_of text p))) as ->.
  { rewrite (peek_lines_prop text p [(-2)%Z] (-2) 0); [|done|split; [left|repeat (apply List.Forall_cons; [lia|]); apply List.Forall_nil]
      |split; [right; left|repeat (apply List.Forall_cons; [lia|]); apply List.Forall_nil]|lia|lia].
    unfold line_of. f_equal. f_equal; lia. }
  assert (rs_peek_lines (rs_with_pos (new_rune_stream text) att) [2%Z] =
    ROk (lines_between text (line_of text att) (Nat.min (newlines text) (line_of text att + 2)))) as E2.
  { rewrite (peek_lines_prop text att [2%Z] 0 2); [|done|split; [right; left|repeat (apply List.Forall_cons; [lia|]); apply List.Forall_nil]
      |split; [left|repeat (apply List.Forall_cons; [lia|]); apply List.Forall_nil]|lia|lia].
    unfold line_of. f_equal. f_equal; lia. }
  rewrite peek_tame by (done || lia).
  assert (forall a b, b <= length text -> c_set_pos (CRune (rs_with_pos (new_rune_stream text) a)) (Z.of_nat b) = ROk (CRune (rs_with_pos (new_rune_stream text) b))) as HS.
  { intros a b Hb. cbn [c_set_pos]. unfold rs_set_pos. cbn [rs_with_pos new_rune_stream rs_text].
    assert (((Z.of_nat b <? 0) || (Z.of_nat (length text) <? Z.of_nat b))%Z%bool = false) as -> by lia. cbn. by rewrite Nat2Z.id. }
  set (tl_ := white (lines_between text (line_of text att) (Nat.min (newlines text) (line_of text att + 2))) ++ nl).
  set (rest := nl ++ s2b "Details:" ++ nl ++ green (s2b "OK") ++ s2b "/" ++ yellow (s2b "Parsing") ++ s2b "/" ++ red (s2b "Suspect") ++ s2b "/" ++
    white (s2b "Unknown") ++ nl ++ nl ++ green (lines_between text (line_of text p - 2) (line_of text p)) ++ yellow (part text p succ) ++ red (part text succ att) ++ s2b "/" ++ tl_).
  set (said := [10%N] ++ s2b "Details:" ++ [10%N] ++ s2b "OK/Parsing/Suspect/Unknown" ++ [10; 10]%N ++
    lines_between text (line_of text p - 2) (line_of text p) ++ part text p succ ++ part text succ att ++ s2b "/" ++
    lines_between text (line_of text att) (Nat.min (newlines text) (line_of text att + 2)) ++ [10%N]).
  assert (painted rest said) as HR.
  { unfold rest, said, tl_, nl. change (s2b "OK/Parsing/Suspect/Unknown") with (s2b "OK" ++ s2b "/" ++ s2b "Parsing" ++ s2b "/" ++ s2b "Suspect" ++ s2b "/" ++ s2b "Unknown").
    change ([10; 10]%N) with ([10%N] ++ [10%N]). rewrite <- !app_assoc.
    plainly. plainly. plainly. marked; [apply tame_calm; by apply tame_ok|]. plainly. marked; [apply tame_calm; by apply tame_ok|]. plainly.
    marked; [apply tame_calm; by apply tame_ok|]. plainly. marked; [apply tame_calm; by apply tame_ok|]. plainly. plainly.
    marked; [by apply tame_calm, tame_lines|]. marked; [by apply tame_calm, tame_take, tame_drop|]. marked; [by apply tame_calm, tame_take, tame_drop|]. plainly.
    marked; [by apply tame_calm, tame_lines|]. rewrite <- (app_nil_r [10%N]). plainly. constructor. }
  destruct (place_painted text p rest said (tame_calm _ Ht) ltac:(lia) HR) as (s & -> & Hs). cbn [rbind].
  rewrite (HS p succ) by lia. cbn [rbind c_peek_runes c_pos]. change (rs_pos (rs_with_pos (new_rune_stream text) succ)) with succ.
  rewrite peek_tame by (done || lia). cbn [rbind]. rewrite (HS succ att) by lia. cbn [rbind c_peek_lines]. rewrite E2. cbn [rbind].
  eexists _, col. split; [done|]. split; [done|]. apply strip_painted. unfold message_text, num_text. fold (line_of text succ).
  do 8 plainly. exact Hs.
Qed.

(** ** A whole parse *)
Lemma peel (x y z : bytes) : (exists b, y = b ++ z) -> exists b, x ++ y = b ++ z.
Proof. intros [b ->]. exists (x ++ b). by rewrite <- app_assoc. Qed.
Section Whole.
Variables (g : gram) (o : popts) (rx : bytes -> bytes -> option (nat * nat)) (cb : nat -> nat -> heap -> ast -> cbres).
Notation E := (mk_env g o rx cb).
Hypothesis Hrx : forall re, rx_ok (rx re).
Hypothesis Hfit : ids_fit E (g_rank g).
Hypothesis Htop : top_ok (g_rank g).
Lemma message_of_parse text fuel r s : tame text -> parse E fuel (g_rank g) (init_st (CRune (new_rune_stream text)) (g_nrules g)) = Ok r s ->
  st_pos s <> length text ->
  exists succ att col m s', fst (parse_string fuel g o rx cb text) = Ok (Some (AErr succ)) s' /\ st_pos s' = att /\
    parse_message fuel g o rx cb (CRune (new_rune_stream text)) = Some (ROk m) /\
    st_pos s <= succ /\ succ <= att /\ att <= length text /\ column_of text succ col /\ strip_ansi m = message_text text (st_pos s) succ att col.
Proof.
  intros Ht HP Hn. set (c := CRune (new_rune_stream text)) in *.
  assert (code_ok c) as Hc by done. assert (c_pos c <= length (c_work c)) as Hp by (cbn; lia).
  destruct (mon_eq E (g_rank g) c Hrx Hc Hp Hfit Htop (fun _ _ => false) (fun _ _ => true) (fun _ _ _ _ => true) fuel) as [_ HT]; [done..|].
  unfold tr in HT. change (e_nrules E) with (g_nrules g) in HT. rewrite HP in HT. destruct HT as ((HG & _) & _).
  destruct (finish_ok (fun _ _ => false) (g_nrules g) c Hc r s HG) as [_ HF]. destruct (HF Hn) as (succ & s' & HF1 & HF2 & HF3).
  pose proof (gi_code _ _ _ _ HG) as HC. assert (c_work (s_code s) = text) as HW by (by rewrite HC).
  destruct (finish_inv r s _ _ HF1) as (HI1 & _ & _ & HI2); [by rewrite HW|]. injection HI1 as HI1.
  destruct (message_shown text (st_pos s) succ (st_pos s') Ht) as (m & col & Hm & Hcol & Hs); [lia|lia|exact HF3|].
  exists succ, (st_pos s'), col, m, s'. split; [unfold parse_string, gram_parse; fold c; rewrite HP; exact HF1|]. split; [done|]. split; [|repeat split; (done || lia)].
  unfold parse_message. rewrite HP. unfold state_message. change (c_pos (s_code s)) with (st_pos s). unfold c_work_length. rewrite HW.
  rewrite (proj2 (Nat.eqb_neq _ _) Hn). destruct (scan_rows _ _ _ _ _) as [att succ'] eqn:ES. cbn [fst snd] in HI1, HI2. subst att succ'.
  rewrite HC at 1. f_equal. exact Hm.
Qed.
Lemma message_repeats text fuel r s : tame text -> newlines text = 0 ->
  parse E fuel (g_rank g) (init_st (CRune (new_rune_stream text)) (g_nrules g)) = Ok r s -> st_pos s <> length text ->
  exists k att m s' before, fst (parse_string fuel g o rx cb text) = Ok (Some (AErr k)) s' /\ st_pos s <= k <= att /\ att <= length text /\ st_pos s' = att /\
    parse_message fuel g o rx cb (CRune (new_rune_stream text)) = Some (ROk m) /\
    strip_ansi m = before ++ text ++ part text (st_pos s) att ++ s2b "/" ++ text ++ [10%N].
Proof.
  intros H1 H2 H3 H4. destruct (message_of_parse text fuel r s H1 H3 H4) as (k & att & col & m & s' & A1 & A2 & A3 & A4 & A5 & A6 & _ & A7).
  assert (lines_between text 0 0 = text) as HL.
  { unfold lines_between. assert (split_lines text = [text]) as ->; [|done].
    clear -H2. induction text as [|b text IH]; [done|]. cbn [split_lines]. unfold newlines in *. rewrite filter_cons in H2.
    destruct (decide (b = 10%N)) as [Hb|Hb]; [done|]. rewrite (proj2 (N.eqb_neq b 10) Hb). by rewrite IH. }
  assert (forall q, line_of text q = 0) as HZ by (intros q; pose proof (lines_le text q); unfold line_of; lia).
  unfold message_text in A7. rewrite !HZ, H2 in A7. cbn [Nat.sub Nat.add Nat.min] in A7. rewrite HL in A7.
  assert (part text (st_pos s) k ++ part text k att = part text (st_pos s) att) as HP.
  { unfold part. pose proof (take_take_drop (drop (st_pos s) text) (k - st_pos s) (att - k)) as HT. rewrite drop_drop in HT.
    replace (st_pos s + (k - st_pos s)) with k in HT by lia. by replace (k - st_pos s + (att - k)) with (att - st_pos s) in HT by lia. }
  assert (exists before, strip_ansi m = before ++ text ++ part text (st_pos s) att ++ s2b "/" ++ text ++ [10%N]) as [before HB].
  { rewrite A7, <- HP, <- !app_assoc. do 14 apply peel. by exists []. }
  exists k, att, m, s', before. repeat (split; [done || lia|]). exact HB.
Qed.
End Whole.
