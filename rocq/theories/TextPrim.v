(** What the rules of the joeson grammar parse, one rule at a time. *)
From Verif Require Import Base Helpers Utf8 Utf8Spec Utf8Proofs Stream StreamSpec Native NativeSpec NativeProofs Engine EngSpec EngInv Peg PegProofs PegRep PegBody PegStd PegStdProofs
  Build BuildMain Joeson JoesonSpec JoesonRun Erase JoesonMark Gives TextSpec TextNodes.

(** ** What may follow *)
Definition hd_in (l : list N) (s : bytes) : Prop := match head s with None => True | Some b => b ∈ l end.
Definition no_arrow (s : bytes) : Prop := exists w r, s = w ++ r /\ gap w /\ nb r /\ head r <> Some 45%N.
Definition f_prim (s : bytes) : Prop := no_arrow s /\ hd_in [32; 10; 41; 124; 63; 42; 43; 123]%N s.
Definition f_join (s : bytes) : Prop := no_arrow s /\ hd_in [32; 10; 41; 124; 123]%N s.
Definition f_unit (s : bytes) : Prop := no_arrow s /\ hd_in [32; 10; 41; 124]%N s.
Definition f_sequ (s : bytes) : Prop := exists w r, s = w ++ r /\ gap w /\ hd_in [41; 124]%N r.
Definition f_alter (s : bytes) : Prop := exists w r, s = w ++ r /\ gap w /\ hd_in [41]%N r.
Definition f_expr (s : bytes) : Prop := hd_in [41]%N s.

Lemma hd_in_sub l l' s : hd_in l s -> (forall b, b ∈ l -> b ∈ l') -> hd_in l' s.
Proof. unfold hd_in. destruct (head s); auto. Qed.
Ltac mem H := repeat (apply elem_of_cons in H as [->|H]); [..|by apply elem_of_nil in H].
Ltac pick := repeat first [by apply elem_of_list_here | apply elem_of_list_further].
Ltac sub := let b := fresh in let H := fresh in intros b H; mem H; pick.
Lemma hd_not l b s : hd_in l s -> b ∉ l -> head s <> Some b.
Proof. unfold hd_in. intros H Hb E. rewrite E in H. done. Qed.
Lemma f_join_prim s : f_join s -> f_prim s.
Proof. intros [H1 H2]. split; [done|]. eapply hd_in_sub; [done|]. sub. Qed.
Lemma f_unit_join s : f_unit s -> f_join s.
Proof. intros [H1 H2]. split; [done|]. eapply hd_in_sub; [done|]. sub. Qed.
Lemma hd_nb l s : hd_in l s -> (32%N ∉ l) -> (10%N ∉ l) -> nb s.
Proof. intros H H1 H2. split; by eapply hd_not. Qed.
Ltac notin := let H := fresh in intros H; repeat (apply elem_of_cons in H as [?H|H]; [discriminate|]); by apply elem_of_nil in H.
Lemma f_sequ_unit s : f_sequ s -> f_unit s.
Proof.
  intros (w & r & -> & Hw & Hr). split.
  - exists w, r. split; [done|]. split; [done|]. split; [eapply hd_nb; [exact Hr|notin|notin]|]. eapply hd_not; [exact Hr|notin].
  - destruct Hw as [|b w [-> | ->] Hw]; [eapply hd_in_sub; [exact Hr|sub]|cbn; pick..].
Qed.
Lemma f_alter_sequ s : f_alter s -> f_sequ s.
Proof. intros (w & r & -> & Hw & Hr). exists w, r. split; [done|]. split; [done|]. eapply hd_in_sub; [exact Hr|sub]. Qed.
Lemma f_expr_alter w s : gap w -> f_expr s -> f_alter (w ++ s).
Proof. intros Hw Hs. by exists w, s. Qed.
Lemma gap_f_unit w r : gap w -> w <> [] -> nb r -> head r <> Some 45%N -> f_unit (w ++ r).
Proof.
  intros Hw Hw0 Hr Hr'. split; [by exists w, r|]. destruct Hw as [|b w [-> | ->] Hw]; [done|cbn; pick..].
Qed.
Lemma pipe_f_sequ w r : gap w -> f_sequ (w ++ 124%N :: r).
Proof. intros Hw. exists w, (124%N :: r). split; [done|]. split; [done|]. cbn. pick. Qed.
Lemma op_f_prim b s : b ∈ [63; 42; 43; 123]%N -> f_prim (b :: s).
Proof.
  intros Hb. split; [|cbn; mem Hb; pick]. exists [], (b :: s). split; [done|]. split; [constructor|]. unfold nb. cbn. mem Hb; done.
Qed.
Lemma brace_f_join s : f_join (123%N :: s).
Proof. split; [|cbn; pick]. exists [], (123%N :: s). split; [done|]. split; [constructor|]. done. Qed.
Lemma f_prim_no_alnum s : f_prim s -> no_alnum s.
Proof. intros [_ H]. unfold hd_in, no_alnum in *. destruct (head s) as [b|]; [|done]. by mem H. Qed.

(** Words that are not followed by certain texts. *)
Definition no_label (t : bytes) : Prop :=
  (no_letter t /\ head t <> Some 38%N /\ head t <> Some 64%N) \/
  exists nm r, name nm /\ t = s2b nm ++ r /\ no_alnum r /\ head r <> Some 58%N.
Definition no_inline (t : bytes) : Prop :=
  no_letter t \/ exists nm r, name nm /\ t = s2b nm ++ r /\ no_alnum r /\ take 2 r <> [58; 32]%N.
Lemma no_label_inline t : no_label t -> no_inline t.
Proof.
  intros [(H & _)|(nm & r & H1 & H2 & H3 & H4)]; [by left|]. right. exists nm, r. split; [done|]. split; [done|]. split; [done|].
  destruct r as [|c [|c' r]]; [done|done|]. cbn in *. congruence.
Qed.
Definition no_prim (t : bytes) : Prop :=
  no_letter t /\ head t <> Some 40%N /\ head t <> Some 39%N /\ head t <> Some 47%N /\ head t <> Some 91%N.
Definition no_unit (t : bytes) : Prop := no_prim t /\ head t <> Some 33%N /\ head t <> Some 63%N /\ head t <> Some 38%N /\ head t <> Some 64%N.
Lemma hd_no_unit l t : hd_in l t -> Forall (fun b => alpha_b b = false /\ b ∉ [40; 39; 47; 91; 33; 63; 38; 64]%N) l -> no_unit t.
Proof.
  unfold hd_in, no_unit, no_prim, no_letter. intros H HF. destruct (head t) as [b|]; [|by repeat split].
  rewrite Forall_forall in HF. destruct (HF b H) as [H1 H2]. repeat split; try done; intros [= ->]; apply H2; pick.
Qed.
Ltac nounit := repeat constructor; try notin.

Lemma digits_nonneg s : Forall (fun d => 48 <= d <= 57)%N s -> (0 <= digits_value s)%Z.
Proof.
  unfold digits_value. assert (forall acc, (0 <= acc)%Z -> Forall (fun d => 48 <= d <= 57)%N s -> (0 <= foldl (fun acc d => acc * 10 + (Z.of_N d - 48)) acc s)%Z) as H; [|by apply H].
  induction s as [|b s IH]; intros acc Ha Hs; [done|]. apply Forall_cons in Hs as [Hb Hs]. cbn. apply IH; [lia|done].
Qed.
Section Text.
Variable re_ok : bytes -> bool.
Variable mk : nat -> nat -> option string.
Variable text : bytes.
Notation G := (gives jrules joeson_rx (jcbf re_ok mk) text).
Notation D := (does jrules joeson_rx (jcbf re_ok mk) text).
Notation L := (loops jrules joeson_rx (jcbf re_ok mk) text).
Notation singles := (Gives.singles jrules joeson_rx (jcbf re_ok mk) text).
Notation objects := (Gives.objects jrules joeson_rx (jcbf re_ok mk) text).
Notation at_ := (Gives.at_ text).

Lemma loops_pat d lb cap wr v p l e : lb = EmptyString \/ wr = false -> L d v None (-1) [] p l e -> G d (an lb cap wr (KPat v None (-1) (-1))) p (Some (VArr l, e)).
Proof.
  intros Hl [f0 H]. apply g_an; [done|done|]. exists f0. intros f Hf. pose proof (H f (S f) Hf ltac:(lia)) as H1. cbn [std_loop] in H1.
  unfold std_body. cbn [n_kind an]. destruct (std jrules joeson_rx (jcbf re_ok mk) text f d v p) as [[[a q]|]|]; [|by injection H1 as <- <-|done].
  change (enough (-1) (S (length []))) with false in H1. cbv iota in H1. cbn [app] in H1. rewrite H1. done.
Qed.

(** ** Strings and regular expressions *)
Lemma quoted_loops d s t : quoted s t -> forall rest acc p, at_ p (t ++ 39%N :: rest) ->
  exists l, v_strings l = Some s /\ L d (j_ch 39 "ESC1") None (-1) acc p (acc ++ l) (p + length t).
Proof.
  induction 1 as [|r b s t Hu H1 H2 Hq IH|r b s t Hu Hq IH]; intros rest acc p Hp.
  - exists []. split; [done|]. rewrite app_nil_r, Nat.add_0_r. apply loops_end. by eapply g_ch_stop.
  - rewrite <- app_assoc in Hp. destruct (IH rest (acc ++ [VStr b]) (p + length b)) as (l & Hs & Hl); [by apply at_app in Hp|].
    exists (VStr b :: l). cbn [v_strings]. rewrite Hs. split; [done|]. rewrite app_length, Nat.add_assoc. rewrite <- app_assoc in Hl.
    eapply loops_more; [|done|exact Hl]. eapply g_ch_plain; [apply rule_ESC1|by left|lia|done|done|done|exact Hp].
  - rewrite <- app_assoc in Hp. destruct (IH rest (acc ++ [VStr b]) (p + S (length b))) as (l & Hs & Hl); [by apply at_app in Hp|].
    exists (VStr b :: l). cbn [v_strings]. rewrite Hs. split; [done|]. rewrite app_length, Nat.add_assoc. rewrite <- app_assoc in Hl.
    eapply loops_more; [|done|exact Hl]. eapply (g_ch_esc re_ok mk text d 39 "ESC1" j_ESC1); [apply rule_ESC1|by left|done|done|exact Hp].
Qed.
Lemma before_loops d stop t : before stop t -> (stop < 92)%N \/ (stop = 93)%N -> forall rest acc p, at_ p (t ++ stop :: rest) ->
  exists l, v_strings l = Some t /\ L d (j_ch stop "ESC2") None (-1) acc p (acc ++ l) (p + length t).
Proof.
  intros H Hst. induction H as [|r b t Hu H1 H2 Hq IH|r b t Hu Hq IH]; intros rest acc p Hp.
  - exists []. split; [done|]. rewrite app_nil_r, Nat.add_0_r. apply loops_end. by eapply g_ch_stop.
  - rewrite <- app_assoc in Hp. destruct (IH rest (acc ++ [VStr b]) (p + length b)) as (l & Hs & Hl); [by apply at_app in Hp|].
    exists (VStr b :: l). cbn [v_strings]. rewrite Hs. split; [done|]. rewrite app_length, Nat.add_assoc. rewrite <- app_assoc in Hl.
    eapply loops_more; [|done|exact Hl]. eapply g_ch_plain; [apply rule_ESC2|by right|lia|done|done|done|exact Hp].
  - rewrite <- app_assoc in Hp. destruct (IH rest (acc ++ [VStr (92 :: b)%N]) (p + S (length b))) as (l & Hs & Hl); [by apply at_app in Hp|].
    exists (VStr (92 :: b)%N :: l). cbn [v_strings]. rewrite Hs. split; [done|]. rewrite app_length, Nat.add_assoc. rewrite <- app_assoc in Hl.
    eapply loops_more; [|done|exact Hl]. eapply (g_ch_esc re_ok mk text d stop "ESC2" j_ESC2); [apply rule_ESC2|by right|lia|done|exact Hp].
Qed.

(** ** PRIMARY *)
Lemma word_ref d lb cap wr nm rest p : lb = EmptyString \/ wr = false -> name nm -> no_alnum rest -> at_ p (s2b nm ++ rest) ->
  G d (an lb cap wr (KRef "WORD")) p (Some (VStr (s2b nm), p + length (s2b nm))).
Proof. intros Hl Hn Hr Hp. eapply g_ref; [done|apply rule_WORD|]. by eapply g_word. Qed.
Lemma word_ref_no d lb cap wr rest p : lb = EmptyString \/ wr = false -> no_letter rest -> at_ p rest -> G d (an lb cap wr (KRef "WORD")) p None.
Proof. intros Hl Hr Hp. eapply g_ref; [done|apply rule_WORD|]. by eapply g_word_no. Qed.
Lemma P0_no d rest p : no_letter rest -> at_ p rest -> G (S d) j_P0 p None.
Proof. intros Hr Hp. apply g_ru_no; [done|]. eapply does_array; [done|]. apply arrays_fail. eapply word_ref_no; [by left|done|exact Hp]. Qed.
Lemma P1_no d rest p : no_letter rest -> at_ p rest -> G (S d) j_P1 p None.
Proof. intros Hr Hp. apply g_ru_no; [done|]. eapply does_ref; [done|apply rule_WORD|]. by eapply g_word_no. Qed.
Lemma P2_no d rest p : head rest <> Some 40%N -> at_ p rest -> G (S d) j_P2 p None.
Proof. intros Hr Hp. apply g_ru_no; [done|]. eapply does_object; [done|]. apply objects_fail. eapply g_lit_no; [by left|exact Hp|done]. Qed.
Lemma P3_no d rest p : head rest <> Some 39%N -> at_ p rest -> G (S d) j_P3 p None.
Proof. intros Hr Hp. apply g_ru_no; [done|]. eapply does_single; [done|]. apply singles_fail. eapply g_lit_no; [by left|exact Hp|done]. Qed.
Lemma P4_no d rest p : head rest <> Some 47%N -> at_ p rest -> G (S d) j_P4 p None.
Proof. intros Hr Hp. apply g_ru_no; [done|]. eapply does_single; [done|]. apply singles_fail. eapply g_lit_no; [by left|exact Hp|done]. Qed.
Lemma P5_no d rest p : head rest <> Some 91%N -> at_ p rest -> G (S d) j_P5 p None.
Proof. intros Hr Hp. apply g_ru_no; [done|]. eapply does_single; [done|]. apply singles_fail. eapply g_lit_no; [by left|exact Hp|done]. Qed.
Lemma prim_no d rest p : no_prim rest -> at_ p rest -> G (S (S d)) j_PRIM p None.
Proof.
  intros (H1 & H2 & H3 & H4 & H5) Hp. apply g_ru; [done|]. eapply does_choice; [done|].
  apply alts_next; [eapply P0_no; [|exact Hp]; done|]. apply alts_next; [eapply P1_no; [|exact Hp]; done|]. apply alts_next; [eapply P2_no; [|exact Hp]; done|].
  apply alts_next; [eapply P3_no; [|exact Hp]; done|]. apply alts_next; [eapply P4_no; [|exact Hp]; done|]. apply alts_next; [eapply P5_no; [|exact Hp]; done|]. apply alts_nil.
Qed.
Definition made_at (c e : nat) (t : string) (args : list val) : val := VParser (mark_tag (mk c e) t) args "".
Lemma prim_name d nm rest p : name nm -> f_prim rest -> at_ p (s2b nm ++ rest) ->
  G (S (S d)) j_PRIM p (Some (made_at 7 (p + length (s2b nm)) t_ref [VStr (s2b nm)], p + length (s2b nm))).
Proof.
  intros Hn Hr Hp. pose proof (f_prim_no_alnum _ Hr) as Ha. apply g_ru; [done|]. eapply does_choice; [done|]. apply alts_next.
  - apply g_ru_no; [done|]. eapply does_array; [done|]. eapply arrays_cons; [eapply word_ref; [by left|done|exact Ha|exact Hp]|].
    apply arrays_fail. eapply g_lit_no; [by left|by apply at_app in Hp|]. destruct Hr as [_ Hr]. eapply hd_not; [exact Hr|notin].
  - apply alts_take. eapply g_ru_cb; [done| |].
    + eapply does_ref; [done|apply rule_WORD|]. by eapply g_word.
    + unfold jcbf. cbn [jval]. unfold made_at. destruct (name_split nm Hn) as (b & r & -> & _). done.
Qed.
Lemma prim_string d s t rest p : quoted s t -> at_ p (([39] ++ t ++ [39])%N ++ rest) ->
  G (S (S d)) j_PRIM p (Some (made_at 9 (p + length ([39] ++ t ++ [39])%N) t_str [VStr s], p + length ([39] ++ t ++ [39])%N)).
Proof.
  intros Hq Hp. apply g_ru; [done|]. eapply does_choice; [done|].
  apply alts_next; [eapply P0_no; [|exact Hp]; done|]. apply alts_next; [eapply P1_no; [|exact Hp]; done|]. apply alts_next; [eapply P2_no; [|exact Hp]; done|]. apply alts_take.
  cbn [app] in Hp. rewrite <- app_assoc in Hp. cbn [app] in Hp. pose proof (at_cons _ _ _ _ Hp) as Hp1.
  destruct (quoted_loops d s t Hq rest [] (S p) Hp1) as (l & Hs & Hl). pose proof (at_app _ _ _ _ Hp1) as Hp2.
  replace (p + length ([39] ++ t ++ [39])%N) with (S (S p + length t)) by (cbn; rewrite app_length; cbn; lia).
  eapply g_ru_cb; [done| |].
  - eapply does_single; [done|]. eapply singles_cons; [eapply g_lit1; [by left|exact Hp]|]. cbn [i_capture n_info an lt].
    eapply singles_cons; [eapply loops_pat; [by left|exact Hl]|]. cbn [i_capture n_info an lt j_chs].
    eapply singles_cons; [eapply g_lit1; [by left|exact Hp2]|]. cbn [i_capture n_info an lt]. apply singles_nil.
  - unfold jcbf. cbn [jval app default v_cat id]. by rewrite Hs.
Qed.
Lemma prim_regex d t rest p : before 47 t -> re_ok t = true -> at_ p (([47] ++ t ++ [47])%N ++ rest) ->
  G (S (S d)) j_PRIM p (Some (made_at 10 (p + length ([47] ++ t ++ [47])%N) t_regex [VStr t], p + length ([47] ++ t ++ [47])%N)).
Proof.
  intros Hq Hre Hp. apply g_ru; [done|]. eapply does_choice; [done|].
  apply alts_next; [eapply P0_no; [|exact Hp]; done|]. apply alts_next; [eapply P1_no; [|exact Hp]; done|]. apply alts_next; [eapply P2_no; [|exact Hp]; done|]. apply alts_next; [eapply P3_no; [|exact Hp]; done|].
  apply alts_take. cbn [app] in Hp. rewrite <- app_assoc in Hp. cbn [app] in Hp. pose proof (at_cons _ _ _ _ Hp) as Hp1.
  destruct (before_loops d 47 t Hq ltac:(by left) rest [] (S p) Hp1) as (l & Hs & Hl). pose proof (at_app _ _ _ _ Hp1) as Hp2.
  replace (p + length ([47] ++ t ++ [47])%N) with (S (S p + length t)) by (cbn; rewrite app_length; cbn; lia).
  eapply g_ru_cb; [done| |].
  - eapply does_single; [done|]. eapply singles_cons; [eapply g_lit1; [by left|exact Hp]|]. cbn [i_capture n_info an lt].
    eapply singles_cons; [eapply loops_pat; [by left|exact Hl]|]. cbn [i_capture n_info an lt j_chs].
    eapply singles_cons; [eapply g_lit1; [by left|exact Hp2]|]. cbn [i_capture n_info an lt]. apply singles_nil.
  - unfold jcbf. cbn [jval app default id]. unfold jv_regex. cbn [v_cat app]. rewrite Hs, app_nil_r, Hre. done.
Qed.
Lemma prim_class d t rest p : before 93 t -> re_ok ([91] ++ t ++ [93])%N = true -> at_ p (([91] ++ t ++ [93])%N ++ rest) ->
  G (S (S d)) j_PRIM p (Some (made_at 11 (p + length ([91] ++ t ++ [93])%N) t_regex [VStr ([91] ++ t ++ [93])%N], p + length ([91] ++ t ++ [93])%N)).
Proof.
  intros Hq Hre Hp. apply g_ru; [done|]. eapply does_choice; [done|].
  apply alts_next; [eapply P0_no; [|exact Hp]; done|]. apply alts_next; [eapply P1_no; [|exact Hp]; done|]. apply alts_next; [eapply P2_no; [|exact Hp]; done|]. apply alts_next; [eapply P3_no; [|exact Hp]; done|].
  apply alts_next; [eapply P4_no; [|exact Hp]; done|]. apply alts_take. cbn [app] in Hp. rewrite <- app_assoc in Hp. cbn [app] in Hp. pose proof (at_cons _ _ _ _ Hp) as Hp1.
  destruct (before_loops d 93 t Hq ltac:(by right) rest [] (S p) Hp1) as (l & Hs & Hl). pose proof (at_app _ _ _ _ Hp1) as Hp2.
  replace (p + length ([91] ++ t ++ [93])%N) with (S (S p + length t)) by (cbn; rewrite app_length; cbn; lia).
  eapply g_ru_cb; [done| |].
  - eapply does_single; [done|]. eapply singles_cons; [eapply g_lit1; [by left|exact Hp]|]. cbn [i_capture n_info an lt].
    eapply singles_cons; [eapply loops_pat; [by left|exact Hl]|]. cbn [i_capture n_info an lt j_chs].
    eapply singles_cons; [eapply g_lit1; [by left|exact Hp2]|]. cbn [i_capture n_info an lt]. apply singles_nil.
  - unfold jcbf. cbn [jval default id]. unfold jv_regex. cbn [v_cat app]. rewrite Hs. change (s2b "[") with [91%N]. change (s2b "]") with [93%N]. by rewrite Hre.
Qed.

(** ** Parentheses *)
Lemma lit_other p s rest : at_ p rest -> take (length s) rest <> s -> lit text s p = None.
Proof. unfold Gives.at_, lit. intros -> H. by rewrite bool_decide_false. Qed.
Lemma inline_no d t p : no_inline t -> at_ p t -> G d j_inl p (Some (VUndef, p)).
Proof.
  intros Ht Hp. apply g_an; [done|by right|]. eapply does_exist_none; [done|]. apply g_an; [done|by left|]. eapply does_single; [done|].
  destruct Ht as [Ht|(nm & r & Hn & -> & Hr & Hc)].
  - apply singles_fail. eapply word_ref_no; [by left|done|exact Hp].
  - eapply singles_cons; [eapply word_ref; [by left|done|exact Hr|exact Hp]|]. apply singles_fail. apply g_an; [done|by left|]. eapply does_lit; [done|].
    eapply lit_other; [by apply at_app in Hp|]. exact Hc.
Qed.
Lemma arrow_no d t p : no_arrow t -> at_ p t -> G d j_arrow p (Some (VUndef, p)).
Proof.
  intros (w & r & -> & Hw & Hr & Hh) Hp. apply g_an; [done|by right|]. eapply does_exist_none; [done|]. apply g_an; [done|by left|]. eapply does_object; [done|].
  destruct (g_gap re_ok mk text d w r p Hw Hr Hp) as [v Hv]. eapply objects_cons; [exact Hv|reflexivity|]. apply objects_fail.
  eapply g_lit_no; [by left|by apply at_app in Hp|done].
Qed.
Lemma prim_paren d p q v t rest : at_ p (40%N :: t) -> no_inline t -> G d j_EXPR (S p) (Some (v, q)) -> at_ q (41%N :: rest) -> no_arrow rest ->
  G (S (S d)) j_PRIM p (Some (v, S q)).
Proof.
  intros Hp Ht HE Hq Hr. apply g_ru; [done|]. eapply does_choice; [done|].
  apply alts_next; [eapply P0_no; [|exact Hp]; done|]. apply alts_next; [eapply P1_no; [|exact Hp]; done|]. apply alts_take.
  pose proof (at_cons _ _ _ _ Hp) as Hp1. eapply g_ru_cb; [done| |].
  - eapply does_object; [done|].
    eapply objects_cons; [eapply g_lit1; [by left|exact Hp]|reflexivity|].
    eapply objects_cons; [by eapply inline_no|reflexivity|].
    eapply objects_cons; [eapply g_ref; [by right|apply rule_EXPR|exact HE]|reflexivity|].
    eapply objects_cons; [eapply g_lit1; [by left|exact Hq]|reflexivity|].
    eapply objects_cons; [eapply arrow_no; [exact Hr|by apply at_cons in Hq]|reflexivity|]. apply objects_nil.
  - reflexivity.
Qed.

(** ** RANGE *)
Lemma bound_part d k z a w1 w2 c rest p : k <> EmptyString -> bound_text z a -> gap w1 -> gap w2 -> c ∈ [44; 125]%N -> at_ p (w1 ++ a ++ w2 ++ c :: rest) ->
  exists q v q' x y, G d (rc "_") p (Some (x, q)) /\ G d (j_int k) q (Some (v, q')) /\ G d (rc "_") q' (Some (y, p + length (w1 ++ a ++ w2))) /\
    v_bound (Some v) = Some z.
Proof.
  intros Hk Hb Hw1 Hw2 Hc Hp.
  assert (nb (c :: rest) /\ digit_b c = false) as [Hnb Hdc] by (unfold nb; cbn; by mem Hc).
  destruct Hb as [|a [Ha Hd] Hz].
  - cbn [app] in Hp. rewrite app_assoc in Hp. assert (gap (w1 ++ w2)) as Hw by (by apply Forall_app).
    destruct (g_gap re_ok mk text d _ _ p Hw Hnb Hp) as [x Hx]. apply at_app in Hp.
    destruct (g_gap0 re_ok mk text d _ _ Hnb Hp) as [y Hy]. cbn [app]. eexists _, VUndef, _, x, y. split; [exact Hx|]. split; [|split; [exact Hy|done]].
    apply g_an; [done|by right|]. eapply does_exist_none; [done|]. eapply g_ref; [by left|apply rule_INT|]. eapply g_int_no; [|exact Hp]. done.
  - assert (atoi a = Some (digits_value a)) as Hz'.
    { apply atoi_spec. split; [by constructor|]. pose proof (digits_nonneg a Hd). lia. }
    assert (nb (a ++ w2 ++ c :: rest)) as Hnb1.
    { destruct Hd as [|b a Hb Hd]; [done|]. unfold nb, digit in *. cbn. split; intros [= ->]; lia. }
    destruct (g_gap re_ok mk text d _ _ p Hw1 Hnb1 Hp) as [x Hx]. apply at_app in Hp.
    assert (match head (w2 ++ c :: rest) with Some b => digit_b b = false | None => True end) as Hnd.
    { destruct Hw2 as [|b w2 [-> | ->] Hw2]; done. }
    pose proof (g_int re_ok mk text d a _ _ _ Ha Hd Hz' Hnd Hp) as HI. apply at_app in Hp.
    destruct (g_gap re_ok mk text d _ _ _ Hw2 Hnb Hp) as [y Hy]. eexists _, (VInt (digits_value a)), _, x, y. split; [exact Hx|]. split; [|split; [|done]].
    + apply g_an; [done|by right|]. eapply does_exist_some; [done|]. eapply g_ref; [by left|apply rule_INT|exact HI].
    + rewrite !app_length. by rewrite !Nat.add_assoc.
Qed.
Lemma range_yes d mn mx s rest p : range_text mn mx s -> at_ p (s ++ rest) ->
  exists a b, G (S d) j_RANGE p (Some (VMap [("min"%string, a); ("max"%string, b)], p + length s)) /\ v_bound (Some a) = Some mn /\ v_bound (Some b) = Some mx.
Proof.
  intros (w1 & w2 & w3 & w4 & a & b & H1 & H2 & H3 & H4 & Ha & Hb & ->) Hp.
  assert (at_ p (123%N :: w1 ++ a ++ w2 ++ 44%N :: w3 ++ b ++ w4 ++ 125%N :: rest)) as Hq.
  { unfold Gives.at_ in Hp |- *. rewrite Hp. cbn [app]. by repeat (rewrite <- app_assoc; cbn [app]). }
  pose proof (at_cons _ _ _ _ Hq) as Hq1.
  destruct (bound_part d "min" mn a w1 w2 44 _ (S p) ltac:(done) Ha H1 H2 ltac:(pick) Hq1) as (q1 & v1 & q2 & x1 & y1 & A1 & A2 & A3 & A4).
  assert (at_ (S p + length (w1 ++ a ++ w2)) (44%N :: w3 ++ b ++ w4 ++ 125%N :: rest)) as Hq2.
  { apply at_app. unfold Gives.at_ in Hq1 |- *. rewrite Hq1. by rewrite <- !app_assoc. }
  pose proof (at_cons _ _ _ _ Hq2) as Hq3.
  destruct (bound_part d "max" mx b w3 w4 125 _ _ ltac:(done) Hb H3 H4 ltac:(pick) Hq3) as (q3 & v2 & q4 & x2 & y2 & B1 & B2 & B3 & B4).
  set (e1 := S p + length (w1 ++ a ++ w2)) in *. set (e2 := S e1 + length (w3 ++ b ++ w4)) in *.
  assert (at_ e2 (125%N :: rest)) as Hq4.
  { unfold e2. apply at_app. unfold Gives.at_ in Hq3 |- *. rewrite Hq3. by rewrite <- !app_assoc. }
  exists v1, v2. split; [|done].
  replace (p + length ([123] ++ w1 ++ a ++ w2 ++ [44] ++ w3 ++ b ++ w4 ++ [125])%N) with (S e2) by (unfold e2, e1; rewrite !app_length; cbn; rewrite ?app_length; cbn; lia).
  apply g_ru; [done|]. eapply does_object; [done|].
  eapply objects_cons; [eapply g_lit1; [by left|exact Hq]|reflexivity|].
  eapply objects_cons; [exact A1|reflexivity|]. eapply objects_cons; [exact A2|reflexivity|]. eapply objects_cons; [exact A3|reflexivity|].
  eapply objects_cons; [eapply g_lit1; [by left|exact Hq2]|reflexivity|].
  eapply objects_cons; [exact B1|reflexivity|]. eapply objects_cons; [exact B2|reflexivity|]. eapply objects_cons; [exact B3|reflexivity|].
  eapply objects_cons; [eapply g_lit1; [by left|exact Hq4]|reflexivity|]. apply objects_nil.
Qed.
Lemma range_no d rest p : head rest <> Some 123%N -> at_ p rest -> G (S d) j_RANGE p None.
Proof. intros Hr Hp. apply g_ru; [done|]. eapply does_object; [done|]. apply objects_fail. eapply g_lit_no; [by left|exact Hp|done]. Qed.

(** ** DECORATED *)
Lemma val_ref d p r : G d j_PRIM p r -> G d j_val p r.
Proof. intros H. eapply g_ref; [by right|apply rule_PRIM|exact H]. Qed.
Lemma prim_ref d p r : G d j_PRIM p r -> G d (rf "PRIMARY") p r.
Proof. intros H. eapply g_ref; [by left|apply rule_PRIM|exact H]. Qed.
(** After a primary. *)
Lemma D0_no d p v q rest : G d j_PRIM p (Some (v, q)) -> at_ q rest -> head rest <> Some 63%N -> G (S d) j_D0 p None.
Proof.
  intros H Hq Hr. apply g_ru_no; [done|]. eapply does_single; [done|]. eapply singles_cons; [by apply prim_ref|]. apply singles_fail. eapply g_lit_no; [by left|exact Hq|done].
Qed.
Lemma D1_no d p v q rest : G d j_PRIM p (Some (v, q)) -> at_ q rest -> head rest <> Some 42%N -> G (S d) j_D1 p None.
Proof.
  intros H Hq Hr. apply g_ru_no; [done|]. eapply does_object; [done|]. eapply objects_cons; [by apply val_ref|reflexivity|]. apply objects_fail. eapply g_lit_no; [by left|exact Hq|done].
Qed.
Lemma D2_no d p v q rest : G d j_PRIM p (Some (v, q)) -> at_ q rest -> head rest <> Some 43%N -> G (S d) j_D2 p None.
Proof.
  intros H Hq Hr. apply g_ru_no; [done|]. eapply does_object; [done|]. eapply objects_cons; [by apply val_ref|reflexivity|]. apply objects_fail. eapply g_lit_no; [by left|exact Hq|done].
Qed.
Lemma D3_no d p v q rest : G (S d) j_PRIM p (Some (v, q)) -> at_ q rest -> head rest <> Some 123%N -> G (S (S d)) j_D3 p None.
Proof.
  intros H Hq Hr. apply g_ru_no; [done|]. eapply does_object; [done|]. eapply objects_cons; [by apply val_ref|reflexivity|]. apply objects_fail.
  eapply g_ref; [by right|apply rule_RANGE|]. by eapply range_no.
Qed.
Lemma D4_no d p rest : at_ p rest -> head rest <> Some 33%N -> G (S d) j_D4 p None.
Proof. intros Hp Hr. apply g_ru_no; [done|]. eapply does_single; [done|]. apply singles_fail. eapply g_lit_no; [by left|exact Hp|done]. Qed.
Lemma D5_no d p rest : at_ p rest -> take 2 rest <> [40; 63]%N -> head rest <> Some 63%N -> G (S d) j_D5 p None.
Proof.
  intros Hp H1 H2. apply g_ru_no; [done|]. eapply does_choice; [done|].
  apply alts_next; [|apply alts_next; [|apply alts_nil]]; (apply g_an; [done|by left|]); (eapply does_object; [done|]); apply objects_fail.
  - apply g_an; [done|by left|]. eapply does_lit; [done|]. eapply lit_other; [exact Hp|exact H1].
  - eapply g_lit_no; [by left|exact Hp|done].
Qed.
(** Where there is no primary. *)
Lemma D0_none d p : G d j_PRIM p None -> G (S d) j_D0 p None.
Proof. intros H. apply g_ru_no; [done|]. eapply does_single; [done|]. apply singles_fail. by apply prim_ref. Qed.
Lemma D1_none d p : G d j_PRIM p None -> G (S d) j_D1 p None.
Proof. intros H. apply g_ru_no; [done|]. eapply does_object; [done|]. apply objects_fail. by apply val_ref. Qed.
Lemma D2_none d p : G d j_PRIM p None -> G (S d) j_D2 p None.
Proof. intros H. apply g_ru_no; [done|]. eapply does_object; [done|]. apply objects_fail. by apply val_ref. Qed.
Lemma D3_none d p : G d j_PRIM p None -> G (S d) j_D3 p None.
Proof. intros H. apply g_ru_no; [done|]. eapply does_object; [done|]. apply objects_fail. by apply val_ref. Qed.

Lemma amp_deco d p v q : G d j_DECO p (Some (v, q)) -> G d j_amp p (Some (v, q)).
Proof.
  intros H. apply g_an; [done|by right|]. eapply does_choice; [done|]. apply alts_take. eapply g_ref; [by left|apply rule_DECO|exact H].
Qed.
(** A primary alone. *)
Lemma amp_prim d p v q s rest : G (S d) j_PRIM p (Some (v, q)) -> at_ p s -> at_ q rest -> hd_in [32; 10; 41; 124]%N rest ->
  head s <> Some 33%N -> head s <> Some 63%N -> take 2 s <> [40; 63]%N -> G (S (S (S d))) j_amp p (Some (v, q)).
Proof.
  intros H Hp Hq Hr H1 H2 H3.
  assert (G (S (S (S d))) j_DECO p None) as HD.
  { apply g_ru; [done|]. eapply does_choice; [done|].
    apply alts_next; [eapply D0_no; [exact H|exact Hq|eapply hd_not; [exact Hr|notin]]|].
    apply alts_next; [eapply D1_no; [exact H|exact Hq|eapply hd_not; [exact Hr|notin]]|].
    apply alts_next; [eapply D2_no; [exact H|exact Hq|eapply hd_not; [exact Hr|notin]]|].
    apply alts_next; [eapply D3_no; [exact H|exact Hq|eapply hd_not; [exact Hr|notin]]|].
    apply alts_next; [by eapply D4_no|]. apply alts_next; [by eapply D5_no|]. apply alts_nil. }
  apply g_an; [done|by right|]. eapply does_choice; [done|]. apply alts_next; [eapply g_ref; [by left|apply rule_DECO|exact HD]|].
  apply alts_take. eapply g_ref; [by left|apply rule_PRIM|]. eapply gives_deeper; [exact H|lia].
Qed.
Lemma deco_option d p v q rest : v_parser v = true -> G d j_PRIM p (Some (v, q)) -> at_ q (63%N :: rest) ->
  G (S (S d)) j_DECO p (Some (made_at 2 (S q) t_exist [v], S q)).
Proof.
  intros Hv H Hq. apply g_ru; [done|]. eapply does_choice; [done|]. apply alts_take. eapply g_ru_cb; [done| |].
  - eapply does_single; [done|]. eapply singles_cons; [by apply prim_ref|]. cbn [i_capture n_info an rf].
    eapply singles_cons; [eapply g_lit1; [by left|exact Hq]|]. cbn [i_capture n_info an lt]. apply singles_nil.
  - unfold jcbf. cbn [jval default id]. by rewrite Hv.
Qed.
(** The part after [*] and [+]. *)
Lemma join_none d rest p : hd_in [32; 10; 41; 124; 123]%N rest -> no_arrow rest -> at_ p rest -> G (S (S d)) j_join p (Some (VUndef, p)).
Proof.
  intros Hr (w & r & -> & Hw & Hnb & _) Hp. apply g_an; [done|by right|]. eapply does_exist_none; [done|]. apply g_an; [done|by left|]. eapply does_single; [done|].
  destruct (decide (w = [])) as [-> |Hne].
  - destruct (g_nogap_yes re_ok mk text (S (S d)) p r Hnb Hp) as [v Hv]. eapply singles_cons; [exact Hv|]. apply singles_fail. apply prim_ref. eapply prim_no; [|exact Hp].
    assert (no_unit r) as [H _]; [|exact H]. eapply hd_no_unit; [exact Hr|]. nounit.
  - apply singles_fail. by eapply g_nogap_no.
Qed.
Lemma join_some d v q s p : G d j_PRIM p (Some (v, q)) -> nb s -> at_ p s -> G d j_join p (Some (v, q)).
Proof.
  intros H Hs Hp. apply g_an; [done|by right|]. eapply does_exist_some; [done|]. apply g_an; [done|by left|]. eapply does_single; [done|].
  destruct (g_nogap_yes re_ok mk text d p s Hs Hp) as [x Hx]. eapply singles_cons; [exact Hx|]. cbn [i_capture n_info an].
  eapply singles_cons; [by apply prim_ref|]. cbn [i_capture n_info an rf]. apply (singles_nil _ _ _ _ d (Some v)).
Qed.
Lemma deco_star d p v q q' j rest rest' : v_parser v = true -> v_parser j = true -> G (S d) j_PRIM p (Some (v, q)) -> at_ q (42%N :: rest) ->
  G (S d) j_join (S q) (Some (j, q')) -> at_ q' rest' -> head rest' <> Some 123%N ->
  G (S (S (S d))) j_DECO p (Some (made_at 3 q' t_pat [v; j; VInt (-1); VInt (-1)], q')).
Proof.
  intros Hv Hj H Hq HJ Hq' Hr. apply g_ru; [done|]. eapply does_choice; [done|].
  apply alts_next; [by eapply D0_no|]. apply alts_take. eapply g_ru_cb; [done| |].
  - eapply does_object; [done|]. eapply objects_cons; [by apply val_ref|reflexivity|].
    eapply objects_cons; [eapply g_lit1; [by left|exact Hq]|reflexivity|]. eapply objects_cons; [exact HJ|reflexivity|].
    eapply objects_cons; [apply g_an; [done|by right|]; eapply does_exist_none; [done|]; eapply g_ref; [by left|apply rule_RANGE|by eapply range_no]|reflexivity|].
    apply objects_nil.
  - unfold jcbf. cbn [jval made_val]. cbn -[v_parser]. rewrite Hv, Hj. done.
Qed.
Lemma deco_star_range d p v q q' j mn mx s rest rest' : v_parser v = true -> v_parser j = true -> G (S d) j_PRIM p (Some (v, q)) -> at_ q (42%N :: rest) ->
  G (S d) j_join (S q) (Some (j, q')) -> range_text mn mx s -> at_ q' (s ++ rest') ->
  G (S (S (S d))) j_DECO p (Some (made_at 3 (q' + length s) t_pat [v; j; VInt mn; VInt mx], q' + length s)).
Proof.
  intros Hv Hj H Hq HJ Hs Hq'. apply g_ru; [done|]. eapply does_choice; [done|].
  apply alts_next; [by eapply D0_no|]. apply alts_take. destruct (range_yes d mn mx s rest' q' Hs Hq') as (a & b & HR & Ha & Hb). eapply g_ru_cb; [done| |].
  - eapply does_object; [done|]. eapply objects_cons; [by apply val_ref|reflexivity|].
    eapply objects_cons; [eapply g_lit1; [by left|exact Hq]|reflexivity|]. eapply objects_cons; [exact HJ|reflexivity|].
    eapply objects_cons; [apply g_an; [done|by right|]; eapply does_exist_some; [done|]; eapply g_ref; [by left|apply rule_RANGE|exact HR]|reflexivity|].
    apply objects_nil.
  - unfold jcbf. cbn [jval made_val]. cbn -[v_parser v_bound]. rewrite Ha, Hb, Hv, Hj. done.
Qed.
Lemma deco_plus d p v q q' j rest : v_parser v = true -> v_parser j = true -> G (S d) j_PRIM p (Some (v, q)) -> at_ q (43%N :: rest) ->
  G (S d) j_join (S q) (Some (j, q')) ->
  G (S (S (S d))) j_DECO p (Some (made_at 4 q' t_pat [v; j; VInt 1; VInt (-1)], q')).
Proof.
  intros Hv Hj H Hq HJ. apply g_ru; [done|]. eapply does_choice; [done|].
  apply alts_next; [by eapply D0_no|]. apply alts_next; [by eapply D1_no|]. apply alts_take. eapply g_ru_cb; [done| |].
  - eapply does_object; [done|]. eapply objects_cons; [by apply val_ref|reflexivity|].
    eapply objects_cons; [eapply g_lit1; [by left|exact Hq]|reflexivity|]. eapply objects_cons; [exact HJ|reflexivity|]. apply objects_nil.
  - unfold jcbf. cbn [jval made_val]. cbn -[v_parser]. rewrite Hv, Hj. done.
Qed.
Lemma deco_range d p v q mn mx s rest : v_parser v = true -> G (S d) j_PRIM p (Some (v, q)) -> range_text mn mx s -> at_ q (s ++ rest) ->
  G (S (S (S d))) j_DECO p (Some (made_at 3 (q + length s) t_pat [v; VUndef; VInt mn; VInt mx], q + length s)).
Proof.
  intros Hv H Hs Hq. destruct (range_yes d mn mx s rest q Hs Hq) as (a & b & HR & Ha & Hb).
  assert (head (s ++ rest) = Some 123%N) as Hh by (by destruct Hs as (? & ? & ? & ? & ? & ? & _ & _ & _ & _ & _ & _ & ->)).
  apply g_ru; [done|]. eapply does_choice; [done|].
  apply alts_next; [eapply D0_no; [exact H|exact Hq|by rewrite Hh]|]. apply alts_next; [eapply D1_no; [exact H|exact Hq|by rewrite Hh]|].
  apply alts_next; [eapply D2_no; [exact H|exact Hq|by rewrite Hh]|]. apply alts_take. eapply g_ru_cb; [done| |].
  - eapply does_object; [done|]. eapply objects_cons; [by apply val_ref|reflexivity|].
    eapply objects_cons; [eapply g_ref; [by right|apply rule_RANGE|exact HR]|reflexivity|]. apply objects_nil.
  - unfold jcbf. cbn [jval made_val]. cbn -[v_parser v_bound]. rewrite Ha, Hb, Hv. done.
Qed.
Lemma deco_not d p v q rest : v_parser v = true -> at_ p (33%N :: rest) -> G (S (S d)) j_PRIM (S p) (Some (v, q)) ->
  G (S (S (S (S d)))) j_DECO p (Some (made_at 5 q t_not [v], q)).
Proof.
  intros Hv Hp H. assert (G (S (S d)) j_PRIM p None) as HN by (eapply prim_no; [|exact Hp]; done).
  apply g_ru; [done|]. eapply does_choice; [done|].
  apply alts_next; [by apply D0_none|]. apply alts_next; [by apply D1_none|]. apply alts_next; [by apply D2_none|]. apply alts_next; [by apply D3_none|].
  apply alts_take. eapply g_ru_cb; [done| |].
  - eapply does_single; [done|]. eapply singles_cons; [eapply g_lit1; [by left|exact Hp]|]. cbn [i_capture n_info an lt].
    eapply singles_cons; [by apply prim_ref|]. cbn [i_capture n_info an rf]. apply singles_nil.
  - unfold jcbf. cbn [jval default id]. by rewrite Hv.
Qed.
(** [?e] and [(?e)]; the latter is also a primary. *)
Lemma deco_bare_look d p v q rest : v_parser v = true -> at_ p (63%N :: rest) -> G (S (S d)) j_EXPR (S p) (Some (v, q)) ->
  G (S (S (S (S d)))) j_DECO p (Some (made_at 6 q t_look [v], q)).
Proof.
  intros Hv Hp H. assert (G (S (S d)) j_PRIM p None) as HN by (eapply prim_no; [|exact Hp]; done).
  apply g_ru; [done|]. eapply does_choice; [done|].
  apply alts_next; [by apply D0_none|]. apply alts_next; [by apply D1_none|]. apply alts_next; [by apply D2_none|]. apply alts_next; [by apply D3_none|].
  apply alts_next; [by eapply D4_no|]. apply alts_take. eapply g_ru_cb; [done| |].
  - eapply does_choice; [done|]. apply alts_next.
    { apply g_an; [done|by left|]. eapply does_object; [done|]. apply objects_fail. eapply g_lit_no; [by left|exact Hp|done]. }
    apply alts_take. apply g_an; [done|by left|]. eapply does_object; [done|].
    eapply objects_cons; [eapply g_lit1; [by left|exact Hp]|reflexivity|].
    eapply objects_cons; [eapply g_ref; [by right|apply rule_EXPR|exact H]|reflexivity|]. apply objects_nil.
  - unfold jcbf. cbn [jval made_val]. cbn -[v_parser]. by rewrite Hv.
Qed.
Lemma deco_look d p v q w rest rest' : v_parser v = true -> at_ p (40%N :: 63%N :: rest) -> G (S d) j_EXPR (S (S p)) (Some (v, q)) -> at_ q (41%N :: rest') ->
  G (S d) j_PRIM p (Some (w, S q)) -> hd_in [32; 10; 41; 124]%N rest' ->
  G (S (S (S d))) j_DECO p (Some (made_at 6 (S q) t_look [v], S q)).
Proof.
  intros Hv Hp H Hq HP Hr. pose proof (at_cons _ _ _ _ Hq) as Hq1. apply g_ru; [done|]. eapply does_choice; [done|].
  apply alts_next; [eapply D0_no; [exact HP|exact Hq1|eapply hd_not; [exact Hr|notin]]|].
  apply alts_next; [eapply D1_no; [exact HP|exact Hq1|eapply hd_not; [exact Hr|notin]]|].
  apply alts_next; [eapply D2_no; [exact HP|exact Hq1|eapply hd_not; [exact Hr|notin]]|].
  apply alts_next; [eapply D3_no; [exact HP|exact Hq1|eapply hd_not; [exact Hr|notin]]|].
  apply alts_next; [by eapply D4_no|]. apply alts_take. eapply g_ru_cb; [done| |].
  - eapply does_choice; [done|]. apply alts_take. apply g_an; [done|by left|]. eapply does_object; [done|].
    eapply objects_cons; [eapply (g_lit re_ok mk text _ _ _ _ [40; 63]%N); [by left|exact Hp]|reflexivity|]. cbn [length]. rewrite Nat.add_comm. cbn [Nat.add].
    eapply objects_cons; [eapply g_ref; [by right|apply rule_EXPR|exact H]|reflexivity|].
    eapply objects_cons; [eapply g_lit1; [by left|exact Hq]|reflexivity|]. apply objects_nil.
  - unfold jcbf. cbn [jval made_val]. cbn -[v_parser]. by rewrite Hv.
Qed.
Lemma amp_no d rest p : no_unit rest -> at_ p rest -> G (S (S (S (S d)))) j_DECO p None /\ G (S (S (S (S d)))) j_amp p None.
Proof.
  intros (H1 & H2 & H3 & H4 & H5) Hp. pose proof (prim_no d rest p H1 Hp) as HN.
  assert (G (S (S (S (S d)))) j_DECO p None) as HD.
  { apply g_ru; [done|]. eapply does_choice; [done|].
    apply alts_next; [by apply D0_none|]. apply alts_next; [by apply D1_none|]. apply alts_next; [by apply D2_none|]. apply alts_next; [by apply D3_none|].
    apply alts_next; [by eapply D4_no|]. apply alts_next; [eapply D5_no; [exact Hp| |done]|apply alts_nil].
    destruct H1 as (_ & H1 & _). destruct rest as [|x [|y r]]; [done|done|]. cbn in *. congruence. }
  split; [exact HD|]. apply g_an; [done|by right|]. eapply does_choice; [done|]. apply alts_next; [eapply g_ref; [by left|apply rule_DECO|exact HD]|].
  apply alts_next; [eapply g_ref; [by left|apply rule_PRIM|]; eapply gives_deeper; [exact HN|lia]|]. apply alts_nil.
Qed.

(** ** LABELED, UNIT *)
Lemma lab_no d t p : no_label t -> at_ p t -> G d j_lab p (Some (VUndef, p)).
Proof.
  intros Ht Hp. apply g_an; [done|by right|]. eapply does_exist_none; [done|]. apply g_an; [done|by left|]. eapply does_object; [done|].
  destruct Ht as [(H1 & H2 & H3)|(nm & r & Hn & -> & Hr & Hc)].
  - apply objects_fail. eapply g_ref; [by right|apply rule_LABEL|]. apply g_ot; [done|]. eapply does_choice; [done|].
    apply alts_next; [eapply g_lit_no; [by left|exact Hp|done]|]. apply alts_next; [eapply g_lit_no; [by left|exact Hp|done]|].
    apply alts_next; [eapply word_ref_no; [by left|done|exact Hp]|]. apply alts_nil.
  - destruct (name_split nm Hn) as (b & r' & Hb & Hbl & _).
    assert (forall c, alpha_b c = false -> head (s2b nm ++ r) <> Some c) as Hne by (intros c Hc0; rewrite Hb; cbn; intros [= ->]; congruence).
    eapply (objects_cons _ _ _ _ _ _ _ _ _ _ (VStr (s2b nm)) (p + length (s2b nm))); [|reflexivity|].
    + eapply g_ref; [by right|apply rule_LABEL|]. apply g_ot; [done|]. eapply does_choice; [done|].
      apply alts_next; [eapply g_lit_no; [by left|exact Hp|by apply Hne]|]. apply alts_next; [eapply g_lit_no; [by left|exact Hp|by apply Hne]|].
      apply alts_take. eapply word_ref; [by left|done|exact Hr|exact Hp].
    + apply objects_fail. eapply g_lit_no; [by left|by apply at_app in Hp|exact Hc].
Qed.
Lemma lab_yes d l rest p : label_name l -> at_ p (s2b l ++ 58%N :: rest) ->
  G d j_lab p (Some (VMap [("label"%string, VStr (s2b l))], S (p + length (s2b l)))).
Proof.
  intros Hl Hp. apply g_an; [done|by right|]. eapply does_exist_some; [done|]. apply g_an; [done|by left|]. eapply does_object; [done|].
  eapply (objects_cons _ _ _ _ _ _ _ _ _ _ (VStr (s2b l)) (p + length (s2b l))); [|reflexivity|].
  - eapply g_ref; [by right|apply rule_LABEL|]. apply g_ot; [done|]. eapply does_choice; [done|]. destruct Hl as [-> |[-> |Hn]].
    + apply alts_take. eapply (g_lit re_ok mk text _ _ _ _ [38%N]); [by left|exact Hp].
    + apply alts_next; [eapply g_lit_no; [by left|exact Hp|done]|]. apply alts_take. eapply (g_lit re_ok mk text _ _ _ _ [64%N]); [by left|exact Hp].
    + destruct (name_split l Hn) as (b & r' & Hb & Hbl & _).
      assert (forall c, alpha_b c = false -> head (s2b l ++ 58%N :: rest) <> Some c) as Hne by (intros c Hc0; rewrite Hb; cbn; intros [= ->]; congruence).
      apply alts_next; [eapply g_lit_no; [by left|exact Hp|by apply Hne]|]. apply alts_next; [eapply g_lit_no; [by left|exact Hp|by apply Hne]|].
      apply alts_take. eapply word_ref; [by left|done| |exact Hp]. done.
  - eapply objects_cons; [eapply g_lit1; [by left|by apply at_app in Hp]|reflexivity|]. apply objects_nil.
Qed.
Lemma labeled_plain d t p v q : v <> VUndef -> no_label t -> at_ p t -> G d j_amp p (Some (v, q)) -> G (S (S d)) j_LABELED p (Some (v, q)).
Proof.
  intros Hv Ht Hp H. apply g_ru; [done|]. eapply does_choice; [done|]. apply alts_take. apply g_ru; [done|]. eapply does_object; [done|].
  eapply objects_cons; [by eapply lab_no|reflexivity|]. eapply (objects_cons _ _ _ _ _ _ _ _ (MTook v)); [exact H|by destruct v|]. apply (objects_nil _ _ _ _ d (MTook v)).
Qed.
Lemma labeled_label d l t p tg args q : no_bang tg = true -> label_name l -> at_ p (s2b l ++ 58%N :: t) ->
  G d j_amp (S (p + length (s2b l))) (Some (VParser (mark_tag (Some l) tg) args "", q)) ->
  G (S (S d)) j_LABELED p (Some (VParser (mark_tag (Some l) tg) args l, q)).
Proof.
  intros Ht Hl Hp H. apply g_ru; [done|]. eapply does_choice; [done|]. apply alts_take. apply g_ru; [done|]. eapply does_object; [done|].
  eapply (objects_cons _ _ _ _ _ _ _ _ (MTook (VMap [("label"%string, VStr (s2b l))]))); [by eapply lab_yes|reflexivity|].
  eapply (objects_cons _ _ _ _ _ _ _ _ (MTook (VParser (mark_tag (Some l) tg) args l))); [exact H| |apply (objects_nil _ _ _ _ d (MTook _))].
  unfold joined. cbn [n_info i_label an j_amp]. change (String.eqb "&" "") with false. change (String.eqb "&" "@") with false. cbn [orb]. cbv iota.
  change (String.eqb "&" "&") with true. cbv iota. rewrite (tag_mark l tg Ht), b2s_s2b. cbn [andb]. rewrite (proj2 (String.eqb_eq l l) eq_refl). done.
Qed.
Lemma labeled_no d rest p : no_unit rest -> at_ p rest -> G (S (S (S (S (S (S d)))))) j_LABELED p None.
Proof.
  intros Hr Hp. destruct (amp_no d rest p Hr Hp) as [HD HA]. destruct Hr as (H1 & _ & _ & H4 & H5). apply g_ru; [done|]. eapply does_choice; [done|].
  apply alts_next; [|apply alts_next; [|apply alts_next; [|apply alts_nil]]].
  - apply g_ru; [done|]. eapply does_object; [done|]. eapply objects_cons; [eapply lab_no; [|exact Hp]; left; by destruct H1|reflexivity|]. by apply objects_fail.
  - eapply gives_deeper; [exact HD|lia].
  - eapply gives_deeper; [by eapply (prim_no 0)|lia].
Qed.
Lemma unit_yes d w s p v q : gap w -> nb s -> at_ p (w ++ s) -> G d j_LABELED (p + length w) (Some (v, q)) -> G (S (S d)) j_UNIT p (Some (v, q)).
Proof.
  intros Hw Hs Hp H. apply g_ru; [done|]. eapply does_choice; [done|]. apply alts_take. apply g_ru; [done|]. eapply does_single; [done|].
  destruct (g_gap re_ok mk text d w s p Hw Hs Hp) as [x Hx]. eapply singles_cons; [exact Hx|]. cbn [i_capture n_info an rc].
  eapply singles_cons; [eapply g_ref; [by left|apply rule_LABELED|exact H]|]. cbn [i_capture n_info an rf]. apply (singles_nil _ _ _ _ d (Some v)).
Qed.
Lemma unit_no d w r p : gap w -> nb r -> no_unit r -> at_ p (w ++ r) -> G (S (S (S (S (S (S (S (S d)))))))) j_UNIT p None.
Proof.
  intros Hw Hnb Hr Hp. apply g_ru; [done|]. eapply does_choice; [done|]. apply alts_next; [|apply alts_next; [|apply alts_nil]].
  - apply g_ru; [done|]. eapply does_single; [done|]. destruct (g_gap re_ok mk text (S (S (S (S (S (S d)))))) w r p Hw Hnb Hp) as [x Hx]. eapply singles_cons; [exact Hx|].
    apply singles_fail. eapply g_ref; [by left|apply rule_LABELED|]. eapply labeled_no; [exact Hr|by apply at_app in Hp].
  - eapply gives_deeper; [eapply (labeled_no 0); [|exact Hp]|lia]. destruct Hw as [|b w [-> | ->] Hw]; [exact Hr|..]; cbn; unfold no_unit, no_prim; by repeat split.
Qed.
Lemma unit_end d rest p : f_sequ rest -> at_ p rest -> G (S (S (S (S (S (S (S (S d)))))))) j_UNIT p None.
Proof.
  intros (w & r & -> & Hw & Hr) Hp. eapply unit_no; [exact Hw| | |exact Hp].
  - eapply hd_nb; [exact Hr|notin|notin].
  - eapply hd_no_unit; [exact Hr|]. nounit.
Qed.

(** ** SEQUENCE, CHOICE, EXPR *)
Lemma unit_ref d p r : G d j_UNIT p r -> G d (rw "UNIT") p r.
Proof. intros H. eapply g_ref; [by left|apply rule_UNIT|exact H]. Qed.
Lemma seq_ref d p r : G d j_SEQ p r -> G d (rw "SEQUENCE") p r.
Proof. intros H. eapply g_ref; [by left|apply rule_SEQ|exact H]. Qed.
Lemma seq_one d p v q rest : G (S (S (S (S (S (S (S (S d)))))))) j_UNIT p (Some (v, q)) -> at_ q rest -> f_sequ rest ->
  G (S (S (S (S (S (S (S (S (S (S d)))))))))) j_SEQ p (Some (v, q)).
Proof.
  intros H Hq Hr. set (d8 := S (S (S (S (S (S (S (S d)))))))) in *. apply g_ru; [done|]. eapply does_choice; [done|]. apply alts_next.
  - apply g_ru_no; [done|]. apply (does_pat_some _ _ _ _ d8 j_S0 (rw "UNIT") None 2 (-1) p v q [v] q); [done|by apply unit_ref|].
    apply loops_end. apply unit_ref. by eapply unit_end.
  - apply alts_take. eapply gives_deeper; [exact H|lia].
Qed.
Lemma seq_many d p v q l e : forallb v_parser (v :: l) = true -> l <> [] -> G d j_UNIT p (Some (v, q)) -> L d (rw "UNIT") None (-1) [v] q (v :: l) e ->
  G (S (S d)) j_SEQ p (Some (made_at 1 e t_seq (v :: l), e)).
Proof.
  intros Hv Hl H HL. apply g_ru; [done|]. eapply does_choice; [done|]. apply alts_take. eapply g_ru_cb; [done| |].
  - pose proof (does_pat_some _ _ _ _ d j_S0 (rw "UNIT") None 2 (-1) p v q _ _ eq_refl (unit_ref _ _ _ H) HL) as HD.
    assert (too_few 2 (length (v :: l)) = false) as HT by (destruct l; [done|]; unfold too_few; cbn [length]; lia). rewrite HT in HD. exact HD.
  - unfold jcbf. cbn [jval]. by rewrite Hv.
Qed.
Lemma seq_loops d p l e : forallb v_parser l = true -> 2 <= length l -> L d (rw "UNIT") None (-1) [] p l e ->
  G (S (S d)) j_SEQ p (Some (made_at 1 e t_seq l, e)).
Proof.
  intros Hv Hl [f0 HL]. apply g_ru; [done|]. eapply does_choice; [done|]. apply alts_take. eapply g_ru_cb; [done| |].
  - exists f0. intros f Hf. pose proof (HL f (S f) Hf ltac:(lia)) as H1. cbn [std_loop] in H1. unfold std_body. cbn [n_kind ru j_S0].
    destruct (std jrules joeson_rx (jcbf re_ok mk) text f d (rw "UNIT") p) as [[[a q]|]|]; [|injection H1 as <- <-; cbn in Hl; lia|done].
    change (enough (-1) (S (length []))) with false in H1. cbv iota in H1. cbn [app] in H1. rewrite H1.
    assert (too_few 2 (length l) = false) as HT by (unfold too_few; lia). by rewrite HT.
  - unfold jcbf. cbn [jval]. by rewrite Hv.
Qed.
Lemma pipe_yes d w rest p : gap w -> at_ p (w ++ 124%N :: rest) -> exists v, G d (rcw "_PIPE") p (Some (v, S (p + length w))).
Proof.
  intros Hw Hp. destruct (g_gap re_ok mk text d w (124%N :: rest) p Hw ltac:(done) Hp) as [x Hx]. eexists. eapply g_ref; [by left|apply rule_PIPE|]. apply g_ot; [done|].
  eapply does_single; [done|]. eapply singles_cons; [exact Hx|]. eapply singles_cons; [eapply g_lit1; [by left|by apply at_app in Hp]|]. apply singles_nil.
Qed.
Lemma pipe_no d w r p : gap w -> nb r -> head r <> Some 124%N -> at_ p (w ++ r) -> G d (rcw "_PIPE") p None.
Proof.
  intros Hw Hnb Hr Hp. destruct (g_gap re_ok mk text d w r p Hw Hnb Hp) as [x Hx]. eapply g_ref; [by left|apply rule_PIPE|]. apply g_ot; [done|].
  eapply does_single; [done|]. eapply singles_cons; [exact Hx|]. apply singles_fail. eapply g_lit_no; [by left|by apply at_app in Hp|done].
Qed.
Lemma pipe_end d rest p : f_alter rest -> at_ p rest -> G d (rcw "_PIPE") p None.
Proof.
  intros (w & r & -> & Hw & Hr) Hp. eapply pipe_no; [exact Hw| | |exact Hp]; [eapply hd_nb; [exact Hr|notin|notin]|eapply hd_not; [exact Hr|notin]].
Qed.
Lemma pipes_none d p : G d (rcw "_PIPE") p None -> exists v, G d j_pipes p (Some (v, p)).
Proof.
  intros H. eexists. apply g_an; [done|by left|]. apply (does_pat_none _ _ _ _ d _ (rcw "_PIPE") None (-1) (-1)); [done|exact H].
Qed.
Lemma choice_one d w s p v q rest : gap w -> nb s -> head s <> Some 124%N -> at_ p (w ++ s) -> G d j_SEQ p (Some (v, q)) -> at_ q rest -> f_alter rest ->
  G (S (S d)) j_CHOICE p (Some (v, q)).
Proof.
  intros Hw Hs Hs' Hp H Hq Hr. apply g_ru; [done|]. eapply does_choice; [done|]. apply alts_next.
  - apply g_ru_no; [done|]. eapply does_single; [done|].
    destruct (pipes_none d p) as [x Hx]; [by eapply pipe_no|]. eapply singles_cons; [exact Hx|]. apply singles_fail. apply g_an; [done|by left|].
    apply (does_pat_some _ _ _ _ d _ (rw "SEQUENCE") (Some (rcw "_PIPE")) 2 (-1) p v q [v] q); [done|by apply seq_ref|].
    apply loops_join_end. by eapply pipe_end.
  - apply alts_take. eapply gives_deeper; [exact H|lia].
Qed.
Lemma choice_many d w s p v q l e rest : forallb v_parser (v :: l) = true -> l <> [] -> gap w -> nb s -> head s <> Some 124%N -> at_ p (w ++ s) ->
  G d j_SEQ p (Some (v, q)) -> L d (rw "SEQUENCE") (Some (rcw "_PIPE")) (-1) [v] q (v :: l) e -> at_ e rest -> f_alter rest ->
  G (S (S d)) j_CHOICE p (Some (made_at 0 e t_choice (v :: l), e)).
Proof.
  intros Hv Hl Hw Hs Hs' Hp H HL Hq Hr. apply g_ru; [done|]. eapply does_choice; [done|]. apply alts_take. eapply g_ru_cb; [done| |].
  - eapply does_single; [done|].
    destruct (pipes_none d p) as [x Hx]; [by eapply pipe_no|]. eapply singles_cons; [exact Hx|]. cbn [i_capture n_info an j_pipes].
    assert (G d j_seqs p (Some (VArr (v :: l), e))) as HS.
    { apply g_an; [done|by left|].
      pose proof (does_pat_some _ _ _ _ d j_seqs (rw "SEQUENCE") (Some (rcw "_PIPE")) 2 (-1) p v q _ _ eq_refl (seq_ref _ _ _ H) HL) as HD.
      assert (too_few 2 (length (v :: l)) = false) as HT by (destruct l; [done|]; unfold too_few; cbn [length]; lia). rewrite HT in HD. exact HD. }
    eapply singles_cons; [exact HS|]. cbn [i_capture n_info an j_seqs].
    destruct (pipes_none d e) as [y Hy]; [by eapply pipe_end|]. eapply singles_cons; [exact Hy|]. cbn [i_capture n_info an j_pipes].
    apply (singles_nil _ _ _ _ d (Some (VArr (v :: l)))).
  - unfold jcbf. cbn [jval default id]. by rewrite Hv.
Qed.
Lemma expr_yes d p v q w rest : G d j_CHOICE p (Some (v, q)) -> gap w -> f_expr rest -> at_ q (w ++ rest) -> G (S (S d)) j_EXPR p (Some (v, q + length w)).
Proof.
  intros H Hw Hr Hq. apply g_ru; [done|]. eapply does_choice; [done|]. apply alts_take. apply g_ru; [done|]. eapply does_single; [done|].
  eapply singles_cons; [eapply g_ref; [by left|apply rule_CHOICE|exact H]|]. cbn [i_capture n_info an rf].
  destruct (g_gap re_ok mk text d w rest q Hw) as [x Hx]; [eapply hd_nb; [exact Hr|notin|notin]|exact Hq|].
  eapply singles_cons; [exact Hx|]. cbn [i_capture n_info an rc]. apply (singles_nil _ _ _ _ d (Some v)).
Qed.
(** An expression that is one unit up to a closing parenthesis. *)
Lemma unit_expr d w s p v q rest : gap w -> nb s -> head s <> Some 124%N -> at_ p (w ++ s) ->
  G (S (S (S (S (S (S (S (S d)))))))) j_UNIT p (Some (v, q)) -> at_ q rest -> f_expr rest ->
  G (S (S (S (S (S (S (S (S (S (S (S (S (S (S d)))))))))))))) j_EXPR p (Some (v, q)).
Proof.
  intros Hw Hs Hs' Hp H Hq Hr. assert (f_alter rest) as Ha by (apply (f_expr_alter []); [constructor|done]).
  rewrite <- (Nat.add_0_r q). eapply (expr_yes _ p v q [] rest); [|constructor|exact Hr|exact Hq].
  eapply choice_one; [exact Hw|exact Hs|exact Hs'|exact Hp| |exact Hq|exact Ha]. eapply seq_one; [exact H|exact Hq|]. by apply f_alter_sequ.
Qed.
(** [(?e)] as a primary. *)
Lemma prim_look d p v q rest rest' : v_parser v = true -> at_ p (40%N :: 63%N :: rest) -> G (S (S d)) j_EXPR (S (S p)) (Some (v, q)) -> at_ q (41%N :: rest') -> no_arrow rest' ->
  exists w, G (16 + d) j_PRIM p (Some (w, S q)).
Proof.
  intros Hv Hp H Hq Hr. pose proof (at_cons _ _ _ _ Hp) as Hp1.
  pose proof (deco_bare_look d (S p) v q rest Hv Hp1 H) as HW. set (w := made_at 6 q t_look [v]) in *. assert (w <> VUndef) as Hw by done. exists w.
  assert (G (S (S (S (S (S (S (S (S d)))))))) j_UNIT (S p) (Some (w, q))) as HU.
  { apply (unit_yes _ [] (63%N :: rest)); [constructor|done|exact Hp1|]. cbn [length]. rewrite Nat.add_0_r.
    eapply (labeled_plain _ (63%N :: rest)); [exact Hw|by left|exact Hp1|]. by apply amp_deco. }
  assert (f_expr (41%N :: rest')) as Hf by (unfold f_expr; cbn; pick).
  pose proof (unit_expr d [] (63%N :: rest) (S p) w q (41%N :: rest') ltac:(constructor) ltac:(done) ltac:(done) Hp1 HU Hq Hf) as HE.
  eapply (prim_paren _ p q w (63%N :: rest) rest'); [exact Hp|by left|exact HE|exact Hq|exact Hr].
Qed.
End Text.
