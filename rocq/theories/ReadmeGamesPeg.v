(** What the README's grammars about games read. *)
From stdpp Require Import sets.
From Verif Require Import Base Helpers Utf8 Utf8Proofs Stream StreamSpec Native Engine EngSpec EngInv Toy Peg PegProofs PegRep PegBody PegStd PegStdProofs
  RunSpec PegLaws PegRun Build BuildSpec BuildMain Joeson JoesonSpec JoesonRun Calc CalcRun CalcSpec CalcPeg CalcMain Brave LispRead LispReadPeg LispReadText LispReadTop Gives
  Color ColorRun ColorSpec Readers ColorPeg ColorMain Games GamesRun GamesSpec GamesPeg GamesMain ReadmeGames ReadmeGamesRun.
Local Open Scope list_scope.

(** ** The callbacks *)
Definition readme_cb_with (t : option (option nat)) (f pos : nat) (h : heap) (x : ast) : cbres :=
  match f with 4 => readme_cb f pos h x | _ => game_cb_with t f pos h x end.
Definition g_make (v : val) : option val :=
  match v with
  | VMap [(k, VStr s)] =>
      if String.eqb k "id" then match atoi s with Some z => Some (game_v (find_game (fun g => (gm_id g =? z)%Z))) | None => None end else None
  | VMap [(k, VArr l)] => if String.eqb k "title" then g_title (VArr l) else None
  | _ => None
  end.
Definition readme_cbf (t : option (option nat)) (f pos : nat) (v : val) : option (option val) :=
  match f with 4 => as_cb (g_make v) | _ => game_cbf t f pos v end.
Lemma readme_braver t : braver readme_cb (readme_cb_with t).
Proof.
  intros c p h x. unfold readme_cb_with, readme_cb. pose proof (game_braver t c p h x) as H.
  destruct c as [|[|[|[|[|c]]]]]; try exact H. by right.
Qed.
Lemma repf_one P h m k v : repf P h m [(k, v)] -> exists x, nm_get m k = Some x /\ rep P h x v.
Proof. intros H. inversion H; subst. eauto. Qed.
Lemma readme_keeps t E f : e_cb E = readme_cb_with t -> cb_keeps E (readme_cbf t) f.
Proof.
  intros HE. assert (f <> 4 -> cb_keeps E (readme_cbf t) f) as HO.
  { intros Hf p h x v P Hr Hp. rewrite HE.
    pose proof (game_keeps t (mk_env (gram_of games) (POpts false false false) game_rx (game_cb_with t)) f eq_refl p h x v P Hr Hp) as H.
    assert (readme_cb_with t f p h x = game_cb_with t f p h x) as -> by (by destruct f as [|[|[|[|[|f]]]]]).
    assert (readme_cbf t f p v = game_cbf t f p v) as -> by (by destruct f as [|[|[|[|[|f]]]]]). exact H. }
  destruct (decide (f = 4)) as [-> |Hf]; [|by apply HO]. clear HO.
  intros p h x v P Hr _. rewrite HE. cbn [readme_cbf readme_cb_with readme_cb].
  assert (forall g, rep P h (game_ast g) (game_v g)) as HC by (intros; repeat constructor).
  destruct Hr as [| | | | | |a m at_ kv Ha Hh [Hk Hno] Hnd Hf|]; try done. cbn [make_game]. rewrite Hh.
  destruct kv as [|[k w] [|[k' w'] kv]]; [done| |by destruct w].
  apply repf_one in Hf as (y & Hg & Hy). destruct w as [s| | | |l| | |]; try done.
  - cbn [g_make]. destruct (String.eqb_spec k "id") as [-> |]; [|done]. destruct (atoi s) as [z|] eqn:EZ; [|done]. cbn [as_cb].
    rewrite Hg. inversion Hy; subst. cbn [game_cb native_int_from]. rewrite EZ. eexists h, (Some _). split; [done|]. split; [apply hext_refl|]. eexists. split; [done|apply HC].
  - cbn [g_make]. destruct (String.eqb_spec k "title") as [-> |]; [|done]. cbn [g_title]. destruct (strs l) as [s|] eqn:ES; [|done]. cbn [as_cb].
    rewrite (Hno "id"%string) by (apply not_elem_of_cons; split; [done|apply not_elem_of_nil]). rewrite Hg. inversion Hy; subst. cbn [game_cb native_string_from].
    erewrite strs_rep_S by done. cbn [rbind]. eexists h, (Some _). split; [done|]. split; [apply hext_refl|]. eexists. split; [done|apply HC].
Qed.

(** ** example2 and example4 *)
Definition x_id (nm : string) : node := rl nm true 0 (Some 0) (KSeq TArray [nd "" true false (KRegex re_first); nd "" true false (KPat (o_class re_digit) None (-1) (-1))]).
Definition x_title (nm : string) : node := rl nm true 1 (Some 1) (KSeq TSingle
  [o_lit (s2b """"); nd "" true false (KPat (o_class re_unquote) None (-1) (-1)); o_lit (s2b """")]).
Definition x_game (n1 n2 : string) : node := rl "VideoGame" true 2 None (KChoice [x_id n1; x_title n2]).
Definition x_top (g : node) : node := Node (Info "exampleN" "" true false 0 true None false false) (KChoice [g]).
Definition x_built (n1 n2 : string) : built := (x_top (x_game n1 n2), [(n1, x_id n1); (n2, x_title n2); ("VideoGame", x_game n1 n2)]%string).
Lemma ex2_nodes : ex2 = x_built "VideoGame[0]" "VideoGame[1]".
Proof. reflexivity. Qed.
Lemma ex4_nodes : ex4 = x_built "VideoGameId" "VideoGameTitle".
Proof. reflexivity. Qed.
Definition f_two (t : option (option nat)) : reader := r_alt [f_id t; r_cb g_title f_title0].

Section Text.
Variable text : bytes.
Variable t : option (option nat).
Variable rules : string -> option node.
Notation reads := (Readers.reads rules game_rx (readme_cbf t) text).
Notation gives := (Gives.gives rules game_rx (readme_cbf t) text).
Lemma xlit_reads d w : reads d (o_lit w) (r_lit w).
Proof. apply reads_bare; [done|done|by split; [|left]|]. by apply doing_lit. Qed.
Lemma xtitle_reads d nm : reads (S d) (x_title nm) (r_cb g_title f_title0).
Proof.
  apply (reads_cb _ _ _ _ _ _ _ _ 1); [done|done|done|done| |].
  - eapply doing_single; [reflexivity|]. constructor; [split; [done|apply xlit_reads]|]. constructor; [|constructor; [split; [done|apply xlit_reads]|constructor]].
    split; [done|]. apply reads_bare; [done|done|by split; [|left]|]. eapply doing_star; [reflexivity|apply unquote_length|].
    apply reads_bare; [done|done|by split; [|left]|]. by eapply doing_re.
  - intros q s v k p Hq Hv. unfold f_title0 in Hv. apply single_inv in Hv as (v1 & k1 & k2 & _ & Hv & _).
    apply single_inv in Hv as (v3 & k3 & k4 & H3 & Hv & _). apply unquote_inv in H3 as (u & l & _ & _ & -> & HL & _).
    apply single_inv in Hv as (v5 & k5 & k6 & _ & Hv & _). cbn [r_single default] in Hv. injection Hv as <- _. cbn [readme_cbf game_cbf g_title]. by rewrite HL.
Qed.
Hypothesis Ht : t = None -> starts_small text.
Lemma xid_reads d nm : gives (S d) (x_id nm) 0 (shift 0 (f_id t text)).
Proof.
  assert (Readers.doing rules game_rx (readme_cbf t) text d (x_id nm) f_digits) as HD.
  { eapply doing_array; [reflexivity|]. constructor; [|constructor; [|constructor]]; (split; [done|]); (apply reads_bare; [done|done|by split; [|left]|]).
    - by eapply doing_re.
    - eapply doing_star; [reflexivity|apply class_length|]. apply reads_bare; [done|done|by split; [|left]|]. by eapply doing_re. }
  eapply gives_rule; [done|done|by apply (HD 0 text)|]. unfold f_id, r_cb. destruct (f_digits text) as [[v k]|] eqn:E; [|done]. cbn [shift].
  unfold prepared, labelled. cbn [x_id rl n_info i_cb i_label String.eqb negb andb game_cbf readme_cbf].
  apply digits_inv in E as (n & Hs & -> & Hn & HW & _). unfold g_id. rewrite HW, (atoi_number n Hn).
  destruct (Z.ltb_spec (decimal n) (2 ^ 63)) as [|HL]; [done|]. destruct t as [u|]; [by destruct u|]. exfalso.
  assert (small n) as HS; [|unfold small in HS; lia]. exact (Ht eq_refl n _ Hs Hn).
Qed.
Lemma xgame_reads n1 n2 : gives 4 (x_top (x_game n1 n2)) 0 (f_two t text).
Proof.
  assert (gives 3 (x_game n1 n2) 0 (f_two t text)) as H.
  { apply gives_bare_rule; [done|done|by split; [|left]|]. eapply does_choice; [reflexivity|]. unfold f_two. cbn [r_alt].
    pose proof (xid_reads 1 n1) as H1. destruct (f_id t text) as [[v k]|]; cbn [shift] in H1; [by apply alts_take|]. apply alts_next; [done|].
    pose proof (xtitle_reads 1 n2 0 text eq_refl) as H2. destruct (r_cb g_title f_title0 text) as [[v k]|]; cbn [shift] in H2; [by apply alts_take|]. apply alts_next; [done|].
    apply alts_nil. }
  apply gives_bare; [done|done|by split; [|left]|]. eapply does_choice; [reflexivity|]. apply (gives_deeper _ _ _ _ _ 4) in H; [|lia].
  destruct (f_two t text) as [[v k]|]; [by apply alts_take|]. apply alts_next; [done|]. apply alts_nil.
Qed.
End Text.

(** ** example1 *)
Definition y_id : node := nd "" true true (KSeq TObject [nd "id" true false (KRegex re_first); nd "" true false (KPat (o_class re_digit) None (-1) (-1))]).
Definition y_title : node := nd "" true true (KSeq TObject
  [o_lit (s2b """"); nd "title" true false (KPat (o_class re_unquote) None (-1) (-1)); o_lit (s2b """")]).
Definition y_game : node := rl "VideoGame" true 0 (Some 4) (KChoice [y_id; y_title]).
Lemma ex1_nodes : ex1 = (x_top y_game, [("VideoGame", y_game)]%string).
Proof. reflexivity. Qed.
Definition f_id1 : reader := r_object [("id", r_re (m_class first_b)); ("", r_star (m_class digit_b))]%string MNone.
Definition f_title1 : reader := r_object [("", r_lit (s2b """")); ("title", r_star m_unquote); ("", r_lit (s2b """"))]%string MNone.
Definition f_one : reader := r_cb g_make (r_alt [f_id1; f_title1]).
Lemma id1_inv s v k : f_id1 s = Some (v, k) -> exists b w, first_b b = true /\ Forall (fun c => digit_b c = true) w /\ s = (b :: w) ++ drop k s /\ k = S (length w) /\ v = VMap [("id", VStr [b])]%string.
Proof.
  unfold f_id1. cbn [r_object]. destruct (r_re _ s) as [[v1 k1]|] eqn:E1; [|done]. apply re_inv in E1 as (b & Hs & -> & -> & Hb).
  cbn [joined String.eqb Ascii.eqb Bool.eqb orb]. destruct (r_star _ (drop 1 s)) as [[v2 k2]|] eqn:E2; [|done].
  cbn [joined String.eqb Ascii.eqb Bool.eqb orb made_val kv_set]. intros [= <- <-].
  apply star_inv in E2 as (w & Hw & -> & _ & HF & _). exists b, w. split; [done|]. split; [done|]. rewrite Nat.add_0_r. split; [|done].
  replace (drop (S (length w)) s) with (drop (length w) (drop 1 s)) by (by rewrite drop_drop). cbn [app] in *. rewrite <- Hw. exact Hs.
Qed.
Lemma title1_inv s v k : f_title1 s = Some (v, k) -> exists u l, s = (s2b """" ++ u ++ s2b """") ++ drop k s /\ Forall (fun b => b <> 34%N) u /\
  v = VMap [("title", VArr l)]%string /\ strs l = Some u.
Proof.
  unfold f_title1. cbn [r_object]. destruct (r_lit _ s) as [[v1 k1]|] eqn:E1; [|done]. apply lit_inv in E1 as [E1 ->].
  cbn [joined String.eqb Ascii.eqb Bool.eqb orb]. destruct (r_star _ _) as [[v2 k2]|] eqn:E2; [|done].
  apply unquote_inv in E2 as (u & l & Eu & -> & -> & HL & Hu). cbn [joined String.eqb Ascii.eqb Bool.eqb orb].
  destruct (r_lit _ (drop (length u) _)) as [[v3 k3]|] eqn:E3; [|done]. apply lit_inv in E3 as [E3 ->]. cbn [joined String.eqb Ascii.eqb Bool.eqb orb made_val kv_set].
  intros [= <- <-]. exists u, l. split; [|done]. match goal with |- _ = _ ++ drop ?k s => replace (drop k s) with (drop 1 (drop (length u) (drop 1 s))) by (rewrite !drop_drop; f_equal; cbn; lia) end.
  rewrite <- !app_assoc. change (length (s2b """")) with 1 in E3, Eu, E1. by rewrite <- E3, <- Eu, <- E1.
Qed.
Section Text1.
Variable text : bytes.
Variable rules : string -> option node.
Notation reads := (Readers.reads rules game_rx (readme_cbf None) text).
Lemma ygame_reads : reads 2 (x_top y_game) f_one.
Proof.
  assert (reads 2 y_game f_one) as H.
  { apply (reads_cb _ _ _ _ _ _ _ _ 4); [done|done|done|done| |].
    - eapply doing_alt; [reflexivity|]. constructor; [|constructor; [|constructor]]; (apply reads_bare; [done|done|by split; [|left]|]);
        (eapply doing_object; [reflexivity|]).
      + constructor; [|constructor; [|constructor]]; (split; [done|]); (split; [done|]).
        * apply reads_bare; [done|done|by split; [|right]|]. by eapply doing_re.
        * apply reads_bare; [done|done|by split; [|left]|]. eapply doing_star; [reflexivity|apply class_length|].
          apply reads_bare; [done|done|by split; [|left]|]. by eapply doing_re.
      + constructor; [|constructor; [|constructor; [|constructor]]]; (split; [done|]); (split; [done|]).
        * apply reads_bare; [done|done|by split; [|left]|]. by apply doing_lit.
        * apply reads_bare; [done|done|by split; [|right]|]. eapply doing_star; [reflexivity|apply unquote_length|].
          apply reads_bare; [done|done|by split; [|left]|]. by eapply doing_re.
        * apply reads_bare; [done|done|by split; [|left]|]. by apply doing_lit.
    - intros q s v k p Hq Hv. cbn [r_alt] in Hv. destruct (f_id1 s) as [[v1 k1]|] eqn:E1.
      + injection Hv as -> ->. apply id1_inv in E1 as (b & w & Hb & _ & _ & _ & ->). cbn [readme_cbf g_make String.eqb Ascii.eqb Bool.eqb].
        unfold first_b in Hb. apply andb_prop in Hb as [H1%N.leb_le H2%N.leb_le].
        assert (atoi [b] = Some (Z.of_N b - 48)%Z) as ->; [|done].
        rewrite (atoi_number [b]); [|exists b, []; split; [done|]; split; [lia|constructor]].
        unfold decimal. cbn [fold_left]. destruct (Z.ltb_spec (0 * 10 + (Z.of_N b - 48)) (2 ^ 63)); [f_equal; lia|lia].
      + destruct (f_title1 s) as [[v2 k2]|] eqn:E2; [|done]. injection Hv as -> ->. apply title1_inv in E2 as (u & l & _ & _ & -> & HL).
        cbn [readme_cbf g_make String.eqb Ascii.eqb Bool.eqb g_title]. by rewrite HL. }
  intros p s Hp. apply gives_bare; [done|done|by split; [|left]|]. eapply does_choice; [reflexivity|].
  specialize (H p s Hp). destruct (f_one s) as [[v k]|]; [by apply alts_take|]. apply alts_next; [done|]. apply alts_nil.
Qed.
End Text1.
