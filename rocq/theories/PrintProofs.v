(** The canonical text of an expression is a text for it. *)
From Verif Require Import Base Utf8Spec Native NativeSpec NativeProofs Engine Build BuildWalk TextSpec TextPrim PrintSpec.

Lemma writes_more re_ok n f s : writes re_ok n f s -> forall m, n <= m -> writes re_ok m f s.
Proof.
  induction 1; intros m Hm; try (econstructor; eauto; fail).
  - destruct m as [|m]; [lia|]. constructor. apply IHwrites. lia.
  - destruct m as [|[|m]]; [lia|lia|]. apply w_look, IHwrites. lia.
Qed.

(** ** The parts *)
Lemma utf8_plain r b : utf8 r b -> (b = [r] /\ (r < 128)%N) \/ ((128 <= r)%N /\ Forall (fun x => 128 <= x)%N b).
Proof. destruct 1; [by left|right; split; [lia|repeat constructor; lia]..]. Qed.
Lemma escaped_app s t : escaped (s ++ t) = escaped s ++ escaped t.
Proof. apply List.flat_map_app. Qed.
Lemma escaped_high b : Forall (fun x => 128 <= x)%N b -> escaped b = b.
Proof.
  induction 1 as [|x b Hx Hb IH]; [done|]. unfold escaped in *. cbn [List.flat_map]. rewrite IH.
  destruct (N.eqb_spec x 39); [lia|]. destruct (N.eqb_spec x 92); [lia|]. done.
Qed.
Lemma quoted_escaped rs s : utf8s rs s -> quoted s (escaped s).
Proof.
  induction 1 as [|r b rs s Hb Hs IH]; [constructor|]. rewrite escaped_app. destruct (utf8_plain r b Hb) as [[-> Hr]|[Hr Hh]].
  - unfold escaped at 1. cbn [List.flat_map]. destruct (N.eqb_spec r 39) as [-> |H1]; cbn [orb]; [by apply (q_escape 39 [39%N])|].
    destruct (N.eqb_spec r 92) as [-> |H2]; [by apply (q_escape 92 [92%N])|]. cbv iota. rewrite app_nil_r. by eapply (q_char r [r]).
  - rewrite escaped_high by done. eapply q_char; [done|lia|lia|done].
Qed.
Lemma bound_writes z : bound_ok z -> bound_text z (bound_of z).
Proof.
  unfold bound_of. intros H. destruct (Z.eqb_spec z (-1)) as [-> |Hz]; [constructor|]. destruct H as [|H]; [done|].
  pose proof (itoa_denotes z) as HD. pose proof (itoa_canonical z) as HC0. destruct z as [|p|p]; [|clear HC0|lia].
  { apply (bd_number [48%N]); [|done]. split; [done|]. repeat constructor; done. }
  remember (itoa (Z.pos p)) as t eqn:Et. remember (Z.pos p) as z eqn:Ez. destruct HD as [ds Hd|ds Hd|ds Hd].
  - constructor; [done|]. lia.
  - exfalso. pose proof (itoa_canonical (digits_value ds)) as [HC|(d & ds' & Hd' & [HC|HC])]; rewrite HC in Et; [done| |done]. injection Et as Et _. lia.
  - exfalso. destruct Hd as [_ Hd]. pose proof (digits_nonneg ds Hd).
    lia.
Qed.
Lemma range_writes mn mx : bound_ok mn -> bound_ok mx -> (mn <> -1 \/ mx <> -1)%Z -> range_text mn mx (range_of mn mx).
Proof.
  intros H1 H2 Hn. unfold range_of. assert (((mn =? -1) && (mx =? -1))%Z%bool = false) as -> by lia.
  exists [], [], [], [], (bound_of mn), (bound_of mx). repeat (split; [by constructor|]). split; [by apply bound_writes|]. split; [by apply bound_writes|]. done.
Qed.

(** ** Levels *)
Definition form_at (lv : nat) (e : pexp) : form :=
  match lv with 0 => Alter e | 1 => Sequ e | 2 => Unit e | 3 => Deco e | _ => Prim e end.
Section Show.
Variable re_ok : bytes -> bool.
Notation W := (writes re_ok).
Lemma loosen n e s a b : b <= a -> a <= 4 -> W n (form_at a e) s -> W n (form_at b e) s.
Proof.
  intros Hb Ha. revert Ha. induction Hb as [|a Hb IH]; [done|]. intros Ha H. apply IH; [lia|].
  destruct a as [|[|[|[|a]]]]; cbn [form_at] in *; try (by constructor). lia.
Qed.
Lemma alter_expr n e s : W n (Alter e) s -> W n (Expr e) s.
Proof. intros H. rewrite <- (app_nil_r s). apply (w_expr re_ok n e [] s []); [done|constructor|constructor]. Qed.
Lemma parens_writes n lv own e t : lv <= 4 -> own <= 4 -> W n (form_at own e) t -> W (deeper lv own n) (form_at lv e) (parens lv own t).
Proof.
  intros Hl Ho H. unfold deeper, parens. destruct (Nat.ltb_spec own lv) as [Hlt|Hge].
  - apply (loosen _ _ _ 4); [lia|lia|]. apply w_paren. apply alter_expr. by apply (loosen _ _ _ own 0); [lia|lia|].
  - by apply (loosen _ _ _ own).
Qed.

Definition shown (e : pexp) : Prop := writable re_ok e -> forall lv, lv <= 4 -> W (deep lv e) (form_at lv e) (show lv e).
Lemma joined_units n es : Forall (fun e => W n (Unit e) (show 2 e)) es -> es <> [] -> W n (Units es) (joined_by [32%N] (map (show 2) es)).
Proof.
  induction 1 as [|e es He Hes IH]; [done|]. intros _. destruct es as [|e' es]; [by apply w_units_one|].
  cbn [map]. change (joined_by [32%N] (show 2 e :: show 2 e' :: map (show 2) es)) with (show 2 e ++ [32%N] ++ joined_by [32%N] (map (show 2) (e' :: es))).
  apply w_units; [done|by repeat constructor|done|by apply IH].
Qed.
Lemma joined_sequs n es : Forall (fun e => W n (Sequ e) (show 1 e)) es -> es <> [] -> W n (Sequs es) (joined_by [32; 124; 32]%N (map (show 1) es)).
Proof.
  induction 1 as [|e es He Hes IH]; [done|]. intros _. destruct es as [|e' es]; [by apply w_sequs_one|].
  cbn [map]. change (joined_by [32; 124; 32]%N (show 1 e :: show 1 e' :: map (show 1) es)) with (show 1 e ++ [32%N] ++ [124%N] ++ [32%N] ++ joined_by [32; 124; 32]%N (map (show 1) (e' :: es))).
  apply w_sequs; [done|by repeat constructor|by repeat constructor|by apply IH].
Qed.
Lemma all_deep lv es : lv <= 4 -> Forall shown es -> writable_all re_ok es -> Forall (fun e => W (list_max (map (deep lv) es)) (form_at lv e) (show lv e)) es.
Proof.
  intros Hl Hs Hw. rewrite Forall_forall in Hs. apply Forall_forall. intros e He.
  assert (writable re_ok e) as Hwe. { revert He. clear -Hw. induction Hw as [|e' es H1 H2 IH]; [by intros ?%elem_of_nil|]. intros [-> |H]%elem_of_cons; auto. }
  eapply writes_more; [by apply Hs|].
  pose proof (proj1 (list_max_le (map (deep lv) es) _) (Nat.le_refl _)) as HF. rewrite Forall_forall in HF. apply HF. apply elem_of_list_fmap. by exists e.
Qed.
(** The text without label. *)
Definition bare (k : kind pexp) : bytes :=
  match k with
  | KStr s => ([39] ++ escaped s ++ [39])%N
  | KRegex s => ([47] ++ s ++ [47])%N
  | KRef nm => s2b nm
  | KSeq _ es => joined_by [32%N] (map (show 2) es)
  | KChoice es => joined_by [32; 124; 32]%N (map (show 1) es)
  | KPat v j mn mx => (show 4 v ++ [42] ++ match j with Some x => show 4 x | None => [] end ++ range_of mn mx)%N
  | KExist a => (show 4 a ++ [63])%N
  | KNot a => ([33] ++ show 4 a)%N
  | KLook a => ([40; 63] ++ show 0 a ++ [41])%N
  | KUndef => []
  end.
Definition bare_deep (k : kind pexp) : nat :=
  match k with
  | KSeq _ es => list_max (map (deep 2) es)
  | KChoice es => list_max (map (deep 1) es)
  | KPat v j _ _ => max (deep 4 v) (match j with Some x => deep 4 x | None => 0 end)
  | KExist a | KNot a => deep 4 a
  | KLook a => S (S (deep 0 a))
  | _ => 0
  end.
Lemma bare_writes k : Forall shown (kids k) -> writable_kind re_ok k -> W (bare_deep k) (form_at (tight k) (PExp "" k)) (bare k).
Proof.
  intros HK Hw. destruct Hw as [s rs Hs|s Hb Hre|nm Hn|es Hl Hes|es Hl Hes|v j mn mx Hv Hj Hmn Hmx|a Ha|a Ha|a Ha]; cbn [tight form_at bare bare_deep kids] in *.
  - apply w_string. by eapply quoted_escaped.
  - by apply w_regex.
  - by apply w_name.
  - apply w_sequ; [|done]. apply joined_units; [apply (all_deep 2); [lia|done|done]|]. destruct es; [cbn in Hl; lia|done].
  - apply w_alter; [|done]. apply joined_sequs; [apply (all_deep 1); [lia|done|done]|]. destruct es; [cbn in Hl; lia|done].
  - apply Forall_cons in HK as [HV HJ].
    set (n := max (deep 4 v) (match j with Some x => deep 4 x | None => 0 end)).
    assert (W n (Prim v) (show 4 v)) as H1 by (eapply writes_more; [apply (HV Hv 4); lia|lia]).
    assert (W n (Join j) (match j with Some x => show 4 x | None => [] end)) as H2.
    { destruct Hj as [|x Hx]; [constructor|]. apply w_join. apply Forall_cons in HJ as [HJ _]. eapply writes_more; [apply (HJ Hx 4); lia|]. unfold n. lia. }
    destruct (decide (mn = -1 /\ mx = -1)%Z) as [[-> ->]|Hne].
    + change (range_of (-1) (-1)) with (@nil N). rewrite app_nil_r. by apply w_star.
    + apply w_star_range; [done|done|]. apply range_writes; [done|done|]. lia.
  - apply Forall_cons in HK as [HA _]. apply w_option. apply (HA Ha 4); lia.
  - apply Forall_cons in HK as [HA _]. apply w_not. apply (HA Ha 4); lia.
  - apply Forall_cons in HK as [HA _]. apply w_look. apply alter_expr. apply (HA Ha 0). lia.
Qed.
Lemma tight_le (k : kind pexp) : tight k <= 4.
Proof. destruct k; cbn; lia. Qed.
Theorem show_writes e : shown e.
Proof.
  induction e as [l k IH] using pexp_ind2. intros Hw lv Hlv. inversion Hw as [l' k' Hl Hk]; subst.
  pose proof (bare_writes k IH Hk) as HB.
  change (show lv (PExp l k)) with (if String.eqb l "" then parens lv (tight k) (bare k) else parens lv 2 (s2b l ++ [58%N] ++ parens 3 (tight k) (bare k))).
  change (deep lv (PExp l k)) with (if String.eqb l "" then deeper lv (tight k) (bare_deep k) else deeper lv 2 (deeper 3 (tight k) (bare_deep k))).
  destruct (String.eqb_spec l "") as [-> |Hne].
  - apply parens_writes; [done|apply tight_le|done].
  - destruct Hl as [?|Hl]; [done|]. apply parens_writes; [done|lia|]. cbn [form_at]. apply w_label; [|done].
    apply (parens_writes _ 3 (tight k) (PExp "" k)); [lia|apply tight_le|done].
Qed.
Lemma show_expr e : writable re_ok e -> W (deep 0 e) (Expr e) (show 0 e).
Proof. intros H. apply alter_expr. apply (show_writes e H 0). lia. Qed.
End Show.
