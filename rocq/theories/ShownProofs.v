(** What is seen of a printed parser is a text for it. *)
From stdpp Require Import sets.
From Verif Require Import Base Utf8 Utf8Spec Helpers Native NativeSpec NativeProofs Engine Build BuildWalk TextSpec TextPrim PrintSpec PrintProofs Print ShownSpec.
Local Open Scope list_scope.

(** ** Colours *)
Definition dark (s : bytes) : Prop := 27%N ∉ s.
Lemma seen_dark s r : dark s -> seen (s ++ r) = s ++ seen r.
Proof.
  unfold dark, seen. induction s as [|b s IH]; [done|]. rewrite not_elem_of_cons. intros [Hb Hs]. cbn [app seen_from].
  destruct (N.eqb_spec b 27) as [-> |_]; [done|]. by rewrite IH.
Qed.
Lemma seen_coloured code s r : (code ∈ ["[31m"; "[32m"; "[33m"; "[34m"; "[35m"; "[36m"])%string -> dark s -> seen (coloured code s ++ r) = s ++ seen r.
Proof.
  intros Hc Hs. unfold coloured. rewrite <- ?app_assoc. assert (forall t, seen ([27%N] ++ s2b code ++ t) = seen t) as ->.
  { intros t. repeat (apply elem_of_cons in Hc as [-> |Hc]; [reflexivity|]). by apply elem_of_nil in Hc. }
  rewrite seen_dark by done. done.
Qed.
Lemma name_dark nm : name nm -> dark (s2b nm).
Proof.
  unfold name, dark. destruct (s2b nm) as [|b r]; [done|]. intros [Hb Hr] [H|H]%elem_of_cons.
  - subst b. unfold letter in Hb. lia.
  - rewrite Forall_forall in Hr. specialize (Hr _ H). unfold letter, digit in Hr. lia.
Qed.
Lemma label_dark l : label_name l -> dark (s2b l).
Proof. intros [-> |[-> |H]]; [apply (bool_decide_unpack _); by vm_compute..|by apply name_dark]. Qed.
Lemma digits_dark z : bound_ok z -> dark (bound_of z).
Proof.
  intros H%bound_writes. unfold dark. destruct H as [|s [_ Hs] _]; [by intros ?%elem_of_nil|]. intros Hin. rewrite Forall_forall in Hs. specialize (Hs _ Hin). cbn in Hs. lia.
Qed.
Lemma seen_bounds mn mx r : bound_ok mn -> bound_ok mx -> seen (bounds_string mn mx ++ r) = range_of mn mx ++ seen r.
Proof.
  intros H1 H2. unfold bounds_string, range_of, cyan. pose proof (digits_dark mn H1) as D1. pose proof (digits_dark mx H2) as D2. unfold bound_of in *.
  assert ((-1 <? mn)%Z = negb (mn =? -1)%Z) as E1 by (destruct H1; lia). assert ((-1 <? mx)%Z = negb (mx =? -1)%Z) as E2 by (destruct H2; lia).
  assert ((mn <? 0)%Z = (mn =? -1)%Z) as E3 by (destruct H1; lia). assert ((mx <? 0)%Z = (mx =? -1)%Z) as E4 by (destruct H2; lia).
  rewrite E1, E2, E3, E4. destruct (mn =? -1)%Z, (mx =? -1)%Z; cbn [andb negb]; (rewrite seen_coloured; [reflexivity|set_solver|]); unfold dark in *; set_solver.
Qed.
Lemma plain_escape s : Forall plain s -> escape s = escaped s.
Proof.
  induction 1 as [|b s (H1 & H2 & H3) Hs IH]; [done|]. unfold escape, escaped in *. cbn [mbind list_bind List.flat_map]. rewrite IH. f_equal.
  unfold escape_byte, backslash. destruct (N.eqb_spec b 92) as [-> |?]; [done|].
  repeat (match goal with |- context [(b =? ?c)%N] => destruct (N.eqb_spec b c); [lia|] end). done.
Qed.
Lemma plain_dark s : Forall plain s -> dark (escaped s).
Proof.
  unfold dark, escaped. intros H. rewrite elem_of_list_In, in_flat_map. intros (b & Hb & Hin). rewrite <- elem_of_list_In in Hb. rewrite Forall_forall in H. destruct (H b Hb) as (H1 & H2 & H3).
  destruct ((b =? 39) || (b =? 92))%N%bool; cbn in Hin; intuition (subst; lia).
Qed.

Lemma max_cons a l : list_max (a :: l) = max a (list_max l).
Proof. reflexivity. Qed.
Section Show.
Variable re_ok : bytes -> bool.
Notation W := (writes re_ok).
(** [t] is what is seen of [e]. *)
Definition sees (e : pexp) (t : bytes) : Prop := forall r, seen (string_of e ++ r) = t ++ seen r.
Definition fine (e : pexp) : Prop := printable e -> exists t, sees e t /\ W (nests e) (Unit e) t /\ (operand e -> W (nests e) (Prim e) t).
Lemma seen_joined sep gap_ es : (forall r, seen (sep ++ r) = gap_ ++ seen r) -> forall ts, Forall2 sees es ts ->
  forall r, seen (with_between sep (map string_of es) ++ r) = joined_by gap_ ts ++ seen r.
Proof.
  intros Hsep. induction 1 as [|e t es ts He Hes IH]; intros r; [done|]. destruct Hes as [|e' t' es ts He' Hes]; [apply He|].
  change (with_between sep (map string_of (e :: e' :: es))) with (string_of e ++ sep ++ with_between sep (map string_of (e' :: es))).
  change (joined_by gap_ (t :: t' :: ts)) with (t ++ gap_ ++ joined_by gap_ (t' :: ts)).
  rewrite <- ?app_assoc. rewrite He, Hsep, IH. done.
Qed.
Lemma all_fine es : Forall fine es -> printable_all es -> exists ts, Forall2 sees es ts /\ Forall2 (fun e t => W (list_max (map nests es)) (Unit e) t) es ts.
Proof.
  intros HF. induction 1 as [|e es He Hes IH]; [by exists []|]. apply Forall_cons in HF as [Hf HF]. destruct (Hf He) as (t & Hs & Hw & _).
  destruct (IH HF) as (ts & Hss & Hws). exists (t :: ts). split; [by constructor|]. cbn [map]. constructor.
  - eapply writes_more; [exact Hw|]. rewrite max_cons. lia.
  - eapply Forall2_impl; [exact Hws|]. intros e' t' H. eapply writes_more; [exact H|]. rewrite max_cons. lia.
Qed.
Lemma units_of n es ts : Forall2 (fun e t => W n (Unit e) t) es ts -> es <> [] -> W n (Units es) (joined_by [32%N] ts).
Proof.
  induction 1 as [|e t es ts He Hes IH]; [done|]. intros _. destruct Hes as [|e' t' es ts He' Hes]; [by apply w_units_one|].
  change (joined_by [32%N] (t :: t' :: ts)) with (t ++ [32%N] ++ joined_by [32%N] (t' :: ts)). apply w_units; [done|by repeat constructor|done|by apply IH].
Qed.
Lemma sequs_of n es ts : Forall2 (fun e t => W n (Unit e) t) es ts -> es <> [] -> W n (Sequs es) (joined_by [32; 124; 32]%N ts).
Proof.
  induction 1 as [|e t es ts He Hes IH]; [done|]. intros _. destruct Hes as [|e' t' es ts He' Hes]; [by apply w_sequs_one, w_one_unit|].
  change (joined_by [32; 124; 32]%N (t :: t' :: ts)) with (t ++ [32%N] ++ [124%N] ++ [32%N] ++ joined_by [32; 124; 32]%N (t' :: ts)).
  apply w_sequs; [by apply w_one_unit|by repeat constructor|by repeat constructor|by apply IH].
Qed.
(** Without label. *)
Lemma fine_kind k : Forall fine (kids k) -> printable_kind k -> exists t, sees (PExp "" k) t /\ W (nests (PExp "" k)) (Deco (PExp "" k)) t /\
  (operand (PExp "" k) -> W (nests (PExp "" k)) (Prim (PExp "" k)) t).
Proof.
  intros HK Hk.
  assert (forall c s r, c ∈ ["[31m"; "[32m"; "[33m"; "[34m"; "[35m"; "[36m"]%string -> dark s -> seen (coloured c s ++ r) = s ++ seen r) as HC by (intros; by apply seen_coloured).
  destruct Hk as [s rs Hs Hp|nm Hn|es Hl Hes|es Hl Hes|v j mn mx Ho Hv Hj Hmn Hmx|a Ho Ha|a Ho Ha|a Ha]; cbn [kids] in HK.
  - exists ([39%N] ++ escaped s ++ [39%N]). assert (W 0 (Prim (PExp "" (KStr s))) ([39%N] ++ escaped s ++ [39%N])) as HW.
    { apply w_string. by eapply quoted_escaped. }
    split; [|split; [by apply w_prim|done]]. intros r. cbn [string_of]. unfold prefix. cbn [String.eqb app]. unfold green. rewrite plain_escape by done.
    apply HC; [set_solver|]. pose proof (plain_dark s Hp). unfold dark in *. set_solver.
  - exists (s2b nm). assert (W 0 (Prim (PExp "" (KRef nm))) (s2b nm)) as HW by by apply w_name.
    split; [|split; [by apply w_prim|done]]. intros r. cbn [string_of]. unfold prefix. cbn [String.eqb app]. apply HC; [set_solver|by apply name_dark].
  - destruct (all_fine es HK Hes) as (ts & Hss & Hws). exists ([40%N] ++ joined_by [32%N] ts ++ [41%N]).
    assert (W (S (list_max (map nests es))) (Prim (PExp "" (KSeq TSingle es))) ([40%N] ++ joined_by [32%N] ts ++ [41%N])) as HW.
    { apply w_paren, alter_expr, w_one_sequ, w_sequ; [|done]. apply units_of; [done|]. destruct es; [cbn in Hl; lia|done]. }
    split; [|split; [by apply w_prim|done]]. intros r. cbn [string_of]. unfold prefix. cbn [String.eqb app]. rewrite <- ?app_assoc.
    unfold blue. rewrite HC; [|set_solver|unfold dark; set_solver]. rewrite (seen_joined [32%N] [32%N]  es ltac:(done) ts Hss).
    rewrite HC; [|set_solver|unfold dark; set_solver]. cbn [app]. by rewrite <- ?app_assoc.
  - destruct (all_fine es HK Hes) as (ts & Hss & Hws). exists ([40%N] ++ joined_by [32; 124; 32]%N ts ++ [41%N]).
    assert (W (S (list_max (map nests es))) (Prim (PExp "" (KChoice es))) ([40%N] ++ joined_by [32; 124; 32]%N ts ++ [41%N])) as HW.
    { apply w_paren, alter_expr, w_alter; [|done]. apply sequs_of; [done|]. destruct es; [cbn in Hl; lia|done]. }
    split; [|split; [by apply w_prim|done]]. intros r. cbn [string_of]. unfold prefix. cbn [String.eqb app]. rewrite <- ?app_assoc.
    unfold blue. rewrite HC; [|set_solver|unfold dark; set_solver].
    rewrite (seen_joined (coloured "[34m" [32; 124; 32]%N) [32; 124; 32]%N es ltac:(intros r'; apply HC; [set_solver|unfold dark; set_solver]) ts Hss).
    rewrite HC; [|set_solver|unfold dark; set_solver]. cbn [app]. by rewrite <- ?app_assoc.
  - apply Forall_cons in HK as [HV HJ]. destruct (HV Hv) as (t & Hs & _ & Hw). specialize (Hw Ho).
    assert (exists t', (forall r, seen (match j with Some x => string_of x | None => [] end ++ r) = t' ++ seen r) /\
      W (match j with Some x => nests x | None => 0 end) (Join j) t') as (t' & Hs' & Hw').
    { destruct Hj as [|x Hox Hx]; [exists []; split; [done|constructor]|]. apply Forall_cons in HJ as [HJ _]. destruct (HJ Hx) as (t' & Hs' & _ & Hw').
      exists t'. split; [done|]. by apply w_join, Hw'. }
    exists (t ++ [42%N] ++ t' ++ range_of mn mx). split; [|split; [|by intros [_ []]]].
    + intros r. cbn [string_of]. unfold prefix. cbn [String.eqb app]. rewrite <- ?app_assoc. rewrite Hs. unfold cyan at 1. rewrite HC; [|set_solver|unfold dark; set_solver].
      rewrite Hs'. rewrite seen_bounds by done. cbn [app]. by rewrite <- ?app_assoc.
    + cbn [nests]. assert (W (max (nests v) (match j with Some x => nests x | None => 0 end)) (Prim v) t) as H1 by (eapply writes_more; [exact Hw|lia]).
      assert (W (max (nests v) (match j with Some x => nests x | None => 0 end)) (Join j) t') as H2 by (eapply writes_more; [exact Hw'|lia]).
      destruct (decide (mn = -1 /\ mx = -1)%Z) as [[-> ->]|Hne].
      * change (range_of (-1) (-1)) with (@nil N). rewrite app_nil_r. by apply w_star.
      * apply w_star_range; [done|done|]. apply range_writes; [done|done|]. lia.
  - apply Forall_cons in HK as [HA _]. destruct (HA Ha) as (t & Hs & _ & Hw). exists (t ++ [63%N]). split; [|split; [by apply w_option, Hw|by intros [_ []]]].
    intros r. cbn [string_of]. unfold prefix. cbn [String.eqb app]. rewrite <- ?app_assoc. rewrite Hs. unfold blue. rewrite HC; [|set_solver|unfold dark; set_solver]. by cbn [app].
  - apply Forall_cons in HK as [HA _]. destruct (HA Ha) as (t & Hs & _ & Hw). exists ([33%N] ++ t). split; [|split; [by apply w_not, Hw|by intros [_ []]]].
    intros r. cbn [string_of]. unfold prefix. cbn [String.eqb app]. rewrite <- ?app_assoc. unfold yellow. rewrite HC; [|set_solver|unfold dark; set_solver]. rewrite Hs. by cbn [app].
  - apply Forall_cons in HK as [HA _]. destruct (HA Ha) as (t & Hs & Hw & _). exists ([40; 63]%N ++ t ++ [41%N]). split; [|split; [|by intros [_ []]]].
    + intros r. cbn [string_of]. unfold prefix. cbn [String.eqb app]. rewrite <- ?app_assoc. unfold blue. rewrite HC; [|set_solver|unfold dark; set_solver]. rewrite Hs.
      rewrite HC; [|set_solver|unfold dark; set_solver]. cbn [app]. by rewrite <- ?app_assoc.
    + apply w_look, alter_expr, w_one_sequ, w_one_unit. done.
Qed.
Lemma all_seen e : fine e.
Proof.
  induction e as [l k IH] using pexp_ind2. intros Hp. inversion Hp as [l' k' Hl Hk]; subst. destruct (fine_kind k IH Hk) as (t & Hs & Hw & Hop).
  destruct (String.eqb_spec l "") as [-> |Hne].
  - exists t. split; [done|]. split; [by apply w_unit|done].
  - destruct Hl as [?|Hl]; [done|]. exists (s2b l ++ [58%N] ++ t). split; [|split; [by apply w_label|by intros [? _]]].
    intros r. unfold sees in Hs. cbn [string_of] in *. unfold prefix at 1 in Hs. cbn [String.eqb app] in Hs. unfold prefix at 1.
    destruct (String.eqb_spec l "") as [?|_]; [done|]. rewrite <- app_assoc. unfold cyan at 1. rewrite seen_coloured; [|set_solver|].
    + rewrite Hs. by rewrite <- ?app_assoc.
    + pose proof (label_dark l Hl). unfold dark in *. set_solver.
Qed.
Lemma seen_writes e : printable e -> W (nests e) (Expr e) (seen (string_of e)).
Proof.
  intros Hp. destruct (all_seen e Hp) as (t & Hs & Hw & _). specialize (Hs []). rewrite app_nil_r in Hs. change (seen []) with (@nil N) in Hs. rewrite app_nil_r in Hs.
  rewrite Hs. by apply alter_expr, w_one_sequ, w_one_unit.
Qed.
End Show.
