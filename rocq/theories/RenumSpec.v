(** Grammars that differ in the names and in the numbers of their rules: a
    specification on built grammars, left recursion included. *)
From Verif Require Import Base Helpers Native Engine SimSpec.

Section Renum.
(** [R]: which name stands for which in a reference; [pi]: which number for
    which. *)
Variables (R : string -> string -> Prop) (pi : nat -> nat) (n : nat).
Definition info_renum (i i' : info) : Prop :=
  i_label i' = i_label i /\ (i_label i <> EmptyString -> i_wraps i' = i_wraps i) /\ i_isrule i' = i_isrule i /\ i_cb i' = i_cb i /\
  (i_isrule i = true -> i_id i < n /\ i_id i' = pi (i_id i) /\ i_skip i' = i_skip i /\ i_debug i' = i_debug i).
Inductive renum : node -> node -> Prop :=
| re_str i i' s : info_renum i i' -> renum (Node i (KStr s)) (Node i' (KStr s))
| re_regex i i' s : info_renum i i' -> renum (Node i (KRegex s)) (Node i' (KRegex s))
| re_ref i i' nm nm' : info_renum i i' -> R nm nm' -> renum (Node i (KRef nm)) (Node i' (KRef nm'))
| re_seq i i' t l l' : info_renum i i' -> Forall2 (fun a a' => renum a a' /\ i_capture (n_info a') = i_capture (n_info a)) l l' ->
    renum (Node i (KSeq t l)) (Node i' (KSeq t l'))
| re_choice i i' l l' : info_renum i i' -> Forall2 renum l l' -> renum (Node i (KChoice l)) (Node i' (KChoice l'))
| re_pat i i' v v' j j' mn mx : info_renum i i' -> renum v v' -> option_Forall2 renum j j' ->
    renum (Node i (KPat v j mn mx)) (Node i' (KPat v' j' mn mx))
| re_exist i i' a a' : info_renum i i' -> renum a a' -> renum (Node i (KExist a)) (Node i' (KExist a'))
| re_look i i' a a' : info_renum i i' -> renum a a' -> renum (Node i (KLook a)) (Node i' (KLook a'))
| re_not i i' a a' : info_renum i i' -> renum a a' -> renum (Node i (KNot a)) (Node i' (KNot a'))
| re_undef i i' : info_renum i i' -> renum (Node i KUndef) (Node i' KUndef).
Definition both_have (o o' : option node) : Prop :=
  match o, o' with Some n, Some n' => renum n n' | None, None => True | _, _ => False end.
(** What is noted of a run, with the other numbers. *)
Definition ev_renum (e : event) : event :=
  match e with EvBody id p => EvBody (pi id) p | EvSkip id p => EvSkip (pi id) p | EvRec id p => EvRec (pi id) p | EvCb c p => EvCb c p end.
Definition outcome_renum {A} (o1 o2 : outcome A) : Prop :=
  match o1, o2 with
  | Ok a1 s1, Ok a2 s2 => a1 = a2 /\ heap_like false (s_heap s1) (s_heap s2) /\ st_pos s1 = st_pos s2 /\ s_log s2 = map ev_renum (s_log s1)
  | Panic p1 s1, Panic p2 s2 => p1 = p2 /\ s_log s2 = map ev_renum (s_log s1)
  | OutOfFuel, OutOfFuel => True
  | _, _ => False
  end.
End Renum.
(** The second grammar may have rules that the first has not. *)
Record renums (R : string -> string -> Prop) (pi : nat -> nat) (g g' : gram) : Prop := {
  rg_inj : forall i j, i < g_nrules g -> j < g_nrules g -> pi i = pi j -> i = j;
  rg_in : forall i, i < g_nrules g -> pi i < g_nrules g';
  rg_stack : g_tstack g' = g_tstack g;
  rg_loop : g_tloop g' = g_tloop g;
  rg_filter : g_tfilter g' = g_tfilter g;
  rg_rank : renum R pi (g_nrules g) (g_rank g) (g_rank g');
  rg_rule : forall nm nm', R nm nm' -> both_have R pi (g_nrules g) (g_rule g nm) (g_rule g' nm') }.
