(** Grammars that differ in the names of their rules only: a specification on
    built grammars, left recursion included. *)
From Verif Require Import Base Helpers Native Engine.

(** The same settings; numbers and the options of memoised parsers matter for
    these only. *)
Definition info_twin (i i' : info) : Prop :=
  i_label i' = i_label i /\ (i_label i <> EmptyString -> i_wraps i' = i_wraps i) /\ i_isrule i' = i_isrule i /\ i_cb i' = i_cb i /\
  (i_isrule i = true -> i_id i' = i_id i /\ i_skip i' = i_skip i /\ i_debug i' = i_debug i).
(** [R]: which name stands for which in a reference. *)
Inductive twin (R : string -> string -> Prop) : node -> node -> Prop :=
| tw_str i i' s : info_twin i i' -> twin R (Node i (KStr s)) (Node i' (KStr s))
| tw_regex i i' s : info_twin i i' -> twin R (Node i (KRegex s)) (Node i' (KRegex s))
| tw_ref i i' nm nm' : info_twin i i' -> R nm nm' -> twin R (Node i (KRef nm)) (Node i' (KRef nm'))
| tw_seq i i' t l l' : info_twin i i' -> Forall2 (fun a a' => twin R a a' /\ i_capture (n_info a') = i_capture (n_info a)) l l' ->
    twin R (Node i (KSeq t l)) (Node i' (KSeq t l'))
| tw_choice i i' l l' : info_twin i i' -> Forall2 (twin R) l l' -> twin R (Node i (KChoice l)) (Node i' (KChoice l'))
| tw_pat i i' v v' j j' mn mx : info_twin i i' -> twin R v v' -> option_Forall2 (twin R) j j' ->
    twin R (Node i (KPat v j mn mx)) (Node i' (KPat v' j' mn mx))
| tw_exist i i' a a' : info_twin i i' -> twin R a a' -> twin R (Node i (KExist a)) (Node i' (KExist a'))
| tw_look i i' a a' : info_twin i i' -> twin R a a' -> twin R (Node i (KLook a)) (Node i' (KLook a'))
| tw_not i i' a a' : info_twin i i' -> twin R a a' -> twin R (Node i (KNot a)) (Node i' (KNot a'))
| tw_undef i i' : info_twin i i' -> twin R (Node i KUndef) (Node i' KUndef).
(** References that correspond find rules that correspond, or both find none. *)
Definition both_find (R : string -> string -> Prop) (o o' : option node) : Prop :=
  match o, o' with Some n, Some n' => twin R n n' | None, None => True | _, _ => False end.
Definition twins (R : string -> string -> Prop) (g g' : gram) : Prop :=
  g_nrules g' = g_nrules g /\ g_tstack g' = g_tstack g /\ g_tloop g' = g_tloop g /\ g_tfilter g' = g_tfilter g /\
  twin R (g_rank g) (g_rank g') /\ forall nm nm', R nm nm' -> both_find R (g_rule g nm) (g_rule g' nm').
