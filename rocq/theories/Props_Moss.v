(** Theorems on the study of precedence (examples/precedence). *)
From Verif Require Import Base Helpers Utf8 Stream Native Engine Build CalcSpec CalcAllSpec Moss MossRun MossSpec MossPeg MossRank MossRight MossDeep.

(** growMoss returns the left fold of the operations, however many. *)
Theorem C51_fold ostr h first l : exists t,
  grow_moss ostr h (AArr [first; AArr ((fun '(op, e) => AArr [AStr op; e]) <$> l)]) = Some t /\ left_nested first l t.
Proof. exact (grow_moss_left ostr h first l). Qed.
Print Assumptions C51_fold.

(** The left-recursive grammar of the example gives for every chain of
    operations the tree nested to the left. *)
Theorem C51_parse ostr o t s : po_debug o = false -> written t s ->
  exists fuel0, forall fuel, fuel0 <= fuel -> exists s',
    fst (parse_string fuel (gram_of moss) o moss_rx (moss_cb ostr) s) = Ok (Some (tree_ast t)) s'.
Proof. intros Ho. exact (moss_trees ostr o Ho t s). Qed.
Print Assumptions C51_parse.

(** ["3-2 -1"]. *)
Example written_321 : written (Join (Join (Leaf 51) 45 50) 45 49) (s2b "3-2 -1") /\
  tree_ast (Join (Join (Leaf 51) 45 50) 45 49) = AUser 0 [AUser 0 [AStr (s2b "3"); AStr (s2b "-"); AStr (s2b "2")]; AStr (s2b "-"); AStr (s2b "1")].
Proof.
  split; [|reflexivity].
  apply (w_join _ (s2b "3-2") (s2b " ") 45 [] 49); [|repeat constructor|constructor|by right|unfold a_glyph; lia].
  apply (w_join _ (s2b "3") [] 45 [] 50); [|constructor|constructor|by right|unfold a_glyph; lia].
  apply w_leaf. unfold a_glyph; lia.
Qed.

(** Every other text is refused, and a text has one tree at most. *)
Theorem C51_refuses ostr o s : po_debug o = false -> (forall t, ~ written t s) ->
  exists fuel0, forall fuel, fuel0 <= fuel -> exists s',
    match s with
    | [] => fst (parse_string fuel (gram_of moss) o moss_rx (moss_cb ostr) s) = Ok None s'
    | _ => exists k, fst (parse_string fuel (gram_of moss) o moss_rx (moss_cb ostr) s) = Ok (Some (AErr k)) s' /\ k <= length s
    end.
Proof. intros Ho. exact (moss_other ostr o Ho s). Qed.
Print Assumptions C51_refuses.
Theorem C51_unique t t' s : written t s -> written t' s -> t = t'.
Proof. exact (moss_unique (fun _ => []) (POpts false false false) eq_refl t t' s). Qed.
Print Assumptions C51_unique.
(** ["3-"] and ["3 2"]. *)
Example not_written : (forall t, ~ written t (s2b "3-")) /\ (forall t, ~ written t (s2b "3 2")).
Proof. split; [exact not_chain_end|exact not_chain_op]. Qed.

(** The two ways to write the grammar, as one rule and as a rank, give the same
    answers. *)
Theorem C74_same ostr o s : po_debug o = false ->
  exists fuel0, forall fuel, fuel0 <= fuel -> exists x y s1 s2,
    fst (parse_string fuel (gram_of moss) o moss_rx (moss_cb ostr) s) = Ok x s1 /\
    fst (parse_string fuel (gram_of moss_rank) o moss_rx (moss_cb ostr) s) = Ok y s2 /\ same_answer x y.
Proof. intros Ho. exact (rank_same ostr o Ho s). Qed.
Print Assumptions C74_same.
Theorem C74_rank ostr o t s : po_debug o = false -> written t s ->
  exists fuel0, forall fuel, fuel0 <= fuel -> exists s',
    fst (parse_string fuel (gram_of moss_rank) o moss_rx (moss_cb ostr) s) = Ok (Some (tree_ast t)) s'.
Proof. intros Ho. exact (rank_trees ostr o Ho t s). Qed.
Print Assumptions C74_rank.
(** The grammars are what GrammarFromLines makes of the lines. *)
Example C74_ex : build moss_compile 300 "at hand" moss_lines = ROk moss /\ build moss_compile 300 "at hand" moss_rank_lines = ROk moss_rank /\
  moss_rank_rules = ROk <$> moss_rank_lines.
Proof. split; [exact moss_eq|]. split; [exact moss_rank_eq|exact moss_rank_rules_ok]. Qed.

(** The grammar that recurs to the right: every chain gives the tree nested to
    the right, every other text is refused. *)
Theorem C75_right ostr o t s : po_debug o = false -> rwritten t s -> length s <= 2000 ->
  exists fuel0, forall fuel, fuel0 <= fuel -> exists s',
    fst (parse_string fuel (gram_of moss_right) o moss_rx (moss_cb ostr) s) = Ok (Some (rtree_ast t)) s'.
Proof. intros Ho. exact (right_chains ostr o Ho t s). Qed.
Print Assumptions C75_right.
Theorem C75_refuses ostr o s : po_debug o = false -> (forall t, ~ rwritten t s) -> length s <= 2000 ->
  exists fuel0, forall fuel, fuel0 <= fuel -> exists s',
    match s with
    | [] => fst (parse_string fuel (gram_of moss_right) o moss_rx (moss_cb ostr) s) = Ok None s'
    | _ => exists k, fst (parse_string fuel (gram_of moss_right) o moss_rx (moss_cb ostr) s) = Ok (Some (AErr k)) s' /\ k <= length s
    end.
Proof. intros Ho. exact (right_others ostr o Ho s). Qed.
Print Assumptions C75_refuses.
(** With two operators or more it is never the tree of the other grammar. *)
Theorem C75_differs ostr o t s : po_debug o = false -> rwritten t s -> 4 < length s <= 2000 ->
  exists fuel0, forall fuel, fuel0 <= fuel -> exists x y s1 s2,
    fst (parse_string fuel (gram_of moss_right) o moss_rx (moss_cb ostr) s) = Ok x s1 /\
    fst (parse_string fuel (gram_of moss) o moss_rx (moss_cb ostr) s) = Ok y s2 /\ ~ same_answer x y.
Proof. intros Ho. exact (right_differs ostr o Ho t s). Qed.
Print Assumptions C75_differs.
(** ["3-2-1"]. *)
Example C75_ex : rwritten (RJoin 51 45 (RJoin 50 45 (RLeaf 49))) (s2b "3-2-1") /\
  rtree_ast (RJoin 51 45 (RJoin 50 45 (RLeaf 49))) = AUser 0 [AStr (s2b "3"); AStr (s2b "-"); AUser 0 [AStr (s2b "2"); AStr (s2b "-"); AStr (s2b "1")]] /\
  build moss_compile 300 "at hand" moss_right_lines = ROk moss_right.
Proof.
  split; [|split; [reflexivity|exact moss_right_eq]]. change (s2b "3-2-1") with [51; 45; 50; 45; 49]%N. do 2 (apply rw_join; [unfold a_glyph; lia|by right|]). apply rw_leaf. unfold a_glyph. lia.
Qed.

(** Two levels of precedence and parentheses: every text of an expression gives
    its tree, any other text is refused, and no text has two trees. *)
Theorem C76_levels ostr o c s : po_debug o = false -> shown (fun w => w = []) 2 c s -> opens s <= 300 ->
  exists fuel0, forall fuel, fuel0 <= fuel -> exists s',
    fst (parse_string fuel (gram_of moss_levels) o moss_rx (moss_cb ostr) s) = Ok (Some (cexp_ast c)) s'.
Proof. intros Ho. exact (levels_trees ostr o Ho c s). Qed.
Print Assumptions C76_levels.
Theorem C76_refuses ostr o s : po_debug o = false -> (forall c, ~ shown (fun w => w = []) 2 c s) -> opens s <= 300 ->
  exists fuel0, forall fuel, fuel0 <= fuel -> exists s',
    match s with
    | [] => fst (parse_string fuel (gram_of moss_levels) o moss_rx (moss_cb ostr) s) = Ok None s'
    | _ => exists k, fst (parse_string fuel (gram_of moss_levels) o moss_rx (moss_cb ostr) s) = Ok (Some (AErr k)) s' /\ k <= length s
    end.
Proof. intros Ho. exact (levels_other ostr o Ho s). Qed.
Print Assumptions C76_refuses.
Theorem C76_unique c c' s : shown blank 2 c s -> shown blank 2 c' s -> c = c'.
Proof. exact (shown_unique c c' s). Qed.
Print Assumptions C76_unique.
(** ["(a+b)*c"]; ["a b"] has no tree. *)
Example C76_ex : shown (fun w => w = []) 2 (COp (CParen (COp (CGlyph 97) 43 (CGlyph 98))) 42 (CGlyph 99)) (s2b "(a+b)*c") /\
  cexp_ast (COp (CParen (COp (CGlyph 97) 43 (CGlyph 98))) 42 (CGlyph 99)) = AUser 0 [AUser 0 [AStr (s2b "a"); AStr (s2b "+"); AStr (s2b "b")]; AStr (s2b "*"); AStr (s2b "c")] /\
  build moss_compile 300 "at hand" moss_levels_lines = ROk moss_levels /\ moss_levels_rules = ROk <$> moss_levels_lines.
Proof. split; [exact shown_abc|]. split; [reflexivity|]. split; [exact moss_levels_eq|exact moss_levels_rules_ok]. Qed.
Example C76_no : (forall c, ~ shown (fun w => w = []) 2 c (s2b "a b")) /\ (forall c, ~ shown blank 2 c (s2b "a b")).
Proof. exact not_shown_ab. Qed.

(** The same grammar as a rank, with growMoss at [Factor] as well: the tree of
    every text without an operation in parentheses, a panic as soon as there is
    one. *)
Theorem C77_flat ostr o c s : po_debug o = false -> shown blank 2 c s -> flat c -> opens s <= 250 ->
  exists fuel0, forall fuel, fuel0 <= fuel -> exists s',
    fst (parse_string fuel (gram_of moss_deep) o moss_rx (moss_cb ostr) s) = Ok (Some (cexp_ast c)) s'.
Proof. intros Ho. exact (deep_trees ostr o Ho c s). Qed.
Print Assumptions C77_flat.
Theorem C77_panics ostr o c s : po_debug o = false -> shown blank 2 c s -> ~ flat c -> opens s <= 250 ->
  exists fuel0, forall fuel, fuel0 <= fuel -> exists k s',
    fst (parse_string fuel (gram_of moss_deep) o moss_rx (moss_cb ostr) s) = Panic (Base.PUser k) s'.
Proof. intros Ho. exact (deep_panics ostr o Ho c s). Qed.
Print Assumptions C77_panics.
Theorem C77_refuses ostr o s : po_debug o = false -> (forall c, ~ shown blank 2 c s) -> opens s = 0 ->
  exists fuel0, forall fuel, fuel0 <= fuel -> exists s',
    match s with
    | [] => fst (parse_string fuel (gram_of moss_deep) o moss_rx (moss_cb ostr) s) = Ok None s'
    | _ => exists k, fst (parse_string fuel (gram_of moss_deep) o moss_rx (moss_cb ostr) s) = Ok (Some (AErr k)) s' /\ k <= length s
    end.
Proof. intros Ho. exact (deep_other_bare ostr o Ho s). Qed.
Print Assumptions C77_refuses.
(** With parentheses it is refused or panics: what is missing is which. *)
Theorem C77_refuses_partial ostr o s : po_debug o = false -> (forall c, ~ shown blank 2 c s) -> opens s <= 250 ->
  exists fuel0, forall fuel, fuel0 <= fuel -> exists s',
    (exists k, fst (parse_string fuel (gram_of moss_deep) o moss_rx (moss_cb ostr) s) = Panic (Base.PUser k) s') \/
    match s with
    | [] => fst (parse_string fuel (gram_of moss_deep) o moss_rx (moss_cb ostr) s) = Ok None s'
    | _ => exists k, fst (parse_string fuel (gram_of moss_deep) o moss_rx (moss_cb ostr) s) = Ok (Some (AErr k)) s' /\ k <= length s
    end.
Proof. intros Ho. exact (deep_other ostr o Ho s). Qed.
Print Assumptions C77_refuses_partial.
(** The grammar of the test called more realistic, where "it still works": it
    panics on a sum and on a negation in parentheses, too. *)
Theorem C77_parens_refuted : exists c s, shown blank 2 c s /\
  (forall ostr o, po_debug o = false -> exists fuel0, forall fuel, fuel0 <= fuel -> exists k s',
     fst (parse_string fuel (gram_of moss_deep) o moss_rx (moss_cb ostr) s) = Panic (Base.PUser k) s') /\
  (exists s', fst (parse_string 300 (gram_of moss_real) (POpts false false false) moss_rx (moss_cb (fun _ => [])) s) = Panic (Base.PUser 1) s') /\
  (exists s', fst (parse_string 300 (gram_of moss_real) (POpts false false false) moss_rx (moss_cb (fun _ => [])) (s2b "(-a)")) = Panic (Base.PUser 1) s').
Proof. exact parens_panic. Qed.
Print Assumptions C77_parens_refuted.
(** ["(a) * m/n"] is flat. *)
Example C77_ex : shown blank 2 (COp (COp (CParen (CGlyph 97)) 42 (CGlyph 109)) 47 (CGlyph 110)) (s2b "(a) * m/n") /\
  flat (COp (COp (CParen (CGlyph 97)) 42 (CGlyph 109)) 47 (CGlyph 110)) /\ ~ flat (COp (CParen (COp (CGlyph 97) 43 (CGlyph 98))) 42 (CGlyph 99)) /\
  build moss_compile 300 "at hand" moss_deep_lines = ROk moss_deep /\ build moss_compile 300 "at hand" moss_real_lines = ROk moss_real.
Proof. split; [exact shown_amn|]. split; [done|]. split; [by intros [? _]|]. split; [exact moss_deep_eq|exact moss_real_eq]. Qed.
