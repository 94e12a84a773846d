(** Labels, merging, and the values already returned (C37). *)
From Verif Require Import Base Helpers Utf8 Stream StreamSpec Native Engine EngSpec Toy RunSpec KeepSpec Keep.

(** In a sequence  k:c g  whose second part carries the merging label, when g
    gives NativeUndefined (an optional group that did not match) the result is
    the map {k: x} made before g was tried. *)
Theorem C37_absent_partial : forall (E : env) (fuel : nat) (i : info) (c g : node) (k : string) (s s1 s2 : st) (x : ast),
  i_isrule i = false /\ i_label i = EmptyString /\ i_cb i = None ->
  k <> EmptyString /\ k <> "@"%string /\ k <> "&"%string ->
  i_label (n_info c) = k -> i_label (n_info g) = "@"%string ->
  parse E fuel c s = Ok (Some x) s1 ->
  parse E fuel g (with_map k s1 x) = Ok (Some AUndef) s2 ->
  parse E (S fuel) (Node i (KSeq TObject [c; g])) s = Ok (Some (AObj (the_map s1))) s2.
Proof. intros E fuel i c g k s s1 s2 x Hi Hk Hc Hg. exact (two_absent E fuel i c g k Hi Hk Hc Hg s s1 s2 x). Qed.
Print Assumptions C37_absent_partial.

(** When g gives a map, its entries are added to {k: x}, and no other object
    that existed is altered.  Missing: groups that give something else
    ([C37_group_refuted]), and groups that come first ([C37_alias_refuted]). *)
Theorem C37_present_partial : forall (E : env) (fuel : nat) (i : info) (c g : node) (k : string) (s s1 s2 : st) (x : ast) (b : nat) (m : nmap) (o : obj),
  i_isrule i = false /\ i_label i = EmptyString /\ i_cb i = None ->
  k <> EmptyString /\ k <> "@"%string /\ k <> "&"%string ->
  i_label (n_info c) = k -> i_label (n_info g) = "@"%string ->
  parse E fuel c s = Ok (Some x) s1 ->
  cb_keeps E -> merge_free E g ->
  parse E fuel g (with_map k s1 x) = Ok (Some (AObj b)) s2 ->
  s_heap s2 !! b = Some o -> o_body o = OMap m -> map_ok m -> b <> the_map s1 ->
  exists s3 m3 at3, parse E (S fuel) (Node i (KSeq TObject [c; g])) s = Ok (Some (AObj (the_map s1))) s3 /\
    s_heap s3 !! the_map s1 = Some (Obj (OMap m3) at3) /\ union_of (nm_single k x) m m3 /\
    kept (s_heap s1) (s_heap s3) /\ s_heap s3 !! b = Some o.
Proof. intros E fuel i c g k s s1 s2 x b m o Hi Hk Hc Hg Pc. exact (two_present E fuel i c g k Hi Hk Hc Hg s s1 s2 x Pc b m o). Qed.
Print Assumptions C37_present_partial.

(** Without merging labels nothing that was returned is altered afterwards:
    every object that exists when a parser is called has the same contents
    when it returns, left recursion or not. *)
Theorem C37_kept_partial : forall (E : env) (root : node) (fuel : nat) (n : node) (s : st) (r : option ast) (s' : st),
  cb_keeps E -> merge_free E root -> uses E root n ->
  parse E fuel n s = Ok r s' -> kept (s_heap s) (s_heap s').
Proof. intros E root fuel n s r s' Hcb HF Hn. exact (kp_parse E Hcb root fuel HF n Hn s r s'). Qed.
Print Assumptions C37_kept_partial.

(** (a:X)? b:Y : the group of one part is that part itself, so its value is not
    put under "a"; being no map, it makes the parse panic. *)
Definition opt (n : node) : node := Node (ni true) (KExist n).
Definition group_rules : list (string * node) :=
  [("S", rule "S" 0 (KSeq TObject [named "@" (opt (named "a" (ref "X"))); named "b" (ref "Y")]));
   ("X", rule "X" 1 (KStr (s2b "x"))); ("Y", rule "Y" 2 (KStr (s2b "y")))]%string.
Definition s_top (id : nat) : node := rank [rule "__root__[0]" id (KRef "S")].
Theorem C37_group_refuted : exists (g : gram) (text : bytes) (fuel : nat) (s' : st),
  (* the rule S is  (a:X)? b:Y *)
  g_rule g "S"%string = Some (rule "S" 0 (KSeq TObject [named "@" (opt (named "a" (ref "X"))); named "b" (ref "Y")])) /\
  fst (parse_string fuel g mute no_rx no_cb text) = Panic (PMsg "assert") s'.
Proof.
  assert (sum id (fst (parse_string 50 (toy_gram (s_top 3) 4 group_rules) mute no_rx no_cb (s2b "xy"))) = Panicked (PMsg "assert")) as H by (vm_compute; reflexivity).
  destruct (fst (parse_string 50 (toy_gram (s_top 3) 4 group_rules) mute no_rx no_cb (s2b "xy"))) as [?|p s'|] eqn:E1; [discriminate H| |discriminate H].
  injection H as ->. exists (toy_gram (s_top 3) 4 group_rules), (s2b "xy"), 50, s'. split; [reflexivity|exact E1].
Qed.
Print Assumptions C37_group_refuted.

(** S <- @:X b:B 'foo' | @:X 'bar' ; X <- a:'x' ; B <- 'b' .  On "xbar" the first
    alternative fails, but has put "b" into the map of X, which the second one
    takes from the cache. *)
Definition alias_rules (first : bool) : list (string * node) :=
  [("S", rule "S" 0 (KChoice
      ((if first then [rule "S[0]" 1 (KSeq TObject [named "@" (ref "X"); named "b" (ref "B"); str "foo"])] else []) ++
       [rule "S[1]" 2 (KSeq TObject [named "@" (ref "X"); str "bar"])])));
   ("X", rule "X" 3 (KSeq TObject [named "a" (cstr "x")])); ("B", rule "B" 4 (KStr (s2b "b")))]%string.
Definition map_of (o : outcome (option ast)) : option (list string) :=
  match o with
  | Ok (Some (AObj a)) s => match s_heap s !! a with Some (Obj (OMap m) _) => Some (nm_keys m) | _ => None end
  | _ => None
  end.
Theorem C37_alias_refuted : exists (text : bytes) (fuel : nat),
  let run first := fst (parse_string fuel (toy_gram (s_top 5) 6 (alias_rules first)) mute no_rx no_cb text) in
  map_of (run false) = Some ["a"]%string /\ map_of (run true) = Some ["a"; "b"]%string.
Proof. exists (s2b "xbar"), 50. split; vm_compute; reflexivity. Qed.
Print Assumptions C37_alias_refuted.

(** S <- k:'k' (a:'x' 'z')? ; callbacks that leave what they get alone. *)
Definition opt_inner : node := Node (ni true) (KSeq TObject [named "a" (cstr "x"); str "z"]).
Definition opt_group : node := named "@" (opt opt_inner).
Definition opt_seq : node := Node (ni true) (KSeq TObject [named "k" (cstr "k"); opt_group]).
Definition opt_rules : list (string * node) := [("S", rule "S" 0 (KChoice [opt_seq]))]%string.
Definition opt_env : env := toy_env 2 opt_rules no_cb.
Lemma no_cb_keeps n rules : cb_keeps (toy_env n rules no_cb).
Proof. intros c p h x h' r H. cbn in H. unfold no_cb in H. injection H as <- _. apply kept_refl. Qed.
Lemma opt_free : merge_free opt_env opt_group.
Proof.
  assert (forall n, uses opt_env opt_group n -> n ∈ [opt_group; opt_inner; named "a" (cstr "x"); str "z"]) as H.
  { intros n Hn. induction Hn as [|n c _ IH Hc|n name t _ IH Hk Ht]; [left| |].
    - repeat (apply elem_of_cons in IH as [->|IH]; [cbn in Hc; repeat (apply elem_of_cons in Hc as [->|Hc]; [repeat constructor|]); by apply elem_of_nil in Hc|]).
      by apply elem_of_nil in IH.
    - repeat (apply elem_of_cons in IH as [->|IH]; [discriminate Hk|]). by apply elem_of_nil in IH. }
  intros n c Hn Hc. specialize (H n Hn). clear Hn.
  repeat (apply elem_of_cons in H as [->|H]; [cbn in Hc; repeat (apply elem_of_cons in Hc as [->|Hc]; [done|]); by apply elem_of_nil in Hc|]).
  by apply elem_of_nil in H.
Qed.
Example C37_nonvacuous :
  cb_keeps opt_env /\ merge_free opt_env opt_group /\
  (forall t, t ∈ ["k"; "kxz"]%string -> exists s1 s2 y,
     parse opt_env 50 (named "k" (cstr "k")) (init_st (CRune (new_rune_stream (s2b t))) 2) = Ok (Some (AStr (s2b "k"))) s1 /\
     parse opt_env 50 opt_group (with_map "k" s1 (AStr (s2b "k"))) = Ok (Some y) s2 /\
     (if String.eqb t "k" then y = AUndef
      else y = AObj 1 /\ the_map s1 = 0 /\
           s_heap s2 !! 1 = Some (Obj (OMap (nm_set nm_empty "a" (AStr (s2b "x")))) attr0) /\ map_ok (nm_set nm_empty "a" (AStr (s2b "x"))))) /\
  map_of (toy_run 50 (toy_gram (s_top 1) 2 opt_rules) "k") = Some ["k"]%string /\
  map_of (toy_run 50 (toy_gram (s_top 1) 2 opt_rules) "kxz") = Some ["k"; "a"]%string.
Proof.
  split; [apply no_cb_keeps|]. split; [apply opt_free|]. split.
  { intros t Ht. repeat (apply elem_of_cons in Ht as [->|Ht]); [| |by apply elem_of_nil in Ht];
      (eexists _, _, _; split; [lazy; reflexivity|split; [lazy; reflexivity|]]).
    - reflexivity.
    - split; [reflexivity|]. split; [reflexivity|]. split; [reflexivity|].
      intros k Hk. cbn in Hk. apply elem_of_list_singleton in Hk as ->. discriminate. }
  split; vm_compute; reflexivity.
Qed.
