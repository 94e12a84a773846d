(** References of a grammar made from lines. *)
From Verif Require Import Base Helpers Utf8 Stream Native Engine EngSpec Build BuildSpec BuildMain.

Section Referred.
Variables (compile : bytes -> res pexp) (fuel : nat) (name : string) (ls : list line) (b : node * list (string * node)).
Hypothesis Hb : build compile fuel name ls = ROk b.
Hypothesis Hnames : names_once ls.
Hypothesis Hsingle : no_singles compile ls.
Hypothesis Hname : name <> EmptyString.

Lemma last_filter {A} (f : A -> bool) l i x : l !! i = Some x -> f x = true -> (forall j y, i < j -> l !! j = Some y -> f y = false) ->
  last (List.filter f l) = Some x.
Proof.
  revert i. induction l as [|y l IH]; intros i Hi Hx Hl; [done|]. destruct i as [|i].
  - injection Hi as ->. cbn [List.filter]. rewrite Hx.
    assert (List.filter f l = []) as ->; [|done].
    assert (forall y, y ∈ l -> f y = false) as Hf; [intros z [j Hz]%elem_of_list_lookup; apply (Hl (S j) z); [lia|done]|].
    clear -Hf. induction l as [|y l IH]; [done|]. cbn [List.filter]. rewrite (Hf y) by left. apply IH. intros z Hz. apply Hf. by right.
  - cbn [List.filter]. assert (last (List.filter f l) = Some x) as H; [apply (IH i); [done..|]; intros j z Hj Hz; apply (Hl (S j) z); [lia|done]|].
    destruct (f y); [|done]. cbn [last]. destruct (List.filter f l); [discriminate H|done].
Qed.

Lemma referred o rx cb f n nm s : let E := mk_env (gram_of b) o rx cb in
  n_kind n = KRef nm -> i_isrule (n_info n) = false -> i_cb (n_info n) = None ->
  i_label (n_info n) = EmptyString \/ i_wraps (n_info n) = false -> (exists a r, s_stack s = a :: r /\ a < length (s_fheap s)) ->
  match List.filter (fun d => String.eqb (d_name d) nm) (decls name ls) with
  | [] => parse E (S f) n s = Panic (PMsg "Grammar has a reference to a type which is NOT defined") s
  | ds => exists d target, last ds = Some d /\ rule_of compile (snd b) d target /\ parse E (S f) n s = parse E f target s
  end.
Proof.
  intros E Hk Hr Hcb Hl Hs.
  assert (Hp : parse E (S f) n s = match g_rule (gram_of b) nm with
    | None => Panic (PMsg "Grammar has a reference to a type which is NOT defined") s
    | Some t => parse E f t s
    end).
  { cbn [parse]. unfold wrap. rewrite Hk, Hr, Hcb.
    assert (negb (String.eqb (i_label (n_info n)) "") && i_wraps (n_info n) = false)%bool as ->
      by (destruct Hl as [-> | ->]; [done|apply andb_false_r]).
    cbn [orb]. unfold body. rewrite Hk. change (e_rule E) with (g_rule (gram_of b)).
    destruct (g_rule (gram_of b) nm); [|done]. unfold bind, stack_peek. destruct Hs as (a & r & -> & Ha).
    unfold get_fr. apply lookup_lt_is_Some in Ha as [fr ->]. done. }
  pose proof (looked_up compile fuel name ls b Hb Hnames Hsingle Hname nm) as Hlk.
  rewrite Hp. destruct (g_rule (gram_of b) nm) as [t|].
  - destruct Hlk as (i & d & Hd & Hdn & Ht & Hrule & Hlast).
    assert (last (List.filter (fun d => String.eqb (d_name d) nm) (decls name ls)) = Some d) as HL.
    { apply (last_filter _ _ i); [done|by apply String.eqb_eq|]. intros j y Hj Hy. apply String.eqb_neq. by eapply Hlast. }
    destruct (List.filter _ _); [discriminate HL|]. exists d, t. split; [done|]. split; [done|]. done.
  - destruct (List.filter _ _) as [|d l] eqn:HF; [done|]. exfalso. apply Hlk.
    assert (In d (List.filter (fun d => String.eqb (d_name d) nm) (decls name ls))) as Hin by (rewrite HF; by left).
    apply filter_In in Hin as [Hin Hd]. apply String.eqb_eq in Hd as <-. apply elem_of_list_fmap. exists d. split; [done|]. by apply elem_of_list_In.
Qed.
End Referred.
