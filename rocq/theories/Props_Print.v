(** C69: printing a parser. *)
From Verif Require Import Base Helpers Utf8 Utf8Spec Stream Native Engine Build Joeson JoesonSpec JoesonRun TextSpec TextRun PrintSpec Print ShownSpec ShownProofs.

(** What is seen of a printed parser (without the colours) compiles to that
    parser: with no regular expression in it, strings without quotes and control
    characters, and operators applied to names, strings, sequences or choices. *)
Theorem C69_printed_partial : forall re_ok e, printable e -> nests e <= 72 ->
  exists f0, forall fuel, f0 <= fuel -> compile_with re_ok fuel (gram_of hand) (seen (string_of e)) = ROk e.
Proof. intros re_ok e He Hd. eapply compile_writes; [by apply seen_writes|done]. Qed.
Print Assumptions C69_printed_partial.

Definition ref (s : string) : pexp := PExp "" (KRef s).
(** A regular expression is printed in parentheses and with [g] after it: another
    parser. *)
Theorem C69_regex_refuted : exists s e, before 47 s /\
  compile_with (fun _ => true) 4000 (gram_of hand) (seen (string_of (PExp "" (KRegex s)))) = ROk e /\ e <> PExp "" (KRegex s).
Proof.
  exists (s2b "a"), (PExp "" (KSeq TSingle [PExp "" (KRegex (s2b "(a)")); ref "g"])). split; [|split; [vm_compute; reflexivity|discriminate]].
  apply (b_char 47 97 [97%N] []); [by constructor|done|done|constructor].
Qed.
Print Assumptions C69_regex_refuted.
(** A newline is printed as an escape that stands for the letter n; a quote is
    printed as it is, which no longer compiles. *)
Theorem C69_string_refuted :
  compile_with (fun _ => true) 4000 (gram_of hand) (seen (string_of (PExp "" (KStr [10%N])))) = ROk (PExp "" (KStr [110%N])) /\
  exists msg, compile_with (fun _ => true) 4000 (gram_of hand) (seen (string_of (PExp "" (KStr [39%N])))) = RPanic (PMsg msg).
Proof. split; [vm_compute; reflexivity|]. eexists. vm_compute. reflexivity. Qed.
Print Assumptions C69_string_refuted.
Definition letter_b (b : N) : bool := (((97 <=? b) && (b <=? 122)) || ((65 <=? b) && (b <=? 90)) || (b =? 46) || (b =? 95))%N%bool.
Lemma letter_ok b : letter_b b = true -> letter b.
Proof. unfold letter_b, letter. rewrite !orb_true_iff, !andb_true_iff, !N.leb_le, !N.eqb_eq. lia. Qed.
Lemma name_ok s : forallb letter_b (s2b s) = true -> s2b s <> [] -> name s.
Proof.
  unfold name. destruct (s2b s) as [|b r]; [done|]. cbn [forallb]. intros [H1 H2]%andb_prop _. split; [by apply letter_ok|].
  rewrite forallb_forall in H2. apply Forall_forall. intros c Hc. left. apply letter_ok, H2. by apply elem_of_list_In.
Qed.
Lemma some_names : name "PRIMARY" /\ name "__" /\ name "a" /\ name "b" /\ name "c" /\ name "x" /\ name "value" /\ name "join".
Proof. do 7 (split; [apply name_ok; [vm_compute; reflexivity|discriminate]|]). apply name_ok; [vm_compute; reflexivity|discriminate]. Qed.
(** Different parsers print the same, colours included. *)
Theorem C69_ambiguous_refuted : exists e e', writable (fun _ => true) e /\ writable (fun _ => true) e' /\ e <> e' /\ string_of e = string_of e'.
Proof.
  exists (PExp "" (KExist (PExp "x" (KRef "a")))), (PExp "x" (KExist (PExp "" (KRef "a")))).
  destruct some_names as (_ & _ & Ha & _ & _ & Hx & _).
  split; [|split; [|split; [discriminate|reflexivity]]].
  - apply wr_exp; [by left|]. apply wr_exist, wr_exp; [right; right; right; exact Hx|]. by apply wr_ref.
  - apply wr_exp; [right; right; right; exact Hx|]. apply wr_exist, wr_exp; [by left|]. by apply wr_ref.
Qed.
Print Assumptions C69_ambiguous_refuted.

(** An expression with every other operator. *)
Definition a_rule : pexp :=
  PExp "" (KChoice [
    PExp "" (KSeq TSingle [
      PExp "value" (KRef "PRIMARY"); PExp "" (KStr (s2b "a\b"));
      PExp "join" (KExist (PExp "" (KSeq TSingle [PExp "" (KNot (ref "__")); ref "PRIMARY"])));
      PExp "&" (KPat (ref "c") (Some (PExp "" (KStr (s2b ",")))) 1 (-1))]);
    PExp "" (KLook (PExp "" (KChoice [ref "a"; PExp "x" (KPat (ref "b") None (-1) (-1))])))]).
Example a_rule_seen : seen (string_of a_rule) = s2b "((value:PRIMARY 'a\\b' join:(!__ PRIMARY)? &:c*','{1,}) | (?(a | x:b*)))" /\ nests a_rule <= 72.
Proof. split; [vm_compute; reflexivity|apply Nat.leb_le; by vm_compute]. Qed.
Example a_rule_printable : printable a_rule.
Proof.
  destruct some_names as (N1 & N2 & N3 & N4 & N5 & N6 & N7 & N8). unfold a_rule, ref.
  assert (forall s, Forall (fun b => b < 128 /\ b <> 39 /\ b <> 27 /\ 13 < b)%N s -> printable_kind (KStr s)) as HS.
  { intros s Hs. apply (pb_str s s).
    - clear -Hs. induction Hs as [|b s [Hb _] Hs IH]; [constructor|]. change (b :: s) with ([b] ++ s) at 2. constructor; [by constructor|done].
    - eapply Forall_impl; [exact Hs|]. intros b (? & ? & ? & ?). unfold plain. lia. }
  repeat first [apply pb_exp | apply pb_choice | apply pb_seq | apply pb_cons | apply pb_nil | apply pb_exist | apply pb_not | apply pb_look | apply pb_pat
    | apply pb_some | apply pb_none | apply pb_ref]; try (by left); try (right; unfold label_name; tauto); try (cbn; lia); try tauto.
  all: try (apply HS; repeat (apply Forall_cons; split; [lia|]); apply Forall_nil; exact I). all: try (unfold bound_ok; lia).
  all: try (cbn; tauto). all: try (apply HS; vm_compute s2b; repeat (constructor; [repeat split; lia|]); constructor).
Qed.
