(** How a lookahead takes its operand. *)
From Verif Require Import Base Helpers Utf8 Stream Native Engine Build Joeson JoesonSpec JoesonRun TextSpec TextRun LookSpec LookMain LookOpen.

(** Texts without labels, lookaheads without parentheses included, compile to
    the expression they write. *)
Theorem C88_compile_text : forall re_ok o n e w s, plain re_ok o n (Alter e) s -> gap w -> n <= 72 ->
  exists f0, forall fuel, f0 <= fuel -> compile_with re_ok fuel (gram_of hand) (w ++ s) = ROk e.
Proof. exact compile_plain. Qed.
Print Assumptions C88_compile_text.

(** The README: [α ?Ω | β] is grouped as [α (?Ω | β)]. Both texts give the same parser,
    a sequence that ends in a lookahead for the choice. *)
Theorem C88_grouped : forall re_ok n us os bs a w om w1 w2 b,
  plain re_ok false n (Units us) a -> plain re_ok false n (Units os) om -> plain re_ok false n (Sequs bs) b ->
  gap w -> w <> [] -> gap w1 -> gap w2 -> n <= 70 ->
  let e := PExp "" (KSeq TSingle (us ++ [look (PExp "" (KChoice (seq_of os :: bs)))])) in
  exists f0, forall fuel, f0 <= fuel ->
    compile_with re_ok fuel (gram_of hand) (a ++ w ++ s2b "?" ++ om ++ w1 ++ s2b "|" ++ w2 ++ b) = ROk e /\
    compile_with re_ok fuel (gram_of hand) (a ++ w ++ s2b "(?" ++ (om ++ w1 ++ s2b "|" ++ w2 ++ b) ++ s2b ")") = ROk e.
Proof.
  intros re_ok n us os bs a w om w1 w2 b Ha Ho Hb Hw Hw0 Hw1 Hw2 Hn e.
  destruct (compile_plain re_ok true (S n) e [] _ (group_open re_ok n us os bs a w om w1 w2 b Ha Ho Hb Hw Hw0 Hw1 Hw2) ltac:(constructor) ltac:(lia)) as [f1 H1].
  destruct (compile_plain re_ok false (S (S n)) e [] _ (group_paren re_ok n us os bs a w om w1 w2 b Ha Ho Hb Hw Hw0 Hw1 Hw2) ltac:(constructor) ltac:(lia)) as [f2 H2].
  exists (max f1 f2). intros fuel Hf. split; [apply H1; lia|apply H2; lia].
Qed.
Print Assumptions C88_grouped.

(** The README's advice, [α (?Ω) | β], gives the choice of the two. *)
Theorem C88_explicit : forall re_ok n us os bs a w om w1 w2 b,
  plain re_ok false n (Units us) a -> plain re_ok false n (Units os) om -> plain re_ok false n (Sequs bs) b ->
  gap w -> w <> [] -> gap w1 -> gap w2 -> n <= 70 ->
  exists f0, forall fuel, f0 <= fuel ->
    compile_with re_ok fuel (gram_of hand) (a ++ w ++ s2b "(?" ++ om ++ s2b ")" ++ w1 ++ s2b "|" ++ w2 ++ b) =
      ROk (PExp "" (KChoice (PExp "" (KSeq TSingle (us ++ [look (seq_of os)])) :: bs))).
Proof.
  intros re_ok n us os bs a w om w1 w2 b Ha Ho Hb Hw Hw0 Hw1 Hw2 Hn.
  exact (compile_plain re_ok false (S (S n)) _ [] _ (group_explicit re_ok n us os bs a w om w1 w2 b Ha Ho Hb Hw Hw0 Hw1 Hw2) ltac:(constructor) ltac:(lia)).
Qed.
Print Assumptions C88_explicit.

(** [?(Ω)], as the README's table of operators writes it, does not end at the parenthesis:
    in [α ?(Ω) β] the lookahead is for [Ω] and then [β]. *)
Theorem C89_parens_partial : forall re_ok n us e bs a w om w1 b,
  plain re_ok false n (Units us) a -> plain re_ok false n (Expr e) om -> plain re_ok false n (Units bs) b ->
  gap w -> w <> [] -> gap w1 -> w1 <> [] -> n <= 70 ->
  exists f0, forall fuel, f0 <= fuel ->
    compile_with re_ok fuel (gram_of hand) (a ++ w ++ s2b "?(" ++ om ++ s2b ")" ++ w1 ++ b) =
      ROk (PExp "" (KSeq TSingle (us ++ [look (PExp "" (KSeq TSingle (e :: bs)))]))).
Proof.
  intros re_ok n us e bs a w om w1 b Ha Ho Hb Hw Hw0 Hw1 Hw10 Hn.
  exact (compile_plain re_ok true (S (S n)) _ [] _ (group_after re_ok n us e bs a w om w1 b Ha Ho Hb Hw Hw0 Hw1 Hw10) ltac:(constructor) ltac:(lia)).
Qed.
Print Assumptions C89_parens_partial.

(** In [α !Ω | β] the alternatives stay outside of the negation. *)
Theorem C89_not_partial : forall re_ok o n us e bs a w om w1 w2 b,
  plain re_ok false n (Units us) a -> plain re_ok false n (Prim e) om -> plain re_ok o n (Sequs bs) b ->
  gap w -> w <> [] -> gap w1 -> gap w2 -> n <= 72 ->
  exists f0, forall fuel, f0 <= fuel ->
    compile_with re_ok fuel (gram_of hand) (a ++ w ++ s2b "!" ++ om ++ w1 ++ s2b "|" ++ w2 ++ b) =
      ROk (PExp "" (KChoice (PExp "" (KSeq TSingle (us ++ [PExp "" (KNot e)])) :: bs))).
Proof.
  intros re_ok o n us e bs a w om w1 w2 b Ha Ho Hb Hw Hw0 Hw1 Hw2 Hn.
  exact (compile_plain re_ok o n _ [] _ (group_not re_ok o n us e bs a w om w1 w2 b Ha Ho Hb Hw Hw0 Hw1 Hw2) ltac:(constructor) ltac:(lia)).
Qed.
Print Assumptions C89_not_partial.

(** [?(Ω)] and [(?Ω)] are two things. *)
Theorem C89_parens_refuted : exists fuel e e',
  compile_with (fun _ => true) fuel (gram_of hand) (s2b "'a' ?('b') 'b'") = ROk e /\
  compile_with (fun _ => true) fuel (gram_of hand) (s2b "'a' (?'b') 'b'") = ROk e' /\ e <> e'.
Proof. eexists 400, _, _. split; [vm_compute; reflexivity|]. split; [vm_compute; reflexivity|]. discriminate. Qed.
Print Assumptions C89_parens_refuted.

(** [α !Ω | β] is not grouped as [α (!Ω | β)], but as [(α !Ω) | β]. *)
Theorem C89_not_refuted : exists fuel e e',
  compile_with (fun _ => true) fuel (gram_of hand) (s2b "a !b | c") = ROk e /\
  compile_with (fun _ => true) fuel (gram_of hand) (s2b "a (!b | c)") = ROk e' /\ e <> e' /\
  compile_with (fun _ => true) fuel (gram_of hand) (s2b "(a !b) | c") = ROk e.
Proof. eexists 400, _, _. split; [vm_compute; reflexivity|]. split; [vm_compute; reflexivity|]. split; [discriminate|]. vm_compute. reflexivity. Qed.
Print Assumptions C89_not_refuted.

(** The hypotheses hold for the names of the README. *)
Definition rname (s : string) : pexp := PExp "" (KRef s).
Lemma rname_unit re_ok n c : (97 <= c <= 122)%N -> plain re_ok false n (Unit (rname (b2s [c]))) [c].
Proof.
  intros Hc. apply p_unit, p_prim. pose proof (p_name re_ok n (b2s [c])) as H.
  assert (s2b (b2s [c]) = [c]) as E. { unfold s2b, b2s. cbn. by rewrite Ascii.N_ascii_embedding by lia. }
  unfold name in H. rewrite E in H. apply H. split; [by left|constructor].
Qed.
Example C88_names : exists us os bs,
  plain (fun _ => true) false 0 (Units us) (s2b "a") /\ plain (fun _ => true) false 0 (Units os) (s2b "b") /\
  plain (fun _ => true) false 0 (Sequs bs) (s2b "c d | e").
Proof.
  exists [rname "a"], [rname "b"], [PExp "" (KSeq TSingle [rname "c"; rname "d"]); rname "e"].
  split; [apply p_units_one, (rname_unit _ 0 97%N); lia|]. split; [apply p_units_one, (rname_unit _ 0 98%N); lia|].
  apply (p_sequs _ false 0 _ _ (s2b "c d") [32%N] [32%N] (s2b "e")).
  - apply p_sequ; [|cbn; lia]. apply (p_units _ false 0 _ _ (s2b "c") [32%N] (s2b "d")); [apply (rname_unit _ 0 99%N); lia|by repeat constructor|done|].
    apply p_units_one, (rname_unit _ 0 100%N). lia.
  - by repeat constructor.
  - by repeat constructor.
  - apply p_sequs_one, p_one_unit, (rname_unit _ 0 101%N). lia.
Qed.
(** Such texts, compiled; nested lookaheads. *)
Example C88_text : compile_with (fun _ => true) 400 (gram_of hand) (s2b "a ?b | c d | e") =
  ROk (PExp "" (KSeq TSingle [rname "a"; look (PExp "" (KChoice [rname "b"; PExp "" (KSeq TSingle [rname "c"; rname "d"]); rname "e"]))])).
Proof. vm_compute. reflexivity. Qed.
Example C88_nested : compile_with (fun _ => true) 400 (gram_of hand) (s2b " ?(a ?b)* ? ?c") =
  ROk (look (PExp "" (KSeq TSingle [PExp "" (KPat (PExp "" (KSeq TSingle [rname "a"; look (rname "b")])) None (-1) (-1)); look (look (rname "c"))]))).
Proof. vm_compute. reflexivity. Qed.

(** A string, regular expression or class that is opened first thing in a rule text
    and not closed: compiling the rule panics, nothing is guessed. *)
Theorem C90_open_refused : forall re_ok c stop w t, opening c stop -> before stop t -> gap w ->
  exists f0, forall fuel, f0 <= fuel -> compile_with re_ok fuel (gram_of hand) (w ++ c :: t) = RPanic (PMsg "Error parsing").
Proof. exact compile_open. Qed.
Print Assumptions C90_open_refused.
(** Closed, it is the string, the regular expression or the class. *)
Theorem C90_closed : forall re_ok,
  (forall s t, quoted s t -> exists f0, forall fuel, f0 <= fuel -> compile_with re_ok fuel (gram_of hand) (s2b "'" ++ t ++ s2b "'") = ROk (PExp "" (KStr s))) /\
  (forall t, before 47 t -> re_ok t = true -> exists f0, forall fuel, f0 <= fuel -> compile_with re_ok fuel (gram_of hand) (s2b "/" ++ t ++ s2b "/") = ROk (PExp "" (KRegex t))) /\
  (forall t, before 93 t -> re_ok (s2b "[" ++ t ++ s2b "]") = true -> exists f0, forall fuel, f0 <= fuel ->
     compile_with re_ok fuel (gram_of hand) (s2b "[" ++ t ++ s2b "]") = ROk (PExp "" (KRegex (s2b "[" ++ t ++ s2b "]")))).
Proof.
  intros re_ok. split; [|split].
  - intros s t H. apply (compile_plain re_ok false 0 _ [] (s2b "'" ++ t ++ s2b "'")); [|constructor|lia]. by apply p_one_sequ, p_one_unit, p_unit, p_prim, p_string.
  - intros t H Hr. apply (compile_plain re_ok false 0 _ [] (s2b "/" ++ t ++ s2b "/")); [|constructor|lia]. by apply p_one_sequ, p_one_unit, p_unit, p_prim, p_regex.
  - intros t H Hr. apply (compile_plain re_ok false 0 _ [] (s2b "[" ++ t ++ s2b "]")); [|constructor|lia]. by apply p_one_sequ, p_one_unit, p_unit, p_prim, p_class.
Qed.
Print Assumptions C90_closed.

(** The rule for octal bytes in the README cannot be compiled: its backslash escapes the quote
    that should close the string. *)
Definition octal_rule : bytes := s2b "'\' [0-7]+".
Theorem C91_octal_refuted : forall re_ok, exists f0, forall fuel, f0 <= fuel -> compile_with re_ok fuel (gram_of hand) octal_rule = RPanic (PMsg "Error parsing").
Proof.
  intros re_ok. apply (compile_open re_ok 39 39 [] (s2b "\' [0-7]+")); [constructor| |constructor].
  apply (b_escape _ 39 [39%N] (s2b " [0-7]+")); [by constructor|].
  assert (forall l, forallb (fun c => (c <? 128) && negb (c =? 39) && negb (c =? 92))%N%bool l = true -> before 39 l) as H.
  { induction l as [|c l IH]; [constructor|]. cbn [forallb]. intros [Hc Hl]%andb_prop. apply andb_prop in Hc as [Hc H2]. apply andb_prop in Hc as [Hc H1].
    apply (b_char _ c [c] l); [constructor; lia|lia|lia|by apply IH]. }
  by apply H.
Qed.
Print Assumptions C91_octal_refuted.
(** With the backslash doubled it can be. *)
Theorem C91_doubled_partial : exists fuel, compile_with (fun _ => true) fuel (gram_of hand) (s2b "'\\' [0-7]+") =
  ROk (PExp "" (KSeq TSingle [PExp "" (KStr [92%N]); PExp "" (KPat (PExp "" (KRegex (s2b "[0-7]"))) None 1 (-1))])).
Proof. exists 400. vm_compute. reflexivity. Qed.
Print Assumptions C91_doubled_partial.
Example C90_three : exists e, compile_with (fun _ => true) 400 (gram_of hand) (s2b "[a-z\]]+ '\'' /\//") = ROk e.
Proof. eexists. vm_compute. reflexivity. Qed.
