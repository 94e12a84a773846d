(** Theorems on the reader and the prompt of the lisp example (examples/lisp-repl). *)
From Verif Require Import Base Helpers Utf8 Stream Native Engine Build Joeson JoesonRun Calc CalcSpec LispRead LispReadRun LispReadSpec LispReadWhole
  Lisp LispSpec LispProofs LispRepl LispReplSpec LispReplProofs.
Local Open Scope list_scope.

(** C64: every text of an expression is read as that expression. *)
Theorem C64_reads o e text : po_debug o = false -> says_text e text -> nest e <= 510 -> all_fit e = true ->
  exists fuel0, forall fuel, fuel0 <= fuel -> exists s',
    fst (parse_string fuel (gram_of lisp) o lisp_rx lisp_cb text) = Ok (Some (sexp_ast e)) s'.
Proof. intros Ho. exact (lisp_reads o Ho e text). Qed.
Print Assumptions C64_reads.
(** A number too large for 64 bits makes the parse panic. *)
Theorem C64_too_large o e text : po_debug o = false -> says_text e text -> nest e <= 510 -> all_fit e = false ->
  exists fuel0, forall fuel, fuel0 <= fuel -> exists k s',
    fst (parse_string fuel (gram_of lisp) o lisp_rx lisp_cb text) = Panic (Base.PUser k) s'.
Proof. intros Ho. exact (lisp_panics o Ho e text). Qed.
Print Assumptions C64_too_large.
(** Any other text is rejected with a parse error (the empty text: with nil). *)
Theorem C64_exact o text : po_debug o = false -> opens text <= 510 -> numbers_fit text ->
  (exists e, says_text e text /\ exists fuel0, forall fuel, fuel0 <= fuel -> exists s',
     fst (parse_string fuel (gram_of lisp) o lisp_rx lisp_cb text) = Ok (Some (sexp_ast e)) s') \/
  ((forall e, ~ says_text e text) /\ exists fuel0, forall fuel, fuel0 <= fuel -> exists s',
     match text with
     | [] => fst (parse_string fuel (gram_of lisp) o lisp_rx lisp_cb text) = Ok None s'
     | _ => exists k, fst (parse_string fuel (gram_of lisp) o lisp_rx lisp_cb text) = Ok (Some (AErr k)) s' /\ k <= length text
     end).
Proof. intros Ho. exact (lisp_exact o Ho text). Qed.
Print Assumptions C64_exact.
(** A text is the text of one expression only. *)
Theorem C64_unambiguous e e' text : says_text e text -> says_text e' text -> all_fit e = true -> all_fit e' = true -> e = e'.
Proof. exact (says_unique e e' text). Qed.
Print Assumptions C64_unambiguous.
(** Every expression has a text, if its strings are without quotes and its
    operators are names. *)
Theorem C64_every e : sayable e -> exists text, says e text.
Proof. exact (sayable_said e). Qed.
Print Assumptions C64_every.

Definition an_sexp : sexp := SList [SOp (s2b "cond"); SList [SOp (s2b ">="); SNum (-7); SOp (s2b "n.x?")]; SStr (s2b "a b"); SList []].
Definition an_sexp_text : bytes := s2b " (cond (>= -07  n.x?) ""a b"" ( ))".
Lemma is_letter b : word_b b = true -> letter b.
Proof.
  unfold word_b, letter. rewrite !orb_true_iff, !andb_true_iff, !N.leb_le, !N.eqb_eq. tauto.
Qed.
Lemma is_letter2 s : forallb word2_b s = true -> Forall letter2 s.
Proof.
  intros H. apply List.Forall_forall. intros b Hb. rewrite forallb_forall in H. specialize (H b Hb). unfold word2_b in H. rewrite !orb_true_iff in H. destruct H as [[H|H]|H].
  - left. by apply is_letter.
  - right. left. unfold digit_b in H. unfold is_digit. apply andb_prop in H as [H1 H2]. apply N.leb_le in H1, H2. lia.
  - right. right. by apply N.eqb_eq.
Qed.
Example an_sexp_says : says_text an_sexp an_sexp_text /\ nest an_sexp = 2 /\ all_fit an_sexp = true /\ all_fit (SNum (2 ^ 63)) = false /\ sayable an_sexp.
Proof.
  assert (space (s2b " ")) as Hb by (repeat constructor).
  split; [|split; [done|split; [by vm_compute|split; [by vm_compute|]]]].
  - exists (s2b " "), (s2b "(cond (>= -07  n.x?) ""a b"" ( ))"), []. split; [done|]. split; [done|]. split; [constructor|].
    apply (says_list _ [] (s2b "cond (>= -07  n.x?) ""a b"" ( )") []); [constructor|constructor|].
    apply (says_more _ (s2b "cond") (s2b " ")); [apply says_word; [by apply is_letter|by apply is_letter2]|done|done|].
    apply (says_more _ (s2b "(>= -07  n.x?)") (s2b " ")); [|done|done|].
    { apply (says_list _ [] (s2b ">= -07  n.x?") []); [constructor|constructor|].
      apply (says_more _ (s2b ">=") (s2b " ")); [apply says_symbol; unfold symbols; cbn; repeat (first [left|right])|done|done|].
      apply (says_more _ (s2b "-07") (s2b "  ")); [|done|repeat constructor|].
      * apply says_num. apply (numeral_neg (s2b "07")); [done|]. repeat (apply Forall_cons; split; [by vm_compute|]). constructor.
      * apply says_one. apply (says_word 110%N (s2b ".x?")); [by apply is_letter|by apply is_letter2]. }
    apply (says_more _ (s2b """a b""") (s2b " ")); [|done|done|].
    { apply (says_str (s2b "a b")). intros H. cbn in H. rewrite !elem_of_cons in H. repeat (destruct H as [H|H]; [done|]). by apply elem_of_nil in H. }
    apply says_one. apply (says_list [] (s2b " ") [] []); [done|constructor|constructor].
  - apply sayable_list. apply Forall_cons. split.
    { apply sayable_op. right. exists 99%N, (s2b "ond"). split; [done|]. split; [by apply is_letter|by apply is_letter2]. }
    apply Forall_cons. split.
    { apply sayable_list. apply Forall_cons. split; [apply sayable_op; left; unfold symbols; cbn; repeat (first [left|right])|].
      apply Forall_cons. split; [apply sayable_num|]. apply Forall_cons. split; [|constructor].
      apply sayable_op. right. exists 110%N, (s2b ".x?"). split; [done|]. split; [by apply is_letter|by apply is_letter2]. }
    apply Forall_cons. split.
    { apply sayable_str. intros H. cbn in H. rewrite !elem_of_cons in H. repeat (destruct H as [H|H]; [done|]). by apply elem_of_nil in H. }
    apply Forall_cons. split; [apply sayable_list; constructor|constructor].
Qed.
(** Lists nested 511 deep overflow the parser's stack of 1024 frames. *)
Definition deep (d : nat) : bytes := replicate d 40%N ++ replicate d 41%N.
Theorem C64_deep : exists s',
  fst (parse_string 4000 (gram_of lisp) (POpts false false false) lisp_rx lisp_cb (deep 511)) = Panic PIndex s'.
Proof.
  assert (match fst (parse_string 4000 (gram_of lisp) (POpts false false false) lisp_rx lisp_cb (deep 511)) with
    | Panic PIndex _ => true | _ => false end = true) as H by (vm_compute; reflexivity).
  destruct (fst (parse_string _ _ _ _ _ _)) as [a s|p s|]; [done| |done]. destruct p; try done. exists s. reflexivity.
Qed.
Print Assumptions C64_deep.

(** C65: a line typed at the prompt is evaluated as the list it writes, with or
    without the parentheses around it. *)
Theorem C65_value (A : arith) (of_int : Z -> num A) o (m : machine A) line l : po_debug o = false -> typed l line -> nest (SList l) <= 510 -> all_fit (SList l) = true ->
  exists fuel0, forall fuel, fuel0 <= fuel -> repl_line of_int fuel o m (line ++ [10%N]) = REval (eval fuel m (LList (lexp_of of_int <$> l))).
Proof. intros Ho. exact (line_value of_int o Ho m line l). Qed.
Print Assumptions C65_value.
(** Every other line is answered by a parse error: the program goes on. *)
Theorem C65_exact (A : arith) (of_int : Z -> num A) o line : po_debug o = false -> modest line ->
  (exists l, typed l line /\ forall m, exists fuel0, forall fuel, fuel0 <= fuel -> repl_line of_int fuel o m (line ++ [10%N]) = REval (eval fuel m (LList (lexp_of of_int <$> l)))) \/
  ((forall l, ~ typed l line) /\ forall m, exists fuel0, forall fuel, fuel0 <= fuel -> repl_line of_int fuel o m (line ++ [10%N]) = RParseError).
Proof. intros Ho. exact (line_all of_int o Ho line). Qed.
Print Assumptions C65_exact.
Theorem C65_unambiguous l l' line : modest line -> typed l line -> typed l' line -> l = l'.
Proof. exact (line_same l l' line). Qed.
Print Assumptions C65_unambiguous.
(** Parentheses around the line change nothing. *)
Theorem C65_parentheses l s : says_all l s -> ~ opened s -> typed l s /\ typed l ([40%N] ++ s ++ [41%N]).
Proof. exact (both_typed l s). Qed.
Print Assumptions C65_parentheses.
(** Arithmetic, from the text to the number. *)
Theorem C65_arithmetic o line l t : po_debug o = false -> modest line -> typed l line -> LList (lexp_of (A := exact_arith) Some <$> l) = term_lisp t ->
  exists fuel0, forall fuel, fuel0 <= fuel -> repl_line (A := exact_arith) Some fuel o new_machine (line ++ [10%N]) = REval (LOk (qn (term_value t)) new_machine).
Proof. intros Ho. exact (line_counts o Ho line l t). Qed.
Print Assumptions C65_arithmetic.
(** A tab is no blank here: the list after it becomes the element of a list. *)
Theorem C65_tab l s : says (SList l) s -> typed [SList l] (9%N :: s).
Proof. exact (tab_typed l s). Qed.
Print Assumptions C65_tab.

Definition fact_line : bytes := s2b "(define (fact n) (if (<= n 0) 1 (* n (fact (- n 1)))))".
Example a_line : modest (s2b "+ 1 (* 2 3)") /\ exists l, typed l (s2b "+ 1 (* 2 3)") /\
  LList (lexp_of (A := exact_arith) Some <$> l) = term_lisp (TAdd [TInt 1; TMul [TInt 2; TInt 3]]).
Proof. exact a_line_typed. Qed.
Example some_replies : exists m1 m2 : machine exact_arith,
  repl (A := exact_arith) Some 9 400 (POpts false false false) new_machine
    [fact_line ++ [10%N]; s2b "fact"; s2b " 5" ++ [10%N]; s2b "1 2)" ++ [10%N]; s2b "+ 1 2" ++ [13%N; 10%N]; [9%N] ++ s2b "(+ 1 2)" ++ [10%N]] =
  [REval (LOk empty m1); REval (LOk (qn 120%Z) m1); RParseError; RParseError; REval (LOk (LList [term_lisp (TAdd [TInt 1; TInt 2])]) m2)].
Proof. eexists _, _. vm_compute. reflexivity. Qed.

(** C66: the lines of a session are answered one after the other, each with the
    machine the one before left, if each newline ends a read, as with a terminal. *)
Theorem C66_session_partial (A : arith) (of_int : Z -> num A) o (m : machine A) lines rs reads : po_debug o = false ->
  replies of_int m lines rs -> Forall modest lines -> reads_of lines reads ->
  exists fuel0, forall n fuel, length lines <= n -> fuel0 <= fuel -> repl of_int n fuel o m reads = rs.
Proof. intros Ho. exact (session of_int o Ho m lines rs reads). Qed.
Print Assumptions C66_session_partial.
(** But what a read returns after a newline is lost: of two lines that come
    together, as from a pipe, only the first is answered. *)
Theorem C66_pipe_refuted (A : arith) (of_int : Z -> num A) n fuel o (m : machine A) line more : 10%N ∉ line ->
  length (repl of_int n fuel o m [line ++ [10%N] ++ more]) <= 1.
Proof. exact (pipe_loses of_int n fuel o m line more). Qed.
Print Assumptions C66_pipe_refuted.
Example a_session : exists rs, replies (A := exact_arith) Some new_machine [s2b "+ 1 (* 2 3)"; s2b "+ 1 (* 2 3)"] rs /\ length rs = 2 /\
  reads_of [s2b "+ 1 (* 2 3)"; s2b "+ 1 (* 2 3)"] [s2b "+ 1"; s2b " (* 2 3)" ++ [10%N]; s2b "+ 1 (* 2 3)" ++ [10%N]].
Proof. exact a_session_replies. Qed.
