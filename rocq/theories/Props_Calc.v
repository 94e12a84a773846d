(** Theorems on the calculator of examples/calculator. *)
From Verif Require Import Base Helpers Utf8 Stream Native Engine Build Calc CalcRun CalcSpec CalcMain CalcPeg CalcAllSpec CalcAll.

(** Every text of an arithmetic expression is evaluated: the usual precedences,
    operators of one level to the left, blanks and parentheses anywhere. *)
Theorem C50_value o d e s w w' z : po_debug o = false ->
  prints 2 d e s -> blank w -> blank w' -> d <= 340 -> value e = Some z ->
  exists fuel0, forall fuel, fuel0 <= fuel -> exists s',
    fst (parse_string fuel (gram_of calc) o calc_rx calc_cb (w ++ s ++ w')) = Ok (Some (AInt z)) s'.
Proof. intros Ho. exact (calc_values o Ho d e s w w' z). Qed.
Print Assumptions C50_value.

(** Expressions without a value (a division by zero, a literal too large for 64
    bits) make a callback panic. *)
Theorem C50_panics o d e s w w' : po_debug o = false ->
  prints 2 d e s -> blank w -> blank w' -> d <= 340 -> value e = None ->
  exists fuel0, forall fuel, fuel0 <= fuel -> exists k s',
    fst (parse_string fuel (gram_of calc) o calc_rx calc_cb (w ++ s ++ w')) = Panic (PUser k) s'.
Proof. intros Ho. exact (calc_panics o Ho d e s w w'). Qed.
Print Assumptions C50_panics.

(** [" 1 - 2*-3 - (4) "] is [(1 - 2 * -3) - 4], whose value is 3. *)
Definition an_exp : aexp := Bin AMinus (Bin AMinus (Num 1) (Bin ATimes (Num 2) (Num (-3)))) (Num 4).
Lemma digit1 b : is_digit b -> numeral [b] (Z.of_N b - 48).
Proof.
  intros H. replace (Z.of_N b - 48)%Z with (decimal [b]) by (unfold decimal; cbn [fold_left]; lia).
  apply numeral_pos; [done|by apply Forall_cons].
Qed.
Example an_exp_prints : prints 2 1 an_exp (s2b "1 - 2*-3 - (4)") /\ blank (s2b " ") /\ value an_exp = Some 3%Z /\
  value (Bin AOver (Num 1) (Bin AMinus (Num 2) (Num 2))) = None.
Proof.
  assert (blank (s2b " ")) as Hb by (repeat constructor).
  split; [|split; [done|split; reflexivity]].
  apply (pr_bin 1 1 AMinus _ _ (s2b "1 - 2*-3") (s2b " ") (s2b " ") (s2b "(4)")); [done|done|done| |].
  - apply (pr_bin 1 1 AMinus _ _ (s2b "1") (s2b " ") (s2b " ") (s2b "2*-3")); [done|done|done| |].
    + apply pr_up, pr_up, pr_num, (digit1 49). unfold is_digit; lia.
    + apply (pr_bin 0 1 ATimes _ _ (s2b "2") [] [] (s2b "-3")); [done|constructor|constructor| |].
      * apply pr_up, pr_num, (digit1 50). unfold is_digit; lia.
      * apply pr_num, (numeral_neg [51%N]); [done|]. apply Forall_cons. split; [unfold is_digit; lia|constructor].
  - apply pr_up, (pr_paren 0 _ (s2b "4") [] []); [constructor|constructor|]. apply pr_up, pr_up, pr_num, (digit1 52). unfold is_digit; lia.
Qed.

(** Parentheses nested 341 deep: the parser's stack of 1024 frames overflows. *)
Definition nested (d : nat) : bytes := replicate d 40%N ++ [49%N] ++ replicate d 41%N.
Lemma nested_prints d : prints 2 d (Num 1) (nested d).
Proof.
  induction d as [|d IH]; [apply pr_up, pr_up, pr_num, (digit1 49); unfold is_digit; lia|].
  replace (nested (S d)) with ([40%N] ++ [] ++ nested d ++ [] ++ [41%N]).
  - apply pr_up, pr_up, pr_paren; [constructor|constructor|done].
  - unfold nested. rewrite (replicate_S_end d 41%N). rewrite <- !app_assoc. done.
Qed.
Theorem C50_deep : exists s',
  fst (parse_string 4000 (gram_of calc) (POpts false false false) calc_rx calc_cb (nested 341)) = Panic PIndex s'.
Proof.
  assert (match fst (parse_string 4000 (gram_of calc) (POpts false false false) calc_rx calc_cb (nested 341)) with
    | Panic PIndex _ => true | _ => false end = true) as H by (vm_compute; reflexivity).
  destruct (fst (parse_string _ _ _ _ _ _)) as [a s|p s|]; [done| |done]. destruct p; try done. exists s. reflexivity.
Qed.
Print Assumptions C50_deep.

(** Any text with at most 340 opening parentheses: it writes an expression and is
    evaluated, or it writes none and no value comes back: a parse error, or a
    panic of a callback on an expression inside the text. *)
Theorem C50_exact o text : po_debug o = false -> opens text <= 340 ->
  (exists e, calc_text e text /\ exists fuel0, forall fuel, fuel0 <= fuel -> exists s',
     match value e with
     | Some z => fst (parse_string fuel (gram_of calc) o calc_rx calc_cb text) = Ok (Some (AInt z)) s'
     | None => exists k, fst (parse_string fuel (gram_of calc) o calc_rx calc_cb text) = Panic (Base.PUser k) s'
     end) \/
  ((forall e, ~ calc_text e text) /\ exists fuel0, forall fuel, fuel0 <= fuel -> exists s',
     (exists k, fst (parse_string fuel (gram_of calc) o calc_rx calc_cb text) = Panic (Base.PUser k) s') \/
     match text with
     | [] => fst (parse_string fuel (gram_of calc) o calc_rx calc_cb text) = Ok None s'
     | _ => exists k, fst (parse_string fuel (gram_of calc) o calc_rx calc_cb text) = Ok (Some (AErr k)) s' /\ k <= length text
     end).
Proof. intros Ho. exact (calc_exact o Ho text). Qed.
Print Assumptions C50_exact.

(** If every expression inside the text has a value, nothing panics. *)
Theorem C50_refused o text : po_debug o = false -> opens text <= 340 -> (forall e, ~ calc_text e text) -> valued text ->
  exists fuel0, forall fuel, fuel0 <= fuel -> exists s',
    match text with
    | [] => fst (parse_string fuel (gram_of calc) o calc_rx calc_cb text) = Ok None s'
    | _ => exists k, fst (parse_string fuel (gram_of calc) o calc_rx calc_cb text) = Ok (Some (AErr k)) s' /\ k <= length text
    end.
Proof. intros Ho. exact (not_text_valued o Ho text). Qed.
Print Assumptions C50_refused.

(** A text has one value only. *)
Theorem C50_unambiguous e e' text : calc_text e text -> calc_text e' text -> value e = value e'.
Proof. exact (calc_unique e e' text). Qed.
Print Assumptions C50_unambiguous.

(** Texts of no expression; one of them panics. *)
Example no_expressions : (forall e, ~ calc_text e (s2b "(1 + 2) 3")) /\ valued (s2b "(1 + 2) 3") /\ (forall e, ~ calc_text e (s2b "1/0)")) /\
  exists k s', fst (parse_string 400 (gram_of calc) (POpts false false false) calc_rx calc_cb (s2b "1/0)")) = Panic (Base.PUser k) s'.
Proof.
  split; [eapply no_text; [vm_compute; reflexivity|done]|]. split; [apply short_valued; [apply (bool_decide_unpack _); by vm_compute|cbn; lia]|].
  split; [eapply no_text; [vm_compute; reflexivity|done]|]. eexists _, _. vm_compute. reflexivity.
Qed.
