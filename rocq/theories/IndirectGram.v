(** A grammar whose left recursion goes through other rules:

      o(named("E", "Add | Sub | N")), i(named("Add", "E [+] N")),
      i(named("Sub", "E [-] N")), i(named("N", "[0-9]"))

    Model: the lines are built as GrammarFromLines does (grammar.go:61-71, line_*.go);
    Go's regexp is modelled for the three expressions.  No proofs here. *)
From Verif Require Import Base Helpers Utf8 Stream Native Engine Build Joeson JoesonRun Calc CalcRun LispRead Color.

Definition re_plus : bytes := s2b "[+]".
Definition re_minus : bytes := s2b "[-]".
Definition re_digit : bytes := s2b "[0-9]".
Definition plus_b (b : N) : bool := (b =? 43)%N.
Definition minus_b (b : N) : bool := (b =? 45)%N.
Definition decimal_b (b : N) : bool := ((48 <=? b) && (b <=? 57))%N%bool.
Definition ind_rx (re : bytes) (s : bytes) : option (nat * nat) :=
  if bytes_eqb re re_plus then find_first plus_b s 0
  else if bytes_eqb re re_minus then find_first minus_b s 0
  else if bytes_eqb re re_digit then find_first decimal_b s 0
  else None.
(** No callbacks. *)
Definition ind_cb (f pos : nat) (h : heap) (x : ast) : cbres := CbRet h (Some x).
Definition ind_rules : list (res line) :=
  [ o_rule "E" "Add | Sub | N" []; i_rule "Add" "E [+] N" []; i_rule "Sub" "E [-] N" []; i_rule "N" "[0-9]" [] ].
Definition ind_lines : list line := all_ok ind_rules.
Definition ind_re_ok (s : bytes) : bool := (bytes_eqb s re_plus || bytes_eqb s re_minus || bytes_eqb s re_digit)%bool.
Definition ind_compile : bytes -> res pexp := compile_with ind_re_ok 300 (gram_of hand).
