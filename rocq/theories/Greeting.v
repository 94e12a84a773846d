(** Model of examples/tests_from_readme/readme_01create_simple_grammar_test.go: the
    grammars of the README's section "Creating a simple grammar" (README.md:212-258).
    No proofs here.

    What is simplified: the line that the parse function of the entry rule prints is
    not modelled, only what it returns; Go's regexp is modelled for the one
    expression. *)
From Verif Require Import Base Helpers Utf8 Stream Native Engine Build Joeson Calc LispRead Color.

Definition re_letter : bytes := s2b "[a-zA-Z]".
Definition letter_b (b : N) : bool := ((97 <=? b) && (b <=? 122) || (65 <=? b) && (b <=? 90))%N%bool.
Definition greet_rx (re : bytes) (s : bytes) : option (nat * nat) :=
  if bytes_eqb re re_letter then leftmost (m_class letter_b) (S (length s)) s 0 else None.

(** 0: readme_01create_simple_grammar_test.go:17-19, 31-33, 44-46, Concat of the array;
    1: :27-30, 40-43, a string (anything else panics), returned as it is. *)
Definition greet_cb (f pos : nat) (h : heap) (x : ast) : cbres :=
  match f with
  | 0 => match x with
         | AArr l => match concat_arr (fun _ => []) 2 h l with ROk s => CbRet h (Some (AStr s)) | _ => CbPanic 1 end
         | _ => CbPanic 2
         end
  | 1 => match x with AStr s => CbRet h (Some (AStr s)) | _ => CbPanic 3 end
  | _ => CbPanic 4
  end.

(** readme_01create_simple_grammar_test.go:12-20. *)
Definition greet1_rules : list (res line) :=
  [ o_rule "INPUT" "'hi' _ NAME" []; i_rule "_" "' '*" []; i_rule "NAME" "[a-zA-Z]*" [OCb 0] ].
(** readme_01create_simple_grammar_test.go:21-35. *)
Definition greet2_rules : list (res line) :=
  [ o_rule "INPUT" "'hi' _ NAME" [OCb 1]; i_rule "NAME" "[a-zA-Z]*" [OCb 0]; i_rule "_" "' '*" [] ].
(** readme_01create_simple_grammar_test.go:36-48. *)
Definition greet3_rules : list (res line) :=
  [ mk_o (GText (s2b "'hi' _ NAME")) [OCb 1]; i_rule "NAME" "[a-zA-Z]*" [OCb 0]; i_rule "_" "' '*" [] ].
Definition greet1_lines : list line := all_ok greet1_rules.
Definition greet2_lines : list line := all_ok greet2_rules.
Definition greet3_lines : list line := all_ok greet3_rules.
