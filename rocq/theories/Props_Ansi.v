(** Theorems on colours and on printing the values of the lisp example. *)
From Verif Require Import Base Helpers Utf8 Stream Native Engine Build JoesonRun CalcSpec Print ShownSpec Ansi AnsiSpec AnsiProofs AnsiExact Lisp LispRead LispReadRun
  LispReadSpec LispReadWhole LispRepl LispReplSpec LispPrintSpec LispPrint LispPrintProofs.
From stdpp Require Import sets.
Local Open Scope list_scope.

(** C95: StripAnsi takes out the marks of colors.go and nothing else. *)
Theorem C95_strip t s : painted t s -> strip_ansi t = s.
Proof. exact (strip_painted t s). Qed.
Print Assumptions C95_strip.
Theorem C95_unmarked s : unmarked s -> strip_ansi s = s.
Proof. exact (strip_unmarked s). Qed.
Print Assumptions C95_unmarked.
Theorem C95_colours c s : s2b c ∈ marks -> calm s -> strip_ansi (coloured c s) = s.
Proof. exact (strip_coloured c s). Qed.
Print Assumptions C95_colours.
(** Every text: what is taken out is a control sequence, and none begins where
    something was kept. *)
Theorem C95_exact s : stripped s (strip_ansi s).
Proof. exact (strip_exact s). Qed.
Print Assumptions C95_exact.
Example C95_exact_kept : strip_ansi ([27; 32]%N ++ s2b "Ab" ++ [27]%N ++ s2b "[1;222;3Hc" ++ [27]%N ++ s2b "]0;titleX" ++ [7; 27]%N ++ s2b "!") =
  ([27; 32]%N ++ s2b "Abc" ++ [27]%N ++ s2b "!").
Proof. by vm_compute. Qed.
Example C95_exact_control : control ([27]%N ++ s2b "[1;;222H") /\ forall m r, control m -> [27; 32]%N <> m ++ r.
Proof.
  split.
  - apply (control_code [27]%N (s2b "[") (s2b "1;;222") 72%N); [by left|repeat constructor|right; exists (s2b "1"), [[]; s2b "222"]|apply final_ok; by vm_compute].
    + split; [done|]. split; [split; [apply (forall_ok is_num digit); [apply num_ok|done]|cbn; lia]|].
      split; [|done]. apply List.Forall_cons; [split; [apply List.Forall_nil|cbn; lia]|]. apply List.Forall_cons; [|apply List.Forall_nil].
      split; [apply (forall_ok is_num digit); [apply num_ok|done]|cbn; lia].
  - intros m r Hm E. apply (mark_complete m r Hm). by rewrite <- E.
Qed.

(** A colour inside a colour. *)
Example C95_example : painted (red (s2b "a" ++ bold_cyan (s2b "; 1m") ++ s2b "0m") ++ s2b "[31m") (s2b "a; 1m0m[31m").
Proof.
  unfold red, bold_cyan, coloured.
  repeat first
    [ apply painted_nil
    | match goal with |- painted ?t _ =>
        let t' := eval vm_compute in t in change t with t' end;
      first [ apply painted_char; [done|done|done|]
            | apply (painted_mark (s2b "[31m")); [by vm_compute; set_solver|]
            | apply (painted_mark (s2b "[1;36m")); [by vm_compute; set_solver|]
            | apply (painted_mark (s2b "[0m")); [by vm_compute; set_solver|] ] ].
Qed.
Example C95_unmarked_example : unmarked (s2b "[31m a" ++ [7; 195; 155; 194; 160]%N).
Proof. split; [vm_compute; set_solver|]. by apply (no_pair_ok _ false). Qed.
Example C95_colours_example : calm (s2b "Zelda; 3" ++ [195; 169; 155]%N) /\ s2b "[1;32m" ∈ marks.
Proof. split; [|vm_compute; set_solver]. split; [vm_compute; set_solver|]. split; [vm_compute; set_solver|]. by apply (no_pair_ok _ false). Qed.

(** C96: a printed value, without the colours, is read back as the same value, if
    there is no number in it. *)
Theorem C96_back_partial {A : arith} (of_int : Z -> num A) fmt o e : po_debug o = false -> wordy e -> nest e <= 510 ->
  exists fuel0, forall fuel, fuel0 <= fuel -> exists s',
    fst (parse_string fuel (gram_of lisp) o lisp_rx lisp_cb (strip_ansi (expr_string fmt (lexp_of of_int e)))) = Ok (Some (sexp_ast e)) s'.
Proof. exact (shown_reads of_int fmt o e). Qed.
Print Assumptions C96_back_partial.
Definition a_value : sexp := SList [SOp (s2b "car"); SList [SStr (s2b "a (b"); SStr []; SList []]; SOp (s2b ">=")].
Example a_value_wordy : wordy a_value /\ nest a_value <= 510 /\
  strip_ansi (expr_string fmt_exact (lexp_of (A:=exact_arith) Some a_value)) = s2b "(car (""a (b"" """" ()) >=)".
Proof.
  split; [|split; [apply Nat.leb_le; by vm_compute|by vm_compute]].
  assert (a_name (s2b "car")) as H1. { right. exists 99%N, [97; 114]%N. split; [done|]. split; [unfold letter; lia|]. repeat (apply List.Forall_cons; [left; unfold letter; lia|]). apply List.Forall_nil. }
  assert (a_name (s2b ">=")) as H2 by (left; vm_compute; set_solver).
  apply wordy_list. repeat first [apply List.Forall_cons | apply List.Forall_nil | apply wordy_list | by apply wordy_op].
  - apply wordy_str; [repeat constructor|vm_compute; set_solver|]. split; [vm_compute; set_solver|]. split; [vm_compute; set_solver|].
    by apply (no_pair_ok _ false).
  - apply wordy_str; [constructor|set_solver|]. split; [set_solver|]. split; [set_solver|]. intros [|] ?; discriminate.
Qed.
(** A number is printed with six decimals, and no expression is written like that;
    what is not a number is read back as a name. *)
Theorem C96_numbers_refuted : forall z e, ~ says_text e (strip_ansi (expr_string fmt_exact (lexp_of (A:=exact_arith) Some (SNum z)))).
Proof. intros z e. rewrite number_shown. exact (number_unread z e). Qed.
Print Assumptions C96_numbers_refuted.
Definition opts0 : popts := POpts false false false.
Definition read_shown (v : lexp exact_arith) : outcome (option ast) := fst (parse_string 3000 (gram_of lisp) opts0 lisp_rx lisp_cb (strip_ansi (expr_string fmt_exact v))).
Theorem C96_read_refuted :
  (exists k s', read_shown (LList [LOp "+"; LNum (A:=exact_arith) (Some 3%Z)]) = Ok (Some (AErr k)) s') /\
  (exists s', read_shown (LNum (A:=exact_arith) None) = Ok (Some (sexp_ast (SOp (s2b "NaN")))) s').
Proof. split; [eexists _, _|eexists]; vm_compute; reflexivity. Qed.
Print Assumptions C96_read_refuted.

(** C97: any text put in colour is the text again without the colour.  Not if
    there is a bell in it: what stands before the bell goes with it; nor if there
    is an escape in it: the next letter or digit goes with it. *)
Theorem C97_bell_refuted c s t : s2b c ∈ marks -> Forall (fun b => is_word b = true) s -> calm t -> strip_ansi (coloured c (s ++ [7%N] ++ t)) = t.
Proof. exact (strip_bell c s t). Qed.
Print Assumptions C97_bell_refuted.
Example C97_bell_example : strip_ansi (red (s2b "stop" ++ [7%N] ++ s2b " go")) = s2b " go" /\ Forall (fun b => is_word b = true) (s2b "stop").
Proof. split; [by vm_compute|]. repeat constructor. Qed.
Theorem C97_escape_refuted : exists s, strip_ansi (red s) <> s /\ 7%N ∉ s.
Proof. exists [27; 65]%N. split; [by vm_compute|vm_compute; set_solver]. Qed.
Print Assumptions C97_escape_refuted.
