(** The grammar of examples/lisp-repl, compiled. *)
From Verif Require Import Base Helpers Utf8 Stream Native Engine Build BuildSpec Joeson JoesonSpec JoesonRun Calc CalcRun LispRead.

Lemma lisp_rules_ok : expr_rules = ROk <$> all_ok expr_rules /\ lisp_rules = ROk <$> lisp_lines.
Proof. split; vm_compute; reflexivity. Qed.

Definition lisp_re_ok (s : bytes) : bool := (bytes_eqb s re_unquote || bytes_eqb s re_signed || bytes_eqb s re_ident)%bool.
(** Texts are compiled with the joeson grammar. *)
Definition lisp_compile : bytes -> res pexp := compile_with lisp_re_ok 300 (gram_of hand).
Definition lisp : built := Eval vm_compute in or_none (build lisp_compile 300 "lisp" lisp_lines).
Lemma lisp_eq : build lisp_compile 300 "lisp" lisp_lines = ROk lisp.
Proof. vm_compute. reflexivity. Qed.

Lemma lisp_no_singles : no_singles lisp_compile lisp_lines.
Proof. apply written_checked. vm_compute. reflexivity. Qed.
Lemma lisp_names_once : names_once lisp_lines.
Proof. apply (bool_decide_unpack _). vm_compute. exact I. Qed.
