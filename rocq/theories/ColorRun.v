(** The grammar of examples/color, compiled. *)
From Verif Require Import Base Helpers Utf8 Stream Native Engine Build BuildSpec Joeson JoesonSpec JoesonRun Calc CalcRun LispRead Color.

Lemma color_rules_ok : color_inner = ROk <$> all_ok color_inner /\ color_rules = ROk <$> color_lines.
Proof. split; vm_compute; reflexivity. Qed.

Definition color_re_ok (s : bytes) : bool := (bytes_eqb s re_first || bytes_eqb s re_digit || bytes_eqb s re_comma || bytes_eqb s re_blank)%bool.
(** Texts are compiled with the joeson grammar. *)
Definition color_compile : bytes -> res pexp := compile_with color_re_ok 300 (gram_of hand).
Definition colors : built := Eval vm_compute in or_none (build color_compile 300 "color example" color_lines).
Lemma colors_eq : build color_compile 300 "color example" color_lines = ROk colors.
Proof. vm_compute. reflexivity. Qed.

Lemma color_no_singles : no_singles color_compile color_lines.
Proof. apply written_checked. vm_compute. reflexivity. Qed.
Lemma color_names_once : names_once color_lines.
Proof. apply (bool_decide_unpack _). vm_compute. exact I. Qed.
