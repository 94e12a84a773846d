(** The left-recursive grammar of examples/precedence, compiled. *)
From Verif Require Import Base Helpers Utf8 Stream Native Engine Build BuildSpec Joeson JoesonSpec JoesonRun Calc CalcRun Moss.

Lemma moss_rules_ok : moss_rules = ROk <$> moss_lines.
Proof. vm_compute. reflexivity. Qed.

Definition moss_re_ok (s : bytes) : bool := (bytes_eqb s re_blank || bytes_eqb s re_glyph)%bool.
(** Texts are compiled with the joeson grammar. *)
Definition moss_compile : bytes -> res pexp := compile_with moss_re_ok 300 (gram_of hand).
Definition moss : built := Eval vm_compute in or_none (build moss_compile 300 "at hand" moss_lines).
Lemma moss_eq : build moss_compile 300 "at hand" moss_lines = ROk moss.
Proof. vm_compute. reflexivity. Qed.
Lemma moss_no_singles : no_singles moss_compile moss_lines.
Proof. apply written_checked. vm_compute. reflexivity. Qed.
Lemma moss_names_once : names_once moss_lines.
Proof. apply (bool_decide_unpack _). vm_compute. exact I. Qed.

(** The same as a rank. *)
Lemma moss_rank_rules_ok : moss_rank_rules = ROk <$> moss_rank_lines.
Proof. vm_compute. reflexivity. Qed.
Definition moss_rank : built := Eval vm_compute in or_none (build moss_compile 300 "at hand" moss_rank_lines).
Lemma moss_rank_eq : build moss_compile 300 "at hand" moss_rank_lines = ROk moss_rank.
Proof. vm_compute. reflexivity. Qed.
Lemma moss_rank_no_singles : no_singles moss_compile moss_rank_lines.
Proof. apply written_checked. vm_compute. reflexivity. Qed.
Lemma moss_rank_names_once : names_once moss_rank_lines.
Proof. apply (bool_decide_unpack _). vm_compute. exact I. Qed.

(** The recursion to the right. *)
Lemma moss_right_rules_ok : moss_right_rules = ROk <$> moss_right_lines.
Proof. vm_compute. reflexivity. Qed.
Definition moss_right : built := Eval vm_compute in or_none (build moss_compile 300 "at hand" moss_right_lines).
Lemma moss_right_eq : build moss_compile 300 "at hand" moss_right_lines = ROk moss_right.
Proof. vm_compute. reflexivity. Qed.
Lemma moss_right_no_singles : no_singles moss_compile moss_right_lines.
Proof. apply written_checked. vm_compute. reflexivity. Qed.
Lemma moss_right_names_once : names_once moss_right_lines.
Proof. apply (bool_decide_unpack _). vm_compute. exact I. Qed.

(** Two levels. *)
Lemma moss_levels_rules_ok : moss_levels_rules = ROk <$> moss_levels_lines.
Proof. vm_compute. reflexivity. Qed.
Definition moss_levels : built := Eval vm_compute in or_none (build moss_compile 300 "at hand" moss_levels_lines).
Lemma moss_levels_eq : build moss_compile 300 "at hand" moss_levels_lines = ROk moss_levels.
Proof. vm_compute. reflexivity. Qed.
Lemma moss_levels_no_singles : no_singles moss_compile moss_levels_lines.
Proof. apply written_checked. vm_compute. reflexivity. Qed.
Lemma moss_levels_names_once : names_once moss_levels_lines.
Proof. apply (bool_decide_unpack _). vm_compute. exact I. Qed.

(** Two levels in a rank. *)
Lemma moss_deep_rules_ok : moss_deep_rules = ROk <$> moss_deep_lines.
Proof. vm_compute. reflexivity. Qed.
Definition moss_deep : built := Eval vm_compute in or_none (build moss_compile 300 "at hand" moss_deep_lines).
Lemma moss_deep_eq : build moss_compile 300 "at hand" moss_deep_lines = ROk moss_deep.
Proof. vm_compute. reflexivity. Qed.
Lemma moss_deep_no_singles : no_singles moss_compile moss_deep_lines.
Proof. apply written_checked. vm_compute. reflexivity. Qed.
Lemma moss_deep_names_once : names_once moss_deep_lines.
Proof. apply (bool_decide_unpack _). vm_compute. exact I. Qed.

(** Ranks in a rank. *)
Lemma moss_real_rules_ok : moss_real_rules = ROk <$> moss_real_lines.
Proof. vm_compute. reflexivity. Qed.
Definition moss_real : built := Eval vm_compute in or_none (build moss_compile 300 "at hand" moss_real_lines).
Lemma moss_real_eq : build moss_compile 300 "at hand" moss_real_lines = ROk moss_real.
Proof. vm_compute. reflexivity. Qed.
Lemma moss_real_no_singles : no_singles moss_compile moss_real_lines.
Proof. apply written_checked. vm_compute. reflexivity. Qed.
Lemma moss_real_names_once : names_once moss_real_lines.
Proof. apply (bool_decide_unpack _). vm_compute. exact I. Qed.
