(** The calculator of examples/calculator, compiled. *)
From Verif Require Import Base Helpers Utf8 Stream Native Engine Build BuildSpec Joeson JoesonSpec JoesonRun Calc.

Lemma calc_rules_ok : calc_rules = ROk <$> calc_lines.
Proof. vm_compute. reflexivity. Qed.

Definition calc_re_ok (s : bytes) : bool := (bytes_eqb s re_blank || bytes_eqb s re_number)%bool.
(** Texts are compiled with the joeson grammar. *)
Definition calc_compile : bytes -> res pexp := compile_with calc_re_ok 300 (gram_of hand).
Definition calc : built := Eval vm_compute in or_none (build calc_compile 300 "calc" calc_lines).
Lemma calc_eq : build calc_compile 300 "calc" calc_lines = ROk calc.
Proof. vm_compute. reflexivity. Qed.

(** Checks that [written] holds. *)
Definition written_check (P : pexp -> bool) (compile : bytes -> res pexp) (l : line) : bool :=
  (forallb (fun s => match compile s with ROk e => P e | _ => true end) (texts l) && forallb P (parsers l))%bool.
Lemma written_checked P compile l : written_check P compile l = true -> written P compile l.
Proof.
  intros [H1 H2]%andb_prop. rewrite forallb_forall in H1, H2. split; apply Forall_forall; intros x Hx%elem_of_list_In; [|by apply H2].
  intros e He. specialize (H1 x Hx). by rewrite He in H1.
Qed.
Lemma calc_no_singles : no_singles calc_compile calc_lines.
Proof. apply written_checked. vm_compute. reflexivity. Qed.
Lemma calc_plain : plain_labels calc_compile calc_lines.
Proof. apply written_checked. vm_compute. reflexivity. Qed.
Lemma calc_names_once : names_once calc_lines.
Proof. apply (bool_decide_unpack _). vm_compute. exact I. Qed.
