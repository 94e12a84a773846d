(** The greeting grammars of the README, compiled. *)
From Verif Require Import Base Helpers Utf8 Stream Native Engine Build BuildSpec Joeson JoesonSpec JoesonRun Calc CalcRun LispRead Color Greeting.

Lemma greet_rules_ok : greet1_rules = ROk <$> greet1_lines /\ greet2_rules = ROk <$> greet2_lines /\ greet3_rules = ROk <$> greet3_lines.
Proof. split; [|split]; vm_compute; reflexivity. Qed.
(** Texts are compiled with the joeson grammar. *)
Definition greet_compile : bytes -> res pexp := compile_with (bytes_eqb re_letter) 300 (gram_of hand).
Definition greet1 : built := Eval vm_compute in or_none (build greet_compile 300 "my grammar" greet1_lines).
Definition greet2 : built := Eval vm_compute in or_none (build greet_compile 300 "my grammar" greet2_lines).
Definition greet3 : built := Eval vm_compute in or_none (build greet_compile 300 "my grammar" greet3_lines).
Lemma greet_eq : build greet_compile 300 "my grammar" greet1_lines = ROk greet1 /\ build greet_compile 300 "my grammar" greet2_lines = ROk greet2 /\
  build greet_compile 300 "my grammar" greet3_lines = ROk greet3.
Proof. split; [|split]; vm_compute; reflexivity. Qed.
Lemma greet_no_singles : no_singles greet_compile greet1_lines /\ no_singles greet_compile greet2_lines /\ no_singles greet_compile greet3_lines.
Proof. split; [|split]; apply written_checked; vm_compute; reflexivity. Qed.
Lemma greet_names_once : names_once greet1_lines /\ names_once greet2_lines /\ names_once greet3_lines.
Proof. split; [|split]; apply (bool_decide_unpack _); vm_compute; exact I. Qed.
