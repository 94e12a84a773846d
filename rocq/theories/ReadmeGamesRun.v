(** The grammars of the README about games, compiled. *)
From Verif Require Import Base Helpers Utf8 Stream Native Engine Build BuildSpec Joeson JoesonSpec JoesonRun Calc CalcRun LispRead Color Games GamesRun ReadmeGames.

Lemma ex_rules_ok : ex1_rules = ROk <$> ex1_lines /\ ex2_inner = ROk <$> all_ok ex2_inner /\ ex2_rules = ROk <$> ex2_lines /\
  ex4_inner = ROk <$> all_ok ex4_inner /\ ex4_rules = ROk <$> ex4_lines.
Proof. repeat split; vm_compute; reflexivity. Qed.

Definition ex1 : built := Eval vm_compute in or_none (build game_compile 300 "exampleN" ex1_lines).
Definition ex2 : built := Eval vm_compute in or_none (build game_compile 300 "exampleN" ex2_lines).
Definition ex4 : built := Eval vm_compute in or_none (build game_compile 300 "exampleN" ex4_lines).
Lemma ex1_eq : build game_compile 300 "exampleN" ex1_lines = ROk ex1.
Proof. vm_compute. reflexivity. Qed.
Lemma ex2_eq : build game_compile 300 "exampleN" ex2_lines = ROk ex2.
Proof. vm_compute. reflexivity. Qed.
Lemma ex4_eq : build game_compile 300 "exampleN" ex4_lines = ROk ex4.
Proof. vm_compute. reflexivity. Qed.
Lemma ex1_no_singles : no_singles game_compile ex1_lines.
Proof. apply written_checked. vm_compute. reflexivity. Qed.
Lemma ex2_no_singles : no_singles game_compile ex2_lines.
Proof. apply written_checked. vm_compute. reflexivity. Qed.
Lemma ex4_no_singles : no_singles game_compile ex4_lines.
Proof. apply written_checked. vm_compute. reflexivity. Qed.
Lemma ex_names_once : names_once ex1_lines /\ names_once ex2_lines /\ names_once ex4_lines.
Proof. split; [|split]; apply (bool_decide_unpack _); vm_compute; exact I. Qed.
