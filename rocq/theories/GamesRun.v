(** The grammar of examples/videogamedb, compiled. *)
From Verif Require Import Base Helpers Utf8 Stream Native Engine Build BuildSpec Joeson JoesonSpec JoesonRun Calc CalcRun LispRead Color Games.

Lemma game_rules_ok : game_inner = ROk <$> all_ok game_inner /\ game_rules = ROk <$> game_lines.
Proof. split; vm_compute; reflexivity. Qed.

Definition game_re_ok (s : bytes) : bool := (bytes_eqb s re_first || bytes_eqb s re_digit || bytes_eqb s re_unquote || bytes_eqb s re_blank)%bool.
(** Texts are compiled with the joeson grammar. *)
Definition game_compile : bytes -> res pexp := compile_with game_re_ok 300 (gram_of hand).
Definition games : built := Eval vm_compute in or_none (build game_compile 300 "videogamedb" game_lines).
Lemma games_eq : build game_compile 300 "videogamedb" game_lines = ROk games.
Proof. vm_compute. reflexivity. Qed.

Lemma game_no_singles : no_singles game_compile game_lines.
Proof. apply written_checked. vm_compute. reflexivity. Qed.
Lemma game_names_once : names_once game_lines.
Proof. apply (bool_decide_unpack _). vm_compute. exact I. Qed.
