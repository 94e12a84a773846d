(** Model of examples/tests_from_readme/readme_02alternation_test.go: the grammars
    example1 to example4 of the README (README.md:284-360).  No proofs here.

    The database, the regular expressions and the parse functions are those of
    Games.v (the two Go files have the same ones); example3 passes the functions of
    example2 without a wrapper, so it is the same here; example5 is the grammar of
    Games.v. *)
From Verif Require Import Base Helpers Utf8 Stream Native Engine Build Joeson Calc LispRead Color Games.

(** 4: readme_02alternation_test.go:66-75, makeVideoGame: id or title of the map;
    without either it panics. *)
Definition make_game (pos : nat) (h : heap) (x : ast) : cbres :=
  match x with
  | AObj a =>
      match h !! a with
      | Some (Obj (OMap m) _) =>
          match nm_get m "id" with
          | Some y => game_cb 0 pos h y
          | None => match nm_get m "title" with Some y => game_cb 1 pos h y | None => CbPanic 7 end
          end
      | _ => CbPanic 8
      end
  | _ => CbPanic 8
  end.
Definition readme_cb (f pos : nat) (h : heap) (x : ast) : cbres :=
  match f with 4 => make_game pos h x | _ => game_cb f pos h x end.

(** readme_02alternation_test.go:79-81. *)
Definition ex1_rules : list (res line) :=
  [ o_rule "VideoGame" "id:[1-9][0-9]* | '""' title:([^""]*) '""'" [OCb 4] ].
(** readme_02alternation_test.go:82-93. *)
Definition ex2_inner : list (res line) :=
  [ mk_o (GText (s2b "[1-9][0-9]*")) [OCb 0];
    mk_o (GText (s2b "'""' [^""]* '""'")) [OCb 1] ].
Definition ex2_rules : list (res line) := [ mk_o (named_lines "VideoGame" (all_ok ex2_inner)) [] ].
(** readme_02alternation_test.go:94-99. *)
Definition ex4_inner : list (res line) :=
  [ o_rule "VideoGameId" "[1-9][0-9]*" [OCb 0];
    o_rule "VideoGameTitle" "'""' [^""]* '""'" [OCb 1] ].
Definition ex4_rules : list (res line) := [ mk_o (named_lines "VideoGame" (all_ok ex4_inner)) [] ].
Definition ex1_lines : list line := all_ok ex1_rules.
Definition ex2_lines : list line := all_ok ex2_rules.
Definition ex4_lines : list line := all_ok ex4_rules.
