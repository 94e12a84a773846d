(** Model of examples/videogamedb/videogame_test.go: the database, the rules, the
    regular expressions they use and the parse functions.  No proofs here.

    What is simplified: Go's regexp is modelled for the four expressions; a
    VideoGame is a user value that carries its id and title; [makeVideoGame]
    (videogame_test.go:82-91) is not used and left out. *)
From Verif Require Import Base Helpers Utf8 Stream Native Engine Build Joeson Calc LispRead Color.

(** videogame_test.go:23-30. *)
Record game := Game { gm_id : Z; gm_title : bytes; gm_year : Z; gm_developer : bytes; gm_score : Z }.
(** videogame_test.go:32-38. *)
Definition db : list game :=
  [ Game 1 (s2b "Civilization") 1991 (s2b "Sid Meier") 95;
    Game 3 (s2b "Rogue") 1980 (s2b "Michael Toy, Glenn Wichman, Ken Arnold") 80;
    Game 4 (s2b "Doom") 1993 (s2b "John Carmack") 90;
    Game 5 (s2b "Tetris") 1984 (s2b "Alexey Pajitnov") 90 ].
Definition notfound : game := Game 0 (s2b "Not found") (-1) [] 0.
Definition game_ast (g : game) : ast :=
  AUser 0 [AInt (gm_id g); AStr (gm_title g); AInt (gm_year g); AStr (gm_developer g); AInt (gm_score g)].
(** The loops of videogame_test.go:51-80: the first that fits. *)
Definition find_game (f : game -> bool) : game := default notfound (List.find f db).

Definition game_rx (re : bytes) (s : bytes) : option (nat * nat) :=
  if bytes_eqb re re_first then leftmost (m_class first_b) (S (length s)) s 0
  else if bytes_eqb re re_digit then leftmost (m_class digit_b) (S (length s)) s 0
  else if bytes_eqb re re_unquote then leftmost m_unquote (S (length s)) s 0
  else if bytes_eqb re re_blank then leftmost (m_class blank_b) (S (length s)) s 0
  else None.

(** 0: videogame_test.go:51-59, findVideoGameById; 1: :61-69, findVideoGameByTitle;
    2: :71-80, findBestVideoGameOfYear; 3: :99-101, the year. *)
Definition game_cb (f pos : nat) (h : heap) (x : ast) : cbres :=
  match f with
  | 0 => match native_int_from (fun _ => []) 2 h x with
         | ROk (AInt z) => CbRet h (Some (game_ast (find_game (fun g => (gm_id g =? z)%Z))))
         | _ => CbPanic 1
         end
  | 1 => match native_string_from (fun _ => []) 2 h x with
         | ROk (AStr s) => CbRet h (Some (game_ast (find_game (fun g => bytes_eqb (gm_title g) s))))
         | _ => CbPanic 2
         end
  | 2 => match native_int_from (fun _ => []) 2 h x with
         | ROk (AInt z) => CbRet h (Some (game_ast (find_game (fun g => (gm_year g =? z)%Z))))
         | _ => CbPanic 3
         end
  | 3 => match x with
         | AObj a =>
             match h !! a with
             | Some (Obj (OMap m) _) =>
                 match nm_concat (fun _ => []) 2 h m with ROk s => CbRet h (Some (AStr s)) | _ => CbPanic 4 end
             | _ => CbPanic 5
             end
         | _ => CbPanic 5
         end
  | _ => CbPanic 6
  end.

(** videogame_test.go:94-104. *)
Definition game_inner : list (res line) :=
  [ o_rule "VideoGameId" "[1-9][0-9]*" [OCb 0];
    o_rule "VideoGameTitle" "'""' [^""]* '""'" [OCb 1];
    o_rule "VideoGameBestOfYear" "'bestIn:' _ Year" [OCb 2];
    i_rule "Year" "a:('19'|'20'|'21') b:[0-9] c:[0-9]" [OCb 3] ].
Definition game_rules : list (res line) :=
  [ mk_o (named_lines "VideoGame" (all_ok game_inner)) [];
    i_rule "_" "[ \t]*" [] ].
Definition game_lines : list line := all_ok game_rules.
