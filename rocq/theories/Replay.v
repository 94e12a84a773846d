(** The tests of the repository on the model: streams and helpers.  Each Example is
    what a test of codestream_rune_test.go, codestream_token_test.go, native_map_test.go,
    joeson_test.go or helpers/*_test.go asks for, computed by the model. *)
From Verif Require Import Base Helpers Utf8 Stream Native Access GoTokens.
Local Open Scope list_scope.

Definition r_is (f : bytes -> bytes -> bool) (r : res bytes) (s : bytes) : bool := match r with ROk x => f x s | _ => false end.
Definition says (r : res bytes) (s : string) : bool := r_is bytes_eqb r (s2b s).
Definition is_z (r : res Z) (z : Z) : bool := match r with ROk x => (x =? z)%Z | _ => false end.
Definition panics {A} (r : res A) : bool := match r with RPanic _ => true | _ => false end.
Definition nl : string := String (Ascii.ascii_of_nat 10) "".
Definition lines (l : list string) : string := String.concat nl l.

(** helpers_test.go:19-61. *)
Example slice_string_test :
  forallb (fun i => says (slice_string (s2b "june") i 0) "") (map (fun n => (Z.of_nat n - 5)%Z) (seq 0 15)) = true /\
  forallb (fun x => says (slice_string (s2b "june") (fst (fst x)) (snd (fst x))) (snd x))
    [ ((-2)%Z, (1)%Z, ""%string);
      ((-1)%Z, (1)%Z, ""%string);
      ((0)%Z, (1)%Z, "j"%string);
      ((1)%Z, (1)%Z, ""%string);
      ((2)%Z, (1)%Z, ""%string);
      ((3)%Z, (1)%Z, ""%string);
      ((-2)%Z, (2)%Z, ""%string);
      ((-1)%Z, (2)%Z, ""%string);
      ((0)%Z, (2)%Z, "ju"%string);
      ((1)%Z, (2)%Z, "u"%string);
      ((2)%Z, (2)%Z, ""%string);
      ((3)%Z, (2)%Z, ""%string);
      ((-6)%Z, (3)%Z, "jun"%string);
      ((-5)%Z, (3)%Z, "jun"%string);
      ((-4)%Z, (3)%Z, "jun"%string);
      ((-3)%Z, (3)%Z, "un"%string);
      ((-2)%Z, (3)%Z, "n"%string);
      ((-1)%Z, (3)%Z, ""%string);
      ((0)%Z, (3)%Z, "jun"%string);
      ((1)%Z, (3)%Z, "un"%string);
      ((2)%Z, (3)%Z, "n"%string);
      ((3)%Z, (3)%Z, ""%string);
      ((-5)%Z, (4)%Z, "june"%string);
      ((-5)%Z, (3)%Z, "jun"%string);
      ((-5)%Z, (2)%Z, "ju"%string);
      ((-5)%Z, (1)%Z, "j"%string);
      ((-5)%Z, (0)%Z, ""%string);
      ((-5)%Z, (-1)%Z, "jun"%string);
      ((-5)%Z, (-2)%Z, "ju"%string);
      ((-5)%Z, (-3)%Z, "j"%string);
      ((-5)%Z, (-4)%Z, ""%string);
      ((0)%Z, (4)%Z, "june"%string);
      ((0)%Z, (2)%Z, "ju"%string);
      ((3)%Z, (5)%Z, "e"%string);
      ((-1)%Z, (5)%Z, "e"%string);
      ((2)%Z, (5)%Z, "ne"%string);
      ((-2)%Z, (5)%Z, "ne"%string) ] = true.
Proof. split; vm_compute; reflexivity. Qed.
(** helpers_test.go:84-101. *)
Example pad_test :
  forallb (fun x => bytes_eqb (pad_left (s2b "foo") (fst x)) (s2b (snd x)))
    [ ((5)%Z, "foo  "%string); ((4)%Z, "foo "%string); ((3)%Z, "foo"%string); ((2)%Z, "foo"%string); ((1)%Z, "foo"%string); ((0)%Z, "foo"%string); ((-1)%Z, "foo"%string); ((-10)%Z, "foo"%string) ] = true /\
  forallb (fun x => bytes_eqb (pad_right (s2b "foo") (fst x)) (s2b (snd x)))
    [ ((5)%Z, "  foo"%string); ((4)%Z, " foo"%string); ((3)%Z, "foo"%string); ((2)%Z, "foo"%string); ((1)%Z, "foo"%string); ((0)%Z, "foo"%string); ((-1)%Z, "foo"%string); ((-10)%Z, "foo"%string) ] = true.
Proof. split; vm_compute; reflexivity. Qed.
(** bisect_test.go:19-25. *)
Example insort_test :
  (let* a := insort_right [1; 2; 3; 5]%Z 4 in insort_left a 4) = ROk [1; 2; 3; 4; 4; 5]%Z /\ insort_right [1; 2; 3; 5]%Z 4 = ROk [1; 2; 3; 4; 5]%Z.
Proof. split; vm_compute; reflexivity. Qed.
(** native_map_test.go:5-23, joeson_test.go:211-223. *)
Example map_test :
  let m := nm_set (nm_set nm_empty "int" (AInt 99)) "int2" (AStr (s2b "99")) in
  nm_get_int_exists (fun _ => []) 1 [] m "int" = ROk (99%Z, true) /\ nm_get_int_exists (fun _ => []) 1 [] m "int2" = ROk (99%Z, true) /\
  int_bool (int_from_bool true) = true /\ int_bool (int_from_bool false) = false.
Proof. vm_compute. auto. Qed.

(** codestream_rune_test.go:24-49. *)
Example rune_state_test :
  let cs := new_rune_stream (s2b (lines ["line 0"; "line 1"; "line 2 -- rest of line 2"; "line 3"; "line 4"]%string)) in
  (is_z (rs_line cs) 0 && is_z (rs_col cs) 0)%bool = true /\
  match rs_get_until cs (s2b nl) with
  | ROk (l, cs1) =>
      l = s2b "line 0" ++ s2b nl /\ (is_z (rs_line cs1) 1 && is_z (rs_col cs1) 0)%bool = true /\
      match rs_get_until cs1 (s2b nl) with
      | ROk (l2, cs2) =>
          l2 = s2b "line 1" ++ s2b nl /\ (is_z (rs_line cs2) 2 && is_z (rs_col cs2) 0)%bool = true /\
          match rs_get_until cs2 (s2b " -- ") with
          | ROk (l3, cs3) => l3 = s2b "line 2 -- " /\ (is_z (rs_line cs3) 2 && is_z (rs_col cs3) 10 && says (rs_peek_runes cs3 4) "rest")%bool = true
          | _ => False
          end
      | _ => False
      end
  | _ => False
  end.
Proof. vm_compute. auto 10. Qed.

(** The text of codestream_rune_test.go:69-76 and codestream_token_test.go:27-34. *)
Definition tab : string := String (Ascii.ascii_of_nat 9) "".
Definition source : string :=
  lines [""; tab ++ "// RuneStream is a very simple code holder, cursor, matcher."; tab ++ "type RuneStream struct {"; tab ++ tab ++ "text       string";
         tab ++ tab ++ "pos        int // ""Hello, 世界, X"" <- Pos of o is 4, Pos of 界 is 10"; tab ++ tab ++ "lineStarts []int"; tab ++ "}"; tab]%string.
(** codestream_rune_test.go:68-87. *)
Example rune_pos_test :
  let code := new_rune_stream (s2b source) in
  match str_index (s2b source) (s2b "text") with
  | Some i => (is_z (rs_pos_to_line code (Z.of_nat i)) 3 && is_z (rs_pos_to_col code (Z.of_nat i)) 2)%bool = true
  | None => False
  end.
Proof. vm_compute. reflexivity. Qed.

Definition peeks (f : Z -> res bytes) (l : list (Z * string)) : bool := forallb (fun x => says (f (fst x)) (snd x)) l.
Definition around : list (Z * string) :=
  [ (-1, "一"); (-2, "c一"); (-3, "bc一"); (-4, "abc一"); (-10, "abc一"); (0, ""); (1, "二"); (2, "二三"); (3, "二三α"); (4, "二三αβ"); (5, "二三αβγ") ]%Z%string.
(** codestream_rune_test.go:89-113. *)
Example rune_peek_runes_test :
  match rs_match_string (new_rune_stream (s2b "abc一二三αβγ")) (s2b "abc一") with
  | ROk (_, abc) => rs_pos abc = 6 /\ peeks (rs_peek_runes abc) (around ++ [(10%Z, "二三αβγ"%string)]) = true
  | _ => False
  end.
Proof. vm_compute. auto. Qed.

Definition roses : list string := ["rose are blue"; "blue are violet"; "violet are pi/2"]%string.
(** codestream_rune_test.go:115-159. *)
Example rune_peek_lines_test :
  match rs_set_pos (new_rune_stream (s2b (lines roses))) 14 with
  | ROk code =>
      str_index (s2b (lines roses)) (s2b "blue are violet") = Some 14 /\
      panics (rs_set_pos code (-1)) = true /\ panics (rs_set_pos code 9999999) = true /\
      forallb (fun x => says (rs_peek_lines code (fst x)) (lines (snd x)))
        [ ([-1; 1]%Z, roses); ([0; 1]%Z, drop 1 roses); ([-1; 0]%Z, take 2 roses); ([-99; 0]%Z, take 2 roses); ([99; 9; 1; 0]%Z, drop 1 roses) ] = true
  | _ => False
  end.
Proof. vm_compute. auto. Qed.

(** What codestream_rune_test.go:161-198 and the same tests of codestream_token_test.go do:
    go to a position, then match. *)
Definition abg : bytes := s2b "αβγ".
Definition got (r : res bytes) (s : string) : bool := says r s.
Definition at_match (text : string) (p : Z) (s : string) : bool :=
  match rs_set_pos (new_rune_stream (s2b text)) p with
  | ROk c => match rs_match_string c (s2b s) with ROk (Some m, _) => bytes_eqb m (s2b s) | _ => false end
  | _ => false
  end.
Definition until_ (text s : string) : bool :=
  match rs_get_until (new_rune_stream (s2b text)) (s2b s) with ROk (m, _) => bytes_eqb m (s2b s) | _ => false end.
Example rune_unicode_test :
  (until_ "abc" "a" && until_ "αβγ" "α" && at_match "αβγ" 0 "α" && at_match "abc" 1 "b" && at_match "αβγ" 2 "β" && at_match "αβγ" 4 "γ")%bool = true.
Proof. vm_compute. reflexivity. Qed.
(** codestream_rune_test.go:199-259: the runes asked for one after the other; [None]: no match. *)
Fixpoint runes_run {C} (m : C -> (N -> bool) -> res (option N * C)) (pos : C -> nat) (c : C) (asks : list N) : list (option N * nat) :=
  match asks with
  | [] => match m c (fun _ => true) with ROk (x, c') => [(x, pos c')] | _ => [(Some 0%N, 0)] end
  | a :: l => match m c (N.eqb a) with ROk (x, c') => (x, pos c') :: runes_run m pos c' l | _ => [(Some 0%N, 0)] end
  end.
Example rune_match_rune_test :
  runes_run rs_match_rune rs_pos (new_rune_stream abg) [947; 945; 947; 946; 947]%N =
  [(None, 0); (Some 945%N, 2); (None, 2); (Some 946%N, 4); (Some 947%N, 6); (None, 6)].
Proof. vm_compute. reflexivity. Qed.

(** What go/scanner answers for the sources of codestream_token_test.go: an identifier or
    literal, a keyword, an operator (with whether it is a comma), and the semicolon put
    in at the end of a line. *)
Definition lit (p : nat) (s : string) : lexeme := Lexeme p (s2b "IDENT") (s2b s) false.
Definition key (p : nat) (s : string) : lexeme := Lexeme p (s2b s) (s2b s) false.
Definition op (p : nat) (s : string) : lexeme := Lexeme p (s2b s) [] false.
Definition semi (p : nat) : lexeme := Lexeme p (s2b ";") [10%N] false.
Definition of_go (src : string) (xs : list lexeme) : tstream :=
  match fst (from_go [] (s2b src) (Scan [] (map (fun x => (x, [])) xs) [])) with
  | GoStream t => t
  | _ => new_token_stream [] []
  end.
Definition tokens : tstream :=
  of_go source
    [ key 64 "type"; lit 69 "RuneStream"; key 80 "struct"; op 87 "{"; lit 91 "text"; lit 102 "string"; semi 108; lit 111 "pos"; lit 122 "int"; semi 126;
      lit 185 "lineStarts"; op 196 "["; op 197 "]"; lit 198 "int"; semi 201; op 203 "}"; semi 204 ].
Definition has (search : string) (work original line col : Z) : bool :=
  match str_index (ts_work tokens) (s2b search) with
  | Some i =>
      let z := Z.of_nat i in
      ((z =? work)%Z && match ts_coords tokens z with ROk p => (snd p =? original)%Z | _ => false end &&
       is_z (ts_pos_to_line tokens z) line && is_z (ts_pos_to_col tokens z) col)%bool
  | None => false
  end.
(** codestream_token_test.go:74-142. *)
Example token_internals_test :
  ts_pos tokens = 0 /\ (snd <$> match ts_coords tokens 0 with ROk p => Some p | _ => None end) = Some 64%Z /\
  (snd <$> match ts_coords tokens 16 with ROk p => Some p | _ => None end) = Some 81%Z /\
  (snd <$> match ts_coords tokens 26 with ROk p => Some p | _ => None end) = Some 94%Z /\
  is_z (ts_pos_to_line tokens 0) 2 = true /\
  (has "type" 0 64 2 1 && has "text" 23 91 3 2 && has "ext" 24 92 3 3 && has "string" 28 103 3 14 && has "]" 56 197 5 14)%bool = true /\
  match ts_match_string (ts_with_pos tokens 28) (s2b "string") with
  | ROk (Some m, t) => m = s2b "string" /\ has_prefix (s2b ";" ++ [10%N] ++ s2b "pos") (drop (ts_pos t) (ts_work t)) = true
  | _ => False
  end.
Proof. vm_compute. auto 12. Qed.
(** codestream_token_test.go:214-234: the text of the tokens. *)
Definition work (src : string) (xs : list lexeme) (w : string) : bool := bytes_eqb (ts_work (of_go src xs)) (s2b w).
Definition rose_lex : list lexeme :=
  [ lit 0 "rose"; lit 5 "are"; lit 9 "blue"; semi 13; lit 14 "blue"; lit 19 "are"; lit 23 "violet"; semi 29;
    lit 30 "violet"; lit 37 "are"; lit 41 "pi"; op 43 "/"; lit 44 "2"; semi 45 ].
Definition rose_work : string := "rose are blue;" ++ nl ++ "blue are violet;" ++ nl ++ "violet are pi/2;" ++ nl.
Example token_text_test :
  (work "a" [lit 0 "a"; semi 1] ("a;" ++ nl) &&
   work "1234+  (-321)" [lit 0 "1234"; op 4 "+"; op 7 "("; op 8 "-"; lit 9 "321"; op 12 ")"; semi 13] ("1234+(-321);" ++ nl) &&
   work (lines roses) rose_lex rose_work)%bool = true.
Proof. vm_compute. reflexivity. Qed.
(** codestream_token_test.go:290-372. *)
Definition peek_at (p : nat) (ns : list Z) (l : list string) : bool :=
  match ts_set_pos (of_go (lines roses) rose_lex) (Z.of_nat p) with ROk c => says (ts_peek_lines c ns) (lines l) | _ => false end.
Example token_peek_lines_test :
  str_index (s2b rose_work) (s2b "blue are violet") = Some 15 /\
  panics (ts_set_pos (of_go (lines roses) rose_lex) (-1)) = true /\ panics (ts_set_pos (of_go (lines roses) rose_lex) 99999999) = true /\
  (peek_at 15 [-1; 1]%Z roses && peek_at 15 [0; 1]%Z (drop 1 roses) && peek_at 15 [-1; 0]%Z (take 2 roses) && peek_at 15 [-99; 0]%Z (take 2 roses) &&
   peek_at 15 [9; 1; 0]%Z (drop 1 roses) && peek_at 0 [-99; 0]%Z (take 1 roses) &&
   peek_at (length (s2b rose_work) - 1) [0]%Z (drop 2 roses) && peek_at (length (s2b rose_work) - 1) [0; -1]%Z (drop 1 roses))%bool = true.
Proof. vm_compute. auto. Qed.
(** codestream_token_test.go:374-493. *)
Definition abg_go : tstream := of_go "αβγ" [lit 0 "αβγ"; semi 6].
Definition tok_at (t : tstream) (p : Z) (s : string) : bool :=
  match ts_set_pos t p with
  | ROk c => match ts_match_string c (s2b s) with ROk (Some m, _) => bytes_eqb m (s2b s) | _ => false end
  | _ => false
  end.
Definition tok_until (t : tstream) (s : string) : bool := match ts_get_until t (s2b s) with ROk (m, _) => bytes_eqb m (s2b s) | _ => false end.
Definition abc_go : tstream := of_go "abc" [lit 0 "abc"; semi 3].
Example token_unicode_test :
  (tok_until abc_go "a" && tok_until abg_go "α" && tok_at abg_go 0 "α" && tok_at abc_go 1 "b" && tok_at abg_go 2 "β" && tok_at abg_go 4 "γ")%bool = true /\
  runes_run ts_match_rune ts_pos abg_go [947; 945; 947; 946; 947; 59; 10]%N =
  [(None, 0); (Some 945%N, 2); (None, 2); (Some 946%N, 4); (Some 947%N, 6); (Some 59%N, 7); (Some 10%N, 8); (None, 8)].
Proof. vm_compute. auto. Qed.
(** codestream_token_test.go:495-520. *)
Example token_peek_runes_test :
  match ts_match_string (of_go "abc一二三αβγ" [lit 0 "abc一二三αβγ"; semi 18]) (s2b "abc一") with
  | ROk (_, abc) => ts_pos abc = 6 /\ peeks (ts_peek_runes abc) (around ++ [(10%Z, ("二三αβγ;" ++ nl)%string)]) = true
  | _ => False
  end.
Proof. vm_compute. auto. Qed.
(** codestream_token_test.go:522-535. *)
Example token_empty_test :
  match ts_match_string (of_go "" []) [] with
  | ROk (_, a) => ts_pos a = 0 /\ match ts_match_string a (s2b "foo") with ROk (_, b) => ts_pos b = 0 | _ => False end
  | _ => False
  end.
Proof. vm_compute. auto. Qed.
