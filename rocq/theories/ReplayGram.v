(** The tests of the repository on the model: grammars.  Each Example is what a test of
    joeson_test.go, parser_lookahead_test.go, parser_pattern_test.go,
    codestream_token_test.go or of the examples asks for, computed by the model. *)
From Verif Require Import Base Helpers Utf8 Stream Native Access Engine Build Joeson JoesonSpec JoesonRun Print Calc CalcRun LispRead LispReadRun Lisp LispRepl
  LispPrint Ansi ErrMsg Color Games GamesRun Moss MossRun Greeting GreetingRun ReadmeGames ReadmeGamesRun GoTokens Replay.
Local Open Scope list_scope.

Definition opts0 : popts := POpts false false false.
(** A grammar from lines of text, with the regular expressions of the tests. *)
Definition class (f : N -> bool) (s : bytes) : option (nat * nat) := leftmost (m_class f) (S (length s)) s 0.
Fixpoint count (f : N -> bool) (s : bytes) : nat := match s with b :: r => if f b then S (count f r) else 0 | [] => 0 end.
Definition run (f : N -> bool) (s : bytes) : option nat := match count f s with O => None | n => Some n end.
Definition m_int (s : bytes) : option nat :=
  match s with
  | 45%N :: r => match run digit_b r with Some n => Some (S n) | None => None end
  | _ => run digit_b s
  end.
Definition hex_b (b : N) : bool := (digit_b b || (97 <=? b) && (b <=? 102))%N%bool.
(** '[^']+' *)
Definition m_char (s : bytes) : option nat :=
  match s with
  | 39%N :: r =>
      let n := count (fun b => negb (b =? 39)%N) r in
      match n, drop n r with S _, 39%N :: _ => Some (n + 2) | _, _ => None end
  | _ => None
  end.
Definition test_rx (re : bytes) (s : bytes) : option (nat * nat) :=
  if bytes_eqb re (s2b "[a-z]") then class (fun b => (97 <=? b) && (b <=? 122))%N%bool s
  else if bytes_eqb re (s2b "[0-9]") then class digit_b s
  else if bytes_eqb re (s2b "[0-9a-f]") then class hex_b s
  else if bytes_eqb re (s2b "-?[0-9]{1,}") then leftmost m_int (S (length s)) s 0
  else if bytes_eqb re (s2b "'[^']+'") then leftmost m_char (S (length s)) s 0
  else if bytes_eqb re (s2b "[ " ++ [9%N] ++ s2b "]") then class (fun b => (b =? 32) || (b =? 9))%N%bool s
  else None.
Definition no_string (x : ast) : bytes := [].
(** 0: joeson_test.go:132, NativeIntFrom. *)
Definition test_cb (f pos : nat) (h : heap) (x : ast) : cbres :=
  match native_int_from no_string 3 h x with ROk y => CbRet h (Some y) | _ => CbPanic 1 end.
Definition made_of (ls : list (res line)) : res built := build (compile_with (fun _ => true) 300 (gram_of hand)) 300 "test" (all_ok ls).
Definition run_of (b : res built) (s : bytes) : option (ast * heap) :=
  match b with
  | ROk g => match fst (parse_string 600 (gram_of g) opts0 test_rx test_cb s) with Ok (Some x) st => Some (x, s_heap st) | _ => None end
  | _ => None
  end.
Definition shows (b : res built) (s t : string) : bool :=
  match run_of b (s2b s) with
  | Some (AErr _, _) => false
  | Some (x, h) => says (ast_string no_string 5 h x) t
  | None => false
  end.
Definition reads (b : res built) (s : string) : bool := match run_of b (s2b s) with Some (AErr _, _) => false | Some _ => true | None => false end.
Definition fails (b : res built) (s : string) : bool := match run_of b (s2b s) with Some (AErr _, _) => true | _ => false end.

(** parser_lookahead_test.go:21-33. *)
Definition look_gm : res built := made_of [o_rule "Input" "foo_followed_by_b 'bar'" []; i_rule "foo_followed_by_b" "foo ?('b')" []; i_rule "foo" "'foo'" []].
Example lookahead_test : (fails look_gm "fool" && reads look_gm "foobar" && fails look_gm "foo  bar" && fails look_gm "foo - bar")%bool = true.
Proof. vm_compute. reflexivity. Qed.
(** parser_pattern_test.go:9-54. *)
Definition pat_gm (rule : string) : res built := made_of [o_rule "Input" rule []; i_rule "a" "'a'" []; i_rule "b" "'b'" []].
Example pattern_test :
  (shows (pat_gm "a*b") "" "[]" && shows (pat_gm "a*b") "a" "[a]" && shows (pat_gm "a*b") "abababababa" "[a,a,a,a,a,a]" &&
   fails (pat_gm "a*b") "ab" && fails (pat_gm "a*b") "aaa")%bool = true /\
  (let g := pat_gm "a*b{1,2}" in
   shows g "a" "[a]" && fails g "ab" && shows g "aba" "[a,a]" && fails g "abab" && fails g "ababa" && fails g "aabaa")%bool = true /\
  reads (pat_gm "a*(b{,2})") "abbabababbabba" = true.
Proof. repeat split; vm_compute; reflexivity. Qed.
(** parser_pattern_test.go:57-118: how patterns are printed. *)
Definition foo : pexp := PExp "" (KStr (s2b "foo")).
Definition bar : pexp := PExp "" (KStr (s2b "bar")).
Definition pat (j : option pexp) (mn mx : Z) : bytes := string_of (PExp "" (KPat foo j mn mx)).
Example new_pattern_test :
  pat None 2 (-1) = green (s2b "'foo'") ++ cyan (s2b "*") ++ cyan (s2b "{2,}") /\
  pat None 2 4 = green (s2b "'foo'") ++ cyan (s2b "*") ++ cyan (s2b "{2,4}") /\
  pat None (-1) (-1) = green (s2b "'foo'") ++ cyan (s2b "*") ++ cyan [] /\
  pat (Some bar) 2 (-1) = green (s2b "'foo'") ++ cyan (s2b "*") ++ green (s2b "'bar'") ++ cyan (s2b "{2,}") /\
  pat (Some bar) (-1) (-1) = green (s2b "'foo'") ++ cyan (s2b "*") ++ green (s2b "'bar'") ++ cyan [].
Proof. vm_compute. auto 10. Qed.
(** joeson_test.go:23-54: the intention grammar compiles a grammar. *)
Definition toy_gm : res built :=
  build (compile_with (fun _ => true) 300 (gram_of text)) 300 "gmFoo" (all_ok [o_rule "In" "l:Br" []; i_rule "Br" "'Toy' | 'BZ'" []]).
Definition in_map (b : res built) (s : string) (f : heap -> nmap -> bool) : bool :=
  match run_of b (s2b s) with
  | Some (AObj a, h) => match h !! a with Some (Obj (OMap m) _) => f h m | _ => false end
  | _ => false
  end.
Definition has_string (k v : string) (h : heap) (m : nmap) : bool :=
  match nm_get_string_exists no_string 3 h m k with ROk (s, true) => bytes_eqb s (s2b v) | _ => false end.
Definition has_int (k : string) (v : Z) (h : heap) (m : nmap) : bool :=
  match nm_get_int_exists no_string 3 h m k with ROk (z, true) => (z =? v)%Z | _ => false end.
Example bootstrap_test : in_map toy_gm "Toy" (has_string "l" "Toy") = true.
Proof. vm_compute. reflexivity. Qed.
(** joeson_test.go:124-150. *)
Definition sqr_gm : res built :=
  made_of [o_rule "sqr" "w:word '(' n:int ')'" []; i_rule "word" "[a-z]{1,}" []; i_rule "int" "/-?[0-9]{1,}/" [OCb 0]].
Example squareroot_test : in_map sqr_gm "squareroot(-1)" (fun h m => has_string "w" "squareroot" h m && has_int "n" (-1) h m)%bool = true.
Proof. vm_compute. reflexivity. Qed.
(** joeson_test.go:152-167: only that it parses. *)
Definition left_gm : res built :=
  made_of [o_rule "Input" "expr:Expression" []; i_rule "Expression" "Expression _ binary_op _ Expression | UnaryExpr" []; i_rule "binary_op" "'+'" [];
           i_rule "UnaryExpr" "[0-9]+" []; i_rule "_" ("[ " ++ tab ++ "]*")%string []].
Example left_recursion_test : reads left_gm "123 + 456" = true.
Proof. vm_compute. reflexivity. Qed.
(** joeson_test.go:170-191. *)
Example capturing_test :
  match run_of (made_of [o_rule "Input" "'0x' [0-9a-f]{2,2}" []]) (s2b "0x7d") with
  | Some (AArr l, h) => concat_arr no_string 3 h l = ROk (s2b "7d")
  | _ => False
  end /\
  in_map (made_of [o_rule "Input" "captureMe:'0x' captureMeToo:[0-9a-f]{2,2}" []]) "0x7d"
    (fun h m => match nm_concat no_string 3 h m with ROk s => bytes_eqb s (s2b "0x7d") | _ => false end) = true.
Proof. split; vm_compute; reflexivity. Qed.
(** codestream_token_test.go:236-288. *)
Definition mini_gm : res built :=
  made_of [mk_o (named_lines "Input" (all_ok [o_rule "Number" "[0-9]+ term" []; o_rule "LnChar" "/'[^']+'/ term" []])) [];
           i_rule "term" ("';' '" ++ nl ++ "'*")%string []].
Definition mini (src : string) (t : tstream) : bool :=
  match mini_gm with
  | ROk g =>
      (bytes_eqb (ts_work t) (s2b (src ++ ";" ++ nl)) &&
       match fst (parse_tokens 600 (gram_of g) opts0 test_rx test_cb t) with Ok (Some (AErr _)) _ => false | Ok (Some _) _ => true | _ => false end)%bool
  | _ => false
  end.
Example miniatures_test :
  (mini "1234" (of_go "1234" [lit 0 "1234"; semi 4]) && mini "'\f'" (of_go "'\f'" [lit 0 "'\f'"; semi 4]) && mini "'\n'" (of_go "'\n'" [lit 0 "'\n'"; semi 4]))%bool = true.
Proof. vm_compute. reflexivity. Qed.
(** codestream_token_test.go:534: printing the empty stream. *)
Example print_empty_test : panics (c_print (CTok (of_go "" []))) = false.
Proof. vm_compute. reflexivity. Qed.

(** calculator_test.go:70-123. *)
Definition calc_of (s : string) : option ast :=
  match fst (parse_string 2000 (gram_of calc) opts0 calc_rx calc_cb (s2b s)) with Ok (Some x) _ => Some x | _ => None end.
Example calculator_test :
  forallb (fun x => match calc_of (fst x) with Some (AInt z) => (z =? snd x)%Z | _ => false end)
  [ ("0 + 1", (1)%Z);
    ("0 - 1", (-1)%Z);
    ("0 * 1", (0)%Z);
    ("0 / 1", (0)%Z);
    ("-7", (-7)%Z);
    ("73 + 4", (77)%Z);
    ("73 +(-4)", (69)%Z);
    ("-4 * ((-2+1) *3)", (12)%Z);
    ("1 + 2 + 3 + 4 + 5 + 6", (21)%Z);
    ("1 - 2 + 3 - 4 + 5 - 6", (-3)%Z);
    ("241+513* -24 +((1934-192*2)/7)+1", (-11849)%Z);
    ("60/6/5", (2)%Z);
    ("4*((2+1) * 3 )", (36)%Z);
    ("-1-2-3", (-6)%Z) ]%string = true /\
  forallb (fun x => match parse_message 2000 (gram_of calc) opts0 calc_rx calc_cb (CRune (new_rune_stream (s2b (fst x)))) with
                    | Some (ROk m) => has_prefix (s2b (snd x)) m
                    | _ => false
                    end)
  [ ("90 (6090)", "Error parsing at char:3"); ("-(7)", "Error parsing at char:0") ]%string = true.
Proof. split; vm_compute; reflexivity. Qed.

(** examples/lisp-repl/main_test.go:27-119: parse, evaluate, print, without the colours,
    one after the other on the same machine. *)
Fixpoint session (m : machine exact_arith) (l : list (string * string)) : bool :=
  match l with
  | [] => true
  | (k, v) :: l' =>
      match fst (parse_string 3000 (gram_of lisp) opts0 lisp_rx lisp_cb (s2b k)) with
      | Ok (Some x) _ =>
          match expr_of (A:=exact_arith) Some x with
          | Some e =>
              match eval 300 m e with
              | LOk r m' => (bytes_eqb (strip_ansi (expr_string fmt_exact r)) (s2b v) && session m' l')%bool
              | _ => false
              end
          | None => false
          end
      | _ => false
      end
  end.
Definition lisp_tests : list (string * string) :=
  [ ("(+ 1 1)", "2.000000");
    ("(+ 1 1 1)", "3.000000");
    ("(+ 1 1 1 1 1 1 1 1)", "8.000000");
    ("(+ (+ 1 1) 1)", "3.000000");
    (" ( + ( + 1 1 ) 1 ) ", "3.000000");
    ("(+ (+ 1 1) (+ 1 1))", "4.000000");
    ("(- (+ 1 1) (+ 1 1))", "0.000000");
    ("(- 10 12)", "-2.000000");
    ("(- 12 (- 2 1))", "11.000000");
    ("(% 12 5)", "2.000000");
    ("(car (10 9 8 7 6 5))", "10.000000");
    ("(cdr (10 9 8))", "(9.000000 8.000000)");
    ("(car (cdr (10 9 8)))", "9.000000");
    ("(eq? 1 2)", "0.000000");
    ("(== 2 2)", "1.000000");
    ("(< 1 10)", "1.000000");
    ("(<= -10 -1)", "1.000000");
    ("(< 1 2 3 4 5)", "1.000000");
    ("(< 10 1)", "0.000000");
    ("(< -1 -10)", "0.000000");
    ("(lt 1 2 1 4 5)", "0.000000");
    ("(>= 5 4 4 3 2 1 0 -1 -1000)", "1.000000");
    ("(and 1 1)", "1.000000");
    ("(and (> 9 8 7) ( <= 1 1 2 2 3 3 4 ) )", "1.000000");
    ("(and (eq 7 7) (neq 7 7))", "0.000000");
    ("(or (eq 7 7) (neq 7 7))", "1.000000");
    ("(list? 3)", "0.000000");
    ("(list? (1 2 3))", "1.000000");
    ("(alias foo add)", "()");
    ("(foo 1 2 3)", "6.000000");
    ("(define (double x) (+ x x))", "()");
    ("(double 15)", "30.000000");
    ("(define (quadruple x) (double (double x)))", "()");
    ("(quadruple 15)", "60.000000");
    ("(define (cadr l) (car (cdr l)))", "()");
    ("(cadr (""a"" ""b"" ""c""))", """b""");
    ("(define (caddr l) (car (cdr (cdr l))))", "()");
    ("(caddr (""a"" ""b"" ""c""))", """c""");
    ("(if (== 4 4) ""ok"" ""nok"")", """ok""");
    ("(if (!= 4 4) ""ok"" ""nok"")", """nok""");
    (("(define (codeSize l)" ++ nl ++ tab ++ tab ++ " (cond" ++ nl ++ tab ++ tab ++ "   ((>= l 9) ""L"")" ++ nl ++ tab ++ tab ++ "   ((>= l 5) ""M"")" ++ nl ++ tab ++ tab ++ "   (else ""S"")" ++ nl ++ tab ++ tab ++ " ))"), "()");
    ("(codeSize 10)", """L""");
    ("(codeSize 6)", """M""");
    ("(codeSize 2)", """S""");
    ("(define (divisible? n m) (== (% n m) 0))", "()");
    ("(divisible? 1000000 10)", "1.000000");
    ("(divisible? 1000000 7)", "0.000000");
    ("(define (fact n) (if (<= n 0) 1 (* n (fact (- n 1)))))", "()");
    ("(fact 0)", "1.000000");
    ("(fact 4)", "24.000000");
    ("(fact 5)", "120.000000") ]%string.
Example lisp_test : session new_machine lisp_tests = true.
Proof. vm_compute. reflexivity. Qed.

(** precedence_test.go:152-281. *)
Fixpoint moss_string (x : ast) : bytes :=
  match x with
  | AStr s => s
  | AUser _ [l; AStr op; r] => s2b "[" ++ op ++ s2b " " ++ moss_string l ++ s2b " " ++ moss_string r ++ s2b "]"
  | _ => []
  end.
Definition moss_of (b : built) (s : string) : option bytes :=
  match fst (parse_string 2000 (gram_of b) opts0 moss_rx (moss_cb moss_string) (s2b s)) with Ok (Some x) _ => Some (moss_string x) | _ => None end.
Definition works (b : built) (s t : string) : bool := match moss_of b s with Some r => bytes_eqb r (s2b t) | None => false end.
Definition moss_bad_binary : list (res line) :=
  [ mk_o (GText (s2b "Term ( _ AddOp _ Expr )*")) []; i_rule "Term" "Factor ( _ MulOp _ Factor  )*" [OCb 0]; i_rule "Factor" "'(' Expr ')' | Glyph" [OCb 0];
    i_rule "AddOp" "'+' | '-'" []; i_rule "MulOp" "'*' | '/'" [] ].
Definition moss_bad : res built :=
  build moss_compile 300 "at hand"
    (made [mk_o (named_lines "Expr" (made
       [ mk_o (named_lines "BinaryExpr" (made moss_bad_binary)) [OCb 0]; o_rule "UnaryExpr" "unary_op Glyph" []; i_rule "unary_op" "'!' | '^' | '-'" [];
         i_rule "Glyph" "[a-zA-Z0-9]" []; i_rule "_" "[ \t]*" [] ])) []]).
Example precedence_test :
  (works moss_levels "3-2-1" "[- [- 3 2] 1]" && negb (works moss_right "3-2-1" "[- [- 3 2] 1]") && works moss "3-2-1" "[- [- 3 2] 1]" &&
   works moss_rank "3-2-1" "[- [- 3 2] 1]" && works moss_deep "3-2-1" "[- [- 3 2] 1]" && works moss_real "3-2-1" "[- [- 3 2] 1]" &&
   works moss_real "a + b" "[+ a b]" && works moss_real "a + b - c" "[- [+ a b] c]" &&
   works moss_real "a*m/n + x - y + z + b*c" "[+ [+ [- [+ [/ [* a m] n] x] y] z] [* b c]]")%bool = true /\
  match moss_bad with ROk b => match moss_of b "3-2-1" with Some r => r <> s2b "[- [- 3 2] 1]" | None => False end | _ => False end.
Proof. split; [vm_compute; reflexivity|vm_compute; congruence]. Qed.

(** videogame_test.go:94-117. *)
Definition game_is (s : string) (f : game -> bytes) (t : string) : bool :=
  match fst (parse_string 600 (gram_of games) opts0 game_rx game_cb (s2b s)) with
  | Ok (Some (AUser _ [AInt i; AStr a; AInt y; AStr d; AInt c])) _ => bytes_eqb (f (Game i a y d c)) (s2b t)
  | _ => false
  end.
Example videogame_test :
  (game_is "1" gm_title "Civilization" && game_is "73264983242" gm_title "Not found" && game_is """Doom""" gm_developer "John Carmack" &&
   game_is "bestIn: 1984" gm_title "Tetris")%bool = true.
Proof. vm_compute. reflexivity. Qed.
(** joeson_test.go:11-19: JoesonNbRules is 35 (joeson_handcompiled.go:50). *)
Example intention_test :
  match build (compile_with re_known 300 (gram_of hand)) 300 "gmIntention" intention_rules with ROk b => length (snd b) = 35 | _ => False end.
Proof. vm_compute. reflexivity. Qed.
