(** Model of the joeson grammar: joeson_handcompiled.go and joeson_intention.go,
    with the parse functions of their rules (the constructors of parser_*.go)
    and the compilation of a rule from a string (line.go:165-192).  No proofs
    here.

    What is simplified:
    - Go's regexp is modelled for the three expressions of this grammar;
    - regexp.Compile is an oracle saying which expressions are valid;
    - a join that is NativeUndefined is dropped when a parser is read from the
      heap: it is never used as a parser (parser_pattern.go:101, IsUndefined). *)
From Verif Require Import Base Helpers Utf8 Stream Native Engine Build.

(** ** Regular expressions of the grammar *)

(** Letters, '.' and '_'; those and digits; digits. *)
Definition alpha_b (b : N) : bool :=
  (((97 <=? b) && (b <=? 122)) || ((65 <=? b) && (b <=? 90)) || (b =? 46) || (b =? 95))%N%bool.
Definition digit_b (b : N) : bool := ((48 <=? b) && (b <=? 57))%N%bool.
Definition alnum_b (b : N) : bool := (alpha_b b || digit_b b)%bool.

Fixpoint run_len (f : N -> bool) (s : bytes) : nat :=
  match s with
  | [] => 0
  | b :: s' => if f b then S (run_len f s') else 0
  end.
(** FindStringIndex of a byte of [f] followed by as many of [g] as possible:
    the leftmost match, [i] bytes having been skipped. *)
Fixpoint find_run (f g : N -> bool) (s : bytes) (i : nat) : option (nat * nat) :=
  match s with
  | [] => None
  | b :: s' => if f b then Some (i, i + S (run_len g s')) else find_run f g s' (S i)
  end.
Definition re_word : bytes := s2b "[a-zA-Z\._][a-zA-Z\._0-9]*".
Definition re_int : bytes := s2b "[0-9]+".
Definition re_any : bytes := s2b "[\s\S]".
Definition joeson_rx (re : bytes) (s : bytes) : option (nat * nat) :=
  if bytes_eqb re re_word then find_run alpha_b alnum_b s 0
  else if bytes_eqb re re_int then find_run digit_b digit_b s 0
  else if bytes_eqb re re_any then match s with [] => None | _ => Some (0, snd (decode_rune s)) end
  else None.

(** ** Parse functions *)

(** The parsers as heap objects: a tag, the arguments and the label. *)
Definition t_str : string := "str".
Definition t_regex : string := "regex".
Definition t_ref : string := "ref".
Definition t_seq : string := "seq".
Definition t_choice : string := "choice".
Definition t_pat : string := "pat".
Definition t_exist : string := "exist".
Definition t_look : string := "look".
Definition t_not : string := "not".

Definition new_obj (h : heap) (t : string) (args : list ast) : cbres :=
  CbRet (h ++ [Obj (OParser t args "") attr0]) (Some (AObj (length h))).
Definition bad (n : nat) : cbres := CbPanic n.
(** The type assertion [.(Parser)]. *)
Definition is_parser (h : heap) (x : ast) : bool :=
  match x with
  | AUndef => true
  | AObj a => match h !! a with Some (Obj (OParser _ _ _) _) => true | _ => false end
  | _ => false
  end.
Definition map_at (h : heap) (x : ast) : option (nat * nmap * attr) :=
  match x with
  | AObj a => match h !! a with Some (Obj (OMap m) at_) => Some (a, m, at_) | _ => None end
  | _ => None
  end.

(** parser_choice.go:19-35 and parser_sequence.go:25-48. *)
Definition cb_list (t : string) (h : heap) (x : ast) : cbres :=
  match x with
  | AArr l => if forallb (is_parser h) l then new_obj h t l else bad 1
  | _ => bad 2
  end.
(** parser_existential.go:12-16, parser_not.go:18-24. *)
Definition cb_one (t : string) (h : heap) (x : ast) : cbres :=
  if is_parser h x then new_obj h t [x] else bad 3.
(** parser_lookahead.go:20-27. *)
Definition cb_look (h : heap) (x : ast) : cbres :=
  match map_at h x with
  | Some (_, m, _) =>
      match nm_get m "expr" with
      | Some e => if is_parser h e then new_obj h t_look [e] else bad 4
      | None => bad 5
      end
  | None => bad 6
  end.
(** parser_pattern.go:58-81: the bounds. *)
Definition bound_of (m : nmap) (k : string) : option Z :=
  match nm_get m k with
  | None | Some AUndef => Some (-1)%Z
  | Some (AInt z) => Some z
  | Some (AStr s) => atoi s
  | Some _ => None
  end.
(** parser_pattern.go:36-83. *)
Definition cb_pat (h : heap) (x : ast) : cbres :=
  match map_at h x with
  | Some (_, m, _) =>
      match nm_get m "value" with
      | Some v =>
          let j := default AUndef (nm_get m "join") in
          if (is_parser h v && is_parser h j)%bool then
            match bound_of m "min", bound_of m "max" with
            | Some mn, Some mx => new_obj h t_pat [v; j; AInt mn; AInt mx]
            | _, _ => bad 7
            end
          else bad 8
      | None => bad 9
      end
  | None => bad 10
  end.
(** joeson_handcompiled.go:83-88. *)
Definition cb_plus (h : heap) (x : ast) : cbres :=
  match map_at h x with
  | Some (a, m, at_) =>
      cb_pat (<[a := Obj (OMap (nm_set (nm_set m "min" (AInt 1)) "max" (AInt (-1)))) at_]> h) x
  | None => bad 10
  end.
(** parser_ref.go:23-47. *)
Definition cb_ref (h : heap) (x : ast) : cbres :=
  match x with
  | AStr [] => bad 11
  | AStr s => new_obj h t_ref [AStr s]
  | AArr (AStr [] :: _) => bad 11
  | AArr [AStr s] => new_obj h t_ref [AStr s]
  | AArr (AStr s :: p :: _) => if is_parser h p then new_obj h t_ref [AStr s; p] else bad 12
  | _ => bad 13
  end.
(** joeson_handcompiled.go:62-68, [fCode]. *)
Definition cb_code (h : heap) (x : ast) : cbres :=
  match map_at h x with
  | Some (_, m, _) =>
      if nm_is_undefined m "code" then
        match nm_get m "expr" with Some e => CbRet h (Some e) | None => bad 14 end
      else bad 15
  | None => bad 16
  end.
(** The elements of the array as one string (native_array.go:64-78): strings,
    numbers and nested arrays here. *)
Definition cat (h : heap) (x : ast) : option bytes :=
  match x with
  | AArr l => match concat_arr (fun _ => []) 10 h l with ROk s => Some s | _ => None end
  | _ => None
  end.
Definition cb_str (h : heap) (x : ast) : cbres :=
  match cat h x with Some s => new_obj h t_str [AStr s] | None => bad 17 end.

Section Oracle.
(** Which regular expressions regexp.Compile accepts. *)
Variable re_ok : bytes -> bool.

(** parser_regex.go:19-27. *)
Definition cb_regex (pre post : bytes) (h : heap) (x : ast) : cbres :=
  match cat h x with
  | Some s => if re_ok (pre ++ s ++ post) then new_obj h t_regex [AStr (pre ++ s ++ post)] else bad 18
  | None => bad 17
  end.

(** Numbers for the parse functions. *)
Definition f_choice := 0.  Definition f_seq := 1.   Definition f_exist := 2. Definition f_pat := 3.
Definition f_plus := 4.    Definition f_not := 5.   Definition f_look := 6.  Definition f_ref := 7.
Definition f_code := 8.    Definition f_str := 9.   Definition f_regex := 10. Definition f_class := 11.
Definition f_int := 12.    Definition f_esc := 13.
Definition joeson_cb (f pos : nat) (h : heap) (x : ast) : cbres :=
  match f with
  | 0 => cb_list t_choice h x
  | 1 => cb_list t_seq h x
  | 2 => cb_one t_exist h x
  | 3 => cb_pat h x
  | 4 => cb_plus h x
  | 5 => cb_one t_not h x
  | 6 => cb_look h x
  | 7 => cb_ref h x
  | 8 => cb_code h x
  | 9 => cb_str h x
  | 10 => cb_regex [] [] h x
  | 11 => cb_regex (s2b "[") (s2b "]") h x
  | 12 => match native_int_from (fun _ => []) 10 h x with ROk y => CbRet h (Some y) | _ => bad 19 end
  | 13 => match x with AStr s => CbRet h (Some (AStr (s2b "\" ++ s))) | _ => bad 20 end
  | _ => bad 21
  end.
End Oracle.

(** ** joeson_handcompiled.go:71-121 *)

(** joeson_handcompiled.go:23-47. *)
Definition c_ (l : list pexp) : pexp := PExp "" (KChoice l).
Definition e_ (a : pexp) : pexp := PExp "" (KExist a).
Definition l_ (lb : string) (e : pexp) : pexp := match e with PExp _ k => PExp lb k end.
Definition n_ (a : pexp) : pexp := PExp "" (KNot a).
Definition r_ (s : string) : pexp := PExp "" (KRef s).
Definition re_ (s : bytes) : pexp := PExp "" (KRegex s).
Definition s_ (l : list pexp) : pexp := PExp "" (KSeq TSingle l).
Definition st_ (s : string) : pexp := PExp "" (KStr (s2b s)).
Definition pat_ (v : pexp) (j : option pexp) (mn mx : Z) : pexp := PExp "" (KPat v j mn mx).
Definition p_ (v : pexp) : pexp := pat_ v None (-1) (-1).

Definition nl : string := String (ascii_of_nat 10) "".
Definition bsl : string := "\".
Definition cbo (f : nat) : lopts := LOpts (Some f) false false.
(** [o(p)], [o(p, f)], [o(Named(n, rules(...)))], [i(Named(n, p))],
    [i(Named(n, p), f)], [i(Named(n, o(p)))]: what lineInit makes of them. *)
Definition o_p (p : pexp) : line := LO "" (LC false p) no_opts.
Definition o_pf (p : pexp) (f : nat) : line := LO "" (LC false p) (cbo f).
Definition o_rank (n : string) (l : list line) : line := LO n (LA l) no_opts.
Definition i_p (n : string) (p : pexp) : line := LI n (LC true p) no_opts.
Definition i_pf (n : string) (p : pexp) (f : nat) : line := LI n (LC true p) (cbo f).

Definition until (stop esc : string) : pexp := p_ (s_ [n_ (st_ stop); c_ [r_ esc; r_ "."]]).

Definition joeson_rules : list line :=
  [ o_rank "EXPR"
      [ o_p (s_ [r_ "CHOICE"; r_ "_"]);
        o_rank "CHOICE"
          [ o_pf (s_ [p_ (r_ "_PIPE"); pat_ (r_ "SEQUENCE") (Some (r_ "_PIPE")) 2 (-1); p_ (r_ "_PIPE")]) f_choice;
            o_rank "SEQUENCE"
              [ o_pf (pat_ (r_ "UNIT") None 2 (-1)) f_seq;
                o_rank "UNIT"
                  [ o_p (s_ [r_ "_"; r_ "LABELED"]);
                    o_rank "LABELED"
                      [ o_p (s_ [e_ (s_ [l_ "label" (r_ "LABEL"); st_ ":"]); l_ "&" (c_ [r_ "DECORATED"; r_ "PRIMARY"])]);
                        o_rank "DECORATED"
                          [ o_pf (s_ [r_ "PRIMARY"; st_ "?"]) f_exist;
                            o_pf (s_ [l_ "value" (r_ "PRIMARY"); st_ "*"; l_ "join" (e_ (s_ [n_ (r_ "__"); r_ "PRIMARY"])); l_ "@" (e_ (r_ "RANGE"))]) f_pat;
                            o_pf (s_ [l_ "value" (r_ "PRIMARY"); st_ "+"; l_ "join" (e_ (s_ [n_ (r_ "__"); r_ "PRIMARY"]))]) f_plus;
                            o_pf (s_ [l_ "value" (r_ "PRIMARY"); l_ "@" (r_ "RANGE")]) f_pat;
                            o_pf (s_ [st_ "!"; r_ "PRIMARY"]) f_not;
                            o_pf (c_ [s_ [st_ "(?"; l_ "expr" (r_ "EXPR"); st_ ")"]; s_ [st_ "?"; l_ "expr" (r_ "EXPR")]]) f_look;
                            LI "RANGE" (LO "" (LC false (s_ [st_ "{"; r_ "_"; l_ "min" (e_ (r_ "INT")); r_ "_"; st_ ","; r_ "_"; l_ "max" (e_ (r_ "INT")); r_ "_"; st_ "}"])) no_opts) no_opts ];
                        o_rank "PRIMARY"
                          [ o_pf (s_ [r_ "WORD"; st_ "("; r_ "EXPR"; st_ ")"]) f_ref;
                            o_pf (r_ "WORD") f_ref;
                            o_pf (s_ [st_ "("; l_ "inlineLabel" (e_ (s_ [r_ "WORD"; st_ ": "])); l_ "expr" (r_ "EXPR"); st_ ")"; e_ (s_ [r_ "_"; st_ "->"; r_ "_"; l_ "code" (r_ "CODE")])]) f_code;
                            LI "CODE" (LO "" (LC false (s_ [st_ "{"; until "}" "ESC1"; st_ "}"])) no_opts) (cbo f_code);
                            o_pf (s_ [st_ "'"; until "'" "ESC1"; st_ "'"]) f_str;
                            o_pf (s_ [st_ "/"; until "/" "ESC2"; st_ "/"]) f_regex;
                            o_pf (s_ [st_ "["; until "]" "ESC2"; st_ "]"]) f_class ] ] ] ] ] ];
    i_p "LABEL" (c_ [st_ "&"; st_ "@"; r_ "WORD"]);
    i_p "WORD" (re_ re_word);
    i_pf "INT" (re_ re_int) f_int;
    i_p "_PIPE" (s_ [r_ "_"; st_ "|"]);
    i_p "_" (p_ (c_ [st_ " "; st_ nl]));
    i_p "__" (pat_ (c_ [st_ " "; st_ nl]) None 1 (-1));
    i_p "." (re_ re_any);
    i_p "ESC1" (s_ [st_ bsl; r_ "."]);
    i_pf "ESC2" (s_ [st_ bsl; r_ "."]) f_esc ].

(** joeson_handcompiled.go:7-20, [NewJoeson]: no string needs compiling. *)
Definition no_compile (s : bytes) : res pexp := RPanic (PMsg "no string rules").
Definition joeson_name : string := "__joeson__".
Definition joeson_built : res (node * list (string * node)) := build no_compile 50 joeson_name joeson_rules.
Definition joeson : res gram := let* b := joeson_built in ROk (gram_of b).

(** ** Reading a compiled parser *)
Fixpoint read_parser (fuel : nat) (h : heap) (x : ast) : option pexp :=
  match fuel with
  | O => None
  | S fuel' =>
      let many l := mapM (read_parser fuel' h) l in
      match x with
      | AUndef => Some (PExp "" KUndef)
      | AObj a =>
          match h !! a with
          | Some (Obj (OParser t args lb) _) =>
              let one (f : pexp -> kind pexp) :=
                match args with
                | [y] => match read_parser fuel' h y with Some e => Some (PExp lb (f e)) | None => None end
                | _ => None
                end in
              if String.eqb t t_str then match args with [AStr s] => Some (PExp lb (KStr s)) | _ => None end
              else if String.eqb t t_regex then match args with [AStr s] => Some (PExp lb (KRegex s)) | _ => None end
              else if String.eqb t t_ref then match args with AStr s :: _ => Some (PExp lb (KRef (b2s s))) | _ => None end
              else if String.eqb t t_seq then match many args with Some l => Some (PExp lb (KSeq TSingle l)) | None => None end
              else if String.eqb t t_choice then match many args with Some l => Some (PExp lb (KChoice l)) | None => None end
              else if String.eqb t t_exist then one KExist
              else if String.eqb t t_look then one KLook
              else if String.eqb t t_not then one KNot
              else if String.eqb t t_pat then
                match args with
                | [v; j; AInt mn; AInt mx] =>
                    match read_parser fuel' h v with
                    | Some ev =>
                        match j with
                        | AUndef => Some (PExp lb (KPat ev None mn mx))
                        | _ => match read_parser fuel' h j with
                               | Some ej => Some (PExp lb (KPat ev (Some ej) mn mx))
                               | None => None
                               end
                        end
                    | None => None
                    end
                | _ => None
                end
              else None
          | _ => None
          end
      | _ => None
      end
  end.

(** line.go:165-192: compile a string with the grammar [g].  [fuel] bounds the
    parse and the depth of the result. *)
Definition compile_with (re_ok : bytes -> bool) (fuel : nat) (g : gram) (s : bytes) : res pexp :=
  match fst (parse_string fuel g (POpts false false false) joeson_rx (joeson_cb re_ok) s) with
  | Ok (Some (AErr n)) _ => RPanic (PMsg "Error parsing")
  | Ok (Some x) st => match read_parser fuel (s_heap st) x with Some e => ROk e | None => RPanic (PMsg "not a Parser") end
  | Ok None _ => RPanic (PMsg "nil is not a Parser")
  | Panic p _ => RPanic p
  | OutOfFuel => RFuel
  end.

(** ** joeson_intention.go:7-57 *)
Definition o_s (s : string) : line := LO "" (LS (s2b s)) no_opts.
Definition o_sf (s : string) (f : nat) : line := LO "" (LS (s2b s)) (cbo f).
(** [i(named(n, s))]: rule2line makes an OLine of the string. *)
Definition i_s (n s : string) : line := LI n (LO "" (LS (s2b s)) no_opts) no_opts.
Definition i_sf (n s : string) (f : nat) : line := LI n (LO "" (LS (s2b s)) no_opts) (cbo f).

Definition intention_rules : list line :=
  [ o_rank "EXPR"
      [ o_s "CHOICE _";
        o_rank "CHOICE"
          [ o_sf "_PIPE* SEQUENCE*_PIPE{2,} _PIPE*" f_choice;
            o_rank "SEQUENCE"
              [ o_sf "UNIT{2,}" f_seq;
                o_rank "UNIT"
                  [ o_s "_ LABELED";
                    o_rank "LABELED"
                      [ o_s "(label:LABEL ':')? &:(DECORATED|PRIMARY)";
                        o_rank "DECORATED"
                          [ o_sf "PRIMARY '?'" f_exist;
                            o_sf "value:PRIMARY '*' join:(!__ PRIMARY)? @:RANGE?" f_pat;
                            o_sf "value:PRIMARY '+' join:(!__ PRIMARY)?" f_plus;
                            o_sf "value:PRIMARY @:RANGE" f_pat;
                            o_sf "'!' PRIMARY" f_not;
                            o_sf "'(?' expr:EXPR ')' | '?' expr:EXPR" f_look;
                            i_s "RANGE" "'{' _ min:INT? _ ',' _ max:INT? _ '}'" ];
                        o_rank "PRIMARY"
                          [ o_sf "WORD '(' EXPR ')'" f_ref;
                            o_sf "WORD" f_ref;
                            o_sf "'(' inlineLabel:(WORD ': ')? expr:EXPR ')' ( _ '->' _ code:CODE )?" f_code;
                            i_sf "CODE" "'{' (!'}' (ESC1 | .))* '}'" f_code;
                            o_sf "'\'' (!'\'' (ESC1 | .))* '\''" f_str;
                            o_sf "'/' (!'/' (ESC2 | .))* '/'" f_regex;
                            o_sf "'[' (!']' (ESC2 | .))* ']'" f_class ] ] ] ] ] ];
    i_s "LABEL" "'&' | '@' | WORD";
    i_s "WORD" "/[a-zA-Z\._][a-zA-Z\._0-9]*/";
    i_sf "INT" "/[0-9]+/" f_int;
    i_s "_PIPE" "_ '|'";
    i_s "_" ("(' ' | '" ++ nl ++ "')*");
    i_s "__" ("(' ' | '" ++ nl ++ "')+");
    i_s "." "/[\s\S]/";
    i_s "ESC1" "'\\' .";
    i_sf "ESC2" "'\\' ." f_esc ].
