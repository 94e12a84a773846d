(** Model of examples/lisp-repl/grammar.go: the rules, the three regular
    expressions they use and the parse functions.  No proofs here.

    What is simplified: Go's regexp is modelled for the three expressions; an
    Expr is a user value, its kind (expr.go:14-19) the tag; the number of an Expr
    is kept as the integer it is converted from (grammar.go:40). *)
From Verif Require Import Base Helpers Utf8 Stream Native Engine Build Joeson Calc.

(** The expressions of the rules [string], [number] and [word]. *)
Definition re_unquote : bytes := s2b "[^""]".
Definition re_signed : bytes := s2b "-?[0-9]+".
Definition re_ident : bytes := s2b "[a-zA-Z\._][a-zA-Z\._0-9?]*".
Definition word_b (b : N) : bool :=
  ((97 <=? b) && (b <=? 122) || (65 <=? b) && (b <=? 90) || (b =? 46) || (b =? 95))%N%bool.
Definition word2_b (b : N) : bool := (word_b b || digit_b b || (b =? 63)%N)%bool.
(** The longest match at the start of a text, if there is one. *)
Definition m_unquote (s : bytes) : option nat :=
  match s with
  | [] => None
  | b :: _ => if (b =? 34)%N then None else Some (snd (decode_rune s))
  end.
Definition m_signed (s : bytes) : option nat :=
  let '(k, ds) := match s with
                  | b :: s' => if (b =? 45)%N then (1, s') else (0, s)
                  | [] => (0, s)
                  end in
  match run_len digit_b ds with O => None | n => Some (k + n) end.
Definition m_ident (s : bytes) : option nat :=
  match s with
  | b :: s' => if word_b b then Some (S (run_len word2_b s')) else None
  | [] => None
  end.
(** The leftmost match: [i] is where the rest [s] starts.  Between two characters
    only, where a byte that starts no character counts as one. *)
Fixpoint leftmost (m : bytes -> option nat) (fuel : nat) (s : bytes) (i : nat) : option (nat * nat) :=
  match fuel with
  | O => None
  | S f =>
      match m s with
      | Some n => Some (i, i + n)
      | None => match s with [] => None | _ => let w := snd (decode_rune s) in leftmost m f (drop w s) (i + w) end
      end
  end.
Definition lisp_rx (re : bytes) (s : bytes) : option (nat * nat) :=
  if bytes_eqb re re_unquote then leftmost m_unquote (S (length s)) s 0
  else if bytes_eqb re re_signed then leftmost m_signed (S (length s)) s 0
  else if bytes_eqb re re_ident then leftmost m_ident (S (length s)) s 0
  else None.

(** expr.go:14-19. *)
Definition k_string := 0.  Definition k_number := 1.  Definition k_list := 2.  Definition k_operator := 3.
Definition is_expr (x : ast) : bool :=
  match x with AUser 0 _ | AUser 1 _ | AUser 2 _ | AUser 3 _ => true | _ => false end.
(** grammar.go:31-64: exprFromList with parseList, exprFromString, exprFromNumber,
    exprFromOperator. *)
Definition lisp_cb (f pos : nat) (h : heap) (x : ast) : cbres :=
  match f with
  | 0 => match x with
         | AArr l => if forallb is_expr l then CbRet h (Some (AUser k_list l)) else CbPanic 1
         | _ => CbPanic 2
         end
  | 1 => match x with
         | AArr l => match concat_arr (fun _ => []) 1 h l with ROk s => CbRet h (Some (AUser k_string [AStr s])) | _ => CbPanic 3 end
         | _ => CbPanic 4
         end
  | 2 => match native_int_from (fun _ => []) 1 h x with ROk y => CbRet h (Some (AUser k_number [y])) | _ => CbPanic 5 end
  | 3 => match x with AStr s => CbRet h (Some (AUser k_operator [AStr s])) | _ => CbPanic 6 end
  | _ => CbPanic 7
  end.

(** grammar.go:16-30. *)
Definition tab : string := String (ascii_of_nat 9) "".
Definition o_rule (n s : string) (l : list opt) : res line := mk_o (named_text n (s2b s)) l.
Definition expr_rules : list (res line) :=
  [ o_rule "list" "'(' _  expr*__  _ ')'" [OCb 0];
    o_rule "string" "'""' [^""]* '""'" [OCb 1];
    o_rule "number" "/-?[0-9]+/" [OCb 2];
    o_rule "operator" "word | '+' | '-' | '*' | '/' | '%' | '>=' | '<=' | '!=' | '=='| '<' | '>' |  '=' " [OCb 3];
    i_rule "word" "/[a-zA-Z\._][a-zA-Z\._0-9?]*/" [] ].
Definition all_ok (l : list (res line)) : list line :=
  omap (fun r => match r with ROk l => Some l | _ => None end) l.
Definition lisp_rules : list (res line) :=
  [ mk_o (GText (s2b "_ expr _")) [];
    mk_i (named_lines "expr" (all_ok expr_rules)) [];
    i_rule "_" "_SPACECHAR*" [];
    i_rule "__" "_SPACECHAR+" [];
    i_rule "_SPACECHAR" (String.append "' ' | '" (String.append tab (String.append "' | '" (String.append nl "'")))) [];
    i_rule "." "'\s' | '\S'" [];
    i_rule "ESC1" "'\\' ." [] ].
Definition lisp_lines : list line := all_ok lisp_rules.
