(** Printing parsers: ast.go:71-77 ([String]), parser.go:32-42 ([prefix]),
    colors.go and the String methods of parser_*.go.
    Simplified: a parser that is not yet a rule, so the prefix is the label. *)
From Verif Require Import Base Helpers Native Engine Build.

(** colors.go:4-24. *)
Definition coloured (code : string) (s : bytes) : bytes := [27%N] ++ s2b code ++ s ++ [27%N] ++ s2b "[0m".
Definition red : bytes -> bytes := coloured "[31m".
Definition green : bytes -> bytes := coloured "[32m".
Definition yellow : bytes -> bytes := coloured "[33m".
Definition blue : bytes -> bytes := coloured "[34m".
Definition magenta : bytes -> bytes := coloured "[35m".
Definition cyan : bytes -> bytes := coloured "[36m".

(** parser_regex.go:31, the replacer: keys are single bytes. *)
Definition re_byte (b : N) : bytes :=
  if (b =? 13)%N then [92; 114]%N else if (b =? 10)%N then [92; 110]%N else if (b =? 9)%N then [92; 116]%N else [b].
(** parser_pattern.go:137-151. *)
Definition bounds_string (mn mx : Z) : bytes :=
  if ((mn <? 0) && (mx <? 0))%Z%bool then cyan []
  else cyan ([123] ++ (if (-1 <? mn)%Z then itoa mn else []) ++ [44] ++ (if (-1 <? mx)%Z then itoa mx else []) ++ [125])%N.
(** The loops with [first] in parser_choice.go:70-77 and parser_sequence.go:87-94. *)
Fixpoint with_between (sep : bytes) (l : list bytes) : bytes :=
  match l with
  | [] => []
  | [s] => s
  | s :: l' => s ++ sep ++ with_between sep l'
  end.
(** parser.go:37-38. *)
Definition prefix (label : string) : bytes := if String.eqb label "" then [] else cyan (s2b label ++ [58%N]).
(** [String(x)]: the prefix, then parser_str.go:30-32, parser_regex.go:30-32 (the
    compiled expression is in parentheses, :20), parser_ref.go:79,
    parser_sequence.go:85-96, parser_choice.go:67-80, parser_pattern.go:130-152,
    parser_existential.go:48-50, parser_not.go:42-44, parser_lookahead.go:30-32,
    native_undefined.go:19. *)
Fixpoint string_of (e : pexp) : bytes :=
  match e with
  | PExp l k =>
      prefix l ++
      match k with
      | KStr s => green ([39] ++ escape s ++ [39])%N
      | KRegex s => magenta ([47] ++ (([40] ++ s ++ [41]) ≫= re_byte) ++ [47; 103])%N
      | KRef nm => red (s2b nm)
      | KSeq _ es => blue [40%N] ++ with_between [32%N] (map string_of es) ++ blue [41%N]
      | KChoice es => blue [40%N] ++ with_between (blue [32; 124; 32]%N) (map string_of es) ++ blue [41%N]
      | KPat v j mn mx => string_of v ++ cyan [42%N] ++ match j with Some x => string_of x | None => [] end ++ bounds_string mn mx
      | KExist a => string_of a ++ blue [63%N]
      | KNot a => yellow [33%N] ++ string_of a
      | KLook a => blue [40; 63]%N ++ string_of a ++ blue [41%N]
      | KUndef => s2b "<NativeUndefined>"
      end
  end.
