(** Model of the text that describes lines in the errors of a construction:
    line_s.go:16-18, line_c.go:11-13, line_a.go:17-27, line_i.go:24-34,
    line_o.go:22-32, parser_rank.go:41.  No proofs here. *)
From Verif Require Import Base Helpers Native Engine Print Build.

(** colors.go:20. *)
Definition bold_blue : bytes -> bytes := coloured "[1;34m".
Definition line_feed : bytes := [10%N].
(** line_s.go:17, strings.Replace with -1: every line feed becomes a backslash
    and an n. *)
Fixpoint escape_lf (s : bytes) : bytes :=
  match s with [] => [] | c :: s' => (if N.eqb c 10 then [92; 110]%N else [c]) ++ escape_lf s' end.
(** helpers/helpers.go:51-53, [Indent], for a count that is not negative. *)
Fixpoint blanks (n : nat) : bytes := match n with O => [] | S n' => [32; 32]%N ++ blanks n' end.
(** The [ *] of a regular expression, greedy. *)
Fixpoint skip_blanks (s : bytes) : bytes := match s with 32%N :: s' => skip_blanks s' | s => s end.
(** line_o.go:26-27, line_i.go:28-29, ReplaceAllString of [^ *o *] by ["o "]:
    without the flag m it matches at the start of the text only. *)
Definition squeeze (s : bytes) : bytes :=
  match skip_blanks s with 111%N :: s' => s2b "o " ++ skip_blanks s' | _ => s end.
(** line_o.go:28-30: the mark of a callback, U+1D627. *)
Definition cb_mark (o : lopts) : bytes := match lo_cb o with Some _ => s2b " " ++ yellow [240; 157; 152; 167]%N | None => [] end.
(** [stringIndent]; [show] is Parser.String of a compiled line. *)
Fixpoint string_indent (show : pexp -> bytes) (n : nat) (l : line) : bytes :=
  match l with
  | LS s => escape_lf s
  | LC _ e => show e
  | LA ls => bold_blue (s2b "[" ++ line_feed) ++ concat (map (fun x => string_indent show (S n) x ++ line_feed) ls) ++ blanks n ++ bold_blue (s2b "]")
  | LO nm c o => blanks n ++ s2b "o" ++ s2b " " ++ s2b nm ++ s2b " " ++ squeeze (string_indent show n c) ++ cb_mark o
  | LI nm c o => blanks n ++ s2b "i" ++ s2b " " ++ s2b nm ++ s2b " " ++ squeeze (string_indent show n c) ++ cb_mark o
  end.
(** parser_rank.go:41: the panic on a rank among the lines of a rank, as
    NewALine makes it. *)
Definition unknown_line (show : pexp -> bytes) (ls : list line) : bytes :=
  s2b "Unknown type line, expected 'o' or 'i' line, got '" ++ string_indent show 0 (LA ls) ++ s2b "' (joeson.ALine)".
