(** Model of TokenStreamFromGoCode (codestream_token.go:334-404).  No proofs here.

    The scanner of the standard library (go/scanner) is data: what [scan.Init]
    and each [scan.Scan] report and return for the source.  Error messages are
    byte strings; [int(pos) - 1] is the offset in the source, since the file set
    is new and its base is 1. *)
From Verif Require Import Base Helpers Utf8 Stream.

(** One answer of [scan.Scan] (codestream_token.go:370): the offset, [tok.String()],
    [lit] and whether [tok] is [token.COMMA]. *)
Record lexeme := Lexeme { lx_pos : nat; lx_str : bytes; lx_lit : bytes; lx_comma : bool }.

(** A whole scan: errors reported by [Init]; the answers before EOF, each with the
    errors reported meanwhile; errors reported by the call that answers EOF. *)
Record scan := Scan { sc_init : list bytes; sc_steps : list (lexeme * list bytes); sc_end : list bytes }.

Definition sc_lexemes (sc : scan) : list lexeme := fst <$> sc_steps sc.

(** codestream_token.go:368: the regular expression [[a-zA-Z0-9_=]$]. *)
Definition space_after (prev : bytes) : bool :=
  match last prev with
  | None => false
  | Some b => ((65 <=? b) && (b <=? 90)) || ((97 <=? b) && (b <=? 122)) ||
              ((48 <=? b) && (b <=? 57)) || (b =? 95) || (b =? 61)
  end%N%bool.

(** codestream_token.go:374-391. *)
Definition go_repr (prev : bytes) (x : lexeme) : bytes :=
  if (bytes_eqb (lx_str x) (s2b ";") && bytes_eqb (lx_lit x) [10%N])%bool then s2b ";" ++ [10%N]
  else match lx_lit x with
       | _ :: _ => if space_after prev then s2b " " ++ lx_lit x else lx_lit x
       | [] => if (space_after prev && lx_comma x)%bool then s2b " " ++ lx_str x else lx_str x
       end.

(** codestream_token.go:369-396, the loop. *)
Fixpoint go_tokens (prev : bytes) (off : nat) (xs : list lexeme) : list token :=
  match xs with
  | [] => []
  | x :: xs' =>
      let s := go_repr prev x in
      let off' := off + length prev in
      Token s (Z.of_nat (lx_pos x)) (Z.of_nat off') :: go_tokens s off' xs'
  end.

(** What a call gives: a stream, an error joined from those collected, or a panic. *)
Inductive go_result :=
| GoStream (ts : tstream)
| GoErrors (es : list bytes)
| GoPanic.

(** codestream_token.go:334-398.  [es] is the package variable [scanErrors]
    before the call; it is never emptied. *)
Definition from_go (es : list bytes) (source : bytes) (sc : scan) : go_result * list bytes :=
  let es1 := es ++ sc_init sc in
  if 0 <? length (sc_init sc) then
    if length (sc_init sc) =? length es1 then (GoErrors es1, es1) else (GoPanic, es1)
  else (GoStream (new_token_stream source (go_tokens [] 0 (sc_lexemes sc))),
        es1 ++ (sc_steps sc ≫= snd) ++ sc_end sc).

(** A program that calls it for one source after the other. *)
Fixpoint go_calls (es : list bytes) (h : list (bytes * scan)) : list go_result :=
  match h with
  | [] => []
  | (src, sc) :: h' => fst (from_go es src sc) :: go_calls (snd (from_go es src sc)) h'
  end.
