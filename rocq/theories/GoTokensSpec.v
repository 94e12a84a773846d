(** Specifications for TokenStreamFromGoCode. *)
From Verif Require Import Base Helpers Utf8 Stream StreamSpec GoTokens.

(** Bytes of words: letters, digits, underscore and the bytes of other runes. *)
Definition word_byte (b : N) : bool :=
  (((65 <=? b) && (b <=? 90)) || ((97 <=? b) && (b <=? 122)) ||
   ((48 <=? b) && (b <=? 57)) || (b =? 95) || (128 <=? b))%N%bool.

(** The words of a text: its longest runs of such bytes. *)
Definition flush (w : bytes) : list bytes := match w with [] => [] | _ => [w] end.
Fixpoint words_from (w : bytes) (s : bytes) : list bytes :=
  match s with
  | [] => flush w
  | b :: s' => if word_byte b then words_from (w ++ [b]) s' else flush w ++ words_from [] s'
  end.
Definition words (s : bytes) : list bytes := words_from [] s.

(** The text of a token as the program has it; a semicolon that the scanner adds
    at the end of a line has none but counts as ";" and newline. *)
Definition automatic (x : lexeme) : Prop := lx_str x = s2b ";" /\ lx_lit x = [10%N].
Definition shows (x : lexeme) (s : bytes) : Prop :=
  (automatic x /\ s = s2b ";" ++ [10%N]) \/
  (~ automatic x /\ lx_lit x <> [] /\ s = lx_lit x) \/
  (~ automatic x /\ lx_lit x = [] /\ s = lx_str x).

(** What go/scanner documents: whatever is not an operator comes with its text. *)
Definition operator_plain (x : lexeme) : Prop :=
  lx_lit x = [] -> exists b s, lx_str x = b :: s /\ word_byte b = false.

(** The last rune is one byte. *)
Definition ends_ascii (s : bytes) : Prop := forall b, last s = Some b -> (b < 128)%N.

(** The token text of a stream. *)
Definition token_text (r : go_result) (w : bytes) : Prop :=
  exists ts, r = GoStream ts /\ ts_work ts = w.

(** Ends with a letter, a digit, an underscore or "=". *)
Definition tight (s : bytes) : Prop :=
  exists b, last s = Some b /\ ((word_byte b = true /\ (b < 128)%N) \/ b = 61%N).

(** Where a space is put: after such a text, before a word or a comma. *)
Definition spaced (xs : list lexeme) (k : nat) : Prop :=
  exists j x y s, k = S j /\ xs !! k = Some x /\ xs !! j = Some y /\ shows y s /\ tight s /\
    ~ automatic x /\ (lx_lit x <> [] \/ lx_comma x = true).

(** The scanner has nothing to complain about. *)
Definition quiet (sc : scan) : Prop :=
  sc_init sc = [] /\ Forall (fun st => snd st = []) (sc_steps sc) /\ sc_end sc = [].

(** A scan without complaint that finds these tokens. *)
Definition scan_of (xs : list lexeme) : scan := Scan [] ((fun x => (x, [])) <$> xs) [].
(** Every token of a program sits where it is reported. *)
Definition found_in (src : bytes) (xs : list lexeme) : Prop :=
  Forall (fun x => forall s, shows x s -> ~ automatic x -> occurs_at s src (lx_pos x)) xs.
