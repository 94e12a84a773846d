(** Vocabulary for the theorems on the joeson grammar. *)
From Verif Require Import Base Helpers Utf8 Stream Native Engine Build Joeson.

(** The regular expressions of the grammar are valid ones. *)
Definition re_known (s : bytes) : bool := (bytes_eqb s re_word || bytes_eqb s re_int || bytes_eqb s re_any)%bool.

(** A grammar as data: the top rank and the named rules in the order of ids. *)
Notation built := (node * list (string * node))%type.

(** Compile the lines with the grammar [b]. *)
Definition compiled_by (b : built) (fuel : nat) (name : string) (ls : list line) : res built :=
  build (compile_with re_known fuel (gram_of b)) fuel name ls.

(** A parser tree without the mark telling which parsers are memoised. *)
Fixpoint unmarked (n : node) : node :=
  match n with
  | Node i k =>
      Node (Info (i_name i) (i_label i) (i_capture i) false (i_id i) (i_wraps i) (i_cb i) (i_skip i) (i_debug i))
        (match k with
         | KStr s => KStr s
         | KRegex re => KRegex re
         | KRef nm => KRef nm
         | KSeq ty l => KSeq ty (map unmarked l)
         | KChoice l => KChoice (map unmarked l)
         | KPat v j mn mx => KPat (unmarked v) (match j with Some x => Some (unmarked x) | None => None end) mn mx
         | KExist a => KExist (unmarked a)
         | KLook a => KLook (unmarked a)
         | KNot a => KNot (unmarked a)
         | KUndef => KUndef
         end)
  end.
Definition unmarked_built (b : built) : built :=
  (unmarked (fst b), map (fun q => (fst q, unmarked (snd q))) (snd b)).
