(** Lines that can be built, as written. *)
From Verif Require Import Base Build.

(** What may stand as the content of a line: a text, a parser, a list of lines
    or a line without name; and what may stand in a list of lines: o-lines, and
    i-lines that have a name. *)
Fixpoint rule_shape (l : line) : bool :=
  match l with
  | LS _ | LC _ _ => true
  | LA ls =>
      forallb (fun l => match l with
                        | LO _ c _ => rule_shape c
                        | LI nm c _ => (negb (String.eqb nm "") && rule_shape c)%bool
                        | _ => false
                        end) ls
  | LO nm c _ => (String.eqb nm "" && rule_shape c)%bool
  | LI _ _ _ => false
  end.
