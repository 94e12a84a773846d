(** Other names for the rules: a specification.  It speaks of written parsers
    and of lines only. *)
From Verif Require Import Base Helpers Native Engine Build BuildSpec.

(** The same parser, with references by other names; [R]: which name stands for
    which.  A name with an underscore in front keeps it. *)
Inductive renamed (R : string -> string -> Prop) : pexp -> pexp -> Prop :=
| rn_ref lb nm nm' : R nm nm' -> String.prefix "_" nm = String.prefix "_" nm' -> renamed R (PExp lb (KRef nm)) (PExp lb (KRef nm'))
| rn_node lb k k' : match k with KRef _ => False | _ => True end -> same_kind (renamed R) k k' -> renamed R (PExp lb k) (PExp lb k').

(** The same lines with other names in front of them; [rank]: whether this is a
    line of a rank, or the content of a line. *)
Inductive renamed_line (compile : bytes -> res pexp) (R : string -> string -> Prop) : bool -> line -> line -> Prop :=
| rn_text s s' e e' : compile s = ROk e -> compile s' = ROk e' -> renamed R e e' -> renamed_line compile R false (LS s) (LS s')
| rn_rank ls ls' : Forall2 (renamed_line compile R true) ls ls' -> renamed_line compile R false (LA ls) (LA ls')
| rn_o rank nm nm' c c' o : renamed_line compile R false c c' -> renamed_line compile R rank (LO nm c o) (LO nm' c' o)
| rn_i nm nm' c c' o : renamed_line compile R false c c' -> renamed_line compile R true (LI nm c o) (LI nm' c' o).

(** Names of the same declaration: which one it is, counted in the order of the
    lines. *)
Definition stands_for (name : string) (ls : list line) (name' : string) (ls' : list line) (nm nm' : string) : Prop :=
  exists i d d', decls name ls !! i = Some d /\ decls name' ls' !! i = Some d' /\ d_name d = nm /\ d_name d' = nm'.
Definition renamed_lines (compile : bytes -> res pexp) (name : string) (ls : list line) (name' : string) (ls' : list line) : Prop :=
  renamed_line compile (stands_for name ls name' ls') false (LA ls) (LA ls').
