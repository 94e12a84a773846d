(** Lines that declare the same rules, and maybe more, in any order: a
    specification. *)
From Verif Require Import Base Helpers Native Engine Build BuildSpec.

(** The same name, options and parser; a rank has the same alternatives. *)
Definition same_rule (compile : bytes -> res pexp) (d d' : decl) : Prop :=
  d_name d = d_name d' /\ d_opts d = d_opts d' /\
  match d_what d, d_what d' with
  | WText s, WText s' => exists e, compile s = ROk e /\ compile s' = ROk e
  | WRank l, WRank l' => o_names (d_name d) l 0 = o_names (d_name d') l' 0
  | _, _ => False
  end.
(** What the first lines declare, the second lines declare somewhere, and the
    alternatives at the top are the same. *)
Definition part_of (compile : bytes -> res pexp) (name : string) (ls : list line) (name' : string) (ls' : list line) : Prop :=
  Forall (fun d => exists d', d' ∈ decls name' ls' /\ same_rule compile d d') (decls name ls) /\ o_names name ls 0 = o_names name' ls' 0.
