(** Rules that nothing refers to: a specification on lines. *)
From Verif Require Import Base Helpers Native Engine Build BuildSpec MeansSpec ReadsSpec.

(** An i-line is left out of a rank, here or further inside. *)
Inductive without : line -> line -> Prop :=
| wo_here l1 nm c o l2 : without (LA (l1 ++ LI nm c o :: l2)) (LA (l1 ++ l2))
| wo_rank l1 l l' l2 : without l l' -> without (LA (l1 ++ l :: l2)) (LA (l1 ++ l' :: l2))
| wo_o nm c c' o : without c c' -> without (LO nm c o) (LO nm c' o)
| wo_i nm c c' o : without c c' -> without (LI nm c o) (LI nm c' o).
(** Any number of them. *)
Inductive without_all : list line -> list line -> Prop :=
| wa_none ls : without_all ls ls
| wa_one ls ls1 ls' : without_all ls ls1 -> without (LA ls1) (LA ls') -> without_all ls ls'.

(** All rules refer to rules of the same lines. *)
Definition complete (compile : bytes -> res pexp) (name : string) (ls : list line) : Prop :=
  Forall (fun d => exists e, decl_read compile d = Some e /\ Forall (fun x => x ∈ (d_name <$> decls name ls)) (refers e)) (decls name ls) /\
  Forall (fun x => x ∈ (d_name <$> decls name ls)) (o_names name ls 0).
