(** The shape of the result of a sequence with labels, in the textbook
    semantics. *)
From Verif Require Import Base Native Engine Peg PegStd.

(** All of [l] succeed, each where the one before ended, with these values. *)
Inductive parts (out : node -> nat -> result -> Prop) : list node -> nat -> list val -> nat -> Prop :=
| parts_nil p : parts out [] p [] p
| parts_cons n l p v q vs e : out n p (Some (v, q)) -> parts out l q vs e -> parts out (n :: l) p (v :: vs) e.
(** One of [l] fails after the ones before it succeeded. *)
Definition stops (out : node -> nat -> result -> Prop) (l : list node) (p : nat) : Prop :=
  exists l1 n l2 vs q, l = l1 ++ n :: l2 /\ parts out l1 p vs q /\ out n q None.

(** The labels of the labelled parts with their values, in order. *)
Definition entries (l : list node) (vs : list val) : list (string * val) :=
  List.filter (fun kv => negb (String.eqb (fst kv) "")) (zip (map (fun n => i_label (n_info n)) l) vs).
Definition labels (l : list node) : list string :=
  List.filter (fun k => negb (String.eqb k "")) (map (fun n => i_label (n_info n)) l).
(** No part is labelled [@] or [&]. *)
Definition named (l : list node) : Prop := "@"%string ∉ labels l /\ "&"%string ∉ labels l.
Definition shaped (l : list node) (vs : list val) : val :=
  match entries l vs with [] => VUndef | kv => VMap kv end.
