(** Grammars without left recursion: vocabulary. *)
From Verif Require Import Base Helpers Utf8 Stream Native Engine EngSpec TermSpec Peg.

Section Left.
Variable E : env.
Variable eats : node -> bool.

(** The parsers of a sequence that may be tried where the sequence began: all
    up to the first that moves on. *)
Fixpoint firsts (l : list node) : list node :=
  match l with [] => [] | c :: l' => c :: if eats c then [] else firsts l' end.

(** The parsers that [n] may try at the position where it began. *)
Definition left (n : node) : list node :=
  match n_kind n with
  | KStr _ | KRegex _ | KUndef => []
  | KRef name => match e_rule E name with Some t => [t] | None => [] end
  | KSeq _ l => firsts l
  | KChoice l => l
  | KPat v j _ _ => v :: match j with Some x => if eats v then [] else [x] | None => [] end
  | KExist a | KLook a | KNot a => [a]
  end.

(** [n] may, through others, come to try [m] at the position where it began. *)
Inductive leads : node -> node -> Prop :=
| leads_one n c : c ∈ left n -> leads n c
| leads_more n c m : c ∈ left n -> leads c m -> leads n m.
End Left.

(** No rule leads to itself. *)
Definition no_left_recursion (E : env) (root : node) (eats : node -> bool) : Prop :=
  forall n m, reach E root n -> i_isrule (n_info n) = true -> i_isrule (n_info m) = true ->
    leads E eats n m -> i_id (n_info n) <> i_id (n_info m).

(** A way to see it: the parsers have ranks, which never go up and go down in
    rules. *)
Definition goes_down (E : env) (root : node) (eats : node -> bool) (ord : node -> nat) : Prop :=
  forall n c, reach E root n -> c ∈ left E eats n -> if i_isrule (n_info n) then ord c < ord n else ord c <= ord n.
(** The rules that may follow each other from [n] at the same position, at most
    (chains of more than [k] parsers are cut). *)
Fixpoint chain (k : nat) (E : env) (eats : node -> bool) (n : node) : nat :=
  match k with
  | O => 0
  | S k' => (if i_isrule (n_info n) then 1 else 0) + fold_right (fun c m => Nat.max (chain k' E eats c) m) 0 (left E eats n)
  end.

(** References are defined. *)
Definition refs_defined (E : env) (root : node) : Prop :=
  forall n name, reach E root n -> n_kind n = KRef name -> e_rule E name <> None.
(** No parser has label [@] or [&]. *)
Definition plain_labels (E : env) (root : node) : Prop :=
  forall n, reach E root n -> i_label (n_info n) <> "@"%string /\ i_label (n_info n) <> "&"%string.
(** No callback panics. *)
Definition callbacks_return (E : env) (root : node) (cbf : nat -> nat -> val -> option (option val)) : Prop :=
  forall n c p v, reach E root n -> i_cb (n_info n) = Some c -> cbf c p v <> None.

(** A grammar that is in order: references are defined, each round of a
    repetition moves on, no left recursion, at most [K] rules one within the
    other at the same position, no merging, no panics. *)
Record in_order (E : env) (root : node) cbf rxe (eats : node -> bool) (ord : node -> nat) (K : nat) : Prop := {
  io_eats : eating E root rxe eats;
  io_reps : reps_eat E root eats;
  io_refs : refs_defined E root;
  io_levels : exists lvl D, levels E root lvl D;
  io_down : goes_down E root eats ord;
  io_most : forall n, reach E root n -> ord n <= K;
  io_labels : plain_labels E root;
  io_cb : callbacks_return E root cbf }.
