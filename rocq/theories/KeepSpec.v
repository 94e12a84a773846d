(** Vocabulary for the objects a parse returns (C37). *)
From Verif Require Import Base Helpers Utf8 Stream Native Engine EngSpec.

(** The objects of [h] are still there in [h'] with the same contents (their
    origin may have changed). *)
Definition kept (h h' : heap) : Prop :=
  forall a o, h !! a = Some o -> exists o', h' !! a = Some o' /\ o_body o' = o_body o.
Definition cb_keeps (E : env) : Prop := forall c p h x h' r, e_cb E c p h x = CbRet h' r -> kept h h'.
(** The parsers that parsing [root] can call. *)
Inductive uses (E : env) (root : node) : node -> Prop :=
| uses_self : uses E root root
| uses_child n c : uses E root n -> c ∈ children n -> uses E root c
| uses_ref n name t : uses E root n -> n_kind n = KRef name -> e_rule E name = Some t -> uses E root t.
(** None of them has a part labelled with one of the merging labels. *)
Definition merges (n : node) : bool :=
  (String.eqb (i_label (n_info n)) "@" || String.eqb (i_label (n_info n)) "&")%bool.
Definition merge_free (E : env) (root : node) : Prop := forall n c, uses E root n -> c ∈ children n -> merges c = false.

(** Every key has a value. *)
Definition map_ok (m : nmap) : Prop := forall k, k ∈ nm_keys m -> nm_get m k <> None.
(** [m3] is [m1] with the entries of [m2] added. *)
Definition union_of (m1 m2 m3 : nmap) : Prop :=
  (forall k, k ∈ nm_keys m2 -> nm_get m3 k = nm_get m2 k) /\
  (forall k, k ∉ nm_keys m2 -> nm_get m3 k = nm_get m1 k) /\
  (forall k, k ∈ nm_keys m3 <-> k ∈ nm_keys m1 \/ k ∈ nm_keys m2).
