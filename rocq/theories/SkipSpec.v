(** Grammars that differ in their SkipCache marks only. *)
From Verif Require Import Base Native Engine.

Definition info_unskip (i : info) : info :=
  Info (i_name i) (i_label i) (i_capture i) (i_isrule i) (i_id i) (i_wraps i) (i_cb i) false (i_debug i).
Definition map_kind (f : node -> node) (k : kind node) : kind node :=
  match k with
  | KStr s => KStr s
  | KRegex re => KRegex re
  | KRef name => KRef name
  | KSeq ty l => KSeq ty (map f l)
  | KChoice l => KChoice (map f l)
  | KPat v j mn mx => KPat (f v) (option_map f j) mn mx
  | KExist a => KExist (f a)
  | KLook a => KLook (f a)
  | KNot a => KNot (f a)
  | KUndef => KUndef
  end.
Fixpoint unskip (n : node) : node :=
  match n with Node i k => Node (info_unskip i) (map_kind unskip k) end.

(** The same parsers but for SkipCache. *)
Definition alike (n1 n2 : node) : Prop := unskip n1 = unskip n2.
Definition rules_alike (rules1 rules2 : string -> option node) : Prop :=
  forall name, option_map unskip (rules1 name) = option_map unskip (rules2 name).
