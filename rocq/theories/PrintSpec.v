(** A canonical text for a parser expression, by itself: parentheses only where
    an operator needs them, single spaces. *)
From Verif Require Import Base Utf8Spec NativeSpec Native Engine Build TextSpec.

(** How tightly a text holds together: 4 name, string, regular expression;
    3 with [? * + {} !] and lookahead; 2 with a label; 1 sequence; 0 choice. *)
Definition tight {A} (k : kind A) : nat :=
  match k with
  | KStr _ | KRegex _ | KRef _ => 4
  | KPat _ _ _ _ | KExist _ | KLook _ | KNot _ => 3
  | KSeq _ _ => 1
  | _ => 0
  end.
Definition parens (lv own : nat) (t : bytes) : bytes := if own <? lv then ([40] ++ t ++ [41])%N else t.
Definition escaped (s : bytes) : bytes := List.flat_map (fun b => if ((b =? 39) || (b =? 92))%N%bool then [92; b]%N else [b]) s.
Definition bound_of (z : Z) : bytes := if (z =? -1)%Z then [] else itoa z.
Definition range_of (mn mx : Z) : bytes :=
  if ((mn =? -1) && (mx =? -1))%Z%bool then [] else ([123] ++ bound_of mn ++ [44] ++ bound_of mx ++ [125])%N.
Fixpoint joined_by (sep : bytes) (l : list bytes) : bytes :=
  match l with [] => [] | [s] => s | s :: l' => s ++ sep ++ joined_by sep l' end.

(** [show lv e]: the text of [e] where something at least [lv] tight is needed. *)
Fixpoint show (lv : nat) (e : pexp) : bytes :=
  match e with
  | PExp l k =>
      let t := match k with
               | KStr s => ([39] ++ escaped s ++ [39])%N
               | KRegex s => ([47] ++ s ++ [47])%N
               | KRef nm => s2b nm
               | KSeq _ es => joined_by [32%N] (map (show 2) es)
               | KChoice es => joined_by [32; 124; 32]%N (map (show 1) es)
               | KPat v j mn mx => (show 4 v ++ [42] ++ match j with Some x => show 4 x | None => [] end ++ range_of mn mx)%N
               | KExist a => (show 4 a ++ [63])%N
               | KNot a => ([33] ++ show 4 a)%N
               | KLook a => ([40; 63] ++ show 0 a ++ [41])%N
               | KUndef => []
               end in
      if String.eqb l "" then parens lv (tight k) t
      else parens lv 2 (s2b l ++ [58%N] ++ parens 3 (tight k) t)
  end.
(** How deep its parentheses nest, those of a lookahead counted twice. *)
Definition deeper (lv own n : nat) : nat := if own <? lv then S n else n.
Fixpoint deep (lv : nat) (e : pexp) : nat :=
  match e with
  | PExp l k =>
      let n := match k with
               | KSeq _ es => list_max (map (deep 2) es)
               | KChoice es => list_max (map (deep 1) es)
               | KPat v j _ _ => max (deep 4 v) (match j with Some x => deep 4 x | None => 0 end)
               | KExist a | KNot a => deep 4 a
               | KLook a => S (S (deep 0 a))
               | _ => 0
               end in
      if String.eqb l "" then deeper lv (tight k) n else deeper lv 2 (deeper 3 (tight k) n)
  end.

Section Spec.
Variable re_ok : bytes -> bool.
Definition bound_ok (z : Z) : Prop := (z = -1 \/ 0 <= z < 2 ^ 63)%Z.
(** Expressions that can be written: names and labels are names, strings are
    UTF-8, regular expressions are valid and can stand between slashes,
    sequences and choices have at least two parts. *)
Inductive writable : pexp -> Prop :=
| wr_exp l k : (l = ""%string \/ label_name l) -> writable_kind k -> writable (PExp l k)
with writable_kind : kind pexp -> Prop :=
| wr_str s rs : utf8s rs s -> writable_kind (KStr s)
| wr_regex s : before 47 s -> re_ok s = true -> writable_kind (KRegex s)
| wr_ref nm : name nm -> writable_kind (KRef nm)
| wr_seq es : 2 <= length es -> writable_all es -> writable_kind (KSeq TSingle es)
| wr_choice es : 2 <= length es -> writable_all es -> writable_kind (KChoice es)
| wr_pat v j mn mx : writable v -> writable_opt j -> bound_ok mn -> bound_ok mx -> writable_kind (KPat v j mn mx)
| wr_exist a : writable a -> writable_kind (KExist a)
| wr_not a : writable a -> writable_kind (KNot a)
| wr_look a : writable a -> writable_kind (KLook a)
with writable_all : list pexp -> Prop :=
| wr_nil : writable_all []
| wr_cons e es : writable e -> writable_all es -> writable_all (e :: es)
with writable_opt : option pexp -> Prop :=
| wr_none : writable_opt None
| wr_some e : writable e -> writable_opt (Some e).
End Spec.
