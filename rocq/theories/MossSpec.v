(** What the study of precedence wants: chains of operations of one level make
    trees nested to the left. *)
From Verif Require Import Base Native CalcSpec.

(** Trees nested to the left: the right operand is a glyph. *)
Inductive tree :=
| Leaf (g : N)
| Join (l : tree) (op g : N).

Definition a_glyph (b : N) : Prop := (97 <= b <= 122 \/ 65 <= b <= 90 \/ 48 <= b <= 57)%N.
Definition an_op (b : N) : Prop := b = 43%N \/ b = 45%N.
(** Their texts: in reading order, with blanks around the operators. *)
Inductive written : tree -> bytes -> Prop :=
| w_leaf g : a_glyph g -> written (Leaf g) [g]
| w_join t s w op w' g : written t s -> blank w -> blank w' -> an_op op -> a_glyph g ->
    written (Join t op g) (s ++ w ++ [op] ++ w' ++ [g]).

(** A tree as a value: binary expressions of three parts. *)
Fixpoint tree_ast (t : tree) : ast :=
  match t with
  | Leaf g => AStr [g]
  | Join l op g => AUser 0 [tree_ast l; AStr [op]; AStr [g]]
  end.

(** The left fold of a list of operations. *)
Inductive left_nested (first : ast) : list (bytes * ast) -> ast -> Prop :=
| ln_none : left_nested first [] first
| ln_snoc l x op e : left_nested first l x -> left_nested first (l ++ [(op, e)]) (AUser 0 [x; AStr op; e]).

(** The answers of two grammars to one text: the same, or both an error. *)
Definition same_answer (x y : option ast) : Prop :=
  x = y \/ exists k k', x = Some (AErr k) /\ y = Some (AErr k').

(** Trees nested to the right, and their texts without blanks. *)
Inductive rtree :=
| RLeaf (g : N)
| RJoin (g op : N) (r : rtree).
Inductive rwritten : rtree -> bytes -> Prop :=
| rw_leaf g : a_glyph g -> rwritten (RLeaf g) [g]
| rw_join g op t s : a_glyph g -> an_op op -> rwritten t s -> rwritten (RJoin g op t) (g :: op :: s).
Fixpoint rtree_ast (t : rtree) : ast :=
  match t with
  | RLeaf g => AStr [g]
  | RJoin g op r => AUser 0 [AStr [g]; AStr [op]; rtree_ast r]
  end.

(** Expressions of two levels with parentheses, kept as they are written. *)
Inductive cexp :=
| CGlyph (g : N)
| CParen (c : cexp)
| COp (a : cexp) (op : N) (b : cexp).
(** Operators between operands of level [l]. *)
Definition op_at (l : nat) (b : N) : Prop :=
  match l with 0 => b = 42%N \/ b = 47%N | 1 => an_op b | _ => False end.
(** Their texts, with [W] around the operators: level 0 are factors, 1 terms,
    2 expressions. *)
Inductive shown (W : bytes -> Prop) : nat -> cexp -> bytes -> Prop :=
| sh_glyph g : a_glyph g -> shown W 0 (CGlyph g) [g]
| sh_paren c s : shown W 2 c s -> shown W 0 (CParen c) (40%N :: s ++ [41%N])
| sh_up l c s : shown W l c s -> shown W (S l) c s
| sh_op l a s w op w' b s' : op_at l op -> W w -> W w' -> shown W (S l) a s -> shown W l b s' ->
    shown W (S l) (COp a op b) (s ++ w ++ [op] ++ w' ++ s').
(** The tree wanted: parentheses only group. *)
Fixpoint cexp_ast (c : cexp) : ast :=
  match c with
  | CGlyph g => AStr [g]
  | CParen c => cexp_ast c
  | COp a op b => AUser 0 [cexp_ast a; AStr [op]; cexp_ast b]
  end.
(** No operation in parentheses. *)
Fixpoint only_glyph (c : cexp) : Prop :=
  match c with CGlyph _ => True | CParen c => only_glyph c | COp _ _ _ => False end.
Fixpoint flat (c : cexp) : Prop :=
  match c with CGlyph _ => True | CParen c => only_glyph c | COp a _ b => flat a /\ flat b end.
