(** Model of examples/precedence/precedence_test.go: [growMoss] and the
    grammars of the test.  No proofs here.

    What is simplified: Go's regexp is modelled for the two expressions; the
    structure [binaryexpr] is a user value of three parts. *)
From Verif Require Import Base Helpers Utf8 Stream Native Engine Build Joeson Calc.

(** The expression of the rule [Glyph]. *)
Definition re_glyph : bytes := s2b "[a-zA-Z0-9]".
Definition glyph_b (b : N) : bool :=
  ((97 <=? b) && (b <=? 122) || (65 <=? b) && (b <=? 90) || (48 <=? b) && (b <=? 57))%N%bool.
Definition moss_rx (re : bytes) (s : bytes) : option (nat * nat) :=
  if bytes_eqb re re_blank then find_first blank_b s 0
  else if bytes_eqb re re_glyph then find_first glyph_b s 0
  else None.

(** precedence_test.go:41-46: [binaryexpr]. *)
Definition binaryexpr (l : ast) (op : bytes) (r : ast) : ast := AUser 0 [l; AStr op; r].
Section Strings.
(** String() of what is not a native value. *)
Variable ostr : ast -> bytes.
(** precedence_test.go:81-90: the operations; [None]: a panic. *)
Fixpoint moss_ops (h : heap) (l : list ast) : option (list (bytes * ast)) :=
  match l with
  | [] => Some []
  | AArr (o :: e :: _) :: l' =>
      match ast_string ostr 100 h o, moss_ops h l' with
      | ROk s, Some r => Some ((s, e) :: r)
      | _, _ => None
      end
  | _ => None
  end.
(** precedence_test.go:100-108: the loop. *)
Fixpoint moss_loop (moss : ast) (l : list (bytes * ast)) : ast :=
  match l with
  | [] => moss
  | (op, e) :: l' => moss_loop (binaryexpr moss op e) l'
  end.
(** precedence_test.go:74-110. *)
Definition grow_moss (h : heap) (x : ast) : option ast :=
  match x with
  | AStr s => Some (AStr s)
  | AArr (first :: AArr ops :: _) =>
      match moss_ops h ops with
      | None => None
      | Some [] => Some first
      | Some l => Some (moss_loop first l)
      end
  | _ => None
  end.
Definition moss_cb (f pos : nat) (h : heap) (x : ast) : cbres :=
  match f with
  | 0 => match grow_moss h x with Some y => CbRet h (Some y) | None => CbPanic 1 end
  | _ => CbPanic 2
  end.
End Strings.

(** precedence_test.go:184-190. *)
Definition moss_rules : list (res line) :=
  [ mk_o (GText (s2b "Expr")) [];
    i_rule "Expr" "Expr ( _ AddOp _ Glyph )* | Glyph" [OCb 0];
    i_rule "AddOp" "'+' | '-'" [];
    i_rule "Glyph" "[a-zA-Z0-9]" [];
    i_rule "_" "[ \t]*" [] ].
Definition moss_lines : list line :=
  omap (fun r => match r with ROk l => Some l | _ => None end) moss_rules.
Definition made (l : list (res line)) : list line :=
  omap (fun r => match r with ROk l => Some l | _ => None end) l.

(** precedence_test.go:198-207: the same as a rank. *)
Definition moss_rank_inner : list (res line) :=
  [ mk_o (GText (s2b "Expr ( _ AddOp _ Glyph )*")) [OCb 0];
    mk_o (GText (s2b "Glyph")) [OCb 0];
    i_rule "AddOp" "'+' | '-'" [];
    i_rule "Glyph" "[a-zA-Z0-9]" [];
    i_rule "_" "[ \t]*" [] ].
Definition moss_rank_rules : list (res line) := [mk_o (named_lines "Expr" (made moss_rank_inner)) []].
Definition moss_rank_lines : list line := made moss_rank_rules.

(** precedence_test.go:174-179: the recursion to the right. *)
Definition moss_right_rules : list (res line) :=
  [ mk_o (GText (s2b "Expr")) [];
    i_rule "Expr" "Expr ( AddOp Expr )* | Glyph" [OCb 0];
    i_rule "AddOp" "'+' | '-'" [];
    i_rule "Glyph" "[a-zA-Z0-9]" [] ].
Definition moss_right_lines : list line := made moss_right_rules.

(** precedence_test.go:161-169: two levels. *)
Definition moss_levels_rules : list (res line) :=
  [ mk_o (GText (s2b "Expr")) [];
    i_rule "Expr" "Term ( AddOp Term )*" [OCb 0];
    i_rule "Term" "Factor ( MulOp Factor )*" [OCb 0];
    i_rule "Factor" "'(' Expr ')' | Glyph" [];
    i_rule "AddOp" "'+' | '-'" [];
    i_rule "MulOp" "'*' | '/'" [];
    i_rule "Glyph" "[a-zA-Z0-9]" [] ].
Definition moss_levels_lines : list line := made moss_levels_rules.

(** precedence_test.go:210-221: two levels in a rank, the callback also at the
    rule [Factor]. *)
Definition moss_deep_inner : list (res line) :=
  [ mk_o (GText (s2b "Term ( _ AddOp _ Term )*")) [OCb 0];
    i_rule "Term" "Factor ( _ MulOp _ Factor  )*" [OCb 0];
    i_rule "Factor" "'(' Expr ')' | Glyph" [OCb 0];
    i_rule "AddOp" "'+' | '-'" [];
    i_rule "MulOp" "'*' | '/'" [];
    i_rule "Glyph" "[a-zA-Z0-9]" [];
    i_rule "_" "[ \t]*" [] ].
Definition moss_deep_rules : list (res line) := [mk_o (named_lines "Expr" (made moss_deep_inner)) []].
Definition moss_deep_lines : list line := made moss_deep_rules.

(** precedence_test.go:226-241: the grammar called more realistic. *)
Definition moss_real_binary : list (res line) :=
  [ mk_o (GText (s2b "Term ( _ AddOp _ Term )*")) [];
    i_rule "Term" "Factor ( _ MulOp _ Factor  )*" [OCb 0];
    i_rule "Factor" "'(' Expr ')' | Glyph" [OCb 0];
    i_rule "AddOp" "'+' | '-'" [];
    i_rule "MulOp" "'*' | '/'" [] ].
Definition moss_real_inner : list (res line) :=
  [ mk_o (named_lines "BinaryExpr" (made moss_real_binary)) [OCb 0];
    mk_o (named_text "UnaryExpr" (s2b "unary_op Glyph")) [];
    i_rule "unary_op" "'!' | '^' | '-'" [];
    i_rule "Glyph" "[a-zA-Z0-9]" [];
    i_rule "_" "[ \t]*" [] ].
Definition moss_real_rules : list (res line) := [mk_o (named_lines "Expr" (made moss_real_inner)) []].
Definition moss_real_lines : list line := made moss_real_rules.
