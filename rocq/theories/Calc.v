(** Model of examples/calculator/calculator_test.go: the rules, the two regular
    expressions they use and the parse functions.  No proofs here.

    What is simplified: Go's regexp is modelled for the two expressions; [int]
    is 64 bits wide. *)
From Verif Require Import Base Helpers Utf8 Stream Native Engine Build Joeson.

(** The expressions of the rules [_] and [Integer]. *)
Definition re_blank : bytes := s2b "[ \t]".
Definition re_number : bytes := s2b "^-?[0-9]+".
Definition blank_b (b : N) : bool := ((b =? 32) || (b =? 9))%N%bool.
Fixpoint find_first (f : N -> bool) (s : bytes) (i : nat) : option (nat * nat) :=
  match s with
  | [] => None
  | b :: s' => if f b then Some (i, S i) else find_first f s' (S i)
  end.
Definition calc_rx (re : bytes) (s : bytes) : option (nat * nat) :=
  if bytes_eqb re re_blank then find_first blank_b s 0
  else if bytes_eqb re re_number then
    let '(k, ds) := match s with 45%N :: s' => (1, s') | _ => (0, s) end in
    match run_len digit_b ds with O => None | n => Some (0, k + n) end
  else None.

(** calculator_test.go:36-41: the operations of Go's [int]. *)
Definition wrap64 (z : Z) : Z := ((z + 2 ^ 63) mod 2 ^ 64 - 2 ^ 63)%Z.
Definition calc_op (op : bytes) (a b : Z) : option Z :=
  if bytes_eqb op (s2b "+") then Some (wrap64 (a + b))
  else if bytes_eqb op (s2b "-") then Some (wrap64 (a - b))
  else if bytes_eqb op (s2b "*") then Some (wrap64 (a * b))
  else if bytes_eqb op (s2b "/") then (if (b =? 0)%Z then None else Some (wrap64 (a ÷ b)))
  else None.
(** calculator_test.go:51-68, the loop of [eval]. *)
Fixpoint calc_fold (a : Z) (l : list ast) : option Z :=
  match l with
  | [] => Some a
  | AArr [AStr op; AInt b] :: l' => match calc_op op a b with Some c => calc_fold c l' | None => None end
  | _ => None
  end.
(** calculator_test.go:44-49, [xx], with [eval]. *)
Definition calc_xx (h : heap) (x : ast) : cbres :=
  match x with
  | AObj a =>
      match h !! a with
      | Some (Obj (OMap m) _) =>
          match nm_get m "first", nm_get m "rest" with
          | Some (AInt z), Some (AArr l) => match calc_fold z l with Some r => CbRet h (Some (AInt r)) | None => CbPanic 1 end
          | _, _ => CbPanic 2
          end
      | _ => CbPanic 3
      end
  | _ => CbPanic 3
  end.
Definition f_xx := 0.
Definition f_num := 1.
Definition calc_cb (f pos : nat) (h : heap) (x : ast) : cbres :=
  match f with
  | 0 => calc_xx h x
  | 1 => match native_int_from (fun _ => []) 1 h x with ROk y => CbRet h (Some y) | _ => CbPanic 4 end
  | _ => CbPanic 5
  end.

(** calculator_test.go:23-35. *)
Definition i_rule (n s : string) (l : list opt) : res line := mk_i (named_text n (s2b s)) l.
Definition calc_rules : list (res line) :=
  [ mk_o (named_text "Expr" (s2b "_ first:Term rest:( _ AddOp _ Term )* _")) [OCb f_xx];
    i_rule "Term" "first:Factor rest:( _ MulOp _ Factor )*" [OCb f_xx];
    i_rule "Factor" "'(' Expr ')' | Integer" [];
    i_rule "AddOp" "'+' | '-'" [];
    i_rule "MulOp" "'*' | '/'" [];
    i_rule "_" "[ \t]*" [];
    i_rule "Integer" "/^-?[0-9]+/" [OCb f_num] ].
(** The lines; none of the calls panics (see CalcRun.v). *)
Definition calc_lines : list line :=
  omap (fun r => match r with ROk l => Some l | _ => None end) calc_rules.
