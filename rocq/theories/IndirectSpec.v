(** Left recursion through other rules: E: A1 | … | An | T with Ai: E opi Ti.  No
    proofs here. *)
From Verif Require Import Base Native Engine Peg RunSpec.

(** An arm: the alternative as it stands in E, the rule (or group) that does the
    work, its three parts, and what it makes of them. *)
Record arm := Arm { arm_alt : node; arm_rule : node; arm_left : node; arm_op : node; arm_right : node; arm_comb : val -> val -> val -> val }.

Definition good_arm (E : env) cbf R (par : nat -> option nat) (id : nat) (a : arm) : Prop :=
  let A := arm_rule a in
  n_kind A = KSeq TArray [arm_left a; arm_op a; arm_right a] /\
  refers E R (arm_left a) id /\ i_capture (n_info (arm_right a)) = true /\
  (forall l o r e, prepared cbf (n_info A) (Some (VArr (l :: (if i_capture (n_info (arm_op a)) then [o; r] else [r])), e)) =
     Some (Some (arm_comb a l o r, e))) /\
  (* the group itself, a rule that is an alternative, or a reference to a rule *)
  (i_isrule (n_info A) = false /\ arm_alt a = A \/
   is_rule A /\ i_skip (n_info A) = false /\ R (i_id (n_info A)) = A /\ par (i_id (n_info A)) = Some id /\
   (arm_alt a = A \/
    i_isrule (n_info (arm_alt a)) = false /\ i_label (n_info (arm_alt a)) = EmptyString /\ i_cb (n_info (arm_alt a)) = None /\
    exists name, n_kind (arm_alt a) = KRef name /\ e_rule E name = Some A)).

(** What follows a value that ends at [q]: the first arm whose operator and operand
    parse there, with what it does to the value and where it ends. *)
Inductive arm_step (P : node -> nat -> result -> Prop) : list arm -> nat -> option ((val -> val) * nat) -> Prop :=
| as_nil q : arm_step P [] q None
| as_no_op a l q r : P (arm_op a) q None -> arm_step P l q r -> arm_step P (a :: l) q r
| as_no_operand a l q o q1 r : P (arm_op a) q (Some (o, q1)) -> P (arm_right a) q1 None -> arm_step P l q r -> arm_step P (a :: l) q r
| as_take a l q o q1 w q2 : P (arm_op a) q (Some (o, q1)) -> P (arm_right a) q1 (Some (w, q2)) ->
    arm_step P (a :: l) q (Some (fun v => arm_comb a v o w, q2)).
Inductive arm_run (P : node -> nat -> result -> Prop) (arms : list arm) : nat -> list (val -> val) -> nat -> Prop :=
| ar_stop q : arm_step P arms q None -> arm_run P arms q [] q
| ar_more q f q2 fs e : arm_step P arms q (Some (f, q2)) -> q < q2 -> arm_run P arms q2 fs e -> arm_run P arms q (f :: fs) e.

(** Sums and differences of digits, nested to the left: [[[1, "+", 2], "-", 3], …]. *)
Inductive sums : ast -> bytes -> Prop :=
| sums_one d : (48 <= d <= 57)%N -> sums (AStr [d]) [d]
| sums_more x s op d : sums x s -> op = 43%N \/ op = 45%N -> (48 <= d <= 57)%N -> sums (AArr [x; AStr [op]; AStr [d]]) (s ++ [op; d]).
