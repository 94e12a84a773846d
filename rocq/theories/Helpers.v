(** Model of /repo/helpers/ (bisect.go, helpers.go, lazy.go).  No proofs here. *)
From Verif Require Import Base.

(** ** bisect.go *)

(** Go's [sort.Search(n, f)] (standard library), used by bisect.go:13 and :34.
    [f h] is [None] when the closure indexes out of range. *)
Fixpoint search_loop (fuel : nat) (f : nat -> option bool) (i j : nat) : res nat :=
  match fuel with
  | O => RFuel
  | S fuel' =>
      if i <? j then
        let h := (i + j) / 2 in
        match f h with
        | None => RPanic PIndex
        | Some false => search_loop fuel' f (h + 1) j
        | Some true => search_loop fuel' f i h
        end
      else ROk i
  end.

Definition search (n : nat) (f : nat -> option bool) : res nat :=
  search_loop (S n) f 0 n.

(** helpers/bisect.go:7-16, [BisectLeft].  [low = 0], [high = len a], so the
    sub-slice is [a] itself. *)
Definition bisect_left (a : list Z) (n : Z) : res nat :=
  search (length a) (fun i => (fun x => (n <=? x)%Z) <$> (a !! i)).

(** helpers/bisect.go:28-37, [BisectRight]. *)
Definition bisect_right (a : list Z) (n : Z) : res nat :=
  search (length a) (fun i => (fun x => (n <? x)%Z) <$> (a !! i)).

(** helpers/bisect.go:57-62, [insert]: append 0, copy [a[at:]] one to the
    right, store.  [at > len a] would be an out-of-range slice. *)
Definition insert_at (a : list Z) (at_ : nat) (v : Z) : res (list Z) :=
  if length a <? at_ then RPanic PIndex
  else
    let a1 := a ++ [0%Z] in
    let a2 := take (at_ + 1) a1 ++ take (length a1 - (at_ + 1)) (drop at_ a1) in
    ROk (<[at_ := v]> a2).

(** helpers/bisect.go:47-53. *)
Definition insort_right (a : list Z) (x : Z) : res (list Z) :=
  let* i := bisect_right a x in insert_at a i x.
Definition insort_left (a : list Z) (x : Z) : res (list Z) :=
  let* i := bisect_left a x in insert_at a i x.

(** ** helpers.go *)

(** helpers/helpers.go:101-126, [SliceString].  The final Go slice expression
    is checked explicitly. *)
Definition slice_string (s : bytes) (istart iend : Z) : res bytes :=
  let len := Z.of_nat (length s) in
  if (len <=? istart)%Z then ROk []
  else
    let istart := if (istart <? 0)%Z then Z.max (istart + len) 0 else istart in
    let iend := if (iend <? 0)%Z then Z.max (iend + len) 0 else iend in
    if (iend <=? istart)%Z then ROk []
    else
      let iend := if (len <? iend)%Z then len else iend in
      if ((istart <? 0) || (iend <? istart) || (len <? iend))%Z%bool then RPanic PIndex
      else ROk (slice s (Z.to_nat istart) (Z.to_nat iend)).

Definition space : N := 32%N.

(** helpers/helpers.go:64-71, [PadLeft] (appends on the right). *)
Definition pad_left (s : bytes) (n : Z) : bytes :=
  if (Z.of_nat (length s) <? n)%Z
  then s ++ replicate (Z.to_nat (n - Z.of_nat (length s))) space
  else s.

(** helpers/helpers.go:73-80, [PadRight]. *)
Definition pad_right (s : bytes) (n : Z) : bytes :=
  if (Z.of_nat (length s) <? n)%Z
  then replicate (Z.to_nat (n - Z.of_nat (length s))) space ++ s
  else s.

(** helpers/helpers.go:16-25, the replacer table: all keys are single bytes,
    so [strings.NewReplacer] replaces byte by byte. *)
Definition backslash : N := 92%N.
Definition escape_byte (b : N) : bytes :=
  if (b =? 10)%N then [backslash; 110%N]        (* \n *)
  else if (b =? 13)%N then [backslash; 114%N]   (* \r *)
  else if (b =? 9)%N then [backslash; 116%N]    (* \t *)
  else if (b =? backslash)%N then [backslash; backslash]
  else if (b =? 7)%N then [backslash; 97%N]     (* \a *)
  else if (b =? 12)%N then [backslash; 102%N]   (* \f *)
  else if (b =? 8)%N then [backslash; 98%N]     (* \b *)
  else if (b =? 11)%N then [backslash; 118%N]   (* \v *)
  else [b].

(** helpers/helpers.go:27-49 and :12-14 ([ToAscii], :56-58, is the identity). *)
Definition escape (s : bytes) : bytes := s ≫= escape_byte.

(** ** lazy.go *)

(** helpers/lazy.go:7-10.  [T] is instantiated with [Z]; an evaluator is its
    index into a family of functions whose n-th call may return anything:
    [ev f n] is the value of the n-th evaluation overall, so evaluators may be
    impure.  [lz_runs] is a ghost count of evaluations. *)
Record lazy := Lazy { lz_val : option Z; lz_f : option nat; lz_runs : nat }.

Inductive lazy_op := LIsSet | LSet (z : Z) | LClear | LGet | LSetLazy (f : nat).
Inductive lazy_ans := LUnit | LBool (b : bool) | LVal (z : Z) | LPanic.

(** helpers/lazy.go:12-29. *)
Definition lazy_step (ev : nat -> nat -> Z) (l : lazy) (o : lazy_op) : lazy * lazy_ans :=
  match o with
  | LIsSet => (l, LBool (if lz_val l then true else false))
  | LSet z => (Lazy (Some z) (lz_f l) (lz_runs l), LUnit)
  | LClear => (Lazy None None (lz_runs l), LUnit)
  | LSetLazy f => (Lazy (lz_val l) (Some f) (lz_runs l), LUnit)
  | LGet =>
      match lz_val l, lz_f l with
      | None, Some f =>
          let v := ev f (lz_runs l) in
          (Lazy (Some v) (lz_f l) (S (lz_runs l)), LVal v)
      | Some v, _ => (l, LVal v)
      | None, None => (l, LPanic)
      end
  end.

Definition lazy_new : lazy := Lazy None None 0.

Fixpoint lazy_run (ev : nat -> nat -> Z) (l : lazy) (ops : list lazy_op) : lazy * list lazy_ans :=
  match ops with
  | [] => (l, [])
  | o :: ops' =>
      let (l1, a) := lazy_step ev l o in
      let (l2, r) := lazy_run ev l1 ops' in
      (l2, a :: r)
  end.
