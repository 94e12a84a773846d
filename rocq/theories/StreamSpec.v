(** Independent specifications for the code streams (C08-C15). *)
From Verif Require Import Base.

(** Byte 10 is newline. *)
Definition newlines (s : bytes) : nat := length (filter (fun b => b = 10%N) s).

(** [c] is the distance from offset [p] back to the start of its line. *)
Definition column_of (s : bytes) (p c : nat) : Prop :=
  exists st, p = st + c /\
    (st = 0 \/ (1 <= st /\ s !! (st - 1) = Some 10%N)) /\
    (forall k, st <= k < p -> s !! k <> Some 10%N).

(** The lines of a text, without their newline; never empty. *)
Fixpoint split_lines (s : bytes) : list bytes :=
  match s with
  | [] => [[]]
  | b :: s' =>
      if (b =? 10)%N then [] :: split_lines s'
      else match split_lines s' with
           | l :: ls => (b :: l) :: ls
           | [] => [[b]]
           end
  end.
Fixpoint join_lines (ls : list bytes) : bytes :=
  match ls with
  | [] => []
  | [l] => l
  | l :: ls' => l ++ 10%N :: join_lines ls'
  end.
(** Lines number [i] to [j] (inclusive). *)
Definition lines_between (s : bytes) (i j : nat) : bytes :=
  join_lines (take (S j - i) (drop i (split_lines s))).

(** [sub] occurs in [s] at offset [k]. *)
Definition occurs_at (sub s : bytes) (k : nat) : Prop := exists post, drop k s = sub ++ post.

(** What a regular expression may answer on a text: an interval of it. *)
Definition rx_ok (find : bytes -> option (nat * nat)) : Prop :=
  forall s a b, find s = Some (a, b) -> a <= b <= length s.

(** Histories of calls. *)
Inductive call :=
| CallSetPos (n : Z)
| CallGetUntil (needle : bytes)
| CallMatchString (s : bytes)
| CallMatchRegexp (find : bytes -> option (nat * nat))
| CallMatchRune (f : N -> bool)
| CallPeekRunes (n : Z)
| CallPeekLines (ns : list Z)
| CallPos
| CallLine
| CallCol.
Inductive answer :=
| AnsUnit
| AnsBytes (s : bytes)
| AnsMatch (o : option bytes)
| AnsRune (o : option N)
| AnsZ (z : Z)
| AnsPanic (p : panic)
| AnsFuel.
Definition call_ok (c : call) : Prop :=
  match c with CallMatchRegexp find => rx_ok find | _ => True end.
(** Calls about lines, which a TokenStream answers for its original text. *)
Definition line_call (c : call) : bool :=
  match c with CallPeekLines _ | CallLine | CallCol => true | _ => false end.


(** Tokens given as (text, offset in the original text); where the [k]-th one
    starts in the concatenated text. *)
Definition work_start (reprs : list bytes) (k : nat) : nat := length (mjoin (take k reprs)).

(** The arguments of PeekLines with the implied 0. *)
Definition with_implied_zero (ns : list Z) : list Z :=
  match ns with [n] => [n; 0%Z] | _ => ns end.
Definition is_min (m : Z) (l : list Z) : Prop := m ∈ l /\ Forall (fun x => m <= x)%Z l.
Definition is_max (m : Z) (l : list Z) : Prop := m ∈ l /\ Forall (fun x => x <= m)%Z l.
