(** Running a history of calls on a stream.  A panicking call leaves the stream
    unchanged (none of the methods assigns before it can panic). *)
From Verif Require Import Base Utf8 Stream StreamSpec.

Definition ans_of {A} (f : A -> answer) (r : res A) : answer :=
  match r with ROk a => f a | RPanic p => AnsPanic p | RFuel => AnsFuel end.
Definition step_of {A} (c : code) (f : A -> answer) (r : res (A * code)) : answer * code :=
  match r with
  | ROk (a, c') => (f a, c')
  | RPanic p => (AnsPanic p, c)
  | RFuel => (AnsFuel, c)
  end.
Definition call_step (c : code) (k : call) : answer * code :=
  match k with
  | CallSetPos n => step_of c (fun _ : unit => AnsUnit) (rmap (fun c' => (tt, c')) (c_set_pos c n))
  | CallGetUntil s => step_of c AnsBytes (c_get_until c s)
  | CallMatchString s => step_of c AnsMatch (c_match_string c s)
  | CallMatchRegexp f => step_of c AnsMatch (c_match_regexp c f)
  | CallMatchRune f => step_of c AnsRune (c_match_rune c f)
  | CallPeekRunes n => (ans_of AnsBytes (c_peek_runes c n), c)
  | CallPeekLines ns => (ans_of AnsBytes (c_peek_lines c ns), c)
  | CallPos => (AnsZ (Z.of_nat (c_pos c)), c)
  | CallLine => (ans_of AnsZ (c_line c), c)
  | CallCol => (ans_of AnsZ (c_col c), c)
  end.
Fixpoint call_run (c : code) (h : list call) : list answer * code :=
  match h with
  | [] => ([], c)
  | k :: h' =>
      let '(a, c') := call_step c k in
      let '(l, c'') := call_run c' h' in
      (a :: l, c'')
  end.
