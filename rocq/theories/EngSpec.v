(** Vocabulary for stating properties of parsing runs.

    [parse_mon] is the parser of Engine.v with two run-time checks added at
    every parser call: one before the call, one after it returns.  A run in
    which every check passes is the plain run (EngMon.v); a theorem saying that
    the monitored run equals the plain one says that the checks hold at every
    call and return of the run. *)
From Verif Require Import Base Helpers Utf8 Stream StreamSpec Native Engine.

(** ** Grammars *)
Definition opt_list {A} (o : option A) : list A := match o with Some a => [a] | None => [] end.
Definition children (n : node) : list node :=
  match n_kind n with
  | KSeq _ l | KChoice l => l
  | KPat v j _ _ => v :: opt_list j
  | KExist a | KLook a | KNot a => [a]
  | KStr _ | KRegex _ | KRef _ | KUndef => []
  end.

(** The parsers that a parse of [root] can call. *)
Inductive reach (E : env) (root : node) : node -> Prop :=
| reach_root : reach E root root
| reach_child n c : reach E root n -> c ∈ children n -> reach E root c
| reach_rule name n : e_rule E name = Some n -> reach E root n.

(** Rule ids fit in the cache table (grammar.go:211-317 numbers the rules
    0..numrules-1). *)
Definition ids_fit (E : env) (root : node) : Prop :=
  forall n, reach E root n -> i_isrule (n_info n) = true -> i_id (n_info n) < e_nrules E.
(** Rules have their own ids. *)
Definition ids_unique (E : env) (root : node) : Prop :=
  exists R : nat -> node, forall n, reach E root n -> i_isrule (n_info n) = true -> R (i_id (n_info n)) = n.

(** What a grammar starts with: a rule, or a rank that is not itself a rule but
    whose alternatives are (grammar.go:61-71, line.go:107-127). *)
Definition top_ok (root : node) : Prop :=
  i_isrule (n_info root) = true \/
  exists l, n_kind root = KChoice l /\ i_label (n_info root) = EmptyString /\ i_cb (n_info root) = None /\
    Forall (fun c => i_isrule (n_info c) = true) l.

(** ** Inputs *)
(** A stream as its constructor makes it: the table of lines is that of the
    text; tokens cover the work text one after the other. *)
Definition code_ok (c : code) : Prop :=
  match c with
  | CRune r => rs_lines r = line_starts (rs_text r)
  | CTok t => ts_lines t = line_starts (ts_original t) /\
      forall k tok, ts_tokens t !! k = Some tok ->
        tk_work tok = Z.of_nat (work_start (tk_repr <$> ts_tokens t) k) /\ (0 <= tk_orig tok)%Z
  end.

(** ** Monitored runs *)
Definition violated : panic := PMsg "monitor".
Section Mon.
Variable E : env.
Variable pre : node -> st -> bool.
Variable post : node -> st -> option ast -> st -> bool.

Definition checked (m : M (option ast)) (n : node) : M (option ast) := fun s =>
  if pre n s then
    match m s with
    | Ok r s' => if post n s r s' then Ok r s' else Panic violated s'
    | x => x
    end
  else Panic violated s.

Fixpoint parse_mon (fuel : nat) (n : node) : M (option ast) :=
  checked
    (match fuel with
     | O => out_of_fuel
     | S fuel' =>
         match n_kind n with
         | KUndef => ret (Some AUndef)
         | _ => wrap E (parse_mon fuel') fuel' n
         end
     end) n.
End Mon.

(** ** Checks *)
(** The cursor is within the text. *)
Definition cursor_in (c : code) : node -> st -> bool :=
  fun _ s => (st_pos s <=? length (c_work c))%nat.
(** It did not go back. *)
Definition cursor_after (c : code) : node -> st -> option ast -> st -> bool :=
  fun _ s _ s' => ((st_pos s <=? st_pos s') && (st_pos s' <=? length (c_work c)))%nat%bool.

(** Parsers that leave the cursor where they found it: lookaheads and negations
    always; literals, regular expressions, choices and patterns on failure,
    unless the failure was decided by a callback. *)
Definition succeeded {A} (r : option A) : bool := match r with Some _ => true | None => false end.
Definition gives_cursor_back (n : node) (r : option ast) : bool :=
  match n_kind n with
  | KLook _ | KNot _ | KUndef => true
  | KStr _ | KRegex _ | KChoice _ | KPat _ _ _ _ =>
      match r, i_cb (n_info n) with None, None => true | _, _ => false end
  | _ => false
  end.
Definition cursor_back : node -> st -> option ast -> st -> bool :=
  fun n s r s' => (negb (gives_cursor_back n r) || (st_pos s' =? st_pos s))%nat%bool.

(** The parse stack is as it was. *)
Definition stack_same : node -> st -> option ast -> st -> bool :=
  fun _ s _ s' => bool_decide (s_stack s' = s_stack s).

(** Panics that stand for broken internal assertions of packrat.go and
    parsectx.go, and SetPos out of bounds. *)
Definition internal_panics : list panic :=
  [PMsg "where's my wipemask"; PMsg "need frame.wipemask to know what to wipe";
   PMsg "Unexpected stage"; PMsg "Unexpected stage (B)";
   PMsg "assert failed: i_frame.pos > startPos"; PMsg "out of bound"]%string.
