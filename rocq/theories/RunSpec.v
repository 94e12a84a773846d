(** What the theorems about whole parses and the semantics assume and claim. *)
From Verif Require Import Base Helpers Utf8 Stream StreamSpec Native NativeSpec StreamProofs Engine EngSpec EngInv Peg PegRep PegBody PegStd.

(** No tracing: the trace flags are off and no rule asks for debugging. *)
Definition quiet (E : env) (root : node) : Prop :=
  e_stack E = false /\ e_loop E = false /\ forall n, reach E root n -> i_debug (n_info n) = false.
(** [R] lists the rules of the grammar by id. *)
Definition lists_rules (E : env) (root : node) (R : nat -> node) : Prop :=
  forall n, reach E root n -> i_isrule (n_info n) = true -> R (i_id (n_info n)) = n.
(** [par] gives the alternatives of a rank that are rules their rank. *)
Definition parts_ok (R : nat -> node) (par : nat -> option nat) : Prop :=
  forall i F, par i = Some F -> par F = None /\ i_skip (n_info (R F)) = false.

(** The result [x] of the engine, in state [s'], is the outcome [r]. *)
Definition outcome_is (r : result) (x : option ast) (s' : st) : Prop :=
  match r with
  | None => x = None
  | Some (v, e) => exists y, x = Some y /\ rep [] (s_heap s') y v /\ st_pos s' = e
  end.

(** A grammar as the construction of a grammar leaves it (C44, C45), without
    tracing, whose callbacks are functions of the value and the position; they
    may change the map that was just made for them, nothing else. *)
Record pure_grammar (E : env) (root : node) (cbf : nat -> nat -> val -> option (option val)) : Prop := {
  pg_rx : forall re, rx_ok (e_rx E re);
  pg_fit : ids_fit E root;
  pg_unique : ids_unique E root;
  pg_quiet : quiet E root;
  pg_cb : cb_pure E root cbf }.

(** Parsers that may be called when no rule is running: rules and the top rank
    of the grammar. *)
Definition entry (E : env) (root n : node) : Prop := reach E root n /\ top_ok n.

(** The textbook outcome, with rules nested at most as deep as the parse stack
    allows. *)
Definition textbook (E : env) cbf (text : bytes) (n : node) (p : nat) (r : result) : Prop :=
  exists fuel, std (e_rule E) (e_rx E) cbf text fuel stack_limit n p = Some r.

(** States left by any earlier parsing of the same input: rules run at any
    positions, one after the other, each having an outcome in the semantics
    [out]. *)
Inductive after_parses (E : env) (root : node) (c : code) (out : node -> nat -> result -> Prop) : st -> Prop :=
| ap_init : after_parses E root c out (init_st c (e_nrules E))
| ap_move s p : after_parses E root c out s -> p <= length (c_work c) ->
    after_parses E root c out (set_code s (c_with_pos c p))
| ap_parse s n r fuel x s' : after_parses E root c out s -> entry E root n ->
    out n (st_pos s) r -> parse E fuel n s = Ok x s' -> after_parses E root c out s'.

(** The engine, called for [n] in state [s], gives [r]: from some fuel on it
    returns, always the same. *)
Definition engine_gives (E : env) (n : node) (s : st) (r : result) : Prop :=
  exists fuel0 x s', outcome_is r x s' /\ forall fuel, fuel0 <= fuel -> parse E fuel n s = Ok x s'.

(** The outcome the semantics of Peg.v gives a parser outside any rule, rules
    nested at most as deep as the parse stack allows. *)
Definition meaning (E : env) cbf R par (text : bytes) (n : node) (p : nat) (r : result) : Prop :=
  exists t h, h <= stack_limit /\ peg (e_rule E) (e_rx E) cbf R par text None (JNode n) p t h r.

(** The top rank of a grammar: a choice between rules without label or
    callback (grammar.go:61-71, parser_rank.go:20-45). *)
Definition top_rank (n : node) : Prop :=
  i_isrule (n_info n) = false /\ i_label (n_info n) = EmptyString /\ i_cb (n_info n) = None /\
  exists l, n_kind n = KChoice l /\ Forall (fun c => i_isrule (n_info c) = true) l.

(** ** Left recursion *)
(** The body of rule [id] at [p], with callback, when references to the rule at
    [p] give [seed]. *)
Definition body_with (E : env) cbf R par (text : bytes) (id p : nat) (seed r : result) : Prop :=
  exists t h r0, S h <= stack_limit /\
    peg (e_rule E) (e_rx E) cbf R par text (Some (Ctx id p seed false)) (JBody (R id)) p t h r0 /\
    prepared cbf (n_info (R id)) r0 = Some r.

(** From the seed [s] the results [l] follow, each the body with the one before
    as seed and strictly longer than it; after the last one there is nothing
    longer. *)
Fixpoint grows (B : result -> result -> Prop) (s : val * nat) (l : list (val * nat)) : Prop :=
  match l with
  | [] => exists r, B (Some s) r /\ forall v e, r = Some (v, e) -> e <= snd s
  | s' :: l' => B (Some s) (Some s') /\ snd s < snd s' /\ grows B s' l'
  end.

(** ** E: E op T | T *)
(** [q] is where the value so far ends; the pairs [l] of operator and operand
    follow, up to [e]; there no further pair parses. *)
Inductive tail_run (op opd : nat -> result -> Prop) : nat -> list (val * val) -> nat -> Prop :=
| tr_no_op q : op q None -> tail_run op opd q [] q
| tr_no_operand q o q1 : op q (Some (o, q1)) -> opd q1 None -> tail_run op opd q [] q
| tr_pair q o q1 v q2 l e : op q (Some (o, q1)) -> opd q1 (Some (v, q2)) -> q < q2 ->
    tail_run op opd q2 l e -> tail_run op opd q ((o, v) :: l) e.

(** The parser [n] gives [r] at [q] whatever the rule [id], running at [p], has
    found so far, without asking for it. *)
Definition apart (E : env) cbf R par (text : bytes) (id p : nat) (n : node) (q : nat) (r : result) : Prop :=
  exists h, S (S (S h)) <= stack_limit /\
    forall seed inn, peg (e_rule E) (e_rx E) cbf R par text (Some (Ctx id p seed inn)) (JNode n) q false h r.

(** A reference to rule [id] without label or callback. *)
Definition refers (E : env) (R : nat -> node) (n : node) (id : nat) : Prop :=
  i_isrule (n_info n) = false /\ i_label (n_info n) = EmptyString /\ i_cb (n_info n) = None /\ i_capture (n_info n) = true /\
  exists name, n_kind n = KRef name /\ e_rule E name = Some (R id).
