(** Two runs of the same grammar that differ in tracing, or in the kind of the
    input stream: vocabulary (C16, C41, C42). *)
From Verif Require Import Base Helpers Utf8 Utf8Spec Stream StreamSpec Native Engine EngSpec SkipSpec.

(** The same parser without its Debug flags. *)
Definition info_mute (i : info) : info :=
  Info (i_name i) (i_label i) (i_capture i) (i_isrule i) (i_id i) (i_wraps i) (i_cb i) (i_skip i) false.
Fixpoint mute_node (n : node) : node :=
  match n with Node i k => Node (info_mute i) (map_kind mute_node k) end.

(** Objects with the same contents; with [strict], also the same origin. *)
Definition obj_like (strict : bool) (o1 o2 : obj) : Prop :=
  o_body o1 = o_body o2 /\ (strict = true -> o_attr o1 = o_attr o2).
Definition heap_like (strict : bool) (h1 h2 : heap) : Prop := Forall2 (obj_like strict) h1 h2.
(** Callbacks that do the same on heaps that are alike. *)
Definition cbres_like (strict : bool) (r1 r2 : cbres) : Prop :=
  match r1, r2 with
  | CbRet h1 x1, CbRet h2 x2 => x1 = x2 /\ heap_like strict h1 h2
  | CbPanic t1, CbPanic t2 => t1 = t2
  | _, _ => False
  end.
Definition cb_like (strict : bool) (cb1 cb2 : nat -> nat -> heap -> ast -> cbres) : Prop :=
  forall c p h1 h2 x, heap_like strict h1 h2 -> cbres_like strict (cb1 c p h1 x) (cb2 c p h2 x).

(** Outcomes that a user cannot tell apart: the same value, the same objects,
    the same cursor, the same calls of callbacks; or the same panic. *)
Definition outcome_like {A} (strict : bool) (o1 o2 : outcome A) : Prop :=
  match o1, o2 with
  | Ok a1 s1, Ok a2 s2 => a1 = a2 /\ heap_like strict (s_heap s1) (s_heap s2) /\ st_pos s1 = st_pos s2 /\ s_log s1 = s_log s2
  | Panic p1 s1, Panic p2 s2 => p1 = p2 /\ s_log s1 = s_log s2
  | OutOfFuel, OutOfFuel => True
  | _, _ => False
  end.

(** What a line of the trace needs can be computed at [p]: PeekRunes(-5)
    does not panic (it does after an encoded U+FFFD and inside a rune, C12). *)
Definition loggable_at (c : code) (p : nat) : Prop :=
  exists t, c_peek_runes (match c with CRune r => CRune (rs_with_pos r p) | CTok t => CTok (ts_with_pos t p) end) (-5) = ROk t.

(** The same grammar with tracing off. *)
Definition mute_gram (g : gram) : gram :=
  Gram (mute_node (g_rank g)) (g_nrules g) (fun name => option_map mute_node (g_rule g name)) false false (-1).
(** The parsers of a grammar. *)
Definition in_gram (g : gram) (n : node) : Prop :=
  reach (mk_env g (POpts false false false) (fun _ _ => None) (fun _ _ h x => CbRet h (Some x))) (g_rank g) n.
(** [B] holds at the start and is kept by every match of a string or a regular
    expression of the grammar: the cursor only takes such positions. *)
Record walks (g : gram) (rx : bytes -> bytes -> option (nat * nat)) (c : code) (B : nat -> Prop) : Prop := {
  wk_start : B (c_pos c);
  wk_le : forall p, B p -> p <= length (c_work c);
  wk_str : forall n s p, in_gram g n -> n_kind n = KStr s -> B p -> take (length s) (drop p (c_work c)) = s -> B (p + length s);
  wk_rx : forall n re p b, in_gram g n -> n_kind n = KRegex re -> B p -> rx re (drop p (c_work c)) = Some (0, b) -> B (p + b) }.
(** A parser is traced: the Stack option, the Debug option of the call, or its
    own Debug mark. *)
Definition traced (g : gram) (o : popts) (n : node) : Prop := (g_tstack g || po_debug o || i_debug (n_info n))%bool = true.
(** Nothing is traced; or traced parsers are not marked SkipCache and the lines
    of the trace can be written.  Loops are traced for all lines, or not at
    all. *)
Definition trace_safe (g : gram) (o : popts) rx (c : code) : Prop :=
  (g_tloop g = true -> (g_tfilter g < 0)%Z) /\
  ((forall n, in_gram g n -> ~ traced g o n) \/
   ((forall n, in_gram g n -> traced g o n -> i_skip (n_info n) = false) /\
    exists B, walks g rx c B /\ forall p, B p -> loggable_at c p)).
(** Text without U+FFFD, strings and regular expressions that match whole
    runes. *)
Definition plain (bs : bytes) : Prop := exists rs, utf8s rs bs /\ Forall (fun r => r <> rune_error) rs.
Definition rx_runes (find : bytes -> option (nat * nat)) : Prop :=
  forall s b, plain s -> find s = Some (0, b) -> plain (take b s) /\ plain (drop b s).
(** A grammar for such text. *)
Definition gram_plain (g : gram) (rx : bytes -> bytes -> option (nat * nat)) : Prop :=
  (forall n s, in_gram g n -> n_kind n = KStr s -> plain s) /\
  (forall n re, in_gram g n -> n_kind n = KRegex re -> rx_runes (rx re)).

(** Calls of ParseString and ParseTokens on one grammar, one after the other;
    what is left behind is the Stack option (grammar.go:113, :120). *)
Record request := Req { rq_opts : popts; rq_code : code }.
Definition with_stack (g : gram) (b : bool) : gram := Gram (g_rank g) (g_nrules g) (g_rule g) b (g_tloop g) (g_tfilter g).
Fixpoint history (fuel : nat) (g : gram) rx cb (l : list request) : list (outcome (option ast)) :=
  match l with
  | [] => []
  | q :: l' =>
      let '(o, b) := gram_parse fuel g (rq_opts q) rx cb (rq_code q) in
      o :: history fuel (with_stack g b) rx cb l'
  end.
(** The same calls, each on a new grammar. *)
Definition fresh (fuel : nat) (g : gram) rx cb (q : request) : outcome (option ast) :=
  fst (gram_parse fuel g (rq_opts q) rx cb (rq_code q)).
Definition debugging (o : popts) : popts := POpts true (po_skiplog o) (po_skipcache o).
(** A stream at its start, as the constructors make it. *)
Definition new_code (c : code) : Prop := code_ok c /\ c_pos c = 0.
