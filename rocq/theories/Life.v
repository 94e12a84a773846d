(** A Grammar as an object: being ready, counting rules, being destroyed. *)
From Verif Require Import Base Helpers Utf8 Stream Native Engine Build.

(** grammar.go:12-20: the Grammar and wasInitialized.  (rank is never nil in a
    Grammar that the exported functions return: grammar.go:65-67.) *)
Record gobj := GObj { go_gram : gram; go_init : bool }.

(** grammar.go:61-71 and :311: GrammarWithOptionsFromLines. *)
Definition gobj_of (b : node * list (string * node)) : gobj := GObj (gram_of b) true.

(** grammar.go:74 and :198. *)
Definition count_rules (x : gobj) : nat := g_nrules (go_gram x).
Definition is_ready (x : gobj) : bool := go_init x.

(** parser_rank.go:47-52, [newEmptyRank], as the engine sees it: a parser with
    its own new rule, without callback. *)
Definition bombed_rank : node :=
  Node (Info "bombd" "" true false 0 true None false false) (KChoice []).
(** grammar.go:170-176, [Bomb]; the trace options stay. *)
Definition bomb (x : gobj) : gobj :=
  let g := go_gram x in
  GObj (Gram bombed_rank 0 (fun _ => None) (g_tstack g) (g_tloop g) (g_tfilter g)) false.
