(** What the words of $TRACE mean (the table in traceoptions.go:73-83). *)
From Verif Require Import Base Native NativeSpec Trace.

(** [comma_list s ws]: [s] is the words [ws] separated by commas. *)
Inductive comma_list : bytes -> list bytes -> Prop :=
| cl_one w : 44%N ∉ w -> comma_list w [w]
| cl_more w s ws : 44%N ∉ w -> comma_list s ws -> comma_list (w ++ 44%N :: s) (w :: ws).

(** The effect of a word on the options. *)
Inductive word_sets : bytes -> topts -> topts -> Prop :=
| ws_none o : word_sets (s2b "none") o (TOpts false false false (-1) false)
| ws_stack st lo gr fi sk : word_sets (s2b "stack") (TOpts st lo gr fi sk) (TOpts true lo gr fi sk)
| ws_loop st lo gr fi sk : word_sets (s2b "loop") (TOpts st lo gr fi sk) (TOpts st true gr fi sk)
| ws_grammar st lo gr fi sk : word_sets (s2b "grammar") (TOpts st lo gr fi sk) (TOpts st lo true fi sk)
| ws_skipsetup st lo gr fi sk : word_sets (s2b "skipsetup") (TOpts st lo gr fi sk) (TOpts st lo gr fi true)
| ws_all o : word_sets (s2b "all") o (TOpts true false true (-1) true)
| ws_line ds n st lo gr fi sk : denotes ds n -> (- 2 ^ 63 <= n < 2 ^ 63)%Z ->
    word_sets (s2b "line=" ++ ds) (TOpts st lo gr fi sk) (TOpts st lo gr n sk)
| ws_filterline ds n st lo gr fi sk : denotes ds n -> (- 2 ^ 63 <= n < 2 ^ 63)%Z ->
    word_sets (s2b "filterline=" ++ ds) (TOpts st lo gr fi sk) (TOpts st lo gr n sk).
(** Words from left to right. *)
Inductive words_set : list bytes -> topts -> topts -> Prop :=
| wss_nil o : words_set [] o o
| wss_cons w ws o o1 o2 : word_sets w o o1 -> words_set ws o1 o2 -> words_set (w :: ws) o o2.

(** The variable that counts. *)
Definition trace_var (env : string -> bytes) (v : bytes) : Prop :=
  (env "TRACE"%string = v /\ v <> []) \/ (env "TRACE"%string = [] /\ env "trace"%string = v).
