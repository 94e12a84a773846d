(** Model of traceoptions.go. *)
From Verif Require Import Base Native.

(** traceoptions.go:14-20. *)
Record topts := TOpts { t_stack : bool; t_loop : bool; t_grammar : bool; t_filter : Z; t_skipsetup : bool }.

(** traceoptions.go:22-30, [Copy]. *)
Definition topts_copy (o : topts) : topts := TOpts (t_stack o) (t_loop o) (t_grammar o) (t_filter o) (t_skipsetup o).
(** traceoptions.go:47-49, [Mute]. *)
Definition topts_mute : topts := TOpts false false false (-1) false.
(** traceoptions.go:52-54, [Verbose]. *)
Definition topts_verbose : topts := TOpts true false true (-1) true.

(** strings.Split with a separator of one byte. *)
Fixpoint split_byte (sep : N) (s : bytes) : list bytes :=
  match s with
  | [] => [[]]
  | b :: r =>
      if (b =? sep)%N then [] :: split_byte sep r
      else match split_byte sep r with
           | w :: ws => (b :: w) :: ws
           | [] => [[b]]
           end
  end.
(** strings.Index(v, p) == 0. *)
Fixpoint starts_with (p s : bytes) : bool :=
  match p, s with
  | [], _ => true
  | x :: p', y :: s' => ((x =? y)%N && starts_with p' s')%bool
  | _ :: _, [] => false
  end.

(** traceoptions.go:97-125, one word. *)
Definition trace_word (o : topts) (v : bytes) : res topts :=
  if bytes_eqb v (s2b "none") then ROk topts_mute
  else if bytes_eqb v (s2b "stack") then ROk (TOpts true (t_loop o) (t_grammar o) (t_filter o) (t_skipsetup o))
  else if bytes_eqb v (s2b "loop") then ROk (TOpts (t_stack o) true (t_grammar o) (t_filter o) (t_skipsetup o))
  else if bytes_eqb v (s2b "skipsetup") then ROk (TOpts (t_stack o) (t_loop o) (t_grammar o) (t_filter o) true)
  else if bytes_eqb v (s2b "grammar") then ROk (TOpts (t_stack o) (t_loop o) true (t_filter o) (t_skipsetup o))
  else if bytes_eqb v (s2b "all") then ROk topts_verbose
  else if (starts_with (s2b "line=") v || starts_with (s2b "filterline=") v)%bool then
    match split_byte 61 v with
    | [_; n] => match atoi n with
                | Some z => ROk (TOpts (t_stack o) (t_loop o) (t_grammar o) z (t_skipsetup o))
                | None => RPanic (PMsg "syntax: line=N, where N is a number")
                end
    | _ => RPanic (PMsg "syntax: line=N, where N is a number")
    end
  else RPanic (PMsg "unrecognized TRACE option").

Fixpoint trace_words (o : topts) (ws : list bytes) : res topts :=
  match ws with
  | [] => ROk o
  | v :: r => let* o' := trace_word o v in trace_words o' r
  end.

(** traceoptions.go:70-129, with [initial] given.  [env]: os.Getenv, which
    gives the empty string for a variable that is not set. *)
Definition check_environment (env : string -> bytes) (initial : topts) : res topts :=
  let e := if bytes_eqb (env "TRACE"%string) [] then env "trace"%string else env "TRACE"%string in
  if bytes_eqb e [] then ROk initial
  else trace_words topts_mute (split_byte 44 e).

(** traceoptions.go:59-61: the argument is not used. *)
Definition from_environment_or_use (env : string -> bytes) (default : topts) : res topts :=
  check_environment env topts_mute.

(** traceoptions.go:36-44. *)
Definition default_trace_options (env : string -> bytes) : res topts :=
  from_environment_or_use env (TOpts false false true (-1) true).
