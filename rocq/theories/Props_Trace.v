(** The TRACE variable (C49). *)
From Verif Require Import Base Native NativeSpec Trace TraceSpec TraceProofs.

(** $TRACE, or $trace when $TRACE is empty, is a list of words separated by
    commas; the options are what these words say, from left to right, starting
    from Mute; when a word says nothing the call panics.  The options passed as
    default do not matter. *)
Theorem C49_words_partial : forall (env : string -> bytes) (default : topts) (v : bytes) (ws : list bytes),
  trace_var env v -> v <> [] -> comma_list v ws ->
  (forall o, from_environment_or_use env default = ROk o <-> words_set ws (TOpts false false false (-1) false) o) /\
  ((forall o, ~ words_set ws (TOpts false false false (-1) false) o) -> exists m, from_environment_or_use env default = RPanic (PMsg m)).
Proof.
  intros env default v ws H1 H2 H3. destruct (environment_spec env default v ws H1 H2 H3) as [HA HB]. split; [exact HA|].
  intros HN. destruct HB as [[o Ho]|HB]; [|exact HB]. apply HA in Ho. by apply HN in Ho.
Qed.
Print Assumptions C49_words_partial.

(** Every value is such a list, of one kind only. *)
Theorem C49_list : forall v, exists ws, comma_list v ws /\ forall u, comma_list v u -> u = ws.
Proof. intros v. destruct (comma_list_total v) as [ws H]. exists ws. split; [exact H|]. by apply comma_list_join. Qed.
Print Assumptions C49_list.

Example C49_nonvacuous :
  let env := fun k => if String.eqb k "trace" then s2b "all,line=12,loop" else [] in
  trace_var env (s2b "all,line=12,loop") /\ comma_list (s2b "all,line=12,loop") [s2b "all"; s2b "line=12"; s2b "loop"] /\
  words_set [s2b "all"; s2b "line=12"; s2b "loop"] topts_mute (TOpts true true true 12 true) /\
  (forall o, ~ words_set [s2b "stack"; s2b "line=x"] topts_mute o) /\
  from_environment_or_use env topts_mute = ROk (TOpts true true true 12 true).
Proof.
  intros env. split; [by right|]. split; [by apply split_comma|]. split; [by apply trace_words_spec|].
  split; [|vm_compute; reflexivity]. intros o H%trace_words_spec. vm_compute in H. done.
Qed.

(** Without the variable the default is not what is returned. *)
Theorem C49_default_refuted : exists (env : string -> bytes) (default o : topts),
  (forall k, env k = []) /\ from_environment_or_use env default = ROk o /\ o <> default.
Proof. exists (fun _ => []), topts_verbose, topts_mute. done. Qed.
Print Assumptions C49_default_refuted.

(** It is Mute, always; so is the documented default of GrammarFromLines. *)
Theorem C49_unset_partial : forall (env : string -> bytes) (default : topts),
  env "TRACE"%string = [] -> env "trace"%string = [] ->
  from_environment_or_use env default = ROk (TOpts false false false (-1) false) /\
  default_trace_options env = ROk (TOpts false false false (-1) false).
Proof. intros env default H1 H2. exact (environment_unset env default H1 H2). Qed.
Print Assumptions C49_unset_partial.
