(** Theorems on joined repetitions, README.md:135-145. *)
From Verif Require Import Base Helpers Utf8 Stream StreamSpec Native Engine Peg PegRep Build Calc CalcRun Joeson JoesonSpec JoinSpec Joins.

(** A grammar whose one line is [ 'a'*'b' ] or [ 'a'+'b' ], for literals [a]
    (not empty) and [b].  It accepts [a], [aba], [ababa] and so on, with all
    the [a] as its value. *)
Theorem C73_accepts compile fuel s a b mn g : compile s = ROk (joined_by a b mn) -> a <> [] -> (mn = -1 \/ mn = 1)%Z ->
  build compile fuel "g" [LO "" (LS s) no_opts] = ROk g ->
  forall o rx cb, (forall re, rx_ok (rx re)) -> po_debug o = false -> forall k,
  exists fuel0, forall f, fuel0 <= f -> exists y st,
  fst (parse_string f (gram_of g) o rx cb (run_of a b k)) = Ok (Some y) st /\ rep [] (s_heap st) y (VArr (replicate (S k) (VStr a))).
Proof. exact (join_accepts compile fuel s a b mn g). Qed.
Print Assumptions C73_accepts.

(** The empty text: an empty array for [*], nil for [+]. *)
Theorem C73_empty compile fuel s a b mn g : compile s = ROk (joined_by a b mn) -> a <> [] -> (mn = -1 \/ mn = 1)%Z ->
  build compile fuel "g" [LO "" (LS s) no_opts] = ROk g ->
  forall o rx cb, (forall re, rx_ok (rx re)) -> po_debug o = false ->
  exists fuel0, forall f, fuel0 <= f -> exists st,
  if (mn =? -1)%Z then fst (parse_string f (gram_of g) o rx cb []) = Ok (Some (AArr [])) st else fst (parse_string f (gram_of g) o rx cb []) = Ok None st.
Proof. exact (join_empty compile fuel s a b mn g). Qed.
Print Assumptions C73_empty.

(** Every other text is an error. *)
Theorem C73_refuses compile fuel s a b mn g : compile s = ROk (joined_by a b mn) -> a <> [] -> (mn = -1 \/ mn = 1)%Z ->
  build compile fuel "g" [LO "" (LS s) no_opts] = ROk g ->
  forall o rx cb, (forall re, rx_ok (rx re)) -> po_debug o = false -> forall text, text <> [] -> (forall k, text <> run_of a b k) ->
  exists fuel0, forall f, fuel0 <= f -> exists k st, fst (parse_string f (gram_of g) o rx cb text) = Ok (Some (AErr k)) st.
Proof. exact (join_refuses compile fuel s a b mn g). Qed.
Print Assumptions C73_refuses.

(** The texts of the README, compiled with the joeson grammar. *)
Example C73_texts : calc_compile (s2b "'a'*'b'") = ROk (joined_by (s2b "a") (s2b "b") (-1)) /\
  calc_compile (s2b "'a'+'b'") = ROk (joined_by (s2b "a") (s2b "b") 1) /\
  (exists g, build calc_compile 300 "g" [LO "" (LS (s2b "'a'*'b'")) no_opts] = ROk g) /\
  (exists g, build calc_compile 300 "g" [LO "" (LS (s2b "'a'+'b'")) no_opts] = ROk g) /\
  run_of (s2b "a") (s2b "b") 2 = s2b "ababa".
Proof. split; [vm_compute; reflexivity|]. split; [vm_compute; reflexivity|]. split; [eexists; vm_compute; reflexivity|]. split; [eexists; vm_compute; reflexivity|]. reflexivity. Qed.

(** The README says that [ 'a'*'b' ] parses aaa and aabababa, that [ 'a'+'b' ]
    parses abaaaba and that [ 'a'*'b'{1,2} ] parses aaaa and aaabaaa.  All five
    are errors. *)
Definition is_error (x : outcome (option ast)) : bool := match x with Ok (Some (AErr _)) _ => true | _ => false end.
Definition answers_of (s : string) (texts : list string) : list bool :=
  match build calc_compile 300 "g" [o_s s] with
  | ROk g => map (fun t => is_error (fst (parse_string 300 (gram_of g) (POpts false false false) calc_rx calc_cb (s2b t)))) texts
  | _ => []
  end.
Theorem C73_readme_refuted :
  answers_of "'a'*'b'" ["a"; "aba"; "aaa"; "aabababa"]%string = [false; false; true; true] /\
  answers_of "'a'+'b'" ["a"; "aba"; "abaaaba"]%string = [false; false; true] /\
  answers_of "'a'*'b'{1,2}" ["a"; "aba"; "aaaa"; "aaabaaa"]%string = [false; false; true; true].
Proof. repeat split; vm_compute; reflexivity. Qed.
Print Assumptions C73_readme_refuted.
