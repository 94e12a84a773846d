(** What each kind of parser does with its parts; when parses end. *)
From Coq Require Import Sorted.
From Verif Require Import Base Helpers Utf8 Stream StreamSpec StreamProofs Native NativeSpec Engine EngSpec EngInv EngMon Toy
  Peg PegRep PegBody PegStd RunSpec PegRun Props_Peg CombSpec CombProofs TermSpec Term ShapeSpec ShapeProofs.

(** In what follows [body E rec lf n] is what a parser does with its parts,
    which are parsed by [rec], any function.  A parser that is not a rule and
    has no label or callback of its own is just that: *)
Theorem C23_called : forall (E : env) (fuel : nat) (n : node) (s : st),
  i_isrule (n_info n) = false -> i_cb (n_info n) = None -> i_label (n_info n) = EmptyString ->
  parse E (S fuel) n s = body E (parse E fuel) fuel n s.
Proof. exact plain_called. Qed.
Print Assumptions C23_called.

(** A choice gives the result of the first alternative that succeeds, the ones
    before it having been tried from the same position; it fails when all fail;
    the alternatives after the first success are not run (the final state is
    that of the success). *)
Theorem C23_first_wins : forall (E : env) rec (lf : nat) (n : node) (l : list node) (s : st) (r : option ast) (s' : st),
  n_kind n = KChoice l ->
  body E rec lf n s = Ok r s' <->
  (exists l1 m l2 s1 x, l = l1 ++ m :: l2 /\ all_fail rec (st_pos s) l1 s s1 /\ rec m s1 = Ok (Some x) s' /\ r = Some x) \/
  (all_fail rec (st_pos s) l s s' /\ r = None).
Proof. exact choice_body. Qed.
Print Assumptions C23_first_wins.

Definition ab_alt : node := alt [cstr "x"; cstr "a"; cstr "ab"].
Example C23_nonvacuous : exists s s',
  body (toy_env 0 [] no_cb) (parse (toy_env 0 [] no_cb) 5) 5 ab_alt s = Ok (Some (AStr (s2b "a"))) s' /\
  st_pos s = 0 /\ st_pos s' = 1.
Proof.
  exists (init_st (CRune (new_rune_stream (s2b "ab"))) 0). eexists. split; [vm_compute; reflexivity|]. split; reflexivity.
Qed.

(** A sequence without labels succeeds exactly when its parts succeed one after
    the other, and then has the documented shape. *)
Theorem C36_sequence : forall (E : env) rec (lf : nat) (n : node) (ty : seqtype) (l : list node) (s : st) (r : option ast) (s' : st),
  n_kind n = KSeq ty l -> ty <> TObject ->
  body E rec lf n s = Ok r s' <->
  (exists xs, runs rec l s xs s' /\ r = Some (seq_shape ty l xs)) \/ (breaks rec l s s' /\ r = None).
Proof. exact sequence_spec. Qed.
Print Assumptions C36_sequence.

(** A sequence with labels, in a grammar whose callbacks are functions: a map
    whose keys are the labels, in order, each with the value of its part. *)
Theorem C36_labels : forall (E : env) (root : node) (c : code) cbf (s : st) (n : node) (l : list node) (r : result),
  pure_grammar E root cbf -> code_ok c -> c_pos c <= length (c_work c) ->
  after_parses E root c (textbook E cbf (c_work c)) s -> entry E root n ->
  n_kind n = KSeq TObject l -> i_cb (n_info n) = None -> i_wraps (n_info n) = false -> NoDup (labels l) -> named l ->
  textbook E cbf (c_work c) n (st_pos s) r ->
  engine_gives E n s r /\
  match r with
  | Some (v, e) => exists vs, parts (textbook E cbf (c_work c)) l (st_pos s) vs e /\ v = shaped l vs
  | None => stops (textbook E cbf (c_work c)) l (st_pos s)
  end.
Proof. exact labels_run. Qed.
Print Assumptions C36_labels.

Example C36_nonvacuous :
  (exists s s', body (toy_env 0 [] no_cb) (parse (toy_env 0 [] no_cb) 5) 5 (seqA [cstr "a"; str "-"; cstr "b"]) s =
     Ok (Some (AArr [AStr (s2b "a"); AStr (s2b "b")])) s' /\ st_pos s' = 3) /\
  let c := CRune (new_rune_stream (s2b "abby")) in
  exists n l v, look_up pre_rules "A" = Some n /\ n_kind n = KSeq TObject l /\ NoDup (labels l) /\ named l /\ labels l = ["l"; "m"]%string /\
    entry pre_env pre_top n /\ pure_grammar pre_env pre_top same_cb /\
    textbook pre_env same_cb (c_work c) n 0 (Some (v, 3)) /\
    v = VMap [("l", VStr (s2b "a")); ("m", VArr [VStr (s2b "b"); VStr (s2b "b")])]%string.
Proof.
  split.
  - exists (init_st (CRune (new_rune_stream (s2b "a-b"))) 0). eexists. split; [vm_compute; reflexivity|reflexivity].
  - intros c. eexists _, _, _. split; [reflexivity|]. split; [reflexivity|].
    split; [apply (bool_decide_unpack _); vm_compute; done|].
    split; [split; apply (bool_decide_unpack _); vm_compute; done|]. split; [reflexivity|].
    split; [split; [eapply (reach_rule _ _ "A"); reflexivity|by left]|]. split; [apply pre_pure|].
    split; [exists 20; vm_compute; reflexivity|reflexivity].
Qed.

(** A repetition gives a maximal run of values, joins in between; a join
    without a value after it is given back. *)
Theorem C33_greedy : forall (E : env) rec (lf : nat) (n v : node) (j : option node) (mn mx : Z) (s : st) (r : option ast) (s' : st),
  n_kind n = KPat v j mn mx -> body E rec lf n s = Ok r s' ->
  (exists s1, rec v s = Ok None s1 /\ moved (st_pos s) s1 s' /\ r = if (0 <? mn)%Z then None else Some (AArr [])) \/
  (exists x s1 xs s2, rec v s = Ok (Some x) s1 /\ maximal rec v j mx s1 xs s2 /\
     (forall k, (-1 < mx)%Z -> 1 < k -> k <= length xs -> (Z.of_nat k < mx)%Z) /\
     if ((-1 <? mn) && (Z.of_nat (S (length xs)) <? mn))%Z%bool then r = None /\ moved (st_pos s) s2 s'
     else r = Some (AArr (x :: xs)) /\ s' = s2).
Proof. exact pattern_spec. Qed.
Print Assumptions C33_greedy.

Definition list_pat (mn mx : Z) : node := Node (ni true) (KPat (cstr "a") (Some (str ",")) mn mx).
Example C33_nonvacuous :
  let E := toy_env 0 [] no_cb in
  let go t mn mx := sum id (parse E 9 (list_pat mn mx) (init_st (CRune (new_rune_stream (s2b t))) 0)) in
  (* stops before the dangling join *)
  go "a,a,b"%string (-1)%Z (-1)%Z = Value (Some (AArr [AStr (s2b "a"); AStr (s2b "a")])) 3 /\
  go "b"%string (-1)%Z (-1)%Z = Value (Some (AArr [])) 0 /\
  go "a,a"%string 3%Z (-1)%Z = Value None 0 /\
  go "a,a,a"%string (-1)%Z 2%Z = Value (Some (AArr [AStr (s2b "a"); AStr (s2b "a")])) 3.
Proof. vm_compute. auto. Qed.

(** Between [mn] and [mx] values, if [mx] is two or more. *)
Theorem C32_count_partial : forall (E : env) rec (lf : nat) (n v : node) (j : option node) (mn mx : Z) (s : st) (vs : list ast) (s' : st),
  n_kind n = KPat v j mn mx -> body E rec lf n s = Ok (Some (AArr vs)) s' ->
  (mn <= Z.of_nat (length vs))%Z /\ ((-1 < mx)%Z -> (Z.of_nat (length vs) <= Z.max 2 mx)%Z).
Proof. exact pattern_count. Qed.
Print Assumptions C32_count_partial.

(** An upper bound of 1 or 0 is not respected: 'a'{0,1} takes two. *)
Theorem C32_count_refuted : exists (E : env) (n v : node) (s : st) (vs : list ast) (s' : st),
  n_kind n = KPat v None 0 1 /\ (exists fuel, parse E fuel n s = Ok (Some (AArr vs)) s') /\ (1 < Z.of_nat (length vs))%Z.
Proof.
  exists (toy_env 0 [] no_cb), (Node (ni true) (KPat (cstr "a") None 0 1)), (cstr "a"),
    (init_st (CRune (new_rune_stream (s2b "aa"))) 0). eexists _, _.
  split; [reflexivity|]. split; [exists 9; vm_compute; reflexivity|]. vm_compute. reflexivity.
Qed.
Print Assumptions C32_count_refuted.

(** An optional part never fails. *)
Theorem C35_optional : forall (E : env) rec (lf : nat) (n a : node) (s : st) (r : option ast) (s' : st),
  n_kind n = KExist a ->
  body E rec lf n s = Ok r s' <->
  (exists x, rec a s = Ok (Some x) s' /\ r = Some x) \/
  (exists s1, rec a s = Ok None s1 /\ moved (st_pos s) s1 s' /\ r = Some AUndef).
Proof. exact exist_spec. Qed.
Print Assumptions C35_optional.
Theorem C35_negation : forall (E : env) rec (lf : nat) (n a : node) (s : st) (r : option ast) (s' : st),
  n_kind n = KNot a ->
  body E rec lf n s = Ok r s' <->
  exists x s1, rec a s = Ok x s1 /\ moved (st_pos s) s1 s' /\ r = match x with Some _ => None | None => Some AUndef end.
Proof. exact not_spec. Qed.
Print Assumptions C35_negation.
(** A lookahead succeeds exactly when its part does, and gives the cursor back;
    but its value is that of the part: *)
Theorem C35_lookahead_partial : forall (E : env) rec (lf : nat) (n a : node) (s : st) (r : option ast) (s' : st),
  n_kind n = KLook a ->
  body E rec lf n s = Ok r s' <-> exists s1, rec a s = Ok r s1 /\ moved (st_pos s) s1 s'.
Proof. exact look_spec. Qed.
Print Assumptions C35_lookahead_partial.
Theorem C35_lookahead_refuted : exists (E : env) (n a : node) (s : st) (r : option ast) (s' : st),
  n_kind n = KLook a /\ (exists fuel, parse E fuel n s = Ok r s') /\ r <> None /\ r <> Some AUndef.
Proof.
  exists (toy_env 0 [] no_cb), (Node (ni true) (KLook (cstr "a"))), (cstr "a"), (init_st (CRune (new_rune_stream (s2b "a"))) 0).
  eexists _, _. split; [reflexivity|]. split; [exists 9; vm_compute; reflexivity|]. split; discriminate.
Qed.
Print Assumptions C35_lookahead_refuted.
Example C35_nonvacuous :
  let E := toy_env 0 [] no_cb in
  let go k t := sum id (parse E 9 (Node (ni true) k) (init_st (CRune (new_rune_stream (s2b t))) 0)) in
  go (KExist (cstr "a")) "b"%string = Value (Some AUndef) 0 /\ go (KExist (cstr "a")) "a"%string = Value (Some (AStr (s2b "a"))) 1 /\
  go (KNot (cstr "a")) "b"%string = Value (Some AUndef) 0 /\ go (KNot (cstr "a")) "a"%string = Value None 0 /\
  go (KLook (cstr "a")) "a"%string = Value (Some (AStr (s2b "a"))) 0.
Proof. vm_compute. auto. Qed.

(** ** The growing loop *)
(** For any body that stays within the text: the results kept end further and
    further, there are at most [L] + 1 minus the first end of them, the last one
    is returned, and the last try gave nothing longer. *)
Theorem C27_keeps_best : forall (E : env) (fp : M (option ast)) (show : bool) (id a sp lf L : nat) (x : ast) (s : st) res e stash (s' : st),
  (forall s r s', fp s = Ok r s' -> st_pos s' <= L) -> st_pos s <= L ->
  grow E lf fp show id a sp x s = Ok (res, e, stash) s' ->
  exists l, grow_ends E lf fp show id a sp x s = Ok (res, e, stash, l) s' /\
    Sorted lt l /\ head l = Some (st_pos s) /\ last l = Some e /\ length l + st_pos s <= S L /\
    exists s1 r, st_pos s1 = sp /\ fp s1 = Ok r s' /\ (st_pos s' <= e \/ r = None).
Proof. exact grow_best. Qed.
Print Assumptions C27_keeps_best.
Theorem C27_terminates : forall (E : env) (fp : M (option ast)) (show : bool) (id a sp lf L : nat) (x : ast) (s : st),
  (forall s, fp s <> OutOfFuel) -> (forall s r s', fp s = Ok r s' -> st_pos s' <= L) ->
  L - st_pos s < lf -> st_pos s <= L -> grow E lf fp show id a sp x s <> OutOfFuel.
Proof. exact grow_terminates. Qed.
Print Assumptions C27_terminates.

(** A loop with three rounds. *)
Definition one_more_byte : M (option ast) := fun s =>
  match s_fheap s !! 0 with
  | Some f => match f_end f with
              | Some e => if e <? 3 then Ok (Some (AInt (Z.of_nat e))) (set_code s (CRune (RStream (s2b "nnn") (S e) [0%Z])))
                          else Ok None s
              | None => Ok None s
              end
  | None => Ok None s
  end.
Example C27_nonvacuous :
  (forall s r s', st_pos s <= 3 -> one_more_byte s = Ok r s' -> st_pos s' <= 3) /\
  (forall s, one_more_byte s <> OutOfFuel) /\
  exists s s', grow_ends (toy_env 1 [] no_cb) 9 one_more_byte false 0 0 0 AUndef s =
    Ok (AInt 2, 3, [None], [1; 2; 3]) s'.
Proof.
  split; [|split].
  - intros s r s' Hs. unfold one_more_byte. destruct (s_fheap s !! 0) as [f|]; [|congruence].
    destruct (f_end f) as [e|]; [|congruence]. destruct (Nat.ltb_spec e 3); [|congruence]. intros [= <- <-]. cbn. lia.
  - intros s. unfold one_more_byte. destruct (s_fheap s !! 0) as [f|]; [|done].
    destruct (f_end f) as [e|]; [|done]. by destruct (e <? 3).
  - exists (St (CRune (RStream (s2b "nnn") 1 [0%Z])) (replicate 4 [None]) [Frame None None 3 (Some [false]) 0 0] [] [] 0 0 []).
    eexists. vm_compute. reflexivity.
Qed.

(** ** Termination *)
(** A parse ends, however deep the grammar recurses, if in every repetition
    value or join moves on when it succeeds.  (It may end in a panic, when the
    parse stack overflows.)  [fuel] bounds how deep calls nest and how often
    loops run; the bound is linear in the length of the text. *)
Theorem C55_parse_ends : forall (fuel : nat) (g : gram) (o : popts) rx cb (c : code) rxe eats (D : nat),
  let E := mk_env g o rx cb in
  eating E (g_rank g) rxe eats -> reps_eat E (g_rank g) eats ->
  (forall re, rx_ok (rx re)) -> ids_unique E (g_rank g) -> heights E (g_rank g) D -> refs_to_rules E ->
  c_pos c <= length (c_work c) -> enough D (length (c_work c)) <= fuel ->
  fst (gram_parse fuel g o rx cb c) <> OutOfFuel.
Proof. intros fuel g o rx cb c rxe eats D E H1 H2 H3 H4 H5 H6. apply (gram_ends fuel g o rx cb c rxe eats height D H1 H2 H3 H4). by apply heights_levels. Qed.
Print Assumptions C55_parse_ends.
(** References may also lead to parsers that are not cached, if those go round
    no circle. *)
Theorem C55_parse_ends_levels : forall (fuel : nat) (g : gram) (o : popts) rx cb (c : code) rxe eats lvl (D : nat),
  let E := mk_env g o rx cb in
  eating E (g_rank g) rxe eats -> reps_eat E (g_rank g) eats ->
  (forall re, rx_ok (rx re)) -> ids_unique E (g_rank g) -> levels E (g_rank g) lvl D ->
  c_pos c <= length (c_work c) -> enough D (length (c_work c)) <= fuel ->
  fst (gram_parse fuel g o rx cb c) <> OutOfFuel.
Proof. exact gram_ends. Qed.
Print Assumptions C55_parse_ends_levels.

(** S <- L ; L <- N*',' ; N <- L 'n' | 'n': a repetition within left recursion. *)
Definition rep_rules : list (string * node) :=
  [("L", rule "L" 0 (KPat (ref "N") (Some (str ",")) 1 (-1)));
   ("N", rule "N" 1 (KChoice [rule "N[0]" 2 (KSeq TArray [ref "L"; cstr "n"]); cstr "n"]))]%string.
Definition rep_top : node := rank [rule "__root__[0]" 3 (KRef "L")].
Definition rep_gram : gram := toy_gram rep_top 4 rep_rules.
Fixpoint eats_n (k : nat) (E : env) (n : node) : bool :=
  match k with O => true | S k' => ate E (fun _ => false) (eats_n k' E) n end.
Example C55_nonvacuous :
  let E := mk_env rep_gram mute no_rx no_cb in
  eating E (g_rank rep_gram) (fun _ => false) (eats_n 5 E) /\ reps_eat E (g_rank rep_gram) (eats_n 5 E) /\
  ids_unique E (g_rank rep_gram) /\ heights E (g_rank rep_gram) 5 /\ refs_to_rules E /\
  eats_n 5 E (g_rank rep_gram) = true /\
  toy 30 rep_gram "n,nn" = Value (Some (AArr [AStr (s2b "n"); AArr [AArr [AStr (s2b "n")]; AStr (s2b "n")]])) 4.
Proof.
  intros E. split; [by apply (eating_check _ _ rep_rules)|]. split; [by apply (reps_check _ _ rep_rules)|].
  split; [apply (ids_unique_check _ _ rep_rules); [done|]; apply (bool_decide_unpack _); vm_compute; done|].
  split; [by apply (heights_check _ _ rep_rules)|]. split; [by apply (refs_check _ rep_rules)|].
  split; [vm_compute; reflexivity|]. vm_compute. reflexivity.
Qed.

(** Without that condition it need not end.  Whatever the bound on the number
    of rounds, a repetition whose value succeeds each time it is tried runs
    into it: *)
Theorem C34_zero_width : forall (E : env) rec (lf : nat) (n v : node) (mn : Z) (s : st) (P : st -> Prop),
  n_kind n = KPat v None mn (-1) -> P s ->
  (forall s, P s -> rec v s = OutOfFuel \/ exists x s', rec v s = Ok (Some x) s' /\ P s') ->
  body E rec lf n s = OutOfFuel.
Proof. exact rounds_hang. Qed.
Print Assumptions C34_zero_width.
(** A grammar and a text on which the parse does not end. *)
Theorem C34_terminates_refuted : exists (g : gram) (text : bytes), forall fuel,
  fst (parse_string fuel g mute no_rx no_cb text) = OutOfFuel.
Proof. exists hang_gram, []. exact hangs. Qed.
Print Assumptions C34_terminates_refuted.
(** It ends when each round moves on, that is, in a state where the text left
    is shorter. *)
Theorem C34_terminates_partial : forall (E : env) rec (lf : nat) (n v : node) (j : option node) (mn mx : Z) (s : st) (L : nat),
  n_kind n = KPat v j mn mx -> L - st_pos s < lf ->
  (forall m s, rec m s <> OutOfFuel) -> (forall m s r s', rec m s = Ok r s' -> st_pos s' <= L) ->
  (forall m s x s', rec m s = Ok (Some x) s' -> st_pos s <= st_pos s') ->
  (forall s x s', rec v s = Ok (Some x) s' -> st_pos s < st_pos s') ->
  body E rec lf n s <> OutOfFuel.
Proof. exact rounds_end. Qed.
Print Assumptions C34_terminates_partial.
