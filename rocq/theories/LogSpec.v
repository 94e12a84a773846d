(** Vocabulary for the ghost log of a run (Engine.v: [event]); newest first. *)
From Verif Require Import Base Helpers Utf8 Stream Native Engine EngSpec.

(** The evaluations of bodies of cached rules: rule and position. *)
Definition bodies (l : list event) : list (nat * nat) :=
  flat_map (fun e => match e with EvBody i p => [(i, p)] | _ => [] end) l.
(** Left recursion was not met. *)
Definition norec (l : list event) : Prop := forall i p, EvRec i p ∉ l.

(** What a computation has logged. *)
Definition new_log (s s' : st) : list event := take (length (s_log s') - length (s_log s)) (s_log s').

(** The call of the rule [n] from [s] to [s'] ran the rule's body, rather than
    finding its result in the cache or meeting the rule in progress; and no rule
    was met in progress at the position where [n] started. *)
Definition is_rec_at (p : nat) (e : event) : bool := match e with EvRec _ q => q =? p | _ => false end.
Definition is_run (i p : nat) (e : event) : bool :=
  match e with EvBody j q | EvSkip j q => (j =? i) && (q =? p) | _ => false end%bool.
Definition ran_body (n : node) (s s' : st) : bool :=
  let l := new_log s s' in
  (match last l with Some e => is_run (i_id (n_info n)) (st_pos s) e | None => false end
   && negb (existsb (is_rec_at (st_pos s)) l))%bool.

(** The origin stored with the result: the source, from where the rule started
    to where it ended, and the line of the end (numbered as the stream does). *)
Definition line_is (c : code) (l : Z) : bool := match c_line c with ROk k => (k =? l)%Z | _ => false end.
Definition origin_is (s : st) (r : option ast) (s' : st) : bool :=
  match r with
  | Some (AObj a) =>
      match s_heap s' !! a with
      | Some o =>
          (bool_decide (at_code (o_attr o) = c_code (s_code s')) && (at_start (o_attr o) =? st_pos s) &&
           (at_end (o_attr o) =? st_pos s') && line_is (s_code s') (at_line (o_attr o)))%bool
      | None => false
      end
  | _ => true
  end.

(** Callbacks that were called have returned. *)
Definition calls_return (E : env) (l : list event) : Prop :=
  forall c p, EvCb c p ∈ l -> exists h x h' r, e_cb E c p h x = CbRet h' r.

(** How often a callback was called, a rule's body evaluated. *)
Definition calls_of (c : nat) (l : list event) : nat :=
  length (List.filter (fun e => match e with EvCb d _ => d =? c | _ => false end) l).
Definition runs_of (i : nat) (l : list event) : nat :=
  length (List.filter (fun e => match e with EvBody j _ => j =? i | _ => false end) l).
(** The callback [c] belongs to the cached rule number [i] and to no other
    parser of the grammar. *)
Definition cb_of_rule (E : env) (root : node) (c i : nat) : Prop :=
  forall n, reach E root n -> i_cb (n_info n) = Some c ->
    i_isrule (n_info n) = true /\ i_skip (n_info n) = false /\ i_id (n_info n) = i.

(** Cache entries refer to frames made at their own position. *)
Fixpoint rows_ok (fh : list frame) (p : nat) (rows : list (list (option nat))) : bool :=
  match rows with
  | [] => true
  | row :: rows' =>
      (forallb (fun o => match o with None => true | Some a => match fh !! a with Some f => f_pos f =? p | None => false end end) row &&
       rows_ok fh (S p) rows')%bool
  end.
Definition cache_ok (s : st) : bool := rows_ok (s_fheap s) 0 (s_frames s).

(** What a parser gives once its body has given [x] in heap [h], the cursor
    being at [p]: the value, under the parser's label if it stands alone with
    one, is what the callback is called with, and the callback's answer is the
    parser's answer. *)
Definition standing_alone (i : info) : bool := (negb (String.eqb (i_label i) "") && i_wraps i)%bool.
Definition callback_gives (E : env) (i : info) (p : nat) (h : heap) (x : ast) (r : option ast) : Prop :=
  exists x1 h1,
    (if standing_alone i
     then x1 = AObj (length h) /\ h1 = h ++ [Obj (OMap (nm_single (i_label i) x)) attr0]
     else x1 = x /\ h1 = h) /\
    match i_cb i with
    | None => r = Some x1
    | Some c => exists h', e_cb E c p h1 x1 = CbRet h' r
    end.
