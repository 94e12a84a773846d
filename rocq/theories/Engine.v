(** Model of the parsing engine: packrat.go, parsectx.go, parser_*.go (parse
    methods) and grammar.go:parse.  No proofs here.

    What is simplified:
    - parsers are trees as they are after [postinit]; mutable rule fields are a
      record [info] per node; [rule.parent] is only needed for
      [handlesChildLabel], kept as the flag [i_wraps];
    - [frame.param] (set by parser_ref.go:73) is never read: dropped;
    - text printed by traces is dropped, the panics that printing can raise and
      the control flow around it are kept;
    - Go's regexp and user callbacks are oracles in [env]; a callback sees the
      heap, the cursor and its argument and returns a new heap and a result (or
      panics); it cannot move the cursor or touch the cache;
    - a ghost log of events is recorded in the state. *)
From Verif Require Import Base Helpers Utf8 Stream Native.

(** ** Parsers *)

(** rule.go:9-25 and parseoption.go:30-47. *)
Record info := Info {
  i_name : string;
  i_label : string;
  i_capture : bool;
  i_isrule : bool;      (* parser.go:44-46, IsRule *)
  i_id : nat;
  i_wraps : bool;       (* parent != nil && !parent.handlesChildLabel() *)
  i_cb : option nat;
  i_skip : bool;        (* parseOptions.skipCache *)
  i_debug : bool }.     (* parseOptions.debug *)

(** parser_sequence.go:12-16. *)
Inductive seqtype := TSingle | TArray | TObject.

Inductive kind (A : Type) :=
| KStr (s : bytes)                                    (* parser_str.go *)
| KRegex (re : bytes)                                 (* parser_regex.go *)
| KRef (name : string)                                (* parser_ref.go *)
| KSeq (ty : seqtype) (l : list A)                    (* parser_sequence.go *)
| KChoice (l : list A)                                (* parser_choice.go, parser_rank.go *)
| KPat (v : A) (j : option A) (mn mx : Z)             (* parser_pattern.go *)
| KExist (a : A)                                      (* parser_existential.go *)
| KLook (a : A)                                       (* parser_lookahead.go *)
| KNot (a : A)                                        (* parser_not.go *)
| KUndef.                                             (* native_undefined.go *)
Arguments KStr {A}. Arguments KRegex {A}. Arguments KRef {A}. Arguments KSeq {A}.
Arguments KChoice {A}. Arguments KPat {A}. Arguments KExist {A}. Arguments KLook {A}.
Arguments KNot {A}. Arguments KUndef {A}.

Inductive node := Node (i : info) (k : kind node).
Definition n_info (n : node) : info := match n with Node i _ => i end.
Definition n_kind (n : node) : kind node := match n with Node _ k => k end.

(** ** Environment: grammar, oracles and options *)
Inductive cbres := CbRet (h : heap) (r : option ast) | CbPanic (tag : nat).

Record env := Env {
  e_nrules : nat;                                     (* grammar.numrules *)
  e_rule : string -> option node;                     (* grammar.rule.rules *)
  e_rx : bytes -> bytes -> option (nat * nat);        (* regexp.FindStringIndex *)
  e_cb : nat -> nat -> heap -> ast -> cbres;          (* id, cursor, heap, argument *)
  e_stack : bool;                                     (* TraceOptions.Stack *)
  e_loop : bool;                                      (* TraceOptions.Loop *)
  e_filter : Z;                                       (* TraceOptions.FilterLine *)
  e_skiplog : bool }.                                 (* ctx.parseOptions.skipLog *)

(** ** State *)

(** packrat.go:12-20.  [f_end = None] is endpos -1. *)
Record frame := Frame {
  f_res : option ast; f_end : option nat; f_stage : Z;
  f_mask : option (list bool); f_pos : nat; f_id : nat }.

Inductive event :=
| EvBody (id pos : nat)       (* a cached rule runs its body *)
| EvSkip (id pos : nat)       (* a SkipCache rule runs its body *)
| EvRec (id pos : nat)        (* left recursion met: the rule is in progress at this position *)
| EvCb (cb pos : nat).        (* a callback is called *)

(** parsectx.go:13-27.  Frames are Go pointers: the table and the stack hold
    addresses into [s_fheap].  The stack is listed top first. *)
Record st := St {
  s_code : code;
  s_frames : list (list (option nat));
  s_fheap : list frame;
  s_stack : list nat;
  s_heap : heap;
  s_counter : nat;
  s_loopstack : nat;
  s_log : list event }.

(** parsectx.go:24, the size of the stack array. *)
Definition stack_limit : nat := 1024.

Inductive outcome (A : Type) :=
| Ok (a : A) (s : st)
| Panic (p : panic) (s : st)
| OutOfFuel.
Arguments Ok {A}. Arguments Panic {A}. Arguments OutOfFuel {A}.

Definition M (A : Type) := st -> outcome A.
Definition ret {A} (a : A) : M A := fun s => Ok a s.
Definition bind {A B} (m : M A) (f : A -> M B) : M B := fun s =>
  match m s with
  | Ok a s' => f a s'
  | Panic p s' => Panic p s'
  | OutOfFuel => OutOfFuel
  end.
Notation "'do!' x ':=' a 'in' b" := (bind a (fun x => b))
  (at level 200, x name, a at level 100, b at level 200).
Notation "a ';!' b" := (bind a (fun _ => b)) (at level 100, b at level 200, right associativity).
Definition panic_ {A} (p : panic) : M A := fun s => Panic p s.
Definition out_of_fuel {A} : M A := fun _ => OutOfFuel.
Definition lift {A} (r : res A) : M A := fun s =>
  match r with ROk a => Ok a s | RPanic p => Panic p s | RFuel => OutOfFuel end.
Definition get : M st := fun s => Ok s s.
Definition gets {A} (f : st -> A) : M A := fun s => Ok (f s) s.

Definition set_code (s : st) (c : code) : st :=
  St c (s_frames s) (s_fheap s) (s_stack s) (s_heap s) (s_counter s) (s_loopstack s) (s_log s).
Definition set_frames (s : st) (t : list (list (option nat))) : st :=
  St (s_code s) t (s_fheap s) (s_stack s) (s_heap s) (s_counter s) (s_loopstack s) (s_log s).
Definition set_fheap (s : st) (h : list frame) : st :=
  St (s_code s) (s_frames s) h (s_stack s) (s_heap s) (s_counter s) (s_loopstack s) (s_log s).
Definition set_stack (s : st) (k : list nat) : st :=
  St (s_code s) (s_frames s) (s_fheap s) k (s_heap s) (s_counter s) (s_loopstack s) (s_log s).
Definition set_heap (s : st) (h : heap) : st :=
  St (s_code s) (s_frames s) (s_fheap s) (s_stack s) h (s_counter s) (s_loopstack s) (s_log s).
Definition set_counter (s : st) (n : nat) : st :=
  St (s_code s) (s_frames s) (s_fheap s) (s_stack s) (s_heap s) n (s_loopstack s) (s_log s).
Definition set_loopstack (s : st) (n : nat) : st :=
  St (s_code s) (s_frames s) (s_fheap s) (s_stack s) (s_heap s) (s_counter s) n (s_log s).
Definition add_log (s : st) (e : event) : st :=
  St (s_code s) (s_frames s) (s_fheap s) (s_stack s) (s_heap s) (s_counter s) (s_loopstack s) (e :: s_log s).

Definition emit (e : event) : M unit := fun s => Ok tt (add_log s e).

(** Cursor. *)
Definition st_pos (s : st) : nat := c_pos (s_code s).
Definition get_pos : M nat := gets st_pos.
Definition set_pos (n : nat) : M unit := fun s =>
  match c_set_pos (s_code s) (Z.of_nat n) with
  | ROk c => Ok tt (set_code s c)
  | RPanic p => Panic p s
  | RFuel => OutOfFuel
  end.

(** Heap of native objects. *)
Definition alloc (o : obj) : M nat := fun s =>
  Ok (length (s_heap s)) (set_heap s (s_heap s ++ [o])).
Definition read_obj (a : nat) : M obj := fun s =>
  match s_heap s !! a with Some o => Ok o s | None => Panic PNil s end.
Definition write_obj (a : nat) (o : obj) : M unit := fun s =>
  Ok tt (set_heap s (<[a := o]> (s_heap s))).

(** Frames. *)
Definition get_fr (a : nat) : M frame := fun s =>
  match s_fheap s !! a with Some f => Ok f s | None => Panic PNil s end.
Definition put_fr (a : nat) (f : frame) : M unit := fun s =>
  Ok tt (set_fheap s (<[a := f]> (s_fheap s))).

Definition fr_stage (f : frame) (n : Z) : frame :=
  Frame (f_res f) (f_end f) n (f_mask f) (f_pos f) (f_id f).
(** packrat.go:28-35, [cacheSet]. *)
Definition fr_cache (f : frame) (r : option ast) (e : option nat) : frame :=
  Frame r e (f_stage f) (f_mask f) (f_pos f) (f_id f).
Definition fr_mask (f : frame) (m : list bool) : frame :=
  Frame (f_res f) (f_end f) (f_stage f) (Some m) (f_pos f) (f_id f).
(** packrat.go:37-47, [newFrame]. *)
Definition new_frame (pos id : nat) : frame := Frame None None (-1) None pos id.

Definition set_stage (a : nat) (n : Z) : M unit :=
  do! f := get_fr a in put_fr a (fr_stage f n).
Definition cache_set (a : nat) (r : option ast) (e : option nat) : M unit :=
  do! f := get_fr a in put_fr a (fr_cache f r e).
Definition set_mask (a : nat) (m : list bool) : M unit :=
  do! f := get_fr a in put_fr a (fr_mask f m).

(** Table access with Go's bound checks. *)
Definition table_get (t : list (list (option nat))) (p i : nat) : option (option nat) :=
  match t !! p with Some row => row !! i | None => None end.
Definition table_set (t : list (list (option nat))) (p i : nat) (x : option nat)
  : list (list (option nat)) :=
  match t !! p with Some row => <[p := <[i := x]> row]> t | None => t end.

(** parsectx.go:94-105, [getFrame]. *)
Definition get_frame (id : nat) : M nat := fun s =>
  let pos := st_pos s in
  match table_get (s_frames s) pos id with
  | None => Panic PIndex s
  | Some (Some a) => Ok a s
  | Some None =>
      let a := length (s_fheap s) in
      Ok a (set_frames (set_fheap s (s_fheap s ++ [new_frame pos id]))
              (table_set (s_frames s) pos id (Some a)))
  end.

(** parsectx.go:88-91, [stackPush]. *)
Definition stack_push (id : nat) : M unit :=
  do! a := get_frame id in
  fun s => if stack_limit <=? length (s_stack s) then Panic PIndex s
           else Ok tt (set_stack s (a :: s_stack s)).
(** parsectx.go:92, [stackPop]. *)
Definition stack_pop : M unit := fun s => Ok tt (set_stack s (tail (s_stack s))).
(** parsectx.go:87, [stackPeek(0)]. *)
Definition stack_peek : M frame := fun s =>
  match s_stack s with
  | [] => Panic PIndex s
  | a :: _ => get_fr a s
  end.

(** parsectx.go:107-135, [wipeWith].  Returns the stash (empty list when
    [makeStash] is false, as Go's nil).  The mask and the row both have
    numRules entries; unequal lengths are treated as an index panic. *)
Definition wipe_with (a : nat) (make_stash : bool) : M (list (option nat)) :=
  do! f := get_fr a in
  match f_mask f with
  | None => panic_ (PMsg "need frame.wipemask to know what to wipe")
  | Some mask => fun s =>
      match s_frames s !! f_pos f with
      | None => Panic PIndex s
      | Some row =>
          if negb (length mask =? length row) then Panic PIndex s
          else
            let stash := zip_with (fun (b : bool) (o : option nat) => if b then o else None) mask row in
            let row' := zip_with (fun (b : bool) (o : option nat) => if b then None else o) mask row in
            Ok (if make_stash then stash else [])
               (set_frames s (<[f_pos f := row']> (s_frames s)))
      end
  end.

(** parsectx.go:137-143, [restoreWith], from index [i] on. *)
Fixpoint restore_from (i : nat) (stash : list (option nat)) : M unit :=
  match stash with
  | [] => ret tt
  | o :: r =>
      (match o with
       | None => ret tt
       | Some a =>
           do! f := get_fr a in fun s =>
             match table_get (s_frames s) (f_pos f) i with
             | None => Panic PIndex s
             | Some _ => Ok tt (set_frames s (table_set (s_frames s) (f_pos f) i (Some a)))
             end
       end) ;!
      restore_from (S i) r
  end.
Definition restore_with (stash : list (option nat)) : M unit := restore_from 0 stash.

(** parsectx.go:85-86. *)
Definition loop_stack_push : M unit := fun s => Ok tt (set_loopstack s (S (s_loopstack s))).
Definition loop_stack_pop : M unit := fun s =>
  match s_loopstack s with
  | O => Panic PIndex s
  | S n => Ok tt (set_loopstack s n)
  end.

Section Engine.
Variable E : env.

(** parsectx.go:77-83, [log], with parsectx.go:62-75, [String]: of the calls
    made to build the line only those that may panic are kept (Line, Col and
    PeekRunes(-5)). *)
Definition log_ : M unit :=
  if e_skiplog E then ret tt
  else
    do! c := gets s_code in
    do! go := (if (e_filter E =? -1)%Z then ret true
               else do! l := lift (c_line c) in ret (l =? e_filter E)%Z) in
    if (go : bool) then
      do! _ := lift (c_line c) in
      do! _ := lift (c_col c) in
      do! _ := lift (c_peek_runes c (-5)) in
      ret tt
    else ret tt.
Definition log_if (b : bool) : M unit := if b then log_ else ret tt.

(** ** Labels: parser_sequence.go:210-251, [merge] *)

(** The loop of :224-226: copy each key of the newcomer. *)
Fixpoint merge_keys (dst src : nat) (ks : list string) : M unit :=
  match ks with
  | [] => ret tt
  | k :: r =>
      do! o := read_obj src in
      (match o_body o with
       | OMap m =>
           do! v := lift (nm_get_or_panic m k) in
           do! d := read_obj dst in
           match o_body d with
           | OMap md => write_obj dst (Obj (OMap (nm_set md k v)) (o_attr d))
           | _ => panic_ PNil
           end
       | _ => panic_ PNil
       end) ;!
      merge_keys dst src r
  end.

(** The loop of :228-236: only the key "label" may be merged into a Parser.
    [dst = None] stands for a NativeUndefined, which is a Parser too; the label
    given to it is unobservable. *)
Fixpoint merge_label (dst : option nat) (m : nmap) (ks : list string) : M unit :=
  match ks with
  | [] => ret tt
  | k :: r =>
      (if String.eqb k "label" then
         do! v := lift (nm_get_or_panic m k) in
         match v with
         | AStr s =>
             match dst with
             | None => ret tt
             | Some a =>
                 do! d := read_obj a in
                 match o_body d with
                 | OParser t args _ => write_obj a (Obj (OParser t args (b2s s)) (o_attr d))
                 | _ => panic_ PNil
                 end
             end
         | _ => panic_ (PMsg "interface conversion")
         end
       else panic_ (PMsg "unhandled property")) ;!
      merge_label dst m r
  end.

(** The dynamic type of an Ast, as the type switches of [merge] see it. *)
Inductive atype := TyUndef | TyMap (a : nat) (m : nmap) | TyParser (a : nat) | TyOther.
Definition type_of (x : ast) : M atype :=
  match x with
  | AUndef => ret TyUndef
  | AObj a =>
      do! o := read_obj a in
      match o_body o with
      | OMap m => ret (TyMap a m)
      | OParser _ _ _ => ret (TyParser a)
      end
  | _ => ret TyOther
  end.

(** parser_sequence.go:210-251.  Neither argument is nil at the call sites. *)
Definition merge (to_extend newcomer : ast) : M ast :=
  do! tn := type_of newcomer in
  match tn with
  | TyUndef => ret to_extend
  | TyMap src m =>
      do! tt_ := type_of to_extend in
      match tt_ with
      | TyMap dst _ => merge_keys dst src (nm_keys m) ;! ret to_extend
      | TyParser dst => merge_label (Some dst) m (nm_keys m) ;! ret to_extend
      | TyUndef => merge_label None m (nm_keys m) ;! ret to_extend
      | TyOther => panic_ (PMsg "assert")
      end
  | TyParser _ =>
      do! tt_ := type_of to_extend in
      match tt_ with
      | TyParser _ | TyUndef => panic_ (PMsg "Unhandled case in func (Ast) Merge()")
      | _ => panic_ (PMsg "assert")
      end
  | TyOther => panic_ (PMsg "assert")
  end.

(** parser_sequence.go:161-187: combine the result [res] of a child labelled
    [label] with the results so far ([None] is nil). *)
Definition add_labelled (label : string) (results : option ast) (res : ast) : M (option ast) :=
  if String.eqb label "&" then
    if is_undefined results then ret (Some res)
    else match results with
         | Some r => do! x := merge res r in ret (Some x)
         | None => ret (Some res)
         end
  else if String.eqb label "@" then
    if is_undefined results then ret (Some res)
    else match results with
         | Some r => do! x := merge r res in ret (Some x)
         | None => ret (Some res)
         end
  else if String.eqb label "" then ret results
  else
    if is_undefined results then
      do! a := alloc (Obj (OMap (nm_set nm_empty label res)) attr0) in ret (Some (AObj a))
    else match results with
         | Some (AObj a) =>
             do! o := read_obj a in
             match o_body o with
             | OMap m => write_obj a (Obj (OMap (nm_set m label res)) (o_attr o)) ;!
                         ret (Some (AObj a))
             | _ => panic_ (PMsg "assert")
             end
         | _ => panic_ (PMsg "assert")
         end.

(** ** Parse methods.  [rec] parses a child. *)
Section Body.
Variable rec : node -> M (option ast).

(** parser_sequence.go:119-135, the loop; [acc] is the variable [result]. *)
Fixpoint seq_single (l : list node) (acc : option ast) : M (option ast) :=
  match l with
  | [] => ret (Some (match acc with None => AUndef | Some a => a end))
  | c :: l' =>
      do! r := rec c in
      match r with
      | None => ret None
      | Some a => seq_single l' (if i_capture (n_info c) then Some a else acc)
      end
  end.

(** parser_sequence.go:137-149; [acc] is [results], in reverse. *)
Fixpoint seq_array (l : list node) (acc : list ast) : M (option ast) :=
  match l with
  | [] => ret (Some (AArr (rev acc)))
  | c :: l' =>
      do! r := rec c in
      match r with
      | None => ret None
      | Some a => seq_array l' (if i_capture (n_info c) then a :: acc else acc)
      end
  end.

(** parser_sequence.go:152-194. *)
Fixpoint seq_object (l : list node) (acc : option ast) : M (option ast) :=
  match l with
  | [] => ret (Some (match acc with None => AUndef | Some a => a end))
  | c :: l' =>
      do! r := rec c in
      match r with
      | None => ret None
      | Some a =>
          do! acc' := add_labelled (i_label (n_info c)) acc a in
          seq_object l' acc'
      end
  end.

(** parser_choice.go:52-65 and parser_rank.go:87-103. *)
Fixpoint choice_loop (l : list node) : M (option ast) :=
  match l with
  | [] => ret None
  | c :: l' =>
      do! pos := get_pos in
      do! r := rec c in
      match r with
      | None => set_pos pos ;! choice_loop l'
      | Some a => ret (Some a)
      end
  end.

(** parser_pattern.go:99-119, the loop; [acc] is [matches], in reverse. *)
Fixpoint pat_loop (lf : nat) (v : node) (j : option node) (mx : Z) (acc : list ast) : M (list ast) :=
  match lf with
  | O => out_of_fuel
  | S lf' =>
      do! pos2 := get_pos in
      do! jr := (match j with
                 | None => ret true
                 | Some jn => do! r := rec jn in
                              ret (match r with None => false | Some _ => true end)
                 end) in
      if (jr : bool) then
        do! r := rec v in
        match r with
        | None => set_pos pos2 ;! ret acc
        | Some a =>
            let acc' := a :: acc in
            if ((-1 <? mx) && (mx <=? Z.of_nat (length acc')))%Z%bool then ret acc'
            else pat_loop lf' v j mx acc'
        end
      else set_pos pos2 ;! ret acc
  end.

(** The unwrapped parse function ([fparse2]) of each parser. *)
Definition body (lf : nat) (n : node) : M (option ast) :=
  match n_kind n with
  | KStr s =>                                              (* parser_str.go:34-42 *)
      fun st0 =>
        match c_match_string (s_code st0) s with
        | ROk (r, c) => Ok (AStr <$> r) (set_code st0 c)
        | RPanic p => Panic p st0
        | RFuel => OutOfFuel
        end
  | KRegex re =>                                           (* parser_regex.go:35-43 *)
      fun st0 =>
        match c_match_regexp (s_code st0) (e_rx E re) with
        | ROk (r, c) => Ok (AStr <$> r) (set_code st0 c)
        | RPanic p => Panic p st0
        | RFuel => OutOfFuel
        end
  | KRef name =>                                           (* parser_ref.go:67-77 *)
      match e_rule E name with
      | None => panic_ (PMsg "Grammar has a reference to a type which is NOT defined")
      | Some target => do! _ := stack_peek in rec target
      end
  | KSeq TArray l => seq_array l []                        (* parser_sequence.go:98-116 *)
  | KSeq TSingle l => seq_single l None
  | KSeq TObject [] => ret (Some AUndef)
  | KSeq TObject l => seq_object l None
  | KChoice l => choice_loop l
  | KPat v j mn mx =>                                      (* parser_pattern.go:87-126 *)
      do! pos := get_pos in
      do! r := rec v in
      match r with
      | None =>
          set_pos pos ;!
          (if (0 <? mn)%Z then ret None else ret (Some (AArr [])))
      | Some a =>
          do! matches := pat_loop lf v j mx [a] in
          if ((-1 <? mn) && (Z.of_nat (length matches) <? mn))%Z%bool
          then set_pos pos ;! ret None
          else ret (Some (AArr (rev matches)))
      end
  | KExist it =>                                           (* parser_existential.go:52-63 *)
      do! pos := get_pos in
      do! r := rec it in
      match r with
      | None => set_pos pos ;! ret (Some AUndef)
      | Some a => ret (Some a)
      end
  | KLook it =>                                            (* parser_lookahead.go:34-41 *)
      do! pos := get_pos in
      do! r := rec it in
      set_pos pos ;! ret r
  | KNot it =>                                             (* parser_not.go:29-40 *)
      do! pos := get_pos in
      do! r := rec it in
      set_pos pos ;!
      ret (match r with Some _ => None | None => Some AUndef end)
  | KUndef => ret (Some AUndef)                            (* native_undefined.go:21 *)
  end.
End Body.

(** SetOrigin on the result: only heap objects keep it (native strings, ints
    and arrays have an empty SetOrigin; user values and NativeUndefined are not
    tracked). *)
Definition set_origin (x : ast) (o : origin) : M unit :=
  match x with
  | AObj a =>
      do! ob := read_obj a in
      write_obj a (Obj (o_body ob) (attr_set_origin (o_attr ob) o))
  | _ => ret tt
  end.

(** packrat.go:266-269: label of a standalone node. *)
Definition wrap_label (i : info) (x : ast) : M ast :=
  if (negb (String.eqb (i_label i) "") && i_wraps i)%bool
  then do! a := alloc (Obj (OMap (nm_single (i_label i) x)) attr0) in ret (AObj a)
  else ret x.

(** packrat.go:270-275: the callback. *)
Definition call_cb (i : info) (x : ast) : M (option ast) :=
  match i_cb i with
  | None => ret (Some x)
  | Some c =>
      do! p := get_pos in
      emit (EvCb c p) ;!
      fun s =>
        match e_cb E c p (s_heap s) x with
        | CbRet h r => Ok r (set_heap s h)
        | CbPanic t => Panic (PUser t) s
        end
  end.

(** packrat.go:260-290, [prepareResult]. *)
Definition prepare_result (fparse2 : M (option ast)) (n : node) : M (option ast) :=
  (fun s => Ok tt (set_counter s (S (s_counter s)))) ;!
  do! r := fparse2 in
  match r with
  | None => ret None
  | Some x =>
      do! x1 := wrap_label (n_info n) x in
      do! r2 := call_cb (n_info n) x1 in
      match r2 with
      | None => ret None
      | Some y =>
          do! fr := stack_peek in
          do! p := get_pos in
          do! c := gets s_code in
          do! line := lift (c_line c) in
          set_origin y (Origin (c_code c) (f_pos fr) p line (i_name (n_info n))) ;!
          ret (Some y)
      end
  end.

(** packrat.go:183-199, the growing loop; returns bestResult, bestEndPos,
    bestStash.  Called with [result != nil]. *)
Fixpoint grow (lf : nat) (fparse : M (option ast)) (show : bool) (id a sp : nat) (result : ast)
  : M (ast * nat * list (option nat)) :=
  match lf with
  | O => out_of_fuel
  | S lf' =>
      do! f := get_fr a in
      match f_mask f with
      | None => panic_ (PMsg "where's my wipemask")
      | Some _ =>
          do! stash := wipe_with a true in
          do! bp := get_pos in
          cache_set a (Some result) (Some bp) ;!
          log_if show ;!
          set_pos sp ;!
          emit (EvBody id sp) ;!
          do! r := fparse in
          do! p := get_pos in
          if p <=? bp then ret (result, bp, stash)
          else match r with
               | None => ret (result, bp, stash)
               | Some r' => grow lf' fparse show id a sp r'
               end
      end
  end.

(** packrat.go:233-242: mark the rules on the stack between the two
    activations.  [stk] is the stack below the current activation, top first. *)
Fixpoint mark (stk : list nat) (sp id : nat) (mask : list bool) : M (list bool) :=
  match stk with
  | [] => ret mask
  | a :: r =>
      do! f := get_fr a in
      if sp <? f_pos f then panic_ (PMsg "assert failed: i_frame.pos > startPos")
      else if ((f_pos f <? sp) || (f_id f =? id))%bool then ret mask
      else if length mask <=? f_id f then panic_ PIndex
      else mark r sp id (<[f_id f := true]> mask)
  end.

(** packrat.go:83-253, [loopify]. *)
Definition loopify (lf : nat) (fparse : M (option ast)) (n : node) : M (option ast) :=
  let i := n_info n in
  let show := (e_stack E || i_debug i)%bool in
  log_if show ;!
  if i_skip i then
    do! sp := get_pos in
    emit (EvSkip (i_id i) sp) ;!
    do! r := fparse in
    (if show then match r with None => panic_ PNil | Some _ => log_ end else ret tt) ;!
    ret r
  else
    do! a := get_frame (i_id i) in
    do! sp := get_pos in
    do! f0 := get_fr a in
    (if (f_stage f0 <? 0)%Z then set_stage a 0 else ret tt) ;!
    do! f := get_fr a in
    if (f_stage f =? 0)%Z then
      match f_end f with
      | Some e =>
          log_if show ;!
          set_pos e ;!
          ret (f_res f)
      | None =>
          set_stage a 1 ;!
          cache_set a None None ;!
          emit (EvBody (i_id i) sp) ;!
          do! r := fparse in
          do! f' := get_fr a in
          if (f_stage f' =? 1)%Z then
            set_stage a 0 ;!
            do! p := get_pos in
            cache_set a r (Some p) ;!
            log_if show ;!
            ret r
          else if (f_stage f' =? 2)%Z then
            match r with
            | None => log_if show ;! set_stage a 0 ;! ret None
            | Some x =>
                set_stage a 3 ;!
                (if e_loop E then
                   do! c := gets s_code in
                   do! push := (if (e_filter E <? 0)%Z then ret true
                                else do! l := lift (c_line c) in ret (l =? e_filter E)%Z) in
                   if (push : bool) then loop_stack_push else ret tt
                 else ret tt) ;!
                do! best := grow lf fparse show (i_id i) a sp x in
                let '(bres, bpos, bstash) := best in
                (if e_loop E then loop_stack_pop else ret tt) ;!
                do! _ := wipe_with a false in
                restore_with bstash ;!
                set_pos bpos ;!
                log_if show ;!
                set_stage a 0 ;!
                ret (Some bres)
            end
          else panic_ (PMsg "Unexpected stage")
      end
    else if ((f_stage f =? 1) || (f_stage f =? 2) || (f_stage f =? 3))%Z%bool then
      (if (f_stage f =? 1)%Z then set_stage a 2 else ret tt) ;!
      emit (EvRec (i_id i) sp) ;!
      log_if show ;!
      do! f1 := get_fr a in
      let mask0 := match f_mask f1 with Some m => m | None => replicate (e_nrules E) false end in
      do! stk := gets s_stack in
      do! mask := mark (tail stk) sp (i_id i) mask0 in
      set_mask a mask ;!
      do! f2 := get_fr a in
      (match f_end f2 with Some e => set_pos e | None => ret tt end) ;!
      ret (f_res f2)
    else panic_ (PMsg "Unexpected stage (B)").

(** packrat.go:74-81, [stack]. *)
Definition stack_ (fparse : M (option ast)) (n : node) : M (option ast) :=
  stack_push (i_id (n_info n)) ;!
  do! r := fparse in
  stack_pop ;!
  ret r.

(** packrat.go:292-309, [wrap]. *)
Definition wrap (rec : node -> M (option ast)) (lf : nat) (n : node) : M (option ast) :=
  let i := n_info n in
  if i_isrule i then stack_ (loopify lf (prepare_result (body rec lf n) n) n) n
  else if ((negb (String.eqb (i_label i) "") && i_wraps i)
           || match i_cb i with Some _ => true | None => false end)%bool
  then prepare_result (body rec lf n) n
  else body rec lf n.

(** [Parser.parse].  NativeUndefined.parse is not wrapped
    (native_undefined.go:21). *)
Fixpoint parse (fuel : nat) (n : node) : M (option ast) :=
  match fuel with
  | O => out_of_fuel
  | S fuel' =>
      match n_kind n with
      | KUndef => ret (Some AUndef)
      | _ => wrap (parse fuel') fuel' n
      end
  end.

End Engine.

(** ** Grammar *)

(** parsectx.go:32-49, [newParseContext]. *)
Definition init_st (c : code) (nrules : nat) : st :=
  St c (replicate (c_work_length c + 1) (replicate nrules None)) [] [] [] 0 0 [].

(** grammar.go:124-137: scan the frame table from the cursor on. *)
Definition frame_at (fh : list frame) (o : option nat) : option frame :=
  match o with None => None | Some a => fh !! a end.
Fixpoint scan_row (fh : list frame) (row : list (option nat)) (pos : nat) (att succ : nat) : nat * nat :=
  match row with
  | [] => (att, succ)
  | o :: r =>
      match frame_at fh o with
      | None => scan_row fh r pos att succ
      | Some f =>
          match f_res f with
          | Some _ => (pos, pos)
          | None => scan_row fh r pos pos succ
          end
      end
  end.
Fixpoint scan_rows (fh : list frame) (rows : list (list (option nat))) (pos : nat) (att succ : nat) : nat * nat :=
  match rows with
  | [] => (att, succ)
  | row :: r =>
      let '(att', succ') := scan_row fh row pos att succ in
      scan_rows fh r (S pos) att' succ'
  end.

Record gram := Gram {
  g_rank : node;
  g_nrules : nat;
  g_rule : string -> option node;
  g_tstack : bool;      (* TraceOptions.Stack *)
  g_tloop : bool;
  g_tfilter : Z }.

Record popts := POpts { po_debug : bool; po_skiplog : bool; po_skipcache : bool }.

Definition mk_env (g : gram) (o : popts) rx cb : env :=
  Env (g_nrules g) (g_rule g) rx cb
      (g_tstack g || po_debug o)%bool (g_tloop g) (g_tfilter g) (po_skiplog o).

(** grammar.go:122-153, after the parse.  The message is reduced to the
    reported char; every call that could panic is kept. *)
Definition finish (r : option ast) : M (option ast) :=
  do! s0 := get in
  let c := s_code s0 in
  if c_pos c =? c_work_length c then ret r
  else
    let p := c_pos c in
    let '(att, succ) := scan_rows (s_fheap s0) (drop p (s_frames s0)) p p p in
    do! _ := lift (c_pos_to_line c (Z.of_nat succ)) in
    do! _ := lift (c_pos_to_col c (Z.of_nat succ)) in
    do! _ := lift (c_peek_lines c [(-2)%Z]) in
    do! _ := lift (c_peek_runes c (Z.of_nat succ - Z.of_nat p)) in
    set_pos succ ;!
    do! c1 := gets s_code in
    do! _ := lift (c_peek_runes c1 (Z.of_nat att - Z.of_nat (c_pos c1))) in
    set_pos att ;!
    do! c2 := gets s_code in
    do! _ := lift (c_peek_lines c2 [2%Z]) in
    ret (Some (AErr succ)).

(** grammar.go:79-89 and :94-104 with :108-154.  Result: the outcome, and the
    value of [gm.TraceOptions.Stack] afterwards (set at :113 and restored at
    :120, the latter skipped by a panic). *)
Definition gram_parse (fuel : nat) (g : gram) (o : popts) rx cb (c : code)
  : outcome (option ast) * bool :=
  let E := mk_env g o rx cb in
  match parse E fuel (g_rank g) (init_st c (g_nrules g)) with
  | Ok r s => (finish r s, g_tstack g)
  | Panic p s => (Panic p s, (g_tstack g || po_debug o)%bool)
  | OutOfFuel => (OutOfFuel, g_tstack g)
  end.

(** grammar.go:79-89, [ParseString]. *)
Definition parse_string (fuel : nat) (g : gram) (o : popts) rx cb (text : bytes) :=
  gram_parse fuel g o rx cb (CRune (new_rune_stream text)).
(** grammar.go:94-104, [ParseTokens]. *)
Definition parse_tokens (fuel : nat) (g : gram) (o : popts) rx cb (t : tstream) :=
  gram_parse fuel g o rx cb (CTok t).
