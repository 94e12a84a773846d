(** What each kind of parser does, in terms of what its children do.  [rec]
    stands for the children: it may be any function. *)
From Verif Require Import Base Helpers Stream Native Engine.

Section Comb.
Variable rec : node -> M (option ast).

(** The cursor is put at [p]. *)
Definition moved (p : nat) (s s' : st) : Prop := set_pos p s = Ok tt s'.

(** ** Sequences *)
(** All of [l] succeed, each starting where the one before ended. *)
Inductive runs : list node -> st -> list ast -> st -> Prop :=
| runs_nil s : runs [] s [] s
| runs_cons n l s x s1 xs s2 : rec n s = Ok (Some x) s1 -> runs l s1 xs s2 -> runs (n :: l) s (x :: xs) s2.
(** The first part of [l] succeeds and the next one fails. *)
Definition breaks (l : list node) (s s' : st) : Prop :=
  exists l1 n l2 xs s1, l = l1 ++ n :: l2 /\ runs l1 s xs s1 /\ rec n s1 = Ok None s'.

(** The values of the parts that are captured. *)
Definition captured (l : list node) (xs : list ast) : list ast :=
  map snd (List.filter (fun nx => i_capture (n_info (fst nx))) (zip l xs)).
(** The value of a sequence without labels. *)
Definition seq_shape (ty : seqtype) (l : list node) (xs : list ast) : ast :=
  match ty with
  | TArray => AArr (captured l xs)
  | _ => match last (captured l xs) with Some x => x | None => AUndef end
  end.

(** ** Choices *)
(** All of [l] fail, one after the other, each from position [p]. *)
Inductive all_fail (p : nat) : list node -> st -> st -> Prop :=
| af_nil s : all_fail p [] s s
| af_cons n l s s1 s2 s3 : rec n s = Ok None s1 -> moved p s1 s2 -> all_fail p l s2 s3 -> all_fail p (n :: l) s s3.

(** ** Repetitions *)
(** One more value, after a join if there is one. *)
Inductive one_more (v : node) : option node -> st -> ast -> st -> Prop :=
| om_value s x s' : rec v s = Ok (Some x) s' -> one_more v None s x s'
| om_join j s b s1 x s' : rec j s = Ok (Some b) s1 -> rec v s1 = Ok (Some x) s' -> one_more v (Some j) s x s'.
(** No more value: the join or the value fails; the cursor goes back to before
    the join. *)
Inductive no_more (v : node) : option node -> st -> st -> Prop :=
| nm_value s s1 s' : rec v s = Ok None s1 -> moved (st_pos s) s1 s' -> no_more v None s s'
| nm_join j s s1 s' : rec j s = Ok None s1 -> moved (st_pos s) s1 s' -> no_more v (Some j) s s'
| nm_after j s b s1 s2 s' : rec j s = Ok (Some b) s1 -> rec v s1 = Ok None s2 -> moved (st_pos s) s2 s' -> no_more v (Some j) s s'.
Inductive many (v : node) (j : option node) : st -> list ast -> st -> Prop :=
| many_nil s : many v j s [] s
| many_cons s x s1 xs s2 : one_more v j s x s1 -> many v j s1 xs s2 -> many v j s (x :: xs) s2.
(** A maximal run after the first value: it ends because nothing more parses,
    or because with the value just parsed (never the first of all) [mx] values
    are there. *)
Definition maximal (v : node) (j : option node) (mx : Z) (s : st) (xs : list ast) (s' : st) : Prop :=
  (exists s1, many v j s xs s1 /\ no_more v j s1 s') \/
  (many v j s xs s' /\ xs <> [] /\ (-1 < mx)%Z /\ (mx <= Z.of_nat (S (length xs)))%Z).
End Comb.

(** ** The growing loop *)
(** [grow], listing where the results it kept end (the first of them is the one
    it was given). *)
Fixpoint grow_ends (E : env) (lf : nat) (fparse : M (option ast)) (show : bool) (id a sp : nat) (result : ast)
  : M (ast * nat * list (option nat) * list nat) :=
  match lf with
  | O => out_of_fuel
  | S lf' =>
      do! f := get_fr a in
      match f_mask f with
      | None => panic_ (PMsg "where's my wipemask")
      | Some _ =>
          do! stash := wipe_with a true in
          do! bp := get_pos in
          cache_set a (Some result) (Some bp) ;!
          log_if E show ;!
          set_pos sp ;!
          emit (EvBody id sp) ;!
          do! r := fparse in
          do! p := get_pos in
          if p <=? bp then ret (result, bp, stash, [bp])
          else match r with
               | None => ret (result, bp, stash, [bp])
               | Some r' =>
                   do! b := grow_ends E lf' fparse show id a sp r' in
                   let '(res, e, st, l) := b in ret (res, e, st, bp :: l)
               end
      end
  end.
