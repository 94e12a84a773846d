(** Model of what helpers.go and attr.go still hold: LastNRunesReversed,
    Indent, and the position and attribute methods of Ast.  No proofs here. *)
From Verif Require Import Base Helpers Utf8 Native.
Local Open Scope list_scope.

(** ** helpers/helpers.go *)

(** helpers/helpers.go:162-172, the loop of [LastNRunesReversed].  Its counter
    goes from [len(abc)-sizeinit] down to [len(abc)-sizeinit-nTake+1] and is
    used for nothing else: it makes [nTake] rounds ([n]).  WriteRune writes the
    rune as UTF-8. *)
Fixpoint reversed_loop (n : nat) (slice : bytes) : res bytes :=
  match n with
  | O => ROk []
  | S n' =>
      let '(r, size) := decode_last_rune slice in
      if (r =? rune_error)%N then ROk []
      else if length slice <? size then RPanic PIndex
      else let* more := reversed_loop n' (take (length slice - size) slice) in
           ROk (encode_rune r ++ more)
  end.
(** helpers/helpers.go:158-174, [LastNRunesReversed]. *)
Definition last_n_runes_reversed (abc : bytes) (nTake : Z) : res bytes :=
  if (nTake <? 0)%Z then ROk [] else reversed_loop (Z.to_nat nTake) abc.

(** Go strings.Join. *)
Fixpoint str_join (sep : bytes) (l : list bytes) : bytes :=
  match l with
  | [] => []
  | [x] => x
  | x :: l' => x ++ sep ++ str_join sep l'
  end.
(** helpers/helpers.go:51-53, [Indent]: [make] refuses a negative length. *)
Definition indent (c : Z) : res bytes :=
  if (c + 1 <? 0)%Z then RPanic (PMsg "makeslice: len out of range")
  else ROk (str_join [32; 32]%N (replicate (Z.to_nat (c + 1)) [])).

(** ** attr.go and native_*.go *)

(** The values that implement the position methods of Ast: those that embed an
    Attr (NativeMap, NativeUndefined, ParseError, the parsers, and user types
    that follow attr.go:3-8), and the natives that do not (native_string.go:14-20,
    native_int.go:57-63, native_array.go:80-86). *)
Inductive holder := HAttr (a : attr) | HNative.

(** ast.go:28-37: what can be called. *)
Inductive aop :=
| OpSetLine (n : Z) | OpGetLine
| OpSetOrigin (o : origin) | OpGetOrigin
| OpHas (k : string) | OpGet (k : string) | OpSet (k v : string).
(** What is answered; [AnsFalse] and [AnsNil] are the interface values. *)
Inductive aans :=
| AnsUnit | AnsLine (n : Z) | AnsOrigin (o : origin)
| AnsHas (b : bool) | AnsFalse | AnsNil | AnsPanic (m : string).

(** The zero Origin. *)
Definition origin0 : origin := Origin [] 0 0 0 "".

Definition hold_step (h : holder) (o : aop) : holder * aans :=
  match h, o with
  (* attr.go:25-29 *)
  | HAttr a, OpSetLine n => (HAttr (Attr (at_code a) 0 0 n), AnsUnit)
  (* attr.go:31-33 *)
  | HAttr a, OpGetLine => (h, AnsLine (at_line a))
  (* attr.go:35-40 *)
  | HAttr a, OpSetOrigin x => (HAttr (attr_set_origin a x), AnsUnit)
  (* attr.go:42-49 *)
  | HAttr a, OpGetOrigin => (h, AnsOrigin (attr_get_origin a))
  (* attr.go:51-61 *)
  | HAttr a, OpHas _ => (h, AnsHas false)
  | HAttr a, OpGet _ => (h, AnsFalse)
  | HAttr a, OpSet _ _ => (h, AnsPanic "unimplemented")
  (* native_string.go:14-20 *)
  | HNative, OpSetLine _ => (h, AnsUnit)
  | HNative, OpGetLine => (h, AnsLine 1)
  | HNative, OpSetOrigin _ => (h, AnsUnit)
  | HNative, OpGetOrigin => (h, AnsOrigin origin0)
  | HNative, OpHas _ => (h, AnsHas false)
  | HNative, OpGet _ => (h, AnsNil)
  | HNative, OpSet _ _ => (h, AnsPanic "N/A")
  end.
(** A history of calls; a panic is recovered and the value goes on. *)
Fixpoint hold_run (h : holder) (l : list aop) : holder :=
  match l with [] => h | o :: l' => hold_run (fst (hold_step h o)) l' end.
Definition hold_ans (h : holder) (l : list aop) (o : aop) : aans := snd (hold_step (hold_run h l) o).
(** attr.go:16-18. *)
Definition new_holder : holder := HAttr attr0.
