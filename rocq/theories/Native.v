(** Model of the native Ast types: native_map.go, native_array.go,
    native_int.go, native_string.go, native_undefined.go, attr.go,
    parseerror.go.  No proofs here.

    A NativeMap is a mutable Go object reached through a pointer, and the same
    pointer can sit in a cached result and in a larger result; hence an address
    into a heap.  So is a Parser when it is used as an Ast (the joeson grammar
    produces Parsers), because [merge] can change its label.  NativeArray is a
    pointer too but the library never mutates one after building it. *)
From Verif Require Import Base.
From Coq Require Import DecimalString.

Inductive ast :=
| AStr (s : bytes)                      (* NativeString *)
| AInt (z : Z)                          (* NativeInt *)
| AUndef                                (* NativeUndefined *)
| AArr (l : list ast)                   (* *NativeArray *)
| AObj (addr : nat)                     (* *NativeMap, or a Parser *)
| AErr (tag : nat)                      (* ParseError *)
| AUser (tag : nat) (l : list ast).     (* any other user type, immutable *)

(** native_map.go:16-20.  [nm_vals] stands for the Go map: the first binding
    of a key counts. *)
Record nmap := NMap { nm_keys : list string; nm_vals : list (string * ast) }.

Fixpoint vals_get (vals : list (string * ast)) (k : string) : option ast :=
  match vals with
  | [] => None
  | (k', v) :: r => if String.eqb k k' then Some v else vals_get r k
  end.

(** attr.go:9-14.  Zero value of Attr: everything 0 / "". *)
Record attr := Attr { at_code : bytes; at_start : nat; at_end : nat; at_line : Z }.
Definition attr0 : attr := Attr [] 0 0 0.

(** The Origin struct passed by packrat.go:280-286. *)
Record origin := Origin {
  or_code : bytes; or_start : nat; or_end : nat; or_line : Z; or_rule : string }.

(** attr.go:35-40, [SetOrigin]. *)
Definition attr_set_origin (a : attr) (o : origin) : attr :=
  Attr (or_code o) (or_start o) (or_end o) (or_line o).
(** attr.go:42-49, [GetOrigin]: RuleName is left at its zero value. *)
Definition attr_get_origin (a : attr) : origin :=
  Origin (at_code a) (at_start a) (at_end a) (at_line a) "".

Inductive objbody :=
| OMap (m : nmap)
| OParser (tag : string) (args : list ast) (label : string).
Record obj := Obj { o_body : objbody; o_attr : attr }.
Notation heap := (list obj).

(** native_map.go:22-31, [NewNativeMap] of a Go map with at most one key (the
    only use in the engine); see [nm_from_list] for the general case. *)
Definition nm_empty : nmap := NMap [] [].
Definition nm_single (k : string) (v : ast) : nmap := NMap [k] [(k, v)].

(** helpers/mapsorter.go:16-23, [SortStringKeys]: Go [sort.Strings] orders by
    bytes.  The Go map is given as a list without duplicate keys. *)
Fixpoint string_leb (a b : string) : bool :=
  match a, b with
  | EmptyString, _ => true
  | String _ _, EmptyString => false
  | String x a', String y b' =>
      if (N_of_ascii x <? N_of_ascii y)%N then true
      else if (N_of_ascii y <? N_of_ascii x)%N then false
      else string_leb a' b'
  end.
Fixpoint insert_sorted (k : string) (l : list string) : list string :=
  match l with
  | [] => [k]
  | x :: r => if string_leb k x then k :: l else x :: insert_sorted k r
  end.
Definition sort_strings (l : list string) : list string := foldr insert_sorted [] l.
(** native_map.go:23-31, general case. *)
Definition nm_from_list (h : list (string * ast)) : nmap := NMap (sort_strings h.*1) h.

(** native_map.go:84-87, :167-169, :182-185. *)
Definition nm_get (m : nmap) (k : string) : option ast := vals_get (nm_vals m) k.
Definition nm_exists (m : nmap) (k : string) : bool :=
  match nm_get m k with Some _ => true | None => false end.

(** native_map.go:171-180, [Set]. *)
Definition nm_set (m : nmap) (k : string) (v : ast) : nmap :=
  NMap (if existsb (String.eqb k) (nm_keys m) then nm_keys m else nm_keys m ++ [k])
       ((k, v) :: nm_vals m).

(** native_map.go:77-82, [IsEmpty]: [for range nm.vals { return true }; return false]. *)
Definition nm_is_empty (m : nmap) : bool :=
  match nm_vals m with
  | [] => false
  | _ :: _ => true
  end.

(** native_map.go:138-147, [IsUndefined]. *)
Definition nm_is_undefined (m : nmap) (k : string) : bool :=
  match nm_get m k with
  | Some AUndef => true
  | Some _ => false
  | None => true
  end.

(** native_map.go:149-155. *)
Definition nm_get_or_panic (m : nmap) (k : string) : res ast :=
  match nm_get m k with Some v => ROk v | None => RPanic (PMsg "no key") end.

(** native_map.go:158-165. *)
Fixpoint nm_get_whichever (m : nmap) (ks : list string) : res ast :=
  match ks with
  | [] => RPanic (PMsg "No key found")
  | k :: r => match nm_get m k with Some v => ROk v | None => nm_get_whichever m r end
  end.

(** native_undefined.go:27-33; [None] is Go nil. *)
Definition is_undefined (a : option ast) : bool :=
  match a with None => true | Some AUndef => true | Some _ => false end.

(** parseerror.go:26-33. *)
Definition is_parse_error (a : option ast) : bool :=
  match a with Some (AErr _) => true | _ => false end.

(** ** Decimal text (strconv.Itoa and strconv.Atoi) *)

(** strconv.Itoa, through the standard library's decimal notation. *)
Definition itoa (z : Z) : bytes :=
  s2b (NilZero.string_of_int (Z.to_int z)).

Definition digit_val (b : N) : option Z :=
  if ((48 <=? b) && (b <=? 57))%N%bool then Some (Z.of_N b - 48)%Z else None.
Fixpoint atoi_digits (s : bytes) (acc : Z) : option Z :=
  match s with
  | [] => Some acc
  | b :: r => match digit_val b with
              | Some d => atoi_digits r (acc * 10 + d)%Z
              | None => None
              end
  end.
(** strconv.Atoi on a 64-bit platform: optional sign, at least one digit, the
    value must fit int64. *)
Definition int64_ok (z : Z) : bool := ((- 2 ^ 63 <=? z) && (z <? 2 ^ 63))%Z%bool.
Definition atoi (s : bytes) : option Z :=
  let '(neg, ds) := match s with
                    | 45%N :: r => (true, r)
                    | 43%N :: r => (false, r)
                    | _ => (false, s)
                    end in
  match ds with
  | [] => None
  | _ => match atoi_digits ds 0 with
         | Some n => let z := if neg then (- n)%Z else n in
                     if int64_ok z then Some z else None
         | None => None
         end
  end.

(** ** String and Concat *)

Fixpoint mapr {A B} (f : A -> res B) (l : list A) : res (list B) :=
  match l with
  | [] => ROk []
  | x :: l' => let* y := f x in let* ys := mapr f l' in ROk (y :: ys)
  end.

Fixpoint join_with (sep : bytes) (l : list bytes) : bytes :=
  match l with
  | [] => []
  | [x] => x
  | x :: l' => x ++ sep ++ join_with sep l'
  end.

Section Strings.
(** String() of the types that are not Native (user types, ParseError,
    Parsers): an oracle. *)
Variable ostr : ast -> bytes.

(** [x.String()]: native_string.go:11, native_int.go:55, native_undefined.go:19,
    native_array.go:39-52, native_map.go:58-70.  Maps are followed through the
    heap, so fuel bounds the depth. *)
Fixpoint ast_string (fuel : nat) (h : heap) (x : ast) : res bytes :=
  match fuel with
  | O => RFuel
  | S fuel' =>
      match x with
      | AStr s => ROk s
      | AInt z => ROk (itoa z)
      | AUndef => ROk (s2b "<NativeUndefined>")
      | AArr l =>
          let* xs := mapr (ast_string fuel' h) l in
          ROk (s2b "[" ++ join_with (s2b ",") xs ++ s2b "]")
      | AObj a =>
          match h !! a with
          | Some (Obj (OMap m) _) =>
              let* xs := mapr (fun k => let* v := nm_get_or_panic m k in
                                        let* t := ast_string fuel' h v in
                                        ROk (s2b k ++ s2b ":" ++ t)) (nm_keys m) in
              ROk (s2b "NativeMap{" ++ join_with (s2b ", ") xs ++ s2b "}")
          | _ => ROk (ostr x)
          end
      | AErr _ | AUser _ _ => ROk (ostr x)
      end
  end.

(** native_array.go:64-78. *)
Fixpoint concat_arr (fuel : nat) (h : heap) (l : list ast) : res bytes :=
  match fuel with
  | O => RFuel
  | S fuel' =>
      let* xs := mapr (fun e => match e with
                                | AStr s => ROk s
                                | AArr l' => concat_arr fuel' h l'
                                | AUndef => ROk []
                                | _ => ast_string fuel' h e
                                end) l in
      ROk (mjoin xs)
  end.

(** native_map.go:35-55. *)
Fixpoint nm_concat (fuel : nat) (h : heap) (m : nmap) : res bytes :=
  match fuel with
  | O => RFuel
  | S fuel' =>
      let* xs := mapr (fun k => match nm_get m k with
                                | None => ROk []
                                | Some (AObj a) =>
                                    match h !! a with
                                    | Some (Obj (OMap m') _) => nm_concat fuel' h m'
                                    | _ => RPanic (PMsg "NativeMap.Concat only works with Native* types")
                                    end
                                | Some (AArr l) => concat_arr fuel' h l
                                | Some AUndef => ROk []
                                | Some (AStr s) => ROk s
                                | Some (AInt z) => ROk (itoa z)
                                | Some _ => RPanic (PMsg "NativeMap.Concat only works with Native* types")
                                end) (nm_keys m) in
      ROk (mjoin xs)
  end.

(** native_int.go:34-50, [NativeIntFrom] (and :19-25). *)
Definition native_int_from (fuel : nat) (h : heap) (x : ast) : res ast :=
  match x with
  | AInt z => ROk (AInt z)
  | AStr s => match atoi s with Some z => ROk (AInt z) | None => RPanic (PMsg "Atoi") end
  | AArr l => let* s := concat_arr fuel h l in
              match atoi s with
              | Some z => ROk (AInt z)
              | None => RPanic (PMsg "can not convert string")
              end
  | _ => RPanic (PMsg "Unable to make NativeInt")
  end.
(** native_string.go:28-39, [NativeStringFrom]. *)
Definition native_string_from (fuel : nat) (h : heap) (x : ast) : res ast :=
  match x with
  | AStr s => ROk (AStr s)
  | AInt z => ROk (AStr (itoa z))
  | AArr l => let* s := concat_arr fuel h l in ROk (AStr s)
  | _ => RPanic (PMsg "Unable to make NativeString")
  end.

End Strings.
