(** What a grammar means: parsing expressions without cache, without stack,
    without mutable objects.  This file is a specification; it does not use the
    engine, only the syntax of grammars.

    Values are plain trees.  A rule that refers to itself at the position where
    it started sees the seed: failure at first, then the best result so far;
    the body is evaluated again as long as the match gets strictly longer.

    [rules] resolves names, [rx] is the regular expression oracle, [cbf] the
    callbacks as functions of the end position and the value ([None]: the
    callback panics; [Some None]: it returns nil), [R] lists the rules by id.
    [par X = Some F]: X is an alternative of the rank F that has no name of its
    own elsewhere (the rules E[0], E[1]... of rank E); it is a part of F, which
    only F calls, where F starts. *)
From Verif Require Import Base Native Engine.

Inductive val :=
| VStr (s : bytes)
| VInt (z : Z)
| VUndef
| VArr (l : list val)
| VMap (kv : list (string * val))
| VParser (tag : string) (args : list val) (label : string)
| VErr (tag : nat)
| VUser (tag : nat) (l : list val).

(** Adding a key to an ordered dictionary. *)
Fixpoint kv_set (kv : list (string * val)) (k : string) (v : val) : list (string * val) :=
  match kv with
  | [] => [(k, v)]
  | (k', v') :: r => if String.eqb k k' then (k, v) :: r else (k', v') :: kv_set r k v
  end.

Fixpoint kv_all (kv kv' : list (string * val)) : list (string * val) :=
  match kv' with [] => kv | (k, v) :: r => kv_all (kv_set kv k v) r end.

(** A tag [!t!l] marks a parser made to be given the label [l] later. *)
Fixpoint after_bang (s : string) : option string :=
  match s with
  | EmptyString => None
  | String c r => if Ascii.eqb c "!"%char then Some r else after_bang r
  end.
Definition tag_label (t : string) : option string :=
  match t with
  | String c r => if Ascii.eqb c "!"%char then after_bang r else None
  | EmptyString => None
  end.

(** What a sequence with labels has put together so far: nothing, a map, or a
    value taken over from a part labelled [@] or [&]. *)
Inductive made := MNone | MMap (kv : list (string * val)) | MTook (v : val).
Definition made_val (m : made) : val := match m with MNone => VUndef | MMap kv => VMap kv | MTook v => v end.
(** A part labelled [lb] gives [v].  [None]: the parser panics, or a value that
    others may hold would change (the one exception: a label given to a parser
    that was marked for it). *)
Definition joined (lb : string) (m : made) (v : val) : option made :=
  if String.eqb lb "" then Some m
  else if (String.eqb lb "@" || String.eqb lb "&")%bool then
    match m with
    | MNone => Some (match v with VUndef => MNone | _ => MTook v end)
    | MMap kv =>
        if String.eqb lb "@" then
          match v with VUndef => Some m | VMap kv' => Some (MMap (kv_all kv kv')) | _ => None end
        else None
    | MTook w =>
        if String.eqb lb "@" then match v with VUndef => Some m | _ => None end
        else match w, v with
             | VMap [(k, VStr s)], VParser tg args EmptyString =>
                 if (String.eqb k "label" && match tag_label tg with Some l => String.eqb l (b2s s) | None => false end)%bool
                 then Some (MTook (VParser tg args (b2s s))) else None
             | _, _ => None
             end
    end
  else match m with
       | MNone => Some (MMap [(lb, v)])
       | MMap kv => Some (MMap (kv_set kv lb v))
       | MTook _ => None
       end.

(** A value and the position where it ends; [None] is failure. *)
Notation result := (option (val * nat)).

(** The rule whose left recursion is being resolved: its id, where it began, its
    current seed, and whether we are inside one of its alternatives-as-rules. *)
Record ctx := Ctx { x_id : nat; x_pos : nat; x_seed : result; x_in : bool }.

(** What is to be evaluated. *)
Inductive task :=
| JNode (n : node)                                        (* a parser *)
| JBody (n : node)                                        (* without label and callback *)
| JSingle (l : list node) (acc : option val)              (* rest of a sequence *)
| JArray (l : list node) (acc : list val)
| JObject (l : list node) (m : made)
| JAlt (l : list node)                                    (* remaining alternatives *)
| JLoop (v : node) (j : option node) (mx : Z) (acc : list val)  (* rest of a repetition *)
| JRule (id : nat)                                        (* a rule on its own *)
| JGrow (id : nat) (v : val) (e : nat).                   (* growing the seed *)

Section Peg.
Variable rules : string -> option node.
Variable rx : bytes -> bytes -> option (nat * nat).
Variable cbf : nat -> nat -> val -> option (option val).
Variable R : nat -> node.
Variable par : nat -> option nat.
Variable text : bytes.

(** A literal at the head of [rest]. *)
Definition lit (s : bytes) (p : nat) : result :=
  if bool_decide (take (length s) (drop p text) = s) then Some (VStr s, p + length s) else None.
(** A regular expression match at the head of the rest of the text. *)
Definition rgx (re : bytes) (p : nat) : result :=
  match rx re (drop p text) with
  | Some (O, l) => Some (VStr (take l (drop p text)), p + l)
  | _ => None
  end.

(** Label and callback. *)
Definition labelled (i : info) (v : val) : val :=
  if (negb (String.eqb (i_label i) "") && i_wraps i)%bool then VMap [(i_label i, v)] else v.
Definition prepared (i : info) (r : result) : option result :=
  match r with
  | None => Some None
  | Some (v, e) =>
      match i_cb i with
      | None => Some (Some (labelled i v, e))
      | Some c =>
          match cbf c e (labelled i v) with
          | None => None
          | Some None => Some None
          | Some (Some v') => Some (Some (v', e))
          end
      end
  end.

Definition is_rule (n : node) : Prop := i_isrule (n_info n) = true.
Definition is_skip (n : node) : Prop := i_skip (n_info n) = true.

(** The rule is meant to be resolved as a left recursion. *)
Definition seeded (c : option ctx) (id p : nat) : Prop :=
  match c with Some x => x_id x = id /\ x_pos x = p | None => False end.

(** A new end beyond [e]. *)
Definition longer (r : result) (e : nat) : Prop :=
  match r with Some (_, e') => e < e' | None => False end.

Definition enough (mx : Z) (k : nat) : bool := ((-1 <? mx) && (mx <=? Z.of_nat k))%Z%bool.
Definition too_few (mn : Z) (k : nat) : bool := ((-1 <? mn) && (Z.of_nat k <? mn))%Z%bool.

(** [peg c j p t h r]: evaluating [j] at [p] gives [r]; [t] tells whether the
    seed was consulted, [h] how deep rules are nested. *)
Inductive peg : option ctx -> task -> nat -> bool -> nat -> result -> Prop :=
(* parsers *)
| p_undef c n p : n_kind n = KUndef -> peg c (JNode n) p false 0 (Some (VUndef, p))
| p_plain c n p t h r r' : n_kind n <> KUndef -> i_isrule (n_info n) = false ->
    peg c (JBody n) p t h r -> prepared (n_info n) r = Some r' -> peg c (JNode n) p t h r'
| p_skip c n p t h r r' : n_kind n <> KUndef -> is_rule n -> is_skip n ->
    peg c (JBody n) p t h r -> prepared (n_info n) r = Some r' -> peg c (JNode n) p t (S h) r'
| p_seed x n p : n_kind n <> KUndef -> is_rule n -> i_skip (n_info n) = false ->
    x_id x = i_id (n_info n) -> x_pos x = p -> peg (Some x) (JNode n) p true 1 (x_seed x)
| p_part x n p t h r r' : n_kind n <> KUndef -> is_rule n -> i_skip (n_info n) = false ->
    R (i_id (n_info n)) = n -> x_pos x = p -> x_in x = false -> par (i_id (n_info n)) = Some (x_id x) ->
    x_id x <> i_id (n_info n) ->
    peg (Some (Ctx (x_id x) p (x_seed x) true)) (JBody n) p t h r -> prepared (n_info n) r = Some r' ->
    peg (Some x) (JNode n) p t (S h) r'
| p_rule c n p h r : n_kind n <> KUndef -> is_rule n -> i_skip (n_info n) = false ->
    R (i_id (n_info n)) = n -> ~ seeded c (i_id (n_info n)) p -> par (i_id (n_info n)) = None ->
    peg None (JRule (i_id (n_info n))) p false h r -> peg c (JNode n) p false h r
(* rules *)
| p_once id p h r r' : is_rule (R id) -> i_skip (n_info (R id)) = false -> i_id (n_info (R id)) = id ->
    n_kind (R id) <> KUndef ->
    peg (Some (Ctx id p None false)) (JBody (R id)) p false h r -> prepared (n_info (R id)) r = Some r' ->
    peg None (JRule id) p false (S h) r'
| p_rec_fail id p h r : is_rule (R id) -> i_skip (n_info (R id)) = false -> i_id (n_info (R id)) = id ->
    n_kind (R id) <> KUndef ->
    peg (Some (Ctx id p None false)) (JBody (R id)) p true h r -> prepared (n_info (R id)) r = Some None ->
    peg None (JRule id) p false (S h) None
| p_rec id p h h' r v e r' : is_rule (R id) -> i_skip (n_info (R id)) = false -> i_id (n_info (R id)) = id ->
    n_kind (R id) <> KUndef ->
    peg (Some (Ctx id p None false)) (JBody (R id)) p true h r -> prepared (n_info (R id)) r = Some (Some (v, e)) ->
    peg None (JGrow id v e) p false h' r' -> peg None (JRule id) p false (S (max h h')) r'
| p_grow_stop id v e p t h r r' :
    peg (Some (Ctx id p (Some (v, e)) false)) (JBody (R id)) p t h r -> prepared (n_info (R id)) r = Some r' ->
    ~ longer r' e -> peg None (JGrow id v e) p false h (Some (v, e))
| p_grow_more id v e p t h h' r v' e' r' :
    peg (Some (Ctx id p (Some (v, e)) false)) (JBody (R id)) p t h r -> prepared (n_info (R id)) r = Some (Some (v', e')) ->
    e < e' -> peg None (JGrow id v' e') p false h' r' -> peg None (JGrow id v e) p false (max h h') r'
(* literals, regular expressions, references *)
| p_str c n p s : n_kind n = KStr s -> peg c (JBody n) p false 0 (lit s p)
| p_regex c n p re : n_kind n = KRegex re -> peg c (JBody n) p false 0 (rgx re p)
| p_ref c n m p name t h r : n_kind n = KRef name -> rules name = Some m ->
    peg c (JNode m) p t h r -> peg c (JBody n) p t h r
(* sequences *)
| p_single c n l p t h r : n_kind n = KSeq TSingle l -> peg c (JSingle l None) p t h r -> peg c (JBody n) p t h r
| p_array c n l p t h r : n_kind n = KSeq TArray l -> peg c (JArray l []) p t h r -> peg c (JBody n) p t h r
| p_object c n l p t h r : n_kind n = KSeq TObject l -> peg c (JObject l MNone) p t h r -> peg c (JBody n) p t h r
| p_single_nil c acc p : peg c (JSingle [] acc) p false 0 (Some (default VUndef acc, p))
| p_single_fail c n l acc p t h : peg c (JNode n) p t h None -> peg c (JSingle (n :: l) acc) p t h None
| p_single_cons c n l acc p t t' h h' v q r : peg c (JNode n) p t h (Some (v, q)) ->
    peg c (JSingle l (if i_capture (n_info n) then Some v else acc)) q t' h' r ->
    peg c (JSingle (n :: l) acc) p (t || t')%bool (max h h') r
| p_array_nil c acc p : peg c (JArray [] acc) p false 0 (Some (VArr acc, p))
| p_array_fail c n l acc p t h : peg c (JNode n) p t h None -> peg c (JArray (n :: l) acc) p t h None
| p_array_cons c n l acc p t t' h h' v q r : peg c (JNode n) p t h (Some (v, q)) ->
    peg c (JArray l (if i_capture (n_info n) then acc ++ [v] else acc)) q t' h' r ->
    peg c (JArray (n :: l) acc) p (t || t')%bool (max h h') r
| p_object_nil c m p : peg c (JObject [] m) p false 0 (Some (made_val m, p))
| p_object_fail c n l m p t h : peg c (JNode n) p t h None -> peg c (JObject (n :: l) m) p t h None
| p_object_cons c n l m m' p t t' h h' v q r : peg c (JNode n) p t h (Some (v, q)) ->
    joined (i_label (n_info n)) m v = Some m' -> peg c (JObject l m') q t' h' r ->
    peg c (JObject (n :: l) m) p (t || t')%bool (max h h') r
(* choices *)
| p_choice c n l p t h r : n_kind n = KChoice l -> peg c (JAlt l) p t h r -> peg c (JBody n) p t h r
| p_alt_nil c p : peg c (JAlt []) p false 0 None
| p_alt_take c n l p t h v e : peg c (JNode n) p t h (Some (v, e)) -> peg c (JAlt (n :: l)) p t h (Some (v, e))
| p_alt_next c n l p t t' h h' r : peg c (JNode n) p t h None -> peg c (JAlt l) p t' h' r ->
    peg c (JAlt (n :: l)) p (t || t')%bool (max h h') r
(* repetitions *)
| p_pat_none c n v j mn mx p t h : n_kind n = KPat v j mn mx -> peg c (JNode v) p t h None ->
    peg c (JBody n) p t h (if (0 <? mn)%Z then None else Some (VArr [], p))
| p_pat_some c n v j mn mx p t t' h h' a q l e : n_kind n = KPat v j mn mx ->
    peg c (JNode v) p t h (Some (a, q)) -> peg c (JLoop v j mx [a]) q t' h' (Some (VArr l, e)) ->
    peg c (JBody n) p (t || t')%bool (max h h') (if too_few mn (length l) then None else Some (VArr l, e))
| p_loop_end c v mx acc p t h : peg c (JNode v) p t h None -> peg c (JLoop v None mx acc) p t h (Some (VArr acc, p))
| p_loop_full c v mx acc p t h a q : peg c (JNode v) p t h (Some (a, q)) -> enough mx (S (length acc)) = true ->
    peg c (JLoop v None mx acc) p t h (Some (VArr (acc ++ [a]), q))
| p_loop_more c v mx acc p t t' h h' a q r : peg c (JNode v) p t h (Some (a, q)) -> enough mx (S (length acc)) = false ->
    peg c (JLoop v None mx (acc ++ [a])) q t' h' r -> peg c (JLoop v None mx acc) p (t || t')%bool (max h h') r
| p_join_end c v j mx acc p t h : peg c (JNode j) p t h None -> peg c (JLoop v (Some j) mx acc) p t h (Some (VArr acc, p))
| p_join_back c v j mx acc p t t' h h' b q : peg c (JNode j) p t h (Some (b, q)) -> peg c (JNode v) q t' h' None ->
    peg c (JLoop v (Some j) mx acc) p (t || t')%bool (max h h') (Some (VArr acc, p))
| p_join_full c v j mx acc p t t' h h' b q a q' : peg c (JNode j) p t h (Some (b, q)) ->
    peg c (JNode v) q t' h' (Some (a, q')) -> enough mx (S (length acc)) = true ->
    peg c (JLoop v (Some j) mx acc) p (t || t')%bool (max h h') (Some (VArr (acc ++ [a]), q'))
| p_join_more c v j mx acc p t t' t'' h h' h'' b q a q' r : peg c (JNode j) p t h (Some (b, q)) ->
    peg c (JNode v) q t' h' (Some (a, q')) -> enough mx (S (length acc)) = false ->
    peg c (JLoop v (Some j) mx (acc ++ [a])) q' t'' h'' r ->
    peg c (JLoop v (Some j) mx acc) p (t || (t' || t''))%bool (max h (max h' h'')) r
(* optional, lookahead, negation *)
| p_exist_none c n a p t h : n_kind n = KExist a -> peg c (JNode a) p t h None -> peg c (JBody n) p t h (Some (VUndef, p))
| p_exist_some c n a p t h v e : n_kind n = KExist a -> peg c (JNode a) p t h (Some (v, e)) -> peg c (JBody n) p t h (Some (v, e))
| p_look_fail c n a p t h : n_kind n = KLook a -> peg c (JNode a) p t h None -> peg c (JBody n) p t h None
| p_look c n a p t h v e : n_kind n = KLook a -> peg c (JNode a) p t h (Some (v, e)) -> peg c (JBody n) p t h (Some (v, p))
| p_not c n a p t h : n_kind n = KNot a -> peg c (JNode a) p t h None -> peg c (JBody n) p t h (Some (VUndef, p))
| p_not_fail c n a p t h v e : n_kind n = KNot a -> peg c (JNode a) p t h (Some (v, e)) -> peg c (JBody n) p t h None
.

End Peg.
