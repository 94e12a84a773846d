(** Which texts lines accept: only ends of matches, no values, no labels, no
    rule numbers.  A specification. *)
From Verif Require Import Base Helpers Native Engine Peg Build BuildSpec.

(** What is to be read: a parser, the rest of a sequence, the remaining
    alternatives, the join of a repetition, or the rest of a repetition that has
    read [k] values. *)
Inductive rtask :=
| RNode (e : pexp)
| RSeq (l : list pexp)
| RAlt (l : list pexp)
| RJoin (j : option pexp)
| RMore (v : pexp) (j : option pexp) (mn mx : Z) (k : nat).

Section Reads.
Variable rules : string -> option pexp.
Variable rx : bytes -> bytes -> option (nat * nat).
Variable text : bytes.

(** [rd depth t p r]: at [p] the task [t] ends at [r], or fails ([None]), with
    rules nested [depth] deep at most. *)
Inductive rd : nat -> rtask -> nat -> option nat -> Prop :=
| rd_str d lb s p : rd d (RNode (PExp lb (KStr s))) p (snd <$> lit text s p)
| rd_regex d lb s p : rd d (RNode (PExp lb (KRegex s))) p (snd <$> rgx rx text s p)
| rd_ref d lb nm e p r : rules nm = Some e -> rd d (RNode e) p r -> rd (S d) (RNode (PExp lb (KRef nm))) p r
| rd_undef d lb p : rd d (RNode (PExp lb KUndef)) p (Some p)
| rd_seq d lb t l p r : rd d (RSeq l) p r -> rd d (RNode (PExp lb (KSeq t l))) p r
| rd_choice d lb l p r : rd d (RAlt l) p r -> rd d (RNode (PExp lb (KChoice l))) p r
| rd_first_fail d lb v j mn mx p : rd d (RNode v) p None -> rd d (RNode (PExp lb (KPat v j mn mx))) p (if (0 <? mn)%Z then None else Some p)
| rd_first d lb v j mn mx p q r : rd d (RNode v) p (Some q) -> rd d (RMore v j mn mx 1) q r -> rd d (RNode (PExp lb (KPat v j mn mx))) p r
| rd_exist d lb a p q : rd d (RNode a) p (Some q) -> rd d (RNode (PExp lb (KExist a))) p (Some q)
| rd_exist_not d lb a p : rd d (RNode a) p None -> rd d (RNode (PExp lb (KExist a))) p (Some p)
| rd_look d lb a p q : rd d (RNode a) p (Some q) -> rd d (RNode (PExp lb (KLook a))) p (Some p)
| rd_look_not d lb a p : rd d (RNode a) p None -> rd d (RNode (PExp lb (KLook a))) p None
| rd_not d lb a p q : rd d (RNode a) p (Some q) -> rd d (RNode (PExp lb (KNot a))) p None
| rd_not_not d lb a p : rd d (RNode a) p None -> rd d (RNode (PExp lb (KNot a))) p (Some p)
| rd_seq_nil d p : rd d (RSeq []) p (Some p)
| rd_seq_fail d a l p : rd d (RNode a) p None -> rd d (RSeq (a :: l)) p None
| rd_seq_next d a l p q r : rd d (RNode a) p (Some q) -> rd d (RSeq l) q r -> rd d (RSeq (a :: l)) p r
| rd_alt_nil d p : rd d (RAlt []) p None
| rd_alt_this d a l p q : rd d (RNode a) p (Some q) -> rd d (RAlt (a :: l)) p (Some q)
| rd_alt_next d a l p r : rd d (RNode a) p None -> rd d (RAlt l) p r -> rd d (RAlt (a :: l)) p r
| rd_no_join d p : rd d (RJoin None) p (Some p)
| rd_join d x p r : rd d (RNode x) p r -> rd d (RJoin (Some x)) p r
| rd_more_join d v j mn mx k p : rd d (RJoin j) p None -> rd d (RMore v j mn mx k) p (if too_few mn k then None else Some p)
| rd_more_end d v j mn mx k p q : rd d (RJoin j) p (Some q) -> rd d (RNode v) q None ->
    rd d (RMore v j mn mx k) p (if too_few mn k then None else Some p)
| rd_more_full d v j mn mx k p q q' : rd d (RJoin j) p (Some q) -> rd d (RNode v) q (Some q') ->
    enough mx (S k) = true -> rd d (RMore v j mn mx k) p (if too_few mn (S k) then None else Some q')
| rd_more_next d v j mn mx k p q q' r : rd d (RJoin j) p (Some q) -> rd d (RNode v) q (Some q') ->
    enough mx (S k) = false -> rd d (RMore v j mn mx (S k)) q' r -> rd d (RMore v j mn mx k) p r.
End Reads.

(** The parser declared under a name, and the top of the lines. *)
Definition to_name (x : string) : pexp := PExp "" (KRef x).
Definition decl_read (compile : bytes -> res pexp) (d : decl) : option pexp :=
  match d_what d with
  | WText s => match compile s with ROk e => Some e | _ => None end
  | WParser _ e => Some e
  | WRank ls => Some (PExp "" (KChoice (map to_name (o_names (d_name d) ls 0))))
  end.
Definition rules_read (compile : bytes -> res pexp) (ds : list decl) (nm : string) : option pexp :=
  match List.find (fun d => String.eqb (d_name d) nm) ds with Some d => decl_read compile d | None => None end.
Definition reads_to (compile : bytes -> res pexp) (name : string) (ls : list line) rx (depth : nat) (text : bytes) (r : option nat) : Prop :=
  rd (rules_read compile (decls name ls)) rx text depth (RNode (PExp "" (KChoice (map to_name (o_names name ls 0))))) 0 r.

(** No sequence has a labelled part (so no maps are made, which is what could
    fail for other reasons than the text), nothing empty is written, and no rule
    has a callback. *)
Fixpoint no_objects (e : pexp) : bool :=
  match e with
  | PExp _ k =>
      match k with
      | KSeq _ l => (match flat_map w_labels l with [] => true | _ => false end && forallb no_objects l)%bool
      | KChoice l => forallb no_objects l
      | KPat v j _ _ => (no_objects v && match j with Some x => no_objects x | None => true end)%bool
      | KExist a | KLook a | KNot a => no_objects a
      | KStr _ | KRegex _ | KRef _ => true
      | KUndef => false
      end
  end.
Definition only_texts (compile : bytes -> res pexp) (name : string) (ls : list line) : Prop :=
  Forall (fun d => lo_cb (d_opts d) = None /\ match decl_read compile d with Some e => no_objects e = true | None => True end) (decls name ls).

(** Two parsers that read the same everywhere. *)
Definition same_reads (e e' : pexp) : Prop := forall rules rx text d p r, rd rules rx text d (RNode e) p r <-> rd rules rx text d (RNode e') p r.

(** A parser with [e'] at a place where it had [e]. *)
Inductive put (e e' : pexp) : pexp -> pexp -> Prop :=
| put_here : put e e' e e'
| put_seq lb lb' t t' l1 a a' l2 : put e e' a a' -> put e e' (PExp lb (KSeq t (l1 ++ a :: l2))) (PExp lb' (KSeq t' (l1 ++ a' :: l2)))
| put_choice lb lb' l1 a a' l2 : put e e' a a' -> put e e' (PExp lb (KChoice (l1 ++ a :: l2))) (PExp lb' (KChoice (l1 ++ a' :: l2)))
| put_many lb lb' a a' j mn mx : put e e' a a' -> put e e' (PExp lb (KPat a j mn mx)) (PExp lb' (KPat a' j mn mx))
| put_join lb lb' v a a' mn mx : put e e' a a' -> put e e' (PExp lb (KPat v (Some a) mn mx)) (PExp lb' (KPat v (Some a') mn mx))
| put_exist lb lb' a a' : put e e' a a' -> put e e' (PExp lb (KExist a)) (PExp lb' (KExist a'))
| put_look lb lb' a a' : put e e' a a' -> put e e' (PExp lb (KLook a)) (PExp lb' (KLook a'))
| put_not lb lb' a a' : put e e' a a' -> put e e' (PExp lb (KNot a)) (PExp lb' (KNot a')).
(** One text of the lines changed so. *)
Inductive put_in (compile : bytes -> res pexp) (e e' : pexp) : line -> line -> Prop :=
| pi_text s s' x x' : compile s = ROk x -> compile s' = ROk x' -> put e e' x x' -> put_in compile e e' (LS s) (LS s')
| pi_rank l1 l l' l2 : put_in compile e e' l l' -> put_in compile e e' (LA (l1 ++ l :: l2)) (LA (l1 ++ l' :: l2))
| pi_o nm c c' o o' : put_in compile e e' c c' -> put_in compile e e' (LO nm c o) (LO nm c' o')
| pi_i nm c c' o o' : put_in compile e e' c c' -> put_in compile e e' (LI nm c o) (LI nm c' o').

(** ** Ways of writing a parser that reads the same *)
Definition seq (l : list pexp) : pexp := PExp "" (KSeq TSingle l).
Definition alts (l : list pexp) : pexp := PExp "" (KChoice l).
Definition star (a : pexp) : pexp := PExp "" (KPat a None (-1) (-1)).
Definition plus (a : pexp) : pexp := PExp "" (KPat a None 1 (-1)).
Definition opt (a : pexp) : pexp := PExp "" (KExist a).
Definition ahead (a : pexp) : pexp := PExp "" (KLook a).
Definition isnt (a : pexp) : pexp := PExp "" (KNot a).
(** The type of a sequence is not written: it is found from its parts. *)
Fixpoint untyped (e : pexp) : pexp :=
  match e with
  | PExp lb k =>
      PExp lb match k with
              | KStr s => KStr s
              | KRegex s => KRegex s
              | KRef s => KRef s
              | KSeq _ l => KSeq TSingle (map untyped l)
              | KChoice l => KChoice (map untyped l)
              | KPat v j mn mx => KPat (untyped v) (match j with Some x => Some (untyped x) | None => None end) mn mx
              | KExist a => KExist (untyped a)
              | KLook a => KLook (untyped a)
              | KNot a => KNot (untyped a)
              | KUndef => KUndef
              end
  end.
(** A common beginning of two alternatives is written once; a sequence needs no
    group in a sequence; what is not not there is there; one and any number more
    is at least one; an optional beginning is two alternatives, one for each
    case; one part or one alternative needs no group. *)
Inductive reads_law : pexp -> pexp -> Prop :=
| rl_front l1 pre m m' l2 : reads_law (alts (l1 ++ seq (pre ++ m) :: seq (pre ++ m') :: l2)) (alts (l1 ++ seq (pre ++ [alts [seq m; seq m']]) :: l2))
| rl_group l1 m l2 : reads_law (seq (l1 ++ seq m :: l2)) (seq (l1 ++ m ++ l2))
| rl_notnot a : reads_law (isnt (isnt a)) (ahead a)
| rl_plus a : reads_law (seq [a; star a]) (plus a)
| rl_opt a m : reads_law (alts [seq (a :: m); seq (isnt a :: m)]) (seq (opt a :: m))
| rl_seq_one a : reads_law (seq [a]) a
| rl_alt_one a : reads_law (alts [a]) a
| rl_type e e' : untyped e = untyped e' -> reads_law e e'
| rl_back e e' : reads_law e e' -> reads_law e' e.

(** ** ParseString *)
(** It takes the text: a value, not a parse error; else a parse error, or nil on
    the empty text. *)
Definition takes (text : bytes) (e : option nat) (x : outcome (option ast)) : Prop :=
  if match e with Some n => n =? length text | None => false end
  then exists y s, x = Ok (Some y) s /\ forall k, y <> AErr k
  else match text with [] => exists s, x = Ok None s | _ => exists k s, x = Ok (Some (AErr k)) s end.

(** Any number of such changes, anywhere in a parser. *)
Inductive reads_as : pexp -> pexp -> Prop :=
| ra_law e e' x x' : reads_law e e' -> put e e' x x' -> reads_as x x'
| ra_then x y z : reads_as x y -> reads_as y z -> reads_as x z.
