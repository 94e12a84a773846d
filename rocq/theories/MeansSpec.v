(** What the lines of a grammar say: a reading of the lines alone, by the
    textbook evaluator of PegStd.v.  Nothing is numbered, optimised, prepared or
    remembered here, and a reference is looked up by its name. *)
From Verif Require Import Base Helpers Utf8 Stream Native Engine EngSpec Peg PegStd PegRep Build BuildSpec.

(** ** Parsers *)

(** The label of a written parser: [e?] without a label hands on the labels
    inside. *)
Definition w_label (e : pexp) : string :=
  match e with
  | PExp lb (KExist a) =>
      if String.eqb lb "" then match w_labels a with [] => EmptyString | _ => "@"%string end else lb
  | PExp lb _ => lb
  end.
(** Whether the labels of the parts are used by a sequence; [used]: whether the
    label of the parser itself is. *)
Definition uses_labels {A} (used : bool) (k : kind A) : bool :=
  match k with KSeq _ _ => true | KExist _ => used | _ => false end.
(** The parser that a text says. *)
Fixpoint stand (used : bool) (e : pexp) : node :=
  match e with
  | PExp lb k =>
      let part := stand (uses_labels used k) in
      Node (Info "" (w_label e) (w_capture e) false 0 (negb used) None false false)
        match k with
        | KStr s => KStr s
        | KRegex s => KRegex s
        | KRef s => KRef s
        | KSeq _ l => KSeq (w_type l) (map part l)
        | KChoice l => KChoice (map part l)
        | KPat v j mn mx => KPat (part v) (match j with Some x => Some (part x) | None => None end) mn mx
        | KExist a => KExist (part a)
        | KLook a => KLook (part a)
        | KNot a => KNot (part a)
        | KUndef => KUndef
        end
  end.

(** ** Rules *)

(** The rule made of a parser. *)
Definition as_rule (name : string) (cb : option nat) (n : node) : node :=
  match n with Node i k => Node (Info name (i_label i) (i_capture i) true 0 (i_wraps i) cb false false) k end.
(** A rank is the choice of the rules of its o-lines. *)
Definition to_rule (name : string) : node := Node (Info "" "" true false 0 true None false false) (KRef name).
Definition choice_of (names : list string) : node :=
  Node (Info "" "" true false 0 true None false false) (KChoice (map to_rule names)).
Definition rule_said (compile : bytes -> res pexp) (d : decl) : option node :=
  match d_what d with
  | WText s => match compile s with ROk e => Some (as_rule (d_name d) (lo_cb (d_opts d)) (stand false e)) | _ => None end
  | WParser _ e => Some (as_rule (d_name d) (lo_cb (d_opts d)) (stand false e))
  | WRank ls => Some (as_rule (d_name d) (lo_cb (d_opts d)) (choice_of (o_names (d_name d) ls 0)))
  end.
(** The rule declared under a name. *)
Definition rules_said (compile : bytes -> res pexp) (ds : list decl) (nm : string) : option node :=
  match List.find (fun d => String.eqb (d_name d) nm) ds with Some d => rule_said compile d | None => None end.

(** [said … depth text r]: the lines answer [r] to [text], nesting rules at
    most [depth] deep. *)
Definition said (compile : bytes -> res pexp) (name : string) (ls : list line)
    (rx : bytes -> bytes -> option (nat * nat)) (cbf : nat -> nat -> val -> option (option val))
    (depth : nat) (text : bytes) (r : result) : Prop :=
  exists fuel, std (rules_said compile (decls name ls)) rx cbf text fuel depth (choice_of (o_names name ls 0)) 0 = Some r.

(** ** What is asked of the lines *)

(** Lines given as texts, each rule under a name of its own, without Debug. *)
Record in_words (compile : bytes -> res pexp) (name : string) (ls : list line) : Prop := {
  iw_once : names_once ls;
  iw_single : no_singles compile ls;
  iw_name : name <> EmptyString;
  iw_texts : parsers (LA ls) = [];
  iw_plain : plain_labels compile ls;
  iw_names : NoDup (d_name <$> decls name ls);
  iw_debug : Forall (fun d => lo_debug (d_opts d) = false) (decls name ls) }.

(** ** Answers *)

(** The outcome of ParseString on [text] is the answer [r]: the value, or a
    parse error; on the empty text, nil instead of an error. *)
Definition answer (text : bytes) (r : result) (x : outcome (option ast)) : Prop :=
  match r with
  | Some (v, e) =>
      if e =? length text then exists y s, x = Ok (Some y) s /\ rep [] (s_heap s) y v
      else exists k s, x = Ok (Some (AErr k)) s /\ e <= k <= length text
  | None =>
      if 0 =? length text then exists s, x = Ok None s
      else exists k s, x = Ok (Some (AErr k)) s /\ k <= length text
  end.

(** ** Ways of writing the same *)

(** i-lines put elsewhere: in their rank, into a rank beside them or out of one.
    The o-lines stay where they are. *)
Inductive moved : list line -> list line -> Prop :=
| mv_same ls : moved ls ls
| mv_swap nm c o l ls : moved (LI nm c o :: l :: ls) (l :: LI nm c o :: ls)
| mv_back nm c o l ls : moved (l :: LI nm c o :: ls) (LI nm c o :: l :: ls)
| mv_into_o nm c o nm' o' ls1 ls : moved (LI nm c o :: LO nm' (LA ls1) o' :: ls) (LO nm' (LA (LI nm c o :: ls1)) o' :: ls)
| mv_into_i nm c o nm' o' ls1 ls : moved (LI nm c o :: LI nm' (LA ls1) o' :: ls) (LI nm' (LA (LI nm c o :: ls1)) o' :: ls)
| mv_out_o nm c o nm' o' ls1 ls : moved (LO nm' (LA (LI nm c o :: ls1)) o' :: ls) (LI nm c o :: LO nm' (LA ls1) o' :: ls)
| mv_out_i nm c o nm' o' ls1 ls : moved (LI nm' (LA (LI nm c o :: ls1)) o' :: ls) (LI nm c o :: LI nm' (LA ls1) o' :: ls)
| mv_line l l' ls ls' : moved_in l l' -> moved ls ls' -> moved (l :: ls) (l' :: ls')
| mv_then ls1 ls2 ls3 : moved ls1 ls2 -> moved ls2 ls3 -> moved ls1 ls3
with moved_in : line -> line -> Prop :=
| mi_same l : moved_in l l
| mi_rank ls ls' : moved ls ls' -> moved_in (LA ls) (LA ls')
| mi_o nm c c' o : moved_in c c' -> moved_in (LO nm c o) (LO nm c' o)
| mi_i nm c c' o : moved_in c c' -> moved_in (LI nm c o) (LI nm c' o).

(** One rank of o-lines, each a text without a callback, written as one text:
    their choice. *)
Section Flattened.
Variable compile : bytes -> res pexp.
Definition is_text (l : line) (e : pexp) : Prop := exists nm c o s,
  l = LO nm c o /\ content c = LS s /\ lo_cb o = None /\ compile s = ROk e.
Inductive flattened : list line -> list line -> Prop :=
| fl_o nm c c' o ls : flattened_in c c' -> flattened (LO nm c o :: ls) (LO nm c' o :: ls)
| fl_i nm c c' o ls : flattened_in c c' -> flattened (LI nm c o :: ls) (LI nm c' o :: ls)
| fl_next l ls ls' : flattened ls ls' -> flattened (l :: ls) (l :: ls')
with flattened_in : line -> line -> Prop :=
| fi_rank ls es l t : Forall2 is_text ls es -> content l = LS t -> compile t = ROk (PExp "" (KChoice es)) -> flattened_in (LA ls) l
| fi_inside ls ls' : flattened ls ls' -> flattened_in (LA ls) (LA ls')
| fi_line nm c c' o : flattened_in c c' -> flattened_in (LO nm c o) (LO nm c' o).
End Flattened.
(** Names a parser refers to. *)
Fixpoint refers (e : pexp) : list string :=
  match e with
  | PExp _ k =>
      match k with
      | KRef nm => [nm]
      | KSeq _ l | KChoice l => flat_map refers l
      | KPat v j _ _ => refers v ++ match j with Some x => refers x | None => [] end
      | KExist a | KLook a | KNot a => refers a
      | KStr _ | KRegex _ | KUndef => []
      end
  end.
(** No text refers to a name that only the first lines have. *)
Definition no_new_names (compile : bytes -> res pexp) (name : string) (ls ls' : list line) : Prop :=
  forall s e nm, s ∈ texts (LA ls) ++ texts (LA ls') -> compile s = ROk e -> nm ∈ refers e ->
  nm ∈ d_name <$> decls name ls -> nm ∈ d_name <$> decls name ls'.
