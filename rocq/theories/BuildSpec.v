(** What a grammar made from lines should be: a specification that says which
    rules the lines declare, in the order in which they are numbered, and how a
    written parser should come out.  Nothing here walks a tree of parsers or
    keeps state. *)
From Verif Require Import Base Helpers Native Engine EngSpec Build.

(** ** What the lines declare *)

(** The body of a declared rule: a text, a parser, or a rank of lines. *)
Inductive what :=
| WText (s : bytes)
| WParser (again : bool) (p : pexp)
| WRank (ls : list line).
Record decl := Decl { d_name : string; d_what : what; d_opts : lopts }.

(** The name written in the line, or the parent's name and the place among the
    o-lines. *)
Definition written_name (own parent : string) (index : nat) : string :=
  if String.eqb own "" then (parent ++ "[" ++ b2s (itoa (Z.of_nat index)) ++ "]")%string else own.

(** Content of a line: o-lines without a name of their own are transparent. *)
Fixpoint content (l : line) : line :=
  match l with LO _ c _ => content c | _ => l end.

(** Rules declared by a rank called [parent]: those of the i-lines, then those
    of the o-lines; a rank comes after the rules inside it. *)
Fixpoint decls_of (name : string) (o : lopts) (l : line) {struct l} : list decl :=
  match l with
  | LS s => [Decl name (WText s) o]
  | LC a p => [Decl name (WParser a p) o]
  | LO _ c _ => decls_of name o c
  | LI _ _ _ => []
  | LA ls =>
      (fix is (ls : list line) : list decl :=
         match ls with
         | LI nm c o' :: ls' => decls_of nm o' c ++ is ls'
         | _ :: ls' => is ls'
         | [] => []
         end) ls ++
      (fix os (ls : list line) (i : nat) : list decl :=
         match ls with
         | LO nm c o' :: ls' => decls_of (written_name nm name i) o' c ++ os ls' (S i)
         | _ :: ls' => os ls' i
         | [] => []
         end) ls 0 ++
      [Decl name (WRank ls) o]
  end.
(** The whole grammar: the top rank itself is not a rule. *)
Definition decls (name : string) (ls : list line) : list decl := removelast (decls_of name no_opts (LA ls)).

(** Names of the o-lines of a rank, in order. *)
Fixpoint o_names (parent : string) (ls : list line) (i : nat) : list string :=
  match ls with
  | LO nm _ _ :: ls' => written_name nm parent i :: o_names parent ls' (S i)
  | _ :: ls' => o_names parent ls' i
  | [] => []
  end.

(** ** Written parsers *)

(** [spells e n]: the node [n] is the parser [e]: the same operators, literals,
    names, bounds and labels.  An unlabelled [e?] may have been labelled [@]. *)
Definition label_kept (lb : string) {A} (k : kind A) (lb' : string) : Prop :=
  if String.eqb lb "" then lb' = EmptyString \/ (lb' = "@"%string /\ exists a, k = KExist a) else lb' = lb.
Inductive same_kind {A B} (R : A -> B -> Prop) : kind A -> kind B -> Prop :=
| sk_str s : same_kind R (KStr s) (KStr s)
| sk_regex s : same_kind R (KRegex s) (KRegex s)
| sk_ref s : same_kind R (KRef s) (KRef s)
| sk_seq t t' l l' : Forall2 R l l' -> same_kind R (KSeq t l) (KSeq t' l')
| sk_choice l l' : Forall2 R l l' -> same_kind R (KChoice l) (KChoice l')
| sk_pat v v' j j' mn mx : R v v' -> option_Forall2 R j j' -> same_kind R (KPat v j mn mx) (KPat v' j' mn mx)
| sk_exist a a' : R a a' -> same_kind R (KExist a) (KExist a')
| sk_look a a' : R a a' -> same_kind R (KLook a) (KLook a')
| sk_not a a' : R a a' -> same_kind R (KNot a) (KNot a')
| sk_undef : same_kind R KUndef KUndef.
(** A parser inside a rule. *)
Definition inner (i : info) : Prop :=
  i_name i = EmptyString /\ i_isrule i = false /\ i_cb i = None /\ i_skip i = false /\ i_debug i = false.
Inductive spells : pexp -> node -> Prop :=
| spells_node lb k i k' : label_kept lb k (i_label i) -> same_kind (fun e n => spells e n /\ inner (n_info n)) k k' ->
    spells (PExp lb k) (Node i k').

(** [rule_of compile table d n]: the node of the declaration [d]; [table] has
    the rules with their names. *)
Definition rule_of (compile : bytes -> res pexp) (table : list (string * node)) (d : decl) (n : node) : Prop :=
  i_name (n_info n) = d_name d /\ i_cb (n_info n) = lo_cb (d_opts d) /\
  match d_what d with
  | WText s => exists e, compile s = ROk e /\ spells e n /\ i_isrule (n_info n) = true /\
      i_skip (n_info n) = lo_skip (d_opts d) /\ i_debug (n_info n) = lo_debug (d_opts d)
  | WParser a e => spells e n /\ i_isrule (n_info n) = negb a /\
      i_skip (n_info n) = false /\ i_debug (n_info n) = false
  | WRank ls => i_label (n_info n) = EmptyString /\ i_isrule (n_info n) = true /\
      i_skip (n_info n) = false /\ i_debug (n_info n) = false /\
      exists alts, n_kind n = KChoice alts /\ i_name ∘ n_info <$> alts = o_names (d_name d) ls 0 /\
        Forall (fun a => (i_name (n_info a), a) ∈ table) alts
  end.

(** ** What is asked of the lines *)

(** i-lines of one rank have different names. *)
Fixpoint i_names (ls : list line) : list string :=
  match ls with LI nm _ _ :: ls' => nm :: i_names ls' | _ :: ls' => i_names ls' | [] => [] end.
Fixpoint ranks (l : line) : list (list line) :=
  match l with
  | LS _ | LC _ _ => []
  | LO _ c _ | LI _ c _ => ranks c
  | LA ls => ls :: flat_map ranks ls
  end.
Definition names_once (ls : list line) : Prop := Forall (fun l => NoDup (i_names l)) (ranks (LA ls)).

(** No written choice has a single alternative (the syntax has none). *)
Fixpoint no_single (e : pexp) : bool :=
  match e with
  | PExp _ k =>
      match k with
      | KSeq _ l => forallb no_single l
      | KChoice l => (negb (length l =? 1) && forallb no_single l)%bool
      | KPat v j _ _ => (no_single v && match j with Some x => no_single x | None => true end)%bool
      | KExist a | KLook a | KNot a => no_single a
      | KStr _ | KRegex _ | KRef _ | KUndef => true
      end
  end.
Fixpoint parsers (l : line) : list pexp :=
  match l with
  | LC _ p => [p]
  | LS _ => []
  | LO _ c _ | LI _ c _ => parsers c
  | LA ls => flat_map parsers ls
  end.
Fixpoint texts (l : line) : list bytes :=
  match l with
  | LS s => [s]
  | LC _ _ => []
  | LO _ c _ | LI _ c _ => texts c
  | LA ls => flat_map texts ls
  end.
(** [P] holds of the parsers given and of those the texts compile to. *)
Definition written (P : pexp -> bool) (compile : bytes -> res pexp) (l : line) : Prop :=
  Forall (fun s => forall e, compile s = ROk e -> P e = true) (texts l) /\ Forall (fun e => P e = true) (parsers l).
Definition no_singles (compile : bytes -> res pexp) (ls : list line) : Prop := written no_single compile (LA ls).

(** ** What a sequence captures *)

(** Labels, capture and number of captures of a written parser.  A reference
    labelled [@] takes the labels of the rule: not covered here, see [plain_at]. *)
Fixpoint w_labels (e : pexp) : list string :=
  match e with
  | PExp lb k =>
      let own := if String.eqb lb "" then [] else [lb] in
      match k with
      | KSeq _ l => flat_map w_labels l
      | KExist a => if (String.eqb lb "" || String.eqb lb "@" || String.eqb lb "&")%bool then w_labels a else own
      | _ => own
      end
  end.
(** As a parser is made: literals, negations, lookaheads and references to names
    with an underscore in front are not captured, nor are repetitions of those. *)
Fixpoint w_capture0 (e : pexp) : bool :=
  match e with
  | PExp _ k =>
      match k with
      | KStr _ | KNot _ | KLook _ => false
      | KRef nm => negb (String.prefix "_" nm)
      | KPat v _ _ _ => w_capture0 v
      | _ => true
      end
  end.
Fixpoint w_captures (e : pexp) : nat :=
  match e with
  | PExp _ k =>
      match k with
      | KSeq _ l => list_sum (map w_captures l)
      | KExist a => w_captures a
      | KChoice l => if forallb (fun c => match c with
                                          | PExp _ (KSeq _ _) => true
                                          | c => 0 <? w_captures c
                                          end) l then 1 else 0
      | _ => if w_capture0 e then 1 else 0
      end
  end.
(** Captured in the sequence around it: a sequence always is. *)
Definition w_capture (e : pexp) : bool :=
  match e with PExp _ (KSeq _ _) => true | e => 0 <? w_captures e end.
Definition w_type (l : list pexp) : seqtype :=
  match flat_map w_labels l with
  | _ :: _ => TObject
  | [] => if 1 <? list_sum (map w_captures l) then TArray else TSingle
  end.
(** [typed e n]: captures and types of sequences come out as written. *)
Inductive typed : pexp -> node -> Prop :=
| typed_node lb k i k' : i_capture i = w_capture (PExp lb k) ->
    same_kind typed k k' ->
    match k, k' with KSeq _ l, KSeq ty _ => ty = w_type l | _, _ => True end ->
    typed (PExp lb k) (Node i k').
(** No reference is labelled [@]. *)
Fixpoint plain_at (e : pexp) : bool :=
  match e with
  | PExp lb k =>
      match k with
      | KSeq _ l | KChoice l => forallb plain_at l
      | KPat v j _ _ => (plain_at v && match j with Some x => plain_at x | None => true end)%bool
      | KExist a | KLook a | KNot a => plain_at a
      | KRef _ => negb (String.eqb lb "@")
      | KStr _ | KRegex _ | KUndef => true
      end
  end.
Definition plain_labels (compile : bytes -> res pexp) (ls : list line) : Prop := written plain_at compile (LA ls).

(** The rule of [d] has captures and types as written; a rank is captured iff
    all its alternatives are. *)
Definition typed_as (compile : bytes -> res pexp) (d : decl) (n : node) : Prop :=
  match d_what d with
  | WText s => exists e, compile s = ROk e /\ typed e n
  | WParser _ e => typed e n
  | WRank _ => exists alts, n_kind n = KChoice alts /\ i_capture (n_info n) = forallb (fun a => i_capture (n_info a)) alts
  end.
