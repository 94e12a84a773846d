(** Model of how a grammar is made from lines of rules: line.go, line_o.go,
    line_i.go, line_named.go, parser_rank.go:20-45, rule.go, walk.go and
    grammar.go:61-71 and :211-317 ([postinit]).  No proofs here.

    What is simplified:
    - the compilation of a rule given as a string is a function argument
      ([compile]); Joeson.v instantiates it with a parse by the joeson grammar;
    - a Parser given to [O], [I] or [Named] is used in one place only (Go could
      share the pointer); hence the parsers form a tree before [postinit];
    - a node is identified by its path from the top rank instead of a pointer;
    - os.Exit in lineInit and Go's fatal stack overflow are panics and running
      out of fuel; [getRuleRef] by a ref labelled "@" to an unknown rule panics
      when the grammar is built, Go waits for the first parse of its sequence;
    - text printed by traces is dropped. *)
From Verif Require Import Base Helpers Native Engine.

(** ** Lines *)

(** A compiled parser before it is part of a grammar: label and content.
    The type carried by [KSeq] is ignored. *)
Inductive pexp := PExp (label : string) (k : kind pexp).

(** parseoption.go:31-47, without skipLog which rules do not use. *)
Record lopts := LOpts { lo_cb : option nat; lo_skip : bool; lo_debug : bool }.
Definition no_opts : lopts := LOpts None false false.

(** line.go:11-14 and the five line_*.go.  [LC]: [again] when the cLine holds a
    cLine (rule2line, line.go:113, wraps a cLine once more since a cLine is a
    Parser). *)
Inductive line :=
| LS (s : bytes)
| LC (again : bool) (p : pexp)
| LA (l : list line)
| LO (name : string) (c : line) (o : lopts)
| LI (name : string) (c : line) (o : lopts).

(** Arguments of [O] and [I]: line.go:24-72. *)
Inductive arg :=
| GText (s : bytes)
| GParser (p : pexp)
| GLine (l : line)
| GNamed (name : string) (l : line).
Inductive opt := OCb (f : nat) | ODebug (b : bool) | OSkipCache (b : bool) | OSkipLog (b : bool) | OOther.

(** line_named.go:9-23, [Named] of a Line, a string, a Parser, a []Line. *)
Definition named_line (n : string) (l : line) : arg := GNamed n l.
Definition named_text (n : string) (s : bytes) : arg := GNamed n (LS s).
Definition named_parser (n : string) (p : pexp) : arg := GNamed n (LC false p).
Definition named_lines (n : string) (l : list line) : arg := GNamed n (LA l).

(** line.go:107-127, [rule2line], of a Line. *)
Definition rule2line (l : line) : res line :=
  match l with
  | LS s => ROk (LO "" (LS s) no_opts)
  | LC _ p => ROk (LC true p)
  | LA _ | LO _ _ _ => ROk l
  | LI _ _ _ => RPanic (PMsg "assert")
  end.

(** line.go:37-68, one argument after the first. *)
Definition apply_opt (o : lopts) (x : opt) : res lopts :=
  match x with
  | OCb f => ROk (LOpts (Some f) (lo_skip o) (lo_debug o))
  | ODebug b => ROk (LOpts (lo_cb o) (lo_skip o) b)
  | OSkipCache b => ROk (LOpts (lo_cb o) b (lo_debug o))
  | OSkipLog _ => ROk o
  | OOther => RPanic (PMsg "Error in grammar")
  end.
Fixpoint apply_opts (o : lopts) (l : list opt) : res lopts :=
  match l with
  | [] => ROk o
  | x :: l' => let* o' := apply_opt o x in apply_opts o' l'
  end.
(** line.go:24-72, [lineInit]. *)
Definition line_init (a : arg) (l : list opt) : res (string * line * lopts) :=
  let* nc := match a with
             | GText s => ROk (EmptyString, LS s)
             | GParser p => ROk (EmptyString, LC false p)
             | GLine x => let* y := rule2line x in ROk (EmptyString, y)
             | GNamed n x => let* y := rule2line x in ROk (n, y)
             end in
  let* o := apply_opts no_opts l in
  ROk (fst nc, snd nc, o).
(** line_o.go:15-18. *)
Definition mk_o (a : arg) (l : list opt) : res line :=
  let* x := line_init a l in ROk (LO (fst (fst x)) (snd (fst x)) (snd x)).
(** line_i.go:15-21. *)
Definition mk_i (a : arg) (l : list opt) : res line :=
  let* x := line_init a l in
  if String.eqb (fst (fst x)) "" then RPanic (PMsg "ILine must always be named")
  else ROk (LI (fst (fst x)) (snd (fst x)) (snd x)).

(** ** Parsers of a grammar being built *)

(** rule.go:9-25.  [pi_reg]: rule.parser is the Ast that stands in the tree
    (line.go:199), which is what IsRule tests during walks.  [pi_wrap]: that Ast
    is a cLine around the parser; the parser itself, when it parses, finds that
    rule.parser is not itself (parser.go:44-46).  [pi_rank]: it is a *rank. *)
Record pinfo := PInfo {
  pi_name : string; pi_label : string;
  pi_reg : bool; pi_wrap : bool; pi_rank : bool;
  pi_opts : lopts }.
(** The second field is rule.rules with the keys in the order of rule.rulesK. *)
Inductive pn := Pn (i : pinfo) (rules : list (string * pn)) (k : kind pn).
Definition pn_info (n : pn) : pinfo := match n with Pn i _ _ => i end.
Definition pn_rules (n : pn) : list (string * pn) := match n with Pn _ r _ => r end.
Definition pn_kind (n : pn) : kind pn := match n with Pn _ _ k => k end.

Definition kmap {A B} (f : A -> B) (k : kind A) : kind B :=
  match k with
  | KStr s => KStr s
  | KRegex re => KRegex re
  | KRef nm => KRef nm
  | KSeq ty l => KSeq ty (map f l)
  | KChoice l => KChoice (map f l)
  | KPat v j mn mx => KPat (f v) (match j with Some x => Some (f x) | None => None end) mn mx
  | KExist a => KExist (f a)
  | KLook a => KLook (f a)
  | KNot a => KNot (f a)
  | KUndef => KUndef
  end.
Definition kids {A} (k : kind A) : list A :=
  match k with
  | KSeq _ l | KChoice l => l
  | KPat v j _ _ => v :: match j with Some x => [x] | None => [] end
  | KExist a | KLook a | KNot a => [a]
  | KStr _ | KRegex _ | KRef _ | KUndef => []
  end.

(** A compiled parser as rule.go:27-58 and the constructors leave it. *)
Fixpoint plant (e : pexp) : pn :=
  match e with PExp lb k => Pn (PInfo "" lb false false false no_opts) [] (kmap plant k) end.

(** ** line.go and parser_rank.go *)

Definition set_name (n : pn) (nm : string) : pn :=
  match n with Pn i r k => Pn (PInfo nm (pi_label i) (pi_reg i) (pi_wrap i) (pi_rank i) (pi_opts i)) r k end.
Definition set_opts (n : pn) (o : lopts) : pn :=
  match n with Pn i r k => Pn (PInfo (pi_name i) (pi_label i) (pi_reg i) (pi_wrap i) (pi_rank i) o) r k end.
Definition set_wrap (n : pn) (w : bool) : pn :=
  match n with Pn i r k => Pn (PInfo (pi_name i) (pi_label i) (pi_reg i) w (pi_rank i) (pi_opts i)) r k end.
(** line.go:193-206: rule.parser = answer, the check of the name, the callback. *)
Definition set_reg_cb (n : pn) (cb : option nat) : pn :=
  match n with Pn i r k =>
    Pn (PInfo (pi_name i) (pi_label i) true (pi_wrap i) (pi_rank i)
          (LOpts cb (lo_skip (pi_opts i)) (lo_debug (pi_opts i)))) r k end.
Definition register (name : string) (attrs : lopts) (answer : pn) : res pn :=
  let nm := pi_name (pn_info answer) in
  if (negb (String.eqb nm "") && negb (String.eqb nm name))%bool then RPanic (PMsg "assert")
  else ROk (set_reg_cb answer (lo_cb attrs)).

(** parser_rank.go:47-52. *)
Definition empty_rank (name : string) : pn :=
  Pn (PInfo name "" false false true no_opts) [] (KChoice []).
Definition choices (n : pn) : list pn := kids (pn_kind n).
(** parser_rank.go:58. *)
Definition rank_append (r x : pn) : pn :=
  match r with Pn i rs k => Pn i rs (KChoice (kids k ++ [x])) end.
(** rule.go:62-68, [Include]. *)
Definition rank_include (r : pn) (name : string) (x : pn) : pn :=
  match r with Pn i rs k =>
    Pn (PInfo (if String.eqb (pi_name i) "" then name else pi_name i) (pi_label i) (pi_reg i) (pi_wrap i) (pi_rank i) (pi_opts i))
       (rs ++ [(name, x)]) k end.

(** line_o.go:43-55: the name given to an o-line. *)
Definition o_name (own by_name parent : string) (index : nat) : string :=
  if negb (String.eqb own "") then own
  else if negb (String.eqb by_name "") then by_name
  else (parent ++ "[" ++ b2s (itoa (Z.of_nat index)) ++ "]")%string.

Section Compile.
Variable compile : bytes -> res pexp.

(** line.go:142-207, [getRule]; line_o.go:36-58, [toRule], is inlined at its
    two places; parser_rank.go:35-43, the loop of [rankFromLines], is [go].
    [parent] is the name of the parent rule. *)
Fixpoint get_rule (l : line) (name parent : string) (attrs : lopts) {struct l} : res pn :=
  match l with
  | LA ls =>
      let* r :=
        (fix go (ls : list line) (r : pn) {struct ls} : res pn :=
           match ls with
           | [] => ROk r
           | LO nm c o :: ls' =>
               let pr := pi_name (pn_info r) in
               let* x := get_rule c (o_name nm "" pr (length (choices r))) pr o in
               go ls' (rank_append r x)
           | LI nm c o :: ls' =>
               let* x := get_rule c nm (pi_name (pn_info r)) o in
               go ls' (rank_include r nm x)
           | _ => RPanic (PMsg "Unknown type line")
           end) ls (empty_rank name) in
      register name attrs r
  | LC again p => register name attrs (set_wrap (set_name (plant p) name) again)
  | LI _ _ _ => RPanic (PMsg "assert")
  | LO nm c _ =>
      let* x := get_rule c (o_name nm name parent 0) parent attrs in
      register name attrs (if String.eqb (pi_name (pn_info x)) "" then set_name x name else x)
  | LS s =>
      let* e := compile s in
      register name attrs (set_opts (set_name (plant e) name) attrs)
  end.

(** parser_rank.go:20-45, [rankFromLines]. *)
Fixpoint rank_lines (ls : list line) (r : pn) : res pn :=
  match ls with
  | [] => ROk r
  | LO nm c o :: ls' =>
      let pr := pi_name (pn_info r) in
      let* x := get_rule c (o_name nm "" pr (length (choices r))) pr o in
      rank_lines ls' (rank_append r x)
  | LI nm c o :: ls' =>
      let* x := get_rule c nm (pi_name (pn_info r)) o in
      rank_lines ls' (rank_include r nm x)
  | _ => RPanic (PMsg "Unknown type line")
  end.
Definition rank_from_lines (name : string) (ls : list line) : res pn := rank_lines ls (empty_rank name).
End Compile.

(** ** grammar.go:220-255: choices of one alternative *)

(** walk.go:42-59: what the key [k] of rule.rules holds (the last one included
    under that name). *)
Definition last_of {A} (l : list (string * A)) (k : string) : option A :=
  snd <$> last (List.filter (fun p => String.eqb k (fst p)) l).

(** The forEachChild methods: the included rules, then the children. *)
Definition on_rules {A} (f : A -> A) (l : list (string * A)) : list (string * A) :=
  map (fun p => (fst p, f (snd p))) l.
Definition on_children (f : pn -> pn) (n : pn) : pn :=
  match n with Pn i rs k => Pn i (on_rules f rs) (kmap f k) end.

(** grammar.go:236: a *choice (not a *rank, not inside a cLine) of one
    alternative. *)
Definition mono (n : pn) : option pn :=
  match n with
  | Pn i rs (KChoice [Pn im rm km]) =>
      if (pi_rank i || pi_wrap i)%bool then None
      else Some (Pn (PInfo (pi_name im) (if String.eqb (pi_label im) "" then pi_label i else pi_label im)
                       (pi_reg im) (pi_wrap im) (pi_rank im) (pi_opts im)) (rm ++ rs) km)
  | _ => None
  end.
(** The walk with its Pre function, which itself walks the children first.
    [fuel] at least the height. *)
Fixpoint walk_mono (fuel : nat) (n : pn) : pn :=
  match fuel with
  | O => n
  | S fuel' =>
      on_children (walk_mono fuel')
        (on_children (fun c => match mono c with Some m => m | None => walk_mono fuel' c end) n)
  end.
Fixpoint height (n : pn) : nat :=
  match n with
  | Pn _ rs k =>
      S (Nat.max (list_max (map (fun p => height (snd p)) rs))
           (match k with
            | KSeq _ l | KChoice l => list_max (map height l)
            | KPat v j _ _ => Nat.max (height v) (match j with Some x => height x | None => 0 end)
            | KExist a | KLook a | KNot a => height a
            | KStr _ | KRegex _ | KRef _ | KUndef => 0
            end))
  end.
(** The Grammar is the parent of the rank: grammar.go:256. *)
Definition optimize (rank : pn) : pn :=
  let pre := match mono rank with Some m => m | None => walk_mono (height rank) rank end in
  walk_mono (height pre) pre.

(** ** Walks: walk.go:14-30 *)

(** A step of a path: into an included rule or into a child. *)
Inductive step := SRule (i : nat) | SKid (i : nat).
#[global] Instance step_eq_dec : EqDecision step. Proof. solve_decision. Defined.
(** Innermost step first. *)
Notation path := (list step).

(** The methods handlesChildLabel: [ph] is what the parent answers (false when
    there is none). *)
Definition handles (ph : bool) (n : pn) : bool :=
  match pn_kind n with KSeq _ _ => true | KExist _ => ph | _ => false end.

(** A node as a walk meets it: where it is, what its parent answers to
    handlesChildLabel, and the node. *)
Record visit := Visit { v_path : path; v_ph : bool; v_node : pn }.
Inductive wev := WPre (v : visit) | WPost (v : visit).

(** The calls of Pre and Post of a walk, in order. *)
Fixpoint walk (p : path) (ph : bool) (n : pn) : list wev :=
  match n with
  | Pn i rs k =>
      let h := handles ph n in
      let under_rules :=
        (fix go (j : nat) (l : list (string * pn)) : list (string * list wev) :=
           match l with
           | [] => []
           | (nm, c) :: l' => (nm, walk (SRule j :: p) h c) :: go (S j) l'
           end) 0 rs in
      let under_kids :=
        (fix go (j : nat) (l : list pn) : list wev :=
           match l with
           | [] => []
           | c :: l' => walk (SKid j :: p) h c ++ go (S j) l'
           end) in
      WPre (Visit p ph n) ::
        concat (map (fun q => default [] (last_of under_rules (fst q))) under_rules) ++
        match k with
        | KSeq _ l | KChoice l => under_kids 0 l
        | KPat v j _ _ => walk (SKid 0 :: p) h v ++ match j with Some x => walk (SKid 1 :: p) h x | None => [] end
        | KExist a | KLook a | KNot a => walk (SKid 0 :: p) h a
        | KStr _ | KRegex _ | KRef _ | KUndef => []
        end ++ [WPost (Visit p ph n)]
  end.

(** ** grammar.go:258-303: numbering *)

(** The nodes registered so far (grammar.rules, rulesK and id2rule), in order,
    and the places whose rule.parent is set. *)
Record conn := Conn { cn_regs : list (string * visit); cn_seen : list path }.
Definition connect1 (s : conn) (e : wev) : res conn :=
  match e with
  | WPre v =>
      if (negb (pi_reg (pn_info (v_node v))) && bool_decide (v_path v ∈ cn_seen s))%bool
      then RPanic (PMsg "Grammar tree should be a DAG, nodes should not be referenced more than once.")
      else ROk (Conn (cn_regs s) (v_path v :: cn_seen s))
  | WPost v =>
      if pi_reg (pn_info (v_node v))
      then ROk (Conn (cn_regs s ++ [(pi_name (pn_info (v_node v)), v)]) (cn_seen s))
      else ROk s
  end.
Fixpoint connect (s : conn) (l : list wev) : res conn :=
  match l with
  | [] => ROk s
  | e :: l' => let* s' := connect1 s e in connect s' l'
  end.

(** rule.id: the number of the last registration of the node; 0 if there is none. *)
Fixpoint last_index (p : path) (l : list (string * visit)) (i acc : nat) : nat :=
  match l with
  | [] => acc
  | (_, v) :: l' => last_index p l' (S i) (if decide (v_path v = p) then i else acc)
  end.
Definition id_of (regs : list (string * visit)) (p : path) : nat := last_index p regs 0 0.

(** ** grammar.go:305-311: prepare, and the lazy labels and captures *)

(** The changing part of the nodes: rule.label, rule.capture, and the values of
    the lazy rule.labels_ and rule.captures_ once computed (of the captures only
    the number matters). *)
Record pst := Pst {
  ps_label : path -> option string;
  ps_cap : path -> option bool;
  ps_labels : path -> option (list string);
  ps_caps : path -> option nat }.
Definition pst0 : pst := Pst (fun _ => None) (fun _ => None) (fun _ => None) (fun _ => None).
Definition upd {A} (f : path -> option A) (p : path) (x : A) : path -> option A :=
  fun q => if decide (q = p) then Some x else f q.
Definition set_ps_label (s : pst) (p : path) (x : string) : pst := Pst (upd (ps_label s) p x) (ps_cap s) (ps_labels s) (ps_caps s).
Definition set_ps_cap (s : pst) (p : path) (x : bool) : pst := Pst (ps_label s) (upd (ps_cap s) p x) (ps_labels s) (ps_caps s).
Definition set_ps_labels (s : pst) (p : path) (x : list string) : pst := Pst (ps_label s) (ps_cap s) (upd (ps_labels s) p x) (ps_caps s).
Definition set_ps_caps (s : pst) (p : path) (x : nat) : pst := Pst (ps_label s) (ps_cap s) (ps_labels s) (upd (ps_caps s) p x).

(** rule.capture after construction: rule.go:30, parser_str.go:27,
    parser_not.go:21, parser_lookahead.go:24, parser_ref.go:45-47,
    parser_pattern.go:44-45. *)
Fixpoint capture0 (n : pn) : bool :=
  match n with
  | Pn _ _ k =>
      match k with
      | KStr _ | KNot _ | KLook _ => false
      | KRef nm => negb (String.prefix "_" nm)
      | KPat v _ _ _ => capture0 v
      | _ => true
      end
  end.
Definition label_at (s : pst) (p : path) (n : pn) : string := default (pi_label (pn_info n)) (ps_label s p).
Definition cap_at (s : pst) (p : path) (n : pn) : bool := default (capture0 n) (ps_cap s p).

Section Prepare.
Variable regs : list (string * visit).

Definition own_label (s : pst) (p : path) (n : pn) : list string :=
  let lb := label_at s p n in if String.eqb lb "" then [] else [lb].

(** labels_.Get(): rule.go:43-49, parser_sequence.go:54-60, parser_ref.go:48-62. *)
Fixpoint get_labels (fuel : nat) (p : path) (n : pn) (s : pst) : res (list string * pst) :=
  match fuel with
  | O => RFuel
  | S fuel' =>
      match ps_labels s p with
      | Some l => ROk (l, s)
      | None =>
          let* r :=
            match pn_kind n with
            | KSeq _ l =>
                (fix go (i : nat) (l : list pn) (acc : list string) (s : pst) {struct l} : res (list string * pst) :=
                   match l with
                   | [] => ROk (acc, s)
                   | c :: l' => let* r := get_labels fuel' (SKid i :: p) c s in go (S i) l' (acc ++ fst r) (snd r)
                   end) 0 l [] s
            | KRef nm =>
                if String.eqb (label_at s p n) "@" then
                  match last_of regs nm with
                  | None => RPanic (PMsg "ref was not found in grammar.Rules")
                  | Some v => get_labels fuel' (v_path v) (v_node v) s
                  end
                else ROk (own_label s p n, s)
            | _ => ROk (own_label s p n, s)
            end in
          ROk (fst r, set_ps_labels (snd r) p (fst r))
      end
  end.

(** captures_.Get(): rule.go:50-56, parser_sequence.go:62-68. *)
Fixpoint get_caps (p : path) (n : pn) (s : pst) : nat * pst :=
  match ps_caps s p with
  | Some m => (m, s)
  | None =>
      let r :=
        match n with
        | Pn _ _ (KSeq _ l) =>
            (fix go (i : nat) (l : list pn) (acc : nat) (s : pst) {struct l} : nat * pst :=
               match l with
               | [] => (acc, s)
               | c :: l' => let r := get_caps (SKid i :: p) c s in go (S i) l' (acc + fst r) (snd r)
               end) 0 l 0 s
        | _ => ((if cap_at s p n then 1 else 0), s)
        end in
      (fst r, set_ps_caps (snd r) p (fst r))
  end.

(** The prepare methods: parser_choice.go:42-50 (and parser_rank.go:60),
    parser_existential.go:29-47; the others are empty. *)
Definition prepare (fuel : nat) (v : visit) (s : pst) : res pst :=
  let p := v_path v in
  let n := v_node v in
  match pn_kind n with
  | KChoice l =>
      ROk (set_ps_cap s p
             ((fix go (i : nat) (l : list pn) : bool :=
                 match l with
                 | [] => true
                 | c :: l' => (cap_at s (SKid i :: p) c && go (S i) l')%bool
                 end) 0 l))
  | KExist it =>
      let lb := label_at s p n in
      let* r := (if (String.eqb lb "" || String.eqb lb "@" || String.eqb lb "&")%bool
                 then get_labels fuel (SKid 0 :: p) it s else ROk ([lb], s)) in
      let s1 := set_ps_labels (snd r) p (fst r) in
      let s2 := match fst r with
                | _ :: _ => if String.eqb lb "" then set_ps_label s1 p "@" else s1
                | [] => s1
                end in
      let c := get_caps (SKid 0 :: p) it s2 in
      ROk (set_ps_cap (set_ps_caps (snd c) p (fst c)) p (0 <? fst c))
  | _ => ROk s
  end.
Fixpoint prepare_all (fuel : nat) (l : list wev) (s : pst) : res pst :=
  match l with
  | [] => ROk s
  | WPre _ :: l' => prepare_all fuel l' s
  | WPost v :: l' => let* s' := prepare fuel v s in prepare_all fuel l' s'
  end.

(** parser_sequence.go:73-83, [calculateType], run after [postinit]. *)
Definition seq_type (fuel : nat) (s : pst) (p : path) (n : pn) : res seqtype :=
  let* l := get_labels fuel p n s in
  match fst l with
  | [] => ROk (if 1 <? fst (get_caps p n s) then TArray else TSingle)
  | _ :: _ => ROk TObject
  end.
Definition type_at (fuel : nat) (s : pst) (p : path) (n : pn) : seqtype :=
  match seq_type fuel s p n with ROk t => t | _ => TSingle end.
(** All sequences met by a walk have a type. *)
Fixpoint types (fuel : nat) (s : pst) (l : list wev) : res unit :=
  match l with
  | [] => ROk tt
  | WPost v :: l' =>
      match pn_kind (v_node v) with
      | KSeq _ _ => let* _ := seq_type fuel s (v_path v) (v_node v) in types fuel s l'
      | _ => types fuel s l'
      end
  | WPre _ :: l' => types fuel s l'
  end.

(** The node as the engine sees it.  [types] has checked that every [type_at]
    is a computed type. *)
Fixpoint freeze (fuel : nat) (s : pst) (p : path) (ph : bool) (n : pn) : node :=
  match n with
  | Pn i rs k =>
      let h := handles ph n in
      let fkids :=
        (fix go (j : nat) (l : list pn) : list node :=
           match l with
           | [] => []
           | c :: l' => freeze fuel s (SKid j :: p) h c :: go (S j) l'
           end) in
      Node (Info (pi_name i) (label_at s p n) (cap_at s p n)
              (pi_reg i && negb (pi_wrap i)) (id_of regs p) (negb ph)
              (lo_cb (pi_opts i)) (lo_skip (pi_opts i)) (lo_debug (pi_opts i)))
        match k with
        | KStr x => KStr x
        | KRegex x => KRegex x
        | KRef x => KRef x
        | KSeq _ l => KSeq (type_at fuel s p n) (fkids 0 l)
        | KChoice l => KChoice (fkids 0 l)
        | KPat v j mn mx =>
            KPat (freeze fuel s (SKid 0 :: p) h v)
              (match j with Some x => Some (freeze fuel s (SKid 1 :: p) h x) | None => None end) mn mx
        | KExist a => KExist (freeze fuel s (SKid 0 :: p) h a)
        | KLook a => KLook (freeze fuel s (SKid 0 :: p) h a)
        | KNot a => KNot (freeze fuel s (SKid 0 :: p) h a)
        | KUndef => KUndef
        end
  end.
End Prepare.

(** walk.go:42-59 with grammar.go:202-209: the Grammar's children are its rules,
    by name in the order of registration, then the rank. *)
Definition gm_walk (regs : list (string * visit)) (top : list wev) : list wev :=
  concat (map (fun q => match last_of regs (fst q) with
                        | Some v => walk (v_path v) (v_ph v) (v_node v)
                        | None => []
                        end) regs) ++ top.

(** grammar.go:211-317, [postinit]: the top rank and the rules by order of id,
    as the engine sees them. *)
Definition postinit (fuel : nat) (rank : pn) : res (node * list (string * node)) :=
  let r := optimize rank in
  let w := walk [] false r in
  let* cn := connect (Conn [] []) w in
  let regs := cn_regs cn in
  let* ps := prepare_all regs fuel (gm_walk regs w) pst0 in
  let* _ := types regs fuel ps w in
  ROk (freeze regs fuel ps [] false r,
       map (fun q => (fst q, freeze regs fuel ps (v_path (snd q)) (v_ph (snd q)) (v_node (snd q)))) regs).

(** grammar.go:12-20: numrules is the number of registrations; a name means the
    last rule registered under it. *)
Definition gram_of (b : node * list (string * node)) : gram :=
  Gram (fst b) (length (snd b)) (last_of (snd b)) false false (-1).

(** grammar.go:61-71, [GrammarWithOptionsFromLines], with Mute. *)
Definition build (compile : bytes -> res pexp) (fuel : nat) (name : string) (ls : list line) : res (node * list (string * node)) :=
  let* r := rank_from_lines compile name ls in
  postinit fuel r.
Definition grammar_from_lines (compile : bytes -> res pexp) (fuel : nat) (name : string) (ls : list line) : res gram :=
  let* b := build compile fuel name ls in ROk (gram_of b).
