(** The textbook reading of the lisp grammar. *)
From Verif Require Import Base Helpers Utf8 Utf8Proofs Stream StreamSpec Native Engine EngSpec EngInv Toy Peg PegProofs PegRep PegBody PegStd PegStdProofs
  RunSpec PegLaws PegRun Build BuildSpec BuildMain Joeson JoesonSpec JoesonRun Calc CalcRun CalcSpec CalcPeg LispRead LispReadRun LispReadSpec Gives.

(** ** The parsers by name *)
Definition ns_lit (s : bytes) : node := nd "" false false (KStr s).
Definition nc_lit (s : bytes) : node := nd "" false true (KStr s).
Definition ns_ref (s : string) : node := nd "" false false (KRef s).
Definition nr_word : node := rl "word" true 0 None (KRegex re_ident).
Definition n_item : node := nd "" true true (KRef "expr").
Definition n_apart : node := nd "" false true (KRef "__").
Definition n_items : node := nd "" true false (KPat n_item (Some n_apart) (-1) (-1)).
Definition nr_list : node := rl "list" true 1 (Some 0) (KSeq TSingle [ns_lit [40%N]; ns_ref "_"; n_items; ns_ref "_"; ns_lit [41%N]]).
Definition n_char : node := nd "" true true (KRegex re_unquote).
Definition n_chars : node := nd "" true false (KPat n_char None (-1) (-1)).
Definition nr_string : node := rl "string" true 2 (Some 1) (KSeq TSingle [ns_lit [34%N]; n_chars; ns_lit [34%N]]).
Definition nr_number : node := rl "number" true 3 (Some 2) (KRegex re_signed).
Definition n_word : node := nd "" true true (KRef "word").
Definition nr_operator : node := rl "operator" false 4 (Some 3) (KChoice (n_word :: (nc_lit <$> symbols))).
Definition nr_expr : node := rl "expr" false 5 None (KChoice [nr_list; nr_string; nr_number; nr_operator]).
Definition n_space : node := nd "" false true (KRef "_SPACECHAR").
Definition nr_sp : node := rl "_" false 6 None (KPat n_space None (-1) (-1)).
Definition nr_gap : node := rl "__" false 7 None (KPat n_space None 1 (-1)).
Definition nr_space : node := rl "_SPACECHAR" false 8 None (KChoice (nc_lit <$> [[32%N]; [9%N]; [10%N]])).
Definition nr_dot : node := rl "." false 9 None (KChoice [nc_lit [115%N]; nc_lit [83%N]]).
Definition nr_esc : node := rl "ESC1" true 10 None (KSeq TSingle [ns_lit [92%N]; rf "."]).
Definition nr_line : node := rl "lisp[0]" true 11 None (KSeq TSingle [ns_ref "_"; rf "expr"; ns_ref "_"]).
Definition nl_top : node := Node (Info "lisp" "" true false 0 true None false false) (KChoice [nr_line]).
Lemma lisp_nodes : lisp = (nl_top, [("word", nr_word); ("list", nr_list); ("string", nr_string); ("number", nr_number); ("operator", nr_operator);
  ("expr", nr_expr); ("_", nr_sp); ("__", nr_gap); ("_SPACECHAR", nr_space); (".", nr_dot); ("ESC1", nr_esc); ("lisp[0]", nr_line)]%string).
Proof. reflexivity. Qed.

(** ** The callbacks as functions of values *)
Definition is_expr_v (v : val) : bool := match v with VUser 0 _ | VUser 1 _ | VUser 2 _ | VUser 3 _ => true | _ => false end.
Fixpoint strs (l : list val) : option bytes :=
  match l with
  | [] => Some []
  | VStr s :: l' => match strs l' with Some r => Some (s ++ r) | None => None end
  | _ => None
  end.
(** [Some None]: the callback panics. *)
Definition lisp_val (f : nat) (v : val) : option (option val) :=
  match f, v with
  | 0, VArr l => if forallb is_expr_v l then Some (Some (VUser 2 l)) else None
  | 1, VArr l => match strs l with Some s => Some (Some (VUser 0 [VStr s])) | None => None end
  | 2, VStr s => Some ((fun z => VUser 1 [VInt z]) <$> atoi s)
  | 3, VStr s => Some (Some (VUser 3 [VStr s]))
  | _, _ => None
  end.
(** With [t = Some k] the callbacks return a user value instead of panicking. *)
Definition lisp_cbf (t : option nat) (f pos : nat) (v : val) : option (option val) :=
  match lisp_val f v with
  | None => None
  | Some (Some y) => Some (Some y)
  | Some None => match t with Some k => Some (Some (VUser k [])) | None => None end
  end.
Definition lisp_cb_with (t : option nat) (f pos : nat) (h : heap) (x : ast) : cbres :=
  match t, lisp_cb f pos h x with
  | Some k, CbPanic _ => CbRet h (Some (AUser k []))
  | _, r => r
  end.

(** ** Values of expressions *)
Fixpoint sval (t : nat) (e : sexp) : val :=
  match e with
  | SNum z => if fits z then VUser 1 [VInt z] else VUser t []
  | SStr s => VUser 0 [VStr s]
  | SOp s => VUser 3 [VStr s]
  | SList l => VUser 2 (sval t <$> l)
  end.
Lemma sexp_ind2 (P : sexp -> Prop) : (forall z, P (SNum z)) -> (forall s, P (SStr s)) -> (forall s, P (SOp s)) ->
  (forall l, Forall P l -> P (SList l)) -> forall e, P e.
Proof.
  intros H1 H2 H3 H4. fix IH 1. intros [z|s|s|l]; [apply H1|apply H2|apply H3|]. apply H4.
  induction l as [|e l IHl]; constructor; [apply IH|exact IHl].
Qed.
Lemma sval_expr k e : k <= 1 -> is_expr_v (sval k e) = true.
Proof. intros Hk. destruct e; cbn; try done. destruct (fits z); [done|]. by destruct k as [|[|k]]; [| |lia]. Qed.

(** ** Regular expressions *)
Lemma leftmost_far m fuel : forall s i a b, leftmost m fuel s i = Some (a, b) -> i <= a.
Proof.
  induction fuel as [|f IH]; intros s i a b; cbn [leftmost]; [done|]. destruct (m s); [intros [= <- <-]; lia|].
  destruct s; [done|]. intros H%IH. lia.
Qed.
Lemma leftmost_no m fuel s a b : m s = None -> leftmost m fuel s 0 = Some (a, b) -> 0 < a.
Proof.
  destruct fuel as [|f]; cbn [leftmost]; [done|]. intros ->. destruct s as [|c s]; [done|]. intros H%leftmost_far.
  pose proof (decode_rune_width (c :: s) ltac:(done)). lia.
Qed.
Definition m_of (re : bytes) : bytes -> option nat :=
  if bytes_eqb re re_unquote then m_unquote else if bytes_eqb re re_signed then m_signed
  else if bytes_eqb re re_ident then m_ident else fun _ => None.
Lemma lisp_rgx text re p : rgx lisp_rx text re p = match m_of re (drop p text) with Some n => Some (VStr (take n (drop p text)), p + n) | None => None end.
Proof.
  unfold rgx. set (s := drop p text).
  assert (forall m, match leftmost m (S (length s)) s 0 with Some (0, b) => Some (VStr (take b s), p + b) | _ => None end =
    match m s with Some n => Some (VStr (take n s), p + n) | None => None end) as H.
  { intros m. destruct (m s) as [n|] eqn:E; [cbn [leftmost]; by rewrite E|].
    destruct (leftmost m _ s 0) as [[a b]|] eqn:EL; [|done]. pose proof (leftmost_no _ _ _ _ _ E EL). by destruct a; [lia|]. }
  unfold lisp_rx, m_of. destruct (bytes_eqb re re_unquote); [apply H|]. destruct (bytes_eqb re re_signed); [apply H|].
  destruct (bytes_eqb re re_ident); [apply H|done].
Qed.
