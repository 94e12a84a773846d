(** Properties C108 to C110: what the code does where C13, C15 and C32 fail. *)
From Verif Require Import Base Helpers Utf8 Stream StreamSpec Native Engine CombProofs StreamExact Toy.
Local Open Scope list_scope.

(** C108 *)
Theorem C108_lines : forall (text : bytes) (p : nat) (ns : list Z) (mn mx : Z),
  is_min mn (with_implied_zero ns) -> is_max mx (with_implied_zero ns) ->
  let cur := Z.of_nat (newlines (take p text)) in
  let last_line := Z.of_nat (newlines text) in
  let peek := rs_peek_lines (rs_with_pos (new_rune_stream text) p) ns in
  ((cur + mn <= last_line)%Z -> (0 <= cur + mx)%Z ->
     peek = ROk (lines_between text (Z.to_nat (Z.max 0 (cur + mn))) (Z.to_nat (Z.min last_line (cur + mx))))) /\
  ((last_line < cur + mn)%Z -> exists q, peek = RPanic q) /\
  ((cur + mx = -1)%Z -> peek = ROk (take (length text - 1) text)) /\
  ((cur + mx < -1)%Z -> exists q, peek = RPanic q).
Proof. exact lines_exact. Qed.
Print Assumptions C108_lines.

Theorem C108_no_argument : forall (text : bytes) (p : nat),
  rs_peek_lines (rs_with_pos (new_rune_stream text) p) [] = ROk [].
Proof. exact lines_none. Qed.
Print Assumptions C108_no_argument.

Theorem C108_tokens : forall (text : bytes) (toks : list token) (w o : nat) (ns : list Z),
  let ts := ts_with_pos (new_token_stream text toks) w in
  ts_line ts = ROk (Z.of_nat (newlines (take o text))) ->
  (ns <> [] -> ts_peek_lines ts ns = rs_peek_lines (rs_with_pos (new_rune_stream text) o) ns) /\
  ts_peek_lines ts [] = ROk (lines_between text (newlines (take o text)) (newlines (take o text))).
Proof. exact token_lines. Qed.
Print Assumptions C108_tokens.

(** Three lines, the cursor in the second: the line before the first, beyond
    the last, two before the first; the same in tokens. *)
Example C108_nonvacuous :
  let text := s2b "a" ++ 10%N :: s2b "bb" ++ 10%N :: s2b "ccc" in
  let r := rs_with_pos (new_rune_stream text) 3 in
  let toks := [Token (s2b "a") 0 0; Token (s2b "bb") 2 1; Token (s2b "ccc") 5 3] in
  let ts := ts_with_pos (new_token_stream text toks) 1 in
  is_max (-2) (with_implied_zero [-2; -2]%Z) /\
  rs_peek_lines r [-2; -2]%Z = ROk (take 7 text) /\ length text = 8 /\
  rs_peek_lines r [2; 3]%Z = RPanic PIndex /\ rs_peek_lines r [-3; -4]%Z = RPanic PIndex /\
  rs_peek_lines r [1]%Z = ROk (drop 2 text) /\
  ts_line ts = ROk (Z.of_nat (newlines (take 2 text))) /\ ts_peek_lines ts [] = ROk (s2b "bb") /\
  ts_peek_lines ts [1]%Z = ROk (drop 2 text).
Proof. split; [split; [left|repeat constructor; lia]|]. vm_compute. auto 10. Qed.

(** C109 *)
Theorem C109_last_token : forall (text : bytes) (toks : list token) (prev t : token) (w : nat),
  let ts := new_token_stream text toks in
  let k := length toks - 1 in
  (forall k t, toks !! k = Some t -> tk_work t = Z.of_nat (work_start (tk_repr <$> toks) k)) ->
  2 <= length toks -> toks !! (k - 1) = Some prev -> toks !! k = Some t -> (0 <= tk_orig t)%Z ->
  work_start (tk_repr <$> toks) k <= w ->
  let o := Z.to_nat (tk_orig t) + (w - work_start (tk_repr <$> toks) k) + length (tk_repr prev) in
  ts_pos_to_line ts (Z.of_nat w) = ROk (Z.of_nat (newlines (take o text))) /\
  exists c, ts_pos_to_col ts (Z.of_nat w) = ROk (Z.of_nat c) /\ column_of text o c.
Proof. exact last_token_exact. Qed.
Print Assumptions C109_last_token.

(** "x  :=  12": the last token is at 7, the token before has two bytes. *)
Example C109_nonvacuous :
  let toks := [Token (s2b "x") 0 0; Token (s2b ":=") 3 1; Token (s2b "12") 7 3] in
  work_start (tk_repr <$> toks) 2 = 3 /\
  ts_pos_to_col (new_token_stream (s2b "x  :=  12") toks) 4 = ROk (7 + 1 + 2)%Z.
Proof. split; reflexivity. Qed.

(** C110 *)
Theorem C110_two : forall (E : env) rec (lf : nat) (i i2 : info) (v : node) (j : option node) (mn mx : Z) (s : st),
  (0 <= mx <= 1)%Z ->
  body E rec lf (Node i (KPat v j mn mx)) s = body E rec lf (Node i2 (KPat v j mn 2)) s.
Proof. exact bound_two. Qed.
Print Assumptions C110_two.

Theorem C110_count : forall (E : env) rec (lf : nat) (n v : node) (j : option node) (mn mx : Z) (s : st) (vs : list ast) (s' : st),
  n_kind n = KPat v j mn mx -> body E rec lf n s = Ok (Some (AArr vs)) s' ->
  (mn <= Z.of_nat (length vs))%Z /\ ((-1 < mx)%Z -> (Z.of_nat (length vs) <= Z.max 2 mx)%Z).
Proof. exact pattern_count. Qed.
Print Assumptions C110_count.

Example C110_nonvacuous :
  let E := toy_env 0 [] no_cb in
  let go t mn mx := sum id (parse E 9 (Node (ni true) (KPat (cstr "a") None mn mx)) (init_st (CRune (new_rune_stream (s2b t))) 0)) in
  go "aaa"%string 0%Z 0%Z = Value (Some (AArr [AStr (s2b "a"); AStr (s2b "a")])) 2 /\
  go "aaa"%string 2%Z 1%Z = Value (Some (AArr [AStr (s2b "a"); AStr (s2b "a")])) 2 /\
  go "aaa"%string 3%Z 1%Z = Value None 0.
Proof. vm_compute. auto. Qed.
