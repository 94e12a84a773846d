(** Properties C05, C08-C15 (UTF-8 helpers, RuneStream, TokenStream). *)
From Verif Require Import Base Utf8 Utf8Spec Utf8Proofs Stream StreamSpec StreamRun StreamProofs.

(** C05 *)
Theorem C05_last_n_runes : forall (rs : list N) (bs : bytes) (n : Z), utf8s rs bs ->
  (65533%N ∉ last_n (Z.to_nat n) rs ->
     exists b', utf8s (last_n (Z.to_nat n) rs) b' /\ last_n_runes bs n = ROk b') /\
  (65533%N ∈ last_n (Z.to_nat n) rs -> exists p, last_n_runes bs n = RPanic p).
Proof. exact last_n_runes_prop. Qed.
Print Assumptions C05_last_n_runes.

Theorem C05_last_n_runes_any_bytes : forall (s : bytes) (n : Z),
  (exists k, last_n_runes s n = ROk (drop k s)) \/ last_n_runes s n = RPanic (PMsg "RuneError").
Proof. exact last_n_runes_any. Qed.
Print Assumptions C05_last_n_runes_any_bytes.

(** "a", e-acute, euro sign, an emoji. *)
Example C05_nonvacuous :
  utf8s [97; 233; 8364; 128512]%N [97; 195; 169; 226; 130; 172; 240; 159; 152; 128]%N /\
  last_n_runes [97; 195; 169; 226; 130; 172; 240; 159; 152; 128]%N 2 = ROk [226; 130; 172; 240; 159; 152; 128]%N /\
  last_n_runes [97; 239; 191; 189]%N 1 = RPanic (PMsg "RuneError").
Proof.
  split; [|split; reflexivity].
  apply (utf8s_cons 97%N [97%N]); [by constructor|].
  apply (utf8s_cons 233%N [195; 169]%N); [by apply (utf8_2 3 41)|].
  apply (utf8s_cons 8364%N [226; 130; 172]%N); [apply (utf8_3 2 2 44); lia|].
  apply (utf8s_cons 128512%N [240; 159; 152; 128]%N); [apply (utf8_4 0 31 24 0); lia|].
  constructor.
Qed.

(** C08 *)
Theorem C08_cursor_bounds : forall (text : bytes) (h : list call), Forall call_ok h ->
  let c := snd (call_run (CRune (new_rune_stream text)) h) in
  c_pos c <= length text /\ c_work c = text /\
  (forall n p, fst (call_step c (CallSetPos n)) = AnsPanic p -> (n < 0 \/ Z.of_nat (length text) < n)%Z) /\
  (forall n, (0 <= n <= Z.of_nat (length text))%Z ->
     fst (call_step c (CallSetPos n)) = AnsUnit /\ c_pos (snd (call_step c (CallSetPos n))) = Z.to_nat n) /\
  (forall n, (n < 0 \/ Z.of_nat (length text) < n)%Z -> exists p, fst (call_step c (CallSetPos n)) = AnsPanic p).
Proof. exact cursor_prop. Qed.
Print Assumptions C08_cursor_bounds.

Example C08_nonvacuous :
  call_run (CRune (new_rune_stream (s2b "abcabc")))
    [CallMatchString (s2b "ab"); CallSetPos 7; CallGetUntil (s2b "b"); CallMatchRune (fun _ => true);
     CallMatchRune (fun _ => true); CallSetPos (-1); CallPos]
  = ([AnsMatch (Some (s2b "ab")); AnsPanic (PMsg "out of bound"); AnsBytes (s2b "cab"); AnsRune (Some 99%N);
      AnsRune None; AnsPanic (PMsg "out of bound"); AnsZ 6],
     CRune (rs_with_pos (new_rune_stream (s2b "abcabc")) 6)).
Proof. reflexivity. Qed.

(** C09.  [c] is any stream (of either kind) whose cursor is within its text. *)
Theorem C09_match_string : forall (c : code) (s : bytes), c_pos c <= length (c_work c) ->
  (forall post, drop (c_pos c) (c_work c) = s ++ post ->
     exists c', c_match_string c s = ROk (Some s, c') /\ c_pos c' = c_pos c + length s /\ c_work c' = c_work c) /\
  ((forall post, drop (c_pos c) (c_work c) <> s ++ post) -> c_match_string c s = ROk (None, c)).
Proof. exact match_string_prop. Qed.
Print Assumptions C09_match_string.

Theorem C09_match_rune : forall (c : code) (f : N -> bool), c_pos c <= length (c_work c) ->
  (c_pos c = length (c_work c) -> c_match_rune c f = ROk (None, c)) /\
  (forall r b post, utf8 r b -> drop (c_pos c) (c_work c) = b ++ post ->
     if f r
     then exists c', c_match_rune c f = ROk (Some r, c') /\ c_pos c' = c_pos c + length b /\ c_work c' = c_work c
     else c_match_rune c f = ROk (None, c)) /\
  (c_pos c < length (c_work c) ->
   (forall r b post, utf8 r b -> drop (c_pos c) (c_work c) <> b ++ post) ->
     if f 65533%N
     then exists c', c_match_rune c f = ROk (Some 65533%N, c') /\ c_pos c' = c_pos c + 1 /\ c_work c' = c_work c
     else c_match_rune c f = ROk (None, c)).
Proof. exact match_rune_prop. Qed.
Print Assumptions C09_match_rune.

Theorem C09_match_regexp : forall (c : code) find, c_pos c <= length (c_work c) -> rx_ok find ->
  (forall l, find (drop (c_pos c) (c_work c)) = Some (0, l) ->
     exists c', c_match_regexp c find = ROk (Some (take l (drop (c_pos c) (c_work c))), c') /\
                c_pos c' = c_pos c + l /\ c_pos c' <= length (c_work c) /\ c_work c' = c_work c) /\
  ((forall l, find (drop (c_pos c) (c_work c)) <> Some (0, l)) -> c_match_regexp c find = ROk (None, c)).
Proof. exact match_regexp_prop. Qed.
Print Assumptions C09_match_regexp.

Example C09_nonvacuous :
  let c := CRune (rs_with_pos (new_rune_stream [97; 195; 169; 98]%N) 1) in
  c_pos c <= length (c_work c) /\ utf8 233 [195; 169]%N /\
  c_match_rune c (fun r => (r =? 233)%N) = ROk (Some 233%N, CRune (rs_with_pos (new_rune_stream [97; 195; 169; 98]%N) 3)).
Proof. split; [cbn; lia|]. split; [by apply (utf8_2 3 41)|reflexivity]. Qed.

(** C10: what the code does.  When the needle is absent everything is
    consumed, against the documentation. *)
Theorem C10_get_until_partial : forall (c : code) (needle : bytes), c_pos c <= length (c_work c) ->
  (forall o, occurs_at needle (drop (c_pos c) (c_work c)) o ->
     (forall k, k < o -> ~ occurs_at needle (drop (c_pos c) (c_work c)) k) ->
     exists c', c_get_until c needle = ROk (take (o + length needle) (drop (c_pos c) (c_work c)), c') /\
                c_pos c' = c_pos c + o + length needle /\ c_pos c' <= length (c_work c) /\ c_work c' = c_work c) /\
  ((forall o, ~ occurs_at needle (drop (c_pos c) (c_work c)) o) ->
     exists c', c_get_until c needle = ROk (drop (c_pos c) (c_work c), c') /\
                c_pos c' = length (c_work c) /\ c_work c' = c_work c).
Proof. exact get_until_prop. Qed.
Print Assumptions C10_get_until_partial.

Theorem C10_unfound_refuted : exists (text needle : bytes),
  (forall o, ~ occurs_at needle text o) /\
  ~ (exists c', c_get_until (CRune (new_rune_stream text)) needle = ROk ([], c') /\ c_pos c' = 0).
Proof.
  exists (s2b "abc"), (s2b "x"). split.
  - intros o [post H].
    do 4 (destruct o as [|o]; [discriminate H|]). discriminate H.
  - intros (c' & H & _). discriminate H.
Qed.
Print Assumptions C10_unfound_refuted.

Example C10_nonvacuous :
  c_get_until (CRune (new_rune_stream (s2b "abcbc"))) (s2b "bc")
  = ROk (s2b "abc", CRune (rs_with_pos (new_rune_stream (s2b "abcbc")) 3)).
Proof. reflexivity. Qed.

(** C11 *)
Theorem C11_line_col : forall (text : bytes) (p : nat),
  rs_pos_to_line (new_rune_stream text) (Z.of_nat p) = ROk (Z.of_nat (newlines (take p text))) /\
  exists c, rs_pos_to_col (new_rune_stream text) (Z.of_nat p) = ROk (Z.of_nat c) /\ column_of text p c.
Proof. exact line_col_prop. Qed.
Print Assumptions C11_line_col.

Theorem C11_line_col_determines_offset : forall (text : bytes) (p q : nat),
  rs_pos_to_line (new_rune_stream text) (Z.of_nat p) = rs_pos_to_line (new_rune_stream text) (Z.of_nat q) ->
  rs_pos_to_col (new_rune_stream text) (Z.of_nat p) = rs_pos_to_col (new_rune_stream text) (Z.of_nat q) ->
  p = q.
Proof. exact line_col_determines. Qed.
Print Assumptions C11_line_col_determines_offset.

(** A text with an invalid byte before a newline. *)
Example C11_nonvacuous :
  rs_pos_to_line (new_rune_stream [97; 226; 10; 98; 99]%N) 4 = ROk 1%Z /\
  rs_pos_to_col (new_rune_stream [97; 226; 10; 98; 99]%N) 4 = ROk 1%Z.
Proof. split; reflexivity. Qed.

(** C12 *)
Theorem C12_peek_runes : forall (c : code) (rs1 rs2 : list N) (n : Z),
  utf8s rs1 (take (c_pos c) (c_work c)) -> utf8s rs2 (drop (c_pos c) (c_work c)) ->
  c_pos c <= length (c_work c) ->
  ((0 < n)%Z -> exists b, utf8s (take (Z.to_nat n) rs2) b /\ c_peek_runes c n = ROk b) /\
  ((n <= 0)%Z -> 65533%N ∉ last_n (Z.to_nat (- n)) rs1 ->
     exists b, utf8s (last_n (Z.to_nat (- n)) rs1) b /\ c_peek_runes c n = ROk b).
Proof. exact peek_prop. Qed.
Print Assumptions C12_peek_runes.

Theorem C12_peek_does_not_move : forall (c : code) (k : call),
  match k with CallPeekRunes _ | CallPeekLines _ | CallPos | CallLine | CallCol => True | _ => False end ->
  snd (call_step c k) = c.
Proof. exact peek_still. Qed.
Print Assumptions C12_peek_does_not_move.

(** A well-formed text that holds U+FFFD makes backwards peeking panic. *)
Theorem C12_peek_back_refuted : exists (text : bytes) (rs : list N) (p : panic),
  utf8s rs text /\ rs_peek_runes (rs_with_pos (new_rune_stream text) (length text)) (-1) = RPanic p.
Proof.
  exists [239; 191; 189]%N, [65533%N], (PMsg "RuneError"). split; [|reflexivity].
  apply (utf8s_cons 65533%N [239; 191; 189]%N); [apply (utf8_3 15 63 61); lia|constructor].
Qed.
Print Assumptions C12_peek_back_refuted.

Example C12_nonvacuous :
  rs_peek_runes (rs_with_pos (new_rune_stream [97; 195; 169; 98; 99]%N) 3) 1 = ROk [98]%N /\
  rs_peek_runes (rs_with_pos (new_rune_stream [97; 195; 169; 98; 99]%N) 3) (-1) = ROk [195; 169]%N.
Proof. split; reflexivity. Qed.

(** C13: holds as long as some requested line exists. *)
Theorem C13_peek_lines_partial : forall (text : bytes) (p : nat) (ns : list Z) (mn mx : Z),
  ns <> [] -> is_min mn (with_implied_zero ns) -> is_max mx (with_implied_zero ns) ->
  let cur := Z.of_nat (newlines (take p text)) in
  let last_line := Z.of_nat (newlines text) in
  (cur + mn <= last_line)%Z -> (0 <= cur + mx)%Z ->
  rs_peek_lines (rs_with_pos (new_rune_stream text) p) ns =
  ROk (lines_between text (Z.to_nat (Z.max 0 (cur + mn))) (Z.to_nat (Z.min last_line (cur + mx)))).
Proof. exact peek_lines_prop. Qed.
Print Assumptions C13_peek_lines_partial.

(** PeekLines() does not return the current line. *)
Theorem C13_no_argument_refuted : exists (text : bytes) (p : nat),
  rs_peek_lines (rs_with_pos (new_rune_stream text) p) [] <> ROk (lines_between text 0 0) /\ newlines text = 0.
Proof. exists (s2b "abc"), 0. split; [discriminate|reflexivity]. Qed.
Print Assumptions C13_no_argument_refuted.

(** PeekLines(1,2) on the last line panics. *)
Theorem C13_no_panic_refuted : exists (text : bytes) (ns : list Z) (p : panic),
  rs_peek_lines (new_rune_stream text) ns = RPanic p.
Proof. exists (s2b "abc"), [1; 2]%Z, PIndex. reflexivity. Qed.
Print Assumptions C13_no_panic_refuted.

(** PeekLines(-1,-1) on the first of two lines returns nearly the whole text
    instead of nothing. *)
Theorem C13_before_first_refuted : exists (text r : bytes),
  rs_peek_lines (new_rune_stream text) [-1; -1]%Z = ROk r /\ r <> [] /\ r <> lines_between text 0 0.
Proof. exists (s2b "abc" ++ 10%N :: s2b "def"), (s2b "abc" ++ 10%N :: s2b "de"). repeat split; discriminate. Qed.
Print Assumptions C13_before_first_refuted.

Example C13_nonvacuous :
  let text := s2b "a" ++ 10%N :: s2b "bb" ++ 10%N :: s2b "ccc" ++ 10%N :: s2b "d" in
  is_min (-1) (with_implied_zero [1; -1]%Z) /\ is_max 1 (with_implied_zero [1; -1]%Z) /\
  rs_peek_lines (rs_with_pos (new_rune_stream text) 3) [1; -1]%Z
  = ROk (s2b "a" ++ 10%N :: s2b "bb" ++ 10%N :: s2b "ccc").
Proof.
  split; [split; [right; left|repeat constructor; lia]|].
  split; [split; [left|repeat constructor; lia]|reflexivity].
Qed.

(** C14 *)
Theorem C14_token_stream_scans_alike : forall (text : bytes) (toks : list token) (h : list call),
  Forall call_ok h -> Forall (fun k => line_call k = false) h ->
  c_work (CTok (new_token_stream text toks)) = mjoin (tk_repr <$> toks) /\
  fst (call_run (CTok (new_token_stream text toks)) h) =
  fst (call_run (CRune (new_rune_stream (mjoin (tk_repr <$> toks)))) h) /\
  c_pos (snd (call_run (CTok (new_token_stream text toks)) h)) =
  c_pos (snd (call_run (CRune (new_rune_stream (mjoin (tk_repr <$> toks)))) h)).
Proof. exact token_scan_prop. Qed.
Print Assumptions C14_token_stream_scans_alike.

Example C14_nonvacuous :
  fst (call_run (CTok (new_token_stream (s2b "x  :=  1") [Token (s2b "x") 0 0; Token (s2b ":=") 3 1; Token (s2b "1") 7 3]))
        [CallMatchString (s2b "x:"); CallGetUntil (s2b "1"); CallPos; CallPeekRunes (-2)])
  = [AnsMatch (Some (s2b "x:")); AnsBytes (s2b "=1"); AnsZ 4; AnsBytes (s2b "=1")].
Proof. reflexivity. Qed.

(** C15: for every token but the last one (and for a single token). *)
Theorem C15_token_coords_partial : forall (text : bytes) (toks : list token) (k : nat) (t : token) (w : nat),
  let ts := new_token_stream text toks in
  (forall k t, toks !! k = Some t -> tk_work t = Z.of_nat (work_start (tk_repr <$> toks) k)) ->
  toks !! k = Some t -> (0 <= tk_orig t)%Z ->
  (S k < length toks \/ length toks = 1) ->
  work_start (tk_repr <$> toks) k <= w < work_start (tk_repr <$> toks) k + length (tk_repr t) ->
  let o := Z.to_nat (tk_orig t) + (w - work_start (tk_repr <$> toks) k) in
  ts_pos_to_line ts (Z.of_nat w) = ROk (Z.of_nat (newlines (take o text))) /\
  exists c, ts_pos_to_col ts (Z.of_nat w) = ROk (Z.of_nat c) /\ column_of text o c.
Proof. exact token_coords_prop. Qed.
Print Assumptions C15_token_coords_partial.

(** For the last of several tokens the offset is wrong: "ab c" with tokens "ab"
    and "c" reports column 5 for "c", which is at column 3. *)
Theorem C15_last_token_refuted : exists (text : bytes) (toks : list token) (t : token) (w : nat) (z : Z),
  (forall k t, toks !! k = Some t -> tk_work t = Z.of_nat (work_start (tk_repr <$> toks) k) /\
     occurs_at (tk_repr t) text (Z.to_nat (tk_orig t))) /\
  last toks = Some t /\ (tk_work t <= Z.of_nat w < tk_work t + Z.of_nat (length (tk_repr t)))%Z /\
  newlines text = 0 /\
  ts_pos_to_col (new_token_stream text toks) (Z.of_nat w) = ROk z /\
  z <> (tk_orig t + (Z.of_nat w - tk_work t))%Z.
Proof.
  exists (s2b "ab c"), [Token (s2b "ab") 0 0; Token (s2b "c") 3 2], (Token (s2b "c") 3 2), 2, 5%Z.
  split.
  { intros [|[|k]] t H; [injection H as <-|injection H as <-|discriminate H]; (split; [reflexivity|]).
    - by exists (s2b " c").
    - by exists []. }
  split; [done|]. split; [cbn; lia|]. split; [done|]. split; [reflexivity|discriminate].
Qed.
Print Assumptions C15_last_token_refuted.

Example C15_nonvacuous :
  ts_pos_to_col (new_token_stream (s2b "x  :=  1") [Token (s2b "x") 0 0; Token (s2b ":=") 3 1; Token (s2b "1") 7 3]) 2
  = ROk 4%Z.
Proof. reflexivity. Qed.
