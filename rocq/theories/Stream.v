(** Model of codestream_rune.go and codestream_token.go.  No proofs here.

    Offsets are [nat] except arguments that Go code may pass negative ([Z]).
    Slicing that could be out of range is checked ([go_slice]). *)
From Verif Require Import Base Helpers Utf8.

(** Go [s[i:j]]. *)
Definition go_slice (s : bytes) (i j : nat) : res bytes :=
  if ((i <=? j) && (j <=? length s))%bool then ROk (slice s i j) else RPanic PIndex.

(** Go [a[i]] for an index that may be negative. *)
Definition go_index {A} (a : list A) (i : Z) : res A :=
  if (i <? 0)%Z then RPanic PIndex
  else match a !! Z.to_nat i with Some x => ROk x | None => RPanic PIndex end.

(** Does [s] start with [p]? *)
Fixpoint has_prefix (p s : bytes) : bool :=
  match p, s with
  | [], _ => true
  | x :: p', y :: s' => (x =? y)%N && has_prefix p' s'
  | _ :: _, [] => false
  end.

(** Go strings.Index: first offset where [sub] occurs. *)
Fixpoint str_index (s sub : bytes) : option nat :=
  if has_prefix sub s then Some 0
  else match s with
       | [] => None
       | _ :: s' => S <$> str_index s' sub
       end.

(** codestream_rune.go:28-33 and codestream_token.go:71-76. *)
Definition line_starts (text : bytes) : list Z :=
  0%Z :: ((fun '(pos, r) => Z.of_nat (pos + 1)) <$>
            filter (fun '(pos, r) => r = 10%N) (range_string text)).

(** ** RuneStream *)

(** codestream_rune.go:14-25. *)
Record rstream := RStream { rs_text : bytes; rs_pos : nat; rs_lines : list Z }.

(** codestream_rune.go:27-35. *)
Definition new_rune_stream (text : bytes) : rstream := RStream text 0 (line_starts text).

Definition rs_with_pos (r : rstream) (p : nat) : rstream := RStream (rs_text r) p (rs_lines r).

(** codestream_rune.go:38-44. *)
Definition rs_set_pos (r : rstream) (n : Z) : res rstream :=
  if ((n <? 0) || (Z.of_nat (length (rs_text r)) <? n))%Z%bool
  then RPanic (PMsg "out of bound")
  else ROk (rs_with_pos r (Z.to_nat n)).

(** codestream_rune.go:46. *)
Definition rs_pos_to_line (r : rstream) (p : Z) : res Z :=
  let* i := bisect_right (rs_lines r) p in ROk (Z.of_nat i - 1)%Z.
(** codestream_rune.go:47. *)
Definition rs_pos_to_col (r : rstream) (p : Z) : res Z :=
  let* l := rs_pos_to_line r p in
  let* st := go_index (rs_lines r) l in
  ROk (p - st)%Z.
(** codestream_rune.go:49-50. *)
Definition rs_line (r : rstream) : res Z := rs_pos_to_line r (Z.of_nat (rs_pos r)).
Definition rs_col (r : rstream) : res Z := rs_pos_to_col r (Z.of_nat (rs_pos r)).

(** codestream_rune.go:57-68. *)
Definition rs_get_until (r : rstream) (needle : bytes) : res (bytes * rstream) :=
  let* rest := go_slice (rs_text r) (rs_pos r) (length (rs_text r)) in
  let offset := match str_index rest needle with
                | None => length (rs_text r)
                | Some o => o + rs_pos r + length needle
                end in
  let* out := go_slice (rs_text r) (rs_pos r) offset in
  ROk (out, rs_with_pos r offset).

(** The forward loop of PeekRunes, codestream_rune.go:75-84: write runes until
    [i >= n] ([n >= 1] here). *)
Definition peek_forward (s : bytes) (n : nat) : bytes :=
  take n (range_string s) ≫= (fun '(_, r) => encode_rune r).

(** codestream_rune.go:71-86. *)
Definition rs_peek_runes (r : rstream) (n : Z) : res bytes :=
  if (n <=? 0)%Z then
    let* pre := go_slice (rs_text r) 0 (rs_pos r) in
    last_n_runes pre (- n)
  else
    let* post := go_slice (rs_text r) (rs_pos r) (length (rs_text r)) in
    ROk (peek_forward post (Z.to_nat n)).

Definition list_min (x : Z) (l : list Z) : Z := fold_left Z.min l x.
Definition list_max (x : Z) (l : list Z) : Z := fold_left Z.max l x.

(** The common end of codestream_rune.go:99-117 and codestream_token.go:174-192. *)
Definition peek_lines_range (text : bytes) (lines : list Z) (line mn mx : Z) : res bytes :=
  let* start := go_index lines (Z.max 0 (line + mn)) in
  let last := (Z.of_nat (length lines) - 1)%Z in
  let end_line := Z.min last (line + mx) in
  let* e := (if (end_line <? last)%Z
             then let* x := go_index lines (end_line + 1) in ROk (x - 1)%Z
             else ROk (Z.of_nat (length text))) in
  slice_string text start e.

(** codestream_rune.go:93-118. *)
Definition rs_peek_lines (r : rstream) (ns : list Z) : res bytes :=
  match ns with
  | [] => ROk []
  | n0 :: rest =>
      let ns := match rest with [] => [n0; 0%Z] | _ => ns end in
      let* line := rs_line r in
      peek_lines_range (rs_text r) (rs_lines r) line (list_min n0 ns) (list_max n0 ns)
  end.

(** codestream_rune.go:123-129.  [None]: did not match. *)
Definition rs_match_string (r : rstream) (s : bytes) : res (option bytes * rstream) :=
  let* sub := go_slice (rs_text r) (rs_pos r) (Nat.min (rs_pos r + length s) (length (rs_text r))) in
  if bytes_eqb s sub then ROk (Some s, rs_with_pos r (rs_pos r + length s))
  else ROk (None, r).

(** codestream_rune.go:134-148.  [loc] is the answer of
    [re.FindStringIndex(text[pos:])]. *)
Definition rs_match_regexp (r : rstream) (find : bytes -> option (nat * nat))
  : res (option bytes * rstream) :=
  let* rest := go_slice (rs_text r) (rs_pos r) (length (rs_text r)) in
  match find rest with
  | None => ROk (None, r)
  | Some (l0, l1) =>
      if negb (l0 =? 0) then ROk (None, r)
      else
        let* s := go_slice (rs_text r) (rs_pos r + l0)
                    (Nat.min (rs_pos r + l1) (length (rs_text r))) in
        ROk (Some s, rs_with_pos r (rs_pos r + l1))
  end.

(** codestream_rune.go:153-179. *)
Definition rs_match_rune (r : rstream) (f : N -> bool) : res (option N * rstream) :=
  if length (rs_text r) <=? rs_pos r then ROk (None, r)
  else
    let* rest := go_slice (rs_text r) (rs_pos r) (length (rs_text r)) in
    match range_string rest with
    | [] =>
        let* r' := rs_set_pos r (Z.of_nat (length (rs_text r))) in ROk (Some 0%N, r')
    | (_, c) :: more =>
        if f c then
          let newpos := match more with
                        | [] => rs_pos r
                        | (off, _) :: _ => rs_pos r + off
                        end in
          let* r' := rs_set_pos r (if newpos =? rs_pos r
                                   then Z.of_nat (length (rs_text r))
                                   else Z.of_nat newpos) in
          ROk (Some c, r')
        else ROk (None, r)
    end.

(** ** TokenStream *)

(** codestream_token.go:43-48. *)
Record token := Token { tk_repr : bytes; tk_orig : Z; tk_work : Z }.

(** codestream_token.go:36-42. *)
Record tstream := TStream {
  ts_tokens : list token; ts_original : bytes; ts_work : bytes;
  ts_pos : nat; ts_lines : list Z }.

(** codestream_token.go:70-82. *)
Definition new_token_stream (text : bytes) (toks : list token) : tstream :=
  TStream toks text (toks ≫= tk_repr) 0 (line_starts text).

Definition ts_with_pos (t : tstream) (p : nat) : tstream :=
  TStream (ts_tokens t) (ts_original t) (ts_work t) p (ts_lines t).

(** codestream_token.go:92-97. *)
Definition ts_set_pos (t : tstream) (n : Z) : res tstream :=
  if ((n <? 0) || (Z.of_nat (length (ts_work t)) <? n))%Z%bool
  then RPanic (PMsg "out of bound")
  else ROk (ts_with_pos t (Z.to_nat n)).

(** codestream_token.go:301-318, the loop: [n] is [nToken], [tok] the variable
    [token] (initially the zero Token).  It ends with the number of the token
    and the last value of [token]. *)
Fixpoint coords_loop (toks : list token) (n : nat) (tok : token) (w : Z) (len : nat) : nat * token :=
  match toks with
  | [] => (n, tok)
  | t :: toks' =>
      if len - 1 <=? n then (n, tok)
      else if (w <? tk_work t + Z.of_nat (length (tk_repr t)))%Z then (n, t)
      else coords_loop toks' (S n) t w len
  end.

Definition zero_token : token := Token [] 0 0.

(** codestream_token.go:301-332: (nToken, originalOffset). *)
Definition ts_coords (t : tstream) (w : Z) : res (nat * Z) :=
  match ts_tokens t with
  | [] => ROk (0, 0%Z)
  | _ =>
      let '(n, tok) := coords_loop (ts_tokens t) 0 zero_token w (length (ts_tokens t)) in
      match ts_tokens t !! n with
      | None => RPanic (PMsg "nToken goes beyond")
      | Some tn => ROk (n, (tk_orig tn + (w - tk_work tok))%Z)
      end
  end.

(** codestream_token.go:107-119. *)
Definition ts_pos_to_line (t : tstream) (w : Z) : res Z :=
  let* c := ts_coords t w in
  let* i := bisect_right (ts_lines t) (snd c) in ROk (Z.of_nat i - 1)%Z.
Definition ts_pos_to_col (t : tstream) (w : Z) : res Z :=
  let* c := ts_coords t w in
  let* l := ts_pos_to_line t w in
  let* st := go_index (ts_lines t) l in
  ROk (snd c - st)%Z.
(** codestream_token.go:100-103. *)
Definition ts_line (t : tstream) : res Z := ts_pos_to_line t (Z.of_nat (ts_pos t)).
Definition ts_col (t : tstream) : res Z := ts_pos_to_col t (Z.of_nat (ts_pos t)).

(** codestream_token.go:131-142. *)
Definition ts_get_until (t : tstream) (needle : bytes) : res (bytes * tstream) :=
  let* rest := go_slice (ts_work t) (ts_pos t) (length (ts_work t)) in
  let offset := match str_index rest needle with
                | None => length (ts_work t)
                | Some o => o + ts_pos t + length needle
                end in
  let* out := go_slice (ts_work t) (ts_pos t) offset in
  ROk (out, ts_with_pos t offset).

(** codestream_token.go:147-162. *)
Definition ts_peek_runes (t : tstream) (n : Z) : res bytes :=
  if (n <=? 0)%Z then
    let* pre := go_slice (ts_work t) 0 (ts_pos t) in
    last_n_runes pre (- n)
  else
    let* post := go_slice (ts_work t) (ts_pos t) (length (ts_work t)) in
    ROk (peek_forward post (Z.to_nat n)).

(** codestream_token.go:168-193. *)
Definition ts_peek_lines (t : tstream) (ns : list Z) : res bytes :=
  let '(n0, ns) := match ns with
                   | [] => (0%Z, [0%Z])
                   | [n0] => (n0, [n0; 0%Z])
                   | n0 :: _ => (n0, ns)
                   end in
  let* line := ts_line t in
  peek_lines_range (ts_original t) (ts_lines t) line (list_min n0 ns) (list_max n0 ns).

(** codestream_token.go:198-224. *)
Definition ts_match_rune (t : tstream) (f : N -> bool) : res (option N * tstream) :=
  if length (ts_work t) <=? ts_pos t then ROk (None, t)
  else
    let* rest := go_slice (ts_work t) (ts_pos t) (length (ts_work t)) in
    match range_string rest with
    | [] =>
        let* t' := ts_set_pos t (Z.of_nat (length (ts_work t))) in ROk (Some 0%N, t')
    | (_, c) :: more =>
        if f c then
          let newpos := match more with
                        | [] => ts_pos t
                        | (off, _) :: _ => ts_pos t + off
                        end in
          let* t' := ts_set_pos t (if newpos =? ts_pos t
                                   then Z.of_nat (length (ts_work t))
                                   else Z.of_nat newpos) in
          ROk (Some c, t')
        else ROk (None, t)
    end.

(** codestream_token.go:229-236. *)
Definition ts_match_string (t : tstream) (s : bytes) : res (option bytes * tstream) :=
  let* sub := go_slice (ts_work t) (ts_pos t) (Nat.min (ts_pos t + length s) (length (ts_work t))) in
  if bytes_eqb s sub then ROk (Some s, ts_with_pos t (ts_pos t + length s))
  else ROk (None, t).

(** codestream_token.go:241-255. *)
Definition ts_match_regexp (t : tstream) (find : bytes -> option (nat * nat))
  : res (option bytes * tstream) :=
  let* rest := go_slice (ts_work t) (ts_pos t) (length (ts_work t)) in
  match find rest with
  | None => ROk (None, t)
  | Some (l0, l1) =>
      if negb (l0 =? 0) then ROk (None, t)
      else
        let* s := go_slice (ts_work t) (ts_pos t + l0)
                    (Nat.min (ts_pos t + l1) (length (ts_work t))) in
        ROk (Some s, ts_with_pos t (ts_pos t + l1))
  end.

(** ** The CodeStream interface (codestream.go:8-30) *)
Inductive code := CRune (r : rstream) | CTok (t : tstream).

Definition rmap {A B} (f : A -> B) (r : res A) : res B := let* a := r in ROk (f a).

Definition c_pos (c : code) : nat :=
  match c with CRune r => rs_pos r | CTok t => ts_pos t end.
Definition c_set_pos (c : code) (n : Z) : res code :=
  match c with
  | CRune r => rmap CRune (rs_set_pos r n)
  | CTok t => rmap CTok (ts_set_pos t n)
  end.
(** The text that is matched: RuneStream.text, TokenStream.work. *)
Definition c_work (c : code) : bytes :=
  match c with CRune r => rs_text r | CTok t => ts_work t end.
(** codestream_rune.go:53, codestream_token.go:127. *)
Definition c_work_length (c : code) : nat := length (c_work c).
(** codestream_rune.go:51, codestream_token.go:121. *)
Definition c_code (c : code) : bytes :=
  match c with CRune r => rs_text r | CTok t => ts_original t end.
Definition c_line (c : code) : res Z :=
  match c with CRune r => rs_line r | CTok t => ts_line t end.
Definition c_col (c : code) : res Z :=
  match c with CRune r => rs_col r | CTok t => ts_col t end.
Definition c_pos_to_line (c : code) (p : Z) : res Z :=
  match c with CRune r => rs_pos_to_line r p | CTok t => ts_pos_to_line t p end.
Definition c_pos_to_col (c : code) (p : Z) : res Z :=
  match c with CRune r => rs_pos_to_col r p | CTok t => ts_pos_to_col t p end.
Definition c_peek_runes (c : code) (n : Z) : res bytes :=
  match c with CRune r => rs_peek_runes r n | CTok t => ts_peek_runes t n end.
Definition c_peek_lines (c : code) (ns : list Z) : res bytes :=
  match c with CRune r => rs_peek_lines r ns | CTok t => ts_peek_lines t ns end.
Definition c_get_until (c : code) (s : bytes) : res (bytes * code) :=
  match c with
  | CRune r => rmap (fun '(a, r') => (a, CRune r')) (rs_get_until r s)
  | CTok t => rmap (fun '(a, t') => (a, CTok t')) (ts_get_until t s)
  end.
Definition c_match_string (c : code) (s : bytes) : res (option bytes * code) :=
  match c with
  | CRune r => rmap (fun '(a, r') => (a, CRune r')) (rs_match_string r s)
  | CTok t => rmap (fun '(a, t') => (a, CTok t')) (ts_match_string t s)
  end.
Definition c_match_regexp (c : code) (find : bytes -> option (nat * nat)) : res (option bytes * code) :=
  match c with
  | CRune r => rmap (fun '(a, r') => (a, CRune r')) (rs_match_regexp r find)
  | CTok t => rmap (fun '(a, t') => (a, CTok t')) (ts_match_regexp t find)
  end.
Definition c_match_rune (c : code) (f : N -> bool) : res (option N * code) :=
  match c with
  | CRune r => rmap (fun '(a, r') => (a, CRune r')) (rs_match_rune r f)
  | CTok t => rmap (fun '(a, t') => (a, CTok t')) (ts_match_rune t f)
  end.
