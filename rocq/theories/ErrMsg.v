(** Model of the text of a parse error: grammar.go:122-151, codestream_rune.go:
    182-188, codestream_token.go:258-271, colors.go.  No proofs here. *)
From Verif Require Import Base Helpers Utf8 Stream Native Engine Print.

(** colors.go:14, 20, 23, 24. *)
Definition white : bytes -> bytes := coloured "[37m".
Definition bold_yellow : bytes -> bytes := coloured "[1;33m".
Definition bold_cyan : bytes -> bytes := coloured "[1;36m".
Definition bold_white : bytes -> bytes := coloured "[1;37m".

(** The body that both Print methods share; [o] is the offset in [text]. *)
Definition print_at (text : bytes) (o : Z) : res bytes :=
  let* before := slice_string text (Z.max 0 (o - 20)) o in
  let* after := slice_string text o (o + 40) in
  ROk (s2b "Code at offset " ++ bold_yellow (itoa o) ++ s2b "/" ++ bold_yellow (itoa (Z.of_nat (length text))) ++ s2b ": '" ++
       cyan before ++ bold_cyan (s2b "|") ++ bold_white after ++ s2b "'").
(** codestream_rune.go:182-188; codestream_token.go:258-271. *)
Definition c_print (c : code) : res bytes :=
  match c with
  | CRune r => print_at (rs_text r) (Z.of_nat (rs_pos r))
  | CTok t => let* p := ts_coords t (Z.of_nat (ts_pos t)) in print_at (ts_original t) (snd p)
  end.
Definition nl : bytes := [10%N].
(** grammar.go:137-151: [succ] and [att] are maxSuccess and maxAttempt. *)
Definition error_message (c : code) (succ att : nat) : res bytes :=
  let* line := c_pos_to_line c (Z.of_nat succ) in
  let* col := c_pos_to_col c (Z.of_nat succ) in
  let* place := c_print c in
  let* ok := c_peek_lines c [(-2)%Z] in
  let* parsing := c_peek_runes c (Z.of_nat succ - Z.of_nat (c_pos c)) in
  let* c1 := c_set_pos c (Z.of_nat succ) in
  let* suspect := c_peek_runes c1 (Z.of_nat att - Z.of_nat (c_pos c1)) in
  let* c2 := c_set_pos c1 (Z.of_nat att) in
  let* unknown := c_peek_lines c2 [2%Z] in
  ROk (s2b "Error parsing at char:" ++ itoa (Z.of_nat succ) ++ s2b "=(line:" ++ itoa line ++ s2b ",col:" ++ itoa col ++ s2b ")." ++
       nl ++ place ++ nl ++ s2b "Details:" ++ nl ++
       green (s2b "OK") ++ s2b "/" ++ yellow (s2b "Parsing") ++ s2b "/" ++ red (s2b "Suspect") ++ s2b "/" ++ white (s2b "Unknown") ++ nl ++ nl ++
       green ok ++ yellow parsing ++ red suspect ++ s2b "/" ++ white unknown ++ nl).
(** grammar.go:122-153 in the state the rank leaves: the text of the ParseError,
    [None] if the whole text has been parsed. *)
Definition state_message (s : st) : option (res bytes) :=
  let c := s_code s in
  if c_pos c =? c_work_length c then None
  else
    let p := c_pos c in
    let '(att, succ) := scan_rows (s_fheap s) (drop p (s_frames s)) p p p in
    Some (error_message c succ att).
(** The same for a whole parse; [None] also if it panics. *)
Definition parse_message (fuel : nat) (g : gram) (o : popts) rx cb (c : code) : option (res bytes) :=
  match parse (mk_env g o rx cb) fuel (g_rank g) (init_st c (g_nrules g)) with
  | Ok _ s => state_message s
  | _ => None
  end.
