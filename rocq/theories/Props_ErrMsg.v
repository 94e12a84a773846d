(** Theorems on the text of a parse error (grammar.go:122-153). *)
From Verif Require Import Base Helpers Utf8 Utf8Spec Utf8Proofs Stream StreamSpec Native Engine EngSpec EngInv PegRun Build BuildMain JoesonRun Print Ansi AnsiSpec AnsiProofs
  Lisp LispRead LispReadRun LispReadTop ErrMsg ErrMsgSpec ErrMsgProofs.
From stdpp Require Import sets.
Local Open Scope list_scope.

(** C98: what the message of a parse error says, for a text of ASCII characters
    without bell and escape: where the furthest match began, with line and column;
    the place where the parse stopped; the two lines before and the one of that
    place; the parts up to the furthest match and up to the furthest attempt; the
    line of that and two more. *)
Theorem C98_message : forall (g : gram) (o : popts) rx cb (text : bytes) (fuel : nat) (r : option ast) (s : st),
  let E := mk_env g o rx cb in
  (forall re, rx_ok (rx re)) -> ids_fit E (g_rank g) -> top_ok (g_rank g) -> tame text ->
  parse E fuel (g_rank g) (init_st (CRune (new_rune_stream text)) (g_nrules g)) = Ok r s -> st_pos s <> length text ->
  exists succ att col m s', fst (parse_string fuel g o rx cb text) = Ok (Some (AErr succ)) s' /\ st_pos s' = att /\
    parse_message fuel g o rx cb (CRune (new_rune_stream text)) = Some (ROk m) /\
    st_pos s <= succ /\ succ <= att /\ att <= length text /\ column_of text succ col /\ strip_ansi m = message_text text (st_pos s) succ att col.
Proof. intros g o rx cb text fuel r s E H1 H2 H3. exact (message_of_parse g o rx cb H1 H2 H3 text fuel r s). Qed.
Print Assumptions C98_message.
(** The place by itself, for any text without bell, escape and U+009B. *)
Theorem C98_place text p : calm text -> p <= length text ->
  exists s, c_print (CRune (rs_with_pos (new_rune_stream text) p)) = ROk s /\ strip_ansi s = place_text text p.
Proof. exact (place_shown text p). Qed.
Print Assumptions C98_place.

Definition opts0 : popts := POpts false false false.
Definition lisp_message (text : bytes) : option (res bytes) := parse_message 3000 (gram_of lisp) opts0 lisp_rx lisp_cb (CRune (new_rune_stream text)).
Definition lines (l : list string) : bytes := l ≫= (fun x => s2b x ++ [10%N]).
Definition a_text : bytes := s2b "(+ 1" ++ [10%N] ++ s2b "(x #y)".
Example C98_example : tame a_text /\ (forall re, rx_ok (lisp_rx re)) /\ ids_fit (mk_env (gram_of lisp) opts0 lisp_rx lisp_cb) (g_rank (gram_of lisp)) /\
  top_ok (g_rank (gram_of lisp)) /\
  exists m, lisp_message a_text = Some (ROk m) /\ strip_ansi m = message_text a_text 0 7 8 2 /\
  strip_ansi m = lines ["Error parsing at char:7=(line:1,col:2)."; "Code at offset 0/11: '|(+ 1"; "(x #y)'"; "Details:"; "OK/Parsing/Suspect/Unknown"; "";
    "(+ 1(+ 1"; "(x /(x #y)"]%string.
Proof.
  split; [by apply tame_ok|]. split; [exact lisp_rx_ok|].
  destruct (ready lisp_compile 300 "lisp" lisp_lines lisp lisp_eq lisp_names_once lisp_no_singles ltac:(done) ltac:(by vm_compute) opts0 lisp_rx lisp_cb)
    as (H1 & _ & H3 & _). split; [exact H1|]. split; [by apply top_rank_ok|].
  eexists. split; [vm_compute; reflexivity|]. split; vm_compute; reflexivity.
Qed.
Example C98_place_example : calm (s2b "caf" ++ [195; 169]%N ++ s2b "!") /\ place_text (s2b "caf" ++ [195; 169]%N ++ s2b "!") 4 =
  s2b "Code at offset 4/6: 'caf" ++ [195]%N ++ s2b "|" ++ [169]%N ++ s2b "!'".
Proof. split; [|by vm_compute]. split; [vm_compute; set_solver|]. split; [vm_compute; set_solver|]. by apply (no_pair_ok _ false). Qed.

(** C99: the excerpt is taken at the reported position.  Not if the parse stopped
    before it. *)
Theorem C99_same_place_partial : forall (g : gram) (o : popts) rx cb (text : bytes) (fuel : nat) (r : option ast) (s s' : st) (m : bytes),
  let E := mk_env g o rx cb in
  (forall re, rx_ok (rx re)) -> ids_fit E (g_rank g) -> top_ok (g_rank g) -> tame text ->
  parse E fuel (g_rank g) (init_st (CRune (new_rune_stream text)) (g_nrules g)) = Ok r s -> st_pos s <> length text ->
  fst (parse_string fuel g o rx cb text) = Ok (Some (AErr (st_pos s))) s' ->
  parse_message fuel g o rx cb (CRune (new_rune_stream text)) = Some (ROk m) ->
  exists before after, strip_ansi m = before ++ place_text text (st_pos s) ++ after.
Proof.
  intros g o rx cb text fuel r s s' m E H1 H2 H3 H4 H5 H6 H7 H8.
  destruct (message_of_parse g o rx cb H1 H2 H3 text fuel r s H4 H5 H6) as (succ & att & col & m' & s2 & A1 & _ & A2 & _ & _ & _ & _ & A3).
  rewrite A2 in H8. injection H8 as <-. rewrite A3. unfold message_text.
  match goal with |- exists b a, ?l = _ => assert (exists a b, l = b ++ place_text text (st_pos s) ++ a) as (a & b & ->); [|by exists b, a] end.
  eexists. do 8 apply peel. by exists [].
Qed.
Print Assumptions C99_same_place_partial.
Theorem C99_same_place_refuted : exists text m k s', tame text /\
  fst (parse_string 3000 (gram_of lisp) opts0 lisp_rx lisp_cb text) = Ok (Some (AErr k)) s' /\
  lisp_message text = Some (ROk m) /\ (exists after before, strip_ansi m = before ++ place_text text 0 ++ after) /\ 0 < k.
Proof.
  eexists a_text, _, _, _. split; [by apply tame_ok|]. split; [vm_compute; reflexivity|]. split; [vm_compute; reflexivity|].
  split; [|lia]. exists (drop (40 + length (place_text a_text 0)) (message_text a_text 0 7 8 2)), (take 40 (message_text a_text 0 7 8 2)). vm_compute. reflexivity.
Qed.
Print Assumptions C99_same_place_refuted.

(** C100: the parts shown under Details are one stretch of the text.  Not at all: a
    text of one line is shown twice, with what lies between the stop and the
    furthest attempt a third time. *)
Theorem C100_repeated_refuted : forall (g : gram) (o : popts) rx cb (text : bytes) (fuel : nat) (r : option ast) (s : st),
  let E := mk_env g o rx cb in
  (forall re, rx_ok (rx re)) -> ids_fit E (g_rank g) -> top_ok (g_rank g) -> tame text -> newlines text = 0 ->
  parse E fuel (g_rank g) (init_st (CRune (new_rune_stream text)) (g_nrules g)) = Ok r s -> st_pos s <> length text ->
  exists k att m s' before, fst (parse_string fuel g o rx cb text) = Ok (Some (AErr k)) s' /\ st_pos s <= k <= att /\ att <= length text /\ st_pos s' = att /\
    parse_message fuel g o rx cb (CRune (new_rune_stream text)) = Some (ROk m) /\
    strip_ansi m = before ++ text ++ part text (st_pos s) att ++ s2b "/" ++ text ++ [10%N].
Proof. intros g o rx cb text fuel r s E H1 H2 H3. exact (message_repeats g o rx cb H1 H2 H3 text fuel r s). Qed.
Print Assumptions C100_repeated_refuted.
Example C100_example : let text := s2b "(+ 1 #)" in tame text /\ newlines text = 0 /\
  exists m before, lisp_message text = Some (ROk m) /\ strip_ansi m = before ++ s2b "(+ 1 #)" ++ s2b "(+ 1 " ++ s2b "/" ++ s2b "(+ 1 #)" ++ [10%N].
Proof.
  split; [by apply tame_ok|]. split; [done|]. eexists _, (take 108 (message_text (s2b "(+ 1 #)") 0 4 5 4)). split; [vm_compute; reflexivity|]. vm_compute. reflexivity.
Qed.

(** C101: what is marked as Parsing ends at the reported position.  So it is for
    ASCII (C98); but bytes are counted and runes are taken. *)
Theorem C101_parsing_refuted : exists text rs k s' c b, utf8s rs text /\
  fst (parse_string 3000 (gram_of lisp) opts0 lisp_rx lisp_cb text) = Ok (Some (AErr k)) s' /\
  c = CRune (new_rune_stream text) /\ c_peek_runes c (Z.of_nat k) = ROk b /\ b <> part text 0 k /\
  exists m before after, lisp_message text = Some (ROk m) /\ strip_ansi m = before ++ text ++ b ++ after /\ after <> [].
Proof.
  pose (t := s2b "(""" ++ [195; 169; 195; 169]%N ++ s2b """ #bcdefghi").
  exists t, ([40; 34; 233; 233; 34; 32; 35] ++ s2b "bcdefghi")%N. eexists 7, _, (CRune (new_rune_stream t)), (take 9 t).
  split; [|split; [vm_compute; reflexivity|split; [done|split; [vm_compute; reflexivity|split; [by vm_compute|]]]]].
  - assert (utf8 233 [195; 169]%N) as He by (by apply (utf8_2 3 41)).
    apply (utf8s_app [40; 34]%N _ [40; 34]%N); [by apply tame_utf8, tame_ok|].
    apply (utf8s_cons 233%N [195; 169]%N); [done|]. apply (utf8s_cons 233%N [195; 169]%N); [done|]. by apply tame_utf8, tame_ok.
  - eexists _, (take 119 (message_text t 0 7 8 7)), _. split; [vm_compute; reflexivity|]. split; [vm_compute; reflexivity|done].
Qed.
Print Assumptions C101_parsing_refuted.
(** The excerpt of a text in UTF-8 may end inside a character. *)
Theorem C101_excerpt_refuted : exists text rs p, utf8s rs text /\ calm text /\ p <= length text /\
  exists s, c_print (CRune (rs_with_pos (new_rune_stream text) p)) = ROk s /\ forall rs', ~ utf8s rs' (strip_ansi s).
Proof.
  exists (97%N :: concat (replicate 20 [195; 169]%N)), (97%N :: replicate 20 233%N), 0.
  assert (utf8 233 [195; 169]%N) as He by (by apply (utf8_2 3 41)).
  split; [apply (utf8s_cons 97%N [97%N]); [by constructor|]; cbn [replicate concat app]; do 20 (apply (utf8s_cons 233%N [195; 169]%N); [done|]); constructor|].
  split; [split; [vm_compute; set_solver|split; [vm_compute; set_solver|by apply (no_pair_ok _ false)]]|]. split; [lia|].
  eexists. split; [vm_compute; reflexivity|]. intros rs' H. apply not_utf8 in H. vm_compute in H. discriminate H.
Qed.
Print Assumptions C101_excerpt_refuted.
