(** TokenStreamFromGoCode. *)
From Verif Require Import Base Helpers Utf8 Stream StreamSpec GoTokens GoTokensSpec GoTokensProofs.
Local Open Scope list_scope.

(** ** C80: the token text has the tokens of the program *)

(** One token for each token of the program, in order; a space only before a word
    or a comma that follows a letter, digit, underscore or "=". *)
Theorem C80_tokens : forall (es : list bytes) (src : bytes) (sc : scan), sc_init sc = [] ->
  exists ts, fst (from_go es src sc) = GoStream ts /\ ts_original ts = src /\
    ts_work ts = mjoin (tk_repr <$> ts_tokens ts) /\
    length (ts_tokens ts) = length (sc_lexemes sc) /\
    forall k x s, sc_lexemes sc !! k = Some x -> shows x s ->
      exists t, ts_tokens ts !! k = Some t /\ tk_orig t = Z.of_nat (lx_pos x) /\
        tk_work t = Z.of_nat (work_start (tk_repr <$> ts_tokens ts) k) /\
        ((spaced (sc_lexemes sc) k /\ tk_repr t = s2b " " ++ s) \/
         (~ spaced (sc_lexemes sc) k /\ tk_repr t = s)).
Proof. exact go_tokens_prop. Qed.
Print Assumptions C80_tokens.

(** The words of the token text are those of the tokens: none are joined. *)
Theorem C80_words : forall (es : list bytes) (src : bytes) (sc : scan) (ss : list bytes),
  sc_init sc = [] -> Forall2 shows (sc_lexemes sc) ss ->
  Forall operator_plain (sc_lexemes sc) -> Forall ends_ascii ss ->
  exists w, token_text (fst (from_go es src sc)) w /\ words w = mjoin (words <$> ss).
Proof. exact go_words_prop. Qed.
Print Assumptions C80_words.

Definition auto (p : nat) : lexeme := Lexeme p (s2b ";") [10%N] false.
Definition ident (p : nat) (s : bytes) : lexeme := Lexeme p (s2b "IDENT") s false.
Definition op (p : nat) (s : string) : lexeme := Lexeme p (s2b s) [] false.

Example C80_words_nonvacuous :
  let xs := [ident 0 (s2b "return"); ident 8 (s2b "x"); Lexeme 9 (s2b ",") [] true; ident 11 (s2b "y1"); auto 13] in
  Forall2 shows xs [s2b "return"; s2b "x"; s2b ","; s2b "y1"; s2b ";" ++ [10%N]] /\
  Forall operator_plain xs /\
  token_text (fst (from_go [] (s2b "return  x, y1") (scan_of xs))) (s2b "return x ,y1;" ++ [10%N]) /\
  words (s2b "return x ,y1;" ++ [10%N]) = [s2b "return"; s2b "x"; s2b "y1"].
Proof.
  cbn zeta. split; [|split; [|split]].
  - repeat (apply List.Forall2_cons; [first [left; split; [by split|done] | right; left; split; [by intros [? ?]|split; done]
      | right; right; split; [by intros [? ?]|split; done]]|]). by constructor.
  - repeat (apply List.Forall_cons; [intros H; first [done | by eexists _, _]|]). by constructor.
  - eexists. by split.
  - by vm_compute.
Qed.

(** ** C81: the token text keeps tokens apart *)

(** A word that ends with a letter outside ASCII is joined to the next one: the
    program "α int" becomes "αint". *)
Theorem C81_joined_refuted : exists (src : bytes) (xs : list lexeme) (ss : list bytes) (w : bytes),
  found_in src xs /\ Forall2 shows xs ss /\ Forall operator_plain xs /\
  token_text (fst (from_go [] src (scan_of xs))) w /\ words w <> mjoin (words <$> ss).
Proof.
  exists ([206; 177; 32]%N ++ s2b "int"), [ident 0 [206; 177]%N; ident 3 (s2b "int"); auto 6],
    [[206; 177]%N; s2b "int"; s2b ";" ++ [10%N]], ([206; 177]%N ++ s2b "int;" ++ [10%N]).
  split; [|split; [|split; [|split]]].
  - apply List.Forall_cons; [|apply List.Forall_cons; [|apply List.Forall_cons; [|by constructor]]].
    + intros s [(?&_)|[(_&_&->)|(_&?&_)]]; [done| |done]. intros _. by exists (s2b " int").
    + intros s [(?&_)|[(_&_&->)|(_&?&_)]]; [done| |done]. intros _. by exists [].
    + intros s _ H. destruct H. by split.
  - repeat (apply List.Forall2_cons; [first [left; split; [by split|done] | right; left; split; [by intros [? ?]|split; done]]|]). by constructor.
  - repeat (apply List.Forall_cons; [intros H; first [done | by eexists _, _]|]). by constructor.
  - eexists. by split.
  - by vm_compute.
Qed.
Print Assumptions C81_joined_refuted.

(** Operators are joined: the comparison "x < -y" and the statement "x <- y" that
    sends on a channel have the same token text. *)
Theorem C81_same_text_refuted : exists (src src' : bytes) (xs xs' : list lexeme) (w : bytes),
  found_in src xs /\ found_in src' xs' /\ (lx_str <$> xs) <> (lx_str <$> xs') /\
  token_text (fst (from_go [] src (scan_of xs))) w /\ token_text (fst (from_go [] src' (scan_of xs'))) w.
Proof.
  exists (s2b "x < -y"), (s2b "x <- y"), [ident 0 (s2b "x"); op 2 "<"; op 4 "-"; ident 5 (s2b "y"); auto 6],
    [ident 0 (s2b "x"); op 2 "<-"; ident 5 (s2b "y"); auto 6], (s2b "x<-y;" ++ [10%N]).
  split; [|split; [|split; [|split]]].
  - repeat (apply List.Forall_cons; [intros s [(H&_)|[(_&H&->)|(_&H&->)]] Ha; first [done | by eexists | by destruct H | by destruct Ha]|]).
    by constructor.
  - repeat (apply List.Forall_cons; [intros s [(H&_)|[(_&H&->)|(_&H&->)]] Ha; first [done | by eexists | by destruct H | by destruct Ha]|]).
    by constructor.
  - done.
  - eexists. by split.
  - eexists. by split.
Qed.
Print Assumptions C81_same_text_refuted.

(** ** C82: positions in the token text are reported in the program *)

(** For the [j]-th byte of any token but the last: the line is right; the column is
    right where no space was put before the token, and one too much where one was. *)
Theorem C82_positions_partial : forall (es : list bytes) (src : bytes) (sc : scan) (k : nat) (x : lexeme) (s : bytes) (j : nat),
  sc_init sc = [] ->
  sc_lexemes sc !! k = Some x -> S k < length (sc_lexemes sc) -> shows x s ->
  occurs_at s src (lx_pos x) -> 10%N ∉ s -> j < length s ->
  exists ts t c, fst (from_go es src sc) = GoStream ts /\ ts_tokens ts !! k = Some t /\
    column_of src (lx_pos x + j) c /\
    let w := Z.of_nat (work_start (tk_repr <$> ts_tokens ts) k + (length (tk_repr t) - length s) + j) in
    ts_pos_to_line ts w = ROk (Z.of_nat (newlines (take (lx_pos x + j) src))) /\
    ((~ spaced (sc_lexemes sc) k /\ ts_pos_to_col ts w = ROk (Z.of_nat c)) \/
     (spaced (sc_lexemes sc) k /\ ts_pos_to_col ts w = ROk (Z.of_nat (S c)))).
Proof. exact go_coords_prop. Qed.
Print Assumptions C82_positions_partial.

Example C82_nonvacuous :
  let xs := [ident 0 (s2b "a"); op 1 "+"; ident 3 (s2b "bc"); auto 5] in
  exists ts, fst (from_go [] (s2b "a+" ++ [10%N] ++ s2b "bc") (scan_of xs)) = GoStream ts /\
    ts_work ts = s2b "a+bc;" ++ [10%N] /\ ts_pos_to_line ts 3 = ROk 1%Z /\ ts_pos_to_col ts 3 = ROk 1%Z.
Proof. eexists. by repeat split. Qed.

(** "a b": the b, the third byte of the program, is reported as its fourth. *)
Theorem C82_column_refuted : exists (src : bytes) (xs : list lexeme) (ts : tstream) (w : nat) (c : nat),
  found_in src xs /\ newlines src = 0 /\
  fst (from_go [] src (scan_of xs)) = GoStream ts /\
  ts_work ts !! w = Some 98%N /\ (forall i, src !! i = Some 98%N -> i <> c) /\
  ts_pos_to_col ts (Z.of_nat w) = ROk (Z.of_nat c).
Proof.
  exists (s2b "a b"), [ident 0 (s2b "a"); ident 2 (s2b "b"); auto 3].
  eexists. exists 2, 3. split; [|split; [done|]].
  - repeat (apply List.Forall_cons; [intros s [(H&_)|[(_&H&->)|(_&H&->)]] Ha; first [done | by eexists | by destruct H | by destruct Ha]|]).
    by constructor.
  - split; [done|]. split; [done|]. split; [|done]. intros i Hi ->. done.
Qed.
Print Assumptions C82_column_refuted.

(** ** C83: scan errors are reported *)

(** Calls in a row.  An error at the first character of a source is returned as
    long as no source so far had an error; after that the call panics. *)
Theorem C83_errors_partial : forall (h : list (bytes * scan)) (src : bytes) (sc : scan),
  (sc_init sc = [] -> exists ts, last (go_calls [] (h ++ [(src, sc)])) = Some (GoStream ts)) /\
  (sc_init sc <> [] -> Forall (fun c => quiet (snd c)) h -> last (go_calls [] (h ++ [(src, sc)])) = Some (GoErrors (sc_init sc))) /\
  (sc_init sc <> [] -> ~ Forall (fun c => quiet (snd c)) h -> last (go_calls [] (h ++ [(src, sc)])) = Some GoPanic).
Proof. exact go_errors_prop. Qed.
Print Assumptions C83_errors_partial.

Definition broken : scan := Scan [] [(Lexeme 0 (s2b "ILLEGAL") (s2b "@") false, [s2b "illegal character"])] [].
Definition broken_first : scan := Scan [s2b "illegal character NUL"] [] [].

(** An illegal character is not reported. *)
Theorem C83_dropped_refuted : exists (src : bytes) (sc : scan) (ts : tstream),
  ~ quiet sc /\ fst (from_go [] src sc) = GoStream ts.
Proof.
  exists (s2b "@"), broken. eexists. split; [|done]. intros (_ & H & _). by apply Forall_cons in H as [H _].
Qed.
Print Assumptions C83_dropped_refuted.

(** The second source with an error makes the program panic. *)
Theorem C83_panic_refuted : exists h : list (bytes * scan),
  last (go_calls [] h) = Some GoPanic.
Proof. by exists [(s2b "@", broken); ([0%N], broken_first)]. Qed.
Print Assumptions C83_panic_refuted.

Example C83_nonvacuous :
  go_calls [] [([0%N], broken_first); ([0%N], broken_first)] = [GoErrors [s2b "illegal character NUL"]; GoPanic].
Proof. done. Qed.
