(** Properties C104 to C107 (LastNRunesReversed, Escape, Indent, the position
    and attribute methods of Ast). *)
From Verif Require Import Base Helpers Utf8 Utf8Spec Native Small SmallSpec SmallProofs.
Local Open Scope list_scope.

(** C104 *)
Theorem C104_reversed : forall (rs : list N) (bs : bytes) (n : Z), utf8s rs bs ->
  65533%N ∉ last_n (Z.to_nat n) rs ->
  exists b', utf8s (rev (last_n (Z.to_nat n) rs)) b' /\ last_n_runes_reversed bs n = ROk b'.
Proof. exact reversed_runes. Qed.
Print Assumptions C104_reversed.

Theorem C104_stops : forall (pre post : list N) (bs : bytes) (n : Z), utf8s (pre ++ 65533%N :: post) bs ->
  65533%N ∉ post -> (Z.of_nat (length post) < n)%Z ->
  exists b', utf8s (rev post) b' /\ last_n_runes_reversed bs n = ROk b'.
Proof. exact reversed_stops. Qed.
Print Assumptions C104_stops.

Theorem C104_no_panic : forall (s : bytes) (n : Z), exists r, last_n_runes_reversed s n = ROk r.
Proof. exact reversed_total. Qed.
Print Assumptions C104_no_panic.

Theorem C104_with_last : forall (s out : bytes) (n : Z), last_n_runes s n = ROk out ->
  exists rs out', utf8s rs out /\ (Z.of_nat (length rs) <= Z.max 0 n)%Z /\
    utf8s (rev rs) out' /\ last_n_runes_reversed s n = ROk out'.
Proof. exact last_and_reversed. Qed.
Print Assumptions C104_with_last.

(** "aé€", the last two; a bad byte in front; a replacement character. *)
Example C104_nonvacuous :
  utf8s [97; 233; 8364]%N [97; 195; 169; 226; 130; 172]%N /\
  last_n_runes_reversed [97; 195; 169; 226; 130; 172]%N 2 = ROk [226; 130; 172; 195; 169]%N /\
  last_n_runes [255; 97; 195; 169]%N 2 = ROk [97; 195; 169]%N /\
  last_n_runes_reversed [255; 97; 195; 169]%N 2 = ROk [195; 169; 97]%N /\
  last_n_runes_reversed [97; 239; 191; 189; 98]%N 3 = ROk [98]%N /\
  last_n_runes [97; 239; 191; 189; 98]%N 3 = RPanic (PMsg "RuneError").
Proof.
  split; [|vm_compute; done].
  apply (utf8s_cons 97 [97]%N); [apply utf8_1; lia|].
  apply (utf8s_cons 233 [195; 169]%N); [apply (utf8_2 3 41); lia|].
  apply (utf8s_cons 8364 [226; 130; 172]%N); [apply (utf8_3 2 2 44); lia|constructor].
Qed.

(** C105.  The comment on Escape says that it filters out what is not ASCII. *)
Theorem C105_escape_partial : forall s : bytes,
  foreign (escape s) = foreign s /\
  ((forall b, b ∈ s -> (b < 128)%N) <-> (forall b, b ∈ escape s -> (b < 128)%N)).
Proof. exact (fun s => conj (escape_foreign s) (escape_ascii s)). Qed.
Print Assumptions C105_escape_partial.

(** "é" is kept. *)
Theorem C105_escape_refuted : exists rs s, utf8s rs s /\ exists b, b ∈ escape s /\ (128 <= b)%N.
Proof.
  exists [233]%N, [195; 169]%N. split.
  - apply (utf8s_cons 233 [195; 169]%N); [apply (utf8_2 3 41); lia|constructor].
  - exists 195%N. split; [vm_compute; left|lia].
Qed.
Print Assumptions C105_escape_refuted.

(** C106 *)
Theorem C106_indent : forall c : Z,
  ((-1 <= c)%Z -> indent c = ROk (replicate (2 * Z.to_nat c) 32%N)) /\
  ((c < -1)%Z -> exists p, indent c = RPanic p).
Proof. exact indent_blanks. Qed.
Print Assumptions C106_indent.

Example C106_nonvacuous : indent 2 = ROk (s2b "    ") /\ indent 0 = ROk [].
Proof. split; reflexivity. Qed.

(** C107 *)
Theorem C107_origin_partial : forall l o k, forallb asks k = true ->
  hold_ans new_holder (l ++ OpSetOrigin o :: k) OpGetOrigin = AnsOrigin (nameless o) /\
  hold_ans new_holder (l ++ OpSetOrigin o :: k) OpGetLine = AnsLine (or_line o).
Proof. exact origin_kept. Qed.
Print Assumptions C107_origin_partial.

Theorem C107_line_partial : forall l n k x, forallb asks k = true ->
  hold_ans new_holder l OpGetOrigin = AnsOrigin x ->
  hold_ans new_holder (l ++ OpSetLine n :: k) OpGetLine = AnsLine n /\
  hold_ans new_holder (l ++ OpSetLine n :: k) OpGetOrigin = AnsOrigin (Origin (or_code x) 0 0 n "").
Proof. exact line_kept. Qed.
Print Assumptions C107_line_partial.

Theorem C107_natives_partial : forall l,
  hold_ans HNative l OpGetLine = AnsLine 1 /\ hold_ans HNative l OpGetOrigin = AnsOrigin origin0.
Proof. exact native_says. Qed.
Print Assumptions C107_natives_partial.

Theorem C107_attributes_partial : forall h l k v,
  hold_ans h l (OpHas k) = AnsHas false /\ (exists m, hold_ans h l (OpSet k v) = AnsPanic m) /\
  hold_run h (l ++ [OpSet k v]) = hold_run h l.
Proof. exact no_attributes. Qed.
Print Assumptions C107_attributes_partial.

(** The name of the rule is lost; SetLine forgets the range; a native forgets
    all; no attribute can be set. *)
Theorem C107_origin_refuted :
  (exists o, hold_ans new_holder [OpSetOrigin o] OpGetOrigin <> AnsOrigin o) /\
  (exists o n, hold_ans new_holder [OpSetOrigin o; OpSetLine n] OpGetOrigin
     <> AnsOrigin (Origin (or_code o) (or_start o) (or_end o) n (or_rule o))) /\
  (exists n, hold_ans HNative [OpSetLine n] OpGetLine <> AnsLine n) /\
  (exists h k v, hold_ans h [OpSet k v] (OpHas k) <> AnsHas true).
Proof.
  split; [exists (Origin [97]%N 0 1 0 "A"); done|].
  split; [exists (Origin [97]%N 0 1 0 ""), 3%Z; done|].
  split; [exists 2%Z; done|]. exists new_holder, "k"%string, "v"%string. done.
Qed.
Print Assumptions C107_origin_refuted.

Example C107_nonvacuous :
  hold_ans new_holder [OpSetLine 7; OpSetOrigin (Origin [97]%N 0 1 4 "A"); OpHas "k"] OpGetOrigin
    = AnsOrigin (Origin [97]%N 0 1 4 "") /\
  hold_ans new_holder [OpSetOrigin (Origin [97]%N 0 1 4 "A"); OpSetLine 7] OpGetLine = AnsLine 7.
Proof. split; reflexivity. Qed.
