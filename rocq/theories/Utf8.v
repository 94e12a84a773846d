(** Model of the part of Go's UTF-8 handling used by the repository: decoding
    the first and the last rune of a string, the [for range] loop on strings,
    [strings.Builder.WriteRune], and helpers.LastNRunes.  No proofs here.

    Bit masks are written with [mod] and multiplication, e.g. [b & 0x3F] is
    [b mod 64] and [x << 6 | y] with [y < 64] is [x * 64 + y]. *)
From Verif Require Import Base.

Definition rune_error : N := 65533%N. (* 0xFFFD *)

Definition in_range (lo hi b : N) : bool := ((lo <=? b) && (b <=? hi))%N%bool.

(** Go unicode/utf8, tables [first] and [acceptRanges]: size and accepted range
    of the second byte, [None] for a byte that cannot start a multi-byte rune. *)
Definition first_info (b : N) : option (nat * N * N) :=
  if in_range 194 223 b then Some (2, 128%N, 191%N)
  else if (b =? 224)%N then Some (3, 160%N, 191%N)
  else if in_range 225 236 b then Some (3, 128%N, 191%N)
  else if (b =? 237)%N then Some (3, 128%N, 159%N)
  else if in_range 238 239 b then Some (3, 128%N, 191%N)
  else if (b =? 240)%N then Some (4, 144%N, 191%N)
  else if in_range 241 243 b then Some (4, 128%N, 191%N)
  else if (b =? 244)%N then Some (4, 128%N, 143%N)
  else None.

(** Go utf8.DecodeRuneInString.  Result: rune and width. *)
Definition decode_rune (s : bytes) : N * nat :=
  match s with
  | [] => (rune_error, 0)
  | b0 :: r0 =>
      if (b0 <? 128)%N then (b0, 1)
      else
        match first_info b0 with
        | None => (rune_error, 1)
        | Some (sz, lo, hi) =>
            if length s <? sz then (rune_error, 1)
            else
              match r0 with
              | [] => (rune_error, 1)
              | b1 :: r1 =>
                  if negb (in_range lo hi b1) then (rune_error, 1)
                  else if sz <=? 2 then (((b0 mod 32) * 64 + b1 mod 64)%N, 2)
                  else
                    match r1 with
                    | [] => (rune_error, 1)
                    | b2 :: r2 =>
                        if negb (in_range 128 191 b2) then (rune_error, 1)
                        else if sz <=? 3
                        then (((b0 mod 16) * 4096 + (b1 mod 64) * 64 + b2 mod 64)%N, 3)
                        else
                          match r2 with
                          | [] => (rune_error, 1)
                          | b3 :: _ =>
                              if negb (in_range 128 191 b3) then (rune_error, 1)
                              else (((b0 mod 8) * 262144 + (b1 mod 64) * 4096
                                     + (b2 mod 64) * 64 + b3 mod 64)%N, 4)
                          end
                    end
              end
        end
  end.

(** Go utf8.RuneStart: not a continuation byte. *)
Definition rune_start (b : N) : bool := negb ((b / 64) mod 4 =? 2)%N.

(** Go utf8.DecodeLastRuneInString, the loop
    [for start--; start >= lim; start-- { if RuneStart(s[start]) {break} }].
    Called with the value of [start] after the decrement; returns the final
    value of [start] (which may be [lim-1]). *)
Fixpoint scan_back (fuel : nat) (s : bytes) (lim start : Z) : Z :=
  match fuel with
  | O => start
  | S fuel' =>
      if (lim <=? start)%Z then
        match s !! Z.to_nat start with
        | Some b => if rune_start b then start else scan_back fuel' s lim (start - 1)
        | None => start
        end
      else start
  end.

(** Go utf8.DecodeLastRuneInString.  UTFMax is 4, so the loop runs at most 3
    times; fuel 4 is enough. *)
Definition decode_last_rune (s : bytes) : N * nat :=
  let end_ := length s in
  match last s with
  | None => (rune_error, 0)
  | Some b =>
      if (b <? 128)%N then (b, 1)
      else
        let lim := Z.max 0 (Z.of_nat end_ - 4) in
        let start := scan_back 4 s lim (Z.of_nat end_ - 2) in
        let start := Z.to_nat (Z.max 0 start) in
        let '(r, size) := decode_rune (drop start s) in
        if start + size =? end_ then (r, size) else (rune_error, 1)
  end.

(** [for offset, rune := range s]: the visited (offset, rune) pairs.  Go
    advances by the width of the decoded rune (1 on error).  [pos] is the
    offset of the head of [s]. *)
Fixpoint range_aux (fuel : nat) (pos : nat) (s : bytes) : list (nat * N) :=
  match fuel with
  | O => []
  | S fuel' =>
      match s with
      | [] => []
      | _ => let '(r, w) := decode_rune s in
             (pos, r) :: range_aux fuel' (pos + w) (drop w s)
      end
  end.
Definition range_string (s : bytes) : list (nat * N) := range_aux (length s) 0 s.

(** Go utf8.AppendRune, used by strings.Builder.WriteRune.  Surrogates and
    values above 0x10FFFF are written as U+FFFD. *)
Definition encode_rune (r : N) : bytes :=
  if (r <? 128)%N then [r]
  else if (r <? 2048)%N then [(192 + r / 64)%N; (128 + r mod 64)%N]
  else if (in_range 55296 57343 r || (1114111 <? r)%N)%bool
       then [239; 191; 189]%N
  else if (r <? 65536)%N
       then [(224 + r / 4096)%N; (128 + (r / 64) mod 64)%N; (128 + r mod 64)%N]
  else [(240 + r / 262144)%N; (128 + (r / 4096) mod 64)%N;
        (128 + (r / 64) mod 64)%N; (128 + r mod 64)%N].

(** helpers/helpers.go:139-155, [LastNRunes]: the loop accumulates the byte
    size of the runes taken from the end.  Fuel: one step per rune. *)
Fixpoint last_n_runes_loop (n : nat) (slice : bytes) (total : nat) : res nat :=
  match n with
  | O => ROk total
  | S n' =>
      match slice with
      | [] => ROk total
      | _ =>
          let '(c, csize) := decode_last_rune slice in
          if (c =? rune_error)%N then RPanic (PMsg "RuneError")
          else last_n_runes_loop n' (take (length slice - csize) slice) (total + csize)
      end
  end.

(** helpers/helpers.go:139-155; a negative [nTake] makes no iteration. *)
Definition last_n_runes (abc : bytes) (nTake : Z) : res bytes :=
  let* total := last_n_runes_loop (Z.to_nat nTake) abc 0 in
  if length abc <? total then RPanic PIndex
  else ROk (drop (length abc - total) abc).
