(** Model of examples/color/color.go: the rules, the regular expressions they use
    and the parse functions.  No proofs here.

    What is simplified: Go's regexp is modelled for the four expressions; a Color
    is a user value of three numbers. *)
From Verif Require Import Base Helpers Utf8 Stream Native Engine Build Joeson Calc LispRead.

(** The expressions of the rules [Integer], [_COMMA] and [_]. *)
Definition re_first : bytes := s2b "[1-9]".
Definition re_digit : bytes := s2b "[0-9]".
Definition re_comma : bytes := s2b "[ ,]".
Definition first_b (b : N) : bool := ((49 <=? b) && (b <=? 57))%N%bool.
Definition comma_b (b : N) : bool := ((b =? 32) || (b =? 44))%N%bool.
(** One byte of a class. *)
Definition m_class (f : N -> bool) (s : bytes) : option nat :=
  match s with b :: _ => if f b then Some 1 else None | [] => None end.
Definition color_rx (re : bytes) (s : bytes) : option (nat * nat) :=
  if bytes_eqb re re_first then leftmost (m_class first_b) (S (length s)) s 0
  else if bytes_eqb re re_digit then leftmost (m_class digit_b) (S (length s)) s 0
  else if bytes_eqb re re_comma then leftmost (m_class comma_b) (S (length s)) s 0
  else if bytes_eqb re re_blank then leftmost (m_class blank_b) (S (length s)) s 0
  else None.

(** color.go:16-19. *)
Definition color (r g b : Z) : ast := AUser 0 [AInt r; AInt g; AInt b].
(** color.go:25-28. *)
Definition hsl_to_rgb (h s l : Z) : list Z := [12; 23; 34]%Z.
(** color.go:30-36. *)
Definition to_array_int (h : heap) (x : ast) : option (list Z) :=
  match x with
  | AArr l =>
      match mapr (native_int_from (fun _ => []) 2 h) l with
      | ROk ys => Some (omap (fun y => match y with AInt z => Some z | _ => None end) ys)
      | _ => None
      end
  | _ => None
  end.
(** color.go:41-52; an index out of range panics. *)
Definition color_cb (f pos : nat) (h : heap) (x : ast) : cbres :=
  match f with
  | 0 => CbRet h (Some (color 255 0 0))
  | 1 => CbRet h (Some (color 0 255 0))
  | 2 => CbRet h (Some (color 0 0 255))
  | 3 => match to_array_int h x with
         | Some (r :: g :: b :: _) => CbRet h (Some (color r g b))
         | _ => CbPanic 1
         end
  | 4 => match to_array_int h x with
         | Some (a :: b :: c :: _) =>
             match hsl_to_rgb a b c with
             | r :: g :: b :: _ => CbRet h (Some (color r g b))
             | _ => CbPanic 2
             end
         | _ => CbPanic 3
         end
  | 5 => match native_int_from (fun _ => []) 2 h x with ROk y => CbRet h (Some y) | _ => CbPanic 4 end
  | _ => CbPanic 5
  end.

(** color.go:39-58. *)
Definition color_inner : list (res line) :=
  [ mk_o (GText (s2b "'red'")) [OCb 0];
    mk_o (GText (s2b "'green'")) [OCb 1];
    mk_o (GText (s2b "'blue'")) [OCb 2];
    o_rule "Rgb" "'rgb' _ '(' _ Integer*_COMMA{3,3} _ ')'" [OCb 3];
    o_rule "Hsl" "'hsl' _ '(' HslTrio ')'" [OCb 4];
    i_rule "HslTrio" "_ Integer _ ',' _ Integer '%' _ ',' _ Integer '%' _" [] ].
Definition color_rules : list (res line) :=
  [ mk_o (named_lines "Color" (all_ok color_inner)) [];
    i_rule "Integer" "[1-9][0-9]*" [OCb 5];
    i_rule "_COMMA" "[ ,]*" [];
    i_rule "_" "[ \t]*" [] ].
Definition color_lines : list line := all_ok color_rules.
