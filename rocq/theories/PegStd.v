(** The textbook reading of a grammar: a recursive evaluator of parsing
    expressions that has no cache, no stack, no left recursion and no mutable
    objects.  This file is a specification.

    [std fuel depth n p]: [None] when the evaluation needs more fuel, nests
    rules deeper than [depth], calls a callback that panics, meets an unknown
    rule or merges at a label [@] or [&] in a way that changes shared objects;
    [Some None] is failure; [Some (Some (v, e))] is value [v] ending at [e].
    A left-recursive grammar never gets an outcome. *)
From Verif Require Import Base Native Engine Peg.

Section Std.
Variable rules : string -> option node.
Variable rx : bytes -> bytes -> option (nat * nat).
Variable cbf : nat -> nat -> val -> option (option val).
Variable text : bytes.

Section Step.
Variable ev : node -> nat -> option result.

Fixpoint std_single (l : list node) (acc : option val) (p : nat) : option result :=
  match l with
  | [] => Some (Some (default VUndef acc, p))
  | n :: l' =>
      match ev n p with
      | Some (Some (v, q)) => std_single l' (if i_capture (n_info n) then Some v else acc) q
      | x => x
      end
  end.
Fixpoint std_array (l : list node) (acc : list val) (p : nat) : option result :=
  match l with
  | [] => Some (Some (VArr acc, p))
  | n :: l' =>
      match ev n p with
      | Some (Some (v, q)) => std_array l' (if i_capture (n_info n) then acc ++ [v] else acc) q
      | x => x
      end
  end.
Fixpoint std_object (l : list node) (m : made) (p : nat) : option result :=
  match l with
  | [] => Some (Some (made_val m, p))
  | n :: l' =>
      match ev n p with
      | Some (Some (v, q)) =>
          match joined (i_label (n_info n)) m v with Some m' => std_object l' m' q | None => None end
      | x => x
      end
  end.
Fixpoint std_alt (l : list node) (p : nat) : option result :=
  match l with
  | [] => Some None
  | n :: l' => match ev n p with Some None => std_alt l' p | x => x end
  end.
(** The values after those in [acc]. *)
Fixpoint std_loop (fuel : nat) (v : node) (j : option node) (mx : Z) (acc : list val) (p : nat) : option (list val * nat) :=
  match fuel with
  | O => None
  | S fuel' =>
      match (match j with None => Some (Some p) | Some jn =>
               match ev jn p with Some (Some (_, q)) => Some (Some q) | Some None => Some None | None => None end end) with
      | None => None
      | Some None => Some (acc, p)
      | Some (Some q) =>
          match ev v q with
          | None => None
          | Some None => Some (acc, p)
          | Some (Some (a, q')) =>
              if enough mx (S (length acc)) then Some (acc ++ [a], q')
              else std_loop fuel' v j mx (acc ++ [a]) q'
          end
      end
  end.

Definition std_body (fuel : nat) (n : node) (p : nat) : option result :=
  match n_kind n with
  | KUndef => Some (Some (VUndef, p))
  | KStr s => Some (lit text s p)
  | KRegex re => Some (rgx rx text re p)
  | KRef name => match rules name with Some m => ev m p | None => None end
  | KSeq TSingle l => std_single l None p
  | KSeq TArray l => std_array l [] p
  | KSeq TObject l => std_object l MNone p
  | KChoice l => std_alt l p
  | KPat v j mn mx =>
      match ev v p with
      | None => None
      | Some None => Some (if (0 <? mn)%Z then None else Some (VArr [], p))
      | Some (Some (a, q)) =>
          match std_loop fuel v j mx [a] q with
          | None => None
          | Some (l, e) => Some (if too_few mn (length l) then None else Some (VArr l, e))
          end
      end
  | KExist a => match ev a p with Some None => Some (Some (VUndef, p)) | x => x end
  | KLook a => match ev a p with Some (Some (v, _)) => Some (Some (v, p)) | x => x end
  | KNot a => match ev a p with Some None => Some (Some (VUndef, p)) | Some (Some _) => Some None | None => None end
  end.
End Step.

Fixpoint std (fuel depth : nat) (n : node) (p : nat) : option result :=
  match fuel with
  | O => None
  | S fuel' =>
      match n_kind n with
      | KUndef => Some (Some (VUndef, p))
      | _ =>
          match (if i_isrule (n_info n) then match depth with O => None | S d => std_body (std fuel' d) fuel' n p end
                 else std_body (std fuel' depth) fuel' n p) with
          | None => None
          | Some r => prepared cbf (n_info n) r
          end
      end
  end.
End Std.
