(** Common ground of all files: bytes, results with explicit panics, and
    arithmetic automation.  Nothing here models code of /repo by itself. *)
From Coq Require Export ZArith NArith Lia.
From Coq Require Export Ascii String.
From Coq Require Export ZifyBool ZifyNat ZifyN.
From stdpp Require Export base numbers option list.
#[global] Open Scope nat_scope.

#[global] Instance string_eq_dec_inst : EqDecision string := string_dec.

Ltac Zify.zify_post_hook ::= Z.div_mod_to_equations.

(** A byte string.  Bytes are [N]; functions that need it state that every
    element is below 256. *)
Notation bytes := (list N).

Definition is_byte (b : N) : Prop := (b < 256)%N.
Definition all_bytes (s : bytes) : Prop := Forall is_byte s.

(** String literals as bytes. *)
Fixpoint s2b (s : string) : bytes :=
  match s with
  | EmptyString => []
  | String a s' => N_of_ascii a :: s2b s'
  end.

Fixpoint b2s (s : bytes) : string :=
  match s with
  | [] => EmptyString
  | b :: s' => String (ascii_of_N b) (b2s s')
  end.

Definition bytes_eqb (a b : bytes) : bool := bool_decide (a = b).

(** Go panics.  [PIndex]: index or slice bounds out of range.  [PNil]: nil
    dereference.  [PMsg]: explicit [panic(...)] in the repository, identified
    by (the constant part of) its message.  [PDiv]: integer division by zero.
    [PUser]: a panic raised by user code (a callback). *)
Inductive panic :=
| PIndex
| PNil
| PDiv
| PMsg (msg : string)
| PUser (tag : nat).

(** Result of a Go function that has no relevant state. *)
Inductive res (A : Type) :=
| ROk (a : A)
| RPanic (p : panic)
| RFuel.
Arguments ROk {A} a.
Arguments RPanic {A} p.
Arguments RFuel {A}.

Definition rbind {A B} (r : res A) (f : A -> res B) : res B :=
  match r with
  | ROk a => f a
  | RPanic p => RPanic p
  | RFuel => RFuel
  end.
Notation "'let*' x ':=' a 'in' b" := (rbind a (fun x => b))
  (at level 200, x name, a at level 100, b at level 200).

(** Slice [s[i:j]] for [i <= j <= len s] (callers check the bounds). *)
Definition slice (s : bytes) (i j : nat) : bytes := take (j - i) (drop i s).

Lemma s2b_b2s s : all_bytes s -> s2b (b2s s) = s.
Proof.
  intros H. induction H as [|b s Hb _ IH]; [done|].
  cbn [b2s s2b]. f_equal; [|done]. by apply N_ascii_embedding.
Qed.

Lemma b2s_s2b s : b2s (s2b s) = s.
Proof.
  induction s as [|a s IH]; [done|].
  cbn [b2s s2b]. rewrite IH. f_equal. apply ascii_N_embedding.
Qed.

Lemma s2b_all_bytes s : all_bytes (s2b s).
Proof.
  induction s as [|a s IH]; [constructor|].
  constructor; [|done]. apply N_ascii_bounded.
Qed.

Lemma s2b_inj s1 s2 : s2b s1 = s2b s2 -> s1 = s2.
Proof. intros H. rewrite <- (b2s_s2b s1), <- (b2s_s2b s2). by rewrite H. Qed.

Lemma length_slice s i j : i <= j -> j <= length s -> length (slice s i j) = j - i.
Proof. intros. unfold slice. rewrite take_length, drop_length. lia. Qed.
