(** Writing a parser expression and compiling the text gives the expression. *)
From Verif Require Import Base Helpers Utf8 Utf8Spec Stream Native Engine Build Joeson JoesonSpec JoesonRun TextSpec TextRun PrintSpec PrintProofs.

(** Any text that writes [e], with any spacing, superfluous parentheses and
    escapes: the joeson grammar compiles it to [e], labels included. *)
Theorem C48_compile_text : forall re_ok n e s, writes re_ok n (Expr e) s -> n <= 72 ->
  exists f0, forall fuel, f0 <= fuel -> compile_with re_ok fuel (gram_of hand) s = ROk e.
Proof. exact compile_writes. Qed.
Print Assumptions C48_compile_text.

(** Every expression made of the documented operators has a text that compiles
    to it. *)
Theorem C48_round_trip : forall re_ok e, writable re_ok e -> deep 0 e <= 72 ->
  exists f0, forall fuel, f0 <= fuel -> compile_with re_ok fuel (gram_of hand) (show 0 e) = ROk e.
Proof. intros re_ok e He Hd. eapply compile_writes; [by apply show_expr|done]. Qed.
Print Assumptions C48_round_trip.

(** No text writes two expressions. *)
Theorem C48_unambiguous : forall re_ok n n' e e' s, writes re_ok n (Expr e) s -> writes re_ok n' (Expr e') s -> n <= 72 -> n' <= 72 -> e = e'.
Proof.
  intros re_ok n n' e e' s H H' Hn Hn'. destruct (compile_writes _ _ _ _ H Hn) as [f Hf], (compile_writes _ _ _ _ H' Hn') as [f' Hf'].
  specialize (Hf (max f f') ltac:(lia)). specialize (Hf' (max f f') ltac:(lia)). congruence.
Qed.
Print Assumptions C48_unambiguous.

(** 72 parentheses are the most: with one more the parse stack of 1024 frames
    overflows and compiling panics, for a text that writes a parser. *)
Theorem C48_too_deep : exists s e, writes (fun _ => true) 73 (Expr e) s /\
  exists fuel, compile_with (fun _ => true) fuel (gram_of hand) s = RPanic PIndex.
Proof.
  exists (Nat.iter 73 (fun s => [40%N] ++ s ++ [41%N]) [97%N]), (PExp "" (KRef "a")). split.
  - apply alter_expr. apply (loosen _ _ _ _ 4 0); [lia|lia|]. cbn [form_at].
    assert (forall k, writes (fun _ => true) k (Prim (PExp "" (KRef "a"))) (Nat.iter k (fun s => [40%N] ++ s ++ [41%N]) [97%N])) as H; [|apply H].
    induction k as [|k IH].
    + apply (w_name _ 0 "a"). split; [|by constructor]. left. done.
    + apply w_paren, alter_expr, (loosen _ _ _ _ 4 0); [lia|lia|exact IH].
  - exists 4000. vm_compute. reflexivity.
Qed.
Print Assumptions C48_too_deep.

(** The text of an expression with every operator. *)
Definition ref (s : string) : pexp := PExp "" (KRef s).
Definition sample : pexp :=
  PExp "" (KChoice [
    PExp "" (KSeq TSingle [
      PExp "value" (KRef "PRIMARY"); PExp "" (KStr (s2b "it's"));
      PExp "join" (KExist (PExp "" (KSeq TSingle [PExp "" (KNot (ref "__")); ref "PRIMARY"])));
      PExp "&" (KPat (PExp "" (KRegex (s2b "[a-z]"))) (Some (PExp "" (KStr (s2b ",")))) 1 (-1))]);
    PExp "" (KLook (PExp "" (KChoice [ref "a"; PExp "x" (KPat (ref "b") None (-1) (-1))])))]).
Example sample_text : show 0 sample = s2b "value:PRIMARY 'it\'s' join:(!__ PRIMARY)? &:/[a-z]/*','{1,} | (?a | x:b*)".
Proof. reflexivity. Qed.
Example sample_deep : deep 0 sample = 2.
Proof. reflexivity. Qed.
Example sample_compiles : compile_with (fun _ => true) 400 (gram_of hand) (show 0 sample) = ROk sample.
Proof. vm_compute. reflexivity. Qed.
Lemma utf8s_ascii s : Forall (fun b => b < 128)%N s -> utf8s s s.
Proof. induction 1 as [|b s Hb Hs IH]; [constructor|]. apply (utf8s_cons b [b] s s); [by constructor|done]. Qed.
Lemma name_checked nm : match s2b nm with [] => false | b :: r =>
    (((97 <=? b) && (b <=? 122) || (65 <=? b) && (b <=? 90) || (b =? 46) || (b =? 95)) &&
     forallb (fun b => ((97 <=? b) && (b <=? 122) || (65 <=? b) && (b <=? 90) || (b =? 46) || (b =? 95)) || (48 <=? b) && (b <=? 57)) r)%N%bool end = true -> name nm.
Proof.
  unfold name. destruct (s2b nm) as [|b r]; [done|]. intros [H1 H2]%andb_prop. split; [unfold letter; lia|].
  rewrite forallb_forall in H2. apply Forall_forall. intros c Hc. apply elem_of_list_In in Hc. specialize (H2 c Hc). cbn in H2. unfold letter, digit. lia.
Qed.
Example sample_writable : writable (fun _ => true) sample.
Proof.
  repeat first
    [ apply wr_exp | by left | by right; left | by right; right; right; apply name_checked | apply name_checked; reflexivity
    | apply wr_choice | apply wr_seq | eapply wr_str; apply utf8s_ascii; repeat constructor; done | apply wr_regex | apply wr_ref
    | apply wr_pat | apply wr_exist | apply wr_not | apply wr_look | apply wr_cons | apply wr_nil | apply wr_some | apply wr_none
    | by left | right; lia | cbn; lia | done
    | apply (b_char _ 91 [91%N]); [by constructor|done|done|] | apply (b_char _ 97 [97%N]); [by constructor|done|done|]
    | apply (b_char _ 45 [45%N]); [by constructor|done|done|] | apply (b_char _ 122 [122%N]); [by constructor|done|done|]
    | apply (b_char _ 93 [93%N]); [by constructor|done|done|] | apply b_nil ].
Qed.
(** Other spacing, and what the shorthand [+] stands for. *)
Example plus_text : exists n, n <= 72 /\ writes (fun _ => true) n (Expr (PExp "" (KPat (ref "a") None 1 (-1)))) (s2b "  (a)+ ").
Proof.
  exists 1. split; [lia|]. apply (w_expr _ 1 _ (s2b "  ") (s2b "(a)+") (s2b " ")); [|repeat constructor; by left|repeat constructor; by left].
  apply (loosen _ _ _ _ 3 0); [lia|lia|]. apply (w_plus _ 1 (ref "a") None (s2b "(a)") []); [|constructor].
  apply (w_paren _ 0 (ref "a") (s2b "a")), alter_expr, (loosen _ _ _ _ 4 0); [lia|lia|]. apply (w_name _ 0 "a"). by apply name_checked.
Qed.
