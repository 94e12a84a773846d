(** The joeson grammar and its compilations, computed. *)
From Verif Require Import Base Helpers Utf8 Stream Native Engine Build Joeson JoesonSpec.

Definition no_built : built := (Node (Info "" "" false false 0 false None false false) KUndef, []).
Definition or_none (r : res built) : built := match r with ROk b => b | _ => no_built end.

Definition hand : built := Eval vm_compute in or_none joeson_built.
Lemma hand_eq : joeson_built = ROk hand.
Proof. vm_compute. reflexivity. Qed.

Definition text : built := Eval vm_compute in or_none (compiled_by hand 300 joeson_name intention_rules).
Lemma text_eq : compiled_by hand 300 joeson_name intention_rules = ROk text.
Proof. vm_compute. reflexivity. Qed.
Lemma text_fixed : compiled_by text 300 joeson_name intention_rules = ROk text.
Proof. vm_compute. reflexivity. Qed.
Lemma text_hand : unmarked_built text = unmarked_built hand.
Proof. vm_compute. reflexivity. Qed.

(** Every rule of [b] has its place as id and is what its name means. *)
Definition well_numbered (b : built) : bool :=
  forallb (fun i =>
    match snd b !! i with
    | Some (nm, n) => (String.eqb (i_name (n_info n)) nm && (i_id (n_info n) =? i))%bool
    | None => false
    end) (seq 0 (length (snd b))).
Lemma text_numbered : well_numbered text = true.
Proof. vm_compute. reflexivity. Qed.

Lemma last_of_nodup {A} (l : list (string * A)) i nm x :
  NoDup l.*1 -> l !! i = Some (nm, x) -> last_of l nm = Some x.
Proof.
  unfold last_of. intros Hn Hi.
  assert (List.filter (fun p => String.eqb nm (fst p)) l = [(nm, x)]) as ->; [|done].
  revert i Hi. induction l as [|[k y] l IH]; intros [|i] Hi; [discriminate Hi..| |]; cbn in Hi, Hn; cbn [List.filter fst];
    apply NoDup_cons in Hn as [Hk Hn].
  - injection Hi as -> ->. rewrite String.eqb_refl. f_equal.
    clear -Hk. induction l as [|[k y] l IH]; [done|]. cbn [List.filter fst]. cbn in Hk.
    destruct (String.eqb_spec nm k) as [<-|]; [exfalso; apply Hk; left|]. apply IH. intros H. apply Hk. by right.
  - destruct (String.eqb_spec nm k) as [<-|]; [|by eapply IH].
    exfalso. apply Hk. apply elem_of_list_fmap. exists (nm, x). split; [done|]. by eapply elem_of_list_lookup_2.
Qed.
