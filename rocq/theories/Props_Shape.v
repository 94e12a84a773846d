(** Groups behind names, bars around alternatives, blanks. *)
From Verif Require Import Base Helpers Utf8 Stream Native Engine Build Joeson JoesonSpec JoesonRun TextSpec TextRun LookSpec LookMain LookOpen CallMain PipeSpec PipeMain.

Notation ref nm := (PExp "" (KRef nm)).
(** A name with a group directly behind it is the name alone: the group must be an
    expression, but nothing of it is left in the parser. *)
Theorem C92_alone : forall re_ok n nm e s w w', name nm -> plain re_ok false n (Expr e) s -> gap w -> gap w' -> n <= 68 ->
  exists f0, forall fuel, f0 <= fuel -> compile_with re_ok fuel (gram_of hand) (w ++ s2b nm ++ s2b "(" ++ s ++ s2b ")" ++ w') = ROk (ref nm).
Proof. exact compile_call. Qed.
Print Assumptions C92_alone.
(** So it is in a sequence: the same parser as without the group. *)
Theorem C92_in_sequence : forall re_ok o n us nm e vs a w s w1 b,
  plain re_ok false n (Units us) a -> name nm -> plain re_ok false n (Expr e) s -> plain re_ok o n (Units vs) b ->
  gap w -> w <> [] -> gap w1 -> w1 <> [] -> n <= 68 ->
  exists f0, forall fuel, f0 <= fuel ->
    compile_with re_ok fuel (gram_of hand) (a ++ w ++ s2b nm ++ s2b "(" ++ s ++ s2b ")" ++ w1 ++ b) = ROk (PExp "" (KSeq TSingle (us ++ [ref nm] ++ vs))) /\
    compile_with re_ok fuel (gram_of hand) (a ++ w ++ s2b nm ++ w1 ++ b) = ROk (PExp "" (KSeq TSingle (us ++ [ref nm] ++ vs))).
Proof.
  intros re_ok o n us nm e vs a w s w1 b Ha Hn He Hb Hw Hw0 Hw1 Hw10 Hl.
  destruct (compile_call_seq re_ok o n us nm e vs a w s w1 b Ha Hw Hw0 Hn He Hw1 Hw10 Hb Hl) as [f1 H1].
  destruct (compile_plain re_ok o n (PExp "" (KSeq TSingle (us ++ [ref nm] ++ vs))) [] (a ++ w ++ s2b nm ++ w1 ++ b)) as [f2 H2]; [|constructor|lia|].
  - apply p_one_sequ, p_sequ.
    + apply units_app; [done|done|done|]. apply p_units; [by apply p_unit, p_prim, p_name|done..].
    + pose proof (units_some _ _ _ _ _ Ha). rewrite app_length. destruct us; [done|]. cbn. lia.
  - exists (max f1 f2). intros fuel Hf. split; [apply H1; lia|apply H2; lia].
Qed.
Print Assumptions C92_in_sequence.
Example C92_text : exists e, compile_with (fun _ => true) 400 (gram_of hand) (s2b "'x' a(b | 'c'*) d") = ROk e /\
  compile_with (fun _ => true) 400 (gram_of hand) (s2b "'x' a d") = ROk e.
Proof. eexists. split; vm_compute; reflexivity. Qed.
Example C92_meets : exists us nm e vs, plain (fun _ => true) false 1 (Units us) (s2b "'x'") /\ name nm /\ s2b nm = s2b "a" /\
  plain (fun _ => true) false 1 (Expr e) (s2b " 'c'* ") /\ plain (fun _ => true) false 1 (Units vs) (s2b "'d'").
Proof.
  assert (forall c, (c < 128)%N -> c <> 39%N -> c <> 92%N -> plain (fun _ => true) false 1 (Prim (PExp "" (KStr [c]))) [39; c; 39]%N) as HS.
  { intros c H1 H2 H3. apply (p_string _ 1 [c] [c]). apply (q_char c [c] [] []); [constructor; lia|lia|lia|constructor]. }
  exists [PExp "" (KStr [120%N])], "a"%string, (PExp "" (KPat (PExp "" (KStr [99%N])) None (-1) (-1))), [PExp "" (KStr [100%N])]. split; [apply p_units_one, p_unit, p_prim, (HS 120%N); lia|]. split; [split; [by left|constructor]|]. split; [done|].
  split; [|apply p_units_one, p_unit, p_prim, (HS 100%N); lia].
  apply (p_expr _ 1 (PExp "" (KPat (PExp "" (KStr [99%N])) None (-1) (-1))) [32%N] (s2b "'c'*") [32%N]); [|by repeat constructor|by repeat constructor].
  apply p_one_sequ, p_one_unit, p_unit, (p_star _ 1 _ None [39; 99; 39]%N []); [apply HS; lia|constructor].
Qed.

(** Bars before the first and behind the last of two or more alternatives are of no effect. *)
Theorem C93_bars : forall re_ok n l ps w s qs w', plain re_ok false n (Sequs l) s -> 2 <= length l -> bars ps -> bars qs -> gap w -> gap w' -> n <= 72 ->
  exists f0, forall fuel, f0 <= fuel -> compile_with re_ok fuel (gram_of hand) (ps ++ w ++ s ++ qs ++ w') = ROk (PExp "" (KChoice l)).
Proof. exact compile_bars. Qed.
Print Assumptions C93_bars.
(** With one alternative such bars are refused. *)
Theorem C93_one_refused : forall re_ok n e ps w s qs w', plain re_ok false n (Sequ e) s -> bars ps -> bars qs -> ps ++ qs <> [] -> gap w -> gap w' -> n <= 72 ->
  exists f0, forall fuel, f0 <= fuel -> compile_with re_ok fuel (gram_of hand) (ps ++ w ++ s ++ qs ++ w') = RPanic (PMsg "Error parsing").
Proof. exact compile_one_bars. Qed.
Print Assumptions C93_one_refused.
(** An empty alternative between two others is refused, whatever follows it. *)
Theorem C93_empty_refused : forall re_ok n l ps w s w1 w2 qs w' r,
  plain re_ok false n (Sequs l) s -> bars ps -> bars qs -> gap w -> gap w1 -> gap w2 -> gap w' ->
  r <> [] -> head r <> Some 32%N /\ head r <> Some 10%N -> head r <> Some 124%N -> n <= 72 ->
  exists f0, forall fuel, f0 <= fuel ->
    compile_with re_ok fuel (gram_of hand) (ps ++ w ++ s ++ (w1 ++ s2b "|" ++ w2 ++ s2b "|" ++ qs) ++ w' ++ r) = RPanic (PMsg "Error parsing").
Proof.
  intros re_ok n l ps w s w1 w2 qs w' r Hs Hps Hqs Hw Hw1 Hw2 Hw' Hr Hnb Hb Hn.
  exact (compile_two_bars re_ok n l ps w s w1 w2 qs w' r Hs Hps Hqs Hw Hw1 Hw2 Hw' Hnb Hb Hr Hn).
Qed.
Print Assumptions C93_empty_refused.
Example C93_texts : exists e, compile_with (fun _ => true) 400 (gram_of hand) (s2b " || a b | c | ") = ROk e /\
  compile_with (fun _ => true) 400 (gram_of hand) (s2b "a b | c") = ROk e /\
  compile_with (fun _ => true) 400 (gram_of hand) (s2b "| a b") = RPanic (PMsg "Error parsing") /\
  compile_with (fun _ => true) 400 (gram_of hand) (s2b "a | | b") = RPanic (PMsg "Error parsing").
Proof.
  eexists. split; [vm_compute; reflexivity|]. split; [vm_compute; reflexivity|]. split; [vm_compute; reflexivity|]. vm_compute. reflexivity.
Qed.
Example C93_meets : exists l, 2 <= length l /\ plain (fun _ => true) false 0 (Sequs l) (s2b "a|b") /\ bars (s2b " ||") /\ bars (s2b "|").
Proof.
  exists [ref "a"; ref "b"]. split; [done|]. split.
  - apply (p_sequs _ false 0 _ _ (s2b "a") [] [] (s2b "b")); [|constructor|constructor|].
    + apply p_one_unit, p_unit, p_prim, p_name. split; [by left|constructor].
    + apply p_sequs_one, p_one_unit, p_unit, p_prim, p_name. split; [by left|constructor].
  - split; [apply (bars_one [32%N] (s2b "|"))|]; [by repeat constructor| |]; apply (bars_one [] []); constructor.
Qed.

(** How much space there is between two parts of a sequence is of no effect, as long
    as there is some. *)
Theorem C94_space_partial : forall re_ok o n us vs a w w' b, plain re_ok false n (Units us) a -> plain re_ok o n (Units vs) b ->
  gap w -> w <> [] -> gap w' -> w' <> [] -> n <= 72 ->
  exists f0, forall fuel, f0 <= fuel ->
    compile_with re_ok fuel (gram_of hand) (a ++ w ++ b) = ROk (PExp "" (KSeq TSingle (us ++ vs))) /\
    compile_with re_ok fuel (gram_of hand) (a ++ w' ++ b) = ROk (PExp "" (KSeq TSingle (us ++ vs))).
Proof.
  intros re_ok o n us vs a w w' b Ha Hb Hw Hw0 Hw' Hw0' Hn.
  assert (forall w, gap w -> w <> [] -> exists f0, forall fuel, f0 <= fuel -> compile_with re_ok fuel (gram_of hand) (a ++ w ++ b) = ROk (PExp "" (KSeq TSingle (us ++ vs)))) as H.
  { intros u Hu Hu0. apply (compile_plain re_ok o n (PExp "" (KSeq TSingle (us ++ vs))) [] (a ++ u ++ b)); [|constructor|lia].
    apply p_one_sequ, p_sequ; [by apply units_app|]. pose proof (units_some _ _ _ _ _ Ha). pose proof (units_some _ _ _ _ _ Hb).
    rewrite app_length. destruct us, vs; try done. cbn. lia. }
  destruct (H w Hw Hw0) as [f1 H1]. destruct (H w' Hw' Hw0') as [f2 H2]. exists (max f1 f2). intros fuel Hf. split; [apply H1; lia|apply H2; lia].
Qed.
Print Assumptions C94_space_partial.
(** Without any it is another thing: a group behind a name is dropped, two names are one,
    what stands behind a star is what separates. *)
Theorem C94_space_refuted : exists fuel, forall re_ok,
  compile_with re_ok fuel (gram_of hand) (s2b "a ('b')") = ROk (PExp "" (KSeq TSingle [ref "a"; PExp "" (KStr (s2b "b"))])) /\
  compile_with re_ok fuel (gram_of hand) (s2b "a('b')") = ROk (ref "a") /\
  compile_with re_ok fuel (gram_of hand) (s2b "a b") = ROk (PExp "" (KSeq TSingle [ref "a"; ref "b"])) /\
  compile_with re_ok fuel (gram_of hand) (s2b "ab") = ROk (ref "ab") /\
  compile_with re_ok fuel (gram_of hand) (s2b "a* 'b'") = ROk (PExp "" (KSeq TSingle [PExp "" (KPat (ref "a") None (-1) (-1)); PExp "" (KStr (s2b "b"))])) /\
  compile_with re_ok fuel (gram_of hand) (s2b "a*'b'") = ROk (PExp "" (KPat (ref "a") (Some (PExp "" (KStr (s2b "b")))) (-1) (-1))).
Proof.
  exists 400. intros re_ok. do 5 (split; [vm_compute; reflexivity|]). vm_compute. reflexivity.
Qed.
Print Assumptions C94_space_refuted.
