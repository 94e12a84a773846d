(** The grammars of the README. *)
From Verif Require Import Base Helpers Utf8 Stream Native Engine Build Joeson JoesonRun Calc CalcSpec LispRead Color ColorSpec Games GamesRun GamesSpec GamesMain
  ReadmeGames ReadmeGamesRun ReadmeGamesSpec ReadmeGamesMain Greeting GreetingRun GreetingSpec GreetingMain.
Local Open Scope list_scope.

(** Both vertical forms answer every id and every title. *)
Theorem C84_answers o b s a g : po_debug o = false -> b = ex2 \/ b = ex4 -> asks s a -> plain a -> fits a -> answers a g ->
  exists fuel0, forall fuel, fuel0 <= fuel -> exists s', fst (parse_string fuel (gram_of b) o game_rx readme_cb s) = Ok (Some (game_ast g)) s'.
Proof. intros Ho Hb. exact (both_answer o Ho b Hb s a g). Qed.
Print Assumptions C84_answers.
Theorem C84_refuses o b s : po_debug o = false -> b = ex2 \/ b = ex4 -> (forall a, asks s a -> ~ plain a) -> starts_small s ->
  exists fuel0, forall fuel, fuel0 <= fuel -> exists s',
    match s with
    | [] => fst (parse_string fuel (gram_of b) o game_rx readme_cb s) = Ok None s'
    | _ => exists k, fst (parse_string fuel (gram_of b) o game_rx readme_cb s) = Ok (Some (AErr k)) s' /\ k <= length s
    end.
Proof. intros Ho Hb Hno Hs. exact (both_others o Ho b Hb s Hs Hno). Qed.
Print Assumptions C84_refuses.
Theorem C84_never o b s : po_debug o = false -> b = ex2 \/ b = ex4 -> (forall a, asks s a -> ~ plain a) ->
  exists fuel0, forall fuel, fuel0 <= fuel -> exists s',
    (exists k, fst (parse_string fuel (gram_of b) o game_rx readme_cb s) = Panic (Base.PUser k) s') \/
    match s with
    | [] => fst (parse_string fuel (gram_of b) o game_rx readme_cb s) = Ok None s'
    | _ => exists k, fst (parse_string fuel (gram_of b) o game_rx readme_cb s) = Ok (Some (AErr k)) s' /\ k <= length s
    end.
Proof. intros Ho Hb. exact (both_never o Ho b Hb s). Qed.
Print Assumptions C84_never.
Theorem C84_too_large o b s a : po_debug o = false -> b = ex2 \/ b = ex4 -> asks s a -> plain a -> ~ fits a ->
  exists fuel0, forall fuel, fuel0 <= fuel -> exists k s', fst (parse_string fuel (gram_of b) o game_rx readme_cb s) = Panic (Base.PUser k) s'.
Proof. intros Ho Hb. exact (both_panic o Ho b Hb s a). Qed.
Print Assumptions C84_too_large.
(** The grammars are what GrammarFromLines makes of the lines in the README. *)
Theorem C84_built : build game_compile 300 "exampleN" ex2_lines = ROk ex2 /\ build game_compile 300 "exampleN" ex4_lines = ROk ex4 /\
  ex2_inner = ROk <$> all_ok ex2_inner /\ ex2_rules = ROk <$> ex2_lines /\ ex4_inner = ROk <$> all_ok ex4_inner /\ ex4_rules = ROk <$> ex4_lines.
Proof. exact (conj ex2_eq (conj ex4_eq (proj2 ex_rules_ok))). Qed.
Print Assumptions C84_built.
Example C84_ex : asks (s2b "5") (ById 5) /\ plain (ById 5) /\ fits (ById 5) /\ answers (ById 5) (Game 5 (s2b "Tetris") 1984 (s2b "Alexey Pajitnov") 90) /\
  asks (s2b "bestIn: 1984") (ByYear 1984) /\ ~ plain (ByYear 1984).
Proof.
  split; [change 5%Z with (decimal (s2b "5")); apply ask_id; exists 53%N, []; split; [done|]; split; [lia|apply List.Forall_nil]|].
  split; [done|]. split; [done|]. split; [left; exists (take 3 db), []; split; [reflexivity|]; split; [done|]; repeat (apply List.Forall_cons; [by vm_compute|]); apply List.Forall_nil|].
  split; [|intros []].
  apply (ask_year (s2b " ") (s2b "19") 56 52); [apply List.Forall_cons; [by left|apply List.Forall_nil]|by left|unfold is_digit; lia|unfold is_digit; lia].
Qed.

(** The horizontal form: what it answers to every text. *)
Theorem C85_first_digit_partial o s a g : po_debug o = false -> asks_first s a -> answers a g ->
  exists fuel0, forall fuel, fuel0 <= fuel -> exists s', fst (parse_string fuel (gram_of ex1) o game_rx readme_cb s) = Ok (Some (game_ast g)) s'.
Proof. intros Ho. exact (one_answer o Ho s a g). Qed.
Print Assumptions C85_first_digit_partial.
Theorem C85_refuses_partial o s : po_debug o = false -> (forall a, ~ asks_first s a) ->
  exists fuel0, forall fuel, fuel0 <= fuel -> exists s',
    match s with
    | [] => fst (parse_string fuel (gram_of ex1) o game_rx readme_cb s) = Ok None s'
    | _ => exists k, fst (parse_string fuel (gram_of ex1) o game_rx readme_cb s) = Ok (Some (AErr k)) s' /\ k <= length s
    end.
Proof. intros Ho. exact (one_others o Ho s). Qed.
Print Assumptions C85_refuses_partial.
(** ["12"]: game 1 from the horizontal form, none from the vertical ones. *)
Theorem C85_same_game_refuted : exists s a g, asks s a /\ answers a notfound /\ g <> notfound /\
  (exists s', fst (parse_string 300 (gram_of ex1) (POpts false false false) game_rx readme_cb s) = Ok (Some (game_ast g)) s') /\
  (exists s', fst (parse_string 300 (gram_of ex2) (POpts false false false) game_rx readme_cb s) = Ok (Some (game_ast notfound)) s') /\
  (exists s', fst (parse_string 300 (gram_of ex4) (POpts false false false) game_rx readme_cb s) = Ok (Some (game_ast notfound)) s').
Proof.
  exists (s2b "12"), (ById 12), (find_game (fun g => (gm_id g =? 1)%Z)).
  split; [change 12%Z with (decimal (s2b "12")); apply ask_id; exists 49%N, [50%N]; split; [done|]; split; [lia|]; apply List.Forall_cons; [unfold is_digit; lia|apply List.Forall_nil]|].
  split; [right; split; [|done]; repeat (apply List.Forall_cons; [by vm_compute|]); apply List.Forall_nil|].
  split; [by vm_compute|]. split; [|split]; eexists; vm_compute; reflexivity.
Qed.
Print Assumptions C85_same_game_refuted.
Example C85_ex : asks_first (s2b "12") (ById 1) /\ build game_compile 300 "exampleN" ex1_lines = ROk ex1 /\ ex1_rules = ROk <$> ex1_lines.
Proof.
  split; [|split; [exact ex1_eq|apply ex_rules_ok]]. apply (first_id 49 [50%N]); [lia|]. apply List.Forall_cons; [unfold is_digit; lia|apply List.Forall_nil].
Qed.

(** The three forms of the greeting grammar read hi, any spaces and a name, and
    give the name. *)
Theorem C86_greets o b s k n : po_debug o = false -> b = greet1 \/ b = greet2 \/ b = greet3 -> greets s k n ->
  exists fuel0, forall fuel, fuel0 <= fuel -> exists s', fst (parse_string fuel (gram_of b) o greet_rx greet_cb s) = Ok (Some (AStr n)) s'.
Proof. intros Ho Hb. exact (greet_answer o Ho b Hb s k n). Qed.
Print Assumptions C86_greets.
Theorem C86_refuses o b s : po_debug o = false -> b = greet1 \/ b = greet2 \/ b = greet3 -> (forall k n, ~ greets s k n) ->
  exists fuel0, forall fuel, fuel0 <= fuel -> exists s',
    match s with
    | [] => fst (parse_string fuel (gram_of b) o greet_rx greet_cb s) = Ok None s'
    | _ => exists k, fst (parse_string fuel (gram_of b) o greet_rx greet_cb s) = Ok (Some (AErr k)) s' /\ k <= length s
    end.
Proof. intros Ho Hb. exact (greet_others o Ho b Hb s). Qed.
Print Assumptions C86_refuses.
Theorem C86_built : build greet_compile 300 "my grammar" greet1_lines = ROk greet1 /\ build greet_compile 300 "my grammar" greet2_lines = ROk greet2 /\
  build greet_compile 300 "my grammar" greet3_lines = ROk greet3 /\
  greet1_rules = ROk <$> greet1_lines /\ greet2_rules = ROk <$> greet2_lines /\ greet3_rules = ROk <$> greet3_lines.
Proof. exact (conj (proj1 greet_eq) (conj (proj1 (proj2 greet_eq)) (conj (proj2 (proj2 greet_eq)) greet_rules_ok))). Qed.
Print Assumptions C86_built.
Example C86_ex : greets (s2b "hi amigo") 1 (s2b "amigo") /\ forall k n, ~ greets (s2b "bye bye") k n.
Proof.
  split.
  - split; [reflexivity|]. apply List.Forall_forall. intros c Hc. apply letter_is. revert c Hc. apply forallb_forall. reflexivity.
  - intros k n [H _]. discriminate H.
Qed.

(** The README: "followed by one or more space characters, followed by a NAME". *)
Theorem C87_spaces_refuted : exists s n s', n <> [] /\ greets s 0 n /\
  fst (parse_string 300 (gram_of greet1) (POpts false false false) greet_rx greet_cb s) = Ok (Some (AStr n)) s'.
Proof.
  exists (s2b "hiamigo"), (s2b "amigo"). eexists. split; [done|]. split; [|vm_compute; reflexivity].
  split; [reflexivity|]. apply List.Forall_forall. intros c Hc. apply letter_is. revert c Hc. apply forallb_forall. reflexivity.
Qed.
Print Assumptions C87_spaces_refuted.
Theorem C87_name_refuted : exists s', fst (parse_string 300 (gram_of greet1) (POpts false false false) greet_rx greet_cb (s2b "hi")) = Ok (Some (AStr [])) s'.
Proof. eexists. vm_compute. reflexivity. Qed.
Print Assumptions C87_name_refuted.
