(** The examples color and videogamedb. *)
From Verif Require Import Base Helpers Utf8 Stream Native Engine Build Joeson JoesonRun Calc CalcSpec LispRead Color ColorRun ColorSpec ColorMain Games GamesRun GamesSpec GamesMain.
Local Open Scope list_scope.

(** Every color gives its three components. *)
Theorem C78_colors o s ns r g b : po_debug o = false -> color_of s ns (r, g, b) -> Forall small ns ->
  exists fuel0, forall fuel, fuel0 <= fuel -> exists s', fst (parse_string fuel (gram_of colors) o color_rx color_cb s) = Ok (Some (color r g b)) s'.
Proof. intros Ho. exact (colors_read o Ho s ns (r, g, b)). Qed.
Print Assumptions C78_colors.
(** Any other text is refused. *)
Theorem C78_refuses o s : po_debug o = false -> (forall ns c, ~ color_of s ns c) -> numbers_small s ->
  exists fuel0, forall fuel, fuel0 <= fuel -> exists s',
    match s with
    | [] => fst (parse_string fuel (gram_of colors) o color_rx color_cb s) = Ok None s'
    | _ => exists k, fst (parse_string fuel (gram_of colors) o color_rx color_cb s) = Ok (Some (AErr k)) s' /\ k <= length s
    end.
Proof. intros Ho Hno Hs. exact (colors_others_with o Ho None s (fun _ => Hs) Hno). Qed.
Print Assumptions C78_refuses.
(** With numbers that do not fit: no color, either way. *)
Theorem C78_never o s : po_debug o = false -> (forall ns c, ~ color_of s ns c) ->
  exists fuel0, forall fuel, fuel0 <= fuel -> exists s',
    (exists k, fst (parse_string fuel (gram_of colors) o color_rx color_cb s) = Panic (Base.PUser k) s') \/
    match s with
    | [] => fst (parse_string fuel (gram_of colors) o color_rx color_cb s) = Ok None s'
    | _ => exists k, fst (parse_string fuel (gram_of colors) o color_rx color_cb s) = Ok (Some (AErr k)) s' /\ k <= length s
    end.
Proof. intros Ho. exact (colors_never o Ho s). Qed.
Print Assumptions C78_never.
Theorem C78_too_large o s ns c : po_debug o = false -> color_of s ns c -> Exists (fun n => ~ small n) ns ->
  exists fuel0, forall fuel, fuel0 <= fuel -> exists k s', fst (parse_string fuel (gram_of colors) o color_rx color_cb s) = Panic (Base.PUser k) s'.
Proof. intros Ho. exact (colors_panic o Ho s ns c). Qed.
Print Assumptions C78_too_large.
(** Components may not be zero: red itself is refused. *)
Theorem C78_zero_refuted : exists s', 
  fst (parse_string 300 (gram_of colors) (POpts false false false) color_rx color_cb (s2b "rgb(255, 0, 0)")) = Ok (Some (AErr 7)) s'.
Proof. eexists. vm_compute. reflexivity. Qed.
Print Assumptions C78_zero_refuted.
Example C78_ex : color_of (s2b "rgb(127, 49, 255)") [s2b "127"; s2b "49"; s2b "255"] (127, 49, 255)%Z /\ Forall small [s2b "127"; s2b "49"; s2b "255"] /\
  build color_compile 300 "color example" color_lines = ROk colors /\ color_rules = ROk <$> color_lines.
Proof.
  split; [|split; [|split; [exact colors_eq|apply color_rules_ok]]].
  - change (s2b "rgb(127, 49, 255)") with (s2b "rgb" ++ [] ++ s2b "(" ++ [] ++ s2b "127" ++ s2b ", " ++ s2b "49" ++ s2b ", " ++ s2b "255" ++ [] ++ s2b ")").
    change 127%Z with (decimal (s2b "127")). change 49%Z with (decimal (s2b "49")). change 255%Z with (decimal (s2b "255")).
    assert (forall n b r, n = b :: r -> (49 <= b <= 57)%N -> forallb digit_b r = true -> a_number n) as HN.
    { intros n x r -> Hx Hr. exists x, r. split; [done|]. split; [done|]. apply List.Forall_forall. intros c Hc. rewrite forallb_forall in Hr. by apply ColorPeg.digit_is, Hr. }
    assert (commas (s2b ", ")) as HC by (split; [done|]; constructor; [by right|]; constructor; [by left|constructor]).
    apply (col_rgb [] [] (s2b "127") (s2b ", ") (s2b "49") (s2b ", ") (s2b "255") []); [by apply List.Forall_nil|by apply List.Forall_nil|eapply HN; [reflexivity|by vm_compute|done]|exact HC|eapply HN; [reflexivity|by vm_compute|done]|exact HC|eapply HN; [reflexivity|by vm_compute|done]|by apply List.Forall_nil].
  - by repeat constructor.
Qed.
(** ["cyan"] is none, and has no number. *)
Example C78_no : (forall ns c, ~ color_of (s2b "cyan") ns c) /\ numbers_small (s2b "cyan").
Proof.
  split; [intros ns c H; inversion H|]. intros a n b H (x & r & -> & Hx & _).
  assert (x ∈ s2b "cyan") as HE by (rewrite H; apply elem_of_app; right; left). revert HE. clear -Hx. change (s2b "cyan") with [99; 121; 97; 110]%N. rewrite !elem_of_cons, elem_of_nil. lia.
Qed.

(** Every question is answered by the first game of the database it fits, or
    by the one that stands for none. *)
Theorem C79_answers o s a g : po_debug o = false -> asks s a -> fits a -> answers a g ->
  exists fuel0, forall fuel, fuel0 <= fuel -> exists s', fst (parse_string fuel (gram_of games) o game_rx game_cb s) = Ok (Some (game_ast g)) s'.
Proof. intros Ho. exact (games_answer o Ho s a g). Qed.
Print Assumptions C79_answers.
(** Any other text is refused. *)
Theorem C79_refuses o s : po_debug o = false -> (forall a, ~ asks s a) -> starts_small s ->
  exists fuel0, forall fuel, fuel0 <= fuel -> exists s',
    match s with
    | [] => fst (parse_string fuel (gram_of games) o game_rx game_cb s) = Ok None s'
    | _ => exists k, fst (parse_string fuel (gram_of games) o game_rx game_cb s) = Ok (Some (AErr k)) s' /\ k <= length s
    end.
Proof. intros Ho Hno Hs. exact (games_others_with o Ho None s (fun _ => Hs) Hno). Qed.
Print Assumptions C79_refuses.
Theorem C79_never o s : po_debug o = false -> (forall a, ~ asks s a) ->
  exists fuel0, forall fuel, fuel0 <= fuel -> exists s',
    (exists k, fst (parse_string fuel (gram_of games) o game_rx game_cb s) = Panic (Base.PUser k) s') \/
    match s with
    | [] => fst (parse_string fuel (gram_of games) o game_rx game_cb s) = Ok None s'
    | _ => exists k, fst (parse_string fuel (gram_of games) o game_rx game_cb s) = Ok (Some (AErr k)) s' /\ k <= length s
    end.
Proof. intros Ho. exact (games_never o Ho s). Qed.
Print Assumptions C79_never.
(** An id that does not fit is not "Not found": it panics. *)
Theorem C79_too_large o s a : po_debug o = false -> asks s a -> ~ fits a ->
  exists fuel0, forall fuel, fuel0 <= fuel -> exists k s', fst (parse_string fuel (gram_of games) o game_rx game_cb s) = Panic (Base.PUser k) s'.
Proof. intros Ho. exact (games_panic o Ho s a). Qed.
Print Assumptions C79_too_large.
Theorem C79_not_found_refuted : exists s a, asks s a /\ answers a notfound /\
  exists s', fst (parse_string 300 (gram_of games) (POpts false false false) game_rx game_cb s) = Panic (Base.PUser 1) s'.
Proof.
  exists (s2b "99999999999999999999"), (ById (decimal (s2b "99999999999999999999"))). split; [|split; [|eexists; vm_compute; reflexivity]].
  - apply ask_id. exists 57%N, (s2b "9999999999999999999"). split; [reflexivity|]. split; [lia|]. apply List.Forall_forall. intros c Hc. apply ColorPeg.digit_is.
    revert c Hc. apply forallb_forall. reflexivity.
  - right. split; [|done]. repeat (apply List.Forall_cons; [by vm_compute|]). apply List.Forall_nil.
Qed.
Print Assumptions C79_not_found_refuted.
(** The questions of the test. *)
Example C79_ex : asks (s2b "1") (ById 1) /\ asks (s2b """Doom""") (ByTitle (s2b "Doom")) /\ asks (s2b "bestIn: 1984") (ByYear 1984) /\
  asks (s2b "73264983242") (ById 73264983242) /\
  answers (ById 73264983242) notfound /\ answers (ByYear 1984) (Game 5 (s2b "Tetris") 1984 (s2b "Alexey Pajitnov") 90) /\
  build game_compile 300 "videogamedb" game_lines = ROk games /\ game_rules = ROk <$> game_lines.
Proof.
  assert (forall n b r, n = b :: r -> (49 <= b <= 57)%N -> forallb digit_b r = true -> a_number n) as HN.
  { intros n x r -> Hx Hr. exists x, r. split; [done|]. split; [done|]. apply List.Forall_forall. intros c Hc. rewrite forallb_forall in Hr. by apply ColorPeg.digit_is, Hr. }
  split; [change 1%Z with (decimal (s2b "1")); apply ask_id; eapply HN; [reflexivity|by vm_compute|done]|].
  split; [apply (ask_title (s2b "Doom")); repeat (apply List.Forall_cons; [by vm_compute|]); apply List.Forall_nil|].
  split; [apply (ask_year (s2b " ") (s2b "19") 56 52); [apply List.Forall_cons; [by left|apply List.Forall_nil]|by left|unfold is_digit; lia|unfold is_digit; lia]|].
  split; [change 73264983242%Z with (decimal (s2b "73264983242")); apply ask_id; eapply HN; [reflexivity|by vm_compute|done]|].
  split; [right; split; [|done]; repeat (apply List.Forall_cons; [by vm_compute|]); apply List.Forall_nil|].
  split; [|split; [exact games_eq|apply game_rules_ok]].
  left. exists (take 3 db), []. split; [reflexivity|]. split; [done|]. repeat (apply List.Forall_cons; [by vm_compute|]). apply List.Forall_nil.
Qed.
(** ["Doom"] without quotes asks nothing. *)
Example C79_no : (forall a, ~ asks (s2b "Doom") a) /\ starts_small (s2b "Doom").
Proof.
  split.
  - intros a H. remember (s2b "Doom") as s eqn:E. destruct H as [n (b & r & -> & Hb & _)|u Hu|w c x y]; [|discriminate E|discriminate E]. injection E as -> _. lia.
  - intros n r H (b & q & -> & Hb & _). injection H as <- _. lia.
Qed.
