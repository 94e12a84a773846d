(** Model of the loop of examples/lisp-repl/main.go: one line of input.  No proofs
    here.

    What is simplified: printing is left out; the conversion of int to float64
    (grammar.go:40) is a parameter.  The standard input is the list of what each
    call of Read returns, and then the end of the file. *)
From Verif Require Import Base Helpers Utf8 Stream Native Engine Build JoesonRun LispRead LispReadRun Lisp.

(** strings.TrimSuffix(s, "\n"), strings.Trim(s, " "), strings.HasPrefix(s, "("). *)
Definition trim_newline (s : bytes) : bytes :=
  match List.rev s with
  | b :: r => if (b =? 10)%N then List.rev r else s
  | [] => s
  end.
Fixpoint trim_left (s : bytes) : bytes :=
  match s with
  | b :: r => if (b =? 32)%N then trim_left r else s
  | [] => []
  end.
Definition trim (s : bytes) : bytes := List.rev (trim_left (List.rev (trim_left s))).
(** main.go:45-49. *)
Definition repl_text (s : bytes) : bytes :=
  let s := trim (trim_newline s) in
  match s with
  | b :: _ => if (b =? 40)%N then s else [40%N] ++ s ++ [41%N]
  | [] => [40%N] ++ s ++ [41%N]
  end.

Local Open Scope list_scope.
Section Repl.
Context {A : arith}.
Variable of_int : Z -> num A.
(** An Expr as the evaluator sees it; [None]: not an Expr. *)
Fixpoint expr_of (x : ast) : option (lexp A) :=
  let fix exprs (l : list ast) : option (list (lexp A)) :=
    match l with
    | [] => Some []
    | x :: l' => match expr_of x, exprs l' with Some e, Some r => Some (e :: r) | _, _ => None end
    end in
  match x with
  | AUser 0 [AStr s] => Some (LStr (b2s s))
  | AUser 1 [AInt z] => Some (LNum (of_int z))
  | AUser 2 l => match exprs l with Some r => Some (LList r) | None => None end
  | AUser 3 [AStr s] => Some (LOp (b2s s))
  | _ => None
  end.
(** What becomes of a line. *)
Inductive reply :=
| RParseError
| REval (r : lres A (lexp A))
| RCrash
| RFuel.
(** main.go:50-60.  A panic of ParseString ends the program. *)
Definition repl_line (fuel : nat) (o : popts) (m : machine A) (input : bytes) : reply :=
  match fst (parse_string fuel (gram_of lisp) o lisp_rx lisp_cb (repl_text input)) with
  | Ok (Some (AErr _)) _ => RParseError
  | Ok (Some x) _ => match expr_of x with Some e => REval (eval fuel m e) | None => RCrash end
  | Ok None _ => RCrash
  | Panic _ _ => RCrash
  | OutOfFuel => RFuel
  end.
(** main.go:35-36: a bufio.Reader made for one line; it reads until it has seen a
    newline, returns the text up to and with the newline, and is dropped with
    what else it has read.  [None]: the end of the file comes first. *)
Fixpoint upto_newline (s : bytes) : option bytes :=
  match s with
  | [] => None
  | b :: r => if (b =? 10)%N then Some [b] else match upto_newline r with Some l => Some (b :: l) | None => None end
  end.
Fixpoint read_string (before : bytes) (reads : list bytes) : option (bytes * list bytes) :=
  match reads with
  | [] => None
  | c :: reads' =>
      match upto_newline c with
      | Some l => Some (before ++ l, reads')
      | None => read_string (before ++ c) reads'
      end
  end.
(** main.go:33-62: the replies of a session; after a crash or a panic of Eval
    there are no more.  [n] bounds the number of lines. *)
Fixpoint repl (n fuel : nat) (o : popts) (m : machine A) (reads : list bytes) : list reply :=
  match n with
  | O => []
  | S n' =>
      match read_string [] reads with
      | None => []
      | Some (input, reads') =>
          let r := repl_line fuel o m input in
          r :: match r with
               | RParseError => repl n' fuel o m reads'
               | REval (LOk _ m') => repl n' fuel o m' reads'
               | _ => []
               end
      end
  end.
End Repl.
Arguments reply : clear implicits.
