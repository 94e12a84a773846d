# Design of the joeson model

The subject is the Go library in /repo, a runtime packrat PEG parser with left
recursion.  It is read as text only: nothing was built or run.  The model is a
set of Gallina definitions that follow the Go functions one by one.  Each
carries a comment with the file and lines it models, and says where it
simplifies.  Specifications are written in separate files and do not use the
model's helpers.

## Layout of rocq/theories

Models (no proofs in them):

| file | what it models |
|---|---|
| Base.v | bytes (`list N`), string literals, results with panics; no code of /repo |
| Helpers.v | helpers/: bisect.go, SliceString, padding, Escape, Lazy |
| Utf8.v | Go's UTF-8 decoding (first and last rune, `for range`), LastNRunes |
| Stream.v | RuneStream and TokenStream |
| Native.v | NativeMap, NativeArray, NativeInt, NativeString, NativeUndefined, Concat, Attr, the heap of objects |
| Access.v | the typed getters of NativeMap |
| Trace.v | traceoptions.go |
| Engine.v | packrat.go, parsectx.go, the parse methods of parser_*.go, Grammar.parse |
| Build.v | line*.go, newRule, rankFromLines, walk.go, postinit, prepare, lazy labels and captures |
| Joeson.v | joeson_handcompiled.go and joeson_intention.go with their parse functions |
| Calc.v | examples/calculator |
| Moss.v | examples/precedence: growMoss and the six grammars of the test |
| Color.v | examples/color |
| Games.v | examples/videogamedb |
| Lisp.v | examples/lisp-repl: the evaluator |
| LispRead.v | examples/lisp-repl: the grammar and its parse functions |
| LispRepl.v | examples/lisp-repl: the loop of main |
| Print.v | String of parsers: ast.go, parser.go, colors.go, the String methods of parser_*.go |
| GoTokens.v | TokenStreamFromGoCode, with go/scanner as data |
| Greeting.v, ReadmeGames.v | grammars of the README |
| IndirectGram.v | a grammar with left recursion through other rules (not in /repo), built as GrammarFromLines does |
| Small.v | LastNRunesReversed, Indent (helpers.go), the line, origin and attribute methods of Ast (attr.go, native_*.go) |
| Life.v | IsReady, CountRules, Bomb (grammar.go) |
| Ansi.v | helpers/stripansi.go |
| LispPrint.v | examples/lisp-repl: String of values |
| ErrMsg.v | parseerror.go, RuneStream.Print, the message of a failed parse |

Replay.v and ReplayGram.v hold no theorems: they run the tests of /repo itself
(helpers, bisect, native_map, both code streams, lookahead, pattern, joeson,
calculator, lisp, precedence, videogame) on the model as examples.  All of them
give what the tests expect, which is evidence that the model is faithful.

Specifications: HelpersSpec, Utf8Spec, StreamSpec, NativeSpec, TraceSpec,
EngSpec, CombSpec, TermSpec, ShapeSpec, LogSpec, SkipSpec, KeepSpec, SimSpec,
RunSpec, BuildSpec, JoesonSpec, TextSpec, LookSpec, PrintSpec, CalcSpec, MossSpec, LispSpec,
LispReadSpec, LispReplSpec, CalcAllSpec, ShownSpec, WfSpec, MeansSpec, JoinSpec, ColorSpec, GamesSpec.  Peg.v is a
big-step semantics of parsing expressions with direct left recursion (no cache,
no stack, no mutable objects).  PegStd.v is the textbook recursive evaluator.
Both cover the labels @ and & as long as merging changes no value that others hold, and callbacks that change only the map just made for them.

Proofs: HelpersProofs, Utf8Proofs, StreamRun, StreamProofs, NativeProofs,
AccessProofs, TraceProofs; EngInv and EngMon (invariants of all runs); PegProofs,
PegRep, PegInv, PegBody, PegCases, PegRules, PegGrow, PegMain, PegStdProofs,
PegRun, PegLaws (the engine computes Peg.v); FinishProofs, Report, Fuel (end of
a parse, error position, fuel); CombProofs, Term, ShapeProofs; Pre, LogProofs,
Stages, Origin, Linear, Skip (ghost log); Keep (heap); Sim, SimTop (two runs
compared); BuildWalk, Builds, BuildFuel, BuildLines, BuildMono, BuildPrep, BuildProofs, BuildMain,
BuildRef, BuildOpts; JoesonRun, Erase, JoesonMark, TextNodes, TextPrim,
TextHeads, TextMain, TextRun, LookMain, LookOpen, PrintProofs (texts of expressions); CalcRun, CalcPeg, CalcMain, Brave; Gives
(rules to run the textbook evaluator), MossRun, MossPeg, MossRank, MossRight, MossLevels (the rules of two levels, for any callback), MossDeep; LispProofs, LispReadRun, LispReadPeg,
LispReadText, LispReadMain, LispReadTop, LispReadWhole, LispReplProofs; CalcAll; ShownProofs; Wf, WfCheck, WfGrams, Total; MeansBuild, Means, MeansLaws, MeansRun (what the lines of a grammar mean); Joins; Readers (rules as functions of the rest of the text), ColorRun, ColorPeg, ColorMain, GamesRun, GamesPeg, GamesMain.  Toy.v has small grammars for examples and counterexamples.

Theorems: Props_*.v hold the property theorems, the examples that show their
hypotheses can be met, and `Print Assumptions` under each theorem.

## Modelling decisions

* Text is a list of bytes (`list N`).  Positions are `nat`; Go ints that may be
  negative are `Z`.  Go's int is unbounded in the model except where a property
  is about its range (C20, C50, C56).
* Panics are values: an outcome is `Ok`, `Panic kind` or `OutOfFuel`.  Fuel is
  there because Gallina is total.  Theorems say "from some fuel on", or hold for
  every fuel.  Fuel.v shows that more fuel never changes a result.
* A built grammar is a finite tree (`node`) per rule, as it is after `postinit`.
  References are looked up by name in the table of rules, as `getRuleRef` does.
  The mutable fields of Go parsers (label, capture, id...) are final once the
  grammar is built and become a record `info` on each node.  Build.v models how
  they come to their final values, on a store of mutable parsers.
* The parse context is a record: cursor, frame table (indices into a heap of
  frames, since `cacheSet` mutates frames that the stack and the stash refer to),
  stack of 1024, counter, heap of objects (NativeMap and parsers: `merge` mutates
  maps that the cache refers to).
* NativeArrays are immutable values.  In the code no parser mutates an array
  after returning it; callbacks that append to one are outside the model.
* Regular expressions are an oracle: pattern and text to an optional
  (start, end) inside the text.  Joeson.v, Calc.v and LispRead.v give exact functions for
  the few expressions their grammars use.
* Callbacks are an oracle: callback id, position, heap and result to a new heap
  and optional result, or a panic.  They cannot move the cursor, read the cache
  or keep state outside the heap.
* Trace output is not modelled as text.  The calls that compute it are, since
  they can panic.
* A ghost log records body evaluations, callbacks and cache hits.  It is never
  read by the model.
* The store of Build.v carries only what later stages read; names, ids, labels,
  captures, options.  Parents are modelled by the path of the walk.
* float64 of the lisp example is a parameter (record `arith`); C59_fact and C63
  take exact integers with a NaN.  An evaluation that never ends is out of fuel for
  every fuel.

## Properties

The statements are in properties.jsonl, the theorem names and remarks in
MANIFEST.json.

| id | what is modelled, how it is proved |
|---|---|
| C01, C02 | bisect.go as loops over lists of Z; loop invariant; the spec is the unique split index; permutation and sortedness for insort |
| C03 | SliceString; the spec is a filter on indices; case analysis |
| C04 | padding; lists |
| C05, C12 | byte-level decoders against the table of RFC 3629; induction on code points |
| C06 | Escape as per-byte replacement; explicit inverse |
| C07 | Lazy as a state machine; induction on histories |
| C08, C09, C10 | RuneStream as a record; induction on call histories; C10 refuted for an absent needle |
| C11 | line starts by rune iteration; newline bytes are never swallowed; uses C01 |
| C13 | PeekLines; refuted without argument and out of range |
| C14, C15 | TokenStream; simulation; C15 refuted for the last token |
| C16, C41, C42 | two runs compared step by step (Sim.v): same stack, frames, heap up to origins; each missing condition has a counterexample |
| C17, C18, C19, C56 | NativeMap as keys and association list; histories; C18 refuted |
| C20 | decimal printing and parsing on Z; induction on digits |
| C21, C22, C30, C31 | invariants of the engine for all grammars, fuels, states and oracles (EngInv); a monitored run (EngSpec `parse_mon`) says where they are checked |
| C23, C32-C36 | each kind of parser against a relation on what its parts do; the parts are arbitrary functions (C36_labels: through the textbook semantics, for labels other than @ and &) |
| C24, C38 | textbook outcome implies Peg.v outcome implies engine outcome, with an invariant on frame table and heaps (PegInv) |
| C25, C26 | the same refinement; left recursion in Peg.v is a chain of seeds |
| C27, C55 | a measure on the remaining text and the rules in progress (Term.v) |
| C28 | partial by the textbook semantics; refuted for a left-recursive rule |
| C29 | ghost log; a pair (rule, position) is logged once unless a left-recursive hit occurs |
| C37 | heap invariant (Keep.v); refuted for nested groups and shared results |
| C39 | invariant on the frame table (Report.v) and on the end of a parse |
| C40, C53, C54 | ghost log and equations of prepareResult, all oracles |
| C43 | refuted: the engine never reads the option |
| C44, C45, C46, C57 | Build.v; induction on lines, on the parser tree and on walks; the spec (BuildSpec) lists the declared rules directly from the lines |
| C47 | closed computation with the model (vm_compute): parsing 35 rule texts with the hand-compiled grammar, building, comparing |
| C48 | TextSpec.v says which texts write which expression (a relation, no parser in it); induction on it with the textbook evaluator of the 35 rules, values carry the labels that merging sets in place (JoesonMark.v), the engine does not look at them (Erase.v), then reading the result back; PrintSpec.v writes a text for each expression; 73 parentheses by vm_compute |
| C49 | traceoptions.go as a function of the words; refuted default |
| C50 | the seven texts are compiled by the model; induction on expression texts through the textbook semantics; panics by comparing with callbacks that do not panic (Brave.v); refusal of all other texts by induction on the length of what is left of the text (CalcAll.v) |
| C51 | growMoss as a fold, induction; every chain of operations parsed by the left-recursive grammar of the example; every text splits into a longest chain and a rest, so all others are refused (MossPeg.v) |
| C52, C60, C61 | evaluator with fuel, shown monotone; refuted, and what happens instead for every argument and arithmetic |
| C58, C62 | the same evaluator; induction on the argument list |
| C59 | substitution as a relation (`replaced`); the factorial by induction on n with arguments left unevaluated |
| C63 | induction on expression trees, exact integers |
| C64 | the grammar is compiled by the model; LispReadSpec.v says which texts write which expression; one induction for texts that write one, one on the length of the text for all others, both with the textbook evaluator |
| C67 | static left-most relation (WfSpec.v); invariant: a frame in progress at a position belongs to a rule that leads to the one being tried (Wf.v); then C29; the shipped grammars are checked by a computed ranking (WfCheck.v, WfGrams.v) |
| C68 | induction on the rest of the text, the rank and the level of the parser: the textbook evaluator has an outcome (Total.v); then C24 |
| C69 | induction on parser expressions: what is seen of the printed form is one of the texts of C48; refuted for regular expressions, some strings and labelled operands |
| C70 | MeansSpec.v reads the lines by the textbook evaluator, by name, with nothing numbered or prepared; the nodes of the built grammar are shown alike (MeansBuild.v), the two evaluations simulate each other (Means.v); then C24 |
| C71 | the rules declared are a permutation, so every name means the same (MeansLaws.v) |
| C72 | simulation of the two sets of rules, with depth d against 2d (MeansLaws.v) |
| C73 | by C70 the one line is evaluated; induction on the rounds; every text is a longest run and a rest (Joins.v); the README's texts are run |
| C74 | both grammars run on the longest chain of every text, through the rank's own rule ids (MossRank.v) |
| C75 | the inner Expr takes all that follows, so the loop of the outer one has one round; induction on the chain (MossRight.v) |
| C76 | the rules of both levels read by induction on the length of the text, with an invariant that says where each level stops (MossLevels.v); uniqueness by running the grammar with a callback that keeps the parentheses (MossDeep.v) |
| C77 | the same rules with growMoss at the factor; the panic as for C50: two variants of the callback that return different values instead of panicking give different trees (MossDeep.v) |
| C78 | each rule computes a function of the rest of the text (Readers.v); what the function accepts is a color by inversion, and every color is accepted by evaluation; the panic by two variants of the callback, as for C77 (ColorPeg.v, ColorMain.v) |
| C79 | the same; the answer is the first game of the list that meets the question (GamesPeg.v, GamesMain.v) |
| C80, C81, C82, C83 | GoTokens.v: the answers of go/scanner are data; induction on the tokens, words as longest runs of bytes; positions by C15; histories of calls share the variable of collected errors |
| C84, C85 | ReadmeGames.v: the three grammars of readme_02alternation_test.go, compiled; their texts by Readers.v as for C79 (ReadmeGamesPeg.v, ReadmeGamesMain.v) |
| C86, C87 | Greeting.v: the three grammars of readme_01create_simple_grammar_test.go, compiled; their texts by Readers.v (GreetingMain.v) |
| C88, C89 | LookSpec.v says which texts without labels write which expression, lookaheads without parentheses included (open at their end); induction on it as for C48, with no labels to track (LookMain.v); the groupings are texts of that relation; refuted by vm_compute for ?(e) and ! |
| C90, C91 | the textbook evaluator fails in each rule on a literal that is not closed, so the parse error is certain (LookOpen.v); the README's octal rule is such a text |
| C92 | NAME(e) gives a reference object with an argument; objects that are no image of an expression are related to what reading them back gives (CallMain.v, stands) |
| C93 | bars are read by both repetitions around the alternatives, the separator backs out of the last ones (PipeMain.v); spec of the bars in PipeSpec.v |
| C94 | from C88's relation; the texts without space are computed |
| C95, C97 | Ansi.v: the leftmost-first match of the regular expression in stripansi.go as a function; AnsiSpec.v: `painted`, a text with marks of colors.go put in anywhere; induction on it; `control` and `stripped`: the expression as a set of texts, AnsiExact.v shows soundness and completeness of the match for every text; C97 refuted for every text of word characters with a bell |
| C96 | LispPrint.v: String of the lisp values over an abstract %f; what is printed without numbers is a text of LispRead's relation (LispPrintProofs.v); refuted for every number |
| C98-C101 | ErrMsg.v: the message ParseString builds and the stream's Print; ErrMsgSpec.v writes the expected text from the text and two positions; the positions come from the invariants of C08 and C22; C99-C101 refuted by vm_compute or, for C100, for every one-line text |
| C102 | Indirect.v: the arms as parts of E in Peg.v (`par`), for any list of arms; IndirectMain.v: the grammar of IndirectGram.v, built from lines, and every text |
| C103 | refuted by running the model on three grammars; partial from the textbook semantics |
| C104, C106 | SmallProofs.v: induction on the rounds; the decoder is sound and complete for the RFC 3629 relation |
| C105 | refuted on one letter; the bytes that stay by induction |
| C107 | any history of calls on a small state machine; refuted for the name, the range, the natives, the attributes |
| C108 | the four cases of the smallest and largest line asked for, by the lemmas of C13 and case analysis; token streams reduced to rune streams on the same line |
| C109 | the lookup of the last token goes one entry too early; the exact offset is computed and read as line and column of the original text |
| C110 | one unfolding of the loop for the second part; the counts are those of C32, from the loop invariant |
| C111, C112 | Again.v: the run theorem of C24 and C25 at any start; `finish` only moves the cursor. C112 refuted by one rule and one token |
| C113 | Life.v (IsReady, CountRules, Bomb), Again.v: the alternatives are the o-lines (C45), an empty memo table reports where the parse stopped |
| C114, C115 | Builds.v, BuildsSpec.v (the shape of lines): every step of the build succeeds with enough fuel, by induction on the lines and, for the labels, on the tree; C115 refuted by two i-lines of one name (panic) and by `X <- @:X b:'y'` (no fuel is enough, by induction on it). BuildFuel.v: more fuel builds the same grammar |
| C116, C117 | RewriteSpec.v (the changes), Rewrite.v: both grammars simulate each other in the evaluator of PegStd.v, then C70; C117 refuted by grammars compiled and run |
| C118, C119 | ReadsSpec.v (a reading without values, the changes), Reads.v: the reading and the evaluator of PegStd.v agree both ways, then C70; each change is an equivalence of the reading, put anywhere by a simulation. Left out: labelled parts (maps can make the engine give up for other reasons than the text) and callbacks (they can refuse). C119 refuted by grammars compiled and run |
| C120, C121 | RenameSpec.v (lines under other names), Rename.v: names correspond by the place of their declaration, both grammars simulate each other with the same fuel in the evaluator of PegStd.v, then C70; C121 refuted by grammars compiled and run |
| C122 | UnusedSpec.v (i-lines left out here or inside, lines whose references are all declared), Unused.v: what remains is declared the same, the simulation of Rename.v on the names in reach, then C70 |
| C123, C124 | Inline.v, on the readings of ReadsSpec.v: [put_in] with a reference and the parser of its rule; simulation in both directions, with the same depth when written out and some depth back; C124 refuted by grammars compiled and run |
| C125 | TwinSpec.v relates built grammars (inner parsers need not agree in numbers and marks, which only memoised parsers use); Twin.v: a simulation of each function of Engine.v on states that differ in the origins of the heap only, for every fuel, so no hypothesis on recursion, nesting or the stream; the example has two left-recursive rules, both grammars built from lines |
| C126 | the relation on lines is that of C120 (RenameSpec.v); TwinLines.v proves that lines so related build grammars related by TwinSpec.v, for all compilers of texts; then C125. The example has two left-recursive ranks with unnamed lines |
| C127, C128 | LineText.v: stringIndent of the five kinds of lines and the panic of parser_rank.go:41; Parser.String of a compiled line is a parameter; the regular expression is written out as two functions on bytes. LineTextSpec.v: line feeds, lines on the screen, texts of the rules. C128 is refuted by a rule that starts with the letter o |
| C129 | RenumSpec.v relates built grammars by names and numbers; Renum.v: a simulation of each function of Engine.v on states whose rows and masks have the same cells in other places, the rest empty, and whose frames sit in the row of their position; the scan for the error only asks whether a row has a frame or a result. The example has the rules of two left-recursive ranks in another order, and one rule more |
| C130 | RenumLinesSpec.v says on declarations what it means that lines declare the same rules and maybe more; RenumLines.v shows that the two built grammars meet the hypotheses of C129, with the place of a name among the declarations as number. `complete` is needed: without it a name that means nothing in the first lines could be a rule of the second |
| C65, C66 | the loop as a function of what Read returns; what is trimmed is space, the rest by C64; sessions by induction on the lines; C66 refuted for two lines in one read |

## Where code and documentation disagree

Each of these is a theorem `..._refuted`, or a theorem on what happens instead.

1. GetUntil with an absent needle returns the rest of the text (C10).
2. NativeMap.IsEmpty is inverted (C18).
3. `e{m,1}` and `e{m,0}` can match two values (C32).
4. A repetition of something that matches without moving never ends (C34).
5. A lookahead returns its part's value, not NativeUndefined (C35).
6. A failing parse of the empty text returns nil, which is no ParseError (C38).
7. Nesting beyond 1024 rules panics (C31); 341 parentheses in the calculator (C50).
8. A left-recursive rule with SkipCache overflows the stack (C28).
9. Token coordinates of the last token are those of the token before (C15).
10. TraceOptions ignores its documented default (C49).
11. Attr loses the rule name; a cached map can carry another origin (C53).
12. The lisp `not` does not negate (C52).
13. PeekLines without argument, past the last line, before the first (C13).
14. LastNRunes and PeekRunes(-n) panic on an encoded U+FFFD (C05, C12).
15. ParseString(SkipCache) has no effect (C43).
16. The Stack option stays on after a panic under Debug (C41, C42).
17. Tracing can panic or change results (C42).
18. Merging mutates results shared through the cache; labels of nested groups are lost (C37).
19. Two i-lines of one name in a rank: the last one gets two ids (C44).
20. A callback that returns a ParseError does not make its rule fail (C54).
21. Options of ranks and of lines inside Named are dropped (C57).
22. Rules given as parsers are not memoised, rules given as text are (C47).
23. With `@:Ref` the order of the lines decides what is captured (C46).
24. A map inside an array is concatenated with String() (C19).
25. The lisp `list?` looks at the written form, so (list? (+ 1 2 3)) is true (C60).
26. The lisp (and ()) and (or ()) never return; so does any list of data where a
    number is read (C61).
27. A rule text with 73 nested parentheses panics when it is compiled (C48).
28. The lisp loop loses what comes after a newline in the same read (C66).
29. At the lisp prompt a tab before a parenthesis is not trimmed: the list is
    wrapped once more; a carriage return is a parse error (C65).
30. The printed form of a parser need not be a text for it: /g after regular
    expressions, quotes and newlines in strings, labelled operands (C69).
31. The README's examples of joined repetitions: 'a'*'b' does not parse aaa or
    aabababa, 'a'+'b' not abaaaba, 'a'*'b'{1,2} not aaaa or aaabaaa (C73).
32. The fifth and sixth grammars of the precedence test panic on an operation in
    parentheses: growMoss, set on Factor, gets a binaryexpr, not an array (C77).
33. The color grammar refuses zero: rgb(255, 0, 0) is a parse error (C78).
34. An id beyond int64 panics in videogamedb where the test expects "Not found"
    for ids that are not there (C79).
35. TokenStreamFromGoCode joins a word that ends outside ASCII to the next one, and
    operators: x < -y and x <- y have the same token text (C81).
36. Columns in a token before which a space was put are one too much (C82).
37. TokenStreamFromGoCode returns only errors at the first character; after any
    scan error, the next of these panics (C83).
38. The README's horizontal game grammar reads only the first digit of an id: "12" is
    game 1, but Not found with the vertical forms (C85).
39. The README says its greeting grammar requires one or more spaces and a name; "hi"
    and "hiamigo" are accepted (C87).
40. The README's ?(e) does not end at its parenthesis: in 'a' ?('b') 'c' the lookahead
    is for 'b' 'c'. Its ! does not take alternatives as ? does: a !b | c is (a !b) | c (C89).
41. The README's octal rule '\' [0-7]+ does not compile: the backslash escapes the quote (C91).
42. A group directly behind a name, a('b'), is dropped without a message: the rule is a (C92, C94).
43. The lisp example prints numbers with six decimals, which its grammar does not read;
    NaN prints as a word that is read as a name (C96).
44. StripAnsi also removes word characters before a bell, and what follows an escape (C97).
45. The excerpt and offset in a parse error are where the parse stopped, not at the line
    and column given in the same message (C99).
46. The details of a parse error show a one-line text twice, and a third time up to the
    furthest attempt (C100).
47. The parts of the details are counted in bytes but taken in runes, and the excerpt is
    cut by bytes, so both are off for text that is not ASCII (C101).
48. When the growing of a left-recursive rule ends, the frames of the rules it went through
    are put back to those of the best round, where they had seen the seed of the round before.
    A later alternative that calls such a rule at the same place gets the outdated result:
    with E: F '+' | 'n' and F: E '*' | 'f', E 'q' | F 'w' refuses n*w (C103).
49. Escape does not filter out non-ASCII characters as its comment says (C105).
50. SetLine resets the range of the origin; NativeString, NativeInt and NativeArray keep no
    origin and always say line 1; SetAttribute always panics (C107).
51. ParseTokens does not set the stream back: a second call with the same stream starts at
    the end of the first and mostly answers nil (C112).

52. Lines whose texts are all valid need not make a grammar: two i-lines of one name panic
    at the build, and `X <- @:X b:Y` recurses for ever in the label computation, which the
    code does at the first parse of X and the model at the build (C115).

Seen while reading and not stated as theorems: the walk for single-alternative choices visits nested
choices a number of times exponential in the depth; a grammar with an empty name
takes the name of its first include.

## Trusted base

* The kernel of Coq 8.16.1, including its virtual machine (`vm_compute`).
* Assumptions: `Print Assumptions` under every theorem of Props_*.v answers
  "Closed under the global context".  The gate's `coqchk` also lists seven
  constants of Coq.ssr.ssrunder, which come with the standard library's ssreflect
  and are used by no theorem here.
* The faithfulness of the hand-written model to the Go text, and Go's semantics
  of slices, maps, strings and UTF-8 decoding as transcribed.
* The oracles named above: regular expressions and callbacks; the Go scanner
  (any answers, C80-C83).

Not modelled: text of traces, the table of PrintRules (only the form of each parser is), Go's
regexp engine beyond the expressions of Joeson.v, Calc.v, LispRead.v, Color.v and Games.v, the
printing of lisp values.

## Testing the theorems

Realistic bugs are put into a copy of the model, one at a time; a theorem must
fail.  seeded/LOG.jsonl has one line per attempt, with the theorems tightened
where a bug was not noticed.  A line says which lemma stopped the build.  That a
proof script breaks does not by itself show that a theorem became false: where
the lemma that broke is only a step of the proof, the line has a `note` telling
whether the claim was checked further (helper edited alike, or the mutant run on
an example) or that the edit is harmless.  The engine mutants of the first
series (E01-E34) were also run on some forty pairs of a small grammar and a text and
compared with the unedited model: each gives another value, error, log or heap on
one of them, and the line names the pair.  The lines H, S and N mostly stop at the
lemma that states the claim for the function edited and were not checked again.
