{"id": "C01", "title": "BisectRight and BisectLeft find the exact split point", "statement": "For every slice sorted in non-decreasing order and every integer n, BisectRight(a,n) is the unique index i with a[j] <= n for all j < i and a[j] > n for all j >= i; BisectLeft(a,n) is the unique i with a[j] < n before it and a[j] >= n from it on. Both stay within [0,len(a)] and never index out of range, sorted or not.", "quantifier": "all integer slices and all integers", "why_tests_cant": "a unit test fixes a handful of slices; binary search bugs live in particular lengths and tie patterns", "anchors": ["helpers/bisect.go:BisectLeft", "helpers/bisect.go:BisectRight"]}
{"id": "C02", "title": "InsortRight and InsortLeft keep a slice sorted", "statement": "Inserting into a sorted slice yields a sorted slice that holds exactly the old elements plus the new one, and the new element goes after (Right) or before (Left) all its equals.", "quantifier": "all sorted integer slices and all integers", "why_tests_cant": "only finitely many slices can be sampled", "anchors": ["helpers/bisect.go:InsortRight", "helpers/bisect.go:InsortLeft", "helpers/bisect.go:insert"]}
{"id": "C03", "title": "SliceString behaves as JavaScript slice and never panics", "statement": "For every byte string s and every pair of integers, SliceString returns exactly the bytes whose index lies in the half-open interval obtained by adding len(s) to negative indices, clamping both to [0,len(s)]; no pair of indices makes it panic.", "quantifier": "all byte strings and all pairs of integers (negative and beyond the end included)", "why_tests_cant": "the index space is infinite and the interesting cases are combinations of sign and overflow", "anchors": ["helpers/helpers.go:SliceString"]}
{"id": "C04", "title": "PadLeft and PadRight give the requested width and keep the text", "statement": "The result has length max(len(s),n); PadLeft keeps s as a prefix, PadRight keeps s as a suffix, and everything else is spaces.", "quantifier": "all byte strings and all integers n", "why_tests_cant": "quantifies over all lengths", "anchors": ["helpers/helpers.go:PadLeft", "helpers/helpers.go:PadRight"]}
{"id": "C05", "title": "LastNRunes returns exactly the last n runes", "statement": "For every sequence of encodable code points other than U+FFFD and every n, LastNRunes of its UTF-8 encoding returns the encoding of the last min(n,count) code points. It panics exactly when a rune it must step over decodes to U+FFFD, which also happens for a legitimately encoded U+FFFD.", "quantifier": "all sequences of Unicode code points, all n", "why_tests_cant": "multi-byte boundaries make per-example tests miss the decoding corner cases", "anchors": ["helpers/helpers.go:LastNRunes", "codestream_rune.go:PeekRunes"]}
{"id": "C06", "title": "Escape is reversible", "statement": "Two different strings never have the same escaped form, and the escaped form holds no newline, carriage return, tab, bell, form feed, backspace or vertical tab byte.", "quantifier": "all byte strings (pairs of byte strings)", "why_tests_cant": "injectivity is a statement about all pairs", "anchors": ["helpers/helpers.go:Escape", "helpers/helpers.go:EscapeButKeepNonAscii"]}
{"id": "C07", "title": "A Lazy value is computed at most once and then stays", "statement": "In every history of Get/Set/Clear/SetLazy/IsSet calls, the evaluator runs at most once between two Clears, Get returns the last Set value or the evaluator's value, and Get panics exactly when neither a value nor an evaluator is present.", "quantifier": "all finite histories of operations on a Lazy", "why_tests_cant": "it is a history property", "anchors": ["helpers/lazy.go:Lazy"]}
{"id": "C08", "title": "The RuneStream cursor never leaves the text", "statement": "In every sequence of SetPos/GetUntil/Match*/Peek* calls on a new RuneStream the position stays within [0,len(text)]; SetPos panics exactly for arguments outside this interval; no other call in the sequence can push the position outside.", "quantifier": "all texts and all finite call sequences (arbitrary match strings, rune predicates and regexp answers)", "why_tests_cant": "call histories are unbounded", "anchors": ["codestream_rune.go:RuneStream"]}
{"id": "C09", "title": "MatchString, MatchRune and MatchRegexp advance by exactly what they report", "statement": "If a match succeeds, the reported text is exactly the bytes between the old and the new position, and for MatchString it equals the argument; it succeeds whenever the text continues with the argument. If a match fails the position is unchanged. MatchRune consumes exactly one rune and never matches at the end of the text. For MatchRegexp a match away from the cursor is a failure.", "quantifier": "all texts, positions, patterns and predicates", "why_tests_cant": "needs all texts and positions, multi-byte text included", "anchors": ["codestream_rune.go:MatchString", "codestream_rune.go:MatchRegexp", "codestream_rune.go:MatchRune"]}
{"id": "C10", "title": "GetUntil returns the shortest prefix ending with the needle, and nothing when it is absent", "statement": "If the needle occurs after the cursor, GetUntil returns the shortest continuation that ends with the needle and moves the cursor past it. If it does not occur, GetUntil returns \"\" and does not move (documented in codestream.go).", "quantifier": "all texts, positions and needles", "why_tests_cant": "the absent case is documented but untested; the found case quantifies over all texts", "anchors": ["codestream.go:CodeStream.GetUntil", "codestream_rune.go:GetUntil", "codestream_token.go:GetUntil"]}
{"id": "C11", "title": "Line and column are those of the byte text", "statement": "For every byte string (valid UTF-8 or not) and every offset in range, PosToLine is the number of newline bytes before the offset and PosToCol the distance to the start of that line; hence (line, col) determines the offset.", "quantifier": "all byte strings and all offsets", "why_tests_cant": "line starts come from rune decoding; that malformed text cannot hide a newline needs an argument over all byte strings", "anchors": ["codestream_rune.go:NewRuneStream", "codestream_rune.go:PosToLine", "codestream_rune.go:PosToCol", "helpers/bisect.go:BisectRight"]}
{"id": "C12", "title": "Peeking does not move the cursor and shows the neighbouring runes", "statement": "PeekRunes and PeekLines leave the position unchanged. For well-formed text PeekRunes(n) with n > 0 returns the first min(n,available) runes after the cursor and PeekRunes(-n) the last min(n,available) runes before it.", "quantifier": "all texts, positions and n", "why_tests_cant": "quantifies over all texts and offsets", "anchors": ["codestream_rune.go:PeekRunes", "codestream_rune.go:PeekLines"]}
{"id": "C13", "title": "PeekLines returns the requested block of lines", "statement": "PeekLines(n...) returns the lines from current+min to current+max clipped to the text, without the final newline; with no argument it returns the current line (documented in codestream.go); it never panics.", "quantifier": "all texts, positions and argument lists", "why_tests_cant": "argument lists and texts are unbounded; the out-of-range combinations are not sampled by the tests", "anchors": ["codestream.go:CodeStream.PeekLines", "codestream_rune.go:PeekLines", "codestream_token.go:PeekLines"]}
{"id": "C14", "title": "A TokenStream scans its token text exactly as a RuneStream scans that text", "statement": "The work text is the concatenation of the token texts, and every sequence of cursor and matching calls gives the same answers and positions on the TokenStream as on a RuneStream over the work text.", "quantifier": "all token lists and all call sequences", "why_tests_cant": "simulation over unbounded histories", "anchors": ["codestream_token.go:TokenStream", "codestream_rune.go:RuneStream"]}
{"id": "C15", "title": "Token positions map back to the original text", "statement": "For tokens that sit verbatim in the original text, the original offset computed for a work offset inside token k is the token's original offset plus the distance into the token; so the reported line and column are those of the original text.", "quantifier": "all token lists and all work offsets", "why_tests_cant": "depends on which token is hit; the last token behaves differently", "anchors": ["codestream_token.go:coords", "codestream_token.go:PosToLine", "codestream_token.go:PosToCol"]}
{"id": "C16", "title": "ParseTokens gives the result of parsing the token text", "statement": "For every grammar and token list, ParseTokens succeeds, fails or panics exactly as ParseString on the concatenated token text does, with the same Ast up to origins and the same calls of callbacks, provided the callbacks do not read origins and nothing traced panics by itself (C42); in particular whenever tracing is off.", "quantifier": "all grammars, all token lists, all texts, all callbacks that do not read origins", "why_tests_cant": "simulation of two complete parses", "anchors": ["grammar.go:ParseTokens", "grammar.go:ParseString"]}
{"id": "C17", "title": "NativeMap is an insertion-ordered finite map", "statement": "After any sequence of Set calls, Get/GetExists/Exists return the last value set for a key, Keys lists every key once in order of first insertion, and a map built from Go map values lists its keys in sorted order.", "quantifier": "all finite sequences of Set", "why_tests_cant": "history property", "anchors": ["native_map.go:NativeMap", "helpers/mapsorter.go:SortStringKeys"]}
{"id": "C18", "title": "IsEmpty holds exactly for maps without keys", "statement": "NativeMap.IsEmpty() returns true exactly when no key was set.", "quantifier": "all maps", "why_tests_cant": "a semantic equivalence over all maps (the repository never tests it)", "anchors": ["native_map.go:IsEmpty"]}
{"id": "C19", "title": "Concat flattens a parse result back to text", "statement": "NativeArray.Concat and NativeMap.Concat return the concatenation, in order, of the texts of all NativeString and NativeInt leaves, at any nesting depth; NativeUndefined contributes nothing.", "quantifier": "all nested native values", "why_tests_cant": "arbitrary nesting depth", "anchors": ["native_array.go:Concat", "native_map.go:Concat"]}
{"id": "C20", "title": "Integers survive the text round trip", "statement": "Converting any Go int to its decimal text and back with NativeIntFrom gives the same int, leading zeros and sign included; text that is not a decimal int or does not fit makes it panic.", "quantifier": "all 64-bit integers, all byte strings", "why_tests_cant": "2^64 values", "anchors": ["native_int.go:NativeIntFrom", "native_string.go:NativeStringFrom"]}
{"id": "C21", "title": "Parsing never moves the cursor out of the text, and success never ends before its start", "statement": "For every grammar, input and callback, at every moment of a parse the cursor lies within the input and no cursor assignment panics; when a parser returns (a result or nil) the cursor is at or after the position where it was called.", "quantifier": "all grammars, inputs, callbacks, cache states", "why_tests_cant": "invariant over all executions", "anchors": ["packrat.go:loopify", "parsectx.go:ParseContext", "codestream_rune.go:SetPos"]}
{"id": "C22", "title": "Failing alternatives and lookaheads leave no trace on the cursor", "statement": "A choice, rank, pattern or repetition that fails, and a lookahead or negation in every case, leaves the cursor where it found it; an optional that finds nothing does too.", "quantifier": "all grammars, inputs, positions, cache states", "why_tests_cant": "must hold in every context", "anchors": ["parser_choice.go:parse", "parser_rank.go:parse", "parser_pattern.go:parse", "parser_existential.go:parse", "parser_not.go:parse", "parser_lookahead.go:parse"]}
{"id": "C23", "title": "Ordered choice: the first alternative that parses wins", "statement": "A choice or rank returns the result and end position of its first alternative that succeeds at the start position, and fails exactly when all fail; alternatives after the winner are not tried.", "quantifier": "all lists of alternatives and inputs", "why_tests_cant": "all orders and inputs", "anchors": ["parser_choice.go:parse", "parser_rank.go:parse"]}
{"id": "C24", "title": "Memoisation is invisible: the packrat parser computes PEG semantics", "statement": "For every grammar whose labels do not force sharing of mutable results, every input and every pure callback, if the textbook recursive PEG semantics (no cache, no stack) gives a rule an outcome at a position, then the parser returns the same value and end position (or the same failure), from every cache state left by earlier parsing of the same input.", "quantifier": "all grammars, inputs, pure callbacks, reachable cache states", "why_tests_cant": "quantifies over all cache states produced by all histories", "anchors": ["packrat.go:loopify", "packrat.go:prepareResult", "packrat.go:stack", "packrat.go:wrap", "parsectx.go:getFrame"]}
{"id": "C25", "title": "Direct left recursion grows the seed to the longest match", "statement": "For every rule that refers to itself at its own start position, the result is the last element of the seed-growing chain: fail, body with seed fail, body with the previous result as seed, and so on as long as the match gets strictly longer.", "quantifier": "all bodies, inputs, positions and surrounding cache states", "why_tests_cant": "infinite family of grammars and inputs", "anchors": ["packrat.go:loopify", "parsectx.go:wipeWith", "parsectx.go:restoreWith"]}
{"id": "C26", "title": "`E: E op T | T` parses left-associatively", "statement": "A rule of the form E: E op T | T, with op and T not left-recursive through E, accepts exactly what T (op T)* accepts from the same position and returns the left-nested tree.", "quantifier": "all op and T parsers, all inputs, any number of operators", "why_tests_cant": "the number of operators is unbounded", "anchors": ["packrat.go:loopify", "joeson_test.go:Test_LeftRecursion"]}
{"id": "C27", "title": "The left-recursion loop terminates and keeps the best result", "statement": "Each iteration of the seed-growing loop that continues has strictly increased the end position, so at most len(input)+1 iterations run; the returned end position is the largest reached.", "quantifier": "all grammars and inputs", "why_tests_cant": "termination for every input", "anchors": ["packrat.go:loopify"]}
{"id": "C28", "title": "Caching does not change what left-recursive grammars accept", "statement": "Marking any rule SkipCache never changes whether and how an input is parsed, left-recursive grammars included.", "quantifier": "all grammars and inputs", "why_tests_cant": "interaction of cache invalidation and recursion; needs a precise witness", "anchors": ["packrat.go:loopify", "parsectx.go:wipeWith"]}
{"id": "C29", "title": "Linear time: a rule body runs at most once per position", "statement": "In a parse that meets no left recursion, for every rule without SkipCache and every position the rule's body (and its callback) is evaluated at most once, so the number of body evaluations is at most (number of rules) x (len(input)+1).", "quantifier": "all grammars, inputs and callbacks", "why_tests_cant": "complexity bound over all inputs", "anchors": ["packrat.go:loopify", "packrat.go:prepareResult"]}
{"id": "C30", "title": "The parser's internal assertions never fire", "statement": "No execution reaches the panics 'where's my wipemask', 'need frame.wipemask', 'Unexpected stage', 'assert failed: i_frame.pos > startPos', nor an out-of-range access to the frame table or wipe mask, for any grammar produced by the grammar builder.", "quantifier": "all grammars, inputs, callbacks, executions", "why_tests_cant": "absence of a state over all executions", "anchors": ["packrat.go:loopify", "parsectx.go:wipeWith", "parsectx.go:getFrame"]}
{"id": "C31", "title": "The parse stack is balanced and overflows only by nesting", "statement": "After every parser call that returns, the parse stack is as before. A parse whose rule nesting stays within 1024 never panics on the stack; deeper nesting panics (index out of range) instead of returning an error.", "quantifier": "all grammars and inputs", "why_tests_cant": "invariant over executions; the overflow needs inputs far larger than tests use", "anchors": ["parsectx.go:stackPush", "parsectx.go:ParseContext", "packrat.go:stack"]}
{"id": "C32", "title": "e{m,n} matches between m and n times", "statement": "A repetition e{m,n} that succeeds has matched t times with m <= t <= n (README: t in [m;n]).", "quantifier": "all e, m, n, joins and inputs", "why_tests_cant": "the bound must hold for all m, n; n below 2 is never tested", "anchors": ["parser_pattern.go:parse", "README.md:Operators"]}
{"id": "C33", "title": "Repetition is greedy and joins are mandatory between values", "statement": "A pattern value*join returns the list of values of a maximal run v (j v)*, stops right after the last value (a join not followed by a value is given back), and the run stops only because no further join-value pair parses there or because max was reached.", "quantifier": "all value/join parsers and inputs", "why_tests_cant": "unbounded number of repetitions", "anchors": ["parser_pattern.go:parse"]}
{"id": "C34", "title": "Repetition terminates", "statement": "Every repetition returns after finitely many iterations.", "quantifier": "all value/join parsers and inputs", "why_tests_cant": "non-termination cannot be observed by a finite test", "anchors": ["parser_pattern.go:parse"]}
{"id": "C35", "title": "Optional never fails; negation and lookahead answer yes/no", "statement": "e? succeeds always, with e's result or NativeUndefined; !e succeeds (with NativeUndefined) exactly when e fails; ?e succeeds exactly when e succeeds and returns NativeUndefined (README).", "quantifier": "all e and inputs", "why_tests_cant": "all parsers e and inputs", "anchors": ["parser_existential.go:parse", "parser_not.go:parse", "parser_lookahead.go:parse", "README.md:Operators"]}
{"id": "C36", "title": "A sequence succeeds exactly when its parts succeed one after the other, and its result has the documented shape", "statement": "A sequence succeeds exactly when every part succeeds starting where the previous ended. Without labels it returns NativeUndefined for no captured part, the part's own value for a single one and an array of the captured values in order for more; with labels it returns a NativeMap whose keys are the labels in order.", "quantifier": "all sequences, inputs", "why_tests_cant": "arbitrary length sequences", "anchors": ["parser_sequence.go:parse", "parser_sequence.go:parseAsSingle", "parser_sequence.go:parseAsArray", "parser_sequence.go:parseAsObject"]}
{"id": "C37", "title": "Labels: a labelled optional group contributes its labels, and merging does not corrupt other results", "statement": "A group such as (a:X)? inside a labelled sequence adds the key a when X matches and nothing otherwise; merging (@ and & labels) never alters a value already returned for another use of the same rule at the same position.", "quantifier": "all labelled sequences and inputs", "why_tests_cant": "aliasing between cache and result shows only under backtracking", "anchors": ["parser_sequence.go:parseAsObject", "parser_sequence.go:merge", "parser_existential.go:prepare"]}
{"id": "C38", "title": "ParseString reports an error exactly when the input is not in the language", "statement": "ParseString returns a ParseError exactly when the grammar's top rank fails or stops before the end of the input; otherwise it returns the Ast of a parse that consumed the whole input.", "quantifier": "all grammars and inputs", "why_tests_cant": "all inputs, the empty one included", "anchors": ["grammar.go:parse", "grammar.go:ParseString", "parseerror.go:IsParseError"]}
{"id": "C39", "title": "The reported error position is inside the input and not before where parsing stopped", "statement": "When a ParseError is returned by ParseString, stop position <= reported char <= last attempted position <= len(input), and computing the message never panics.", "quantifier": "all grammars and inputs", "why_tests_cant": "all failing inputs, invalid UTF-8 included", "anchors": ["grammar.go:parse"]}
{"id": "C40", "title": "Callbacks map results, nil backtracks, a panic aborts", "statement": "A rule's callback is applied to the rule's production; if it returns nil the rule fails like any other failure; if it panics the panic leaves ParseString and no other callback runs after it.", "quantifier": "all grammars, inputs, callbacks", "why_tests_cant": "arbitrary user functions", "anchors": ["packrat.go:prepareResult", "line.go:lineInit"]}
{"id": "C41", "title": "Parses are deterministic and independent", "statement": "Calling ParseString repeatedly on one grammar with any inputs in any order gives for each input the same result as on a new grammar.", "quantifier": "all histories of calls", "why_tests_cant": "history property", "anchors": ["grammar.go:ParseString", "grammar.go:parse", "parsectx.go:newParseContext"]}
{"id": "C42", "title": "Tracing and Debug never change the result", "statement": "Enabling any trace option (Stack, Loop, FilterLine) or Debug gives the same result as a mute parse; after the call the grammar's trace options are as before.", "quantifier": "all grammars, inputs, trace options", "why_tests_cant": "two executions compared for all inputs; needs option combinations", "anchors": ["packrat.go:loopify", "parsectx.go:log", "parsectx.go:loopStackPop", "grammar.go:parse"]}
{"id": "C43", "title": "SkipCache given to ParseString disables the cache for that parse", "statement": "With the SkipCache option ParseString evaluates without memoisation.", "quantifier": "all grammars and inputs", "why_tests_cant": "needs to relate option plumbing to execution", "anchors": ["parseoption.go:SkipCache", "packrat.go:loopify", "line.go:getRule"]}
{"id": "C44", "title": "Rule numbering is dense and unique", "statement": "After GrammarFromLines with i-rules of different names in each rank, every rule has its own id, ids are exactly 0..numrules-1, CountRules is the number of rules declared, and the cache table built for a parse has a column for each. (Of two i-rules of one rank with the same name only the last exists, under two ids.)", "quantifier": "all rule trees", "why_tests_cant": "all shapes of nested ranks", "anchors": ["grammar.go:postinit", "walk.go:Walk"]}
{"id": "C45", "title": "Names resolve as declared", "statement": "Unnamed o-lines get the name parent[i], named rules keep their name at any nesting depth, a reference reaches the rule declared under that name (the last one in walk order if declared twice), and only references to undeclared names panic.", "quantifier": "all rule trees", "why_tests_cant": "all nestings and duplicates", "anchors": ["line_o.go:toRule", "line.go:getRule", "grammar.go:getRuleRef", "grammar.go:postinit"]}
{"id": "C46", "title": "What a sequence captures is decided by its written form", "statement": "String literals, negations and references whose name starts with an underscore are not captured; a sequence is an object iff some part carries a label, an array iff it has more than one capture, a single value otherwise. This depends on what is written only, not on the order of the lines.", "quantifier": "all rule trees", "why_tests_cant": "all nestings", "anchors": ["parser_sequence.go:calculateType", "parser_existential.go:prepare", "parser_choice.go:prepare", "parser_ref.go:newRef", "rule.go:newRule"]}
{"id": "C47", "title": "Joeson compiles its own grammar to itself", "statement": "Compiling the textual intention grammar with the hand-compiled grammar yields the same 35 rules (same names, ids and parser trees) as the hand-compiled one, and compiling it again with the result is a fixed point.", "quantifier": "the two fixed grammars (a closed computation)", "why_tests_cant": "the repository's test compares only counts and a few strings", "anchors": ["joeson_handcompiled.go:JoesonRules", "joeson_intention.go:IntentionRules", "line.go:getRule"]}
{"id": "C48", "title": "Writing an expression and compiling it gives that parser back", "statement": "Every parser expression built from the documented operators (names, strings, regular expressions, sequences, choices, ? * + {m,n} with joins, !, lookahead, labels, parentheses) has a text, and every text that writes it - with any spacing, escapes and superfluous parentheses, nested at most 72 deep - is compiled by the hand-compiled grammar to exactly that parser tree, labels included. No text writes two expressions. With 73 nested parentheses compiling panics: the parse stack has 1024 frames.", "quantifier": "all parser expressions with names that are names, UTF-8 strings, valid regular expressions, bounds that fit int64; all their texts nested at most 72 deep", "why_tests_cant": "expressions nest without bound", "anchors": ["joeson_handcompiled.go:JoesonRules", "line.go:getRule", "parser_sequence.go:parseAsObject", "packrat.go:newFrame"]}
{"id": "C49", "title": "The TRACE variable sets exactly the named options", "statement": "Options are derived left to right from $TRACE (else $trace) starting from Mute; unknown words panic; when the variable is unset the documented default options are returned.", "quantifier": "all environment values", "why_tests_cant": "all comma-separated lists", "anchors": ["traceoptions.go:checkEnvironmentForTraceOptions", "traceoptions.go:TraceOptionsFromEnvironmentOrUse"]}
{"id": "C50", "title": "The calculator example evaluates every expression and nothing else", "statement": "For every arithmetic expression tree and every text of it (minimal or extra parentheses, any spaces and tabs between tokens), parsing the text with the calculator grammar gives the value of the tree in wrapping 64-bit arithmetic with truncating division, * and / binding tighter and operators of one level associating to the left. If the tree divides by zero or has a literal that does not fit 64 bits, the parse panics. This holds for parentheses nested at most 340 deep; with 341 the parse panics. Every other text with at most 340 opening parentheses yields no value: the parse returns a parse error (nil for the empty text), or panics when some expression inside the text has no value. A text has one value only, however it is taken apart.", "quantifier": "all expression trees and spacings; all texts", "why_tests_cant": "expressions nest without bound", "anchors": ["examples/calculator/calculator_test.go:23-68", "packrat.go:83", "native_int.go:34"]}
{"id": "C51", "title": "The precedence example nests to the left", "statement": "Given a first operand and a list of (operator, operand) pairs of any length, growMoss returns the left fold of the operations. And the left-recursive grammar of the precedence example parses every chain of glyphs joined by + and -, with any blanks around the operators, to the tree nested to the left; every other text is an error (the empty text gives nothing), and no text has two trees.", "quantifier": "all operation lists, all operands; all chains of any length and all spacings; all other texts", "why_tests_cant": "The lists, chains and blanks are unbounded; the tests try three or four operands.", "anchors": ["examples/precedence/precedence_test.go:growMoss", "examples/precedence/precedence_test.go:184-190"]}
{"id": "C52", "title": "The lisp example's `not` negates", "statement": "Evaluating (not e) gives the boolean opposite of e.", "quantifier": "all expressions e", "why_tests_cant": "Expressions are unbounded; main_test.go never calls not.", "anchors": ["examples/lisp-repl/machine_primitives.go:108-113"]}
{"id": "C53", "title": "Origins delimit the source text of a result", "statement": "After a rule succeeds, the Origin of a NativeMap it returns starts where the rule started and ends where it ended, with the line of the end position, and carries the rule's name.", "quantifier": "all grammars and inputs", "why_tests_cant": "all rule activations, cached or not", "anchors": ["packrat.go:prepareResult", "attr.go:SetOrigin", "attr.go:GetOrigin"]}
{"id": "C54", "title": "A callback cannot fail a parse by returning an error value", "statement": "A ParseError returned by a rule's callback is an ordinary result of that rule: the rule counts as having matched, alternatives after it are not tried, and ParseString returns an error only if that value ends up as the result of the whole parse; a callback makes its rule fail only by returning nil.", "quantifier": "all grammars, all callbacks, all inputs", "why_tests_cant": "The interaction of a callback's result with ordered choice and memoisation depends on where in the grammar the rule stands; tests fix one grammar and one callback.", "anchors": ["packrat.go:260-290", "parser_choice.go:52-65", "grammar.go:108-154"]}
{"id": "C55", "title": "Parsing terminates whenever each round of each repetition consumes input", "statement": "For a grammar in which, in every repetition, the value or the join consumes input whenever it succeeds, every call to ParseString or ParseTokens returns or panics (on parse stack overflow); no left recursion, direct, indirect or hidden, makes it run forever.", "quantifier": "all such grammars, all inputs, all callbacks and options", "why_tests_cant": "Non-termination shows only for particular combinations of rules and inputs; no finite set of inputs excludes it.", "anchors": ["packrat.go:83-253", "packrat.go:183-199", "parser_pattern.go:87-126", "parsectx.go:88-91"]}
{"id": "C56", "title": "NativeMap getters report exactly what was set", "statement": "After any sequence of Set on a NativeMap: IsUndefined(k) holds iff k was never set or its last value is undefined; GetOrPanic(k) returns the last value or panics if there is none; GetWhicheverOrPanic returns the value of the first listed key that was set or panics; GetStringExists gives the text of a string or nested array value, ok=false for a missing key and a panic for other values; GetIntExists gives the number an int, a decimal string or a nested array denotes, within 64 bits, and panics otherwise.", "quantifier": "all histories of Set, all keys and key lists, all nested values", "why_tests_cant": "all histories and values; tests try a few maps", "anchors": ["native_map.go:IsUndefined", "native_map.go:GetOrPanic", "native_map.go:GetWhicheverOrPanic", "native_map.go:GetStringExists", "native_map.go:GetIntExists"]}
{"id": "C57", "title": "Options of a line reach its rule", "statement": "The callback, SkipCache and Debug options given to O or I apply to the rule the line declares, the last one of each kind winning.", "quantifier": "all lines, option lists and rule trees", "why_tests_cant": "all nestings of lines, named lines and ranks", "anchors": ["line.go:lineInit", "line.go:getRule", "line_o.go:toRule", "line_named.go:Named"]}
{"id": "C58", "title": "Comparison chains of the lisp example", "statement": "(op a b c ...) with <, <=, >, >=, == or != (or their names and aliases) is true exactly if the comparison holds between each argument and the next one; with fewer than two arguments it panics.", "quantifier": "all machines where the operator is not redefined, all argument lists standing for numbers, any arithmetic", "why_tests_cant": "Argument lists are unbounded and arguments are arbitrary expressions.", "anchors": ["examples/lisp-repl/machine_primitives.go:77-82", "examples/lisp-repl/machine_internal.go:60-73"]}
{"id": "C59", "title": "User-defined lisp functions are called by name", "statement": "After (define (f x1 ... xn) body), (f a1 ... an) evaluates exactly as body with the unevaluated arguments put in place of the names at once; a wrong number of arguments panics; no other function or alias changes. In particular the recursive factorial of the tests gives n! for every n.", "quantifier": "all machines, names, bodies and arguments (names distinct); all n", "why_tests_cant": "Recursion depth and programs are unbounded; tests try 0, 4 and 5.", "anchors": ["examples/lisp-repl/machine_primitives.go:206-258"]}
{"id": "C60", "title": "list? tells whether the value is a list", "statement": "(list? e) is true exactly if the value of e is a list, as in the comment (list? (+ 1 2 3)) -> false.", "quantifier": "all expressions", "why_tests_cant": "All expressions; the tests only try a number and a literal list.", "anchors": ["examples/lisp-repl/machine_primitives.go:167-176"]}
{"id": "C61", "title": "and, or and lists of data", "statement": "(and ...) is true exactly if all arguments are true, (or ...) exactly if some is, and as commented (and ()) is true and (or ()) is false.", "quantifier": "all argument lists", "why_tests_cant": "Argument lists are unbounded; a call that never returns cannot be told from a slow one by a test.", "anchors": ["examples/lisp-repl/machine_primitives.go:84-105", "examples/lisp-repl/machine_internal.go:11-23"]}
{"id": "C62", "title": "if and cond evaluate only the branch they choose", "statement": "(if c a b) has the value and the effects of c and then of a or b; (cond ...) those of the conditions up to the first true one and then of its action, and is () if none is true.", "quantifier": "all machines, conditions and branches, any arithmetic", "why_tests_cant": "Branches may not terminate or may redefine functions; only a proof covers all.", "anchors": ["examples/lisp-repl/machine_primitives.go:117-165"]}
{"id": "C63", "title": "Nested lisp arithmetic has its mathematical value", "statement": "Any nesting of +, * (any number of arguments) and - (two or more) over integers evaluates to its mathematical value and leaves the machine unchanged.", "quantifier": "all expression trees of any depth and width, over exact integers", "why_tests_cant": "Trees are unbounded.", "anchors": ["examples/lisp-repl/machine_primitives.go:39-65"]}
{"id": "C64", "title": "The lisp reader accepts exactly the written expressions", "statement": "Every text of an expression (numbers, strings, names, operators, lists, any spacing between elements and around) is parsed to that expression, whatever else the text could be split into; any other text gives a parse error; no text writes two expressions; every expression whose strings have no quote can be written. A number outside 64 bits panics.", "quantifier": "all expressions and all their texts; all byte strings (lists nested at most 510 deep)", "why_tests_cant": "Expressions, spacings and wrong texts are unbounded; operators that are prefixes of one another (<, <=, -, -1) make the order of the rules matter.", "anchors": ["examples/lisp-repl/grammar.go:16-64"]}
{"id": "C65", "title": "The lisp prompt evaluates a line with or without its outer parentheses", "statement": "A line that is a list, with blanks around, is evaluated as it is; a line not opened by a parenthesis is evaluated as the list of what it writes; any other line gives a parse error and never ends the program before evaluation. So + 1 (* 2 3) and (+ 1 (* 2 3)) both print 7, for every arithmetic expression.", "quantifier": "all lines, machines and arithmetics; lists nested at most 509 deep, numbers of 64 bits", "why_tests_cant": "Lines are unbounded and the tests bypass the loop.", "anchors": ["examples/lisp-repl/main.go:45-60"]}
{"id": "C66", "title": "Every line of the standard input of the lisp example is answered, in order", "statement": "The replies of a session are those of its lines one after the other, each evaluated with the definitions the lines before have made; a wrong line does not disturb the others.", "quantifier": "all sessions and all ways the operating system cuts the input into reads", "why_tests_cant": "How the input is cut is up to the system; a test sees one way.", "anchors": ["examples/lisp-repl/main.go:33-62"]}
{"id": "C67", "title": "A grammar without left recursion is parsed in linear time", "statement": "If no rule of a grammar can come to try itself at the position where it began, no parse meets left recursion; so no rule is evaluated twice at a position, there are at most (rules) x (length + 1) evaluations, and the callback of a cached rule is called at most once per position. The grammar of grammars and those of the calculator and lisp examples are such; these and the left-recursive one of the precedence example end on every text.", "quantifier": "all grammars, callbacks and texts", "why_tests_cant": "Whether left recursion is ever met depends on all texts; evaluation counts are not observed by tests.", "anchors": ["packrat.go:83-253", "joeson_handcompiled.go:71-121", "examples/calculator/calculator_test.go:23-68", "examples/lisp-repl/grammar.go:16-64"]}
{"id": "C68", "title": "A grammar that is in order answers every text", "statement": "If references are defined, every round of a repetition moves on, there is no left recursion and callbacks do not panic, then parsing never panics nor runs for ever: every text has an outcome in the semantics of parsing expression grammars, and ParseString returns that value, or a ParseError at or after the end of the match.", "quantifier": "all such grammars and all texts with (length + 1) x (rules nested at one position + 1) at most 1024, the limit of the parse stack", "why_tests_cant": "Totality over all texts and grammars.", "anchors": ["packrat.go:74-253", "grammar.go:79-154", "parsectx.go:13-49"]}
{"id": "C69", "title": "The printed form of a parser is a text for it", "statement": "Printing a compiled parser (as PrintRules does) and taking the colours away gives a text that compiles to the same parser, and different parsers print differently. This holds for parsers without regular expressions whose strings have no quotes and control characters and whose operators ? * + ! apply to names, strings, sequences or choices. It is false otherwise: a regular expression is printed with /g after it, which reads as a reference g; a newline in a string is printed as \\n, which reads as the letter n; a quote in a string is not escaped; and (x:a)? prints as x:(a?).", "quantifier": "all parser expressions", "why_tests_cant": "parsers nest without bound", "anchors": ["ast.go:71-77", "parser.go:32-42", "parser_sequence.go:85-96", "parser_pattern.go:130-152", "parser_regex.go:30-32", "parser_str.go:30-32"]}
{"id": "C70", "title": "A grammar means its lines", "statement": "A grammar made from lines parses every text as the lines themselves say when each text is read as written, each name means the rule declared under it and a rank is the choice of its o-lines: numbering, preparation, labels handed on by e? and the table of rules change nothing. What the lines answer, ParseString answers.", "quantifier": "all lines given as texts, with different names and without references labelled @; all texts and callbacks that leave their arguments as they are", "why_tests_cant": "Compares two meanings for all grammars and texts.", "anchors": ["grammar.go:61-71", "grammar.go:79-154", "grammar.go:211-317", "line.go:142-207"]}
{"id": "C71", "title": "i-lines may stand anywhere", "statement": "Moving i-lines to other places of their rank, into a rank beside them or out of one, at any depth, with the o-lines kept in order, changes no answer of the grammar.", "quantifier": "all lines given as texts, with different names and without references labelled @; all texts", "why_tests_cant": "All orders of all grammars.", "anchors": ["line.go:142-207", "README.md:382-386", "grammar.go:211-317"]}
{"id": "C72", "title": "A rank means the choice of its lines", "statement": "Replacing a rank of o-lines without callbacks by the horizontal choice of their texts, at any depth, changes no answer, as long as nothing refers to the lines of the rank by name. The rank nests one rule more, so near the limit of the parse stack only the choice may answer.", "quantifier": "all lines given as texts, all texts", "why_tests_cant": "All grammars and texts.", "anchors": ["README.md:291-322", "parser_rank.go:20-45", "line.go:142-207"]}
{"id": "C73", "title": "Joined repetitions parse what the README shows", "statement": "The README says that 'a'*'b' parses \"\", a, aaa, aba, aabababa and not abab, that 'a'+'b' parses a, aba, abaaaba and that 'a'*'b'{1,2} parses a, aaaa, aaabaaa. False: the join is mandatory between values, so a grammar whose one line is 'a'*'b' or 'a'+'b', for any literals, accepts exactly a, aba, ababa, ... with all the a as value (and the empty text for *), and aaa, aabababa, abaaaba, aaaa, aaabaaa are errors.", "quantifier": "all literals a (not empty) and b, all texts", "why_tests_cant": "The language is infinite; refusal of all other texts.", "anchors": ["README.md:135-145", "parser_pattern.go:36-126"]}
{"id": "C74", "title": "The rank form of the precedence grammar is equivalent to the one-rule form", "statement": "The example says the fourth grammar (a rank with a callback on each line) is totally equivalent to the third (one rule with a choice). For every text both give the same value, or both give nothing, or both give an error; only the position told by the error may differ.", "quantifier": "all texts", "why_tests_cant": "All texts, accepted and refused, any length; the tests try one.", "anchors": ["examples/precedence/precedence_test.go:192-207", "parser_rank.go:20-45", "packrat.go:83-253"]}
{"id": "C75", "title": "Right recursion in a left-recursive rule nests to the right", "statement": "The second grammar of the precedence example, Expr ( AddOp Expr )* | Glyph, parses every chain of glyphs and operators to the tree nested to the right, refuses every other text, and from two operators on never agrees with the left-recursive grammar. (The stack of the parser bounds the chains: proved up to 2000 characters.)", "quantifier": "all texts of at most 2000 characters", "why_tests_cant": "Chains of any length; the test tries 3-2-1.", "anchors": ["examples/precedence/precedence_test.go:171-179", "packrat.go:83-253"]}
{"id": "C76", "title": "The two-level precedence grammar reads every expression with parentheses", "statement": "The first grammar of the precedence example gives, for every text of an expression of glyphs, + - * / and parentheses, the one tree in which * and / bind tighter than + and -, operators of one level nest to the left and parentheses only group. It refuses every other text. No text has two such trees.", "quantifier": "all texts with at most 300 opening parentheses", "why_tests_cant": "All expressions of any length and nesting, and all texts that are none; the tests try 3-2-1 alone.", "anchors": ["examples/precedence/precedence_test.go:161-169", "examples/precedence/precedence_test.go:74-110", "packrat.go:83-253"]}
{"id": "C77", "title": "The precedence grammars written as ranks read parentheses", "statement": "The fifth and sixth grammars of the precedence example are presented as working forms with deep recursion through '(' Expr ')'. They should give the tree of every expression. They do for expressions without an operation in parentheses; with one, parsing panics, because the callback of the parenthesised rule expects the array of a chain and gets the value built for the inner expression.", "quantifier": "all texts with at most 250 opening parentheses", "why_tests_cant": "The tests of these grammars contain no parenthesis; which texts panic is a statement about all texts.", "anchors": ["examples/precedence/precedence_test.go:209-241", "examples/precedence/precedence_test.go:74-110"]}
{"id": "C78", "title": "The color grammar reads exactly the colors", "statement": "The grammar of the color example gives the color for red, green, blue, rgb(r, g, b) with blanks and commas between the components, and hsl(h, s%, l%), where components are decimal numbers without leading zero that fit in an int. Any other text is refused and never gives a color; a color with a component that does not fit panics. One would expect components to be any decimal number; zero is refused.", "quantifier": "all texts", "why_tests_cant": "All numbers, any mixture of blanks and commas, and all texts that are no color; the example parses one text.", "anchors": ["examples/color/color.go:30-58", "README.md:390-430", "parser_pattern.go:36-126"]}
{"id": "C79", "title": "The game database answers every question with the first game that fits, or Not found", "statement": "The grammar of the videogamedb example answers a number with the game of that id, a quoted text with the game of that title, bestIn: and a year of 1900 to 2199 with the first game of that year, and with Not found if there is none. Any other text is refused. This should hold for every id; an id that does not fit in an int panics.", "quantifier": "all texts", "why_tests_cant": "All ids, titles (any bytes but a quote, also invalid UTF-8) and years, and all other texts; the test tries four.", "anchors": ["examples/videogamedb/videogame_test.go:32-80", "examples/videogamedb/videogame_test.go:94-104", "native_map.go:35-55", "native_int.go:34-50"]}
{"id": "C80", "title": "TokenStreamFromGoCode has the tokens of the program and does not join its words", "statement": "For every source on which the Go scanner starts without error, the stream has one token for each token of the program, in order, with its offset; the token text is their texts one after the other, with one space before a token exactly if it is a word, literal or comma and follows a letter, digit, underscore or '='. If no token ends outside ASCII, the words of the token text are exactly the words of the tokens.", "quantifier": "all sources and all answers of the Go scanner", "why_tests_cant": "All programs; the test compares three short sources, the longer one is only printed.", "anchors": ["codestream_token.go:344-398"]}
{"id": "C81", "title": "The token text keeps the tokens of Go code apart", "statement": "A grammar that reads the token text can tell the tokens of the program: no two tokens run together into another, and programs with different tokens have different token texts.", "quantifier": "all Go sources", "why_tests_cant": "It is about pairs of neighbouring tokens and pairs of programs.", "anchors": ["codestream_token.go:366-391"]}
{"id": "C82", "title": "Positions in the token text of Go code are reported in the source", "statement": "For a stream made by TokenStreamFromGoCode, PosToLine and PosToCol of the place of any byte of a token give the line and column of that byte in the source.", "quantifier": "all sources, tokens and bytes in them", "why_tests_cant": "Depends on the spaces put before tokens and on which token is hit; the tests have expected values taken from the program.", "anchors": ["codestream_token.go:107-119", "codestream_token.go:301-332", "codestream_token.go:344-398"]}
{"id": "C83", "title": "TokenStreamFromGoCode reports scan errors", "statement": "However many sources were given before, a source with an error gives this error and a source without gives a stream; no source makes the call panic.", "quantifier": "all sequences of calls", "why_tests_cant": "The collected errors are a package variable, so it depends on the history of the program.", "anchors": ["codestream_token.go:334-358"]}
{"id": "C84", "title": "Both vertical forms of the README's game grammar answer the same questions", "statement": "The README writes the game grammar once with a rank of unnamed rules and once with a rank of named rules. Both answer a number with the game of that id and a quoted text with the game of that title, or with Not found, refuse every other text, and panic for an id that does not fit in an int.", "quantifier": "all texts", "why_tests_cant": "All ids, titles and other texts; the tests try a few.", "anchors": ["examples/tests_from_readme/readme_02alternation_test.go", "README.md:284-340", "line_o.go:15-58", "grammar.go:108-154"]}
{"id": "C85", "title": "The horizontal form of the README's game grammar finds the same games", "statement": "The README presents the game grammar written as one choice with labels as the same grammar as the vertical forms, so it should give the same game for every text. It does for titles, but for a number it looks at the first digit only.", "quantifier": "all texts", "why_tests_cant": "All texts; the test asks only for one-digit ids, for which the grammars agree.", "anchors": ["examples/tests_from_readme/readme_02alternation_test.go", "README.md:284-340", "parser_sequence.go:25-251"]}
{"id": "C86", "title": "The three forms of the README's greeting grammar read the same greetings", "statement": "With the entry rule named, named with a parse function, or unnamed, the greeting grammar gives the name for every text made of hi, any number of spaces and letters, and refuses every other text.", "quantifier": "all texts", "why_tests_cant": "All texts, for three ways to declare the grammar; the test tries two texts.", "anchors": ["examples/tests_from_readme/readme_01create_simple_grammar_test.go", "README.md:212-258", "native_array.go", "line_o.go:15-58"]}
{"id": "C87", "title": "The greeting grammar requires one or more spaces and a name", "statement": "The README says the greeting grammar requires 'hi', followed by one or more space characters, followed by a NAME. So texts without a space or without a name should be refused.", "quantifier": "all texts", "why_tests_cant": "About texts that must be refused; the test tries one of them.", "anchors": ["examples/tests_from_readme/readme_01create_simple_grammar_test.go", "README.md:212-258"]}
{"id": "C88", "title": "A ?B | C is grouped as A (?B | C)", "statement": "A lookahead written without parentheses takes everything up to the closing parenthesis or the end of the rule: for all sequences A, B and alternatives C, the rule texts A ?B | C and A (?B | C) compile to the same parser, the sequence A followed by a lookahead for the choice of B and C, while A (?B) | C compiles to the choice of A (?B) and C. More generally each text without labels, lookaheads without parentheses included and nested anywhere, compiles to the one parser it writes.", "quantifier": "all texts of parser expressions without labels, with any spacing, nesting of parentheses and lookaheads at most 72 (70 for the parts)", "why_tests_cant": "expressions nest without bound", "anchors": ["README.md:149-158", "joeson_handcompiled.go:JoesonRules", "line.go:165-192"]}
{"id": "C89", "title": "?(e) is a lookahead for e, and ! takes alternatives as ? does", "statement": "The README writes the lookahead as ?(e), a non-consuming match of e; so A ?(B) C should be A, then a look at B, then C. It says of ! that it is the same as lookahead with reversed meaning and that the same considerations apply (use parens with alternation), so A !B | C should be grouped as A (!B | C).", "quantifier": "all rule texts A ?(B) C and A !B | C", "why_tests_cant": "about the grouping of all expressions", "anchors": ["README.md:102", "README.md:149-158", "joeson_handcompiled.go:JoesonRules"]}
{"id": "C90", "title": "A literal that is opened and not closed is refused", "statement": "A rule text that begins (after any space) with a quote, slash or bracket for which the closing one is missing - a backslash and the character after it belong together, so an escaped quote closes nothing - makes GrammarFromLines panic with a parse error, whatever follows. With the closing one it compiles to exactly that string, regular expression or class.", "quantifier": "all rule texts that begin with an unclosed or closed literal, of any length, any regular expressions valid", "why_tests_cant": "literals of any length and content", "anchors": ["joeson_handcompiled.go:JoesonRules", "line.go:165-192"]}
{"id": "C91", "title": "The README's octal rule can be used", "statement": "The README gives a rule for octal byte values, octal_byte_value <- '\\' [0-7]+; a grammar with that rule should be accepted by GrammarFromLines.", "quantifier": "any validity of regular expressions", "why_tests_cant": "the README's code is in no test", "anchors": ["README.md:453-471", "joeson_handcompiled.go:JoesonRules"]}
{"id": "C92", "title": "A group directly behind a name is dropped", "statement": "In a rule text, NAME(expr) with no blank before the parenthesis compiles to the reference NAME alone, also among the parts of a sequence: the group has to be a well-formed expression, but the compiled parser is exactly the one compiled from the text without it.", "quantifier": "all names, all label-free expressions in the group and around it, nested up to 68 deep, any space", "why_tests_cant": "no test writes a group behind a name; expressions of any size may be in it", "anchors": ["joeson_handcompiled.go:JoesonRules", "parser_ref.go:23-77"]}
{"id": "C93", "title": "Bars around alternatives", "statement": "Vertical bars before the first or behind the last of two or more alternatives have no effect on the compiled rule, however many there are. With only one alternative they make GrammarFromLines panic with a parse error, and so does an empty alternative between others, whatever follows it.", "quantifier": "all label-free alternatives, any number of bars and any space", "why_tests_cant": "alternatives of any number and shape", "anchors": ["joeson_handcompiled.go:JoesonRules", "README.md:95-106"]}
{"id": "C94", "title": "Space between the parts of a sequence has no effect", "statement": "Two rule texts that differ only in the blanks and newlines between the parts of a sequence compile to the same parser.", "quantifier": "all label-free sequences and any space", "why_tests_cant": "texts of any size", "anchors": ["joeson_handcompiled.go:JoesonRules", "README.md:95-106"]}
{"id": "C95", "title": "StripAnsi takes out the colours and nothing else", "statement": "A text to which colours of colors.go were applied, anywhere and also one inside another, is the text itself again after StripAnsi; a text without any escape sequence comes back unchanged. On every text, what StripAnsi leaves out are control sequences (escape or U+009B, brackets, then words up to a bell or numbers up to a final byte), and none begins at a character it keeps.", "quantifier": "all texts; all colours, any nesting", "why_tests_cant": "marks at any place in texts of any length", "anchors": ["helpers/stripansi.go:StripAnsi", "colors.go:Red"]}
{"id": "C96", "title": "A printed lisp value is read back as the same value", "statement": "The String() of an expression of the lisp example, with the colours stripped, is read by the example's grammar as the same expression.", "quantifier": "all expressions of the lisp example", "why_tests_cant": "expressions of any depth", "anchors": ["examples/lisp-repl/expr.go:String", "helpers/stripansi.go:StripAnsi"]}
{"id": "C97", "title": "Any text put in colour comes back from StripAnsi", "statement": "StripAnsi(Red(s)) == s for every text s, and so for the other colours.", "quantifier": "all texts", "why_tests_cant": "arbitrary bytes in the text", "anchors": ["helpers/stripansi.go:StripAnsi", "colors.go:Red"]}
{"id": "C98", "title": "What the message of a parse error says", "statement": "The message of the error returned by ParseString gives, for a text of ASCII characters without control marks, the excerpt and offset where the parse stopped, the attempted line and column, and under Details the parts read, tried and left, exactly cut at the reported positions; the excerpt is the last twenty bytes before and the first forty behind the place.", "quantifier": "all grammars, texts, options", "why_tests_cant": "texts of any length and every pair of positions", "anchors": ["grammar.go:ParseString", "codestream_rune.go:Print"]}
{"id": "C99", "title": "The excerpt of a parse error is at the reported position", "statement": "The offset and excerpt in the message of a parse error are those of the line and column it reports.", "quantifier": "all grammars and ASCII texts", "why_tests_cant": "positions depend on the whole parse", "anchors": ["grammar.go:ParseString", "parseerror.go"]}
{"id": "C100", "title": "The details of a parse error show the text once", "statement": "The parts shown under Details in a parse error are consecutive stretches of the text.", "quantifier": "all grammars and ASCII texts of one line", "why_tests_cant": "positions depend on the whole parse", "anchors": ["grammar.go:ParseString"]}
{"id": "C101", "title": "The message of a parse error is right for UTF-8", "statement": "For a text in UTF-8 the part marked as Parsing ends at the reported position, and the excerpt is made of whole characters.", "quantifier": "all UTF-8 texts", "why_tests_cant": "characters of any length at any place", "anchors": ["grammar.go:ParseString", "codestream_rune.go:Print", "helpers"]}
{"id": "C102", "title": "Left recursion through other rules nests to the left", "statement": "A rule E: A1 | ... | An | T whose alternatives Ai are rules Ai: E opi Ti of their own reads T and then, as long as one of the arms can go on, what the first such arm reads, nested to the left. In particular the lines E: Add | Sub | N, Add: E [+] N, Sub: E [-] N, N: [0-9] parse every sum of digits to the tree nested to the left and refuse every other text.", "quantifier": "all grammars of that shape with pure callbacks, all inputs, all parser states left by earlier parses of the input; all texts for the concrete grammar", "why_tests_cant": "chains of any length, any number of arms, and any cache left behind", "anchors": ["packrat.go:loopify", "parsectx.go:wipeWith", "parser_choice.go:parse"]}
{"id": "C103", "title": "Where one alternative fails, a choice gives what the next one gives", "statement": "If at a place the alternative A fails and the alternative B on its own gives a result, then A | B gives that result: what was tried before does not matter.", "quantifier": "all grammars, all inputs, all positions", "why_tests_cant": "depends on what earlier alternatives leave in the cache, for any grammar", "anchors": ["packrat.go:loopify", "parsectx.go:restoreWith", "parser_choice.go:parse"]}
{"id": "C104", "title": "LastNRunesReversed returns the last n runes in the other order", "statement": "For well-formed UTF-8 without U+FFFD among the last n runes, LastNRunesReversed(text, n) is the text of those runes in reverse order (all of them if there are fewer than n, nothing for n <= 0). If a U+FFFD is among them the answer ends just before it. It never panics, whatever the bytes; and whatever the bytes, wherever LastNRunes answers, its answer is well-formed UTF-8 and LastNRunesReversed answers the same runes in reverse order.", "quantifier": "all byte strings, all code point sequences, all integers n", "why_tests_cant": "Unbounded texts and counts; the borders of multi-byte runes and malformed bytes at every place.", "anchors": ["helpers/helpers.go:157-174", "helpers/helpers.go:136-155"]}
{"id": "C105", "title": "Escape filters out non-ASCII characters", "statement": "As its comment says, the result of Escape has only ASCII characters. (The code: the bytes outside ASCII are all kept, in order; the result is ASCII exactly if the text is.)", "quantifier": "all byte strings", "why_tests_cant": "A claim about every text, in particular those outside ASCII.", "anchors": ["helpers/helpers.go:11-14", "helpers/helpers.go:55-58"]}
{"id": "C106", "title": "Indent gives two blanks for each level", "statement": "Indent(c) is exactly 2c blanks for every c >= 0, nothing for -1, and panics below.", "quantifier": "all integers c", "why_tests_cant": "Unbounded levels.", "anchors": ["helpers/helpers.go:51-53"]}
{"id": "C107", "title": "An Ast keeps the line, origin and attributes it is given", "statement": "In every history of calls on a value that implements Ast, GetOrigin answers what the last SetOrigin was given, GetLine the last line set, SetLine changes nothing but the line, and after SetAttribute(k, v) HasAttribute(k) holds. (The code: values with an Attr keep all but the name of the rule, and SetLine resets the range; NativeString, NativeInt and NativeArray keep nothing; SetAttribute always panics and changes nothing.)", "quantifier": "all histories of calls, all origins, lines, keys", "why_tests_cant": "All interleavings of setters and getters of any length.", "anchors": ["attr.go:9-61", "native_string.go:14-20", "native_int.go:57-63", "native_array.go:80-86", "ast.go:28-49"]}
{"id": "C108", "title": "What PeekLines answers, for every argument", "statement": "For a RuneStream at offset p and any arguments (0 always counts among them), with cur the line of p: if the smallest and largest line asked for are such that some line of the text lies in between, the answer is exactly those lines, cut to the lines that exist; if all lies after the last line it panics; if the largest line asked for is the one just before the first, the answer is the whole text without its last byte; if it is further before, it panics. Without argument the answer is empty. A TokenStream whose position is on a line gives exactly what a RuneStream on that line gives, except that without argument it answers the current line.", "quantifier": "all texts, offsets, argument lists; all token lists", "why_tests_cant": "Unbounded texts and argument lists; the odd answers are only at the borders.", "anchors": ["codestream_rune.go:93-118", "codestream_token.go:168-193"]}
{"id": "C109", "title": "How far off positions in the last token are", "statement": "In a TokenStream of two tokens or more, the line and column of a position in the last token (or after it) are those of the place in the original text that is too far by exactly the length of the token before the last.", "quantifier": "all original texts, all token lists laid out one after the other, all positions from the last token on", "why_tests_cant": "All token lists and layouts of the original text.", "anchors": ["codestream_token.go:301-332"]}
{"id": "C110", "title": "A repetition bounded by 0 or 1 is bounded by 2", "statement": "For n = 0 or 1, e*sep{m,n} does exactly what e*sep{m,2} does, on every state: same values, position, errors. Whenever a repetition succeeds it has at least m values, and at most max(2, n) if n is a bound; so no repetition with m > max(2, n) ever succeeds.", "quantifier": "all patterns, parts, bounds, parse states", "why_tests_cant": "All parsers as parts and all states.", "anchors": ["parser_pattern.go:77-126"]}
{"id": "C111", "title": "A parse starts where its stream stands and leaves it at the end", "statement": "Parsing a stream that stands at position p answers what the grammar means at p: its value if that reaches the end, a ParseError at or after p otherwise, and nil if nothing is found and p is the end. Afterwards the stream is as it was but for its position, which is not before p, and is the end whenever the answer is no ParseError; SetPos(p) makes it the stream it was, so that parsing it again answers the same.", "quantifier": "all grammars, streams, positions, callbacks without state", "why_tests_cant": "All grammars and positions; the frame condition on the stream.", "anchors": ["grammar.go:79-154", "parsectx.go:32-49"]}
{"id": "C112", "title": "ParseTokens may be called twice with the same stream", "statement": "Calling ParseTokens again with the same TokenStream gives the same answer. (The code: the stream stays at the end, so the second call gives nil, which is no ParseError, whenever the grammar does not accept the empty text there.)", "quantifier": "all grammars and token streams", "why_tests_cant": "All grammars and token lists.", "anchors": ["grammar.go:94-104", "parsectx.go:32-49"]}
{"id": "C113", "title": "CountRules counts the declarations; a grammar without o-line accepts nothing", "statement": "A grammar made of lines is ready and CountRules is the number of rules its lines declare. If none of them is an o-line every text but the empty one gives a ParseError at position 0, and the empty one nil. After Bomb the grammar is not ready, has no rules and answers the same.", "quantifier": "all lists of lines, all texts, options and callbacks", "why_tests_cant": "All grammars and all texts.", "anchors": ["grammar.go:61-74", "grammar.go:108-154", "grammar.go:170-176", "grammar.go:198", "parser_rank.go:20-52"]}
{"id": "C114", "title": "Lines of the right shape make a grammar", "statement": "Lines of the shape the constructors O, I and Named make, whose rule texts all compile, whose names are used once per group of lines, without a choice of one alternative left in them and without a reference that takes over the labels of a rule, always make a grammar: building neither panics nor runs for ever, and neither does finding out the form (single, array, object) of its sequences.", "quantifier": "all lists of lines, all compilers of rule texts, all non-empty names", "why_tests_cant": "All grammars; termination of the build.", "anchors": ["grammar.go:61-71", "grammar.go:211-317", "line.go:24-207", "parser_sequence.go:54-83"]}
{"id": "C115", "title": "Whenever the rule texts compile the lines make a grammar", "statement": "If every rule text of a list of lines is a valid expression, the lines make a grammar one can parse with. (The code: two i-lines of the same name panic with the message that the tree should be a DAG; a rule X whose text begins with @:X makes the label computation recurse for ever, at the latest at the first parse that reaches X.)", "quantifier": "all lists of lines whose texts compile", "why_tests_cant": "Absence of panics and non-termination over all grammars; a non-terminating case has no test result.", "anchors": ["grammar.go:211-317", "walk.go:14-59", "parser_sequence.go:54-83", "rule.go:27-68"]}
{"id": "C116", "title": "Alternatives that say nothing new can be left out", "statement": "In any rule of any grammar that is not left recursive, and at any place in it, the following changes leave every answer of ParseString as it was, values included: taking a group of alternatives among alternatives out of its parentheses; leaving out an alternative that is written before in the same choice; leaving out a literal that begins with an earlier literal of the choice; leaving out what stands behind an alternative that always succeeds (e? or e*), if it does not decide whether the choice is captured; writing (e?)? without labels as e?, ?(?e) as ?e and !(!(!e)) as !e.", "quantifier": "all lists of lines, all places in all rule texts, all regular expressions, callbacks without state and texts", "why_tests_cant": "An equivalence of grammars over all contexts and all texts.", "anchors": ["parser_choice.go", "parser_existential.go:12-63", "parser_not.go", "parser_lookahead.go", "parser_sequence.go:54-83"]}
{"id": "C117", "title": "Alternatives can be reordered, and a common end written once", "statement": "Putting the alternatives of a choice in another order, or writing A C | B C as (A | B) C, does not change which texts a grammar accepts. (Not so, choices being ordered: 'ab' | 'a' accepts ab and 'a' | 'ab' does not; 'a' 'c' | 'ab' 'c' accepts abc and ('a' | 'ab') 'c' does not.)", "quantifier": "all choices and texts", "why_tests_cant": "An equivalence over all grammars.", "anchors": ["parser_choice.go"]}
{"id": "C118", "title": "Which texts a grammar accepts depends on the reading of its rules only", "statement": "For a grammar without callbacks and without labelled parts of sequences that is not left recursive, whether ParseString gives a value or a parse error is decided by a reading of the rules that has no values, labels, captures or rule numbers, and that has one outcome for each text. The following changes, any number of them, anywhere in any rule, leave the accepted texts as they were: writing a common beginning of two neighbouring alternatives once (A B | A C as A (B | C)); taking a sequence in a sequence out of its parentheses; !(!A) as ?A; A A* as A+; A B | !A B as A? B; parentheses around one parser. A sequence A* A ... never matches.", "quantifier": "all lists of lines, all places in all rule texts, all regular expressions and texts", "why_tests_cant": "Equivalence of grammars over all contexts and all texts.", "anchors": ["parser_sequence.go:85-251", "parser_choice.go", "parser_pattern.go:36-126", "parser_existential.go:12-63", "parser_not.go", "parser_lookahead.go", "grammar.go:108-154"]}
{"id": "C119", "title": "An optional beginning is the two alternatives, and a common beginning written once keeps the values", "statement": "Writing A? B as A B | B does not change which texts a grammar accepts, and writing A B | A C as A (B | C) changes neither texts nor values. (Not so: 'x'? 'xy' refuses xy, which 'x' 'xy' | 'xy' accepts; N 'b' | N N gives an array for xx, N ('b' | N) one string.)", "quantifier": "all grammars and texts", "why_tests_cant": "An equivalence over all grammars.", "anchors": ["parser_existential.go:12-63", "parser_choice.go", "parser_sequence.go:62-83"]}
{"id": "C120", "title": "The names of the grammar and of its rules can be chosen freely", "statement": "Giving the grammar and its rules other names, and writing the new names wherever a rule text refers to the old ones, leaves every answer of ParseString as it was, values included, as long as no two rules have the same name and names that begin with an underscore keep doing so. Lines without a name of their own are called after the rank they are in; they change with it.", "quantifier": "all lists of lines without left recursion, all consistent renamings, all regular expressions, callbacks without state and texts", "why_tests_cant": "An equivalence over all grammars, renamings and texts.", "anchors": ["parser_ref.go:23-77", "grammar.go:211-317", "line_o.go:15-58", "line_i.go:15-21", "parser_rank.go:20-45"]}
{"id": "C121", "title": "The first letter of a rule name has no effect", "statement": "C120 holds as well for names that get or lose an underscore in front. (Not so: references to such names are not captured; N N gives an array of two, _N _N gives undefined.)", "quantifier": "all grammars", "why_tests_cant": "A universally quantified equivalence.", "anchors": ["parser_ref.go:23-77", "parser_sequence.go:62-83"]}
{"id": "C122", "title": "Rules that nothing refers to can be left out", "statement": "Leaving i-lines out of the lines of a grammar, at the top or inside ranks, leaves every answer of ParseString as it was, values included, as long as the rules that remain only refer to rules that remain. Rules left out may refer to each other and to the others.", "quantifier": "all lists of lines without left recursion, all choices of i-lines to leave out such that the rest is complete, all regular expressions, callbacks without state and texts", "why_tests_cant": "An equivalence over all grammars and texts.", "anchors": ["grammar.go:211-317", "line_i.go:15-21", "parser_rank.go:20-45", "parser_ref.go:23-77"]}
{"id": "C123", "title": "A reference can be replaced by the parser of its rule", "statement": "Writing the parser of a rule in place of a reference to the rule, anywhere in any rule text, also inside the rule itself, leaves the texts that ParseString accepts as they were. The grammar written out never nests rules deeper than the one with references did, so it stays within the limit of the parser; the other way round the nesting may grow.", "quantifier": "all lists of lines without left recursion, callbacks and labelled sequences, all places of a reference, all regular expressions and texts", "why_tests_cant": "An equivalence over all grammars and texts.", "anchors": ["parser_ref.go:23-77", "parser_sequence.go:86-251", "parser_choice.go:1-90", "parser_pattern.go:36-126", "grammar.go:79-154"]}
{"id": "C124", "title": "Writing a rule out keeps the values", "statement": "In C123 the values that ParseString gives stay the same too. (Not so: a reference is captured, the literals it stands for are not; with N: 'x' | 'y' the text N 'b' gives a string, ('x' | 'y') 'b' gives undefined.)", "quantifier": "all grammars", "why_tests_cant": "A universally quantified equivalence.", "anchors": ["parser_sequence.go:62-83", "parser_ref.go:23-77"]}
{"id": "C125", "title": "Names of rules do not change a parse, left recursion included", "statement": "Two grammars whose rules correspond one to one, the same parser with the same label, number, callback and marks under another name, with references that follow, do the same on every text or token stream: the same value and objects (except for the rule name noted as origin), the same cursor, the same calls of callbacks, rule bodies and recursions in the same order, the same panic, the same text of the error, whatever the trace options are.", "quantifier": "all pairs of such grammars with any left recursion, all inputs, regular expressions, parse and trace options, all callbacks that do not look at origins", "why_tests_cant": "Quantifies over all grammars; C120 has the same for written lines without left recursion.", "anchors": ["packrat.go:74-309", "parsectx.go:32-143", "parser_ref.go:23-77", "rule.go:27-68", "grammar.go:79-154"]}
{"id": "C126", "title": "Names in the lines of a grammar do not change a parse, left recursion included", "statement": "Write the lines of a grammar a second time with other names in front of the lines and in the references (a name with an underscore in front keeps it), the options staying as they are. The two grammars do the same on every text or token stream, with any left recursion: the same value and objects (except for the rule name noted as origin), the same cursor, the same calls of callbacks, rule bodies and recursions in the same order, the same panic, and the same text of the error.", "quantifier": "all grammars in text that build, all consistent renamings, all inputs, parse options, regular expressions, all callbacks that do not look at origins", "why_tests_cant": "Quantifies over all grammars, all renamings and all inputs; C120 has this for grammars without left recursion only, and only for the value.", "anchors": ["line.go:24-207", "line_o.go:15-58", "line_i.go:15-21", "grammar.go:61-71", "grammar.go:211-317", "packrat.go:74-309"]}
{"id": "C127", "title": "The text of lines in a construction error", "statement": "A rank given as a line of its own (NewALine among the lines) makes the construction panic with a text that describes it. That text takes one line of the screen for each line in the rank, at every depth, and one more for each rank, however long the rules are and whatever line feeds they contain; and the text of every rule is in it, if it is in one line and does not start with a blank or the letter o.", "quantifier": "all ranks of lines with names without line feeds, at any depth", "why_tests_cant": "Quantifies over all nested lines and rule texts.", "anchors": ["line_s.go:16-18", "line_c.go:11-13", "line_a.go:17-27", "line_i.go:24-34", "line_o.go:22-32", "parser_rank.go:41"]}
{"id": "C128", "title": "Construction errors quote the text of a rule as it was written", "statement": "The text that describes a line in a construction error quotes the text of its rule without change, so that rules with different texts in one line are described differently.", "quantifier": "all lines, all rule texts", "why_tests_cant": "Quantifies over all rule texts; it fails for the texts that start with the letter o.", "anchors": ["line_i.go:28-29", "line_o.go:26-27"]}
{"id": "C129", "title": "Numbers of rules, and rules that are not used, do not change a parse, left recursion included", "statement": "The place of a rule in the memo table, that is its number, is not observable. If the rules of a grammar correspond to rules of another grammar, under other names and other numbers, and the second grammar may have more rules, then both do the same on every text or token stream, with any left recursion: the same value and objects (except for the rule name noted as origin), the same cursor, the same callbacks, rule bodies and recursions in the same order, the same panic, and the same text of the error.", "quantifier": "all pairs of such grammars, all injections of numbers, all inputs, regular expressions, parse and trace options, all callbacks that do not look at origins", "why_tests_cant": "Quantifies over all grammars, all numberings and all inputs; the sets of rules wiped while a left recursion grows are bit masks and rows indexed by these numbers.", "anchors": ["packrat.go:12-47", "packrat.go:74-309", "parsectx.go:32-49", "parsectx.go:94-143", "grammar.go:108-154"]}
{"id": "C130", "title": "Order of the rules in the lines, and rules that are not used, do not change a parse, left recursion included", "statement": "Take lines whose rules only refer to rules of these lines. If other lines declare the same rules (same names, options and parsers) in any order and at any place, and maybe further rules, and the alternatives at the top are the same, then the two compiled grammars do the same on every text or token stream, with any left recursion: the same value and objects (except for the rule name noted as origin), the same cursor, the same callbacks, rule bodies and recursions in the same order, the same panic, and the same text of the error.", "quantifier": "all pairs of such lines, all inputs, regular expressions, parse and trace options, all callbacks that do not look at origins", "why_tests_cant": "Quantifies over all sets of lines, all orders of them and all inputs; moving a line changes the numbers of all rules after it, and the numbers decide where results and masks are kept.", "anchors": ["parser_rank.go:20-45", "line.go:107-207", "grammar.go:108-154", "packrat.go:74-309", "parsectx.go:94-143"]}
