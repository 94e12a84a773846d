{
 "claims": [
  {
   "property": "C01",
   "status": "proved",
   "theorems": [
    "C01_bisect"
   ],
   "note": ""
  },
  {
   "property": "C02",
   "status": "proved",
   "theorems": [
    "C02_insort"
   ],
   "note": ""
  },
  {
   "property": "C03",
   "status": "proved",
   "theorems": [
    "C03_slice_string"
   ],
   "note": ""
  },
  {
   "property": "C04",
   "status": "proved",
   "theorems": [
    "C04_pad"
   ],
   "note": ""
  },
  {
   "property": "C05",
   "status": "proved",
   "theorems": [
    "C05_last_n_runes",
    "C05_last_n_runes_any_bytes"
   ],
   "note": ""
  },
  {
   "property": "C06",
   "status": "proved",
   "theorems": [
    "C06_escape_injective",
    "C06_escape_no_control"
   ],
   "note": ""
  },
  {
   "property": "C07",
   "status": "proved",
   "theorems": [
    "C07_lazy_at_most_once",
    "C07_lazy_get_after_set",
    "C07_lazy_get_stable",
    "C07_lazy_panic_iff"
   ],
   "note": ""
  },
  {
   "property": "C08",
   "status": "proved",
   "theorems": [
    "C08_cursor_bounds"
   ],
   "note": ""
  },
  {
   "property": "C09",
   "status": "proved",
   "theorems": [
    "C09_match_string",
    "C09_match_rune",
    "C09_match_regexp"
   ],
   "note": ""
  },
  {
   "property": "C10",
   "status": "partial",
   "theorems": [
    "C10_get_until_partial",
    "C10_unfound_refuted"
   ],
   "note": "The documented behaviour for an absent needle is false in the code (it returns the rest of the text and moves to the end): C10_unfound_refuted. The found case and the real contract are proved."
  },
  {
   "property": "C11",
   "status": "proved",
   "theorems": [
    "C11_line_col",
    "C11_line_col_determines_offset"
   ],
   "note": ""
  },
  {
   "property": "C12",
   "status": "partial",
   "theorems": [
    "C12_peek_runes",
    "C12_peek_does_not_move",
    "C12_peek_back_refuted"
   ],
   "note": "PeekRunes(-n) panics on an encoded U+FFFD before the cursor: C12_peek_back_refuted; otherwise proved."
  },
  {
   "property": "C13",
   "status": "partial",
   "theorems": [
    "C13_peek_lines_partial",
    "C13_no_argument_refuted",
    "C13_no_panic_refuted",
    "C13_before_first_refuted"
   ],
   "note": "Block of lines proved when min and max lines exist; refuted: no argument gives the empty string, panics past the last line, wraps before the first line."
  },
  {
   "property": "C14",
   "status": "proved",
   "theorems": [
    "C14_token_stream_scans_alike"
   ],
   "note": ""
  },
  {
   "property": "C15",
   "status": "partial",
   "theorems": [
    "C15_token_coords_partial",
    "C15_last_token_refuted"
   ],
   "note": "Proved for every token but the last; for the last token the code uses the previous token's coordinates: C15_last_token_refuted."
  },
  {
   "property": "C16",
   "status": "proved",
   "theorems": [
    "C16_tokens_as_string",
    "C16_quiet"
   ],
   "note": "Proved as stated: results compared up to origins, for callbacks that do not read origins; trace_safe is the condition of C42 and holds whenever tracing is off (C16_quiet)."
  },
  {
   "property": "C17",
   "status": "proved",
   "theorems": [
    "C17_ordered_map"
   ],
   "note": ""
  },
  {
   "property": "C18",
   "status": "partial",
   "theorems": [
    "C18_is_empty_refuted",
    "C18_is_empty_inverted"
   ],
   "note": "The code returns the opposite: proved for every history (C18_is_empty_inverted)."
  },
  {
   "property": "C19",
   "status": "partial",
   "theorems": [
    "C19_array_concat_partial",
    "C19_map_concat_partial",
    "C19_map_in_array_refuted"
   ],
   "note": "Proved for maps over arrays at any depth; a map inside an array is rendered with String(): C19_map_in_array_refuted."
  },
  {
   "property": "C20",
   "status": "proved",
   "theorems": [
    "C20_int_round_trip",
    "C20_int_from_text",
    "C20_int_from_array"
   ],
   "note": ""
  },
  {
   "property": "C21",
   "status": "proved",
   "theorems": [
    "C21_cursor",
    "C21_cursor_moves"
   ],
   "note": ""
  },
  {
   "property": "C22",
   "status": "proved",
   "theorems": [
    "C22_cursor_back",
    "C22_optional"
   ],
   "note": ""
  },
  {
   "property": "C23",
   "status": "proved",
   "theorems": [
    "C23_called",
    "C23_first_wins"
   ],
   "note": ""
  },
  {
   "property": "C24",
   "status": "proved",
   "theorems": [
    "C24_memoisation_invisible"
   ],
   "note": ""
  },
  {
   "property": "C25",
   "status": "proved",
   "theorems": [
    "C25_seed_growing",
    "C25_no_seed"
   ],
   "note": ""
  },
  {
   "property": "C26",
   "status": "proved",
   "theorems": [
    "C26_left_associative"
   ],
   "note": ""
  },
  {
   "property": "C27",
   "status": "proved",
   "theorems": [
    "C27_keeps_best",
    "C27_terminates"
   ],
   "note": ""
  },
  {
   "property": "C28",
   "status": "partial",
   "theorems": [
    "C28_partial",
    "C28_refuted"
   ],
   "note": "Holds wherever the textbook reading of the grammar gives an outcome, i.e. without left recursion (C28_partial). A left-recursive rule marked SkipCache overflows the parse stack: C28_refuted."
  },
  {
   "property": "C29",
   "status": "proved",
   "theorems": [
    "C29_once",
    "C29_linear",
    "C29_callbacks"
   ],
   "note": "'Meets no left recursion' is read off the run: no rule was asked for while in progress at the same position."
  },
  {
   "property": "C30",
   "status": "proved",
   "theorems": [
    "C30_no_internal_panic"
   ],
   "note": ""
  },
  {
   "property": "C31",
   "status": "proved",
   "theorems": [
    "C31_stack_balanced",
    "C31_overflow_only_by_nesting",
    "C31_deep_nesting_panics"
   ],
   "note": ""
  },
  {
   "property": "C32",
   "status": "partial",
   "theorems": [
    "C32_count_partial",
    "C32_count_refuted"
   ],
   "note": "An upper bound of at least 2 is respected, and the lower bound always; with {m,1} or {m,0} two values can be taken: C32_count_refuted."
  },
  {
   "property": "C33",
   "status": "proved",
   "theorems": [
    "C33_greedy"
   ],
   "note": ""
  },
  {
   "property": "C34",
   "status": "partial",
   "theorems": [
    "C34_zero_width",
    "C34_terminates_refuted",
    "C34_terminates_partial"
   ],
   "note": "A repetition whose value succeeds without moving never ends (C34_zero_width, C34_terminates_refuted). It ends when each round moves on (C34_terminates_partial; for whole parses see C55)."
  },
  {
   "property": "C35",
   "status": "partial",
   "theorems": [
    "C35_optional",
    "C35_negation",
    "C35_lookahead_partial",
    "C35_lookahead_refuted"
   ],
   "note": "Optional and negation as documented; lookahead gives the cursor back but its value is that of its part, not NativeUndefined: C35_lookahead_refuted."
  },
  {
   "property": "C36",
   "status": "proved",
   "theorems": [
    "C36_sequence",
    "C36_labels"
   ],
   "note": ""
  },
  {
   "property": "C37",
   "status": "partial",
   "theorems": [
    "C37_absent_partial",
    "C37_present_partial",
    "C37_kept_partial",
    "C37_group_refuted",
    "C37_alias_refuted"
   ],
   "note": "Proved for sequences whose parts are not themselves merged in (no @ or & labels below): labelled captures give exactly those keys. False in the code for labels of a nested group, which are lost, and for results shared through the cache, which are changed in place: C37_group_refuted, C37_alias_refuted."
  },
  {
   "property": "C38",
   "status": "partial",
   "theorems": [
    "C38_error_iff_partial",
    "C38_language_partial",
    "C38_error_iff_refuted"
   ],
   "note": "True for non-empty input; a failing parse of the empty text returns nil, for which IsParseError is false: C38_error_iff_refuted."
  },
  {
   "property": "C39",
   "status": "proved",
   "theorems": [
    "C39_error_position",
    "C39_furthest",
    "C39_report_total"
   ],
   "note": ""
  },
  {
   "property": "C40",
   "status": "proved",
   "theorems": [
    "C40_cache_ok",
    "C40_applied",
    "C40_applied_inline",
    "C40_panic_aborts",
    "C40_no_panic_swallowed"
   ],
   "note": ""
  },
  {
   "property": "C41",
   "status": "partial",
   "theorems": [
    "C41_same_partial",
    "C41_traced_partial",
    "C41_refuted"
   ],
   "note": "The only state a parse leaves in the grammar is the Stack option. Proved when no call asks for Debug (exact equality) and, with Debug, when tracing is safe. False otherwise: a panic under Debug leaves Stack on and a later plain call panics (C41_refuted)."
  },
  {
   "property": "C42",
   "status": "partial",
   "theorems": [
    "C42_same_partial",
    "C42_text_partial",
    "C42_skip_refuted",
    "C42_text_refuted",
    "C42_loop_refuted",
    "C42_options_refuted"
   ],
   "note": "Proved when tracing is safe: traced rules are not marked SkipCache, the runes before the cursor can be shown (UTF-8 text without U+FFFD), Loop is not combined with FilterLine. Each condition is needed: C42_skip_refuted, C42_text_refuted, C42_loop_refuted; the Stack option is not restored after a panic: C42_options_refuted."
  },
  {
   "property": "C43",
   "status": "partial",
   "theorems": [
    "C43_ignored_refuted",
    "C43_cached_refuted"
   ],
   "note": "The option given to ParseString has no effect in the code: C43_ignored_refuted (every parse), C43_cached_refuted (a witness where a result is taken from the cache despite it)."
  },
  {
   "property": "C44",
   "status": "proved",
   "theorems": [
    "C44_numbered",
    "C44_count",
    "C44_ready",
    "C44_duplicate"
   ],
   "note": "Hypotheses: names of the i-lines of one rank differ, no written choice has a single alternative (the joeson syntax cannot write one), the grammar has a name. C44_duplicate shows what happens to duplicates."
  },
  {
   "property": "C45",
   "status": "proved",
   "theorems": [
    "C45_names",
    "C45_lookup",
    "C45_reference"
   ],
   "note": "Same hypotheses as C44."
  },
  {
   "property": "C46",
   "status": "partial",
   "theorems": [
    "C46_written_partial",
    "C46_order_refuted"
   ],
   "note": "Proved when no reference is labelled @. With such references the order of the lines decides (C46_order_refuted)."
  },
  {
   "property": "C47",
   "status": "proved",
   "theorems": [
    "C47_self_compile",
    "C47_memo_differs"
   ],
   "note": "A closed computation checked by the kernel. C47_memo_differs adds that one thing does differ: rules given to I() as parsers are not memoised, rules given as text are."
  },
  {
   "property": "C48",
   "status": "proved",
   "theorems": [
    "C48_compile_text",
    "C48_round_trip",
    "C48_unambiguous",
    "C48_too_deep"
   ],
   "note": "For all expressions and all their texts, nesting at most 72; that 73 panics is a theorem too. Refinement of the engine, with the labels of @ and & set in place, to values."
  },
  {
   "property": "C49",
   "status": "partial",
   "theorems": [
    "C49_words_partial",
    "C49_list",
    "C49_default_refuted",
    "C49_unset_partial"
   ],
   "note": "With the variable set, the options are exactly what its words say and unknown words panic (C49_words_partial). Without it the documented default is ignored and Mute is returned: C49_default_refuted, C49_unset_partial."
  },
  {
   "property": "C50",
   "status": "proved",
   "theorems": [
    "C50_value",
    "C50_panics",
    "C50_deep",
    "C50_exact",
    "C50_refused",
    "C50_unambiguous"
   ],
   "note": "Wrapping 64-bit arithmetic; nesting of at most 340 parentheses (the parser's stack), 341 panic. C50_exact: any text with at most 340 opening parentheses is an expression and evaluated, or none and refused (parse error, or a panic on an expression inside it; C50_refused: no panic when those all have values)."
  },
  {
   "property": "C51",
   "status": "proved",
   "theorems": [
    "C51_fold",
    "C51_parse",
    "C51_refuses",
    "C51_unique"
   ],
   "note": "C51_fold is about growMoss alone; C51_parse, C51_refuses and C51_unique about the third grammar of precedence_test.go, compiled with the model of the joeson grammar, for all texts and for fuels from some bound on; debug tracing off."
  },
  {
   "property": "C52",
   "status": "partial",
   "theorems": [
    "C52_refuted",
    "C52_actual_partial"
   ],
   "note": "False in the code: machine_primitives.go:112 returns the truth value of the argument unchanged. C52_actual_partial says what (not e) is for every e, in any arithmetic."
  },
  {
   "property": "C53",
   "status": "partial",
   "theorems": [
    "C53_origin_partial",
    "C53_origin_refuted",
    "C53_name_refuted"
   ],
   "note": "True when the rule runs its body and meets no left recursion at its start (C53_origin_partial). Refuted: a map taken from the cache can carry the origin of an enclosing rule (C53_origin_refuted), and the rule's name is always lost (C53_name_refuted)."
  },
  {
   "property": "C54",
   "status": "proved",
   "theorems": [
    "C54_only_nil_fails",
    "C54_choice_takes_it",
    "C54_error_result"
   ],
   "note": ""
  },
  {
   "property": "C55",
   "status": "proved",
   "theorems": [
    "C55_parse_ends",
    "C55_parse_ends_levels"
   ],
   "note": ""
  },
  {
   "property": "C56",
   "status": "proved",
   "theorems": [
    "C56_undefined",
    "C56_or_panic",
    "C56_whichever",
    "C56_string",
    "C56_int",
    "C56_bool"
   ],
   "note": ""
  },
  {
   "property": "C57",
   "status": "partial",
   "theorems": [
    "C57_line",
    "C57_kept_partial",
    "C57_rank_refuted",
    "C57_inner_refuted"
   ],
   "note": "Proved for callbacks of all lines and for SkipCache and Debug of text rules. Refuted for SkipCache/Debug of ranks and for options of a line wrapped in Named."
  },
  {
   "property": "C58",
   "status": "proved",
   "theorems": [
    "C58_chain",
    "C58_few"
   ],
   "note": "float64 is a parameter, so this holds with NaN too. The operator must be as in a new machine."
  },
  {
   "property": "C59",
   "status": "proved",
   "theorems": [
    "C59_define",
    "C59_fact"
   ],
   "note": "C59_fact is over exact integers: in Go the result is rounded to float64 and deep recursion may exhaust the stack."
  },
  {
   "property": "C60",
   "status": "partial",
   "theorems": [
    "C60_refuted",
    "C60_actual_partial"
   ],
   "note": "False in the code: list? looks at the written form of its argument. C60_actual_partial says what it returns."
  },
  {
   "property": "C61",
   "status": "partial",
   "theorems": [
    "C61_and_partial",
    "C61_or_partial",
    "C61_data_refuted"
   ],
   "note": "The claim on (and ()) and (or ()) is false: C61_data_refuted shows the evaluation never returns (in Go the stack overflows). The rest is proved for arguments standing for numbers."
  },
  {
   "property": "C62",
   "status": "proved",
   "theorems": [
    "C62_if",
    "C62_cond",
    "C62_cond_none"
   ],
   "note": "Conditions are expressions standing for numbers; the effects are those on the machine."
  },
  {
   "property": "C63",
   "status": "proved",
   "theorems": [
    "C63_arithmetic"
   ],
   "note": "Over exact integers; float64 agrees while the numbers stay below 2^53."
  },
  {
   "property": "C64",
   "status": "proved",
   "theorems": [
    "C64_reads",
    "C64_too_large",
    "C64_exact",
    "C64_unambiguous",
    "C64_every",
    "C64_deep"
   ],
   "note": "C64_exact covers every text with at most 510 opening parentheses and no numeral too large for 64 bits: it is read as the one expression it writes, or rejected. C64_deep: the bound is exact. Go regexp is modelled for the three expressions of the grammar."
  },
  {
   "property": "C65",
   "status": "proved",
   "theorems": [
    "C65_value",
    "C65_exact",
    "C65_unambiguous",
    "C65_parentheses",
    "C65_arithmetic",
    "C65_tab"
   ],
   "note": "C65_exact is total: each line without newline is evaluated or answered by a parse error. The conversion of integers to float64 is a parameter. C65_tab: a tab before the parenthesis is not trimmed, so the list is wrapped once more."
  },
  {
   "property": "C66",
   "status": "partial",
   "theorems": [
    "C66_session_partial",
    "C66_pipe_refuted"
   ],
   "note": "Refuted for input that does not come line by line: a bufio.Reader is made anew for each line and what it has read beyond the newline is lost (C66_pipe_refuted). Proved where each newline ends a read, as with a terminal (C66_session_partial)."
  },
  {
   "property": "C67",
   "status": "proved",
   "theorems": [
    "C67_never_met",
    "C67_linear",
    "C67_ranks",
    "C67_shipped",
    "C67_shipped_end"
   ],
   "note": "Left recursion is the static relation: a parser leads to those it may try where it began (left-most parts, past parts that may match nothing). C67_shipped and C67_shipped_end are for the models of the shipped grammars, with any callbacks."
  },
  {
   "property": "C68",
   "status": "proved",
   "theorems": [
    "C68_answers"
   ],
   "note": "Also without merging labels (@ and &) and with callbacks that are functions of the value. The bound on the text is sufficient, not necessary."
  },
  {
   "property": "C69",
   "status": "partial",
   "theorems": [
    "C69_printed_partial",
    "C69_regex_refuted",
    "C69_string_refuted",
    "C69_ambiguous_refuted"
   ],
   "note": "C69_printed_partial: proved for the printable parsers (no regular expression, plain strings, operators on operands in their own parentheses), nesting at most 72. Refuted beyond: C69_regex_refuted, C69_string_refuted, C69_ambiguous_refuted."
  },
  {
   "property": "C70",
   "status": "proved",
   "theorems": [
    "C70_meaning",
    "C70_answers"
   ],
   "note": "For lines given as texts, each rule under a name of its own, no reference labelled @ (in_words), callbacks that keep their arguments (cb_keeps). C70_answers covers the texts on which the lines have an outcome within the stack limit; left-recursive attempts have none."
  },
  {
   "property": "C71",
   "status": "proved",
   "theorems": [
    "C71_order",
    "C71_answers"
   ],
   "note": "C71_order on the meaning of the lines, C71_answers on ParseString of the two grammars. With references labelled @ the order matters (C46_order_refuted)."
  },
  {
   "property": "C72",
   "status": "proved",
   "theorems": [
    "C72_rank",
    "C72_answers"
   ],
   "note": "C72_rank on the meaning of the lines, C72_answers on ParseString. The lines of the rank may have names and must have no callback."
  },
  {
   "property": "C73",
   "status": "partial",
   "theorems": [
    "C73_accepts",
    "C73_empty",
    "C73_refuses",
    "C73_readme_refuted"
   ],
   "note": "The claim of the README is refuted (C73_readme_refuted). What holds instead is proved for all literals and texts: C73_accepts, C73_empty, C73_refuses."
  },
  {
   "property": "C74",
   "status": "proved",
   "theorems": [
    "C74_same",
    "C74_rank"
   ],
   "note": "For fuels from some bound on, debug tracing off. Errors are compared as errors: their positions may differ."
  },
  {
   "property": "C75",
   "status": "proved",
   "theorems": [
    "C75_right",
    "C75_refuses",
    "C75_differs"
   ],
   "note": "Texts of at most 2000 characters: each operator nests one rule deeper and the stack holds 1024 frames. Debug tracing off, fuels from some bound on."
  },
  {
   "property": "C76",
   "status": "proved",
   "theorems": [
    "C76_levels",
    "C76_refuses",
    "C76_unique"
   ],
   "note": "Texts with at most 300 opening parentheses: each nests three rules deeper and the stack holds 1024 frames. Debug tracing off, fuels from some bound on."
  },
  {
   "property": "C77",
   "status": "partial",
   "theorems": [
    "C77_flat",
    "C77_panics",
    "C77_refuses",
    "C77_refuses_partial",
    "C77_parens_refuted"
   ],
   "note": "The claim is false: C77_panics shows that the fifth grammar panics on every text of an expression with an operation in parentheses, C77_flat that it reads every other expression; C77_parens_refuted has the sixth grammar panic as well. Texts that are no expression: refused if without parentheses (C77_refuses), refused or a panic else (C77_refuses_partial: which of both is missing). At most 250 opening parentheses, debug tracing off."
  },
  {
   "property": "C78",
   "status": "partial",
   "theorems": [
    "C78_colors",
    "C78_refuses",
    "C78_never",
    "C78_too_large",
    "C78_zero_refuted"
   ],
   "note": "C78_colors, C78_refuses and C78_too_large settle all texts whose numbers fit, and all colors; for a text that is no color and has a number that does not fit, C78_never says that it is refused or panics. C78_zero_refuted: the components may not be zero, rgb(255, 0, 0) is a parse error. Debug tracing off."
  },
  {
   "property": "C79",
   "status": "partial",
   "theorems": [
    "C79_answers",
    "C79_refuses",
    "C79_never",
    "C79_too_large",
    "C79_not_found_refuted"
   ],
   "note": "C79_answers and C79_refuses settle all texts that do not start with a number beyond int64; C79_too_large: such a number panics; C79_never: other texts that start with one are refused or panic. C79_not_found_refuted: an id that is not there and does not fit panics instead of giving Not found. The origin written into the shared Attr of a game is not modelled. Debug tracing off."
  },
  {
   "property": "C80",
   "status": "proved",
   "theorems": [
    "C80_tokens",
    "C80_words"
   ],
   "note": "The Go scanner is data: any answers. operator_plain is what go/scanner documents: tokens that come without text are operators."
  },
  {
   "property": "C81",
   "status": "partial",
   "theorems": [
    "C81_joined_refuted",
    "C81_same_text_refuted"
   ],
   "note": "Refuted: \u03b1 int becomes \u03b1int, and x < -y has the token text of x <- y."
  },
  {
   "property": "C82",
   "status": "partial",
   "theorems": [
    "C82_positions_partial",
    "C82_column_refuted"
   ],
   "note": "C82_positions_partial: for all tokens but the last (C15) and without newline inside, the line is right and the column too, except that it is one too much in a token before which a space was put (C82_column_refuted)."
  },
  {
   "property": "C83",
   "status": "partial",
   "theorems": [
    "C83_errors_partial",
    "C83_dropped_refuted",
    "C83_panic_refuted"
   ],
   "note": "C83_errors_partial says what each call answers after any history. Refuted: errors after the first character are dropped, and an error after an earlier one panics."
  },
  {
   "property": "C84",
   "status": "proved",
   "theorems": [
    "C84_answers",
    "C84_refuses",
    "C84_never",
    "C84_too_large",
    "C84_built"
   ],
   "note": "All texts; a text that starts with a number beyond int64 but asks nothing is refused or panics (C84_never). C84_built: the grammars are what the modelled GrammarFromLines makes of the lines. Debug tracing off."
  },
  {
   "property": "C85",
   "status": "partial",
   "theorems": [
    "C85_first_digit_partial",
    "C85_refuses_partial",
    "C85_same_game_refuted"
   ],
   "note": "C85_first_digit_partial and C85_refuses_partial say what the horizontal form does with every text. C85_same_game_refuted: \"12\" gives game 1 there and Not found in the vertical forms, as id:[1-9][0-9]* labels only the first digit."
  },
  {
   "property": "C86",
   "status": "proved",
   "theorems": [
    "C86_greets",
    "C86_refuses",
    "C86_built"
   ],
   "note": "All texts. The line that the parse function of the entry rule prints is not modelled. Debug tracing off."
  },
  {
   "property": "C87",
   "status": "partial",
   "theorems": [
    "C87_spaces_refuted",
    "C87_name_refuted"
   ],
   "note": "Refuted: \"hiamigo\" gives amigo and \"hi\" gives the empty name, as the rules use ' '* and [a-zA-Z]*. What is accepted is C86."
  },
  {
   "property": "C88",
   "status": "proved",
   "theorems": [
    "C88_compile_text",
    "C88_grouped",
    "C88_explicit"
   ],
   "note": "Texts without labels (C48 has the labels, with lookaheads in parentheses). C88_grouped and C88_explicit for all A, B, C; the parts nest at most 70 deep."
  },
  {
   "property": "C89",
   "status": "partial",
   "theorems": [
    "C89_parens_partial",
    "C89_not_partial",
    "C89_parens_refuted",
    "C89_not_refuted"
   ],
   "note": "Refuted: 'a' ?('b') 'b' and 'a' (?'b') 'b' are two parsers (C89_parens_refuted), a !b | c is (a !b) | c (C89_not_refuted). C89_parens_partial and C89_not_partial say for all A, B, C what they compile to."
  },
  {
   "property": "C90",
   "status": "proved",
   "theorems": [
    "C90_open_refused",
    "C90_closed"
   ],
   "note": "Literals at the beginning of the text; a text that ends with a lone backslash is left out."
  },
  {
   "property": "C91",
   "status": "partial",
   "theorems": [
    "C91_octal_refuted",
    "C91_doubled_partial"
   ],
   "note": "Refuted: the backslash escapes the quote, compiling panics with any regular expressions (C91_octal_refuted). With the backslash doubled the rule compiles (C91_doubled_partial)."
  },
  {
   "property": "C92",
   "status": "proved",
   "theorems": [
    "C92_alone",
    "C92_in_sequence"
   ],
   "note": "Label-free expressions (LookSpec.plain). The group is read, checked and kept as an argument of the reference object that nothing looks at (parser_ref.go:73 writes it to the frame, no code reads it)."
  },
  {
   "property": "C93",
   "status": "proved",
   "theorems": [
    "C93_bars",
    "C93_one_refused",
    "C93_empty_refused"
   ],
   "note": "Label-free alternatives without an open lookahead at the end."
  },
  {
   "property": "C94",
   "status": "partial",
   "theorems": [
    "C94_space_partial",
    "C94_space_refuted"
   ],
   "note": "Refuted when there is no space at all: a group behind a name is dropped, two names become one, the part behind a star becomes the separator (C94_space_refuted). With some space in both texts the parser is the same (C94_space_partial)."
  },
  {
   "property": "C95",
   "status": "proved",
   "theorems": [
    "C95_strip",
    "C95_unmarked",
    "C95_colours",
    "C95_exact"
   ],
   "note": ""
  },
  {
   "property": "C96",
   "status": "partial",
   "theorems": [
    "C96_back_partial",
    "C96_numbers_refuted",
    "C96_read_refuted"
   ],
   "note": "Refuted for numbers: they print with six decimals and no expression is written like that; NaN is read back as a name (C96_numbers_refuted, C96_read_refuted). Proved without numbers, to the depth the parser's buffer of loop ids allows (C96_back_partial)."
  },
  {
   "property": "C97",
   "status": "partial",
   "theorems": [
    "C97_bell_refuted",
    "C97_escape_refuted"
   ],
   "note": "Refuted: word characters before a bell vanish with it, and an escape in the text takes what follows (C97_bell_refuted, C97_escape_refuted). True for texts without these (C95)."
  },
  {
   "property": "C98",
   "status": "proved",
   "theorems": [
    "C98_message",
    "C98_place"
   ],
   "note": ""
  },
  {
   "property": "C99",
   "status": "partial",
   "theorems": [
    "C99_same_place_partial",
    "C99_same_place_refuted"
   ],
   "note": "Refuted: the excerpt is taken where the parse stopped, the line and column are of the furthest attempt (C99_same_place_refuted). They agree when the two are the same (C99_same_place_partial)."
  },
  {
   "property": "C100",
   "status": "partial",
   "theorems": [
    "C100_repeated_refuted"
   ],
   "note": "Refuted for every text of one line: what was read is shown twice, and the text to the furthest attempt a third time (C100_repeated_refuted)."
  },
  {
   "property": "C101",
   "status": "partial",
   "theorems": [
    "C101_parsing_refuted",
    "C101_excerpt_refuted"
   ],
   "note": "Refuted: bytes are counted and runes taken, and the excerpt is cut by bytes (C101_parsing_refuted, C101_excerpt_refuted). For ASCII see C98."
  },
  {
   "property": "C102",
   "status": "proved",
   "theorems": [
    "C102_arms",
    "C102_sums",
    "C102_others",
    "C102_built"
   ],
   "note": "C102_arms for any number of arms, on the semantics with seeds; C102_sums and C102_others for the grammar built from the four lines, for every text."
  },
  {
   "property": "C103",
   "status": "partial",
   "theorems": [
    "C103_choice_partial",
    "C103_choice_refuted"
   ],
   "note": "False with left recursion through another rule: E: F '+' | 'n', F: E '*' | 'f'; F 'w' reads n*w, E 'q' does not, and E 'q' | F 'w' refuses it, since the failed attempt leaves the outdated failure of F in the cache (C103_choice_refuted). Proved when both alternatives have an outcome without left recursion (C103_choice_partial)."
  },
  {
   "property": "C104",
   "status": "proved",
   "theorems": [
    "C104_reversed",
    "C104_stops",
    "C104_no_panic",
    "C104_with_last"
   ],
   "note": "LastNRunesReversed exactly, by induction on the number of rounds, over the RFC 3629 relation of Utf8Spec.v. U+FFFD is treated as a decoding error, where LastNRunes panics and LastNRunesReversed stops; stated as such."
  },
  {
   "property": "C105",
   "status": "partial",
   "theorems": [
    "C105_escape_partial",
    "C105_escape_refuted"
   ],
   "note": "Refuted: ToAscii is the identity (TODO in the code), so bytes outside ASCII stay. Proved: exactly those bytes stay, and the result is ASCII exactly when the text is."
  },
  {
   "property": "C106",
   "status": "proved",
   "theorems": [
    "C106_indent"
   ],
   "note": "strings.Join over empty strings, by induction."
  },
  {
   "property": "C107",
   "status": "partial",
   "theorems": [
    "C107_origin_partial",
    "C107_line_partial",
    "C107_natives_partial",
    "C107_attributes_partial",
    "C107_origin_refuted"
   ],
   "note": "Refuted for the rule name, for the range after SetLine, for the natives and for attributes. Proved: what is answered after any history."
  },
  {
   "property": "C108",
   "status": "proved",
   "theorems": [
    "C108_lines",
    "C108_no_argument",
    "C108_tokens"
   ],
   "note": "Exact for the four cases; the panics are index or slice panics as the code reaches them."
  },
  {
   "property": "C109",
   "status": "proved",
   "theorems": [
    "C109_last_token"
   ],
   "note": "The exact error behind C15's refutation: nothing is assumed of the original text, only that working offsets are those of the reprs laid out one after the other."
  },
  {
   "property": "C110",
   "status": "proved",
   "theorems": [
    "C110_two",
    "C110_count"
   ],
   "note": "The exact contract behind C32's refutation: the loop tests the bound only from the second value on."
  },
  {
   "property": "C111",
   "status": "proved",
   "theorems": [
    "C111_start",
    "C111_end",
    "C111_set_back"
   ],
   "note": "From the soundness of the engine for the PEG semantics, at any start; the frame condition from the engine's invariant and the code of the report."
  },
  {
   "property": "C112",
   "status": "partial",
   "theorems": [
    "C112_again_partial",
    "C112_refuted"
   ],
   "note": "Refuted with one rule and one token; proved: nil whenever the grammar gives nothing at the end of the tokens."
  },
  {
   "property": "C113",
   "status": "proved",
   "theorems": [
    "C113_no_o_lines",
    "C113_bomb",
    "C113_count"
   ],
   "note": "From C45 (the alternatives of the top rank are the o-lines) and the scan of an empty memo table."
  },
  {
   "property": "C114",
   "status": "proved",
   "theorems": [
    "C114_built",
    "C114_one_answer"
   ],
   "note": "Built up from the walk, the preparation and the labels: fuel enough for every step exists, and more fuel changes nothing."
  },
  {
   "property": "C115",
   "status": "partial",
   "theorems": [
    "C115_twice_refuted",
    "C115_own_labels_refuted"
   ],
   "note": "Refuted twice: a panic for two i-lines of one name; no fuel is enough for X <- @:X b:'y'. The model computes the forms of all sequences at the build, the code at their first use."
  },
  {
   "property": "C116",
   "status": "proved",
   "theorems": [
    "C116_said",
    "C116_answers"
   ],
   "note": "Simulation of the textbook evaluator both ways, from the written parsers to the lines and by C70 to ParseString; labels, captures and forms of sequences shown not to change."
  },
  {
   "property": "C117",
   "status": "partial",
   "theorems": [
    "C117_order_refuted",
    "C117_common_end_refuted"
   ],
   "note": "Refuted twice, with the grammars compiled and run."
  },
  {
   "property": "C118",
   "status": "proved",
   "theorems": [
    "C118_ends",
    "C118_answered",
    "C118_one_end",
    "C118_parse",
    "C118_changes",
    "C118_same_texts",
    "C118_greedy"
   ],
   "note": "A big-step reading without values is shown equal, both ways, to the textbook evaluator on such lines; then by C70 to ParseString. The changes are equivalences of the reading, carried into any place by a simulation."
  },
  {
   "property": "C119",
   "status": "partial",
   "theorems": [
    "C119_optional_refuted",
    "C119_values_refuted"
   ],
   "note": "Refuted twice, with the grammars compiled and run. That the texts are kept by the second change is C118."
  },
  {
   "property": "C120",
   "status": "proved",
   "theorems": [
    "C120_said",
    "C120_answers"
   ],
   "note": "Both grammars simulate each other step by step in the textbook evaluator, names corresponding by the place of their declaration; then by C70 to ParseString."
  },
  {
   "property": "C121",
   "status": "partial",
   "theorems": [
    "C121_underscore_refuted"
   ],
   "note": "Refuted with both grammars compiled and run."
  },
  {
   "property": "C122",
   "status": "proved",
   "theorems": [
    "C122_said",
    "C122_answers"
   ],
   "note": "The declarations that remain are the same ones in the same order; both grammars simulate each other in the textbook evaluator on the names that remain; then by C70 to ParseString."
  },
  {
   "property": "C123",
   "status": "proved",
   "theorems": [
    "C123_reads",
    "C123_back",
    "C123_same_texts"
   ],
   "note": "A simulation on the value-free reading of C118 up to one unfolding of the reference; depth kept in one direction, existential in the other; ParseString by C118."
  },
  {
   "property": "C124",
   "status": "partial",
   "theorems": [
    "C124_values_refuted"
   ],
   "note": "Refuted with both grammars compiled and run."
  },
  {
   "property": "C125",
   "status": "proved",
   "theorems": [
    "C125_outcome",
    "C125_message"
   ],
   "note": "Step-by-step simulation of the whole engine: all of the state is equal except the origins in the heap."
  },
  {
   "property": "C126",
   "status": "proved",
   "theorems": [
    "C126_outcome"
   ],
   "note": "The built grammars are shown to be twins (C125) from the lines alone: rules of texts from what MeansBuild.v proves about them, ranks by induction on the parser."
  },
  {
   "property": "C127",
   "status": "proved",
   "theorems": [
    "C127_height",
    "C127_message",
    "C127_shown"
   ],
   "note": "Induction on the lines; Parser.String of compiled lines is a parameter."
  },
  {
   "property": "C128",
   "status": "partial",
   "theorems": [
    "C128_verbatim_refuted",
    "C128_verbatim_partial"
   ],
   "note": "False as stated: the replacement of '^ *o *', meant for the inner line of O(O(..)), also changes a rule text that starts with o: 'one | two' is described as 'o ne | two', like the rule 'o ne | two'. Proved for all texts that do not start with a blank or an o."
  },
  {
   "property": "C129",
   "status": "proved",
   "theorems": [
    "C129_outcome"
   ],
   "note": "Simulation of the whole engine with rows, masks and stashes in other places; restoreWith is computed in closed form."
  },
  {
   "property": "C130",
   "status": "proved",
   "theorems": [
    "C130_outcome"
   ],
   "note": "From the lines to C129: what is built from the lines is related by names and by places."
  }
 ]
}