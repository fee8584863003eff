{
 "claims": [
  {
   "property": "C01",
   "status": "proved",
   "theorems": [
    "C01_compatible_iff_common_instance",
    "C01_compatible_ignores_nullability",
    "C01_compatible_not_transitive",
    "C01_compatible_reflexive_symmetric_undefined"
   ],
   "note": "Compatibility is characterised by an independent inductive \"instance\" relation."
  },
  {
   "property": "C02",
   "status": "proved",
   "theorems": [
    "C02_equal_iff_same_up_to_names",
    "C02_equal_implies_same_hash_and_compatible",
    "C02_equality_equivalence",
    "C02_function_name_irrelevant"
   ],
   "note": ""
  },
  {
   "property": "C03",
   "status": "proved",
   "theorems": [
    "C03_from_value_is_the_type",
    "C03_from_value_never_undefined",
    "C03_from_value_otherwise_TypeError",
    "C03_from_value_succeeds_iff_supported",
    "C03_null_members_do_not_count"
   ],
   "note": "py_ok states what holds of every Python object: dict keys and set members are hashable."
  },
  {
   "property": "C04",
   "status": "proved",
   "theorems": [
    "C04_coerce_idempotent",
    "C04_coerce_verified_iff_supported",
    "C04_coerce_without_verification_total",
    "C04_coerced_is_normal"
   ],
   "note": "Normal form excludes set members (coerce_value does not descend into sets)."
  },
  {
   "property": "C05",
   "status": "partial",
   "theorems": [
    "C05_float_is_its_repr",
    "C05_int_exact",
    "C05_mapping_first_key_last_value",
    "C05_scalars_unchanged",
    "C05_sequence_memberwise",
    "C05_type_unchanged",
    "C05_type_unchanged_refuted"
   ],
   "note": "Last sentence (data type unchanged) holds under keys_apart and is refuted without: two keys that conversion makes equal (0.1 and Decimal 0.1) collapse and the value type can change. Everything else in full."
  },
  {
   "property": "C06",
   "status": "proved",
   "theorems": [
    "C06_construction_restores_scopes",
    "C06_evaluate_leaves_no_scope",
    "C06_expression_restores_scopes"
   ],
   "note": "For expressions, construction and Rule.evaluate; every outcome, callback behaviour and initial state."
  },
  {
   "property": "C07",
   "status": "proved",
   "theorems": [
    "C07_groups_start_null",
    "C07_history_irrelevant",
    "C07_outcome_independent_of_state"
   ],
   "note": "Two-run theorem with arbitrary callbacks that answer equal call sequences equally; corollary over arbitrary histories for callbacks without memory."
  },
  {
   "property": "C08",
   "status": "proved",
   "theorems": [
    "C08_evaluate",
    "C08_evaluate_history",
    "C08_no_blocking",
    "C08_symbols",
    "C08_threads_isolated"
   ],
   "note": "Interleaving machine over the programs of the model, any number of threads and any schedule; callbacks may keep per-thread state but not carry information between threads. Operation-level atomicity (each step touches only own-thread data, or context.symbols)"
  },
  {
   "property": "C09",
   "status": "proved",
   "theorems": [
    "C09_calls_isolated",
    "C09_exclusive",
    "C09_own_context",
    "C09_progress"
   ],
   "note": "Mutex machine of ParserBase.parse with the context field and node stack shared; failures at any action; also exclusion and progress"
  },
  {
   "property": "C10",
   "status": "proved",
   "theorems": [
    "C10_evaluation_asks_known_names",
    "C10_symbols_exact",
    "C10_symbols_nothing_else"
   ],
   "note": ""
  },
  {
   "property": "C11",
   "status": "proved",
   "theorems": [
    "C11_free_names_in_dictionary",
    "C11_unknown_name_rejected"
   ],
   "note": ""
  },
  {
   "property": "C12",
   "status": "partial",
   "theorems": [
    "C12_folding_partial",
    "C12_matching_partial"
   ],
   "note": "Proved for every expression in `foldable` (no .to_set, no c&[i] on a container statically known to be a mapping, callees that are names/attribute paths/methods of literals, ternary conditions that are not set or mapping displays), every thing, world and state, when construction itself makes no callbacks, and given that rebuilding a set from its iteration order keeps that order. Outside these limits the claim is false: four _refuted examples."
  },
  {
   "property": "C13",
   "status": "partial",
   "theorems": [
    "C13_compatible_partial",
    "C13_declared_calls",
    "C13_default_calls",
    "C13_default_resolver",
    "C13_default_value_refuted",
    "C13_default_values",
    "C13_example",
    "C13_fits_partial",
    "C13_members_refuted",
    "C13_settled_partial",
    "C13_shadowing_refuted"
   ],
   "note": "For every rule built without a default_value whose callbacks return supported Python values, whose comprehension variables are not named like builtin attributes and whose called functions have a return type that does not constrain members (or are the builtins range and split): the returned value fits the inferred result type recursively, and its engine type is compatible with it. Refuted without each of these assumptions (C13_default_value_refuted, C13_members_refuted, C13_shadowing_refuted)."
  },
  {
   "property": "C14",
   "status": "proved",
   "theorems": [
    "C14_conforming_is_delivered",
    "C14_declared_type",
    "C14_delivered_conforms",
    "C14_empty_array_refuted"
   ],
   "note": "Every delivered value conforms, every conforming value is delivered, others raise SymbolTypeError; the empty array is rejected by ARRAY(FLOAT) (C14_empty_array_refuted), because the code compares member types for equality."
  },
  {
   "property": "C15",
   "status": "partial",
   "theorems": [
    "C15_and",
    "C15_boolean",
    "C15_de_morgan_and",
    "C15_de_morgan_or",
    "C15_not",
    "C15_or",
    "C15_skipped_constant_refuted",
    "C15_truth"
   ],
   "note": "Evaluation in full. At construction the skipped operand is still constant folded, so the text `false and 1/0` does not construct (C15_skipped_constant_refuted)."
  },
  {
   "property": "C16",
   "status": "proved",
   "theorems": [
    "C16_other_branch_irrelevant",
    "C16_ternary",
    "C16_truth"
   ],
   "note": ""
  },
  {
   "property": "C17",
   "status": "partial",
   "theorems": [
    "C17_complement",
    "C17_different_kinds_unequal",
    "C17_equality",
    "C17_meaning",
    "C17_nested_types_refuted",
    "C17_never_raises",
    "C17_reflexive",
    "C17_symmetric"
   ],
   "note": "\"Values of different data types are unequal\" holds for different kinds of types; nested inside arrays Python equality looks through the types ([true] == [1], C17_nested_types_refuted). Rest in full. C17_equality characterises == on all values at every depth by the independent relation \"equal\" (numbers by quantity, times by instant, collections by members)."
  },
  {
   "property": "C18",
   "status": "proved",
   "theorems": [
    "C18_converse",
    "C18_different_kinds_raise",
    "C18_le_is_lt_or_eq",
    "C18_meaning",
    "C18_null",
    "C18_repeated_hour_refuted",
    "C18_sets",
    "C18_sets_refuted",
    "C18_text",
    "C18_trichotomy"
   ],
   "note": "Trichotomy for NaN-free values with unambiguous datetimes (tz_monotone: the time zone database orders unambiguous times of one zone like their UTC times); the repeated hour of daylight saving time is a counterexample (C18_repeated_hour_refuted). Sets inside arrays are ordered by inclusion (C18_sets), so that neither may be smaller (C18_sets_refuted)."
  },
  {
   "property": "C19",
   "status": "proved",
   "theorems": [
    "C19_lexicographic",
    "C19_reflexivity",
    "C19_transitive"
   ],
   "note": "Same hypotheses as C18."
  },
  {
   "property": "C20",
   "status": "proved",
   "theorems": [
    "C20_complement",
    "C20_invalid_pattern",
    "C20_match",
    "C20_null",
    "C20_only_match_updates",
    "C20_wrong_type"
   ],
   "note": "all values, contexts and regex implementations (o_re is an arbitrary function)"
  },
  {
   "property": "C21",
   "status": "proved",
   "theorems": [
    "C21_division_by_zero",
    "C21_infinity_by_zero_refuted",
    "C21_meaning",
    "C21_number_or_EvaluationError",
    "C21_numbers_only",
    "C21_numeric_is_float"
   ],
   "note": "** and the rounding of / are oracles resp. C22; inf / 0 = inf is shown by C21_infinity_by_zero_refuted"
  },
  {
   "property": "C22",
   "status": "proved",
   "theorems": [
    "C22_add",
    "C22_div",
    "C22_exact",
    "C22_floordiv",
    "C22_half_ulp",
    "C22_identity",
    "C22_identity_rounded_refuted",
    "C22_mod",
    "C22_mul",
    "C22_neg",
    "C22_sub",
    "C22_tenths",
    "C22_zero_sum"
   ],
   "note": "+, -, *, / on finite numbers give the exact result correctly rounded in every rounding mode (ROUND_05UP: nearest neighbours only), exactly when it is representable; half-ulp bound; // and % truncate exactly; a witness shows the identity evaluated inside the engine can fail when the product rounds. ** is an oracle"
  },
  {
   "property": "C23",
   "status": "partial",
   "theorems": [
    "C23_add_comm",
    "C23_add_meaning",
    "C23_add_sub",
    "C23_add_sub_dt",
    "C23_difference_meaning",
    "C23_mismatch",
    "C23_sub_antisym",
    "C23_sub_meaning",
    "C23_td_meaning",
    "C23_text_plus_datetime_refuted"
   ],
   "note": "all laws for every datetime, timedelta and tz database; text/bytes + anything leaks TypeError instead of EvaluationError (C23_text_plus_datetime_refuted). C23_difference_meaning: the difference of two times, within one zone and across zones."
  },
  {
   "property": "C24",
   "status": "proved",
   "theorems": [
    "C24_datetime_text",
    "C24_datetimes_compare",
    "C24_members_refuted",
    "C24_operands_aware",
    "C24_values_read"
   ],
   "note": "Every operand of a constructed rule evaluates to a non-naive value; members inside containers keep naive datetimes (C24_members_refuted)."
  },
  {
   "property": "C25",
   "status": "proved",
   "theorems": [
    "C25_huge_natural_refuted",
    "C25_mixed_kinds_raise",
    "C25_naturals",
    "C25_other_numbers_raise",
    "C25_sets",
    "C25_shift_meaning"
   ],
   "note": "naturals from 2^1024-2^970 on are rejected (C25_huge_natural_refuted); shift of two untyped sets leaks TypeError"
  },
  {
   "property": "C26",
   "status": "proved",
   "theorems": [
    "C26_collection",
    "C26_not_in",
    "C26_text",
    "C26_unhashable_refuted"
   ],
   "note": "for hashable members of sets and mappings; an unhashable one leaks TypeError (C26_unhashable_refuted)"
  },
  {
   "property": "C27",
   "status": "proved",
   "theorems": [
    "C27_array",
    "C27_bytes",
    "C27_element_unchanged",
    "C27_mapping",
    "C27_non_integer_raises",
    "C27_text"
   ],
   "note": "indices with |i| below 2^1024-2^970; larger integers count as non-integers"
  },
  {
   "property": "C28",
   "status": "proved",
   "theorems": [
    "C28_errors",
    "C28_slice",
    "C28_split",
    "C28_whole"
   ],
   "note": ""
  },
  {
   "property": "C29",
   "status": "proved",
   "theorems": [
    "C29_missing_key",
    "C29_non_null",
    "C29_null"
   ],
   "note": ""
  },
  {
   "property": "C30",
   "status": "proved",
   "theorems": [
    "C30_filter_map",
    "C30_meaning"
   ],
   "note": "Iteration specified by the inductive relation [iterates] (condition first, first failure ends), plus the filter/map form for state-independent bodies."
  },
  {
   "property": "C31",
   "status": "partial",
   "theorems": [
    "C31_attribute_refuted",
    "C31_nested_refuted",
    "C31_other_names",
    "C31_variable_partial"
   ],
   "note": "The bound variable denotes the current element, and other names and builtins are unaffected; the innermost rule and the attribute rule are false of the code: the outermost binding of a name wins (C31_nested_refuted) and obj.x may return the loop variable x (C31_attribute_refuted)."
  },
  {
   "property": "C32",
   "status": "proved",
   "theorems": [
    "C32_bad_key",
    "C32_first_keys",
    "C32_key_error",
    "C32_literal"
   ],
   "note": "Keys once in order; first position, last value expression only; set/mapping keys EngineError before anything later. NaN keys are excluded (never equal to themselves)."
  },
  {
   "property": "C33",
   "status": "proved",
   "theorems": [
    "C33_accepted",
    "C33_construction",
    "C33_definition",
    "C33_not_callable",
    "C33_one_call",
    "C33_rejected",
    "C33_result"
   ],
   "note": "Count and types checked before the call, function run exactly once on the evaluated arguments, every exception becomes FunctionCallError, delivered values compatible with the declared return type."
  },
  {
   "property": "C34",
   "status": "proved",
   "theorems": [
    "C34_attribute",
    "C34_conservative",
    "C34_symbol"
   ],
   "note": "For all names, things and resolvers: a default replaces exactly SymbolResolutionError / AttributeResolutionError of the resolver."
  },
  {
   "property": "C35",
   "status": "proved",
   "theorems": [
    "C35_builtin_first",
    "C35_member_then_default",
    "C35_shadowing"
   ],
   "note": "Builtin attribute, then resolver, then default, then AttributeResolutionError. docs/attributes.rst says the resolver comes first; the code (and the property) has attributes first."
  },
  {
   "property": "C36",
   "status": "partial",
   "theorems": [
    "C36_ends_with_partial",
    "C36_ends_with_refuted",
    "C36_length",
    "C36_length_map",
    "C36_length_set",
    "C36_starts_with"
   ],
   "note": "starts_with, length and is_empty in full; ends_with for every non-empty suffix; C36_ends_with_refuted shows the code answers false for an empty suffix of a non-empty sequence."
  },
  {
   "property": "C37",
   "status": "proved",
   "theorems": [
    "C37_join",
    "C37_limit",
    "C37_pieces_free",
    "C37_split_bad_limit",
    "C37_split_empty_sep",
    "C37_split_limit",
    "C37_split_sep",
    "C37_split_words",
    "C37_words",
    "C37_words_limit"
   ],
   "note": "Specification by leftmost occurrence (splits) and by maximal white-space-free runs (words); join inverse and piece bounds proved from it"
  },
  {
   "property": "C38",
   "status": "partial",
   "theorems": [
    "C38_non_integer",
    "C38_range_start_stop_partial",
    "C38_range_step_partial",
    "C38_range_stop",
    "C38_zero_refuted",
    "C38_zero_step",
    "C38_zero_stop"
   ],
   "note": "One, two and three argument forms for integers the engine accepts (finite float range) with non-zero stop and step; a zero stop is treated as missing and a zero step as 1 (C38_zero_stop, C38_zero_step, C38_zero_refuted)"
  },
  {
   "property": "C39",
   "status": "proved",
   "theorems": [
    "C39_all",
    "C39_any",
    "C39_call_error",
    "C39_calls_logged",
    "C39_extremum_empty",
    "C39_filter",
    "C39_map",
    "C39_max",
    "C39_min",
    "C39_sum",
    "C39_sum_exact"
   ],
   "note": "$any/$all over every array; $max/$min/$sum over every array of numbers with $sum correctly rounded after each addition; $map/$filter call once per member in order; errors surface as FunctionCallError"
  },
  {
   "property": "C40",
   "status": "proved",
   "theorems": [
    "C40_builtin_constant",
    "C40_builtin_ignores_thing_and_scopes",
    "C40_builtin_type",
    "C40_plain_name_ignores_builtins"
   ],
   "note": "Namespaces of builtins (custom Builtins subclasses) are not modelled."
  },
  {
   "property": "C41",
   "status": "proved",
   "theorems": [
    "C41_filter_exact",
    "C41_filter_stops_at_first_failure",
    "C41_matches_is_truth_of_evaluate",
    "C41_truth"
   ],
   "note": ""
  },
  {
   "property": "C42",
   "status": "proved",
   "theorems": [
    "C42_is_valid_iff_constructs",
    "C42_syntax",
    "C42_text"
   ],
   "note": "On texts (C42_text, through the modelled lexer, LALR parser and construction) and on deferred trees; C42_syntax: texts that do not parse are invalid in every context."
  },
  {
   "property": "C43",
   "status": "partial",
   "theorems": [
    "C43_add_refuted",
    "C43_attributes_refuted",
    "C43_characterisation_partial",
    "C43_construction_engine_partial",
    "C43_construction_example",
    "C43_construction_partial",
    "C43_construction_refuted",
    "C43_containers_refuted",
    "C43_default_resolver",
    "C43_engine_errors_partial",
    "C43_example",
    "C43_operators_refuted",
    "C43_resolver_refuted",
    "C43_text_partial"
   ],
   "note": "The property as stated is false of the code (C43_*_refuted give rules raising TypeError, OverflowError, decimal errors, SyntaxError). Proved instead, for every rule as the grammar builds it: each exception is an EngineError, or was raised by the resolver, or comes from an operation in an explicit table (leaks), given by operator and static operand types; every row attained by a witness. At construction (C43_construction, C43_text): an EngineError, or raised by a resolver, or the OverflowError of a duration literal, or a row of the table for an operation on literals, or the TypeError of a member access named like a comprehension variable; C43_construction_refuted has a text for each. Missing: contexts with a default value, comprehension variables named like attributes, functions declared to return containers with a member type; regex and codec errors are those of the modelled oracles."
  },
  {
   "property": "C44",
   "status": "partial",
   "theorems": [
    "C44_construction_keeps_ambient_context",
    "C44_evaluate_ignores_ambient_context",
    "C44_folding_refuted"
   ],
   "note": "For a constructed rule in full; constant folding at construction uses the calling thread's decimal context instead of the Context's (C44_folding_refuted)."
  },
  {
   "property": "C45",
   "status": "partial",
   "theorems": [
    "C45_best",
    "C45_itself",
    "C45_most_similar",
    "C45_newline_refuted",
    "C45_none",
    "C45_pattern",
    "C45_symbol_name"
   ],
   "note": "All words and option lists: totality, None exactly when no option matches the symbol pattern, first option of least distance, an exact match wins. Missing: the pattern lets a trailing newline through (C45_newline_refuted), and below similarity 1/2 the rounding of 1 - similarity can hide differences"
  },
  {
   "property": "C46",
   "status": "proved",
   "theorems": [
    "C46_bounded",
    "C46_jaro_bounded",
    "C46_prefix_never_lowers",
    "C46_total"
   ],
   "note": "For every rounding faithful to 53 bits (IEEE-754 float arithmetic; trunc53 is a proved instance), texts up to 2^48 characters for the bounds; totality for all texts and roundings"
  },
  {
   "property": "C47",
   "status": "proved",
   "theorems": [
    "C47_based",
    "C47_decimal",
    "C47_error",
    "C47_leading_zero",
    "C47_literal",
    "C47_only"
   ],
   "note": "Decimal numerals, 0x/0o/0b literals, leading zeros, and a converse: everything accepted is a (possibly signed, padded, underscored) numeral, inf or nan with the value it spells; only FloatSyntaxError is raised. Assumes visible ASCII is not white space."
  },
  {
   "property": "C48",
   "status": "proved",
   "theorems": [
    "C48_close",
    "C48_fraction",
    "C48_literal",
    "C48_microseconds",
    "C48_only",
    "C48_value"
   ],
   "note": "Whole components of any size exactly (OverflowError beyond the timedelta range); fractional components through the model of binary64 and of timedelta(float, ...): exact for whole microseconds below 2^50, within a microsecond below 2^50, and a relative bound without limit; every other text TimedeltaSyntaxError (a trailing newline is tolerated)."
  },
  {
   "property": "C49",
   "status": "partial",
   "theorems": [
    "C49_covered",
    "C49_escapes",
    "C49_malformed",
    "C49_non_ascii_escape_refuted",
    "C49_only_syntax_error",
    "C49_plain"
   ],
   "note": "All bodies without backslash; all documented escapes (spells), malformed ones (StringSyntaxError), and a covering theorem for ASCII escapes other than character names. Missing: character names are an oracle; a backslash before a non-ASCII or control character is decoded wrongly (C49_non_ascii_escape_refuted)"
  },
  {
   "property": "C50",
   "status": "proved",
   "theorems": [
    "C50_exactly_derivations",
    "C50_parser",
    "C50_rejected_iff",
    "C50_terminates",
    "C50_total",
    "C50_unambiguous"
   ],
   "note": "The LALR tables of parsetab.py (regenerated from the file by tools/gen_grammar.py) driven by a model of ply machine incl. defaulted states; acceptance iff a derivation grouped as the precedence table says; total, terminating, unambiguous; grammar actions modelled (parse_tokens)"
  },
  {
   "property": "C51",
   "status": "partial",
   "theorems": [
    "C51_binary_operators",
    "C51_left",
    "C51_levels",
    "C51_minus",
    "C51_nonassoc",
    "C51_not",
    "C51_not_in",
    "C51_not_in_refuted",
    "C51_right",
    "C51_ternary_branch",
    "C51_ternary_condition",
    "C51_ternary_right"
   ],
   "note": "All pairs of binary operators, unary minus, not, ternary and not in, with arbitrary operand expressions. The documented claim fails for not in: it chains with comparisons and groups differently from in (C51_not_in_refuted)"
  },
  {
   "property": "C52",
   "status": "proved",
   "theorems": [
    "C52_distinct",
    "C52_expression_trees",
    "C52_no_empty_set",
    "C52_parentheses",
    "C52_respelling",
    "C52_round_trip"
   ],
   "note": "Token level. C52_expression_trees shows the trees considered (writable) are exactly those the parser can return, and C52_round_trip that each parses back from its fully parenthesised spelling; an empty set literal has no syntax (C52_no_empty_set)"
  },
  {
   "property": "C53",
   "status": "proved",
   "theorems": [
    "C53_date",
    "C53_datetime",
    "C53_millisecond",
    "C53_timedelta",
    "C53_unique",
    "C53_weekday",
    "C53_weekday_next"
   ],
   "note": "Fields in calendar range and jointly identifying the instant for every datetime; millisecond is exactly microsecond/1000 (through float division and repr); weekday agrees with Zeller's congruence on the date's fields and advances with the day (C locale)."
  },
  {
   "property": "C54",
   "status": "proved",
   "theorems": [
    "C54_ceiling",
    "C54_floor",
    "C54_floor_is_ceiling",
    "C54_is_nan",
    "C54_non_finite",
    "C54_parse_to_str",
    "C54_round_trip",
    "C54_round_trip_natural",
    "C54_round_trip_near",
    "C54_round_trip_refuted",
    "C54_to_flt",
    "C54_to_flt_integer",
    "C54_to_flt_leading_zero",
    "C54_to_flt_near",
    "C54_to_int",
    "C54_to_int_huge_refuted",
    "C54_to_str"
   ],
   "note": "floor/ceiling/to_str exact, $parse_float(x.to_str) = x; to_int refuted for integers beyond float range; to_flt through the model of binary64 rounding and shortest repr: exact below 2^52, refuted for 18 digits; numerals with leading zeros leak SyntaxError."
  },
  {
   "property": "C55",
   "status": "proved",
   "theorems": [
    "C55_coerced",
    "C55_native_set",
    "C55_round_trip"
   ],
   "note": "For every fully coerced value, up to the listing order of set members; native sets keep native members under coerce_value and come back as equal decimals (C55_native_set)."
  },
  {
   "property": "C56",
   "status": "proved",
   "theorems": [
    "C56_equivalence",
    "C56_mapping_content",
    "C56_membership_order_free",
    "C56_set_one_representative"
   ],
   "note": ""
  },
  {
   "property": "C57",
   "status": "proved",
   "theorems": [
    "C57_decode",
    "C57_encode",
    "C57_round_trip",
    "C57_spells_iff"
   ],
   "note": "For all byte strings and all texts, encoding names in any letter case."
  },
  {
   "property": "C58",
   "status": "proved",
   "theorems": [
    "C58_attribute",
    "C58_bytes_equality_refuted",
    "C58_item",
    "C58_iterable",
    "C58_iterable_accepted",
    "C58_literal_rejected",
    "C58_membership",
    "C58_minus",
    "C58_operator_accepted",
    "C58_operator_rejected",
    "C58_slice",
    "C58_symbols"
   ],
   "note": "Specification relations takes / may_contain / may_have / may_index / may_slice / may_iterate; accepted and rejected directions for every operator and construct, and the symbol-level corollary. C58_bytes_equality_refuted records that == refuses BYTES operands."
  },
  {
   "property": "C59",
   "status": "proved",
   "theorems": [
    "C59_error",
    "C59_lossless",
    "C59_parse",
    "C59_reads",
    "C59_tokens",
    "C59_total",
    "C59_unique"
   ],
   "note": "The lexer's outcome is exactly the specification relation `reads` (LexSpec.v), which is deterministic; errors are exactly the texts with no reading; lossless."
  },
  {
   "property": "C60",
   "status": "proved",
   "theorems": [
    "C60_around",
    "C60_blank",
    "C60_blanks",
    "C60_comment",
    "C60_comment_ignored",
    "C60_comment_refuted",
    "C60_parse_around",
    "C60_separated"
   ],
   "note": "For every readable text and every white space class that contains space, tab and newline. C60_comment_refuted: a comment followed by more lines is refused (comments cannot be used inside multi-line rules)."
  },
  {
   "property": "C61",
   "status": "proved",
   "theorems": [
    "C61_distinct",
    "C61_expressions",
    "C61_respelling",
    "C61_round_trip"
   ],
   "note": "Lexer, LALR parser and grammar actions together: round trip for all trees, and characterisation of the image of the parser (writable and textual)."
  },
  {
   "property": "C62",
   "status": "proved",
   "theorems": [
    "C62_bool_is_no_number",
    "C62_errors",
    "C62_example",
    "C62_names",
    "C62_never_undefined",
    "C62_own_name",
    "C62_sound",
    "C62_symbol",
    "C62_symbol_example",
    "C62_symbol_refuted"
   ],
   "note": "from_type on classes, generic aliases and Annotated; from_name, DataType[name]. C62_symbol_refuted: without the restriction symbols hinted list[int] reject [], list[list[int]] rejects [[]] (finding 34)."
  },
  {
   "property": "C63",
   "status": "proved",
   "theorems": [
    "C63_abs",
    "C63_abs_special",
    "C63_constants",
    "C63_example",
    "C63_midnight",
    "C63_now",
    "C63_parse",
    "C63_random_bad",
    "C63_random_bound",
    "C63_random_unit",
    "C63_random_zero_refuted",
    "C63_today",
    "C63_today_le_now"
   ],
   "note": "For every world (clock, random source satisfying random_lawful). $random(0) behaves as $random(): C63_random_zero_refuted (finding 35)."
  },
  {
   "property": "C64",
   "status": "proved",
   "theorems": [
    "C64_callback_untouched",
    "C64_construction_as_alone",
    "C64_construction_precision_refuted",
    "C64_construction_scope_refuted",
    "C64_layers_end",
    "C64_layers_never_reenter",
    "C64_outcome_as_alone",
    "C64_outside_untouched",
    "C64_same_context_refuted"
   ],
   "note": "One thread, any number of Contexts; clock and random source do not evaluate rules. Entering the Context that is being evaluated is excluded and does interfere: C64_same_context_refuted (finding 15), C64_construction_scope_refuted, C64_construction_precision_refuted (finding 36)."
  },
  {
   "property": "C65",
   "status": "proved",
   "theorems": [
    "C65_keys_values",
    "C65_nan_key_refuted",
    "C65_to_ary",
    "C65_to_set",
    "C65_unhashable_refuted",
    "C65_value_of_key"
   ],
   "note": "For every value the evaluator works with (settled, see C13). NaN keys are excluded from m[k] (C65_nan_key_refuted); the TypeError is no EngineError (C65_unhashable_refuted, finding of C43)."
  },
  {
   "property": "C66",
   "status": "proved",
   "theorems": [
    "C66_any_case",
    "C66_base64_decode",
    "C66_base64_encode",
    "C66_base64_round_trip",
    "C66_decode",
    "C66_encode",
    "C66_round_trip",
    "C66_unique",
    "C66_utf8_total"
   ],
   "note": "For the codec names listed in P_Codec.codec_names; every other name is left to the oracle. Texts are lists of code points below 0x110000 (surrogates included)."
  },
  {
   "property": "C67",
   "status": "proved",
   "theorems": [
    "C67_based",
    "C67_bytes",
    "C67_bytes_range",
    "C67_datetime",
    "C67_keywords",
    "C67_leading_zero",
    "C67_number",
    "C67_string",
    "C67_timedelta",
    "C67_timedelta_fraction",
    "C67_timedelta_malformed"
   ],
   "note": "From the text of the rule to the value of evaluate. The ISO-8601 reading of datetimes is dateutil's (an oracle); durations with fractional components are left to C48."
  },
  {
   "property": "C68",
   "status": "proved",
   "theorems": [
    "C68_epoch",
    "C68_epoch_near",
    "C68_epoch_order",
    "C68_total_seconds",
    "C68_total_seconds_near"
   ],
   "note": "Binary64 rounding and shortest repr are modelled (Flt.v) and the exactness is proved from the model of both; a naive datetime (never the result of an evaluation, C24) uses the system zone and stays an oracle."
  },
  {
   "property": "C69",
   "status": "proved",
   "theorems": [
    "C69_accepts",
    "C69_decimal_alias_refuted",
    "C69_decimal_context",
    "C69_empty_dictionary",
    "C69_errors",
    "C69_examples",
    "C69_key_clash_refuted",
    "C69_no_arguments",
    "C69_settings",
    "C69_timezone",
    "C69_types"
   ],
   "note": "Model Context.v. Example data: scalars, arrays, sets, ranges and mappings with text keys, nested without bound; C69_key_clash_refuted shows a mapping with the keys 0.1 and Decimal('0.1') is refused by the context made from it (finding 37). C69_decimal_alias_refuted: the default decimal context is a live reference, later changes by the creating thread change results (finding 38). Time zone texts that are not ASCII depend on Unicode case mapping."
  },
  {
   "property": "C70",
   "status": "proved",
   "theorems": [
    "C70_as_lower",
    "C70_as_upper",
    "C70_case_insensitive",
    "C70_idempotent"
   ],
   "note": "ASCII is modelled concretely; str.lower/upper of other text is an oracle."
  },
  {
   "property": "C71",
   "status": "proved",
   "theorems": [
    "C71_plain",
    "C71_re_groups",
    "C71_re_groups_refuted",
    "C71_symbols",
    "C71_unknown_builtin_refuted",
    "C71_variable_refuted"
   ],
   "note": "For every accepted deferred tree, every state and world with the default resolver and the default builtins. The three exceptions are shown to occur (C71_*_refuted), the $re_groups one exactly characterised (C71_re_groups)."
  },
  {
   "property": "C72",
   "status": "proved",
   "theorems": [
    "C72_consumer",
    "C72_decimal_context",
    "C72_drain",
    "C72_finds",
    "C72_lazy",
    "C72_next",
    "C72_next_done",
    "C72_same_answers"
   ],
   "note": "The generator as a big-step relation with an arbitrary thread state between the calls. C72_lazy, C72_decimal_context and C72_drain hold for arbitrary callbacks, the rest for callbacks without memory."
  },
  {
   "property": "C73",
   "status": "proved",
   "theorems": [
    "C73_default_timezone_refuted",
    "C73_empty",
    "C73_generator",
    "C73_generator_once_refuted",
    "C73_given",
    "C73_namespace",
    "C73_others",
    "C73_override_type_refuted",
    "C73_plain_names",
    "C73_re_groups_lost",
    "C73_timezone",
    "C73_type",
    "C73_unknown",
    "C73_unknown_from_defaults"
   ],
   "note": "Values are constants, functions, nested mappings, the generators of the defaults and generators written by the user (C73_generator; C73_generator_once_refuted: each access calls it twice). Generators inside namespaces are not modelled. C73_override_type_refuted, C73_re_groups_lost and C73_default_timezone_refuted record three surprises."
  },
  {
   "property": "C74",
   "status": "proved",
   "theorems": [
    "C74_epoch",
    "C74_epoch_order",
    "C74_specification_unique",
    "C74_to_flt",
    "C74_to_flt_order",
    "C74_to_flt_overflow",
    "C74_total_seconds",
    "C74_total_seconds_order"
   ],
   "note": "The specification (nearest_double, shortest_for at the head of FltNear.v) quantifies over all doubles and all decimals and determines the result uniquely (C74_specification_unique)."
  },
  {
   "property": "C75",
   "status": "proved",
   "theorems": [
    "C75_attribute_resolver",
    "C75_objects_like_dictionaries",
    "C75_only_named_symbols",
    "C75_other_item",
    "C75_read_twice_refuted",
    "C75_unnamed_items"
   ],
   "note": "C75_only_named_symbols: general two-thing, two-resolver statement. C75_unnamed_items, C75_other_item: the default resolver. C75_attribute_resolver, C75_objects_like_dictionaries: resolve_attribute, modelled with Python's getattr and dir as parameters. C75_members_exposed: Python attributes of member values are reachable through resolve_attribute. C75_read_twice_refuted: the attribute is read twice, so an attribute that disappears in between raises a native AttributeError."
  },
  {
   "property": "C76",
   "status": "proved",
   "theorems": [
    "C76_constructed_rules",
    "C76_distributive_refuted",
    "C76_equivalent_rules"
   ],
   "note": "C76_equivalent_rules: congruence closure of 20 laws, about expressions as evaluated (C12 relates a rule's text to them; where folding is exact, so are these laws for texts). The callee of a call may only be replaced by one with the same inferred type. C76_distributive_refuted: distributivity changes the callbacks. C76_example: a De Morgan rewriting inside a comprehension's condition. C76_constructed_rules lifts the laws to rules constructed from texts, wherever C12's folding is exact."
  },
  {
   "property": "C77",
   "status": "proved",
   "theorems": [
    "C77_attribute",
    "C77_builtin",
    "C77_construct_attribute",
    "C77_construct_symbol",
    "C77_symbol"
   ],
   "note": "C77_symbol, C77_builtin, C77_attribute, C77_construct_symbol, C77_construct_attribute. The oracle o_suggest is assumed to be suggest_symbol of Suggest.v with some rounding of floats (C45 says what that computes, C46 what the similarity is); c77_orc in the example meets the assumption. Keys that are not text make suggest_symbol raise TypeError (finding recorded under C43), hence text_keys. The builtin attributes do not count for an object whose members have no common type."
  },
  {
   "property": "C78",
   "status": "proved",
   "theorems": [
    "C78_asked_once_per_mention",
    "C78_comprehension_refuted",
    "C78_filter",
    "C78_not_mentioned",
    "C78_own_variable"
   ],
   "note": "C78_asked_once_per_mention (evaluate and matches), C78_filter, C78_not_mentioned, C78_own_variable. mentions/repeated count the occurrences in the parse tree. C78_comprehension_refuted shows the side condition is needed: [n for x in xs] mentions n once and asks for every element. C78_example: the bound is reached (nothing is cached)."
  },
  {
   "property": "C79",
   "status": "proved",
   "theorems": [
    "C79_history_irrelevant",
    "C79_same_text_same_rule"
   ],
   "note": "C79_same_text_same_rule (two arbitrary thread states with the same decimal context and scopes), C79_history_irrelevant. A statement about evaluations is C07. Unlike evaluation, construction does use the thread's own decimal context (that is why it is assumed equal; see the findings)."
  },
  {
   "property": "C80",
   "status": "proved",
   "theorems": [
    "C80_directive",
    "C80_hint",
    "C80_lines_independent",
    "C80_one_answer_per_line"
   ],
   "note": "C80_one_answer_per_line, C80_lines_independent (against the separate relation prints), C80_hint, C80_directive. The printed text itself, the regular expression and function details of an error, argument parsing and the edit console are not modelled; exceptions that are not Exception subclasses (KeyboardInterrupt, SystemExit from a callback) end the loop and are outside the model."
  },
  {
   "property": "C81",
   "status": "proved",
   "theorems": [
    "C81_members",
    "C81_order_irrelevant",
    "C81_type"
   ],
   "note": "C81_members (value and errors from the members' own outcomes), C81_order_irrelevant (any permutation), C81_type. The restriction on =~ is needed: C81_match_refuted has a two-member set whose value depends on the order, so that the same rule on the same thing can answer differently in two runs."
  },
  {
   "property": "C82",
   "status": "proved",
   "theorems": [
    "C82_bad_pattern_refused",
    "C82_evaluation",
    "C82_literal_patterns",
    "C82_text"
   ],
   "note": "C82_evaluation (which syntax error, and that the rule has a computed pattern), C82_literal_patterns and C82_text (none if all patterns are literals), C82_bad_pattern_refused (construction checks every literal pattern of the text). C82_example has the exception happening."
  },
  {
   "property": "C83",
   "status": "proved",
   "theorems": [
    "C83_accepted",
    "C83_arithmetic_refuted",
    "C83_bytes_refuted",
    "C83_filter",
    "C83_nan_refuted",
    "C83_never_fails"
   ],
   "note": "C83_accepted (construction succeeds with the type), C83_never_fails (evaluation gives a value of the type, matching its truth), C83_filter. The fragment is the inductive predicate typed; C83_example is a member that uses most of it. C83_nan_refuted, C83_arithmetic_refuted, C83_bytes_refuted show why NaN, null, arithmetic and == on bytes are left out."
  },
  {
   "property": "C84",
   "status": "proved",
   "theorems": [
    "C84_comment_refuted",
    "C84_faithful",
    "C84_hidden_refuted",
    "C84_same_rule",
    "C84_shows",
    "C84_tree"
   ],
   "note": "C84_tree (shape), C84_shows (what is read from the statement is the picture of the expression, and only that), C84_faithful and C84_same_rule (what the picture determines). C84_hidden_refuted shows that the exceptions are real; C84_comment_refuted that the comment is not attached."
  },
  {
   "property": "C85",
   "status": "proved",
   "theorems": [
    "C85_acceptance_refuted",
    "C85_no_value_lost",
    "C85_only_type_failures",
    "C85_safe_item_refuted",
    "C85_same_value",
    "C85_undeclared_rule"
   ],
   "note": "C85_safe_item_refuted and C85_acceptance_refuted show the two exceptions stated in the property; calls: the type of what is called must be forgotten with the declarations or not depend on them"
  },
  {
   "property": "C86",
   "status": "proved",
   "theorems": [
    "C86_attribute_refuted",
    "C86_capture_refuted",
    "C86_renamed_rule",
    "C86_same_outcome",
    "C86_same_rule"
   ],
   "note": "C86_capture_refuted and C86_attribute_refuted show that both conditions are needed; the object's resolver answers for the names the rule asks for, and a renamed variable is never asked for"
  },
  {
   "property": "C87",
   "status": "proved",
   "theorems": [
    "C87_pattern_refuted",
    "C87_replaced",
    "C87_replaced_typed",
    "C87_stateless",
    "C87_types_kept",
    "C87_variable_refuted"
   ],
   "note": "about the expressions that are evaluated; constructing the rule from a text with the literals may additionally fold them (C12). C87_variable_refuted and C87_pattern_refuted show that the conditions on comprehensions and patterns are needed"
  },
  {
   "property": "C88",
   "status": "proved",
   "theorems": [
    "C88_builtin_refuted",
    "C88_default_resolver",
    "C88_stateless"
   ],
   "note": "C34 states what happens at a single symbol or attribute; this is the whole rule. C88_stateless: such a resolver exists for every stateless one. C88_builtin_refuted: the condition on builtins is needed"
  }
 ]
}