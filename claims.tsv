C01	proved	Compatibility is characterised by an independent inductive "instance" relation.
C02	proved	
C03	proved	py_ok states what holds of every Python object: dict keys and set members are hashable.
C04	proved	Normal form excludes set members (coerce_value does not descend into sets).
C05	partial	Last sentence (data type unchanged) holds under keys_apart and is refuted without: two keys that conversion makes equal (0.1 and Decimal 0.1) collapse and the value type can change. Everything else in full.
C06	proved	For expressions, construction and Rule.evaluate; every outcome, callback behaviour and initial state.
C07	proved	Two-run theorem with arbitrary callbacks that answer equal call sequences equally; corollary over arbitrary histories for callbacks without memory.
C10	proved	
C11	proved	
C15	partial	Evaluation in full. At construction the skipped operand is still constant folded, so the text `false and 1/0` does not construct (C15_skipped_constant_refuted).
C16	proved	
C40	proved	Namespaces of builtins (custom Builtins subclasses) are not modelled.
C41	proved	
C42	proved	On texts (C42_text, through the modelled lexer, LALR parser and construction) and on deferred trees; C42_syntax: texts that do not parse are invalid in every context.
C44	partial	For a constructed rule in full; constant folding at construction uses the calling thread's decimal context instead of the Context's (C44_folding_refuted).
C17	partial	"Values of different data types are unequal" holds for different kinds of types; nested inside arrays Python equality looks through the types ([true] == [1], C17_nested_types_refuted). Rest in full. C17_equality characterises == on all values at every depth by the independent relation "equal" (numbers by quantity, times by instant, collections by members).
C18	proved	Trichotomy for NaN-free values with unambiguous datetimes (tz_monotone: the time zone database orders unambiguous times of one zone like their UTC times); the repeated hour of daylight saving time is a counterexample (C18_repeated_hour_refuted). Sets inside arrays are ordered by inclusion (C18_sets), so that neither may be smaller (C18_sets_refuted).
C19	proved	Same hypotheses as C18.
C56	proved	
C20	proved	all values, contexts and regex implementations (o_re is an arbitrary function)
C21	proved	** and the rounding of / are oracles resp. C22; inf / 0 = inf is shown by C21_infinity_by_zero_refuted
C23	partial	all laws for every datetime, timedelta and tz database; text/bytes + anything leaks TypeError instead of EvaluationError (C23_text_plus_datetime_refuted). C23_difference_meaning: the difference of two times, within one zone and across zones.
C25	proved	naturals from 2^1024-2^970 on are rejected (C25_huge_natural_refuted); shift of two untyped sets leaks TypeError
C26	proved	for hashable members of sets and mappings; an unhashable one leaks TypeError (C26_unhashable_refuted)
C27	proved	indices with |i| below 2^1024-2^970; larger integers count as non-integers
C28	proved	
C29	proved	
C14	proved	Every delivered value conforms, every conforming value is delivered, others raise SymbolTypeError; the empty array is rejected by ARRAY(FLOAT) (C14_empty_array_refuted), because the code compares member types for equality.
C30	proved	Iteration specified by the inductive relation [iterates] (condition first, first failure ends), plus the filter/map form for state-independent bodies.
C24	proved	Every operand of a constructed rule evaluates to a non-naive value; members inside containers keep naive datetimes (C24_members_refuted).
C31	partial	The bound variable denotes the current element, and other names and builtins are unaffected; the innermost rule and the attribute rule are false of the code: the outermost binding of a name wins (C31_nested_refuted) and obj.x may return the loop variable x (C31_attribute_refuted).
C34	proved	For all names, things and resolvers: a default replaces exactly SymbolResolutionError / AttributeResolutionError of the resolver.
C35	proved	Builtin attribute, then resolver, then default, then AttributeResolutionError. docs/attributes.rst says the resolver comes first; the code (and the property) has attributes first.
C32	proved	Keys once in order; first position, last value expression only; set/mapping keys EngineError before anything later. NaN keys are excluded (never equal to themselves).
C33	proved	Count and types checked before the call, function run exactly once on the evaluated arguments, every exception becomes FunctionCallError, delivered values compatible with the declared return type.
C55	proved	For every fully coerced value, up to the listing order of set members; native sets keep native members under coerce_value and come back as equal decimals (C55_native_set).
C36	partial	starts_with, length and is_empty in full; ends_with for every non-empty suffix; C36_ends_with_refuted shows the code answers false for an empty suffix of a non-empty sequence.
C53	proved	Fields in calendar range and jointly identifying the instant for every datetime; millisecond is exactly microsecond/1000 (through float division and repr); weekday agrees with Zeller's congruence on the date's fields and advances with the day (C locale).
C57	proved	For all byte strings and all texts, encoding names in any letter case.
C47	proved	Decimal numerals, 0x/0o/0b literals, leading zeros, and a converse: everything accepted is a (possibly signed, padded, underscored) numeral, inf or nan with the value it spells; only FloatSyntaxError is raised. Assumes visible ASCII is not white space.
C48	proved	Whole components of any size exactly (OverflowError beyond the timedelta range); fractional components through the model of binary64 and of timedelta(float, ...): exact for whole microseconds below 2^50, within a microsecond below 2^50, and a relative bound without limit; every other text TimedeltaSyntaxError (a trailing newline is tolerated).
C54	proved	floor/ceiling/to_str exact, $parse_float(x.to_str) = x; to_int refuted for integers beyond float range; to_flt through the model of binary64 rounding and shortest repr: exact below 2^52, refuted for 18 digits; numerals with leading zeros leak SyntaxError.
C22	proved	+, -, *, / on finite numbers give the exact result correctly rounded in every rounding mode (ROUND_05UP: nearest neighbours only), exactly when it is representable; half-ulp bound; // and % truncate exactly; a witness shows the identity evaluated inside the engine can fail when the product rounds. ** is an oracle
C37	proved	Specification by leftmost occurrence (splits) and by maximal white-space-free runs (words); join inverse and piece bounds proved from it
C38	partial	One, two and three argument forms for integers the engine accepts (finite float range) with non-zero stop and step; a zero stop is treated as missing and a zero step as 1 (C38_zero_stop, C38_zero_step, C38_zero_refuted)
C39	proved	$any/$all over every array; $max/$min/$sum over every array of numbers with $sum correctly rounded after each addition; $map/$filter call once per member in order; errors surface as FunctionCallError
C45	partial	All words and option lists: totality, None exactly when no option matches the symbol pattern, first option of least distance, an exact match wins. Missing: the pattern lets a trailing newline through (C45_newline_refuted), and below similarity 1/2 the rounding of 1 - similarity can hide differences
C46	proved	For every rounding faithful to 53 bits (IEEE-754 float arithmetic; trunc53 is a proved instance), texts up to 2^48 characters for the bounds; totality for all texts and roundings
C08	proved	Interleaving machine over the programs of the model, any number of threads and any schedule; callbacks may keep per-thread state but not carry information between threads. Operation-level atomicity (each step touches only own-thread data, or context.symbols)
C09	proved	Mutex machine of ParserBase.parse with the context field and node stack shared; failures at any action; also exclusion and progress
C49	partial	All bodies without backslash; all documented escapes (spells), malformed ones (StringSyntaxError), and a covering theorem for ASCII escapes other than character names. Missing: character names are an oracle; a backslash before a non-ASCII or control character is decoded wrongly (C49_non_ascii_escape_refuted)
C50	proved	The LALR tables of parsetab.py (regenerated from the file by tools/gen_grammar.py) driven by a model of ply machine incl. defaulted states; acceptance iff a derivation grouped as the precedence table says; total, terminating, unambiguous; grammar actions modelled (parse_tokens)
C51	partial	All pairs of binary operators, unary minus, not, ternary and not in, with arbitrary operand expressions. The documented claim fails for not in: it chains with comparisons and groups differently from in (C51_not_in_refuted)
C52	proved	Token level. C52_expression_trees shows the trees considered (writable) are exactly those the parser can return, and C52_round_trip that each parses back from its fully parenthesised spelling; an empty set literal has no syntax (C52_no_empty_set)
C13	partial	For every rule built without a default_value whose callbacks return supported Python values, whose comprehension variables are not named like builtin attributes and whose called functions have a return type that does not constrain members (or are the builtins range and split): the returned value fits the inferred result type recursively, and its engine type is compatible with it. Refuted without each of these assumptions (C13_default_value_refuted, C13_members_refuted, C13_shadowing_refuted).
C12	partial	Proved for every expression in `foldable` (no .to_set, no c&[i] on a container statically known to be a mapping, callees that are names/attribute paths/methods of literals, ternary conditions that are not set or mapping displays), every thing, world and state, when construction itself makes no callbacks, and given that rebuilding a set from its iteration order keeps that order. Outside these limits the claim is false: four _refuted examples.
C58	proved	Specification relations takes / may_contain / may_have / may_index / may_slice / may_iterate; accepted and rejected directions for every operator and construct, and the symbol-level corollary. C58_bytes_equality_refuted records that == refuses BYTES operands.
C43	partial	The property as stated is false of the code (C43_*_refuted give rules raising TypeError, OverflowError, decimal errors, SyntaxError). Proved instead, for every rule as the grammar builds it: each exception is an EngineError, or was raised by the resolver, or comes from an operation in an explicit table (leaks), given by operator and static operand types; every row attained by a witness. At construction (C43_construction, C43_text): an EngineError, or raised by a resolver, or the OverflowError of a duration literal, or a row of the table for an operation on literals, or the TypeError of a member access named like a comprehension variable; C43_construction_refuted has a text for each. Missing: contexts with a default value, comprehension variables named like attributes, functions declared to return containers with a member type; regex and codec errors are those of the modelled oracles.
C59	proved	The lexer's outcome is exactly the specification relation `reads` (LexSpec.v), which is deterministic; errors are exactly the texts with no reading; lossless.
C60	proved	For every readable text and every white space class that contains space, tab and newline. C60_comment_refuted: a comment followed by more lines is refused (comments cannot be used inside multi-line rules).
C61	proved	Lexer, LALR parser and grammar actions together: round trip for all trees, and characterisation of the image of the parser (writable and textual).
C62	proved	from_type on classes, generic aliases and Annotated; from_name, DataType[name]. C62_symbol_refuted: without the restriction symbols hinted list[int] reject [], list[list[int]] rejects [[]] (finding 34).
C63	proved	For every world (clock, random source satisfying random_lawful). $random(0) behaves as $random(): C63_random_zero_refuted (finding 35).
C64	proved	One thread, any number of Contexts; clock and random source do not evaluate rules. Entering the Context that is being evaluated is excluded and does interfere: C64_same_context_refuted (finding 15), C64_construction_scope_refuted, C64_construction_precision_refuted (finding 36).
C65	proved	For every value the evaluator works with (settled, see C13). NaN keys are excluded from m[k] (C65_nan_key_refuted); the TypeError is no EngineError (C65_unhashable_refuted, finding of C43).
C66	proved	For the codec names listed in P_Codec.codec_names; every other name is left to the oracle. Texts are lists of code points below 0x110000 (surrogates included).
C67	proved	From the text of the rule to the value of evaluate. The ISO-8601 reading of datetimes is dateutil's (an oracle); durations with fractional components are left to C48.
C68	proved	Binary64 rounding and shortest repr are modelled (Flt.v) and the exactness is proved from the model of both; a naive datetime (never the result of an evaluation, C24) uses the system zone and stays an oracle.
C69	proved	Model Context.v. Example data: scalars, arrays, sets, ranges and mappings with text keys, nested without bound; C69_key_clash_refuted shows a mapping with the keys 0.1 and Decimal('0.1') is refused by the context made from it (finding 37). C69_decimal_alias_refuted: the default decimal context is a live reference, later changes by the creating thread change results (finding 38). Time zone texts that are not ASCII depend on Unicode case mapping.
C70	proved	ASCII is modelled concretely; str.lower/upper of other text is an oracle.
C71	proved	For every accepted deferred tree, every state and world with the default resolver and the default builtins. The three exceptions are shown to occur (C71_*_refuted), the $re_groups one exactly characterised (C71_re_groups).
C72	proved	The generator as a big-step relation with an arbitrary thread state between the calls. C72_lazy, C72_decimal_context and C72_drain hold for arbitrary callbacks, the rest for callbacks without memory.
C73	proved	Values are constants, functions, nested mappings, the generators of the defaults and generators written by the user (C73_generator; C73_generator_once_refuted: each access calls it twice). Generators inside namespaces are not modelled. C73_override_type_refuted, C73_re_groups_lost and C73_default_timezone_refuted record three surprises.
C74	proved	The specification (nearest_double, shortest_for at the head of FltNear.v) quantifies over all doubles and all decimals and determines the result uniquely (C74_specification_unique).
C75	proved	C75_only_named_symbols: general two-thing, two-resolver statement. C75_unnamed_items, C75_other_item: the default resolver. C75_attribute_resolver, C75_objects_like_dictionaries: resolve_attribute, modelled with Python's getattr and dir as parameters. C75_members_exposed: Python attributes of member values are reachable through resolve_attribute. C75_read_twice_refuted: the attribute is read twice, so an attribute that disappears in between raises a native AttributeError.
C76	proved	C76_equivalent_rules: congruence closure of 20 laws, about expressions as evaluated (C12 relates a rule's text to them; where folding is exact, so are these laws for texts). The callee of a call may only be replaced by one with the same inferred type. C76_distributive_refuted: distributivity changes the callbacks. C76_example: a De Morgan rewriting inside a comprehension's condition. C76_constructed_rules lifts the laws to rules constructed from texts, wherever C12's folding is exact.
C77	proved	C77_symbol, C77_builtin, C77_attribute, C77_construct_symbol, C77_construct_attribute. The oracle o_suggest is assumed to be suggest_symbol of Suggest.v with some rounding of floats (C45 says what that computes, C46 what the similarity is); c77_orc in the example meets the assumption. Keys that are not text make suggest_symbol raise TypeError (finding recorded under C43), hence text_keys. The builtin attributes do not count for an object whose members have no common type.
C78	proved	C78_asked_once_per_mention (evaluate and matches), C78_filter, C78_not_mentioned, C78_own_variable. mentions/repeated count the occurrences in the parse tree. C78_comprehension_refuted shows the side condition is needed: [n for x in xs] mentions n once and asks for every element. C78_example: the bound is reached (nothing is cached).
C79	proved	C79_same_text_same_rule (two arbitrary thread states with the same decimal context and scopes), C79_history_irrelevant. A statement about evaluations is C07. Unlike evaluation, construction does use the thread's own decimal context (that is why it is assumed equal; see the findings).
C80	proved	C80_one_answer_per_line, C80_lines_independent (against the separate relation prints), C80_hint, C80_directive. The printed text itself, the regular expression and function details of an error, argument parsing and the edit console are not modelled; exceptions that are not Exception subclasses (KeyboardInterrupt, SystemExit from a callback) end the loop and are outside the model.
C81	proved	C81_members (value and errors from the members' own outcomes), C81_order_irrelevant (any permutation), C81_type. The restriction on =~ is needed: C81_match_refuted has a two-member set whose value depends on the order, so that the same rule on the same thing can answer differently in two runs.
C82	proved	C82_evaluation (which syntax error, and that the rule has a computed pattern), C82_literal_patterns and C82_text (none if all patterns are literals), C82_bad_pattern_refused (construction checks every literal pattern of the text). C82_example has the exception happening.
C83	proved	C83_accepted (construction succeeds with the type), C83_never_fails (evaluation gives a value of the type, matching its truth), C83_filter. The fragment is the inductive predicate typed; C83_example is a member that uses most of it. C83_nan_refuted, C83_arithmetic_refuted, C83_bytes_refuted show why NaN, null, arithmetic and == on bytes are left out.
C84	proved	C84_tree (shape), C84_shows (what is read from the statement is the picture of the expression, and only that), C84_faithful and C84_same_rule (what the picture determines). C84_hidden_refuted shows that the exceptions are real; C84_comment_refuted that the comment is not attached.
C85	proved	C85_safe_item_refuted and C85_acceptance_refuted show the two exceptions stated in the property; calls: the type of what is called must be forgotten with the declarations or not depend on them
C86	proved	C86_capture_refuted and C86_attribute_refuted show that both conditions are needed; the object's resolver answers for the names the rule asks for, and a renamed variable is never asked for
C87	proved	about the expressions that are evaluated; constructing the rule from a text with the literals may additionally fold them (C12). C87_variable_refuted and C87_pattern_refuted show that the conditions on comprehensions and patterns are needed
C88	proved	C34 states what happens at a single symbol or attribute; this is the whole rule. C88_stateless: such a resolver exists for every stateless one. C88_builtin_refuted: the condition on builtins is needed
