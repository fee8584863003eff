{"id": "C01", "title": "Type compatibility means 'can describe a common type'", "statement": "DataType.is_compatible(a, b) is true exactly when the two definitions can be refined to one common shape by filling in UNDEFINED positions (return, argument, member, key and value types), ignoring nullability. Consequently it is reflexive and symmetric, UNDEFINED is compatible with everything, and it is not transitive.", "quantifier": "all pairs of data type definitions of any nesting depth, including function types", "why_tests_cant": "the type algebra is infinite and recursively nested", "anchors": ["lib/rule_engine/types.py:DataType.is_compatible"]}
{"id": "C02", "title": "Data type equality is an equivalence that agrees with hashing and implies compatibility", "statement": "For data type definitions, == is reflexive, symmetric and transitive; equal definitions have equal hashes, so they are interchangeable in sets and as mapping keys; equal definitions are compatible; != is its negation. A function type's name does not influence equality.", "quantifier": "all data type definitions", "why_tests_cant": "infinite nested type algebra", "anchors": ["lib/rule_engine/types.py:_DataTypeDef.__eq__", "lib/rule_engine/types.py:_CollectionDataTypeDef.__eq__", "lib/rule_engine/types.py:_MappingDataTypeDef.__eq__", "lib/rule_engine/types.py:_FunctionDataTypeDef.__eq__", "lib/rule_engine/types.py:_DataTypeDef.__hash__"]}
{"id": "C03", "title": "DataType.from_value classifies every supported value and never returns UNDEFINED", "statement": "from_value succeeds on every value that is built from the supported Python types and raises TypeError exactly on the others. The answer is never UNDEFINED at top level. For arrays, sets and mappings the member (key, value) type is T iff at least one non-null member exists and every non-null member has type T; otherwise it is UNDEFINED; NULL members never influence it.", "quantifier": "all native Python values of any nesting", "why_tests_cant": "values nest without bound and member combinations are unbounded", "anchors": ["lib/rule_engine/types.py:DataType.from_value", "lib/rule_engine/types.py:iterable_member_value_type"]}
{"id": "C04", "title": "coerce_value normalises and is idempotent", "statement": "A successful coerce_value(v) contains, outside of set members, no native int, float, date, list or range: numbers are Decimal, sequences are tuples, dates are midnight datetimes. Coercing the result again returns it unchanged, with and without type verification. With verification it raises TypeError exactly when the value (after conversion) has no data type.", "quantifier": "all native Python values", "why_tests_cant": "unbounded nesting of containers", "anchors": ["lib/rule_engine/types.py:coerce_value", "lib/rule_engine/types.py:_to_decimal"]}
{"id": "C05", "title": "coerce_value preserves the data", "statement": "Coercion keeps what the caller passed: an int becomes the Decimal of exactly the same number, sequences keep their length and order, bool is not turned into a number, mapping keys keep first-insertion order, and keys that become equal after coercion collapse onto the first key with the last value. The data type of a value is unchanged by coercion.", "quantifier": "all native Python values", "why_tests_cant": "unbounded nesting and numeric range", "anchors": ["lib/rule_engine/types.py:coerce_value", "lib/rule_engine/types.py:DataType.from_value"]}
{"id": "C06", "title": "Evaluation always restores the assignment scopes", "statement": "After Rule construction or evaluation, whether it returned or raised, the thread's assignment scope stack is exactly what it was before the expression started, so a comprehension variable can never leak into a later evaluation.", "quantifier": "all expressions, contexts, resolvers (including failing ones) and inputs, at every failure point", "why_tests_cant": "failures can occur at any sub-expression of any comprehension nesting", "anchors": ["lib/rule_engine/engine.py:Context.assignments", "lib/rule_engine/ast.py:ComprehensionExpression.evaluate", "lib/rule_engine/ast.py:ComprehensionExpression.build"]}
{"id": "C07", "title": "Rule.evaluate does not depend on evaluation history", "statement": "The outcome of rule.evaluate(thing) depends only on the rule, the context settings and what resolvers return: any earlier evaluation (of any rule, successful or not) on the same context and thread has no influence. In particular $re_groups is null until a regex in this evaluation matched.", "quantifier": "all rules, all prior thread-local states", "why_tests_cant": "histories are unbounded", "anchors": ["lib/rule_engine/engine.py:Rule.evaluate", "lib/rule_engine/engine.py:_ThreadLocalStorage.reset"]}
{"id": "C08", "title": "Threads sharing a context do not influence each other", "statement": "When any number of threads evaluate rules using one shared Context, under every interleaving of their steps each thread obtains the result it would obtain running alone (regex groups and comprehension variables are never mixed up).", "quantifier": "all sets of threads, rules, inputs and all interleavings", "why_tests_cant": "schedules cannot be enumerated by tests", "anchors": ["lib/rule_engine/engine.py:_ThreadLocalStorage", "lib/rule_engine/engine.py:Context._tls", "lib/rule_engine/engine.py:Rule.evaluate"]}
{"id": "C09", "title": "Concurrent parsing binds every node to its own context", "statement": "When any number of threads construct rules at the same time with one shared parser object, every node of each resulting rule refers to the context that was passed to that construction, also when other constructions fail in the middle of parsing.", "quantifier": "all schedules of any number of concurrent parse calls, with failures at any token", "why_tests_cant": "schedules and crash points cannot be enumerated by tests", "anchors": ["lib/rule_engine/parser/base.py:ParserBase.parse", "lib/rule_engine/parser/__init__.py:_DeferredAstNode"]}
{"id": "C10", "title": "context.symbols contains every symbol a rule can ask for", "statement": "After constructing a rule, context.symbols contains the name of every symbol (free, comprehension-bound or builtin) occurring in the rule, keeps all earlier names, and contains nothing else. Evaluation only asks the resolver for names that are in context.symbols or that follow an attribute operator in the rule.", "quantifier": "all rule expressions and resolvers", "why_tests_cant": "all expression shapes", "anchors": ["lib/rule_engine/ast.py:SymbolExpression.__init__", "lib/rule_engine/engine.py:Context.symbols"]}
{"id": "C11", "title": "A type map rejects unknown symbols at construction", "statement": "With a type_resolver built from a dictionary, constructing a rule that uses a name which is neither in the dictionary nor bound by an enclosing comprehension raises an error; if construction succeeds every free symbol is in the dictionary.", "quantifier": "all rule expressions and all dictionaries", "why_tests_cant": "all expression shapes", "anchors": ["lib/rule_engine/engine.py:type_resolver_from_dict", "lib/rule_engine/engine.py:_type_resolver", "lib/rule_engine/ast.py:SymbolExpression.__init__"]}
{"id": "C12", "title": "Constant folding does not change results", "statement": "If rule construction succeeds, the simplified (constant folded) rule evaluates, on every thing, to the same value or error as the expression as written, given the same decimal context at construction and evaluation and no use of $re_groups.", "quantifier": "all expressions, contexts and things", "why_tests_cant": "all expression shapes and inputs", "anchors": ["lib/rule_engine/ast.py:ASTNodeBase.build", "lib/rule_engine/ast.py:LeftOperatorRightExpressionBase.reduce", "lib/rule_engine/ast.py:GetItemExpression.reduce", "lib/rule_engine/ast.py:TernaryExpression.reduce", "lib/rule_engine/ast.py:UnaryExpression.reduce"]}
{"id": "C13", "title": "Inferred result types are sound", "statement": "When evaluation of a constructed rule returns a value, the value is null or its data type is compatible with the result_type inferred at construction.", "quantifier": "all constructed expressions, contexts, resolvers and things", "why_tests_cant": "all expression shapes and inputs", "anchors": ["lib/rule_engine/ast.py:ExpressionBase.result_type"]}
{"id": "C14", "title": "Typed symbols only deliver values of their type", "statement": "A symbol with a declared type evaluates to null or to a value whose data type is compatible with the declared one (with equal member type for compound types and no null member when declared non-nullable); every other value raises SymbolTypeError. Values that satisfy the declaration are delivered.", "quantifier": "all declared types and all values a resolver may return", "why_tests_cant": "types and values nest without bound", "anchors": ["lib/rule_engine/ast.py:SymbolExpression.evaluate"]}
{"id": "C15", "title": "and / or / not are boolean and short-circuit", "statement": "and, or and not always produce true or false from operand truthiness; the right operand is evaluated iff the left one does not decide the result, so an error in the skipped operand never surfaces; De Morgan's laws hold.", "quantifier": "all operand expressions", "why_tests_cant": "all expression pairs and failure modes", "anchors": ["lib/rule_engine/ast.py:LogicExpression", "lib/rule_engine/ast.py:UnaryExpression"]}
{"id": "C16", "title": "The ternary operator evaluates only the selected branch", "statement": "cond ? a : b evaluates cond exactly once and then exactly one branch; its result and all its effects are those of cond followed by that branch; the other branch never runs.", "quantifier": "all conditions and branches", "why_tests_cant": "all expressions", "anchors": ["lib/rule_engine/ast.py:TernaryExpression.evaluate"]}
{"id": "C17", "title": "== and != are complementary and never raise a type mismatch", "statement": "For evaluated operands of supported types, a != b is exactly not (a == b); neither raises on differing types; values of different data types are unequal; == is symmetric, and reflexive on values that contain no NaN.", "quantifier": "all pairs of values", "why_tests_cant": "values nest without bound", "anchors": ["lib/rule_engine/ast.py:ComparisonExpression"]}
{"id": "C18", "title": "Ordering operators are mutually consistent", "statement": "For two comparable values: a > b iff b < a, a >= b iff b <= a, exactly one of a < b, a = b, a > b holds for NaN-free values, and a <= b iff a < b or a = b. Values of different types raise EvaluationError. Null compares <= and >= with null only.", "quantifier": "all pairs of values including arbitrarily nested arrays", "why_tests_cant": "values nest without bound", "anchors": ["lib/rule_engine/ast.py:ArithmeticComparisonExpression"]}
{"id": "C19", "title": "Array ordering is lexicographic and ordering is transitive", "statement": "Arrays are ordered lexicographically with a proper prefix being smaller; < and <= are transitive on NaN-free values of the same type (numbers, strings, booleans, datetimes, timedeltas and nested arrays of these).", "quantifier": "all triples of values", "why_tests_cant": "arrays have unbounded length and nesting", "anchors": ["lib/rule_engine/ast.py:ArithmeticComparisonExpression.__op_arithmetic_arrays"]}
{"id": "C20", "title": "Regex operators treat null consistently and come in complementary pairs", "statement": "=~ and =~~ with a null operand are true iff both operands are null; !~ and !~~ give exactly the negated outcome of =~ and =~~ on the same operands; non-string operands raise EvaluationError and an invalid pattern raises RegexSyntaxError. Only a successful match updates $re_groups.", "quantifier": "all operand values and every regex engine behaviour", "why_tests_cant": "strings and patterns are unbounded", "anchors": ["lib/rule_engine/ast.py:FuzzyComparisonExpression"]}
{"id": "C21", "title": "Arithmetic accepts numbers only and maps arithmetic faults to EvaluationError", "statement": "*, /, //, % and ** return a number or raise; a non-numeric operand (including booleans) always raises EvaluationError; division or modulo of a finite number by zero raises EvaluationError (inf / 0 is inf, as in the decimal arithmetic specification); no other exception escapes. The right operand is not evaluated if the left one is not numeric.", "quantifier": "all operand values and decimal contexts", "why_tests_cant": "all values and numeric ranges", "anchors": ["lib/rule_engine/ast.py:ArithmeticExpression"]}
{"id": "C22", "title": "Decimal arithmetic is exact whenever the result fits the precision", "statement": "+, - and * on finite numbers return the mathematically exact result if it has at most 'precision' significant digits and an exponent in range, and otherwise the correctly rounded one (error at most half a unit in the last place under half-even). Hence 0.1 + 0.1 + 0.1 - 0.3 is exactly 0. / is correctly rounded; when // succeeds, a // b is the exact quotient truncated and a equals (a // b) * b + a % b as exact numbers (re-evaluated inside the engine the product may round).", "quantifier": "all finite operands and precisions", "why_tests_cant": "infinite numeric domain", "anchors": ["lib/rule_engine/ast.py:AddExpression._op_add", "lib/rule_engine/ast.py:SubtractExpression._op_sub", "lib/rule_engine/ast.py:ArithmeticExpression"]}
{"id": "C23", "title": "Datetime and timedelta arithmetic obeys calendar-free laws", "statement": "(d + t) - t = d, (d + t) - d = t, d1 - d2 = -(d2 - d1), t1 + t2 = t2 + t1, t + d = d + t whenever no overflow occurs; adding or subtracting mismatched kinds raises EvaluationError; the time zone of the datetime operand is kept.", "quantifier": "all datetimes, timedeltas and time zones", "why_tests_cant": "infinite domain", "anchors": ["lib/rule_engine/ast.py:AddExpression", "lib/rule_engine/ast.py:SubtractExpression"]}
{"id": "C24", "title": "Every datetime a rule reads is timezone aware", "statement": "A naive datetime (or date) obtained from a symbol, attribute, item or function result carries the context's default timezone afterwards; aware datetimes are untouched. So comparing or subtracting two such values never fails because of a missing time zone.", "quantifier": "all values returned by resolvers and functions", "why_tests_cant": "unbounded inputs", "anchors": ["lib/rule_engine/ast.py:ExpressionBase._new_value", "lib/rule_engine/ast.py:SymbolExpression.evaluate", "lib/rule_engine/ast.py:GetItemExpression.evaluate"]}
{"id": "C25", "title": "Bitwise operators work on natural numbers and sets only", "statement": "On natural numbers (up to the largest double, about 1.8e308) &, |, ^, <<, >> agree bit by bit with the two's complement operations and give natural numbers; any negative, fractional, larger, infinite or NaN operand raises EvaluationError. On sets &, |, ^ are intersection, union and symmetric difference. Mixing kinds raises EvaluationError.", "quantifier": "all naturals of any magnitude, all sets, all other values", "why_tests_cant": "unbounded integers and sets", "anchors": ["lib/rule_engine/ast.py:BitwiseExpression", "lib/rule_engine/ast.py:BitwiseShiftExpression", "lib/rule_engine/types.py:is_natural_number"]}
{"id": "C26", "title": "in tests membership by value", "statement": "m in c is true iff some member (array, set), key (mapping) or contiguous run (string, bytes) of c equals m; a non-string tested in a string raises EvaluationError; not in is its negation (members tested in sets and mappings must be hashable).", "quantifier": "all containers and members", "why_tests_cant": "unbounded containers", "anchors": ["lib/rule_engine/ast.py:ContainsExpression"]}
{"id": "C27", "title": "Item access returns the addressed element", "statement": "For arrays, strings and bytes of length n, c[i] with integer -n <= i < n is the element at i (counted from the end when negative) and any other integer raises LookupError; non-integers raise EvaluationError. m[k] is the value stored under a key equal to k, or LookupError.", "quantifier": "all containers, indices and keys", "why_tests_cant": "unbounded containers", "anchors": ["lib/rule_engine/ast.py:GetItemExpression.evaluate"]}
{"id": "C28", "title": "Slices select the clamped contiguous range", "statement": "c[a:b] is the run of elements at positions max(0, a') to min(n, b') where negative bounds count from the end and missing bounds default to the ends; it never raises for integer or null bounds; c[:k] followed by c[k:] is c.", "quantifier": "all arrays, strings, bytes and all integer bounds", "why_tests_cant": "unbounded containers and bounds", "anchors": ["lib/rule_engine/ast.py:GetSliceExpression.evaluate"]}
{"id": "C29", "title": "Safe navigation yields null instead of failing", "statement": "x&.name, x&[k] and x&[a:b] are null whenever x is null, without evaluating the key; x&[k] is null for a missing key or out-of-range index and equals x[k] otherwise; a safe item access never raises LookupError of its own.", "quantifier": "all containers, keys and expressions", "why_tests_cant": "unbounded inputs", "anchors": ["lib/rule_engine/ast.py:GetItemExpression", "lib/rule_engine/ast.py:GetAttributeExpression", "lib/rule_engine/ast.py:GetSliceExpression"]}
{"id": "C30", "title": "Comprehensions are filter-then-map in iteration order", "statement": "[r for v in it if c] evaluates it once, then for each element in order evaluates c and, if truthy, r, each with v bound to the element; the result is the array of r values in order; the first failure is the outcome; a non-iterable raises EvaluationError.", "quantifier": "all iterables, conditions and results", "why_tests_cant": "unbounded lengths and expressions", "anchors": ["lib/rule_engine/ast.py:ComprehensionExpression.evaluate"]}
{"id": "C31", "title": "Comprehension variables are lexically scoped", "statement": "Within a comprehension the variable denotes the current element of the innermost enclosing comprehension that binds this name, whatever the thing contains under that name, and attribute access obj.name is unaffected by it.", "quantifier": "all nestings of comprehensions", "why_tests_cant": "nesting is unbounded", "anchors": ["lib/rule_engine/engine.py:Context.resolve", "lib/rule_engine/engine.py:Context.resolve_type"]}
{"id": "C32", "title": "Mapping literals keep first position and last value for duplicate keys", "statement": "A mapping literal evaluates every key once in order; for equal keys one entry remains, at the position of the first, holding the value of the last, and only that value expression is evaluated. Keys of type set or mapping raise EngineError.", "quantifier": "all mapping literals", "why_tests_cant": "unbounded entries and duplicate patterns", "anchors": ["lib/rule_engine/ast.py:MappingExpression.evaluate"]}
{"id": "C33", "title": "Function calls are validated before the function runs", "statement": "A call through a typed function runs the function only if the number of arguments is between the minimum and the number of declared argument types and each argument's data type is compatible with its declaration; otherwise FunctionCallError. Any exception of the function is reported as FunctionCallError and a result incompatible with the declared return type is never delivered.", "quantifier": "all function types, argument lists and function behaviours", "why_tests_cant": "unbounded arity and behaviours", "anchors": ["lib/rule_engine/ast.py:FunctionCallExpression"]}
{"id": "C34", "title": "default_value replaces exactly the unresolvable names", "statement": "With a default_value, a symbol or attribute that cannot be resolved evaluates to the default (coerced) instead of raising, a resolvable one is unaffected, and without a default the resolution error is raised.", "quantifier": "all names, things and resolvers", "why_tests_cant": "unbounded inputs", "anchors": ["lib/rule_engine/ast.py:SymbolExpression.evaluate", "lib/rule_engine/ast.py:GetAttributeExpression.evaluate"]}
{"id": "C35", "title": "Attribute lookup prefers builtin attributes, then members", "statement": "obj.name yields the documented attribute of obj's data type if there is one, else the member the resolver finds on obj, else the default value, else AttributeResolutionError; mapping keys that coincide with an attribute name are shadowed by the attribute.", "quantifier": "all objects and names", "why_tests_cant": "unbounded inputs", "anchors": ["lib/rule_engine/ast.py:GetAttributeExpression.evaluate", "lib/rule_engine/engine.py:_AttributeResolver"]}
{"id": "C36", "title": "starts_with / ends_with / length / is_empty agree with the sequence", "statement": "s.starts_with(p) iff s = p + rest for some rest; s.ends_with(p) iff s = rest + p; length is the number of elements and is_empty iff length is 0, for arrays, strings and bytes (length/is_empty also for sets and mappings).", "quantifier": "all sequences", "why_tests_cant": "unbounded sequences", "anchors": ["lib/rule_engine/engine.py:_AttributeResolver._value_ends_with", "lib/rule_engine/engine.py:_AttributeResolver._value_starts_with", "lib/rule_engine/engine.py:_AttributeResolver.value_length"]}
{"id": "C37", "title": "$split and join are inverse and maxsplit bounds the pieces", "statement": "Joining $split(s, sep) with sep gives back s; no piece of an unlimited split contains sep; $split(s, sep, n) returns at most n+1 pieces; without sep, pieces are the maximal runs of non-whitespace.", "quantifier": "all strings, separators and limits", "why_tests_cant": "unbounded strings", "anchors": ["lib/rule_engine/builtins.py:_builtins_split"]}
{"id": "C38", "title": "$range enumerates the arithmetic progression", "statement": "$range(stop), $range(start, stop) and $range(start, stop, step) contain exactly the integers start + k*step strictly before stop in order; non-integers and a zero step raise FunctionCallError.", "quantifier": "all integer triples", "why_tests_cant": "unbounded integers", "anchors": ["lib/rule_engine/builtins.py:_builtin_range"]}
{"id": "C39", "title": "Aggregate builtins agree with their definition", "statement": "$any / $all are existential / universal truthiness; $min and $max return a member that bounds all members; $sum of an array is the decimal sum; $map and $filter apply the function to every element in order and keep the order; an error in any call surfaces as FunctionCallError.", "quantifier": "all arrays and functions", "why_tests_cant": "unbounded arrays", "anchors": ["lib/rule_engine/builtins.py:Builtins.from_defaults", "lib/rule_engine/builtins.py:_builtin_map", "lib/rule_engine/builtins.py:_builtin_filter"]}
{"id": "C40", "title": "Builtin symbols cannot be shadowed", "statement": "A $name symbol is always resolved from the context's builtins: neither the thing, the resolver, the default type resolver nor a comprehension variable with the same name changes its value; conversely name without $ never resolves to a builtin.", "quantifier": "all names, things, resolvers, scopes", "why_tests_cant": "unbounded inputs", "anchors": ["lib/rule_engine/engine.py:Context.resolve", "lib/rule_engine/engine.py:Context.resolve_type", "lib/rule_engine/builtins.py:Builtins"]}
{"id": "C41", "title": "filter and matches agree with evaluate", "statement": "rule.matches(x) is the truth value of rule.evaluate(x) and raises iff it raises; rule.filter(xs) yields exactly the matching members of xs, in order and with multiplicity, lazily up to the first failing member.", "quantifier": "all rules and sequences of things", "why_tests_cant": "unbounded sequences", "anchors": ["lib/rule_engine/engine.py:Rule.matches", "lib/rule_engine/engine.py:Rule.filter"]}
{"id": "C42", "title": "is_valid agrees with construction", "statement": "Rule.is_valid(text, context) returns true iff Rule(text, context) constructs, false iff it raises an EngineError, and raises only what construction would raise otherwise.", "quantifier": "all expression texts and contexts", "why_tests_cant": "unbounded texts", "anchors": ["lib/rule_engine/engine.py:Rule.is_valid"]}
{"id": "C43", "title": "Evaluation raises only EngineError", "statement": "Evaluating a constructed rule whose resolver and functions behave (raise only engine errors / return supported values) either returns a supported value or raises an EngineError, never a raw Python exception.", "quantifier": "all constructed rules, things", "why_tests_cant": "all expression shapes and inputs", "anchors": ["lib/rule_engine/errors.py:EngineError", "lib/rule_engine/ast.py:ExpressionBase"]}
{"id": "C44", "title": "Evaluation uses the context's decimal settings", "statement": "The numeric outcome of rule.evaluate is determined by the decimal_context stored in the Context at creation, whatever the decimal context of the calling thread is, and leaves the thread's decimal context as it was.", "quantifier": "all rules, thread decimal contexts", "why_tests_cant": "unbounded settings and expressions", "anchors": ["lib/rule_engine/engine.py:Rule.evaluate", "lib/rule_engine/engine.py:Context.__init__"]}
{"id": "C45", "title": "suggest_symbol returns the best valid option", "statement": "suggest_symbol(word, options) returns None iff no option is a valid symbol name; otherwise it returns one of the valid options with maximal similarity to word, the first such in order, and word itself if it is among the options.", "quantifier": "all words and option lists", "why_tests_cant": "unbounded strings and lists", "anchors": ["lib/rule_engine/suggestions.py:suggest_symbol", "lib/rule_engine/suggestions.py:_suggest"]}
{"id": "C46", "title": "The similarity measure is total and bounded", "statement": "The similarity used for suggestions never fails on any pair of strings, always lies between 0 and 1, is 1 exactly for equal strings, and a common prefix never lowers it.", "quantifier": "all pairs of strings", "why_tests_cant": "unbounded strings and index arithmetic", "anchors": ["lib/rule_engine/suggestions.py:jaro_distance", "lib/rule_engine/suggestions.py:jaro_winkler_distance"]}
{"id": "C47", "title": "Float literals denote the number written", "statement": "parse_float of a decimal digit string (with optional fraction and exponent) is exactly the number it spells, of 0x/0o/0b literals the integer in that base; strings with superfluous leading zeros and malformed strings raise FloatSyntaxError.", "quantifier": "all literal strings", "why_tests_cant": "unbounded strings", "anchors": ["lib/rule_engine/parser/utilities.py:parse_float"]}
{"id": "C48", "title": "Timedelta literals denote the ISO-8601 duration written", "statement": "parse_timedelta of PnWnDTnHnMnS (each n a whole number or a decimal fraction) is the sum of its components, absent components counting zero and components being in order: exactly if all are whole (OverflowError beyond the range of timedelta) or if the sum is a whole number of microseconds below 2^50 (35 years), rounded to a neighbouring microsecond below 2^50, and in general up to the rounding of each component to a float; every other string raises TimedeltaSyntaxError.", "quantifier": "all strings", "why_tests_cant": "unbounded strings", "anchors": ["lib/rule_engine/parser/utilities.py:parse_timedelta", "lib/rule_engine/parser/utilities.py:timedelta_regex"]}
{"id": "C49", "title": "String literals without backslashes denote themselves", "statement": "The value of a string literal whose body has no backslash is the body, for every Unicode text; escape sequences are decoded as documented and a malformed escape raises StringSyntaxError.", "quantifier": "all literal bodies", "why_tests_cant": "unbounded Unicode strings", "anchors": ["lib/rule_engine/parser/__init__.py:Parser.p_expression_string"]}
{"id": "C50", "title": "The parser accepts only derivable token sequences and builds the derivation's tree", "statement": "If a token sequence parses, the produced tree is a derivation of exactly that sequence in the published grammar; every rejected sequence raises RuleSyntaxError; parsing always terminates.", "quantifier": "all token sequences", "why_tests_cant": "infinitely many sequences", "anchors": ["lib/rule_engine/parser/__init__.py:Parser", "lib/rule_engine/parser/parsetab.py"]}
{"id": "C51", "title": "Operator precedence and associativity are as documented", "statement": "For every pair of binary operators the tree built from a op1 b op2 c groups by the documented precedence table and associativity; comparison operators do not chain.", "quantifier": "all pairs of operators, with arbitrary operand expressions", "why_tests_cant": "operands are unbounded", "anchors": ["lib/rule_engine/parser/__init__.py:Parser.precedence", "lib/rule_engine/parser/parsetab.py"]}
{"id": "C52", "title": "Parenthesising makes any expression tree parse back", "statement": "Every expression tree has a fully parenthesised token sequence that parses, and parses to exactly that tree.", "quantifier": "all expression trees", "why_tests_cant": "unbounded trees", "anchors": ["lib/rule_engine/parser/__init__.py:Parser", "lib/rule_engine/parser/parsetab.py"]}
{"id": "C53", "title": "Datetime fields describe the datetime", "statement": "year, month, day, hour, minute, second and microsecond of a datetime are in their calendar ranges and together identify it; date is the same day at midnight; millisecond is microsecond/1000; weekday is the English name of the day of the week of that date; timedelta days, seconds, microseconds recombine to the duration.", "quantifier": "all datetimes and timedeltas in range", "why_tests_cant": "unbounded domain (3.2e17 values)", "anchors": ["lib/rule_engine/engine.py:_AttributeResolver.datetime_date", "lib/rule_engine/engine.py:_AttributeResolver.timedelta_days", "lib/rule_engine/engine.py:_AttributeResolver.datetime_weekday"]}
{"id": "C54", "title": "Number attributes are exact", "statement": "x.floor and x.ceiling are the nearest integers below and above, equal iff x is an integer; x.to_int is x for integers (below the float range) and EvaluationError for non-integers; x.to_str spells x exactly, and followed by to_flt gives back a number equal to x for non-negative x of up to 15 digits (coefficient below 2^52) and for every natural number, in general within a relative error of 2^-51; s.to_flt of a numeral is the number written, with the same bounds.", "quantifier": "all decimals including infinities and NaN", "why_tests_cant": "unbounded numeric domain", "anchors": ["lib/rule_engine/engine.py:_AttributeResolver.float_floor", "lib/rule_engine/engine.py:_AttributeResolver.float_ceiling", "lib/rule_engine/engine.py:_AttributeResolver.float_to_int", "lib/rule_engine/engine.py:_AttributeResolver.value_to_str", "lib/rule_engine/engine.py:_AttributeResolver.string_to_flt"]}
{"id": "C55", "title": "Literal expressions round-trip values", "statement": "LiteralExpressionBase.from_value(context, v).evaluate(thing) gives back v for every coerced supported value, for every thing, and its result type is v's data type.", "quantifier": "all supported values", "why_tests_cant": "values nest without bound", "anchors": ["lib/rule_engine/ast.py:LiteralExpressionBase.from_value", "lib/rule_engine/ast.py:_CollectionMixin.evaluate", "lib/rule_engine/ast.py:MappingExpression.evaluate"]}
{"id": "C56", "title": "Value equality agrees with set and mapping identity", "statement": "Equality of hashable values is reflexive (NaN-free), symmetric and transitive, so building a set or mapping keeps exactly one representative per equality class and membership does not depend on insertion order.", "quantifier": "all hashable values", "why_tests_cant": "values nest without bound", "anchors": ["lib/rule_engine/ast.py:SetExpression", "lib/rule_engine/ast.py:MappingExpression.evaluate", "lib/rule_engine/ast.py:ContainsExpression.evaluate"]}
{"id": "C57", "title": "Hex and base16 codecs are inverse", "statement": "b.decode('hex').encode('hex') = b for all bytes; s.encode('hex') raises FunctionCallError exactly for strings that are not an even number of hex digits; the encoding name is case-insensitive.", "quantifier": "all byte strings and strings", "why_tests_cant": "unbounded sequences", "anchors": ["lib/rule_engine/engine.py:_AttributeResolver._bytes_decode", "lib/rule_engine/engine.py:_AttributeResolver._string_encode"]}
{"id": "C58", "title": "Construction accepts exactly the operand types that can fit", "statement": "When a rule is constructed, every operator, membership test, attribute access, item access, slice and comprehension whose operand types are known is accepted exactly when the documented operand types allow it (an operand of unknown type is allowed wherever some type would be), and is otherwise refused at construction: EvaluationError for operand types, AttributeResolutionError for attributes the type does not have, LookupError for a mapping that cannot have the key; m&[k] with an impossible key is null; a literal that is not a natural number is refused as a bitwise operand and a literal that is not a regular expression as a pattern.", "quantifier": "all operators, all declared operand types (including nested member types), all operand expressions, all contexts", "why_tests_cant": "There are infinitely many declared types (ARRAY/SET/MAPPING/FUNCTION nest) and operand expressions; tests check sample combinations.", "anchors": ["lib/rule_engine/ast.py:LeftOperatorRightExpressionBase", "lib/rule_engine/ast.py:AddExpression", "lib/rule_engine/ast.py:BitwiseExpression", "lib/rule_engine/ast.py:ArithmeticComparisonExpression", "lib/rule_engine/ast.py:FuzzyComparisonExpression", "lib/rule_engine/ast.py:ContainsExpression", "lib/rule_engine/ast.py:GetAttributeExpression", "lib/rule_engine/ast.py:GetItemExpression", "lib/rule_engine/ast.py:GetSliceExpression", "lib/rule_engine/ast.py:ComprehensionExpression"]}
{"id": "C59", "title": "Reading the text of a rule into tokens", "statement": "Every text is either read into exactly one token sequence or refused with RuleSyntaxError; reading goes from left to right, skips blanks, and always takes the longest written form of a token that starts at the current place (the forms of operators, keywords, names, numbers, quoted texts, attribute dots, safe brackets and comments are given independently of the regular expressions); names reserved for future use (elif, else, while) are refused; nothing in the text is lost or invented: the text is the tokens' written forms and blanks in order. Hence parsing any text whatever gives an expression or a syntax error.", "quantifier": "all texts (any sequence of code points), any notion of white space", "why_tests_cant": "Texts are unbounded and the outcome depends on the order of the lexer's rules, backtracking and lookbehind.", "anchors": ["lib/rule_engine/parser/__init__.py:Parser (t_ rules, lines 100-250)", "lib/rule_engine/parser/base.py:ParserBase.parse"]}
{"id": "C60", "title": "Blanks separate, layout and comments do not matter", "statement": "If two texts are each readable and the first has no comment, the two texts separated by one or more blanks (space, tab, newline, any mixture) read as the tokens of the first followed by the tokens of the second; blanks around a text do not change its meaning; a comment at the end does not change the expression. A comment with further lines after it is refused.", "quantifier": "all readable texts, all blank sequences, all comment texts", "why_tests_cant": "All pairs of unbounded texts.", "anchors": ["lib/rule_engine/parser/__init__.py:Parser.t_ignore", "lib/rule_engine/parser/__init__.py:Parser.t_COMMENT", "lib/rule_engine/parser/__init__.py:Parser.t_newline"]}
{"id": "C61", "title": "Every expression has a text that parses back to it", "statement": "For every expression tree the language can express there is a text (every operand parenthesised, one space between tokens) that reads and parses back to exactly that tree; the trees that any text parses to are exactly these; rewriting a parsed text in this canonical way does not change its meaning; different trees have different canonical texts.", "quantifier": "all expression trees, all texts, any notion of white space in which a closing parenthesis is not white space", "why_tests_cant": "Unbounded trees and texts; lexing and parsing interact (dots, safe brackets, keywords, quotes).", "anchors": ["lib/rule_engine/parser/__init__.py:Parser", "lib/rule_engine/parser/base.py:ParserBase.parse", "lib/rule_engine/ast.py"]}
{"id": "C62", "title": "Data types from type hints and names", "statement": "The data type made from a Python class or type hint is compatible with the type of every value the hint describes; it is never UNDEFINED; a symbol typed this way accepts the values the hint describes (hints without member class, or with a scalar member class and a non-empty value). Every data type's name names a type it is compatible with, itself if scalar, and a name finds only the type of that name.", "quantifier": "all type hints of any nesting, all values they describe, all data types, all names", "why_tests_cant": "Hints and values nest without bound.", "anchors": ["lib/rule_engine/types.py:DataType.from_type", "lib/rule_engine/types.py:DataType.from_name", "lib/rule_engine/types.py:DataTypeMeta.__getitem__", "lib/rule_engine/ast.py:SymbolExpression.evaluate"]}
{"id": "C63", "title": "Clock, constants, $abs, $random and the parsing builtins", "statement": "$now is the reading of the clock in the context's time zone and $today the midnight beginning that day, both asked anew on every access (twice, the second reading counts); $abs is the absolute value rounded to the precision; $random(n) is an integer from 0 to n and $random() a number from 0 to below 1, anything else raises FunctionCallError without drawing; $parse_float, $parse_datetime and $parse_timedelta give what the literal of the same text gives, or FunctionCallError if it is no literal.", "quantifier": "all clock readings, time zones, numbers, precisions, texts and random sources", "why_tests_cant": "Unbounded numbers and texts, arbitrary clocks and random sources.", "anchors": ["lib/rule_engine/builtins.py:Builtins.from_defaults", "lib/rule_engine/builtins.py:_builtin_random", "lib/rule_engine/builtins.py:_builtin_parse_datetime"]}
{"id": "C64", "title": "Rules evaluated by the callbacks of rules do not interfere", "statement": "A resolver or function called by an evaluation may itself evaluate and construct rules on other Contexts, to any depth. The outer evaluation then has the outcome, and makes the callbacks, it has with callbacks that only give those answers; the inner evaluation has the outcome it has on a fresh thread; the loop variables, regular expression groups and decimal context of every evaluation under way are as before when the callback returns, and no loop variable remains visible. If callbacks use only Contexts of a later layer, no Context is entered twice and every evaluation ends with one determined outcome.", "quantifier": "all numbers of Contexts, rules, things, callbacks with memory, nesting depths and states of the thread", "why_tests_cant": "Unbounded nesting of arbitrary callbacks.", "anchors": ["lib/rule_engine/engine.py:Context._tls", "lib/rule_engine/engine.py:Rule.evaluate", "lib/rule_engine/engine.py:_ThreadLocalStorage.reset"]}
{"id": "C65", "title": "keys, values, to_ary and to_set", "statement": "m.keys and m.values are the keys and values of a mapping, position by position in the order of insertion, and m[k] for the i-th key is the i-th value; to_ary is the array of the characters, byte values, elements or members in order; to_set has exactly the elements, no two of them equal; elements that are not hashable raise TypeError.", "quantifier": "all mappings, strings, bytes, arrays and sets of any size and nesting", "why_tests_cant": "Unbounded collections.", "anchors": ["lib/rule_engine/engine.py:mapping_keys", "lib/rule_engine/engine.py:mapping_values", "lib/rule_engine/engine.py:value_to_ary", "lib/rule_engine/engine.py:value_to_set"]}
{"id": "C66", "title": "Text codecs: base64, UTF-8, ASCII and Latin-1", "statement": "s.encode(name) for a name of UTF-8, ASCII or Latin-1 gives exactly the bytes the codec's code table prescribes for the characters and fails exactly when some character has none; b.decode(name) is its inverse and fails exactly on bytes no text encodes to, so encode and decode round trip; b.decode('base64') is the RFC 4648 text of the bytes, s.encode('base64') gives back the bytes of every such text and ignores characters outside the alphabet.", "quantifier": "all strings and bytes of any length, all spellings of the codec names", "why_tests_cant": "Unbounded texts and the whole range of code points.", "anchors": ["lib/rule_engine/engine.py:_bytes_decode", "lib/rule_engine/engine.py:_string_encode"]}
{"id": "C67", "title": "A literal denotes its value", "statement": "A rule that consists of a single literal evaluates to the value written: bytes (escapes, octal and hexadecimal numbers), strings with either quote and with or without the prefix s, decimal, binary, octal and hexadecimal numbers, true, false, null, inf, nan, datetimes and durations; a malformed literal raises the syntax error of its kind when the rule is constructed.", "quantifier": "all literal texts, things and thread states", "why_tests_cant": "Infinitely many literals of every kind, from the text through lexer, parser, construction and evaluation.", "anchors": ["lib/rule_engine/parser/__init__.py:Parser.p_expression_bytes", "lib/rule_engine/parser/__init__.py:Parser.t_BYTES", "lib/rule_engine/parser/__init__.py:Parser.p_expression_string", "lib/rule_engine/parser/__init__.py:Parser.p_expression_float", "lib/rule_engine/parser/utilities.py:parse_float", "lib/rule_engine/parser/utilities.py:parse_timedelta"]}
{"id": "C68", "title": "Epoch seconds and total seconds are exact", "statement": "x.to_epoch of an aware datetime is the number of seconds from 1970-01-01T00:00Z to its instant, and d.total_seconds is the length of the duration in seconds: exactly (as printed decimals) below 2^52 microseconds (142 years), so that equal epochs mean the same instant and later instants have larger epochs whatever the zones; beyond that within a relative error of 2^-51.", "quantifier": "all aware datetimes and all timedeltas", "why_tests_cant": "unbounded domain, float rounding and shortest-digit printing", "anchors": ["lib/rule_engine/engine.py:_AttributeResolver.datetime_to_epoch", "lib/rule_engine/engine.py:_AttributeResolver.timedelta_total_seconds", "lib/rule_engine/types.py:coerce_value"]}
{"id": "C69", "title": "Constructing a Context", "statement": "Context(...) succeeds exactly if default_timezone is a tzinfo object or the text 'local' or 'utc' in any letter case and every value of a type_resolver dictionary is a data type definition or a value of a supported type; otherwise it raises ValueError (unknown zone text) or TypeError. The context then has the settings given, or the documented defaults; its time zone is the one of naive datetimes read, of datetime literals, of $now, $today and of $parse_datetime. Symbols of its rules have type UNDEFINED without a type resolver, the definition or the data type of the example value with a dictionary (unknown names, including all names of an empty dictionary, raise SymbolResolutionError), and what the callback says otherwise. A context made from a dictionary of example data accepts that data: every symbol evaluates on it to the example without a type error. Without decimal_context the evaluations use the creating thread's decimal context object.", "quantifier": "all combinations of arguments, all dictionaries of definitions and example data of any nesting, all symbol names, worlds and decimal context histories", "why_tests_cant": "unbounded texts, dictionaries and nested example values", "anchors": ["lib/rule_engine/engine.py:Context.__init__", "lib/rule_engine/engine.py:type_resolver_from_dict", "lib/rule_engine/engine.py:_type_resolver"]}
{"id": "C70", "title": "as_lower and as_upper", "statement": "On ASCII text as_lower replaces every capital letter by its small letter and changes nothing else, as_upper the reverse; both are idempotent, keep the length, and two texts have the same as_lower exactly if they have the same as_upper. Encoding names and time zone names are compared without regard to case in the same sense.", "quantifier": "all ASCII texts of any length", "why_tests_cant": "unbounded texts", "anchors": ["lib/rule_engine/engine.py:_AttributeResolver.string_as_lower", "lib/rule_engine/engine.py:_AttributeResolver.string_as_upper"]}
{"id": "C71", "title": "A thing that keeps the declared types never fails a rule for its symbols", "statement": "Let a Context declare the types of its symbols with a dictionary and use the default resolver. For every rule it accepts and every thing in which each declared name is found with a value of the declared type (or null), evaluation never raises a symbol resolution error for a plain name and never a symbol type error for a declared name: the only symbol errors left name an unknown $builtin (resolution, and only without a default value), $re_groups after a match in which no group took part (type), or the variable of a comprehension (type).", "quantifier": "all rules accepted under any dictionary of types, all things keeping it, all function, clock and random behaviours", "why_tests_cant": "ranges over all rules and all conforming things; the point of declaring types is that acceptance at construction rules out symbol failures later", "anchors": ["lib/rule_engine/engine.py:type_resolver_from_dict", "lib/rule_engine/engine.py:resolve_item", "lib/rule_engine/ast.py:SymbolExpression.build", "lib/rule_engine/ast.py:SymbolExpression.evaluate", "lib/rule_engine/engine.py:Context.resolve"]}
{"id": "C72", "title": "Rule.filter is lazy and unaffected by what its consumer does", "statement": "rule.filter(things) examines nothing before it is asked for a result; each request examines things only up to and including the next one that matches, so endless sources work; the results are the matching things in order; between two results the caller's decimal context is its own, and evaluating other rules, resuming other generators or changing the decimal context in between does not change the results (with resolvers and functions that do not depend on history); the first exception of the source or of an evaluation is raised once and ends the generator, which then only stops.", "quantifier": "all rules, sources (finite, endless or raising), consumers and interleavings with other activity", "why_tests_cant": "ranges over all interleavings and endless sources", "anchors": ["lib/rule_engine/engine.py:Rule.filter", "lib/rule_engine/engine.py:Rule.matches"]}
{"id": "C73", "title": "Changing the builtin symbols", "statement": "With context.builtins = Builtins.from_defaults(values, value_types=..., timezone=...), $name is the given value for every given name, new or default (converted like every value and checked against the given type, else the default's type of that name, else unchecked); every other documented symbol means what it means in a standard context, where $now, $today and $parse_datetime use the given timezone or else the local one (not the context's default_timezone); any other name does not exist (SymbolResolutionError), and Builtins({}) has no names; a mapping is a namespace: $ns.x is the value given for x; a value generator written by the user is called anew (twice, the second result counts) on every access, and a KeyError of the first call means that the name does not exist; plain names are unaffected.", "quantifier": "all dictionaries of values and types, names, rules, things and contexts", "why_tests_cant": "ranges over all combinations of given and default names", "anchors": ["lib/rule_engine/builtins.py:Builtins.__init__", "lib/rule_engine/builtins.py:Builtins.__getitem__", "lib/rule_engine/builtins.py:Builtins.from_defaults", "lib/rule_engine/builtins.py:Builtins.resolve_type", "docs/source/getting_started.rst:Changing Builtin Symbols"]}
{"id": "C74", "title": "Native floats are IEEE doubles, printed shortest", "statement": "Where the engine computes with Python floats (s.to_flt of a text with a fraction or an exponent, x.to_epoch, d.total_seconds), the resulting FLOAT is the decimal Python prints for the binary64 number nearest to the exact value (ties to even): it reads back as that number, no decimal with fewer digits does, and of those with as many digits it is the nearest. Results from 2^1024 - 2^970 on are infinite. So the order of the exact values is never reversed: an earlier instant never has a larger epoch, a shorter duration never more seconds.", "quantifier": "all numerals, aware datetimes and durations", "why_tests_cant": "every real number and every rounding and printing case, including ties and subnormal numbers", "anchors": ["lib/rule_engine/engine.py:_AttributeResolver.string_to_flt", "lib/rule_engine/engine.py:_AttributeResolver.datetime_to_epoch", "lib/rule_engine/engine.py:_AttributeResolver.timedelta_total_seconds", "lib/rule_engine/types.py:coerce_value"]}
{"id": "C75", "title": "A rule sees only the symbols it names", "statement": "The outcome of evaluating a compiled rule depends on the thing and on the resolver only through the names written in the rule: if two things (with two resolvers) answer alike for every plain symbol of the rule that is not a comprehension variable, and for every member the rule accesses that is not a builtin attribute, then evaluate and matches have the same outcome, up to the suggestion of a resolution error, the same callbacks are made and the same $re_groups remain. So with the default resolver, adding, changing or removing an item whose key the rule does not name changes nothing; and with resolve_attribute, an object is treated exactly like the dictionary of its attributes, a missing attribute being an unresolvable symbol.", "quantifier": "every rule text, context, pair of things, pair of resolvers and (stateful) callbacks that answer alike after the same history", "why_tests_cant": "a test compares a few pairs of things for a few rules; the claim is about every rule and every pair of things and resolvers", "anchors": ["lib/rule_engine/engine.py: resolve_attribute, resolve_item, Context.resolve, Rule.evaluate, Rule.matches", "lib/rule_engine/ast.py: SymbolExpression.evaluate, GetAttributeExpression.evaluate"]}
{"id": "C76", "title": "Equivalent rules", "statement": "Two expressions that differ by logical rewritings, applied in either direction anywhere inside them (De Morgan's laws; associativity of and, or; and/or with a constant; double and triple negation; the laws of the conditional operator; a != b for not (a == b); a !~ b for not (a =~ b)), are equivalent rules: on every thing, evaluate gives the same value or raises the same error, matches likewise, and the resolver and the functions are called with the same questions in the same order. Distributivity is not among them: it changes how often a symbol is resolved.", "quantifier": "every compiled expression and every chain of rewritings, every context, thing, resolver, functions and state", "why_tests_cant": "the laws quantify over arbitrary subexpressions, including ones that raise errors or have side effects, in arbitrary surroundings", "anchors": ["lib/rule_engine/ast.py: LogicExpression, UnaryExpression, TernaryExpression, ComparisonExpression, FuzzyComparisonExpression", "lib/rule_engine/engine.py: Rule.evaluate, Rule.matches"]}
{"id": "C77", "title": "Resolution errors suggest the closest available name", "statement": "When a plain symbol, a builtin symbol or an attribute cannot be resolved, the error raised carries the name asked for and, as its suggestion, the most similar of the names available at that place: the keys of the thing, the builtin names, or both the builtin attributes of the object's type and the object's own keys; at construction, the names of the type map or the attributes the type has. There is no suggestion exactly when none of the available names is spelled like a symbol.", "quantifier": "every name, thing with text keys, object value, context and state", "why_tests_cant": "the most similar name has to be found among any number of candidates of two kinds, whatever they are", "anchors": ["lib/rule_engine/engine.py: resolve_item, _get_resolver, type_resolver_from_dict, Context.resolve", "lib/rule_engine/ast.py: GetAttributeExpression.evaluate", "lib/rule_engine/suggestions.py: suggest_symbol"]}
{"id": "C78", "title": "The resolver is asked at most once per mention of a name", "statement": "While a rule is evaluated, the context's resolver is called for a name at most as often as the rule's text mentions that name as a symbol or as an attribute (of the two branches of a conditional only the longer one counts), provided the name is not mentioned inside the body or condition of a comprehension; there it is asked once more for every element. filter calls it at most that often per thing. A name the rule does not mention, and the variable of a comprehension inside its body, is never asked for. Folding at construction only lowers the number.", "quantifier": "all rules that can be constructed, all names, all contexts, resolvers (stateful or failing), things, lists of things and prior states", "why_tests_cant": "The number of calls depends on every path through short-circuits, conditionals, duplicated mapping keys, failing operands and folding; a test counts the calls of the paths it runs.", "anchors": ["lib/rule_engine/engine.py:Context.resolve", "lib/rule_engine/ast.py:SymbolExpression.evaluate", "lib/rule_engine/ast.py:GetAttributeExpression.evaluate", "lib/rule_engine/ast.py:ComprehensionExpression.evaluate"]}
{"id": "C79", "title": "Constructing a rule does not depend on what happened before", "statement": "Constructing a rule from the same text with the same context gives the same rule, or the same exception, whatever rules were constructed or evaluated before on the thread, successfully or not, including regular expression matches made meanwhile; the same callbacks are asked and the same names are added to context.symbols.", "quantifier": "all texts, contexts, thread states outside a comprehension, histories of constructions and evaluations, callbacks (without a memory of their own for the history form; giving the same answers for the general form)", "why_tests_cant": "Construction folds constants by evaluating them, so it shares the thread-local state with evaluations; a leak would need a particular history to show.", "anchors": ["lib/rule_engine/engine.py:Rule.__init__", "lib/rule_engine/engine.py:_ThreadLocalStorage", "lib/rule_engine/ast.py:ExpressionBase.build", "lib/rule_engine/ast.py:FuzzyComparisonExpression"]}
{"id": "C80", "title": "The interactive loop answers each line on its own", "statement": "In the debug REPL every line typed gets exactly one answer and no rule ends the loop: an engine error is reported by class with, for a resolution error with a suggestion, a hint, any other exception by a traceback, otherwise the result is printed. The answer to a line is what the line gives on its own, on a new thread, whatever was typed before, except that the debugging setting is that of the most recent '#! debug = word' line (off exactly for 'false' in any case).", "quantifier": "all sequences of lines, contexts, things and callbacks (without a memory of their own, for the independence)", "why_tests_cant": "A session is an unbounded sequence of lines sharing a context and a thread; only a finite number of sessions can be tried.", "anchors": ["lib/rule_engine/debug_repl.py:main", "lib/rule_engine/engine.py:Rule.evaluate", "lib/rule_engine/errors.py:EngineError"]}
{"id": "C81", "title": "The members of a set literal can be evaluated in any order", "statement": "The value of a set literal is the set of the values its members have on their own, whatever the order in which the engine evaluates them (it keeps the member nodes in a Python set, so the order changes from run to run): two orders give equal sets, or fail both, with an error of one of the members. Its inferred type does not depend on the order either: the common type of the members that are not null, else undefined. This holds for members without regular expression operators and callbacks without a memory of their own.", "quantifier": "all member lists and permutations, contexts, things, thread states and memoryless callbacks", "why_tests_cant": "The order depends on object addresses and differs between runs; a test sees one of them, and repeating it proves nothing about the others.", "anchors": ["lib/rule_engine/ast.py:SetExpression.build", "lib/rule_engine/ast.py:_CollectionMixin.evaluate", "lib/rule_engine/ast.py:_iterable_member_value_type"]}
{"id": "C82", "title": "Syntax errors are reported when the rule is constructed", "statement": "Once a rule has been constructed, evaluating it never raises a syntax error, with one exception: an invalid regular expression in a =~, =~~, !~ or !~~ whose pattern is not a text literal but computed from the thing. So a rule whose patterns are all written as literals raises no syntax error on any thing; and an invalid literal pattern anywhere in the text, even in a branch that would never be evaluated, makes construction fail. This supposes that the resolver and the functions supplied by the application raise no syntax errors of their own.", "quantifier": "all texts, contexts, things, thread states and callbacks that raise no syntax error", "why_tests_cant": "It is a statement about every rule that can be constructed and every thing it may meet; a test sees the errors of the pairs it tries.", "anchors": ["lib/rule_engine/ast.py:FuzzyComparisonExpression", "lib/rule_engine/engine.py:Rule.__init__", "lib/rule_engine/engine.py:Rule.evaluate", "lib/rule_engine/errors.py:RuleSyntaxError"]}
{"id": "C83", "title": "Rules about typed fields are accepted and cannot fail", "statement": "Let the context declare scalar types for a set of fields. A rule built from those fields, valid literals, and / or / not, == and != (not on bytes), orderings of two values of the same type, =~ with a valid literal pattern, concatenation, the ternary operator, `in` on text or on an array or set literal, and the attributes that every value of the type has (length, as_lower, year, ...) is accepted by the context with the expected result type; and evaluating, matching or filtering with it never raises anything, for every thing whose fields are present with their declared types, not null and not NaN.", "quantifier": "all such rules of any size and nesting, contexts, things, resolvers that deliver the declared fields, thread states", "why_tests_cant": "It is a progress theorem over all rules of a language fragment and all conforming things; tests try a few of each.", "anchors": ["lib/rule_engine/ast.py:LogicExpression", "lib/rule_engine/ast.py:ArithmeticComparisonExpression", "lib/rule_engine/ast.py:FuzzyComparisonExpression", "lib/rule_engine/ast.py:ContainsExpression", "lib/rule_engine/ast.py:GetAttributeExpression", "lib/rule_engine/ast.py:TernaryExpression", "lib/rule_engine/engine.py:Rule.evaluate", "lib/rule_engine/engine.py:Rule.filter"]}
{"id": "C84", "title": "The diagram of a rule is a tree that shows the rule", "statement": "Rule.to_graphviz draws a tree: node names are distinct, every edge joins two nodes of the diagram, every node except the statement and the comment is the end of exactly one edge, and all nodes except the comment are reached from the statement. Following the edges from the statement shows every node of the constructed expression with its class, the operator, name, variable or literal value, and its parts in order with their roles (left, right, condition, argument #2, ...). Two rules whose diagrams show the same picture are equal except for what the diagram leaves out: the contents of mapping literals, safe navigation, whether a symbol is a builtin, and types of symbols.", "quantifier": "all constructed rules of any size and depth, with or without a comment", "why_tests_cant": "It is a statement about every rule: a diagram with a lost, doubled or swapped part shows up only for rules that have such a part.", "anchors": ["lib/rule_engine/engine.py:Rule.to_graphviz", "lib/rule_engine/ast.py:to_graphviz", "lib/rule_engine/ast.py:Statement"]}
{"id": "C85", "title": "Declared types do not change values", "statement": "The same rule text constructed in two contexts that differ only in their type resolver gives, whenever both contexts accept it and neither evaluation raises, the same value and the same effects on every object. A rule that gives a value with declared types gives the same value without them; without calls, declarations add nothing but symbol type errors (or the error of a value of no engine type). Exceptions to this rule: safe item access (c&[i]) on a mapping declared with other key types is null whatever the mapping holds, and declarations may also make a rule acceptable that is refused without them.", "quantifier": "all rules without safe item access (all expressions for the evaluation part), all pairs of type resolvers, all objects, threads, decimal contexts and behaviours of resolver, functions, clock and random", "why_tests_cant": "relates two constructions and two evaluations of every rule under every pair of type declarations", "anchors": ["lib/rule_engine/ast.py SymbolExpression.evaluate, build and reduce methods", "lib/rule_engine/engine.py Context.resolve_type, Rule.__init__, Rule.evaluate"]}
{"id": "C86", "title": "The name of a comprehension variable does not matter", "statement": "Renaming the variable of all comprehensions over x to y, together with the occurrences of x in their results and conditions, gives a rule that is accepted exactly when the original is, with the same result type; on every object it evaluates to the same value, leaves the same state and makes the same calls to the resolver, functions, clock and random; an error is the same error, up to the name in a symbol type error. Conditions: y is not used in the rule as a symbol or comprehension variable, and neither name is read as an attribute anywhere in the rule (an attribute of that name would read the variable).", "quantifier": "all rules satisfying the conditions, all pairs of names, contexts, objects, threads, decimal contexts and behaviours of resolver, functions, clock and random", "why_tests_cant": "relates two constructions and two evaluations of every rule under every renaming, with nested and shadowing comprehensions of any depth", "anchors": ["lib/rule_engine/ast.py ComprehensionExpression, SymbolExpression, GetAttributeExpression", "lib/rule_engine/engine.py Context.assignments, Context.resolve, Context.resolve_type, Context.resolve_attribute"]}
{"id": "C87", "title": "A name can be replaced by its value", "statement": "Replacing names in a rule's expression by literals of the values the resolver has for them gives an expression with the same outcome (value or error) on that object; it leaves the same scopes, regex groups, decimal context and symbols, and makes the same calls of resolver, functions, clock and random except those asking for the replaced names. Conditions: the values are accepted for the declared types of the names, no comprehension binds a replaced name, a string that is used directly as the right operand of a regex operator is a valid pattern, and the types inferred for called functions do not change (this holds when the names are declared with the types of their values). The surroundings must not notice whether the names are asked for; stateless resolvers and functions never do.", "quantifier": "all expressions, all sets of names, all values, contexts, objects, threads, decimal contexts and behaviours of resolver, functions, clock and random meeting the conditions", "why_tests_cant": "relates two evaluations of every rule for every assignment of values to names and every behaviour of the surroundings", "anchors": ["lib/rule_engine/ast.py SymbolExpression.evaluate, LiteralExpressionBase.evaluate, all evaluate methods", "lib/rule_engine/engine.py Context.resolve, Rule.evaluate"]}
{"id": "C88", "title": "A default value acts as a resolver that never fails", "statement": "Evaluating a rule's expression in a context with a default_value has, on every object, the outcome that it has in the same context without default_value when the resolver answers with the default for every name it does not know (for symbols, and for attributes that are looked up through it): same value or error, same scopes, regex groups, decimal context and symbols, and the same calls of resolver, functions, clock and random. Condition: the builtin symbols in the rule exist and are not made by generators of the user; a builtin that is not known evaluates to the default as well, but is not asked of the resolver.", "quantifier": "all expressions, default values, contexts, objects, threads and behaviours of resolver, functions, clock and random", "why_tests_cant": "relates two evaluations of every rule under every behaviour of the resolver", "anchors": ["lib/rule_engine/ast.py SymbolExpression.evaluate, GetAttributeExpression.evaluate", "lib/rule_engine/engine.py Context.resolve, Context.resolve_attribute, Context.default_value"]}
