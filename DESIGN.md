# DESIGN — a Rocq model of zeroSteiner/rule-engine

## 1. Approach

The model is a *shallow, executable* Gallina transcription of the Python code: total functions over lists, `N`, `Z`,
exceptions as values, thread-local state passed explicitly. Everything external to the code is an explicit
**oracle**: a field of a record that every theorem quantifies over (the user's resolver, user functions, the regex
engine, case mapping of text that is not ASCII, codecs other than hex, base64, UTF-8, ASCII and Latin-1, clock, random numbers, time zone database, Decimal `**`).
No oracle is ever assumed to satisfy anything unless the theorem's statement says so.

One value universe (`value`) represents both native Python objects handed to the engine and the engine's own values,
so `coerce_value`/`DataType.from_value` are modelled on the inputs that really occur (int, float, list, range, date,
unsupported objects), not only on already-normalised ones.

Files (rocq/theories):

| file | models / contains |
|---|---|
| Base.v | results and exceptions with the class hierarchy of errors.py, text and list helpers |
| Dec.v | decimal.Decimal as in CPython's `_pydecimal`: add, sub, mul, truediv, floordiv, mod, neg, abs, rounding in all modes, comparison, str |
| Value.v | value universe, Python equality, truthiness, hashability, `type(x) is type(y)`, sets and dictionaries, the time zone database as a record |
| DType.v | data type definitions, `==`, hash, `is_compatible`, constructors (types.py) |
| Types.v | `from_value`, `coerce_value`, `is_*_number` (types.py) |
| Ops.v | operator bodies of ast.py as functions on values; the `Oracle` record |
| ParseUtil.v | parser/utilities.py (floats, timedeltas, datetimes) |
| StrLit.v | the value of string literals (parser/__init__.py p_expression_string) |
| Codec.v, CodecFacts.v, P_Codec.v | CPython's UTF-8, ASCII, Latin-1 and base64 codecs as used by `encode`/`decode` (engine.py); C66 |
| P_Literals.v | C67: rules that are one literal, from text to value |
| Flt.v, FltFacts.v | native float arithmetic: rounding to binary64, shortest repr, timedelta(float, ...) |
| Context.v, P_Context.v | Context construction (engine.py:101-114, 424-495) |
| P_Conform.v | symbol errors on things that keep the declared types |
| Generator.v, P_Filter.v | Rule.filter as a lazy generator |
| Custom.v, P_Custom.v | custom builtin symbols |
| FltNear.v, P_Float.v | IEEE 754 specification of the float conversions |
| Local.v, Getattr.v, P_Local.v | two evaluations that are told the same; resolve_attribute |
| P_Algebra.v | logical laws between rules |
| P_Unresolved.v | suggestions of resolution errors |
| P_Asked.v | theorems on how often the resolver is called |
| P_Repl.v | theorems on repeated construction and the interactive loop |
| Repl.v | the interactive loop of debug_repl.py |
| P_SetOrder.v | theorems on the order in which set members are evaluated |
| P_Syntax.v | theorems on when syntax errors are reported |
| P_Safe.v | theorems on rules that cannot fail |
| Diagram.v | the to_graphviz methods |
| P_Diagram.v | theorems on diagrams |
| P_Erase.v | declared types do not change values |
| P_Alpha.v | names of comprehension variables |
| P_Subst.v | replacing names by their values |
| P_Default.v | default_value and resolvers |
| Attr.v | the attribute tables and functions of engine.py |
| Prog.v | programs: a free monad over the operations an evaluation performs (scopes, regex groups, decimal context, callbacks) and its interpreter over a thread state |
| Ast.v | AST nodes after construction, their `result_type` |
| Eval.v | `evaluate` of every AST node, the functions of builtins.py, Context.resolve |
| Build.v | deferred nodes, the constructors' type checks, `build`, `reduce`; `plain` is construction without `reduce` |
| Engine.v | Context / Rule methods, the default resolver, the default builtins |
| Threads.v | several threads over one Context (any interleaving of operations); ParserBase.parse with its lock |
| Suggest.v | suggestions.py with explicit float rounding |
| GrammarTab.v | parsetab.py and the productions, generated by tools/gen_grammar.py (regenerate with `python3 tools/gen_grammar.py`) |
| Grammar.v, GrammarSem.v | ply's LALR machine over those tables, the grammar actions |
| Lexer.v | ply's lexer over the regular expressions of parser/__init__.py (backtracking matcher, rule order), `parse_text` = lexer + parser + actions |
| LexSpec.v | the written forms of tokens and left-to-right longest reading, independent of the regular expressions |
| P_Text.v | C61: canonical text of a tree |
| RuleText.v | Rule(text) and Rule.is_valid(text): lexer, parser and construction composed |
| Hints.v | types.py:384-523: from_type, from_name, DataType[name] |
| Reenter.v | callbacks that evaluate and construct rules themselves: one thread, any number of Contexts |
| P_Construct.v | C43 at construction and C42 on texts |
| LexFacts.v, LexSteps.v | one lexer step = the longest form |
| GrammarSpec.v | derivations and operator grouping, independent of the tables |
| GrammarCheck.v, GrammarFacts.v | the tables checked by computation, machine = specification |
| DTypeFacts, TypesFacts, CoerceFacts, EqFacts, OrdFacts, DecFacts, DecRound, NumFacts, ProgFacts, StateFacts, Post, Refine, Fits, Same | lemmas; DecRound also the specification of correct rounding, Fits that of a value conforming to a type, Same that of indistinguishable programs |
| Truth.v | which values count as false, as an inductive specification |
| Demo.v | one concrete oracle, context and world, used only in examples and refutations |
| P_*.v | the property theorems (`Cnn_...`), their specifications, non-vacuity examples and `_refuted` witnesses, Print Assumptions |

Naming: `Cnn_..._partial` is a theorem with a side condition the English property does not have; `Cnn_..._refuted` is a
machine-checked counterexample to (part of) the property, i.e. a finding about the code; the remaining `Cnn_...` are the
property itself, its variants, and examples that the hypotheses can be met.

## 2. Per-property plan

(See section 5 for what was finally proved; this section is the plan written before the proofs.)

| id | modelled part | proof idea |
|---|---|---|
| C01, C02 | dtype, is_compatible, ==, hash | nested induction on dtype; spec = "has a common instance" |
| C03, C04, C05 | from_value, iterable_member_value_type, coerce_value | nested induction on values; independent predicates |
| C06, C07 | evaluator over thread state (scopes, regex groups) | induction on AST; reset |
| C08, C09 | small-step thread machines | projection/invariant over arbitrary schedules |
| C10, C11 | build, context.symbols, type map | induction on deferred tree; trace of resolver calls |
| C12 | build+reduce vs. unfolded AST | simulation, induction |
| C13, C14 | result_type, typed symbols | type-soundness induction |
| C15, C16 | LogicExpression, UnaryExpression, TernaryExpression | equations on outcomes and final states |
| C17–C19 | comparison | mutual induction on arrays |
| C20 | fuzzy comparison with regex oracle | case analysis for all oracles |
| C21, C22 | arithmetic | Dec.v lemmas: exactness, rounding |
| C23, C24 | datetime/timedelta | integer microsecond arithmetic with time-zone oracle |
| C25 | bitwise | N bit lemmas, set membership specs |
| C26–C29 | contains, getitem, getslice | list lemmas |
| C30, C31 | comprehension, scopes | relation to filter/map; refutation of lexical scoping for nested equal names |
| C32 | mapping literal | relation to an association-list spec |
| C33–C35 | function call, defaults, attributes | case analysis for all oracles |
| C36–C39 | attribute/builtin functions | list lemmas |
| C40 | Context.resolve with scope | case analysis |
| C41, C42, C44 | Rule methods | direct, lists |
| C43 | error classes | refutation by witnesses + partial theorem on a typed fragment |
| C45, C46 | suggestions.py over rationals with explicit rounding | invariants of the matching loop |
| C47, C48, C49 | literal parsers | print/parse round trips, grammar relations |
| C50–C52 | LR automaton from parsetab.py | LR invariant (stack = derivations), tables checked by computation |
| C53 | civil calendar | division lemmas |
| C54 | number attributes | Dec.v lemmas |
| C55, C56 | literals, equality | nested induction |
| C57 | hex codec | list induction |
| C58 | constructors' type checks | relations on static types, both directions |
| C59, C60 | lexer | each step takes the longest form; induction on the text |
| C61 | lexer, parser, actions | chunks of the spelling are read separately; C52 |
| C88 | Eval.v eval; Engine.v rule_evaluate | simulation of evaluation in two contexts and two worlds, the logs related by filling in the default |
| C87 | Eval.v eval; Engine.v rule_evaluate | two-run simulation of evaluation with the logs related up to the questions for replaced names; C87_replaced in general, C87_types_kept and C87_replaced_typed for declared names, C87_stateless for the condition on the surroundings |
| C86 | Build.v build, reduce; Eval.v eval; Engine.v rule_new, rule_evaluate; scopes of Prog.v | two-run simulation of construction and evaluation with the scope stacks related by the renaming; C86_same_outcome for expressions, C86_same_rule for construction, C86_renamed_rule together |
| C85 | Build.v build, reduce; Eval.v eval; Engine.v rule_new, rule_evaluate | two-run simulation of construction and evaluation modulo the types of symbols and scopes; C85_same_value for any two type resolvers; C85_no_value_lost, C85_only_type_failures for the expression without types; C85_undeclared_rule links it to the rule the undeclared context builds |
| C84 | the to_graphviz methods of all nodes, as lists of node and edge statements; labels as class and shown attribute instead of their text | induction on the shown parts; every method is a permutation of one normal form |
| C83 | construction and evaluation of the nodes named, with constant folding | induction on the deferred tree: every node of the fragment is built into an expression of the type that is a literal if it is constant and evaluates to a value of the type |
| C82 | evaluation of every node, construction of every node; validity of a pattern is the library's answer | a predicate on programs: which exceptions a run can end in, given what callbacks answer; construction keeps patterns literal |
| C81 | ESet with its members in any order | members leave groups, scopes and decimal context alone, so each is as if evaluated first; sets by membership (C56); types by the uniform member type |
| C80 | the loop of debug_repl.main: directive, construction, evaluation, classes of answers | induction over the lines with C79 and C07 for each line; the directive's pattern is specified by its parts |
| C79 | rule_of_text: lexer, parser, build with folding | every step of a construction is shown not to read the regular expression groups (em_build); then two runs from states differing in the groups go the same way |
| C78 | the resolver calls in the log of an evaluation; mentions in the parse tree | a cost bound carried through every evaluation step (scopes shadow names, duplicate mapping keys drop values), and construction only removes occurrences |
| C77 | resolve_item, get_attr, merge_sug, type_resolver_of with the suggestions of Suggest.v | the best of two lists is the best of the two bests; the lists are the documented names |
| C76 | law, equivalent (congruence closure) over compiled expressions | mutual induction over the derivation; P_Algebra.v |
| C75 | two evaluations side by side, related by same_answer, same_functions, same_history; resolve_attribute over Python's getattr | induction over the compiled rule and over construction |
| C74 | the float conversions of Flt.v | convexity and monotonicity of rounding; seventeen digits suffice by a gap argument |
| C73 | Builtins, from_defaults (dict.update), a context with its builtins replaced | association list lemmas; C40 for the value, C35 for namespaces |
| C72 | Rule.filter as a generator object (position, ended), sources as functions of the position | induction on one call and on the consumer's history; outcome of an evaluation independent of the state (C07) |
| C71 | build keeps, for every symbol node, where its type came from; evaluation raises a symbol error only at a symbol node | invariant `declared` through build and constant folding, then induction over evaluation with the scope stack |
| C70 | str.lower/upper letter by letter on ASCII | induction on the text against per-character relations |
| C69 | Context.__init__ and type_resolver_from_dict with arguments as data, decimal contexts as heap references | case analysis on the arguments; induction on example data (coercion preserves its data type) |
| C68 | to_epoch, total_seconds | binary64 division and repr (Flt.v): a decimal below 2^52 survives rounding and printing |
| C67 | one-literal rules | composition of C59 (longest token), the parser tables on one token and C47, C48, C49; bytes literals against an inductive specification |
| C66 | encode/decode with base64, UTF-8, ASCII and Latin-1 | code tables as inductive specifications, encoder and decoder proved equivalent to them by list induction |
| C65 | keys, values, to_ary, to_set | run of the attribute access on settled values, sets up to permutation |
| C64 | nested evaluation by callbacks | Reenter.v: one store per Context, callbacks as trees of evaluations and constructions; simulation by the flat run with the recorded answers, induction on steps; termination by layers |
| C63 | $now, $today, $abs, $random, $parse_* | run of the call, rounding lemmas of C22 |
| C62 | from_type, from_name | induction on the described values; members via member_type |

## 3. Trusted base

* Coq 8.16.1's kernel (vm_compute included: the LALR tables and the examples are checked with it).
* Axioms: none of our own. `Print Assumptions` after each property theorem says "Closed under the global context" except
  where the statement uses classical facts of the standard library; none currently does. `vcheck` additionally lists
  29 axioms and module fields of the standard library that are in the environment because `Lia`/`Lqa`/`Psatz` load the modules that
  declare them: seven fields of `Coq.ssr.ssrunder.Under_rel`, the fields of `Coq.Reals.Rdefinitions.RbaseSymbolsImpl` and
  `RinvImpl`, `Coq.Reals.ClassicalDedekindReals.sig_forall_dec` and `sig_not_dec`, and
  `Coq.Logic.FunctionalExtensionality.functional_extensionality_dep`. No theorem depends on any of them.
* IEEE 754 binary64 with round-half-even and shortest repr as CPython implements them (Flt.v; compared with CPython on random inputs while writing it).
* Weekday names (`strftime('%A')`) in the C locale (LC_TIME), as a program has that never calls `locale.setlocale`.
* The reading of /repo documented by the citation comment on each definition, and of CPython / ply where the code calls them.

### What is an oracle (theorems hold for every behaviour)

The user's resolver, type resolver and functions (arbitrary, may raise anything, may depend on everything called before; they
do not call back into the same Context, except in Reenter.v, C64, which models callbacks that do); the regular expression engine; case mapping of text that is not ASCII, white space (`\S` in the lexer) and digits; codecs
other than hex, base64, UTF-8, ASCII and Latin-1; dateutil's isoparse; unicodedata names; Decimal `**`; the timestamp of naive
datetimes; the clock; random numbers; the time zone database; the iteration order of sets (only:
it is a permutation; C12 additionally supposes that rebuilding a set from its own iteration order does not change that order).
Hypotheses about oracles appear in the theorem statements (for example `tz_monotone` in C18).

### What is not modelled

* The textual content of error messages (so also line numbers, which ply's lexer tracks only for them), the text of node labels in diagrams, debug_ast.py, the argument parsing, edit console and exact printed text of debug_repl.py, setup.py.
* Builtin value generators inside builtin namespaces; `bytes` subclasses and other subclasses of the supported Python types;
  signalling NaNs; `fold=1` datetimes; the identity shortcut of Python containers for NaN (`x is y` before `x == y`).
* Callbacks that re-enter the same Context, outside Reenter.v (C64 and finding 15 are about them); asynchronous exceptions,
  memory exhaustion, recursion limits.
* Scopes with more than one assignment (the engine never creates one).
* Set literal members are evaluated in source order (CPython: iteration order of a set of AST nodes); C81 shows what depends on it.
* When a literal is malformed and a syntax error follows, which of the two SyntaxErrors is reported.

## 4. How properties are stated

Each P_ file starts its property with a specification that does not use the functions under study: inductive relations
(`instance`, `iterates`, `derives`, `spells`, `leaks`, ...), arithmetic over Z and Q (`rounds_to`, calendar facts), or plain list
facts. Outcomes of rules are stated with `run w p q = (r, q')`: program p started in thread state q, with callbacks w, ends with
outcome r (a value or an exception) in state q'. Quantification is over all w and q, i.e. over every behaviour of the callbacks
and every history.

Mutation tests: seeded/LOG.jsonl lists realistic bugs put into the definitions, which theorems stopped proving, and what was
tightened where none did.

## 5. Result per property

MANIFEST.json has status, theorem names and a note per property. Partial ones, and why:

* C05: Last sentence (data type unchanged) holds under keys_apart and is refuted without: two keys that conversion makes equal (0.1 and Decimal 0.1) collapse and the value type can change. Everything else in full.
* C12: Proved for every expression in `foldable` (no .to_set, no c&[i] on a container statically known to be a mapping, callees that are names/attribute paths/methods of literals, ternary conditions that are not set or mapping displays), every thing, world and state, when construction itself makes no callbacks, and given that rebuilding a set from its iteration order keeps that order. Outside these limits the claim is false: four _refuted examples.
* C13: For every rule built without a default_value whose callbacks return supported Python values, whose comprehension variables are not named like builtin attributes and whose called functions have a return type that does not constrain members (or are the builtins range and split): the returned value fits the inferred result type recursively, and its engine type is compatible with it. Refuted without each of these assumptions (C13_default_value_refuted, C13_members_refuted, C13_shadowing_refuted).
* C15: Evaluation in full. At construction the skipped operand is still constant folded, so the text `false and 1/0` does not construct (C15_skipped_constant_refuted).
* C17: "Values of different data types are unequal" holds for different kinds of types; nested inside arrays Python equality looks through the types ([true] == [1], C17_nested_types_refuted). Rest in full.
* C23: all laws for every datetime, timedelta and tz database; text/bytes + anything leaks TypeError instead of EvaluationError (C23_text_plus_datetime_refuted)
* C31: The bound variable denotes the current element, and other names and builtins are unaffected; the innermost rule and the attribute rule are false of the code: the outermost binding of a name wins (C31_nested_refuted) and obj.x may return the loop variable x (C31_attribute_refuted).
* C36: starts_with, length and is_empty in full; ends_with for every non-empty suffix; C36_ends_with_refuted shows the code answers false for an empty suffix of a non-empty sequence.
* C38: One, two and three argument forms for integers the engine accepts (finite float range) with non-zero stop and step; a zero stop is treated as missing and a zero step as 1 (C38_zero_stop, C38_zero_step, C38_zero_refuted)
* C43: The property as stated is false of the code (C43_*_refuted give rules raising TypeError, OverflowError, decimal errors, SyntaxError). Proved instead, for every rule as the grammar builds it: each exception is an EngineError, or was raised by the resolver, or comes from an operation in an explicit table (leaks), given by operator and static operand types; every row attained by a witness. Missing: contexts with a default value, comprehension variables named like attributes, functions declared to return containers with a member type; regex and codec errors are those of the modelled oracles.
* C44: For a constructed rule in full; constant folding at construction uses the calling thread's decimal context instead of the Context's (C44_folding_refuted).
* C45: All words and option lists: totality, None exactly when no option matches the symbol pattern, first option of least distance, an exact match wins. Missing: the pattern lets a trailing newline through (C45_newline_refuted), and below similarity 1/2 the rounding of 1 - similarity can hide differences
* C49: All bodies without backslash; all documented escapes (spells), malformed ones (StringSyntaxError), and a covering theorem for ASCII escapes other than character names. Missing: character names are an oracle; a backslash before a non-ASCII or control character is decoded wrongly (C49_non_ascii_escape_refuted)
* C51: All pairs of binary operators, unary minus, not, ternary and not in, with arbitrary operand expressions. The documented claim fails for not in: it chains with comparisons and groups differently from in (C51_not_in_refuted)

## 6. Findings (behaviour of the code that contradicts its documentation or the property; each with a `_refuted` theorem where one exists)

1. text/bytes + anything else raises TypeError (C23, C43). 2. Nested comprehensions over the same name: the outer binding wins (C31).
3. `obj.x` inside a comprehension over `x` returns the loop variable (C31). 4. `"a".ends_with("")` is false (C36).
5. `$range(a, 0)` treats the stop as missing, a zero step as 1; `$random(0)` as `$random()` (C38).
6. A symbol declared ARRAY(FLOAT) rejects the empty array (C14); MAPPING nullability is checked on keys.
7. `$re_groups` keeps None groups; folded regex comparisons leave no groups. 8. `==` refuses BYTES and FUNCTION operands statically (C58).
9. Mapping equality depends on order. 10. `true == 1` is false, `[true] == [1]` is true (C17).
11. Constant folding runs under the caller's decimal context (C44); `false and 1/0` does not construct (C15).
12. Raw Python exceptions escape from evaluation: the table `leaks` in P_Errors.v (C43).
13. The return type of functions is checked at the top level only (C13). 14. A backslash before a non-ASCII character decodes wrongly (C49).
15. Evaluating a rule inside a resolver of the same Context clears the outer scopes. 16. An array of nulls has an UNDEFINED member type.
17. Native sets are not converted (C55). 18. `set << set` raises TypeError. 19. `m&[k]` with an incompatible key type folds to null without
evaluating (C12). 20. `"-5".to_flt` is nan; `to_str` then `to_flt` loses digits beyond 17 (C54). 21. The default resolver raises TypeError
for a missing name when a key is not a string (C43). 22. `PT` and `P1DT` are timedeltas; a trailing newline is accepted (C48, C45).
23. Trichotomy fails in the repeated hour of daylight saving time (C18). 24. Conversion can merge mapping keys (C05).
25. Integers from 2^1024 - 2^970 on are not natural numbers (C25); inf / 0 = inf (C21). 26. Naive datetimes inside containers stay naive (C24).
27. docs/attributes.rst gives the wrong order of attribute and resolver (C35). 28. `a == (a // b) * b + a % b` can be false by rounding (C22).
29. `not in` groups differently from `in` (C51). 30. `+&[1]` lexes as `+` followed by an array; there is no syntax for the empty set (C52).
31. A ternary with a constant set or mapping as its condition folds away the TypeError of unhashable members (C12).
32. A `#` comment followed by anything but a single newline is a RuleSyntaxError, because `$` is used without re.MULTILINE (C60).
33. `[{'a': 1}.a for a in [1, 2]]` raises TypeError when the rule is constructed: the member access on the mapping literal is folded while the loop variable `a` is in scope with the value UNDEFINED, which shadows the key (C43_construction_refuted). With a loop variable of another name the rule is constructed.
34. A symbol typed with `DataType.from_type(list[list[int]])` rejects the value `[[]]`, `list[int]` rejects `[]` (as finding 6) and `list[None]` rejects `[None]` although is_compatible holds: SymbolExpression.evaluate wants the member type to be equal, not compatible (C62_symbol_refuted).
35. `$random(0)` returns a random number from 0 to below 1 instead of the integer 0: the test `if boundary` in builtins.py:57 takes 0 for a missing boundary (C63_random_zero_refuted).
36. Constructing a rule inside a callback: constants are folded with the precision of the Context that is being evaluated, not of its own (C64_construction_precision_refuted); on the Context being evaluated, a symbol with the name of an active loop variable gets no type and its first use raises AttributeError (ast.py:91 tests `value_type is not None` where `is None` is meant, 708, 1018-1020; C64_construction_scope_refuted).
37. A context whose type dictionary contains, inside a mapping, a mapping with the keys `0.1` and `Decimal('0.1')` and values of different types refuses that very value: coercion merges the keys, so its data type changes (C69_key_clash_refuted).
38. Without `decimal_context`, a Context refers to the decimal context object of the thread that created it (`decimal.getcontext()` is not copied): if that thread later changes its precision, results of the context's rules change in every thread (C69_decimal_alias_refuted).
39. `$re_groups` raises a symbol type error after a match in which no group took part, e.g. a pattern without groups; `[v for v in [xs[5:]]]` raises one for v when the slice is empty; `$nope` is accepted at construction in a typed context. (C71)
40. Overriding a default builtin with a value of another type (`from_defaults({'pi': 'three'})`) without also giving its type makes the symbol unusable: the default's type is kept and checked (C73_override_type_refuted). A context whose builtins are replaced as in the documentation has no `$re_groups` (C73_re_groups_lost).
41. `resolve_attribute` is also asked for the members of the values a rule reaches, so the Python attributes of every value are visible (`name.upper()` works, C75_members_exposed), not only "all members of thing" as documented. It reads every attribute twice, so a property runs twice, and an attribute that is gone at the second read raises a native AttributeError even with a default_value (C75_read_twice_refuted); an AttributeError raised inside a property is reported as an unresolvable symbol.
42. Every access of a builtin symbol reads it twice: `resolve_item` tests `name in thing`, and `Builtins` inherits `in` from `collections.abc.Mapping`, which calls `__getitem__`. So a user's `BuiltinValueGenerator` runs twice per access and the first result is thrown away (C73_generator_once_refuted), the clock is read twice for `$now` and `$today`, and a KeyError raised inside a generator is reported as an unknown symbol, or silently replaced by the default_value.
43. Replacing `context.builtins` as in the documentation (`Builtins.from_defaults({...})`, no timezone) silently moves `$now`, `$today` and `$parse_datetime` to the local time zone, whatever the context's default_timezone is; `$parse_datetime(t)` then disagrees with the literal `d"t"` (C73_default_timezone_refuted).
44. The members of a set literal are kept in a Python set of nodes and evaluated in an order given by object addresses. With `=~` in one member and `$re_groups` in another the value of the same rule on the same thing can change from run to run (C81_match_refuted); so can the error reported when two members fail.
45. A diagram (`Rule.to_graphviz`) does not show the contents of mapping literals (MappingExpression inherits the method for scalar literals), nor safe navigation, nor whether a symbol is a builtin: `{'a': 1}` and `{}`, `name&.length` and `name.length`, `$now` and `now` are drawn alike (C84_hidden_refuted). The comment is drawn as a node without an edge (C84_comment_refuted).
46. Declaring types changes more than checks: `m&[true]` is null for every mapping declared with FLOAT keys, while without the declaration the key finds the entry of 1 (Python's True == 1) (C85_safe_item_refuted); and `(c ? {"a": x} : {"a": y}) + 1` is refused without declarations but accepted when x and y are declared with different types (C85_acceptance_refuted).
47. The name of a comprehension variable is not always harmless: an attribute of the same name reads the variable instead of the object, so `[name.v for v in [1]]` is `[1]` while `[name.u for u in ...]`-style renaming of the variable alone (`[name.v for u in [1]]`) is an error (C86_attribute_refuted).
