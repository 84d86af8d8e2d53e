# Formal model of pyudunits2 in Rocq (Coq 8.16.1)

Written first as a plan; now kept current with the model. `properties.jsonl` lists the
properties, `MANIFEST.json` the theorem(s) for each, `seeded/LOG.jsonl` the wrong programs the
theorems were tried on.

## Shape of the model

Everything is executable Gallina. Exceptions are values (`res A := Ok a | Err exn`), the
mutable unit system is a state passed through (`M A := system -> res A * system`), Python's
unspecified choices (iteration order of a set, depth of the interpreter stack) are explicit
parameters over which the theorems quantify. Text is `list N` (Unicode code points); literals
are UTF-8 Coq strings decoded by `u`. Every definition cites file and lines of /repo.

Model (what the code does):

| file (rocq/theories) | models |
|---|---|
| PyBase, PyNum | exceptions, str methods used, insertion-ordered dict; int()/Decimal() of text, str() of both, exact value |
| Graph, Expr | `_expr/graph.py`; `atoms.py` (identifiers), `dimensionality.py`, `split.py`, `substitute.py` |
| Regex, Lexer | `_grammar/udunits2Lexer.g4.jinja`: rules, modes, longest match |
| AtnData, Atn | `parser/udunits2Lexer.py` (the serialised automaton, verbatim), `_antlr4_runtime`: ATNDeserializer, LexerATNSimulator, Lexer.nextToken |
| AtnShared | the DFA cache shared by all lexers of a process, one memory access per step |
| Parser, Visitor | `_grammar/udunits2Parser.g4` (decisions of the generated parser), `_grammar/__init__.py` (visitor, `parse`, `normalize`) |
| PAtnData, PAtn, PSim, PGen | `parser/udunits2Parser.py` (the serialised automaton, verbatim; the generated functions), `_antlr4_runtime`: ATNDeserializer, ParserATNSimulator (adaptivePredict, SLL and full context), PredictionMode, DefaultErrorStrategy.sync |
| PShared, Process | the DFA cache shared by all parsers of a process, one memory access per step; whole calls of `parse` in any number of threads |
| SysShared | look-ups as programs of single dictionary and attribute accesses; any number of threads sharing one system and the caches of `parse` |
| SystemGrow | histories in which look-ups alternate with add_unit and add_prefix |
| SysGrow | `add_unit` as a program of single accesses, by any number of threads beside the look-ups of SysShared |
| SysPrefix | `add_prefix` entry by entry, by any number of threads beside the look-ups and `add_unit`; a loop over a dictionary whose size has changed raises RuntimeError |
| Stack | the tree visitor, `parse`, `__str__` and `normalize` with a limited number of stack frames |
| Dimension | the Dimensionality object: ==, items, keys, values, len, inverted, str |
| SymCache | `Unit._cached_symbolic_definition`: `==` and `Converter` as programs of single accesses, by any number of threads |
| Rounding | `Converter` for units without logarithm, each arithmetic operation returning any number within a relative distance of the exact result |
| RoundingLog | the same for units that are one logarithm, exp and log rounded too |
| NumpyConvert | `Converter.convert` on numpy arrays: the lambdified function, arrays in memory |
| BaseSpec | (specification) a name or text written out in basis units |
| Units | `_unit.py` units, dimensionality, convertibility; `_unit_reference.py`; `_expr/normaliser.py` |
| Sympy, Convert | `_expr/sympy.py` and the sympy fragment it needs; `Converter`, `Unit.__eq__` |
| UnitSystem | `_unit_system.py` with its dictionaries and lazily resolved units |
| Xml, XmlData, Database | `_udunits2_xml_parser.py`; the shipped XML file as a tree (generated by tools/gen_xml.py); the system read from it |
| Argparse | the standard library's argparse for the parser of `__main__.py` (ArgSpec: specification) |
| Cli | `__main__.py` |
| Expander | `_expr/expander.py:14-240` |
| Datetime | `_datetime.py` |

Specifications (what the properties mean, independent of the model's functions):
LexSpec, GrammarSpec, PSpec (runs of the parser's automaton), VisitSpec, PrintSpec, ShiftSpec, SuperSpec, UnitSpec, ConvertSpec, SystemSpec, XmlSpec, ExpanderSpec.
Proofs: `*Facts`, `*Proofs`, `*More`, `*Complete`, SystemKeep/Ord, Respell, XmlPrefix/Strict,
NumText, ReDisjoint, Print*, ShiftFacts, Super*. Property theorems with their non-vacuity examples and `Print Assumptions`: `Prop_*.v`.

## How each property is proved

* C01 derivative matcher = denotational language of the rules; longest match and losslessness
  by induction on the remaining text. C08 from the same: which first tokens the two modes
  share, then derivations of bracketed texts put together.
* C63 a joint subset construction of the automaton and of the rules' derivatives, checked by
  computation over 92 character classes and lifted to all texts by bisimulation. C64 an
  invariant of the shared cache (every cached transition is the one computed), kept by every
  step of every lexer; a measure for termination.
* C71 the runtime's set of configurations is the set of all runs of the automaton (closure,
  reach; by induction), so prediction answers the least viable alternative (SLL answers and
  conflicts included); each grammar derivation is a run; hence the generated code never takes
  a wrong turn, and returns the preferred derivation. C72 an invariant of both shared caches
  (whatever is cached is what would be computed), kept by every step of every call; the
  programs of a call are well-founded. C76 an invariant of the shared system (each entry is
  the original one or the unit it resolves to) plus, for each thread, the set of objects it has
  seen resolved: whatever the others do, its remaining program keeps the invariant and ends in
  an outcome of the state-free look-up (rely/guarantee). C79 the same with a growing system: each
  entry is that of the final system or not there yet, and never vanishes; a look-up either agrees
  with the final system or met a word that was not there when it began. C82 the same with the
  prefixes growing too: what a loop sees of a dictionary is a beginning of the final one.
* C02 the visitor is total on parser-produced trees (KeyError, AssertionError, TypeError are
  explicit values, proved unreachable) and computes the reading of VisitSpec.
* C84, C85 induction on parse trees; the frames a derivation needs are bounded by its tokens and
  bounded below by the depth of the expression it is read as.
* C86, C87 a well-formed dimensionality (no key twice, no zero) is determined by its exponent
  function; the text is decoded entry by entry (a quote ends a name, no numeral contains a comma).
* C88 invariant: an attribute is None or the symbolic definition of its unit; each program leads to
  the answer of Convert.v whatever such attributes it reads, in a bounded number of steps.
* C89 a product of k factors within [1-eps, 1/(1-eps)] of each other; induction on the definition.
* C90 mutual induction on the written-out form: it has a meaning (C32) that expands to it; then C20, C24.
* C91 one pass over the words and prefixes of the database by `vm_compute`, and C90.
* C92 computation on the database, transferred to every order and history by the relation of C36/C37.
* C93 as C89: rounding a sum rounds both its terms, so the result is a sum of three products of near-1 factors.
* C94 C07 (printed text, parsed) and C90 (written-out text): left-to-right re-reading keeps an expression in basis units; the words by one pass of `vm_compute` comparing normal forms.
* C95 computation on the database, then C24 and C58.
* C96 C90's assembly of a written-out expression below a shift; the text of a date lexed and parsed (PrintDate.v); C20.
* C97 an invariant of all look-ups (the word leads to the unit, no live definition claims it), C31, C32; C98 by running one look-up symbolically, and by computation on the database.
* C99-C101 the coefficient computed with a rounding function on Q (proved to be rounding to nearest, ties to even, and to have relative error 2^-p); soundness by the error calculus of C89, the refutations by computation for every power function; C102 by one computed check of all pairs of rows, C90. Assumed of sympy: literals with a point or an exponent are Floats of 53 bits (more when written with more than 15 digits); an exact operand is rounded to the precision of the Float; c1*M - c2*M is 0 exactly if the Float c1 - c2 is; simplify does not turn a coefficient that is not 0 into 0. The comparison of two plain numbers is not covered (it depends on whether sympy's Float zero == 0).
* C103-C105 the parsed document as a tree of elements (namespace, local name, attributes, text, children, tail) and of nodes that are no elements; from_element and the xpath by induction on the tree; the one unit-system by the places in the tree; refutations on a sample document. C106 a model of lxml's parser (tokens, then a stack of open elements); reading back what was written by induction on the tree; the shipped file by evaluation of its bytes (XmlTextData.v), compared with XmlData.v, which Python's ElementTree produced. C107, C108 decoding by locale.
* C109-C111 objects as an address and contents, the classes and CPython's rules for == and hash() (PyObject.v); case analysis, C28, C96.
* C112 as C89, on logarithms: a number within a relative error has a logarithm within an absolute one, and the exponent of a power stretches its relative error.
* C113, C114 arrays at addresses, ufuncs that make new arrays; induction on the list of functions; a conversion between units of one size has no steps (normal form).
* C115, C116 argparse as a function of the list of arguments; its readings by induction on the list; the first token of a text beginning "--" or "-h" is MULTIPLY (partial derivatives), which begins no unit.
* C117 two systems that agree on ASCII words (decided by computation) answer ASCII texts alike, by induction on the stack; identifiers of a text are pieces of it (induction on derivations); the two definitions with a degree sign are compared by their outcomes with every stack up to 8.
* C118, C119 an inductive predicate of faults without visiting orders; soundness by induction on the stack, completeness by choosing an order that visits the blamed identifier first at every level: a list of identifiers never recurs below itself (ranks), so the choices do not interfere. The faults of the shipped words by computation, through a checker proved to find all of them.
* C120, C121 composed texts by induction on the recipe: a text without shift operators leaves the lexer in a mode from which the closing bracket returns to the default mode, so the tokens of the whole are the tokens of the pieces; their derivation is built from the derivations of the parts. Refused blanks by an invariant of derivations (no derivation has two neighbouring tokens of the forbidden kinds), by induction on the derivation.
* C123 the laws of multiplication by induction on their application: size and exponents of a recipe, as functions of those of its parts, obey each law, and are the product of the parts in their net powers; a composed text has the written-out form of its recipe (C120) and so that size; C20 and C28 do the rest.
* C03, C04 soundness by induction on fuel, completeness by induction on derivations,
  uniqueness of the preferred derivation.
* C05 strip idempotence; C06 simulation of lexing/parsing/visiting under respelling.
* C07 the tokens of a written expression (pairwise disjointness of the rules' languages decided
  by computation), then derivations built from left to right; two adjacent exponents have none.
* C09 a relation between the parse trees (both directions for acceptance), then a simulation of
  the counter of dimensions.
* C10-C18, C47, C73 induction on graphs and units (finite maps of exponents).
* C20-C28, C74 real analysis over the normal form of the transform; the meaning of a number of a
  unit (ConvertSpec) is defined on the expanded definition, not on the normal form.
* C29-C35 refinement: the mutable system is a cache of a state-free evaluator (SystemSpec);
  invariant over all call sequences. C77 the state-free evaluator is monotone in the system
  (readings kept), so the same invariant survives registrations.
* C36, C37, C56 computation over the shipped file, lifted to all strings and histories.
* C38-C40, C55 induction over XML trees. C41, C58, C59 case analysis on top of C18, C29, C03.
* C43, C44, C60 induction on graphs, sortedness invariant of the loop. C45, C46 arithmetic.
* Expectations that are false of the code are kept as properties of their own (status
  `partial`) with a theorem `..._refuted` giving the witness or the general failure; where a
  true exact statement exists it is a separate, proved property (C07/C65, C08/C66, C09/C67, C19/C68, C26/C70, C48/C69, C13/C49, C16/C50/C56,
  C18/C51, C27/C52, C28/C53, C74/C75, C29/C54, C37/C57, C45/C62, C46/C61).

## Trusted base

* Coq 8.16.1's kernel (including its VM for `vm_compute`).
* The fidelity of the model: it was written by reading /repo; nothing of /repo was run.
* Conformance.v (generated by tools/gen_conformance.py) runs the tables of the project's own
  test-suite on the model; all conform. These are tests of the model, not proofs.
  PyConformance.v (generated by tools/gen_pyconf.py) does the same for the model of Python's int,
  str and Decimal against tables computed with CPython 3.11.
* AtnData.v is generated from `parser/udunits2Lexer.py` by tools/gen_atn.py (it copies the list),
  PAtnData.v from `parser/udunits2Parser.py` by tools/gen_patn.py likewise.
* XmlData.v is generated from `udunits2_combined.xml` by tools/gen_xml.py (Python's
  xml.etree); its fidelity is trusted.
* Print Assumptions, for every theorem in the manifest (tools/assumptions.py):

<!-- assumptions -->
* closed under the global context (236):
  C01_tokenise_total_lossless_longest, C01_next_token_unique, C02_parse_outcomes, C02_parse_errors, C02_parse_reads, C02_int_error_means_4300_digits, C03_accepts_exactly_the_grammar, C03_returns_the_preferred_derivation, C04_one_preferred_reading, C04_a_preferred_reading_exists, C05_surrounding_white_space, C05_exactly_the_white_space_is_removed, C06_operator_spelling, C07_normalised_text_reads_back, C07_any_text_reads_back, C07_bracket_free_text_reads_back, C07_normalize_twice, C07_same_text_same_reading, C08_tokens_after_a_shift, C08_unaffected_text_reads_alike_anywhere, C08_product_of_bracketed_texts, C08_factors_can_be_swapped, C09_superscripts_parse_like_carets, C09_dimensionality_is_right_when_defined, C09_superscript_of_a_unit, C09_conversion_is_right_when_defined, C09_comparison_is_right_when_texts_differ, C10_construction_is_validation_only, C11_dates_recognised_exactly, C11_other_units_are_the_expression, C12_nested_dates_refused, C13_date_units_convertible_to_nothing, C14_dimensionality_homomorphism, C14_numbers_have_no_dimension, C14_no_zero_entries, C14_dimensionality_through_definitions, C15_dimensionality_of_expanded_definition, C16_scale_factors_keep_dimensionality, C16_prefix_keeps_dimensionality, C17_convertible_reflexive, C17_convertible_symmetric, C17_convertible_transitive, C17_convertible_means_same_or_inverse_dimension, C18_converter_refuses_exactly_the_inconvertible, C19_unit_of_a_word, C19_expression_units_are_interchangeable, C19_basis_unit_objects, C26_product_with_a_shifted_unit, C28_equality_reflexive, C28_equality_symmetric, C29_history_independent, C29_history_independent_when_stack_suffices, C29_built_systems_are_clash_free, C30_visiting_order_irrelevant, C30_same_units_are_indistinguishable, C30_same_units_convert_alike, C31_add_unit_atomic, C31_primary_words_never_stolen, C32_lookup_returns_the_meaning, C32_one_reading_and_one_meaning, C32_priority, C33_unresolvable_iff_no_reading, C33_the_missing_word_is_mentioned, C34_vocabulary_unchanged, C34_meanings_unchanged, C35_more_stack_same_outcome, C35_acyclic_definitions_terminate, C35_circular_definitions_never_resolve, C47_dimension_part_is_pure, C47_plain_definitions_are_their_own_dimension_part, C47_substitutions_compose, C47_expansion_of_products, C48_only_blank_text_is_the_empty_expression, C48_unit_of_blank_text, C48_unit_of_a_number, C49_reference_dates_are_ignored_refuted, C50_same_spelling_squares_dimensionality_refuted, C53_equal_text_different_unit_refuted, C51_date_units_refuted, C54_history_matters_with_clashing_aliases_refuted, C36_shipped_database_loads, C36_shipped_database_is_history_independent, C37_usable_words_exactly, C38_plural_rule, C38_one_reading_of_a_name, C39_prefix_symbol_order, C40_unknown_content_is_ignored, C40_strict_reader, C55_documents_read_faithfully, C56_same_spelling_queries_exactly, C56_same_spelling_doubles_exponents, C57_unusable_words_refuted, C41_conversion_expr_outcomes, C41_not_possible_iff_incompatible, C41_other_commands, C42_legacy_methods_refuted, C43_expansion_keeps_the_value, C43_expansion_succeeds, C43_expansion_of_a_shift, C44_expansion_is_a_product_of_distinct_units, C45_equality_ignores_exactly_the_raw_text, C45_equality_is_an_equivalence, C46_text_determines_the_time, C58_explain_unit_outcomes, C59_debug_parser_shows_the_tokens, C60_expansion_is_canonical, C60_expansion_has_the_net_exponents, C61_fraction_of_a_second_refuted, C62_equal_datetimes_hash_differently_refuted, C63_generated_lexer_is_the_grammar, C63_one_token, C64_tokens_do_not_depend_on_history, C64_every_lexer_ends, C65_normalised_text_may_not_parse_refuted, C65_normalised_text_may_change_meaning_refuted, C66_shift_changes_later_text_refuted, C66_shift_changes_later_operators_refuted, C67_superscript_refuted, C68_basis_unit_objects_unusable_refuted, C69_empty_unit_refuted, C71_generated_parser_is_the_grammar, C71_prediction_is_the_first_viable_alternative, C71_generated_parse_is_parse, C72_results_do_not_depend_on_history, C72_calls_never_wait, C72_calls_end, C73_dimensionless_means_no_exponent, C73_dimensionless_iff_convertible_to_a_number, C73_time_units_are_not_dimensionless, C74_equality_transitive_when_texts_differ, C75_equality_not_transitive_refuted, C76_accesses_are_the_call, C76_threads_get_the_answers_of_one_thread, C76_threads_get_the_answers_when_stack_suffices, C76_words_stay_known, C76_threads_never_wait, C76_threads_end, C76_shipped_database_can_be_shared, C77_answers_do_not_depend_on_when_units_are_added, C77_answers_do_not_depend_when_stack_suffices, C77_texts_keep_their_units, C77_new_words_are_harmless, C78_registration_order_matters_refuted, C79_accesses_are_the_call, C79_lookups_beside_registrations, C79_lookups_beside_registrations_when_stack_suffices, C79_old_answers_stay, C79_registered_words_are_known, C79_registrations_succeed_or_are_second, C79_later_lookups_see_all_units, C79_threads_never_wait, C79_threads_end, C80_names_can_be_registered_twice_refuted, C81_lookup_sees_half_a_registration_refuted, C82_accesses_are_the_call, C82_lookups_beside_prefixes, C82_lookups_beside_prefixes_when_stack_suffices, C82_old_answers_stay, C82_registered_is_there, C82_registrations_succeed_or_are_second, C82_later_lookups_see_everything, C82_threads_never_wait, C82_threads_end, C83_lookup_fails_when_a_prefix_is_registered_refuted, C84_the_limit_changes_no_answer, C84_a_higher_limit_keeps_answers, C84_enough_frames, C84_threshold, C84_normalize_needs_no_more, C85_long_products_overflow_the_stack_refuted, C85_no_limit_is_enough_refuted, C86_equal_means_same_exponents, C86_equality_is_an_equivalence, C86_equal_to_a_dict, C86_equal_to_other_objects, C86_entries, C86_inverted, C86_text_tells_the_dimensionality, C87_equal_dimensionalities_print_differently_refuted, C88_answers_do_not_depend_on_the_schedule, C88_attributes, C88_every_schedule_ends, C90_written_out_in_one_way_only, C92_torr_is_a_pressure_refuted, C97_replaced_names_stay, C97_texts_use_the_replacement, C97_replaced_symbols_stay, C97_taking_all_the_words_is_enough, C98_replacement_undone, C98_replaced_minute_comes_back_refuted, C99_equality_reflexive, C103_what_is_read, C103_only_content_counts, C103_refusals, C103_without_namespaces_nothing_is_read, C104_namespaces_do_not_matter_refuted, C105_comments_are_ignored_refuted, C106_written_documents_are_read_back, C106_written_documents_give_their_system, C106_shipped_file, C107_ascii_files_are_read_alike, C108_same_words_everywhere_refuted, C109_units_are_compared_as_units, C109_units_equal_only_units, C109_dates_equal_only_themselves, C109_equal_objects_hash_alike, C109_basis_units_are_equal_by_name, C109_dicts_of_basis_units, C111_units_are_hashable_refuted, C115_every_command_line, C115_only_the_values_matter, C115_help, C115_foreign_options, C115_unit_texts_are_no_help_requests, C115_unit_texts_as_arguments, C116_unit_texts_can_be_given_as_they_are_refuted, C117_shipped_file_loads_everywhere, C117_ascii_texts_mean_the_same, C117_indistinguishable_units_convert_alike, C117_shipped_bytes_defined, C118_every_exception_is_a_fault, C118_every_fault_is_raised, C118_faulty_in_all_orders_or_in_none, C118_same_exception_iff_one_fault, C118_shipped_words, C119_two_unknown_words_refuted, C119_exception_order_independent_refuted, C120_composed_texts_are_read_as_composed, C120_offset_of_a_composed_text, C120_which_texts_are_parts, C120_composed_texts_written_out, C121_where_accepted_texts_have_no_blanks, C121_blanks_beside_signs_are_refused, C121_blanks_beside_exponents_are_refused_or_multiply, C121_no_blank_behind_an_opening_bracket, C122_blanks_do_not_matter_refuted
* `ClassicalDedekindReals.sig_forall_dec`, `ClassicalDedekindReals.sig_not_dec`, `Classical_Prop.classic`, `FunctionalExtensionality.functional_extensionality_dep` (42):
  C20_conversion_preserves_the_quantity, C20_inverse_conversion_gives_the_reciprocal, C21_identity, C21_identity_of_any_unit, C22_round_trip, C22_round_trip_of_any_units, C23_conversions_compose, C23_conversions_of_any_units_compose, C24_plain_conversion_is_one_factor, C24_inverse_plain_conversion_is_one_factor, C25_prefix_multiplies_by_its_value, C26_scaling_a_plain_unit, C26_scaling_a_transformed_unit, C27_dimensionless_basis_units_must_match, C28_equality_sound_when_texts_differ, C28_equality_complete, C52_radian_to_number_refuted, C70_scaling_refuted, C89_direct_conversion_is_accurate, C89_inverse_conversion_is_accurate, C90_conversions_on_the_shipped_database, C90_inverse_conversions_on_the_shipped_database, C91_named_units_convert_accurately, C93_offset_conversion_is_accurate, C93_named_units_convert_accurately, C94_bracket_free_expansion_is_the_unit, C94_words_read_back, C95_litre_is_expanded_wrongly_refuted, C95_explain_unit_liter_refuted, C96_expanded_date_is_the_date_unit, C112_logarithmic_conversion_is_accurate, C112_exact_arithmetic_is_allowed, C112_named_units_convert_accurately, C113_arrays_are_converted_element_by_element, C113_name_errors_for_arrays_too, C113_numbers_are_converted_alike, C113_changed_values_are_in_a_new_array, C114_converting_makes_a_new_array_refuted, C114_same_size_returns_the_argument, C123_laws_hold_for_unit_texts, C123_net_powers_decide, C123_factors_of_composed_texts
* `ClassicalDedekindReals.sig_forall_dec`, `FunctionalExtensionality.functional_extensionality_dep` (7):
  C28_whole_numbers_are_compared_exactly, C74_transitive_unless_decimals_are_between, C89_exact_arithmetic_is_allowed, C99_rounding_is_to_nearest_even, C99_equality_symmetric, C99_same_definition_is_equal, C99_equal_units_nearly_agree
* `ClassicalDedekindReals.sig_forall_dec`, `ClassicalDedekindReals.sig_not_dec`, `FunctionalExtensionality.functional_extensionality_dep` (13):
  C90_texts_are_what_they_are_written_out_to, C90_texts_on_the_shipped_database, C91_every_word_is_written_out, C93_exact_arithmetic_is_allowed, C94_expanded_text_read_back, C96_date_texts, C96_dates_of_other_units_refused, C100_three_decimetres_equal_0_3_metres_refuted, C101_rounded_equality_is_transitive_refuted, C102_words_of_the_database_compare_exactly, C110_date_units_of_one_text_are_equal_refuted, C120_units_of_composed_texts, C124_laws_hold_for_equality_of_units_refuted
<!-- /assumptions -->

No axiom of our own, no functor or module type, no `Admitted`, no kernel check switched off.

## Modelled and not modelled

Modelled with simplifications (each stated at the definition):
* The generated ANTLR lexer is modelled as it is: its automaton and the runtime that runs it
  (not modelled there: line and column numbers, verifyATN, predicates and custom actions,
  which the file does not contain; each dict or list access of the shared cache is atomic).
* The generated ANTLR parser likewise: automaton, prediction, generated functions, shared cache.
  Simplifications: a graph-structured stack is the set of its stacks; merge caches,
  PredictionContext caches, closureBusy and the suppression of the precedence filter are left
  out; the alternative picked when no configuration is left is any alternative of the set (or
  none); each access to the cache is atomic; tokens are fetched before the parser starts.
  Error recovery is not modelled: any error is SyntaxError, as `SyntaxErrorRaiser` makes it.
  Parser.v is the same function written as look-ahead tests (C71), which other proofs use.
* sympy: expressions are exact (rational coefficients, real logarithms); automatic
  simplification is represented by the normal forms `mono` and `chain`; `solve` by inverting
  the chain. Expressions outside these forms (units named `value`, `to_value`,
  `value_transformed_to_base_unit_scale`, zero divisors, non-numeric exponents) give
  `EOutOfModel`, and theorems say so. The conversion theorems are over the reals
  except C89, C90, C93, C112 (any rounding within a relative error, Rounding.v, RoundingLog.v) and C99-C102 (equality
  with the rounding of sympy's Floats, FloatEq.v); arrays: NumpyConvert.v, over the reals; other than +, *, /, **, log and exp, lambdify's output is not modelled.
* Decimal: exact values, the limits of exact construction; rounding in `Expander` products of
  more than 28 digits is outside the model (`EOutOfModel`).
* The stack: one unit of fuel per nested unit look-up. For `parse` and `normalize` Stack.v counts
  the Python frames of the visitor and of `__str__`; the frames of lexer and generated parser are a
  parameter; frames of C code, and recursion inside the other visitors and sympy, are not counted.
* Hash order of sets is an arbitrary function; hashes of DateTime are an arbitrary function of
  the tuple hashed.
* CLI: argparse is modelled for this parser (Argparse.v; checked against CPython 3.11 by random testing), without what Python versions treat differently; stderr is not modelled; debug-parser for
  text the grammar refuses is not modelled.
* XML text to tree (lxml): well-formed documents without DTD; a model of lxml, not of code in the repository (XmlText.v).
Not modelled: logging, exception messages (only kind, and the word for
UnresolvableUnitException), `__repr__`, `SimplifyingVisitor` (unused, and
raises TypeError on any division), `_expr/__init__`-level convenience re-exports, thread safety (other than that of `parse`, C64 and C72, and of look-ups, C76, also beside `add_unit` and `add_prefix`, C79, C82).

## Findings (the code as it is)

* Superscript exponents stay text: "m²" parses but its dimensionality raises TypeError (C67); even "m rad²" does, while "rad² m" has one.
* After a shift operator the tokeniser never leaves shift mode: "(K @ 5) T" is a SyntaxError,
  "T (K @ 5)" is fine; "-" and "." are no multiplications there: "(K @ 5) m-s" and
  "(K @ 5) m.s" are SyntaxErrors (C66). "hours@1990-1-1" fails, "hours @1990-1-1" works; "e5" is a
  SyntaxError.
* str of an expression loses brackets: "m/(s kg)" and "m/s kg" print alike and compare equal
  (C65, C53), so equality is not transitive (C75); "(m^2)^3" prints as "m^2^3", which does not parse.
* expanded() writes no brackets, so the basis form of liter is shown as 0.1·meter^3 (100 litres); likewise for 65 other words of the database (C94, C95).
* Scaling a shifted or logarithmic unit divides by the factor and drops a nested shift; a
  product of such a unit with another loses a dimension (C70). With the shipped deci = .1,
  watt → dBm of 10 gives 0.4; the conftest fixture uses deci = 10, which hides it. The
  docstring of Shift says lg(re (years @ 5)) must add 5; the code drops it. "degC @ 10"
  ignores the inner shift.
* Date units: conversions between date units ignore the reference dates (C49), and Converter
  accepts date units is_convertible_to refuses (C51).
* A prefix spelled like the unit ("mm", "hh", "dd", "TT", "uu", "aa") doubles the
  dimensionality (C50, C56).
* Registering a unit whose word already had a prefixed reading ("km") reaches only definitions
  not yet resolved: answers then depend on what was looked up before (C78).
* add_unit(unit, replace=True) is undone when a word of the old, unresolved unit that was not replaced is looked up (C98).
* Equality of units with decimals compares rounded numbers: unit('3 dm') != unit('0.3 m') (C100), and it is not transitive (C101).
* parse_file reads a file without XML namespaces, such as UDUNITS-2's own, as an empty system without any error (C104); a comment inside <unit-system> raises AttributeError (C105); and the shipped file is decoded with the encoding of the locale, although it is UTF-8 (C108).
* convert() from metres to "meter" returns the very array it was given; a change of the result changes the input (C114).
* `explain-unit -5m` is an error of usage up to Python 3.13: argparse takes it for an option (C116).
* Two date units of the same text are not equal (C110), and units other than basis units cannot be hashed (C111).
* add_unit tests first and stores later: two threads can register different units under one name
  (C80); a look-up beside it can combine old and new readings (C81).
* A look-up in one thread raises RuntimeError (dictionary changed size during iteration) when another
  thread registers a prefix meanwhile, also for texts the new prefix has nothing to do with (C83).
* A product of some 250 units raises RecursionError under Python's default limit of 1000 (C85).
* Equal dimensionalities may print differently: `m.s` and `s.m` (C87).
* Units of one dimensionless basis do not convert to numbers: radian → 1 is a NameError (C52).
* BasisUnit objects returned by unit_by_name_or_symbol break is_convertible_to and Converter
  (C68). unit("") raises NotImplementedError (C69).
* 57 shipped words cannot be used as unit strings, 22 cannot be looked up (C37, C57).
* The exception of a text with two faults depends on the hash seed: unit('cmH2O'), a shipped word, is refused for 'cmH' or for 'O', 'arc_second nosuch' with SyntaxError or UnresolvableUnitException (C119). unit('H2O') is refused for the word 'O' (C118).
* Blanks matter: 'm * s', '( m)', 'm ^2' and 'm @  3' are SyntaxErrors while 'm*s', 'm / s' and '(m)' are fine, and 'm 2' is not 'm2' (C122).
* '(0.1 m)*((0.2 m)*(0.3 m))' and '((0.2 m)*(0.1 m))*(0.3 m)' are not == (C124); conversion between them is exact up to rounding.
* With an alias claimed by two units the result of a look-up depends on earlier look-ups
  (C54; does not happen in the shipped file).
* Equal DateTimes hash differently (C62); Time prints one hundredth of its fraction (C61).
* basis_of and conversion_expr import modules that do not exist (C42). CLI `convert` is never
  available; argparse takes argv[0] as the positional "unit"; DateUnit has no __str__, so the
  CLI prints its default repr.
* `if "." or "e" in self.value` in Prefix._expanded_expr is always true (harmless).
* The strict XML reader does not look at text directly inside <unit> and <unit-system>.
* README prints `1.8*value + 31.2` for degC → degF; the code gives `1.8*value + 32`.
