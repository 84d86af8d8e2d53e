{
 "claims": [
  {
   "property": "C01",
   "status": "proved",
   "theorems": [
    "C01_tokenise_total_lossless_longest",
    "C01_next_token_unique"
   ],
   "note": ""
  },
  {
   "property": "C02",
   "status": "proved",
   "theorems": [
    "C02_parse_outcomes",
    "C02_parse_errors",
    "C02_parse_reads",
    "C02_int_error_means_4300_digits"
   ],
   "note": ""
  },
  {
   "property": "C03",
   "status": "proved",
   "theorems": [
    "C03_accepts_exactly_the_grammar",
    "C03_returns_the_preferred_derivation"
   ],
   "note": ""
  },
  {
   "property": "C04",
   "status": "proved",
   "theorems": [
    "C04_one_preferred_reading",
    "C04_a_preferred_reading_exists"
   ],
   "note": ""
  },
  {
   "property": "C05",
   "status": "proved",
   "theorems": [
    "C05_surrounding_white_space",
    "C05_exactly_the_white_space_is_removed"
   ],
   "note": ""
  },
  {
   "property": "C06",
   "status": "proved",
   "theorems": [
    "C06_operator_spelling"
   ],
   "note": ""
  },
  {
   "property": "C07",
   "status": "proved",
   "theorems": [
    "C07_normalised_text_reads_back",
    "C07_any_text_reads_back",
    "C07_bracket_free_text_reads_back",
    "C07_normalize_twice",
    "C07_same_text_same_reading"
   ],
   "note": "PrintSpec.v says what is read back; the unconditional expectation is C65."
  },
  {
   "property": "C08",
   "status": "proved",
   "theorems": [
    "C08_tokens_after_a_shift",
    "C08_unaffected_text_reads_alike_anywhere",
    "C08_product_of_bracketed_texts",
    "C08_factors_can_be_swapped"
   ],
   "note": "ShiftSpec.v says which texts are unaffected; the unconditional expectation is C66."
  },
  {
   "property": "C09",
   "status": "proved",
   "theorems": [
    "C09_superscripts_parse_like_carets",
    "C09_dimensionality_is_right_when_defined",
    "C09_superscript_of_a_unit",
    "C09_conversion_is_right_when_defined",
    "C09_comparison_is_right_when_texts_differ"
   ],
   "note": "SuperSpec.v: carets, with_ints; the unconditional expectation is C67."
  },
  {
   "property": "C10",
   "status": "proved",
   "theorems": [
    "C10_construction_is_validation_only"
   ],
   "note": ""
  },
  {
   "property": "C11",
   "status": "proved",
   "theorems": [
    "C11_dates_recognised_exactly",
    "C11_other_units_are_the_expression"
   ],
   "note": ""
  },
  {
   "property": "C12",
   "status": "proved",
   "theorems": [
    "C12_nested_dates_refused"
   ],
   "note": ""
  },
  {
   "property": "C13",
   "status": "proved",
   "theorems": [
    "C13_date_units_convertible_to_nothing"
   ],
   "note": ""
  },
  {
   "property": "C14",
   "status": "proved",
   "theorems": [
    "C14_dimensionality_homomorphism",
    "C14_numbers_have_no_dimension",
    "C14_no_zero_entries",
    "C14_dimensionality_through_definitions"
   ],
   "note": ""
  },
  {
   "property": "C15",
   "status": "proved",
   "theorems": [
    "C15_dimensionality_of_expanded_definition"
   ],
   "note": ""
  },
  {
   "property": "C16",
   "status": "proved",
   "theorems": [
    "C16_scale_factors_keep_dimensionality",
    "C16_prefix_keeps_dimensionality"
   ],
   "note": ""
  },
  {
   "property": "C17",
   "status": "proved",
   "theorems": [
    "C17_convertible_reflexive",
    "C17_convertible_symmetric",
    "C17_convertible_transitive",
    "C17_convertible_means_same_or_inverse_dimension"
   ],
   "note": ""
  },
  {
   "property": "C18",
   "status": "proved",
   "theorems": [
    "C18_converter_refuses_exactly_the_inconvertible"
   ],
   "note": ""
  },
  {
   "property": "C19",
   "status": "proved",
   "theorems": [
    "C19_unit_of_a_word",
    "C19_expression_units_are_interchangeable",
    "C19_basis_unit_objects"
   ],
   "note": "The unconditional expectation is C68."
  },
  {
   "property": "C20",
   "status": "proved",
   "theorems": [
    "C20_conversion_preserves_the_quantity",
    "C20_inverse_conversion_gives_the_reciprocal"
   ],
   "note": ""
  },
  {
   "property": "C21",
   "status": "proved",
   "theorems": [
    "C21_identity",
    "C21_identity_of_any_unit"
   ],
   "note": ""
  },
  {
   "property": "C22",
   "status": "proved",
   "theorems": [
    "C22_round_trip",
    "C22_round_trip_of_any_units"
   ],
   "note": ""
  },
  {
   "property": "C23",
   "status": "proved",
   "theorems": [
    "C23_conversions_compose",
    "C23_conversions_of_any_units_compose"
   ],
   "note": ""
  },
  {
   "property": "C24",
   "status": "proved",
   "theorems": [
    "C24_plain_conversion_is_one_factor",
    "C24_inverse_plain_conversion_is_one_factor"
   ],
   "note": ""
  },
  {
   "property": "C25",
   "status": "proved",
   "theorems": [
    "C25_prefix_multiplies_by_its_value"
   ],
   "note": ""
  },
  {
   "property": "C26",
   "status": "proved",
   "theorems": [
    "C26_scaling_a_plain_unit",
    "C26_scaling_a_transformed_unit",
    "C26_product_with_a_shifted_unit"
   ],
   "note": "What the code does, exactly; the expectation is C70."
  },
  {
   "property": "C27",
   "status": "proved",
   "theorems": [
    "C27_dimensionless_basis_units_must_match"
   ],
   "note": ""
  },
  {
   "property": "C28",
   "status": "proved",
   "theorems": [
    "C28_equality_reflexive",
    "C28_equality_symmetric",
    "C28_equality_sound_when_texts_differ",
    "C28_equality_complete",
    "C28_whole_numbers_are_compared_exactly"
   ],
   "note": "The first four are about exact arithmetic (unit_eq); C28_whole_numbers_are_compared_exactly says when the rounded comparison of the code (float_eq) agrees with it. With decimals see C99, C100."
  },
  {
   "property": "C29",
   "status": "proved",
   "theorems": [
    "C29_history_independent",
    "C29_history_independent_when_stack_suffices",
    "C29_built_systems_are_clash_free"
   ],
   "note": ""
  },
  {
   "property": "C30",
   "status": "proved",
   "theorems": [
    "C30_visiting_order_irrelevant",
    "C30_same_units_are_indistinguishable",
    "C30_same_units_convert_alike"
   ],
   "note": ""
  },
  {
   "property": "C31",
   "status": "proved",
   "theorems": [
    "C31_add_unit_atomic",
    "C31_primary_words_never_stolen"
   ],
   "note": ""
  },
  {
   "property": "C32",
   "status": "proved",
   "theorems": [
    "C32_lookup_returns_the_meaning",
    "C32_one_reading_and_one_meaning",
    "C32_priority"
   ],
   "note": ""
  },
  {
   "property": "C33",
   "status": "proved",
   "theorems": [
    "C33_unresolvable_iff_no_reading",
    "C33_the_missing_word_is_mentioned"
   ],
   "note": ""
  },
  {
   "property": "C34",
   "status": "proved",
   "theorems": [
    "C34_vocabulary_unchanged",
    "C34_meanings_unchanged"
   ],
   "note": ""
  },
  {
   "property": "C35",
   "status": "proved",
   "theorems": [
    "C35_more_stack_same_outcome",
    "C35_acyclic_definitions_terminate",
    "C35_circular_definitions_never_resolve"
   ],
   "note": ""
  },
  {
   "property": "C47",
   "status": "proved",
   "theorems": [
    "C47_dimension_part_is_pure",
    "C47_plain_definitions_are_their_own_dimension_part",
    "C47_substitutions_compose",
    "C47_expansion_of_products"
   ],
   "note": ""
  },
  {
   "property": "C48",
   "status": "proved",
   "theorems": [
    "C48_only_blank_text_is_the_empty_expression",
    "C48_unit_of_blank_text",
    "C48_unit_of_a_number"
   ],
   "note": "The expectation is C69."
  },
  {
   "property": "C49",
   "status": "partial",
   "theorems": [
    "C49_reference_dates_are_ignored_refuted"
   ],
   "note": "False of the code: the references have no influence."
  },
  {
   "property": "C50",
   "status": "partial",
   "theorems": [
    "C50_same_spelling_squares_dimensionality_refuted"
   ],
   "note": "False of the code: the dimensionality is doubled."
  },
  {
   "property": "C52",
   "status": "partial",
   "theorems": [
    "C52_radian_to_number_refuted"
   ],
   "note": "False of the code: NameError."
  },
  {
   "property": "C53",
   "status": "partial",
   "theorems": [
    "C53_equal_text_different_unit_refuted"
   ],
   "note": "False of the code: equality compares a text that loses brackets."
  },
  {
   "property": "C51",
   "status": "partial",
   "theorems": [
    "C51_date_units_refuted"
   ],
   "note": "False of the code: a Converter is built."
  },
  {
   "property": "C54",
   "status": "partial",
   "theorems": [
    "C54_history_matters_with_clashing_aliases_refuted"
   ],
   "note": "False of the code: with an alias claimed by two definitions the answer depends on earlier look-ups."
  },
  {
   "property": "C36",
   "status": "proved",
   "theorems": [
    "C36_shipped_database_loads",
    "C36_shipped_database_is_history_independent"
   ],
   "note": ""
  },
  {
   "property": "C37",
   "status": "proved",
   "theorems": [
    "C37_usable_words_exactly"
   ],
   "note": ""
  },
  {
   "property": "C38",
   "status": "proved",
   "theorems": [
    "C38_plural_rule",
    "C38_one_reading_of_a_name"
   ],
   "note": ""
  },
  {
   "property": "C39",
   "status": "proved",
   "theorems": [
    "C39_prefix_symbol_order"
   ],
   "note": ""
  },
  {
   "property": "C40",
   "status": "proved",
   "theorems": [
    "C40_unknown_content_is_ignored",
    "C40_strict_reader"
   ],
   "note": ""
  },
  {
   "property": "C55",
   "status": "proved",
   "theorems": [
    "C55_documents_read_faithfully"
   ],
   "note": ""
  },
  {
   "property": "C56",
   "status": "proved",
   "theorems": [
    "C56_same_spelling_queries_exactly",
    "C56_same_spelling_doubles_exponents"
   ],
   "note": "A defect of the code stated exactly."
  },
  {
   "property": "C57",
   "status": "partial",
   "theorems": [
    "C57_unusable_words_refuted"
   ],
   "note": "False of the code: 57 shipped words are refused, e.g. arc_second, whose definition uses an unlexable word."
  },
  {
   "property": "C41",
   "status": "proved",
   "theorems": [
    "C41_conversion_expr_outcomes",
    "C41_not_possible_iff_incompatible",
    "C41_other_commands"
   ],
   "note": "Command lines are read as ArgSpec.v says (C115)."
  },
  {
   "property": "C42",
   "status": "partial",
   "theorems": [
    "C42_legacy_methods_refuted"
   ],
   "note": "False of the code: both methods raise ModuleNotFoundError."
  },
  {
   "property": "C43",
   "status": "proved",
   "theorems": [
    "C43_expansion_keeps_the_value",
    "C43_expansion_succeeds",
    "C43_expansion_of_a_shift"
   ],
   "note": ""
  },
  {
   "property": "C44",
   "status": "proved",
   "theorems": [
    "C44_expansion_is_a_product_of_distinct_units"
   ],
   "note": ""
  },
  {
   "property": "C45",
   "status": "proved",
   "theorems": [
    "C45_equality_ignores_exactly_the_raw_text",
    "C45_equality_is_an_equivalence"
   ],
   "note": ""
  },
  {
   "property": "C46",
   "status": "proved",
   "theorems": [
    "C46_text_determines_the_time"
   ],
   "note": ""
  },
  {
   "property": "C58",
   "status": "proved",
   "theorems": [
    "C58_explain_unit_outcomes"
   ],
   "note": ""
  },
  {
   "property": "C59",
   "status": "proved",
   "theorems": [
    "C59_debug_parser_shows_the_tokens"
   ],
   "note": ""
  },
  {
   "property": "C60",
   "status": "proved",
   "theorems": [
    "C60_expansion_is_canonical",
    "C60_expansion_has_the_net_exponents"
   ],
   "note": ""
  },
  {
   "property": "C61",
   "status": "partial",
   "theorems": [
    "C61_fraction_of_a_second_refuted"
   ],
   "note": "False of the code: eight digits are printed for six, so every fraction shows one hundredth of its value."
  },
  {
   "property": "C62",
   "status": "partial",
   "theorems": [
    "C62_equal_datetimes_hash_differently_refuted"
   ],
   "note": "False of the code: the generated hash includes the raw text that equality ignores."
  },
  {
   "property": "C63",
   "status": "proved",
   "theorems": [
    "C63_generated_lexer_is_the_grammar",
    "C63_one_token"
   ],
   "note": "The serialised automaton itself (5514 numbers, verbatim) is in the model."
  },
  {
   "property": "C64",
   "status": "proved",
   "theorems": [
    "C64_tokens_do_not_depend_on_history",
    "C64_every_lexer_ends"
   ],
   "note": "Each access to the shared cache is one atomic step, as under CPython's GIL."
  },
  {
   "property": "C65",
   "status": "partial",
   "theorems": [
    "C65_normalised_text_may_not_parse_refuted",
    "C65_normalised_text_may_change_meaning_refuted"
   ],
   "note": "False of the code: normalised text may fail to parse or parse to something else; C07 is the exact true statement."
  },
  {
   "property": "C66",
   "status": "partial",
   "theorems": [
    "C66_shift_changes_later_text_refuted",
    "C66_shift_changes_later_operators_refuted"
   ],
   "note": "False of the code: the lexer never leaves shift mode; C08 is the exact true statement."
  },
  {
   "property": "C67",
   "status": "partial",
   "theorems": [
    "C67_superscript_refuted"
   ],
   "note": "False of the code: the exponent stays text and the dimensionality raises TypeError; C09 is the exact true statement."
  },
  {
   "property": "C68",
   "status": "partial",
   "theorems": [
    "C68_basis_unit_objects_unusable_refuted"
   ],
   "note": "False of the code: BasisUnit.dimensionality returns a plain dict; C19 is the exact true statement."
  },
  {
   "property": "C69",
   "status": "partial",
   "theorems": [
    "C69_empty_unit_refuted"
   ],
   "note": "False of the code: unit('') raises NotImplementedError; C48 is the exact true statement."
  },
  {
   "property": "C70",
   "status": "partial",
   "theorems": [
    "C70_scaling_refuted"
   ],
   "note": "False of the code: the factor is inverted, the shift and the other unit's dimension are lost; C26 is the exact true statement."
  },
  {
   "property": "C71",
   "status": "proved",
   "theorems": [
    "C71_generated_parser_is_the_grammar",
    "C71_prediction_is_the_first_viable_alternative",
    "C71_generated_parse_is_parse"
   ],
   "note": "The serialised automaton itself is in the model; error recovery is not (the listener raises)."
  },
  {
   "property": "C72",
   "status": "proved",
   "theorems": [
    "C72_results_do_not_depend_on_history",
    "C72_calls_never_wait",
    "C72_calls_end"
   ],
   "note": "Each access to a shared cache is one atomic step, as under CPython's GIL; the stack of the interpreter is unbounded."
  },
  {
   "property": "C73",
   "status": "proved",
   "theorems": [
    "C73_dimensionless_means_no_exponent",
    "C73_dimensionless_iff_convertible_to_a_number",
    "C73_time_units_are_not_dimensionless"
   ],
   "note": ""
  },
  {
   "property": "C74",
   "status": "proved",
   "theorems": [
    "C74_equality_transitive_when_texts_differ",
    "C74_transitive_unless_decimals_are_between"
   ],
   "note": "The excepted case is C101."
  },
  {
   "property": "C75",
   "status": "partial",
   "theorems": [
    "C75_equality_not_transitive_refuted"
   ],
   "note": "False of the code: equal texts count as equal units although brackets are lost in the text; C74 is the true statement."
  },
  {
   "property": "C76",
   "status": "proved",
   "theorems": [
    "C76_accesses_are_the_call",
    "C76_threads_get_the_answers_of_one_thread",
    "C76_threads_get_the_answers_when_stack_suffices",
    "C76_words_stay_known",
    "C76_threads_never_wait",
    "C76_threads_end",
    "C76_shipped_database_can_be_shared"
   ],
   "note": "Each dictionary operation and attribute access is one atomic step, as under CPython's GIL; each step of the loop over the prefixes reads the dictionary anew. add_unit and add_prefix by users while look-ups run: C79, C82."
  },
  {
   "property": "C77",
   "status": "proved",
   "theorems": [
    "C77_answers_do_not_depend_on_when_units_are_added",
    "C77_answers_do_not_depend_when_stack_suffices",
    "C77_texts_keep_their_units",
    "C77_new_words_are_harmless"
   ],
   "note": "add_unit without replace; SystemGrow.v has the specification (play, only_additions, harmless)."
  },
  {
   "property": "C78",
   "status": "partial",
   "theorems": [
    "C78_registration_order_matters_refuted"
   ],
   "note": "False of the code: a definition resolved before 'km' is registered keeps kilo-metre, one resolved afterwards uses the new unit; C77 is the exact true statement."
  },
  {
   "property": "C79",
   "status": "proved",
   "theorems": [
    "C79_accesses_are_the_call",
    "C79_lookups_beside_registrations",
    "C79_lookups_beside_registrations_when_stack_suffices",
    "C79_old_answers_stay",
    "C79_registered_words_are_known",
    "C79_registrations_succeed_or_are_second",
    "C79_later_lookups_see_all_units",
    "C79_threads_never_wait",
    "C79_threads_end"
   ],
   "note": "add_unit without replace, each dictionary operation one atomic step as under CPython's GIL; SysGrow.v has the specification (new_words, everything, needed_for)."
  },
  {
   "property": "C80",
   "status": "partial",
   "theorems": [
    "C80_names_can_be_registered_twice_refuted"
   ],
   "note": "False of the code: the words are tested first and stored later; both threads can find them free (one after the other the second is refused, C31)."
  },
  {
   "property": "C81",
   "status": "partial",
   "theorems": [
    "C81_lookup_sees_half_a_registration_refuted"
   ],
   "note": "False of the code: one word is read in the old way and another in the new way; C79 is the true statement for words that could not be read before."
  },
  {
   "property": "C82",
   "status": "proved",
   "theorems": [
    "C82_accesses_are_the_call",
    "C82_lookups_beside_prefixes",
    "C82_lookups_beside_prefixes_when_stack_suffices",
    "C82_old_answers_stay",
    "C82_registered_is_there",
    "C82_registrations_succeed_or_are_second",
    "C82_later_lookups_see_everything",
    "C82_threads_never_wait",
    "C82_threads_end"
   ],
   "note": "As C79, with add_prefix: each entry is stored in one atomic step, and the loop over a dictionary raises RuntimeError when its size has changed since the loop began. SysPrefix.v has the specification (new_words_and_prefixes, everything_and_prefixes)."
  },
  {
   "property": "C83",
   "status": "partial",
   "theorems": [
    "C83_lookup_fails_when_a_prefix_is_registered_refuted"
   ],
   "note": "False of the code: the loop over the prefixes raises RuntimeError (dictionary changed size during iteration); C82 is the true statement."
  },
  {
   "property": "C84",
   "status": "proved",
   "theorems": [
    "C84_the_limit_changes_no_answer",
    "C84_a_higher_limit_keeps_answers",
    "C84_enough_frames",
    "C84_threshold",
    "C84_normalize_needs_no_more"
   ],
   "note": "The frames of the visitor and of __str__ are counted function by function; those of the lexer and of the generated parser are an arbitrary function of the tokens. StackSpec.v has the specification."
  },
  {
   "property": "C85",
   "status": "partial",
   "theorems": [
    "C85_long_products_overflow_the_stack_refuted",
    "C85_no_limit_is_enough_refuted"
   ],
   "note": "False of the code: the visitor takes four frames per factor, so a product of n units raises RecursionError when there is no room for 4n frames (250 factors with Python's default limit); C84 is the true statement."
  },
  {
   "property": "C86",
   "status": "proved",
   "theorems": [
    "C86_equal_means_same_exponents",
    "C86_equality_is_an_equivalence",
    "C86_equal_to_a_dict",
    "C86_equal_to_other_objects",
    "C86_entries",
    "C86_inverted",
    "C86_text_tells_the_dimensionality"
   ],
   "note": "exps is the exponent function of UnitSpec.v; the text theorem is for names without quotes (repr of other names is not modelled)."
  },
  {
   "property": "C87",
   "status": "partial",
   "theorems": [
    "C87_equal_dimensionalities_print_differently_refuted"
   ],
   "note": "False of the code: the entries are listed in the order in which the expression mentions the basis units, so r.t and t.r have equal dimensionalities with different texts, for any two basis units."
  },
  {
   "property": "C88",
   "status": "proved",
   "theorems": [
    "C88_answers_do_not_depend_on_the_schedule",
    "C88_attributes",
    "C88_every_schedule_ends"
   ],
   "note": "Every access to the remembered symbolic definition is one atomic step; the answers are those of Convert.v (unit_eq, mk_converter), which remembers nothing. sympy's own caches are not modelled."
  },
  {
   "property": "C89",
   "status": "proved",
   "theorems": [
    "C89_direct_conversion_is_accurate",
    "C89_inverse_conversion_is_accurate",
    "C89_exact_arithmetic_is_allowed"
   ],
   "note": "Rounding is relative (no overflow or underflow); sympy Floats have 53 bits and lambdify prints 15 digits, so eps = 5e-15 covers the code. Offsets: C93; logarithms: C112. Hypotheses met: C90_example."
  },
  {
   "property": "C90",
   "status": "proved",
   "theorems": [
    "C90_texts_are_what_they_are_written_out_to",
    "C90_written_out_in_one_way_only",
    "C90_texts_on_the_shipped_database",
    "C90_conversions_on_the_shipped_database",
    "C90_inverse_conversions_on_the_shipped_database"
   ],
   "note": "Written out means BaseSpec.base_text; a prefix in front of a unit of the same spelling is not written out (see C50, C92)."
  },
  {
   "property": "C91",
   "status": "proved",
   "theorems": [
    "C91_every_word_is_written_out",
    "C91_named_units_convert_accurately"
   ],
   "note": "The words are checked by computation in the kernel on the database of XmlData.v, the prefixes likewise."
  },
  {
   "property": "C92",
   "status": "partial",
   "theorems": [
    "C92_torr_is_a_pressure_refuted"
   ],
   "note": "False of the code: torr is defined as 'mm Hg', and mm is read as meter times meter (C50), so torr is not a pressure and cannot be converted to pascal. The same holds for the other seven spellings (C91 excludes them)."
  },
  {
   "property": "C93",
   "status": "proved",
   "theorems": [
    "C93_offset_conversion_is_accurate",
    "C93_exact_arithmetic_is_allowed",
    "C93_named_units_convert_accurately"
   ],
   "note": "As C89; both shapes of the simplified expression (k*value + b and k*(value + b1) - a2) are allowed for. The bound is relative to the terms, which may cancel. Logarithms: C112. Hypotheses met: C93_example."
  },
  {
   "property": "C94",
   "status": "proved",
   "theorems": [
    "C94_expanded_text_read_back",
    "C94_bracket_free_expansion_is_the_unit",
    "C94_words_read_back"
   ],
   "note": "Expansions are BaseSpec.base_text; PrintSpec.writable leaves out numbers of more than 4300 digits and time-zone words right of a shift. Hypotheses met: C94_example, C94_example_text."
  },
  {
   "property": "C95",
   "status": "partial",
   "theorems": [
    "C95_litre_is_expanded_wrongly_refuted",
    "C95_explain_unit_liter_refuted"
   ],
   "note": "False of the code: the text has no brackets, so liter = (0.1 m)^3 is written 0.1·meter^3, which is a hundred litres, and explain-unit prints that; C94 lists the 66 words concerned."
  },
  {
   "property": "C96",
   "status": "proved",
   "theorems": [
    "C96_date_texts",
    "C96_dates_of_other_units_refused",
    "C96_expanded_date_is_the_date_unit"
   ],
   "note": "PrintSpec.date_ok: a date of the grammar; ends_clean: it does not end in white space. Hypotheses met: C96_example, C96_example_refused."
  },
  {
   "property": "C97",
   "status": "proved",
   "theorems": [
    "C97_replaced_names_stay",
    "C97_texts_use_the_replacement",
    "C97_replaced_symbols_stay",
    "C97_taking_all_the_words_is_enough"
   ],
   "note": "The replacing unit is a NamedUnit object. Hypotheses met: C97_example, C97_example_symbol."
  },
  {
   "property": "C98",
   "status": "partial",
   "theorems": [
    "C98_replacement_undone",
    "C98_replaced_minute_comes_back_refuted"
   ],
   "note": "False of the code: resolving a definition registers all its words again with replace=True, so looking up any word of the old unit that was not replaced (min) undoes the replacement of the others (minute). C98_replacement_undone is the general form."
  },
  {
   "property": "C99",
   "status": "proved",
   "theorems": [
    "C99_rounding_is_to_nearest_even",
    "C99_equality_reflexive",
    "C99_equality_symmetric",
    "C99_same_definition_is_equal",
    "C99_equal_units_nearly_agree"
   ],
   "note": "Rounding to nearest even with unbounded exponents is computed (FloatEq.v); of Float ** Integer only the accuracy 2^-52 is assumed, met by Prop_FloatEqDb.nearest. Hypotheses met: C99_example."
  },
  {
   "property": "C100",
   "status": "partial",
   "theorems": [
    "C100_three_decimetres_equal_0_3_metres_refuted"
   ],
   "note": "False of the code: 3 * 0.1 is rounded to another Float than 0.3, so unit('3 dm') != unit('0.3 m')."
  },
  {
   "property": "C101",
   "status": "partial",
   "theorems": [
    "C101_rounded_equality_is_transitive_refuted"
   ],
   "note": "False of the code: an exact factor is rounded before it is compared with a Float, so two different exact factors can equal the same Float."
  },
  {
   "property": "C102",
   "status": "proved",
   "theorems": [
    "C102_words_of_the_database_compare_exactly"
   ],
   "note": "Powers of Floats are assumed to be correctly rounded. Hypotheses met: C102_example."
  },
  {
   "property": "C103",
   "status": "proved",
   "theorems": [
    "C103_what_is_read",
    "C103_only_content_counts",
    "C103_refusals",
    "C103_without_namespaces_nothing_is_read"
   ],
   "note": "Hypotheses met: C103_example, C103_bare_example."
  },
  {
   "property": "C104",
   "status": "partial",
   "theorems": [
    "C104_namespaces_do_not_matter_refuted"
   ],
   "note": "False of the code: the name of an element is what follows '}' in lxml's tag, which is the empty text for elements without a namespace; the default reader then returns an empty system (C103_without_namespaces_nothing_is_read)."
  },
  {
   "property": "C105",
   "status": "partial",
   "theorems": [
    "C105_comments_are_ignored_refuted"
   ],
   "note": "False of the code: lxml's tag of a comment is a function, and from_element raises AttributeError (C103_refusals)."
  },
  {
   "property": "C106",
   "status": "proved",
   "theorems": [
    "C106_written_documents_are_read_back",
    "C106_written_documents_give_their_system",
    "C106_shipped_file"
   ],
   "note": "lxml is modelled for well-formed documents without DTD (XmlText.v). Hypotheses met: C106_example."
  },
  {
   "property": "C107",
   "status": "proved",
   "theorems": [
    "C107_ascii_files_are_read_alike"
   ],
   "note": "Hypotheses met: C107_example."
  },
  {
   "property": "C108",
   "status": "partial",
   "theorems": [
    "C108_same_words_everywhere_refuted"
   ],
   "note": "False of the code: the file is opened in text mode without an encoding, so with a Latin-1 locale its UTF-8 bytes are misread and unit('°C') is unknown."
  },
  {
   "property": "C109",
   "status": "proved",
   "theorems": [
    "C109_units_are_compared_as_units",
    "C109_units_equal_only_units",
    "C109_dates_equal_only_themselves",
    "C109_equal_objects_hash_alike",
    "C109_basis_units_are_equal_by_name",
    "C109_dicts_of_basis_units"
   ],
   "note": "Exact arithmetic, as in C28; CPython's rules for calling __eq__ are modelled (PyObject.v). Basis units named like the converter's own symbols are left out. Hypotheses met: C109_example."
  },
  {
   "property": "C110",
   "status": "partial",
   "theorems": [
    "C110_date_units_of_one_text_are_equal_refuted"
   ],
   "note": "False of the code: DateUnit defines no __eq__, and every call makes a new object."
  },
  {
   "property": "C111",
   "status": "partial",
   "theorems": [
    "C111_units_are_hashable_refuted"
   ],
   "note": "False of the code: Unit defines __eq__ without __hash__, so hash() raises TypeError for every unit that is not a date unit. Hypothesis met: C111_example."
  },
  {
   "property": "C112",
   "status": "proved",
   "theorems": [
    "C112_logarithmic_conversion_is_accurate",
    "C112_exact_arithmetic_is_allowed",
    "C112_named_units_convert_accurately"
   ],
   "note": "As C89 and C93; the inverted logarithm may be computed as b**v or exp(v*log(b)), the logarithm directly or as a quotient. A level target needs a positive quantity. Scaled logarithms (dBm) are not covered, see C70. Hypotheses met: C112_example."
  },
  {
   "property": "C113",
   "status": "proved",
   "theorems": [
    "C113_arrays_are_converted_element_by_element",
    "C113_name_errors_for_arrays_too",
    "C113_numbers_are_converted_alike",
    "C113_changed_values_are_in_a_new_array"
   ],
   "note": "numpy's elementwise functions and the code lambdify prints are modelled (NumpyConvert.v), on arrays of real numbers and not-finite elements; integer overflow is not. Hypotheses met: C113_example (the README's)."
  },
  {
   "property": "C114",
   "status": "partial",
   "theorems": [
    "C114_converting_makes_a_new_array_refuted",
    "C114_same_size_returns_the_argument"
   ],
   "note": "False of the code: between units of the same size written with whole numbers the lambdified function is `lambda value: value`, which returns its argument. C113_changed_values_are_in_a_new_array is the true part."
  },
  {
   "property": "C115",
   "status": "proved",
   "theorems": [
    "C115_every_command_line",
    "C115_only_the_values_matter",
    "C115_help",
    "C115_foreign_options",
    "C115_unit_texts_are_no_help_requests",
    "C115_unit_texts_as_arguments"
   ],
   "note": "Argparse.v models the standard library's argparse for this parser; which arguments are negative numbers is a parameter. Specification: ArgSpec.v; wrong number of values, unknown and missing subcommand: C41_other_commands. Hypotheses met: C115_example."
  },
  {
   "property": "C116",
   "status": "partial",
   "theorems": [
    "C116_unit_texts_can_be_given_as_they_are_refuted"
   ],
   "note": "False of the code up to Python 3.13: explain-unit -5m is an error of usage. C115_unit_texts_as_arguments says exactly which unit texts are read."
  },
  {
   "property": "C117",
   "status": "proved",
   "theorems": [
    "C117_shipped_file_loads_everywhere",
    "C117_ascii_texts_mean_the_same",
    "C117_indistinguishable_units_convert_alike",
    "C117_shipped_bytes_defined"
   ],
   "note": "Three locales: UTF-8, Latin-1, Windows-1252. Units are compared by all that can be asked of them (indistinguishable); which exception is raised is not compared. Hypotheses met: C117_example."
  },
  {
   "property": "C118",
   "status": "proved",
   "theorems": [
    "C118_every_exception_is_a_fault",
    "C118_every_fault_is_raised",
    "C118_faulty_in_all_orders_or_in_none",
    "C118_same_exception_iff_one_fault",
    "C118_shipped_words"
   ],
   "note": "Faults are specified without visiting orders or states (RaisesSpec.v); RecursionError is excluded when the stack is deeper than the definitions. Messages are not modelled. Hypotheses met: C118_example, and by the shipped database."
  },
  {
   "property": "C119",
   "status": "partial",
   "theorems": [
    "C119_two_unknown_words_refuted",
    "C119_exception_order_independent_refuted"
   ],
   "note": "False of the code: unit('cmH2O'), a word of the shipped database, raises UnresolvableUnitException for 'cmH' or for 'O' depending on the visiting order, 'arc_second nosuch' SyntaxError or UnresolvableUnitException, and every text with two unknown words likewise. When it holds: C118."
  },
  {
   "property": "C120",
   "status": "proved",
   "theorems": [
    "C120_composed_texts_are_read_as_composed",
    "C120_offset_of_a_composed_text",
    "C120_which_texts_are_parts",
    "C120_composed_texts_written_out",
    "C120_units_of_composed_texts"
   ],
   "note": "Recipes and their texts are specified in ComposeSpec.v, the meaning of texts in BaseSpec.v. The restriction to parts without shift operators is needed (C08). Hypotheses met: C120_example."
  },
  {
   "property": "C121",
   "status": "proved",
   "theorems": [
    "C121_where_accepted_texts_have_no_blanks",
    "C121_blanks_beside_signs_are_refused",
    "C121_blanks_beside_exponents_are_refused_or_multiply",
    "C121_no_blank_behind_an_opening_bracket"
   ],
   "note": "The general statement is about the tokens of the text; the others about texts. Hypotheses met: C120_example, C122_blanks_do_not_matter_refuted."
  },
  {
   "property": "C122",
   "status": "partial",
   "theorems": [
    "C122_blanks_do_not_matter_refuted"
   ],
   "note": "False of the code: 'm*s' is accepted and 'm * s' is a SyntaxError, so are '( m)', 'm ^2' and 'm @  3', while 'm / s' is accepted; 'm2' is a square and 'm 2' twice a meter. Where blanks may not stand: C121."
  },
  {
   "property": "C123",
   "status": "proved",
   "theorems": [
    "C123_laws_hold_for_unit_texts",
    "C123_net_powers_decide",
    "C123_factors_of_composed_texts"
   ],
   "note": "The laws are specified in AlgebraSpec.v, composed texts in ComposeSpec.v. Converted values are exact reals here; for their rounding see C89. Hypotheses met: C123_example, C123_example_of_whole_numbers."
  },
  {
   "property": "C124",
   "status": "partial",
   "theorems": [
    "C124_laws_hold_for_equality_of_units_refuted"
   ],
   "note": "False of the code: (0.1 m)*((0.2 m)*(0.3 m)) == ((0.2 m)*(0.1 m))*(0.3 m) is False on the shipped database, because sympy multiplies the rounded decimals in another order. Regrouping alone keeps the written text and so ==. True for whole numbers and for conversion: C123."
  }
 ]
}
