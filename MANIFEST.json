{
 "claims": [
  {
   "property": "C01",
   "status": "proved",
   "theorems": [
    "c01_add_exact",
    "c01_sub_exact",
    "c01_mul_exact",
    "c01_div_exact",
    "c01_div_zero_refused",
    "c01_small_operands_exact"
   ],
   "note": "Exact whenever the intermediate integers fit the precision; a plain digit bound on the operands (3k+1<=p) suffices. Division is refused exactly for a zero divisor."
  },
  {
   "property": "C02",
   "status": "proved",
   "theorems": [
    "c02_positive_denominator",
    "c02_constructor_lowest",
    "c02_unique",
    "c02_lowest_beyond_precision_refuted"
   ],
   "note": "Positive denominator for every Number reachable through the constructor and all operators; lowest terms and unique representation when the integers given to the reduction fit the precision; shown false beyond it."
  },
  {
   "property": "C03",
   "status": "proved",
   "theorems": [
    "c03_add_comm",
    "c03_mul_comm"
   ],
   "note": "Unconditional, for every precision, including rounding and refusal."
  },
  {
   "property": "C04",
   "status": "proved",
   "theorems": [
    "c04_consistent",
    "c04_lt_sound",
    "c04_total",
    "c04_trans",
    "c04_eq_antisym",
    "c04_lt_not_ge",
    "c04_small_exact",
    "c04_small_hash",
    "c04_strict_and_hash_refuted"
   ],
   "note": "Total preorder consistent with the exact order; exact on Numbers of at most k digits with 2k+1<=p; strictness and the hash contract refuted beyond that (1/3 against 100 threes)."
  },
  {
   "property": "C05",
   "status": "proved",
   "theorems": [
    "c05_floordiv",
    "c05_mod",
    "c05_same_sign_identity",
    "c05_identity_refuted",
    "c05_floor_ceil_trunc"
   ],
   "note": "Floor division, remainder and floor/ceiling/truncation; identity for same signs, refuted for -7 and 2."
  },
  {
   "property": "C06",
   "status": "proved",
   "theorems": [
    "c06_pow_nonneg",
    "c06_pow_negative",
    "c06_zero_to_negative_refused",
    "c06_exponents_add"
   ],
   "note": "Quantified over any Decimal power function that is exact when the exact result fits (pow_ok); a conforming function is exhibited."
  },
  {
   "property": "C07",
   "status": "proved",
   "theorems": [
    "c07_literal_match",
    "c07_literal_match_sound",
    "c07_literal_exact"
   ],
   "note": "Regex match complete and sound; value exact for any number of integer digits and at most p fractional digits."
  },
  {
   "property": "C08",
   "status": "proved",
   "theorems": [
    "c08_printed_literal",
    "c08_printed_error",
    "c08_round_trip",
    "c08_printable",
    "c08_negative_zero_refuted",
    "c08_large_numbers_refuted",
    "c08_too_large"
   ],
   "note": "Shape, error bound, exact round trip through the literal parser, and when printing succeeds; '-0' and failure for 71-digit integers are recorded as refutations."
  },
  {
   "property": "C09",
   "status": "proved",
   "theorems": [
    "c09_round_trip",
    "c09_round_trip_integers",
    "c09_printed_canonical",
    "c09_zero_printed",
    "c09_read_value",
    "c09_base_range",
    "c09_hex_round_trip",
    "c09_oct_round_trip",
    "c09_bin_round_trip",
    "c09_arb_round_trip",
    "c09_trailing_point_refuted",
    "c09_arbitrary_base_ten_refuted"
   ],
   "note": "All bases 2..36 for values m/b^f with f within the configured places and sizes within the precision; the literal formats (hex, octal, binary with width, arbitrary base) are proved through their regular expressions. Outside these bounds two refutations: a malformed trailing point, and the unprintable arbitrary base 10."
  },
  {
   "property": "C10",
   "status": "proved",
   "theorems": [
    "c10_prefix_stripped",
    "c10_hex_literal_value",
    "c10_oct_literal_value",
    "c10_bin_literal_value",
    "c10_arb_literal_value",
    "c10_base36_refuted"
   ],
   "note": "Binary, octal and hexadecimal prefixes and arbitrary bases up to 35 for all digits; base 36 refuted with a witness, as the property says."
  },
  {
   "property": "C11",
   "status": "proved",
   "theorems": [
    "c11_power_list",
    "c11_keys",
    "c11_deduplicate_partial",
    "c11_deduplicate_refuted",
    "c11_deduplicate_twice_refuted",
    "c11_zero_added_refuted"
   ],
   "note": "Invariant over all sequences of add, remove, power and merge with non-zero powers, for any key equivalence. deduplicate is covered when no running total vanishes; two refutations show it loses powers and keeps duplicates otherwise, and a third that adding power zero stores a zero entry."
  },
  {
   "property": "C12",
   "status": "proved",
   "theorems": [
    "c12_value",
    "c12_round_trip",
    "c12_transitive"
   ],
   "note": "Exact rationals; any compound of scale units with distinct clean names. Existence of the back conversion is proved, not assumed."
  },
  {
   "property": "C13",
   "status": "partial",
   "theorems": [
    "c13_conversion_partial",
    "c13_no_repeat",
    "c13_positive",
    "c13_unitless",
    "c13_mismatch_refuted",
    "c13_equal_refused_refuted"
   ],
   "note": "Both directions proved when no running total of a base dimension vanishes while the expansion is merged (always so without repeated dimensions, or with positive powers). Without that the statement is false of the code: witnesses both ways."
  },
  {
   "property": "C14",
   "status": "proved",
   "theorems": [
    "c14_temperature",
    "c14_inverse",
    "c14_celsius_fahrenheit",
    "c14_compound_refuted",
    "c14_square_refuted"
   ],
   "note": "All pairs of Kelvin, Celsius, Fahrenheit, absolute and relative. Inside compound units the code is wrong (two refutations)."
  },
  {
   "property": "C15",
   "status": "proved",
   "theorems": [
    "c15_search"
   ],
   "note": "Total, sound, complete and without repetition for all unit lists and all goals that list each dimension once with non-zero powers."
  },
  {
   "property": "C16",
   "status": "partial",
   "theorems": [
    "c16_value_partial",
    "c16_dimension_refuted",
    "c16_fails_refuted",
    "c16_distinct",
    "c16_pair",
    "c16_cancel"
   ],
   "note": "Value times size is kept whenever dedupe succeeds; different dimensions are left alone (c16_distinct), a unit of the dimension of the first is turned into the first (c16_pair) and two of opposite powers cancel (c16_cancel), all with value times size and dimensions kept. In general false: dimension changes, or IndexError (witnesses)."
  },
  {
   "property": "C17",
   "status": "proved",
   "theorems": [
    "c17_table",
    "c17_table_extend",
    "c17_order",
    "c17_direction",
    "c17_layout",
    "c17_unlisted_refuted"
   ],
   "note": "For every layout with disjoint levels and every sequence of additions of listed symbols; same table for every order; direction mismatch refused; unlisted symbols refuted."
  },
  {
   "property": "C18",
   "status": "proved",
   "theorems": [
    "c18_parsers",
    "c18_order",
    "c18_active"
   ],
   "note": "For every layout and every sequence of additions."
  },
  {
   "property": "C19",
   "status": "proved",
   "theorems": [
    "c19_exact",
    "c19_extends",
    "c19_once",
    "c19_terminates",
    "c19_idempotent",
    "c19_unknown",
    "c19_meta_order_refuted"
   ],
   "note": "For every feature graph, request and previous state; termination for acyclic graphs; the reported error for unknown features is a KeyError; after() constraints against members of a meta-feature refuted."
  },
  {
   "property": "C20",
   "status": "proved",
   "theorems": [
    "c20_lossless",
    "c20_highlight"
   ],
   "note": "For every configuration of the modelled parsers (any order, any number/unit lexers, any operator table and array symbols) a successful parse spells the whole input, every nested item spells its own text, and highlighting it yields exactly its leaves."
  },
  {
   "property": "C21",
   "status": "proved",
   "theorems": [
    "c21_position"
   ],
   "note": "A failing parse splits the input exactly into the reported items and the reported remaining text, also for errors nested in arguments, arrays, parentheses and inline functions; find_pos gives that place."
  },
  {
   "property": "C22",
   "status": "proved",
   "theorems": [
    "c22_terminates",
    "c22_result_or_error",
    "c22_empty_symbol_refuted"
   ],
   "note": "Depth length+1 always suffices (given a non-empty array symbol, else refuted); with lexers that do not raise, the outcome is a result or a parsing error."
  },
  {
   "property": "C23",
   "status": "proved",
   "theorems": [
    "c23_precedence",
    "c23_grouping_exists",
    "c23_grouping_unique",
    "c23_loop_ends"
   ],
   "note": "Binary operators and implicit multiplication, any levels and directions, any interpretation that returns or raises a calculator exception and never gives a unit; the grouping exists and is unique; the loop always ends."
  },
  {
   "property": "C24",
   "status": "proved",
   "theorems": [
    "c24_operands_first",
    "c24_arguments",
    "c24_pointer_arguments"
   ],
   "note": "Any operator table and operators. Every operand is run once in written order before the first operator; then operators only. An exception the calculator does not know about, or running out of depth, ends it early."
  },
  {
   "property": "C25",
   "status": "proved",
   "theorems": [
    "c25_error_returned"
   ],
   "note": "Operation.call modelled for every definition, environment and state; the first error input is returned unchanged, state untouched; implementation irrelevant."
  },
  {
   "property": "C26",
   "status": "proved",
   "theorems": [
    "c26_refused",
    "c26_not_run",
    "c26_run",
    "c26_array_of"
   ],
   "note": "Unacceptable inputs give an error naming the operation for any implementation; acceptable ones reach it (running part stated without unit conversion, on scalars). Printing of the inputs in the message is an oracle (e_tostr). c26_array_of says what array[t] accepts, without units; as the type of elements the model has the types of the standard calculator only, which is all that the functions declare."
  },
  {
   "property": "C27",
   "status": "proved",
   "theorems": [
    "c27_broadcast",
    "c27_lengths_differ",
    "c27_packed"
   ],
   "note": "Row by row application for all nestings, with the state threaded; different lengths refused; several scalars for a one-array function are packed."
  },
  {
   "property": "C28",
   "status": "proved",
   "theorems": [
    "c28_only_calculator_errors_refuted",
    "c28_contained",
    "c28_standard",
    "c28_conditions_refuted",
    "c28_regex",
    "c28_units",
    "c28_simplify_refuted"
   ],
   "note": "Proved in general, for the standard calculator, with regular expressions (any engine), and with units and dates (any units whose names are apart from the array symbols, answers not simplified), under conditions on the text and if numbers can be displayed; refuted without the conditions (five texts). Termination is C52."
  },
  {
   "property": "C29",
   "status": "proved",
   "theorems": [
    "c29_results_before",
    "c29_all_results",
    "c29_one_outcome"
   ],
   "note": "Every statement list and failing position, stated by a separate step relation; the results before the failing statement are exactly those of running these alone."
  },
  {
   "property": "C30",
   "status": "proved",
   "theorems": [
    "c30_assign",
    "c30_history",
    "c30_statement",
    "c30_update",
    "c30_step",
    "c30_delete_unset",
    "c30_delete_array_refuted"
   ],
   "note": "Assignment, conditional assignment, updating operators, delete and reset at the level of calls, any history of them, and statements x = e. c30_delete_array_refuted: of a variable holding an array, delete works on the elements, leaves the variable and deletes variables the elements came from. Deleting through delete is proved for values that are not arrays."
  },
  {
   "property": "C31",
   "status": "proved",
   "theorems": [
    "c31_assign_if_empty",
    "c31_once"
   ],
   "note": "Also that the result is the new value when the variable keeps its own."
  },
  {
   "property": "C32",
   "status": "proved",
   "theorems": [
    "c32_stateless",
    "c32_stateless_exact",
    "c32_reset_refuted",
    "c32_delete_refuted"
   ],
   "note": "For every calculator with the operators and any of the functions except reset and delete, on any text; parameters of inline functions excepted (exact without inline functions). Refuted for reset and delete."
  },
  {
   "property": "C33",
   "status": "proved",
   "theorems": [
    "c33_inline_function",
    "c33_inline_call",
    "c33_empty_body_refuted",
    "c33_unknown_error_refuted"
   ],
   "note": "Any body with a statement in it that does not end in an error unknown to the calculator, at the level of the function and of a whole call with arrays. Refuted for an empty body and for an unknown error."
  },
  {
   "property": "C34",
   "status": "proved",
   "theorems": [
    "c34_external_function",
    "c34_external_call"
   ],
   "note": "Any file content, whatever happens in it; any inputs of the call."
  },
  {
   "property": "C35",
   "status": "proved",
   "theorems": [
    "c35_tables",
    "c35_not",
    "c35_right_error",
    "c35_refused",
    "c35_then",
    "c35_then_refused",
    "c35_then_array_refuted"
   ],
   "note": "All operands and states. Tables of and/or/xor/not; an error on the right is ignored exactly where the left decides; then/else returns value, unit and reference of the chosen branch. False for branches that are arrays (c35_then_array_refuted): they are taken element by element."
  },
  {
   "property": "C36",
   "status": "proved",
   "theorems": [
    "c36_range",
    "c36_wrong_way",
    "c36_default",
    "c36_step_zero_refuted",
    "c36_ends_refuted"
   ],
   "note": "For parts over a common denominator d with 2k+1 digits of precision the range is exactly start, start+step, ... up to the end; the wrong direction is an error; without a step it is 1 or -1. A step of 0 gives an empty array (c36_step_zero_refuted); a step lost in rounding never ends (c36_ends_refuted). Ranges with units are modelled but not covered."
  },
  {
   "property": "C37",
   "status": "proved",
   "theorems": [
    "c37_sort",
    "c37_sort_exact",
    "c37_reverse",
    "c37_concat",
    "c37_count",
    "c37_filter",
    "c37_element",
    "c37_element_out",
    "c37_element_zero_refuted"
   ],
   "note": "sort is a stable permutation ordered by decimals, and by exact values within half the precision; reverse, concat, count, filter, element are the list functions. element outside the array is an error, except that places 0 and below count from the end (c37_element_zero_refuted)."
  },
  {
   "property": "C38",
   "status": "proved",
   "theorems": [
    "c38_position_exact",
    "c38_truncate_exact",
    "c38_position_sound"
   ],
   "note": "find_pos and truncate modelled exactly; position exact for spelled prefixes, sound for all item lists."
  },
  {
   "property": "C39",
   "status": "proved",
   "theorems": [
    "c39_fragments_concat",
    "c39_highlight_total",
    "c39_highlight_leaves"
   ],
   "note": "highlight modelled exactly (without its printing); fragments concatenate to the text whenever it returns, it returns for all items occurring in order, and yields the leaves when the texts agree."
  },
  {
   "property": "C40",
   "status": "proved",
   "theorems": [
    "c40_longest",
    "c40_none"
   ],
   "note": "Exact characterisation of the operator parser: longest acceptable operator, none only if none is acceptable."
  },
  {
   "property": "C41",
   "status": "proved",
   "theorems": [
    "c41_string"
   ],
   "note": "For every text, following text and quote/escape characters that differ."
  },
  {
   "property": "C42",
   "status": "proved",
   "theorems": [
    "c42_statements",
    "c42_memory",
    "c42_history_refuted",
    "c42_complete"
   ],
   "note": "Statements are divided exactly at terminators and are complete before them; the remembered text is always that of an incomplete statement; independence of history is refuted with a witness."
  },
  {
   "property": "C43",
   "status": "proved",
   "theorems": [
    "c43_fake_execution",
    "c43_parse_only"
   ],
   "note": "The completeness check leaves the store unchanged and does not depend on it; calculating with parse_only leaves it unchanged and gives no answers."
  },
  {
   "property": "C44",
   "status": "proved",
   "theorems": [
    "c44_lookup",
    "c44_order"
   ],
   "note": "Lookup by name or symbol gives the most preferred system's unit; independent of the order of registration; KeyError exactly when no preferred system has one."
  },
  {
   "property": "C45",
   "status": "proved",
   "theorems": [
    "c45_gcd",
    "c45_lcm",
    "c45_fact",
    "c45_refused",
    "c45_fact_refused"
   ],
   "note": "gcd, lcm and factorial of integers in any format; other arguments are refused."
  },
  {
   "property": "C46",
   "status": "proved",
   "theorems": [
    "c46_bits",
    "c46_shift",
    "c46_shift_refused",
    "c46_not",
    "c46_not_twice",
    "c46_not_decimal_refuted",
    "c46_not_shifted_refuted"
   ],
   "note": "and, or, xor, shifts are those of two's-complement integers; not at the width of the operand is an involution for operands with a based format. For plain decimals the width is the number of decimal digits, and shifts keep the width of the operand, so not is not an involution there (refuted)."
  },
  {
   "property": "C47",
   "status": "proved",
   "theorems": [
    "c47_split_join",
    "c47_split_empty",
    "c47_join_split",
    "c47_join_split_char",
    "c47_join_split_refuted",
    "c47_none_refuted"
   ],
   "note": "For all texts and non-empty delimiters join undoes split. split undoes join when no part starts a delimiter early (for one character: no part has it); parts without the delimiter are not enough (c47_join_split_refuted)."
  },
  {
   "property": "C48",
   "status": "proved",
   "theorems": [
    "c48_result_format"
   ],
   "note": "For scalar inputs and restrictions in parameter order."
  },
  {
   "property": "C49",
   "status": "proved",
   "theorems": [
    "c49_graph",
    "c49_installs",
    "c49_nested"
   ],
   "note": "The feature graph of the repository (83 features, transcribed) is acyclic and complete; every list of its features installs; presets nest."
  },
  {
   "property": "C50",
   "status": "proved",
   "theorems": [
    "c50_rounding_error",
    "c50_rounding_exact_when_fits",
    "c50_mul_error",
    "c50_div_error"
   ],
   "note": "Relative error of one rounding, and of a whole multiplication or division as four such roundings."
  },
  {
   "property": "C51",
   "status": "proved",
   "theorems": [
    "c51_normalise_from_left",
    "c51_normalise_from_right"
   ],
   "note": "Both directions of rewriting, in exact rationals; includes the termination of the while loop (the fuel given is proved sufficient)."
  },
  {
   "property": "C52",
   "status": "proved",
   "theorems": [
    "c52_depth",
    "c52_terminates",
    "c52_standard"
   ],
   "note": "A larger bound on the depth of nesting never changes an answer; statements without function pointers and ranges always get one. c52_standard: the standard operators and functions meet the hypothesis of c52_terminates."
  },
  {
   "property": "C53",
   "status": "proved",
   "theorems": [
    "c53_sum",
    "c53_min",
    "c53_max",
    "c53_mean",
    "c53_median",
    "c53_mode",
    "c53_empty"
   ],
   "note": "sum, min, max, mean, median and mode over arrays of numbers in any format, through the call of the operation. min, max compare and mean, median and mode work on the elements' decimals at the precision. stdev, whose square root depends on the Python version, is in C69, with what the library gives as a parameter."
  },
  {
   "property": "C54",
   "status": "proved",
   "theorems": [
    "c54_add",
    "c54_times",
    "c54_length",
    "c54_find",
    "c54_substr_from",
    "c54_substr",
    "c54_substr_refuted",
    "c54_strip",
    "c54_replace",
    "c54_replace_empty",
    "c54_case",
    "c54_order",
    "c54_caseless",
    "c54_caseless_equal",
    "c54_total"
   ],
   "note": "All through the call of the operation or operator; letters are ASCII. substr is proved for positions that do not lie before the first character; an end before it goes round twice instead of giving the empty text (c54_substr_refuted: substr('abc', 0, -5) is 'ab')."
  },
  {
   "property": "C55",
   "status": "proved",
   "theorems": [
    "c55_exact",
    "c55_int_divide",
    "c55_mod",
    "c55_div_mod_refuted",
    "c55_by_zero",
    "c55_power",
    "c55_compare",
    "c55_abs"
   ],
   "note": "Through the operator call, with conversion of texts and formats; operands without units. Integer division floors and the remainder truncates, so (a \\ b) * b + a % b is not a for operands of different sign (c55_div_mod_refuted)."
  },
  {
   "property": "C56",
   "status": "proved",
   "theorems": [
    "c56_whole",
    "c56_places",
    "c56_close",
    "c56_negative_refused"
   ],
   "note": "The rounding through a decimal of the working precision is shown not to disturb the comparison with the half. Sizes: numerator, denominator and m below 10^j with 4j+3 digits of precision."
  },
  {
   "property": "C57",
   "status": "proved",
   "theorems": [
    "c57_sum",
    "c57_compare",
    "c57_different",
    "c57_plain",
    "c57_degrees",
    "c57_warmer",
    "c57_table"
   ],
   "note": "number of digits of the converted operand is bounded by hypothesis (has_digits); c57_table checks the hypotheses on units for the table of the code, c57_degrees and c57_warmer are the temperatures"
  },
  {
   "property": "C58",
   "status": "proved",
   "theorems": [
    "c58_product",
    "c58_scale",
    "c58_by_zero",
    "c58_no_dimension_refuted"
   ],
   "note": "the digits of the rewritten operand are bounded by hypothesis; a right operand whose dimensions cancel is refuted (c58_no_dimension_refuted)"
  },
  {
   "property": "C59",
   "status": "proved",
   "theorems": [
    "c59_to",
    "c59_round_trip",
    "c59_different",
    "c59_no_unit",
    "c59_temperature"
   ],
   "note": "units whose running totals of exponents vanish are excluded by steady (see C13)"
  },
  {
   "property": "C60",
   "status": "proved",
   "theorems": [
    "c60_power",
    "c60_exponent",
    "c60_units",
    "c60_unit_power",
    "c60_of_unit",
    "c60_cancel_refuted"
   ],
   "note": "powers of units are integers in the model; units that cancel are an error: c60_cancel_refuted"
  },
  {
   "property": "C61",
   "status": "proved",
   "theorems": [
    "c61_error",
    "c61_error_value",
    "c61_standard_operators",
    "c61_plain_operands",
    "c61_position",
    "c61_kept_error_refuted"
   ],
   "note": "which operators only pass on errors is proved for the standard ones (all but ++, -- and the computing assignments); an error kept in an array is reported at a wrong position or at none: c61_kept_error_refuted"
  },
  {
   "property": "C62",
   "status": "proved",
   "theorems": [
    "c62_lookup",
    "c62_longest"
   ],
   "note": "symbols longer than the longest name are not tried, as in the code; letters are those of Latin-1"
  },
  {
   "property": "C63",
   "status": "proved",
   "theorems": [
    "c63_reads",
    "c63_round_trip",
    "c63_padding_refuted",
    "c63_move",
    "c63_refused",
    "c63_there_and_back",
    "c63_difference",
    "c63_symmetric",
    "c63_no_difference",
    "c63_moved_apart",
    "c63_human",
    "c63_human_refused",
    "c63_texts",
    "c63_one_meaning",
    "c63_no_text"
   ],
   "note": "what is computed with floats (the microseconds of a number of seconds, and the seconds of a number of microseconds) is a parameter, exact in the examples; refuted for the round trip of dates before the year 1000 with an offset that has seconds: c63_padding_refuted; now is not modelled"
  },
  {
   "property": "C64",
   "status": "proved",
   "theorems": [
    "c64_replacing",
    "c64_simplify",
    "c64_dimensions",
    "c64_finalize",
    "c64_preset",
    "c64_dimension_refuted",
    "c64_fails_refuted",
    "c64_endless_refuted",
    "c64_ends",
    "c64_closest",
    "c64_zero"
   ],
   "note": "for units that are multiples of the base (temperatures left out), whenever a result is returned; that the units of the code satisfy the hypotheses is c64_preset. Refuted: with knots and nautical miles the loop never ends (c64_endless_refuted), merging can change the dimension (c64_dimension_refuted) or end in a Python error (c64_fails_refuted). The unit chosen is the best of the candidates (c64_closest, c64_zero)"
  },
  {
   "property": "C65",
   "status": "proved",
   "theorems": [
    "c65_parts",
    "c65_answers",
    "c65_format",
    "c65_compact",
    "c65_preset",
    "c65_temperature_refuted"
   ],
   "note": "for units that are positive multiples of the base, with exact arithmetic; c65_answers gives a condition under which the parts exist, c65_preset that the units of the code satisfy all hypotheses. Refuted for temperatures: format(300 kelvin) is 26 Celsius, 274 kelvin (c65_temperature_refuted)"
  },
  {
   "property": "C66",
   "status": "proved",
   "theorems": [
    "c66_sum",
    "c66_min",
    "c66_max",
    "c66_sort",
    "c66_mean",
    "c66_median",
    "c66_mode",
    "c66_different",
    "c66_plain",
    "c66_warmth",
    "c66_degrees_refuted"
   ],
   "note": "as long as the digits fit the precision (stated); rounding of mean and median is stated exactly. Refuted: sum of temperatures is not the sum that + gives (c66_degrees_refuted)"
  },
  {
   "property": "C67",
   "status": "proved",
   "theorems": [
    "c67_matches",
    "c67_match",
    "c67_get",
    "c67_get_nth",
    "c67_get_beyond",
    "c67_count",
    "c67_split",
    "c67_sub",
    "c67_sub_join",
    "c67_sub_first",
    "c67_bad_pattern",
    "c67_get_zero_refuted",
    "c67_sub_specific_refuted"
   ],
   "note": "Python's re is a parameter with stated conditions (engine_ok), met by an engine in RegexRun.v; patterns with two groups or more give tuples in regexget, which the model has not. Refuted: numbers that name no occurrence are refused (0 gives the last match: c67_get_zero_refuted); regexsub replaces 'a specific occurrence' as its description says (c67_sub_specific_refuted)"
  },
  {
   "property": "C68",
   "status": "proved",
   "theorems": [
    "c68_known",
    "c68_defined",
    "c68_back",
    "c68_refuted"
   ],
   "note": "For the units of the preset that has all of them, without unit symbols outside Latin-1 (the ohm sign). Refuted (c68_refuted): a US dram is a sixteenth of a fluid ounce in the code (it is an eighth); an acre is not 4840 square yards; a psi is not exactly a pound-force per square inch; a light year is not what light travels in the calculator's year; KiB is unknown (the symbol is kiB). Parsecs and degrees are not in the list: their definitions have pi"
  },
  {
   "property": "C69",
   "status": "proved",
   "theorems": [
    "c69_math",
    "c69_angle_refuted",
    "c69_special",
    "c69_special_count",
    "c69_integers",
    "c69_probability_refuted",
    "c69_log",
    "c69_log_base",
    "c69_log_same",
    "c69_log_one",
    "c69_log_refused",
    "c69_exp",
    "c69_stdev"
   ],
   "note": "Exactness needs that the float's denominator has at most as many digits as the precision. Refuted (c69_angle_refuted): an angle does not have one sine, since the unit is ignored: sin(180 degrees) is the sine of 180, in degrees, sin(pi radians) that of pi, in radians. Refuted (c69_probability_refuted): sp_bdtrc makes its arguments integers, although the third is a probability: any probability below one counts as zero. log keeps the unit of its argument"
  },
  {
   "property": "C70",
   "status": "proved",
   "theorems": [
    "c70_convert",
    "c70_as",
    "c70_scientific",
    "c70_last",
    "c70_as_refused",
    "c70_arbitrary_base_refuted",
    "c70_base_reads_back",
    "c70_decimal_reads_back",
    "c70_percentage_reads_back",
    "c70_scientific_text",
    "c70_scientific_reads_back",
    "c70_scientific_places",
    "c70_scientific_places_refused",
    "c70_base",
    "c70_base_refused",
    "c70_base_zero_refuted"
   ],
   "note": "Refuted (c70_arbitrary_base_refuted): arbitrarybase is among the formats the calculator names, but has no conversion, so that as 'arbitrarybase' fails with an error of python"
  },
  {
   "property": "C71",
   "status": "proved",
   "theorems": [
    "c71_read_whole",
    "c71_value",
    "c71_copy",
    "c71_constant_first",
    "c71_constant_value",
    "c71_any_name_refuted",
    "c71_step_refuted"
   ],
   "note": "Refuted for names that start with a constant (c71_any_name_refuted, c71_constant_first): the constant is matched with [a-zA-Z]+ and no end of word, so that pi2 = 5 and e_1 are errors; and for names starting with step in an array (c71_step_refuted): [steps] is an error"
  },
  {
   "property": "C72",
   "status": "proved",
   "theorems": [
    "c72_call",
    "c72_functions",
    "c72_kth",
    "c72_own_parameters_refuted",
    "c72_array_refuted",
    "c72_error_refuted",
    "c72_no_stop",
    "c72_recursion_refuted"
   ],
   "note": "Refuted: a function that got fewer inputs sees those of its caller (c72_own_parameters_refuted); an array is never given whole (c72_array_refuted); an error in a statement that is not the last is not reported (c72_error_refuted); a function that calls itself inside then/else never stops, at any depth (c72_no_stop, c72_recursion_refuted), because both branches are run"
  },
  {
   "property": "C73",
   "status": "proved",
   "theorems": [
    "c73_amounts",
    "c73_variables",
    "c73_copies",
    "c73_no_formats",
    "c73_operators",
    "c73_max",
    "c73_min",
    "c73_element",
    "c73_max_refuted",
    "c73_literal_refuted"
   ],
   "note": "Refuted: after x = 300, the statement max(x, 0x1) makes x be shown as 0x12C (c73_max_refuted; the same through an alias and for element); the 5 in the body of f = {max(PARAM1, 5)} is shown as 0x5 after a call f(0x1) (c73_literal_refuted)"
  },
  {
   "property": "C74",
   "status": "proved",
   "theorems": [
    "c74_expression",
    "c74_one_meaning",
    "c74_program",
    "c74_powers_right_refuted",
    "c74_sign_last_refuted",
    "c74_exact_refuted",
    "c74_percent_refuted",
    "c74_shown",
    "c74_shown_again",
    "c74_shown_exact_refuted"
   ],
   "note": "Refuted: powers group to the right (c74_powers_right_refuted); a sign binds less than a power (c74_sign_last_refuted); exact without a bound on the sizes (c74_exact_refuted); variables shown as percentages, which are rounded to whole percents (c74_percent_refuted); every answer is shown exactly (c74_shown_exact_refuted)"
  },
  {
   "property": "C75",
   "status": "proved",
   "theorems": [
    "c75_installs",
    "c75_same",
    "c75_units",
    "c75_calculators",
    "c75_preset",
    "c75_two_calls_refuted",
    "c75_operators_refuted",
    "c75_order_refuted"
   ],
   "note": "Refuted: a later call never fails (c75_two_calls_refuted: the unit constants after the units of mass); features that give operators bring the parser that reads them (c75_operators_refuted); the number types are tried in one order (c75_order_refuted). now and (without the libraries of C69) exp, log and stdev are installed but not modelled as functions"
  },
  {
   "property": "C76",
   "status": "proved",
   "theorems": [
    "c76_wrong",
    "c76_nothing_else",
    "c76_program",
    "c76_size_refuted"
   ],
   "note": "Powers that are not exact (fractional exponents, zero to a negative power) are left open by the specification. Without the condition on printing it is false (c76_size_refuted: 10^75 / 0 with 100 digits and 30 places escapes as a python exception, because the error message prints the operands)"
  },
  {
   "property": "C77",
   "status": "proved",
   "theorems": [
    "c77_quantities",
    "c77_different",
    "c77_table"
   ],
   "note": "Names of one word of letters, registered as units that are multiples of their base (no degrees Celsius or Fahrenheit). That no registered name gets in the way is a condition on the registry (keys_apart), shown for the units the code defines (c77_table)"
  },
  {
   "property": "C78",
   "status": "proved",
   "theorems": [
    "c78_condition",
    "c78_one_meaning",
    "c78_no_number",
    "c78_and_first_refuted",
    "c78_not_last_refuted",
    "c78_equal_refuted"
   ],
   "note": "`not` stands before a truth value or parentheses, not before another `not`. For `then ... else` see C79. Three expectations are refuted: that `and` binds tighter than `or`, that `not` before a comparison negates it, and that numbers beyond the bound are told apart (1/3 == its first 100 places)"
  },
  {
   "property": "C79",
   "status": "proved",
   "theorems": [
    "c79_value",
    "c79_wrong",
    "c79_one_meaning",
    "c79_chain_refuted",
    "c79_lazy_refuted"
   ],
   "note": "conditions must have a value. Two expectations are refuted: that a choice in the last branch needs no brackets (the words group to the left), and that the branch not taken is not run (what it assigns stays)"
  },
  {
   "property": "C80",
   "status": "proved",
   "theorems": [
    "c80_program",
    "c80_wrong"
   ],
   "note": "every line must have a value small enough, in branches not taken as well (csized); choices inside branches stand in brackets, as in C79"
  },
  {
   "property": "C81",
   "status": "proved",
   "theorems": [
    "c81_array"
   ],
   "note": "6k+3 digits of precision for values of k digits, because ranges add over a common denominator; blanks must stand before the dots and around `step`; names starting with `step` are left out where the calculator reads the word; the step of a range must lead to its end and not be zero (C36 has the other cases)"
  },
  {
   "property": "C82",
   "status": "proved",
   "theorems": [
    "c82_count",
    "c82_min",
    "c82_max",
    "c82_element",
    "c82_element_back",
    "c82_sum"
   ],
   "note": "the conditions on sizes and blanks of C81; the comparison is of decimals rounded at the precision, and the sum is under the condition on its digits, both as in C53"
  },
  {
   "property": "C83",
   "status": "proved",
   "theorems": [
    "c83_wrong",
    "c83_call",
    "c83_element",
    "c83_place"
   ],
   "note": "the conditions on sizes of C76 and C81; the elements before are worth something; a lone variable without value as the part of a range is not dealt with"
  },
  {
   "property": "C84",
   "status": "proved",
   "theorems": [
    "c84_mean",
    "c84_median",
    "c84_mode",
    "c84_sort"
   ],
   "note": "the conditions on sizes and blanks of C81; averages whose decimal has a denominator of at most the precision (`narrow`, as in C53); order is that of the decimals rounded at the precision, as in C37"
  }
 ]
}