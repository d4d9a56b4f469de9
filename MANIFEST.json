{
 "claims": [
  {
   "property": "C01",
   "status": "proved",
   "theorems": [
    "C01_reference_round_trip",
    "C01_number_round_trip",
    "C01_word_reading",
    "C01_builtin_round_trip"
   ],
   "note": ""
  },
  {
   "property": "C02",
   "status": "partial",
   "theorems": [
    "C02_scalar_operators",
    "C02_scalar_trichotomy",
    "C02_scalar_transitive",
    "C02_nan_operators",
    "C02_binary",
    "C02_math_nan_refuted"
   ],
   "note": "Holds for every number the interpreter computes; false for the builtin constant math.nan, whose word is not the canonical NaN."
  },
  {
   "property": "C03",
   "status": "proved",
   "theorems": [
    "C03_equality_structural",
    "C02_binary"
   ],
   "note": "For values that unfold to finite trees (no list containing itself)."
  },
  {
   "property": "C04",
   "status": "partial",
   "theorems": [
    "C04_lexicographic_partial",
    "C02_binary",
    "C04_prefix_refuted",
    "C04_every_prefix_wrong"
   ],
   "note": "False in the proper-prefix case; proved everywhere else."
  },
  {
   "property": "C05",
   "status": "partial",
   "theorems": [
    "C05_list_index",
    "C05_string_index",
    "C05_binary",
    "C05_index_refuted"
   ],
   "note": "Holds for every index of the integer type; a float index outside that type, or the smallest integer, is undefined behaviour."
  },
  {
   "property": "C06",
   "status": "proved",
   "theorems": [
    "C06_slice_is_python",
    "C06_slice_defined",
    "C06_zero_stride"
   ],
   "note": "Excludes operands near the ends of the offset type and the value that stands for 'absent' (see C07)."
  },
  {
   "property": "C07",
   "status": "partial",
   "theorems": [
    "C07_no_overflow_partial",
    "C07_slice_overflow_refuted"
   ],
   "note": "False: operands near the limit overflow. Proved for operands away from the limit."
  },
  {
   "property": "C08",
   "status": "proved",
   "theorems": [
    "C08_plus"
   ],
   "note": "For pools in which the size of a joined list cannot overflow the offset type (see C51)."
  },
  {
   "property": "C09",
   "status": "proved",
   "theorems": [
    "C09_append",
    "C09_in_place",
    "C09_tuple"
   ],
   "note": "With memory exhausted an error is reported and nothing changes."
  },
  {
   "property": "C10",
   "status": "proved",
   "theorems": [
    "C10_times",
    "C10_binary",
    "C10_negative"
   ],
   "note": "For counts n >= 0 and sizes that do not overflow the offset type (see C51); C10_negative records that a negative count gives None."
  },
  {
   "property": "C11",
   "status": "proved",
   "theorems": [
    "C11_history"
   ],
   "note": ""
  },
  {
   "property": "C12",
   "status": "proved",
   "theorems": [
    "C12_history",
    "C12_literal"
   ],
   "note": "Deletions of absent keys are excluded here (they raise no error, see C15); out-of-memory is one of the outcomes."
  },
  {
   "property": "C13",
   "status": "partial",
   "theorems": [
    "C13_tuples_partial",
    "C13_same_length_partial",
    "C13_refuted"
   ],
   "note": "False when one tuple key is a proper prefix of another; proved whenever no two tuples compared are in that relation, in particular when all tuples have one length."
  },
  {
   "property": "C14",
   "status": "proved",
   "theorems": [
    "C14_mutable_key",
    "C14_tuple_store",
    "C14_tuple_del"
   ],
   "note": "Other list operations leave tuples alone by the frame conditions of C08-C11."
  },
  {
   "property": "C39",
   "status": "partial",
   "theorems": [
    "C39_words_partial",
    "C39_two_words_partial",
    "C39_refuted",
    "C39_end_refuted"
   ],
   "note": "False for 'is'/'not' before a word that starts with not/in, and for a name directly before the end of the file; proved for all other words shorter than 255 characters."
  },
  {
   "property": "C40",
   "status": "proved",
   "theorems": [
    "C40_longest"
   ],
   "note": ""
  },
  {
   "property": "C41",
   "status": "partial",
   "theorems": [
    "C41_numbers",
    "C41_only_partial",
    "C41_refuted"
   ],
   "note": "Every numeral up to 255 characters is one token; false that nothing else is accepted (lone dots, exponent without digits)."
  },
  {
   "property": "C42",
   "status": "partial",
   "theorems": [
    "C42_nesting",
    "C42_balance",
    "C42_closes_to_open_block",
    "C42_first_token_partial",
    "C42_refuted"
   ],
   "note": "Balance and nesting proved for all texts; that a deeper line opens a block is false for 256 or more spaces."
  },
  {
   "property": "C43",
   "status": "partial",
   "theorems": [
    "C43_token_partial",
    "C43_tokens_partial",
    "C43_same_token",
    "C43_refuted"
   ],
   "note": "False for a comment without an end of line; proved when every comment has one."
  },
  {
   "property": "C44",
   "status": "proved",
   "theorems": [
    "C44_denotes",
    "C44_writable",
    "C44_hex_refuted"
   ],
   "note": "Literals of up to 255 characters, escapes below 128 (larger ones are refused)."
  },
  {
   "property": "C45",
   "status": "proved",
   "theorems": [
    "C45_pushback"
   ],
   "note": ""
  },
  {
   "property": "C56",
   "status": "proved",
   "theorems": [
    "C56_line"
   ],
   "note": ""
  },
  {
   "property": "C46",
   "status": "partial",
   "theorems": [
    "C46_lines_partial",
    "C46_bounded",
    "C46_byte_refuted",
    "C46_interrupt_partial",
    "C46_interrupt_refuted"
   ],
   "note": "Editing proved for all key sequences; false that an interrupted line delivers nothing (what was typed is delivered by later calls), and byte 255 reads as end of file where char is signed."
  },
  {
   "property": "C47",
   "status": "partial",
   "theorems": [
    "C47_seed",
    "C47_randrange_partial",
    "C47_small_randrange_partial",
    "C47_randrange_upto",
    "C47_randrange_zero",
    "C47_randrange_refuted",
    "C47_small_randrange_refuted",
    "C47_random_partial",
    "C47_random_refuted",
    "C47_small_random_refuted"
   ],
   "note": "randrange(n) proved in [0,n) for n up to 2^24 and false above; random() proved in [0,1] and can be 1; the small generator's random() exceeds 1 and its randrange(0) divides by zero."
  },
  {
   "property": "C48",
   "status": "partial",
   "theorems": [
    "C48_power",
    "C48_factorial",
    "C48_gcd_partial",
    "C48_gcd_refuted",
    "C48_gcd_zero_refuted"
   ],
   "note": "gcd proved for integers with a common factor, wrong for all coprime pairs above one and for zero; powers (snek-pow.c) and factorials exact whenever representable."
  },
  {
   "property": "C49",
   "status": "partial",
   "theorems": [
    "C49_and",
    "C49_or",
    "C49_xor",
    "C49_shift_left_partial",
    "C49_shift_right_partial",
    "C49_shift_refuted",
    "C49_range_refuted",
    "C49_fraction",
    "C49_not_partial",
    "C49_not_refuted"
   ],
   "note": "& | ^ and in-range shifts proved; ~ is wrong for every integer of zero or more; shift counts outside 0..31 and operands outside 32 bits are undefined behaviour."
  },
  {
   "property": "C50",
   "status": "partial",
   "theorems": [
    "C50_sum",
    "C50_difference",
    "C50_product",
    "C50_range",
    "C50_numbers",
    "C50_floordiv",
    "C50_mod_partial",
    "C50_mod_refuted"
   ],
   "note": "% is wrong for some operands of opposite sign near 2^24; everything else proved exact."
  },
  {
   "property": "C15",
   "status": "partial",
   "theorems": [
    "C15_readonly_partial",
    "C15_list_partial",
    "C15_mutable_key_partial",
    "C15_del_partial",
    "C15_refuted"
   ],
   "note": "False for d[k] += v with a missing key: the key is inserted and an error raised (C15_refuted, for every such state). Proved for tuples, non-containers, list indices out of range and mutable keys. Deleting a missing key changes nothing but raises no error."
  },
  {
   "property": "C16",
   "status": "partial",
   "theorems": [
    "C16_cat",
    "C16_index",
    "C16_ord_chr",
    "C16_ord_refuted",
    "C16_times_partial"
   ],
   "note": "Concatenation, indexing and ord(chr(c)) in the range of char proved for every collector behaviour; ord(chr(c)) is c - 256 above 127 where char is signed; repetition proved when its allocation moves nothing."
  },
  {
   "property": "C17",
   "status": "partial",
   "theorems": [
    "C17_container",
    "C17_substring",
    "C17_other",
    "C17_numbers_refuted"
   ],
   "note": "Proved for lists, tuples, dictionaries and strings; x in y for two numbers is x instead of an error."
  },
  {
   "property": "C18",
   "status": "partial",
   "theorems": [
    "C18_format_partial",
    "C18_empty_refuted",
    "C18_range_refuted"
   ],
   "note": "Proved for non-empty formats with enough memory; the empty format gives None; %d of a number outside int is undefined; quoted strings and mismatched arguments need allocations that do not move (see C38)."
  },
  {
   "property": "C38",
   "status": "partial",
   "theorems": [
    "C38_times_refuted",
    "C38_del_refuted",
    "C38_format_refuted",
    "C38_report_refuted",
    "C08_plus",
    "C09_in_place",
    "C10_binary",
    "C16_cat",
    "C12_history"
   ],
   "note": "Proved (for every oracle of moves) for list +, +=, *, string +, dictionary store; false for string *, del of a missing key, quoted strings in a format, the report of a format mismatch."
  },
  {
   "property": "C51",
   "status": "partial",
   "theorems": [
    "C51_list_times_refuted",
    "C51_list_plus_refuted",
    "C51_string_times_refuted",
    "C08_plus",
    "C10_binary",
    "C16_cat"
   ],
   "note": "Safe where the sizes fit the offset type (the hypotheses roomy, fits, roomy_str of the listed theorems); otherwise the sizes wrap and the writes leave the object."
  },
  {
   "property": "C55",
   "status": "proved",
   "theorems": [
    "C55_print"
   ],
   "note": "For every finite value and every nesting with room on the value stack; what sprintf writes for a number is a parameter. A cyclic list has no finite value and recurses without bound."
  },
  {
   "property": "C19",
   "status": "proved",
   "theorems": [
    "C19_interned"
   ],
   "note": "Any table of builtins and keywords, any history of lookups. Ids must fit the id type."
  },
  {
   "property": "C57",
   "status": "partial",
   "theorems": [
    "C57_type_error_partial",
    "C57_negative_refuted"
   ],
   "note": "Proved for every operator and every pair of kinds; repetition with a negative count gives None without an error, and a count outside the offset range is undefined."
  },
  {
   "property": "C58",
   "status": "proved",
   "theorems": [
    "C58_identity"
   ],
   "note": "For strings and numbers `is` compares the values."
  },
  {
   "property": "C20",
   "status": "proved",
   "theorems": [
    "C20_scopes"
   ],
   "note": "For every history; running out of memory is one of the outcomes. When memory runs out while a local is added, the assignment goes to the global (the error is reported)."
  },
  {
   "property": "C21",
   "status": "partial",
   "theorems": [
    "C21_binding_partial",
    "C21_defaults",
    "C21_too_few_refuted",
    "C21_required_refuted"
   ],
   "note": "Binding, surplus, unknown and repeated arguments and defaults proved; false that a missing required argument is an error: the check reads past the frame (undefined) or the body runs with the formal unbound."
  },
  {
   "property": "C22",
   "status": "partial",
   "theorems": [
    "C22_delete_newest_partial",
    "C22_undefined",
    "C22_delete_refuted"
   ],
   "note": "Proved for the newest global; false for every other one: the newest is lost."
  },
  {
   "property": "C52",
   "status": "partial",
   "theorems": [
    "C52_not_callable",
    "C52_none_refuted"
   ],
   "note": "Proved for numbers, strings, lists, tuples and dictionaries; calling None indexes the builtin table far out of bounds."
  },
  {
   "property": "C53",
   "status": "partial",
   "theorems": [
    "C53_formals_partial",
    "C53_defaults_last",
    "C53_too_many_refuted",
    "C53_twice_refuted"
   ],
   "note": "Order of defaults proved; more than ten formals overrun an array and repeated names are accepted."
  },
  {
   "property": "C23",
   "status": "partial",
   "theorems": [
    "C23_walk_partial",
    "C23_dict_refuted",
    "C23_line_refuted"
   ],
   "note": "Walking visits exactly the emitted instructions for every command without a dictionary display, and for no command with one: dict operands are walked with the wrong length."
  },
  {
   "property": "C24",
   "status": "proved",
   "theorems": [
    "C24_emitted",
    "C24_literal"
   ],
   "note": "The conversion of a float to int8 outside the range of int8 is a parameter (undefined in C)."
  },
  {
   "property": "C25",
   "status": "partial",
   "theorems": [
    "C25_expression_partial"
   ],
   "note": "Proved for every derivation tree of an expression, without dictionary displays inside loops that break (see C23, C28) and short of value-stack overflow. The step from tokens to trees is C60 to C62. If the evaluator does not end nothing is said."
  },
  {
   "property": "C26",
   "status": "proved",
   "theorems": [
    "C26_short_circuit"
   ],
   "note": ""
  },
  {
   "property": "C27",
   "status": "partial",
   "theorems": [
    "C27_chain_partial",
    "C27_default_refuted",
    "C27_default_value_refuted",
    "C27_other_refuted"
   ],
   "note": "Proved for chains of == != < > <= >= starting after the first byte of code; false for chains starting a default argument's code and for chains with is, in and not."
  },
  {
   "property": "C28",
   "status": "partial",
   "theorems": [
    "C28_command_partial",
    "C28_dict_refuted"
   ],
   "note": "Proved for all commands whose code can be walked (see C23) and short of value-stack overflow; false for a break after a dictionary display of three to five entries on one line."
  },
  {
   "property": "C29",
   "status": "partial",
   "theorems": [
    "C29_none_partial",
    "C29_trailing_return_refuted"
   ],
   "note": "Proved for bodies that do not end with a compound statement whose last statement is a return; in those the value of the last expression is returned."
  },
  {
   "property": "C30",
   "status": "proved",
   "theorems": [
    "C30_restored",
    "C30_balanced"
   ],
   "note": "For every code, compiled or not; builtins are assumed to leave frames alone."
  },
  {
   "property": "C31",
   "status": "partial",
   "theorems": [
    "C31_range_list",
    "C31_count_partial",
    "C31_stuck_refuted",
    "C31_first_refuted"
   ],
   "note": "Proved for integers up to 2^24 when the body leaves the loop variable and the two hidden names alone; above 2^24 the loop never ends or starts at the wrong value."
  },
  {
   "property": "C32",
   "status": "partial",
   "theorems": [
    "C32_list_partial",
    "C32_all_elements_partial",
    "C32_none_refuted",
    "C32_string"
   ],
   "note": "Proved for strings and for lists, tuples and dictionaries without None, when the body leaves the container alone; the loop stops at the first None."
  },
  {
   "property": "C54",
   "status": "proved",
   "theorems": [
    "C54_one_error",
    "C54_session"
   ],
   "note": ""
  },
  {
   "property": "C33",
   "status": "partial",
   "theorems": [
    "C33_unobservable_partial",
    "C33_collect_partial",
    "C33_emitting_refuted",
    "C33_buffer_refuted"
   ],
   "note": "Proved for every well-formed heap, any window size, any number of collections and allocations: the same objects, every reference still to the same object, everything the roots lead to looks the same to any depth. Code counts as it is read by the collector (see C37). False while a string instruction is being emitted: the buffer is extended between opcode and operand and a collection there corrupts a neighbouring object."
  },
  {
   "property": "C34",
   "status": "proved",
   "theorems": [
    "C34_packed",
    "C34_listed",
    "C34_incremental",
    "C34_fails"
   ],
   "note": "For well-formed heaps; the request must not wrap when rounded (C35)."
  },
  {
   "property": "C35",
   "status": "partial",
   "theorems": [
    "C35_fresh_partial",
    "C35_wrap_refuted"
   ],
   "note": "Proved for all sizes that do not wrap when rounded; the three largest sizes of the offset type succeed and reserve nothing."
  },
  {
   "property": "C36",
   "status": "proved",
   "theorems": [
    "C36_ends"
   ],
   "note": "Passes, and within a pass the recursion and the list of notes; the depth of the C stack is not bounded in the model."
  },
  {
   "property": "C37",
   "status": "partial",
   "theorems": [
    "C37_strings_partial",
    "C37_dict_refuted",
    "C37_lost_refuted"
   ],
   "note": "Proved for code without dictionary displays; the string after a display of three to five entries is not seen by the collector, and its storage is given away."
  },
  {
   "property": "C59",
   "status": "partial",
   "theorems": [
    "C59_hidden",
    "C59_names",
    "C59_deep_refuted"
   ],
   "note": "Proved up to 256 nested loops; the depth is a byte and wraps."
  },
  {
   "property": "C60",
   "status": "proved",
   "theorems": [
    "C60_expression_tree",
    "C60_same_tree"
   ],
   "note": "The dialect is Python's without a unary operator after **, whose counts of elements fit the offset type."
  },
  {
   "property": "C61",
   "status": "partial",
   "theorems": [
    "C61_accepted_partial",
    "C61_one_reading",
    "C61_lexer_tokens"
   ],
   "note": "Proved when the counts kept for lists, calls and so on do not wrap (nowrap); see C65_positional_after_named_refuted for what happens when one does."
  },
  {
   "property": "C62",
   "status": "partial",
   "theorems": [
    "C62_program_tree",
    "C62_accepted_partial",
    "C62_one_reading",
    "C62_same_program"
   ],
   "note": "As for C61."
  },
  {
   "property": "C63",
   "status": "proved",
   "theorems": [
    "C63_expression_ends",
    "C63_program_ends"
   ],
   "note": "The parse stack of 128 entries is not modelled: a deeper nesting is refused by the code."
  },
  {
   "property": "C64",
   "status": "proved",
   "theorems": [
    "C64_assignable",
    "C64_argument_name"
   ],
   "note": "A plus sign before the target produces no code, so it is accepted (C65)."
  },
  {
   "property": "C65",
   "status": "partial",
   "theorems": [
    "C65_plus_target",
    "C65_named_operator",
    "C65_imports",
    "C65_global",
    "C65_positional_after_named_refuted"
   ],
   "note": "False: the theorems describe what snek accepts and Python does not."
  },
  {
   "property": "C66",
   "status": "partial",
   "theorems": [
    "C66_power_refuted",
    "C66_never_accepted_partial"
   ],
   "note": "False: a unary operator after ** is refused, and so are a semicolon at the end of a line, def first in a block and range other than after in. Everything else that is Python's is accepted (C60_expression_tree, C62_program_tree)."
  },
  {
   "property": "C67",
   "status": "partial",
   "theorems": [
    "C67_source_partial"
   ],
   "note": "For statements; composition of C60 to C62 with C25 and C28, with the same limits."
  },
  {
   "property": "C68",
   "status": "proved",
   "theorems": [
    "C68_rounded_once",
    "C68_rounded_once_dict",
    "C68_total",
    "C68_order"
   ],
   "note": "The integer theory of the partial sums (Shewchuk) is proved in SumInt, SumExact, SumRound; that the argument is a list is assumed, the code does not check it."
  },
  {
   "property": "C69",
   "status": "proved",
   "theorems": [
    "C69_defined",
    "C69_result"
   ],
   "note": ""
  },
  {
   "property": "C70",
   "status": "partial",
   "theorems": [
    "C70_overflow_refuted",
    "C70_infinity_refuted"
   ],
   "note": "False: an overflow on the way gives an infinity or not-a-number whatever follows, and an infinity with a finite number gives not-a-number."
  },
  {
   "property": "C71",
   "status": "proved",
   "theorems": [
    "C71_accuracy",
    "C71_zero"
   ],
   "note": "The reader of the AVR boards. Fewer than 768 digits before the exponent; a literal of a program has at most 255 characters."
  },
  {
   "property": "C72",
   "status": "partial",
   "theorems": [
    "C72_nearest",
    "C72_exact",
    "C72_integer_refuted",
    "C72_fraction_refuted"
   ],
   "note": "True of integers below 429496728 and of integers up to 2^24 however written; false of some larger integers and of fractions such as 0.9."
  },
  {
   "property": "C73",
   "status": "partial",
   "theorems": [
    "C73_defined_partial",
    "C73_refuted"
   ],
   "note": "Proved up to 768 characters, false beyond: the exponent overflows."
  },
  {
   "property": "C74",
   "status": "partial",
   "theorems": [
    "C74_sign_refuted",
    "C74_other_refuted",
    "C74_letters_refuted"
   ],
   "note": "False: such texts read as 0, not-a-number or an infinity."
  },
  {
   "property": "C75",
   "status": "proved",
   "theorems": [
    "C75_tokens",
    "C75_only"
   ],
   "note": "A file, not the interactive prompt; memory for strings is available. Texts that do not divide into tokens are not covered."
  },
  {
   "property": "C76",
   "status": "proved",
   "theorems": [
    "C76_text_tree"
   ],
   "note": ""
  },
  {
   "property": "C77",
   "status": "partial",
   "theorems": [
    "C77_text_runs_partial"
   ],
   "note": "As C67: one statement; function definitions are taken as given."
  },
  {
   "property": "C78",
   "status": "partial",
   "theorems": [
    "C78_program_partial"
   ],
   "note": "Missing: code whose branches leave the range of an offset, functions whose last statement is a return that can be skipped (C29 refutes the claim for those), more than ten parameters, and runs for which the evaluator needs behaviour that is undefined or gives no result."
  },
  {
   "property": "C79",
   "status": "partial",
   "theorems": [
    "C79_text_program_partial"
   ],
   "note": "As C78."
  },
  {
   "property": "C80",
   "status": "partial",
   "theorems": [
    "C80_tame",
    "C80_program_partial",
    "C80_arguments",
    "C80_call"
   ],
   "note": "The theorems about calls are complete for the 61 functions of BuiltModel; the theorem about programs has the limits of C78. Functions of the boards (pins, sound, time) are not modelled."
  },
  {
   "property": "C81",
   "status": "proved",
   "theorems": [
    "C81_print"
   ],
   "note": "Values without cycles; the text of a number is what the C library's printf gives."
  },
  {
   "property": "C82",
   "status": "partial",
   "theorems": [
    "C82_floor",
    "C82_ceil",
    "C82_trunc",
    "C82_round",
    "C82_round_half_even_refuted"
   ],
   "note": "All but the last part hold; round takes halves away from zero, so it differs from Python at every half whose even neighbour is nearer to zero."
  },
  {
   "property": "C83",
   "status": "proved",
   "theorems": [
    "C83_sqrt",
    "C83_abs",
    "C83_type",
    "C83_len"
   ],
   "note": ""
  },
  {
   "property": "C84",
   "status": "partial",
   "theorems": [
    "C84_input",
    "C84_input_memory_refuted"
   ],
   "note": "Proved when memory suffices (NUL characters are left out); when it does not, the behaviour is undefined."
  },
  {
   "property": "C85",
   "status": "proved",
   "theorems": [
    "C85_frexp",
    "C85_ldexp",
    "C85_round_trip",
    "C85_modf"
   ],
   "note": ""
  },
  {
   "property": "C86",
   "status": "partial",
   "theorems": [
    "C86_isclose",
    "C86_defaults",
    "C86_symmetric",
    "C86_reflexive",
    "C86_infinity_refuted"
   ],
   "note": "Proved for finite numbers whose distance does not overflow; an infinity is not close to itself, and the default rel_tol is 1e-6, not 1e-9."
  },
  {
   "property": "C87",
   "status": "partial",
   "theorems": [
    "C87_type_refuted",
    "C87_type2_refuted",
    "C87_float_refuted"
   ],
   "note": "False: none of these functions reports anything (abs and math.sqrt do, C83_type)."
  },
  {
   "property": "C88",
   "status": "partial",
   "theorems": [
    "C88_fsum",
    "C88_sum",
    "C88_argument_refuted"
   ],
   "note": "The sum is proved for every list, collector and failure of memory; false that other arguments are reported: None gives None and anything else is undefined."
  },
  {
   "property": "C89",
   "status": "partial",
   "theorems": [
    "C89_str_partial",
    "C89_copy",
    "C89_moved_refuted"
   ],
   "note": "Proved when memory suffices and either nothing moves or no string is written in quotes; otherwise the old place of the string may be read (C89_moved_refuted)."
  },
  {
   "property": "C90",
   "status": "partial",
   "theorems": [
    "C90_expression_partial",
    "C90_silent",
    "C90_error",
    "C90_stale_refuted",
    "C90_two_refuted"
   ],
   "note": "Proved unless room for a new _ compacts the pool, when the value is printed through its old address; of several expressions on a line only the last is printed."
  },
  {
   "property": "C91",
   "status": "partial",
   "theorems": [
    "C91_line_partial",
    "C91_block_partial",
    "C91_comment_refuted",
    "C91_end_refuted",
    "C91_block_refuted"
   ],
   "note": "Proved for lines without comments and blocks ended by a blank line; false with a comment (the rest of it is read as a command), for an error at the end of a line (the next line is lost) and for a block ended by another command (it is lost)."
  },
  {
   "property": "C92",
   "status": "partial",
   "theorems": [
    "C92_line_partial",
    "C92_narrow",
    "C92_path",
    "C92_wide_refuted",
    "C92_frame_refuted",
    "C92_clamp_refuted",
    "C92_error_refuted"
   ],
   "note": "Proved exactly for the lines whose doubled error term fits int8_t (all at most 42 wide, level or steep ones); every other line misses its end and some write outside the frame buffer. Numbers outside snek_soffset_t are undefined, and a call with a wrong type draws all the same."
  },
  {
   "property": "C93",
   "status": "partial",
   "theorems": [
    "C93_display_partial",
    "C93_erase_refuted"
   ],
   "note": "Proved for all sequences whose lines are narrow as in C92; draw.erase alone does not switch the display on."
  },
  {
   "property": "C94",
   "status": "partial",
   "theorems": [
    "C94_store_partial",
    "C94_long_refuted",
    "C94_erase"
   ],
   "note": "Proved for texts shorter than the memory; of a longer text the rest is taken as commands at the prompt."
  },
  {
   "property": "C95",
   "status": "partial",
   "theorems": [
    "C95_read_partial",
    "C95_show_refuted",
    "C95_error"
   ],
   "note": "Proved for snek-atmega-eeprom.c; in snek-avr-eeprom.c eeprom.show moves the position of reading to after the end mark, so the rest of the program is lost or old bytes are read."
  },
  {
   "property": "C96",
   "status": "partial",
   "theorems": [
    "C96_buffer_partial",
    "C96_append",
    "C96_string_refuted",
    "C96_branch_refuted",
    "C96_push_refuted"
   ],
   "note": "Proved while memory is granted, and for adding instructions always. Once memory has run out, a string constant, the target of a branch and the push bit are written outside the block whenever the instruction they belong to did not fit, since nothing tells the caller."
  },
  {
   "property": "C97",
   "status": "proved",
   "theorems": [
    "C97_output",
    "C97_silence"
   ],
   "note": "For every sequence of events, ring sizes up to 128."
  },
  {
   "property": "C98",
   "status": "partial",
   "theorems": [
    "C98_input_partial",
    "C98_obeying",
    "C98_interrupt",
    "C98_silence_refuted"
   ],
   "note": "Proved for hosts that have not themselves sent ^S. While the host has asked for silence, ^S is not sent either: the host is never told to stop, and what comes after the ring is full is lost."
  },
  {
   "property": "C99",
   "status": "partial",
   "theorems": [
    "C99_progress_partial",
    "C99_echo_refuted",
    "C99_wait_refuted"
   ],
   "note": "Proved for input without ^T. The handler echoes ^T without enabling the interrupt that continues the output: a character put while the echo goes out stays in the ring as long as the program waits for input, and if the last character of a full ring is read at that moment ^Q is never sent, so that the host and the program wait for each other."
  },
  {
   "property": "C100",
   "status": "partial",
   "theorems": [
    "C100_store_partial",
    "C100_long_refuted",
    "C100_fuse_refuted",
    "C100_big_refuted"
   ],
   "note": "Proved for texts that leave two bytes free. The rest of a longer text goes to the prompt as if typed there; without the fuse that says where the interpreter ends eeprom.write and eeprom.show use a null pointer."
  },
  {
   "property": "C101",
   "status": "partial",
   "theorems": [
    "C101_erase_partial",
    "C101_pins_refuted"
   ],
   "note": "Proved unless all pins of port A are outputs: eeprom.erase looks at address 0, a register of that port, and not at the start of the program, and does nothing when it reads 255."
  },
  {
   "property": "C102",
   "status": "partial",
   "theorems": [
    "C102_stops",
    "C102_instruction",
    "C102_error_partial",
    "C102_overflow_refuted"
   ],
   "note": "Proved for interrupts, and for every error but one: a value for which the stack has no room is reported after the check of snek_abort, so that the next instruction is carried out on a stack that lacks the value; a call then calls another function than the one written."
  },
  {
   "property": "C103",
   "status": "partial",
   "theorems": [
    "C103_pins_partial",
    "C103_power_partial",
    "C103_invalid",
    "C103_a5_refuted",
    "C103_pull_refuted",
    "C103_pull_a1_refuted",
    "C103_read_refuted",
    "C103_setpower_refuted"
   ],
   "note": "Proved for all pins but A5 and pull-up resistors up to A0. After talkto(A5), on() uses table entries that do not exist, since has_pwm looks at the pin modulo 16; 1 << p has 16 bits, so pullup and pullnone are undefined from A2 on and A1 takes the pins above along; a pin that was read is driven high by talkto though it is off; setpower prints an address left from debugging, and is undefined for NaN."
  },
  {
   "property": "C104",
   "status": "partial",
   "theorems": [
    "C104_tone_partial",
    "C104_high_refuted",
    "C104_negative_refuted",
    "C104_power_refuted",
    "C104_off",
    "C104_others",
    "C104_d6_refuted",
    "C104_tonefor_refuted"
   ],
   "note": "Proved up to 8 MHz when D5 had no power greater than the period. Above, 31250 Hz is played; a negative frequency is undefined; after setpower on D5 there may be no tone at all; D6 loses its pulses while no other pin is changed; tonefor turns the power pin on and leaves it on."
  },
  {
   "property": "C105",
   "status": "partial",
   "theorems": [
    "C105_stopall_partial",
    "C105_tone_refuted"
   ],
   "note": "Proved without tones. A tone goes on after stopall: the code for it is under #ifdef SNEK_builtin_tone, which is never defined, instead of SNEK_BUILTIN_tone."
  },
  {
   "property": "C106",
   "status": "proved",
   "theorems": [
    "C106_ticks",
    "C106_returns"
   ],
   "note": "For calls shorter than 2^32 counts (4.7 hours); an overflow is served before the next one, 256 counts later."
  },
  {
   "property": "C107",
   "status": "partial",
   "theorems": [
    "C107_sleep_partial",
    "C107_prompt",
    "C107_stop",
    "C107_early_refuted",
    "C107_long_refuted",
    "C107_undefined_refuted"
   ],
   "note": "Proved up to 8589 seconds, within half a tick and rounding: the wait can be up to two microseconds and a part in seven million short. From 8590 to 17179 seconds time.sleep returns when it has read the time twice, since the comparison is of 32-bit signed numbers; negative numbers, NaN, infinity and more than 17180 seconds convert a float to uint32_t out of range, which is undefined."
  },
  {
   "property": "C108",
   "status": "partial",
   "theorems": [
    "C108_monotonic_partial",
    "C108_close_partial",
    "C108_wraps_refuted"
   ],
   "note": "Proved for the first 2^32 counts of the timer, 4.7 hours; then it starts again from zero."
  },
  {
   "property": "C109",
   "status": "partial",
   "theorems": [
    "C109_store_partial",
    "C109_long_refuted",
    "C109_locked_refuted",
    "C109_show_refuted"
   ],
   "note": "Proved for texts that fit with their end in an area that is not locked. A longer text is written beyond the area, over what is there. A locked area is not unlocked, since ao_flash_is_locked takes the bit that means unlocked to mean locked: nothing is written and nothing reported. A program that calls eeprom.show while it is read at the start is not read any further, since both use flash_read_offset."
  },
  {
   "property": "C110",
   "status": "partial",
   "theorems": [
    "C110_erase_partial",
    "C110_locked_refuted"
   ],
   "note": "Proved for an area that is not locked; a locked one keeps its program."
  },
  {
   "property": "C111",
   "status": "partial",
   "theorems": [
    "C111_neopixel_partial",
    "C111_error_partial",
    "C111_apa102_refuted",
    "C111_direct_refuted",
    "C111_direct_error_refuted",
    "C111_nan_refuted"
   ],
   "note": "Proved for lists of colours without NaN on one line. On two lines every light shows the first colour, since ao_snek_apa102_write never advances the pointer, and the light after the last turns white. A single colour is sent to three lights, since the size of the list is used: the other two show what lies in memory behind the pixel; and it is sent also after a type error. NaN is converted to a byte, which is undefined."
  },
  {
   "property": "C112",
   "status": "partial",
   "theorems": [
    "C112_put_partial",
    "C112_get_partial",
    "C112_round_trip_partial",
    "C112_type",
    "C112_type_get",
    "C112_absent_refuted",
    "C112_odd_refuted",
    "C112_nan_refuted"
   ],
   "note": "Proved for even addresses (the address is the one sent, with the bit for reading clear) at which there is a device. Without one i2c.put does nothing and i2c.get returns 255, and neither reports an error, since the status of the controller is never looked at. With an odd address i2c.put sends a request to read, and no register is set. NaN and infinity are converted to an integer, which is undefined."
  }
 ]
}