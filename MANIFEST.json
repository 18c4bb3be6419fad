{
 "claims": [
  {
   "property": "C01",
   "status": "proved",
   "theorems": [
    "C01_squashSpaces_shape",
    "C01_squashSpaces_words"
   ],
   "note": ""
  },
  {
   "property": "C02",
   "status": "partial",
   "theorems": [
    "C02_squashSpaces_domain_partial",
    "C02_squashSpaces_total_refuted"
   ],
   "note": "REFUTED as stated: blank strings (incl. the empty string) are undefined behaviour (front()/back() of an empty std::string). Exact domain proved."
  },
  {
   "property": "C03",
   "status": "proved",
   "theorems": [
    "C03_split_fields",
    "C03_split_rejoin"
   ],
   "note": ""
  },
  {
   "property": "C04",
   "status": "proved",
   "theorems": [
    "C04_split_no_empty"
   ],
   "note": ""
  },
  {
   "property": "C05",
   "status": "proved",
   "theorems": [
    "C05_splitVec_split"
   ],
   "note": ""
  },
  {
   "property": "C06",
   "status": "proved",
   "theorems": [
    "C06_construction_defined",
    "C06_shows_unambiguous",
    "C06_str_is_template_instance",
    "C06_template_unambiguous"
   ],
   "note": ""
  },
  {
   "property": "C07",
   "status": "proved",
   "theorems": [
    "C07_escape_protects"
   ],
   "note": ""
  },
  {
   "property": "C08",
   "status": "proved",
   "theorems": [
    "C08_values_verbatim"
   ],
   "note": ""
  },
  {
   "property": "C09",
   "status": "proved",
   "theorems": [
    "C09_reset_fresh"
   ],
   "note": ""
  },
  {
   "property": "C10",
   "status": "proved",
   "theorems": [
    "C10_message",
    "C10_str_check"
   ],
   "note": ""
  },
  {
   "property": "C11",
   "status": "partial",
   "theorems": [
    "C11_extra_values_ignored_partial",
    "C11_extra_values_refuted"
   ],
   "note": "REFUTED: extra values are silently accepted. Proved: they never change the result."
  },
  {
   "property": "C12",
   "status": "partial",
   "theorems": [
    "C12_distinct_fields_refuted",
    "C12_fields_mod_2_32_partial"
   ],
   "note": "REFUTED: the field number is accumulated in an unsigned int, so %4294967296 is %0. Proved: numbers are taken exactly modulo 2^32, hence distinct numbers below 2^32 are distinct fields."
  },
  {
   "property": "C13",
   "status": "proved",
   "theorems": [
    "C13_addI_decimal",
    "C13_addI_huge_width"
   ],
   "note": ""
  },
  {
   "property": "C14",
   "status": "partial",
   "theorems": [
    "C14_addI_huge_width_partial",
    "C14_addI_separator_partial",
    "C14_addI_separator_refuted",
    "C14_delete_separator_partial"
   ],
   "note": "REFUTED for negative values whose digit count is a multiple of three (-123 prints -,123). Proved: exact output for every value."
  },
  {
   "property": "C15",
   "status": "proved",
   "theorems": [
    "C15_addU_hex"
   ],
   "note": ""
  },
  {
   "property": "C16",
   "status": "proved",
   "theorems": [
    "C16_addU_oct"
   ],
   "note": ""
  },
  {
   "property": "C17",
   "status": "proved",
   "theorems": [
    "C17_addU_dec",
    "C17_addU_huge_width"
   ],
   "note": ""
  },
  {
   "property": "C18",
   "status": "partial",
   "theorems": [
    "C18_addU_dec_partial",
    "C18_addU_group0_partial",
    "C18_addU_group0_refuted",
    "C18_addU_hex_partial",
    "C18_addU_oct_partial",
    "C18_addU_padding_refuted"
   ],
   "note": "REFUTED for decimal with a width (padding is grouped too) and for group_count 0 (trailing separator). Proved: hex and octal as claimed, decimal exact output."
  },
  {
   "property": "C19",
   "status": "proved",
   "theorems": [
    "C19_addS_int_min",
    "C19_addS_justify"
   ],
   "note": ""
  },
  {
   "property": "C20",
   "status": "proved",
   "theorems": [
    "C20_addC_addB"
   ],
   "note": ""
  },
  {
   "property": "C21",
   "status": "partial",
   "theorems": [
    "C21_ext_addU_refuted",
    "C21_ext_same_partial"
   ],
   "note": "REFUTED: Format_ext::addU takes unsigned int and drops the upper 32 bits. Proved: all other wrappers, and addU below 2^32, agree."
  },
  {
   "property": "C22",
   "status": "proved",
   "theorems": [
    "C22_inf",
    "C22_nan"
   ],
   "note": ""
  },
  {
   "property": "C23",
   "status": "partial",
   "theorems": [
    "C23_fuel_irrelevant",
    "C23_limits",
    "C23_never_returns",
    "C23_terminates_partial",
    "C23_terminates_refuted"
   ],
   "note": "REFUTED: near DBL_MAX the rounding increment overflows to infinity, and the two smallest doubles scale for ever; both loop without end. Proved: exactly which numbers return, for every number of digits: zero, and 3*2^-1074 <= |v| <= limit(digits)*2^971 (at most 501 iterations of each loop); no other finite number does. The limits are about 10^308 for no digits, and 2^1024 - 5*10^(308-digits) otherwise (C23_limits)."
  },
  {
   "property": "C24",
   "status": "partial",
   "theorems": [
    "C24_engineering_partial",
    "C24_engineering_refuted"
   ],
   "note": "REFUTED: 995 with two digits prints 1000e+0; with no digits the integer part is 0. Proved for 1 <= sd < 2^31: the grammar, the sign, an integer part of 1..1000 (1000 only with a zero fraction), exponent a multiple of three."
  },
  {
   "property": "C25",
   "status": "partial",
   "theorems": [
    "C25_digit_count_partial",
    "C25_digit_count_refuted"
   ],
   "note": "REFUTED: 123 with two digits prints 120 and 1000 with seventeen prints eighteen digits. Proved: the first sd digits are followed by at most three more, all zero."
  },
  {
   "property": "C26",
   "status": "partial",
   "theorems": [
    "C26_zero_partial",
    "C26_zero_refuted"
   ],
   "note": "REFUTED: the text is not padded to the width. Proved: the exact text."
  },
  {
   "property": "C27",
   "status": "partial",
   "theorems": [
    "C27_accuracy_partial",
    "C27_accuracy_refuted",
    "C27_tiny_refuted"
   ],
   "note": "REFUTED for nine digits: 1.000000144999999e-250 (error accumulated while scaling). Proved as stated for 1..7 digits and within a further 4*10^-13 for 8 to 10, for |v| >= 2^-1015. Below, subnormal numbers lose accuracy: 4.94e-322 with four digits prints 489.1e-324 (C27_tiny_refuted). More than ten digits can overflow int (C90)."
  },
  {
   "property": "C28",
   "status": "partial",
   "theorems": [
    "C28_width_partial",
    "C28_width_refuted"
   ],
   "note": "REFUTED: zero in 'e' and unknown codes are not padded. Proved for everything else."
  },
  {
   "property": "C29",
   "status": "proved",
   "theorems": [
    "C29_fixed",
    "C29_sign"
   ],
   "note": ""
  },
  {
   "property": "C30",
   "status": "proved",
   "theorems": [
    "C30_scientific",
    "C30_scientific_zero"
   ],
   "note": ""
  },
  {
   "property": "C31",
   "status": "partial",
   "theorems": [
    "C31_unknown_code_partial",
    "C31_unknown_code_refuted"
   ],
   "note": "REFUTED: nothing is inserted. Proved: the exact result for every other code."
  },
  {
   "property": "C32",
   "status": "partial",
   "theorems": [
    "C32_separator_partial",
    "C32_separator_refuted"
   ],
   "note": "REFUTED: only zero uses the separator. Proved: zero uses it and every other value's text does not depend on it."
  },
  {
   "property": "C33",
   "status": "proved",
   "theorems": [
    "C33_always_returns",
    "C33_reading_unique",
    "C33_true_iff",
    "C33_understood_exactly"
   ],
   "note": "settled s: no earlier parse of this object stopped at an option of signed type with its value missing or rejected (a fresh object is settled; what happens otherwise is C48)."
  },
  {
   "property": "C34",
   "status": "partial",
   "theorems": [
    "C34_positional_in_order_partial",
    "C34_positional_refuted"
   ],
   "note": "REFUTED after an earlier parse that stalled (C48): option tokens become positional arguments. Proved for all other histories."
  },
  {
   "property": "C35",
   "status": "partial",
   "theorems": [
    "C35_new_option_absent_partial",
    "C35_present_partial",
    "C35_present_refuted",
    "C35_unknown_absent_partial"
   ],
   "note": "REFUTED: an option that ends the line without its value is not marked present although parse returns true. Proved: for every history of lines read to the end, both isPresent forms are exact."
  },
  {
   "property": "C36",
   "status": "proved",
   "theorems": [
    "C36_unknown_option"
   ],
   "note": "settled s as in C33."
  },
  {
   "property": "C37",
   "status": "partial",
   "theorems": [
    "C37_rejected_partial",
    "C37_rejected_refuted"
   ],
   "note": "REFUTED for scalar options: the variable is overwritten before the test runs, and by a failed conversion. Proved: exact contents of every variable afterwards; vector targets are never changed."
  },
  {
   "property": "C38",
   "status": "proved",
   "theorems": [
    "C38_help"
   ],
   "note": "settled s as in C33."
  },
  {
   "property": "C39",
   "status": "proved",
   "theorems": [
    "C39_defaults",
    "C39_unmentioned_unchanged",
    "C39_zero"
   ],
   "note": ""
  },
  {
   "property": "C40",
   "status": "proved",
   "theorems": [
    "C40_all_values_in_order",
    "C40_appends",
    "C40_never_drops"
   ],
   "note": "settled s as in C33; no state drops an element."
  },
  {
   "property": "C41",
   "status": "partial",
   "theorems": [
    "C41_negative_int_partial",
    "C41_negative_looks_like_option_refuted",
    "C41_other_types_partial",
    "C41_scalar_partial",
    "C41_vector_fails_refuted",
    "C41_vector_refuted"
   ],
   "note": "REFUTED for vector options: a token that looks like an option is never taken as the value. Proved for every scalar option of signed type."
  },
  {
   "property": "C42",
   "status": "proved",
   "theorems": [
    "C42_quoted_tokens"
   ],
   "note": "For objects not constructed for key=value input (those: C49). isspace must be defined for the bytes (always, in glibc)."
  },
  {
   "property": "C43",
   "status": "proved",
   "theorems": [
    "C43_mixed_tokens",
    "C43_unquoted_tokens"
   ],
   "note": "As C42."
  },
  {
   "property": "C44",
   "status": "proved",
   "theorems": [
    "C44_argv",
    "C44_no_arguments"
   ],
   "note": "Objects constructed for key=value input hand the same tokens to the key=value parser."
  },
  {
   "property": "C45",
   "status": "partial",
   "theorems": [
    "C45_int_partial",
    "C45_long_partial",
    "C45_round_trip_partial",
    "C45_ulong_partial",
    "C45_unsigned_partial",
    "C45_unsigned_refuted"
   ],
   "note": "REFUTED for unsigned types: a minus sign is accepted and the value wraps. Proved: the round trip through Format, and exactly what int, long, unsigned and unsigned long options accept and store."
  },
  {
   "property": "C46",
   "status": "partial",
   "theorems": [
    "C46_bool_partial",
    "C46_empty_refuted"
   ],
   "note": "REFUTED for the empty text: false is stored but the value is rejected. Proved: exactly the accepted texts and their values."
  },
  {
   "property": "C47",
   "status": "partial",
   "theorems": [
    "C47_getPosArg_partial",
    "C47_getPosArg_refuted"
   ],
   "note": "REFUTED at i = numPosArgs(): reads past the end. Proved: every other index is as claimed."
  },
  {
   "property": "C48",
   "status": "partial",
   "theorems": [
    "C48_independent_partial",
    "C48_independent_refuted",
    "C48_stuck_refuted"
   ],
   "note": "REFUTED: after a parse that stopped at an option of signed type (value missing or rejected) every later token is taken as positional. Proved: otherwise the outcome is determined by options, variables and arguments."
  },
  {
   "property": "C49",
   "status": "partial",
   "theorems": [
    "C49_key_value_partial",
    "C49_key_value_refuted",
    "C49_kvp_object_partial"
   ],
   "note": "REFUTED: an empty value becomes the key, runs of spaces collapse. Proved for non-empty values without such runs, with blanks allowed around pairs."
  },
  {
   "property": "C50",
   "status": "proved",
   "theorems": [
    "C50_only_accepted"
   ],
   "note": "settled s as in C33."
  },
  {
   "property": "C51",
   "status": "proved",
   "theorems": [
    "C51_help_sorted"
   ],
   "note": ""
  },
  {
   "property": "C52",
   "status": "proved",
   "theorems": [
    "C52_argv",
    "C52_key_value",
    "C52_list",
    "C52_string"
   ],
   "note": ""
  },
  {
   "property": "C53",
   "status": "proved",
   "theorems": [
    "C53_registration",
    "C53_second_replaces_first"
   ],
   "note": ""
  },
  {
   "property": "C54",
   "status": "proved",
   "theorems": [
    "C54_each_message_once_in_order"
   ],
   "note": ""
  },
  {
   "property": "C55",
   "status": "proved",
   "theorems": [
    "C55_no_echo",
    "C55_put_accepted"
   ],
   "note": ""
  },
  {
   "property": "C56",
   "status": "proved",
   "theorems": [
    "C56_get_null_iff_nothing_waiting"
   ],
   "note": ""
  },
  {
   "property": "C57",
   "status": "proved",
   "theorems": [
    "C57_subscribers_isolated"
   ],
   "note": ""
  },
  {
   "property": "C58",
   "status": "proved",
   "theorems": [
    "C58_minReadyCount",
    "C58_readyCount_is_number_of_gets",
    "C58_subscriberCount"
   ],
   "note": ""
  },
  {
   "property": "C59",
   "status": "proved",
   "theorems": [
    "C59_foreign_subscription_refused"
   ],
   "note": ""
  },
  {
   "property": "C60",
   "status": "proved",
   "theorems": [
    "C60_ids_never_reused"
   ],
   "note": ""
  },
  {
   "property": "C61",
   "status": "proved",
   "theorems": [
    "C61_held_iff_waiting",
    "C61_only_what_was_put",
    "C61_released"
   ],
   "note": ""
  },
  {
   "property": "C62",
   "status": "proved",
   "theorems": [
    "C62_linearizable",
    "C62_mutual_exclusion"
   ],
   "note": ""
  },
  {
   "property": "C63",
   "status": "partial",
   "theorems": [
    "C63_drop_removes_partial",
    "C63_drop_safe_partial",
    "C63_drop_terminates_refuted"
   ],
   "note": "REFUTED: unsubscribe(id) followed by destruction of the Subscription throws MissingSubscriber out of a destructor, i.e. std::terminate. Proved: under the ownership discipline (subscriptions come from subscribe, are dropped at most once, unsubscribe(id) is not called) no history terminates, and a drop removes the queue."
  },
  {
   "property": "C64",
   "status": "proved",
   "theorems": [
    "C64_nobody_passes_early"
   ],
   "note": ""
  },
  {
   "property": "C65",
   "status": "proved",
   "theorems": [
    "C65_bounded_work",
    "C65_everybody_passes",
    "C65_no_deadlock"
   ],
   "note": ""
  },
  {
   "property": "C66",
   "status": "proved",
   "theorems": [
    "C66_no_data_race"
   ],
   "note": ""
  },
  {
   "property": "C67",
   "status": "proved",
   "theorems": [
    "C67_at_most_one_timeout",
    "C67_corrupt_only_after_timeout"
   ],
   "note": ""
  },
  {
   "property": "C68",
   "status": "partial",
   "theorems": [
    "C68_others_return_partial",
    "C68_outcome_partial",
    "C68_timeout_reported_refuted",
    "C68_waiter_left_behind_refuted"
   ],
   "note": "REFUTED: the other waiters return normally, as if the barrier had been passed; one may even be left asleep. Proved: an exception goes only to a waiter whose own timeout expired; a thread that had looked at the counter before the timeout returns normally (unless a later round completes)."
  },
  {
   "property": "C69",
   "status": "partial",
   "theorems": [
    "C69_pass_needs_round_partial",
    "C69_rounds_partial",
    "C69_surplus_refuted"
   ],
   "note": "REFUTED: a surplus thread that read the counter before the round completed passes without waiting. Proved: one round per num_waiters arrivals, and nobody passes unless a round completed after the caller read the counter."
  },
  {
   "property": "C70",
   "status": "proved",
   "theorems": [
    "C70_wraparound"
   ],
   "note": ""
  },
  {
   "property": "C71",
   "status": "partial",
   "theorems": [
    "C71_duration_partial",
    "C71_timeout_partial",
    "C71_timeout_refuted"
   ],
   "note": "REFUTED for huge values: above 2^63-1 the timeout becomes negative, and from about 9.2e12 ms on the nanosecond clock arithmetic overflows. Proved: the exact set of values for which the deadline is the intended one."
  },
  {
   "property": "C72",
   "status": "partial",
   "theorems": [
    "C72_get_blank_path_partial",
    "C72_get_exact_partial",
    "C72_get_follows_path_refuted",
    "C72_path_components_partial"
   ],
   "note": "REFUTED: get never descends: it looks up each path component in the root's dictionary and then reads the root's own text. Proved: the exact result for every path after any history of reads."
  },
  {
   "property": "C73",
   "status": "partial",
   "theorems": [
    "C73_get_no_throw_refuted",
    "C73_get_throws_exactly_partial",
    "C73_node_no_throw_partial"
   ],
   "note": "REFUTED: a missing path throws whatever throw_exception says. Proved: exactly when the call throws, and that the PropNode overloads honour the flag."
  },
  {
   "property": "C74",
   "status": "proved",
   "theorems": [
    "C74_path_unique",
    "C74_yaml_history",
    "C74_yaml_maps_loaded"
   ],
   "note": ""
  },
  {
   "property": "C75",
   "status": "partial",
   "theorems": [
    "C75_yaml_list_history_partial",
    "C75_yaml_sequence_refuted",
    "C75_yaml_sequences_poured_partial"
   ],
   "note": "REFUTED: a sequence's key is lost and its scalars go to the list of the node holding the mapping. Proved: the exact lists after any history of reads."
  },
  {
   "property": "C76",
   "status": "proved",
   "theorems": [
    "C76_getKeys",
    "C76_getKeys_loaded",
    "C76_getList_loaded"
   ],
   "note": ""
  },
  {
   "property": "C77",
   "status": "partial",
   "theorems": [
    "C77_getPathName_exact_partial",
    "C77_getPathName_refuted"
   ],
   "note": "REFUTED: getPathName strings the values together, not the keys. Proved: the exact text for every node."
  },
  {
   "property": "C78",
   "status": "proved",
   "theorems": [
    "C78_dump_complete"
   ],
   "note": ""
  },
  {
   "property": "C79",
   "status": "partial",
   "theorems": [
    "C79_bad_conversion_partial",
    "C79_badtype_partial",
    "C79_badtype_refuted",
    "C79_corrupt_partial",
    "C79_lost_data_partial",
    "C79_mismatch_partial",
    "C79_mismatch_refuted",
    "C79_missing_subscriber_partial",
    "C79_not_found_partial",
    "C79_nul_refuted",
    "C79_texts_partial",
    "C79_timeout_partial"
   ],
   "note": "REFUTED: SubscriptionMismatch loses the other name, BadPropertyType loses the type (\"2\" for \"%2\"), a NUL byte cuts any message. Proved: every other datum is contained."
  },
  {
   "property": "C80",
   "status": "proved",
   "theorems": [
    "C80_no_deadlock"
   ],
   "note": ""
  },
  {
   "property": "C81",
   "status": "proved",
   "theorems": [
    "C81_never_stuck",
    "C81_waiting_ends"
   ],
   "note": ""
  },
  {
   "property": "C82",
   "status": "proved",
   "theorems": [
    "C82_timeout_means_not_released"
   ],
   "note": ""
  },
  {
   "property": "C83",
   "status": "partial",
   "theorems": [
    "C83_readFile_bad_file_partial",
    "C83_readFile_exceptions_refuted",
    "C83_readFile_result_partial"
   ],
   "note": "REFUTED: exceptions of yaml-cpp escape for some documents. Proved: the exact set of loadable documents."
  },
  {
   "property": "C84",
   "status": "proved",
   "theorems": [
    "C84_several_files"
   ],
   "note": ""
  },
  {
   "property": "C85",
   "status": "partial",
   "theorems": [
    "C85_get_string_blank_partial",
    "C85_get_string_partial",
    "C85_get_string_refuted"
   ],
   "note": "REFUTED: only the first word is returned. Proved: the exact result."
  },
  {
   "property": "C86",
   "status": "partial",
   "theorems": [
    "C86_failed_open_partial",
    "C86_failed_read_refuted"
   ],
   "note": "REFUTED: the part read before the failure stays. Proved: unchanged when the file cannot be opened or parsed; C74_yaml_history gives the exact result otherwise."
  },
  {
   "property": "C87",
   "status": "partial",
   "theorems": [
    "C87_writeFile_refuted"
   ],
   "note": "REFUTED: writeFile has an empty body. Nothing further holds."
  },
  {
   "property": "C88",
   "status": "proved",
   "theorems": [
    "C88_nodes_stay",
    "C88_same_answers"
   ],
   "note": ""
  },
  {
   "property": "C89",
   "status": "proved",
   "theorems": [
    "C89_general"
   ],
   "note": ""
  },
  {
   "property": "C90",
   "status": "partial",
   "theorems": [
    "C90_defined_partial",
    "C90_defined_refuted",
    "C90_fraction_partial",
    "C90_wide_partial",
    "C90_wide_refuted"
   ],
   "note": "REFUTED: with 11 digits 1.5 overflows the int that collects the fraction (undefined behaviour). Proved for up to ten digits, the exact limit. Beyond, a call that is defined prints at most ten digits of the fraction after its leading zeros (C90_fraction_partial); from 29 digits on every call that is defined prints a fraction of zeros only (C90_wide_partial), and for 1 <= |v| < 10 the call is undefined exactly for the numbers that are not integers (C90_wide_refuted)."
  },
  {
   "property": "C91",
   "status": "proved",
   "theorems": [
    "C91_double",
    "C91_float",
    "C91_nearest",
    "C91_nearest_float",
    "C91_option",
    "C91_option_float",
    "C91_refused",
    "C91_refused_float"
   ],
   "note": ""
  },
  {
   "property": "C92",
   "status": "proved",
   "theorems": [
    "C92_fixed",
    "C92_general",
    "C92_scientific",
    "C92_sharp"
   ],
   "note": ""
  },
  {
   "property": "C93",
   "status": "proved",
   "theorems": [
    "C93_engineering"
   ],
   "note": ""
  },
  {
   "property": "C94",
   "status": "proved",
   "theorems": [
    "C94_get_double",
    "C94_no_number"
   ],
   "note": ""
  },
  {
   "property": "C95",
   "status": "proved",
   "theorems": [
    "C95_float_general",
    "C95_float_scientific",
    "C95_widen"
   ],
   "note": ""
  },
  {
   "property": "C96",
   "status": "proved",
   "theorems": [
    "C96_get_int",
    "C96_get_long",
    "C96_get_refused"
   ],
   "note": ""
  },
  {
   "property": "C97",
   "status": "proved",
   "theorems": [
    "C97_double",
    "C97_int",
    "C97_unsigned_long"
   ],
   "note": ""
  },
  {
   "property": "C98",
   "status": "proved",
   "theorems": [
    "C98_print",
    "C98_print_never_throws"
   ],
   "note": ""
  },
  {
   "property": "C99",
   "status": "partial",
   "theorems": [
    "C99_extremes_refuted",
    "C99_nan",
    "C99_negative_digits_refuted",
    "C99_returns_iff",
    "C99_round_partial",
    "C99_round_refuted"
   ],
   "note": "REFUTED: for zero, negative values and infinities the call never returns; with a negative number of digits it returns for hardly any value; the least positive double is rounded to zero and the greatest to infinity. Proved: up to 15 digits it returns exactly for NaN and the positive finite values; for 1 to 15 digits and values from 10^sd * 2^-1018 to 2^1023 the result is right up to a relative error of 10^-12 from the accumulated roundings."
  },
  {
   "property": "C100",
   "status": "proved",
   "theorems": [
    "C100_barrier_publishes",
    "C100_clocks"
   ],
   "note": ""
  },
  {
   "property": "C101",
   "status": "proved",
   "theorems": [
    "C101_clocks",
    "C101_put_before_get"
   ],
   "note": ""
  },
  {
   "property": "C102",
   "status": "proved",
   "theorems": [
    "C102_every_string"
   ],
   "note": ""
  },
  {
   "property": "C103",
   "status": "partial",
   "theorems": [
    "C103_defined_partial",
    "C103_key_value_partial",
    "C103_key_value_refuted",
    "C103_kvp_arguments_partial"
   ],
   "note": "REFUTED: for key=value objects two adjacent commas, a blank text or a blank argument are undefined behaviour. Proved: every other input returns, and exactly what each text does (for characters on which isspace is defined)."
  },
  {
   "property": "C104",
   "status": "proved",
   "theorems": [
    "C104_order"
   ],
   "note": ""
  },
  {
   "property": "C105",
   "status": "proved",
   "theorems": [
    "C105_names_interchangeable"
   ],
   "note": ""
  },
  {
   "property": "C106",
   "status": "proved",
   "theorems": [
    "C106_none_never_passes",
    "C106_one_never_blocks"
   ],
   "note": ""
  },
  {
   "property": "C107",
   "status": "partial",
   "theorems": [
    "C107_mutual_exclusion_partial",
    "C107_no_race_refuted",
    "C107_writes_locked_partial"
   ],
   "note": "REFUTED: the entry read of the generation counter is not protected: a surplus thread, or the second of two threads while the first times out, reads it during a write. Proved: every other access is made with the mutex held, one thread at a time; C66 gives race freedom with num_waiters threads and no timeout."
  },
  {
   "property": "C108",
   "status": "proved",
   "theorems": [
    "C108_ends_idle",
    "C108_no_livelock"
   ],
   "note": ""
  },
  {
   "property": "C109",
   "status": "proved",
   "theorems": [
    "C109_calls_are_ordered",
    "C109_earlier_call_happens_before"
   ],
   "note": ""
  },
  {
   "property": "C110",
   "status": "proved",
   "theorems": [
    "C110_dump_exact",
    "C110_entry_order",
    "C110_picture_unique",
    "C110_same_content"
   ],
   "note": ""
  },
  {
   "property": "C111",
   "status": "partial",
   "theorems": [
    "C111_assignment_refuted",
    "C111_copies_refuted",
    "C111_formatters_are_values_partial",
    "C111_outlives_refuted",
    "C111_where_values_go"
   ],
   "note": "REFUTED in general: Format_ext copies its saved pointer, so values chained after the first on a copy (or on an assigned formatter) go to the original, or nowhere defined when it has ended (C111_copies_refuted, C111_outlives_refuted, C111_assignment_refuted; C111_where_values_go says where every value goes). Proved: value semantics for plain Formats without restriction and for extended ones as long as chains are not written on copies, or start with reset."
  },
  {
   "property": "C112",
   "status": "partial",
   "theorems": [
    "C112_copies_agree",
    "C112_copies_refuted",
    "C112_separate_objects_partial",
    "C112_shared_marks_only"
   ],
   "note": "REFUTED for copies: copies share their OptBase objects, so a line parsed by the copy makes isPresent true in the original (C112_copies_refuted, C112_copies_agree). Proved: full independence of objects that are not copies of one another, and for copies that nothing but the marks of shared options can change (C112_shared_marks_only)."
  },
  {
   "property": "C113",
   "status": "proved",
   "theorems": [
    "C113_can_finish",
    "C113_each_trial_exact",
    "C113_no_stray_message",
    "C113_nothing_left",
    "C113_success",
    "C113_together"
   ],
   "note": ""
  },
  {
   "property": "C114",
   "status": "partial",
   "theorems": [
    "C114_convert_gives_same",
    "C114_convert_refuses",
    "C114_source_type_refuted"
   ],
   "note": "REFUTED in part: the message gives the static type of the argument (a pointer to MailBoxBase), never the type the mailbox has, and a null pointer is undefined behaviour. Proved: what is returned and when, and the exact message."
  },
  {
   "property": "C115",
   "status": "partial",
   "theorems": [
    "C115_foreign_subscription",
    "C115_outlive_refuted",
    "C115_outlived_safe_partial",
    "C115_stale_refuted",
    "C115_starts_afresh"
   ],
   "note": "REFUTED: a Subscription has a raw pointer, so dropping it after the last MailBoxPtr is undefined behaviour, and before that it is accepted by a later mailbox at the same address. Proved: safe if every mailbox outlives its subscriptions; every mailbox starts afresh and, while it lives, behaves as in C54 to C61."
  },
  {
   "property": "C116",
   "status": "partial",
   "theorems": [
    "C116_destroyed_untouched_partial",
    "C116_done_after_return_refuted"
   ],
   "note": "REFUTED in its first half: a thread may still have to take the mutex when everybody has arrived and another one has returned. Proved: with a pointer per thread the barrier is never destroyed under a thread, and afterwards nobody touches it."
  },
  {
   "property": "C117",
   "status": "partial",
   "theorems": [
    "C117_enough_memory",
    "C117_failed_call_partial",
    "C117_failed_put_partial",
    "C117_otherwise_as_usual",
    "C117_put_all_or_nothing_refuted",
    "C117_subscribe_hangs_refuted",
    "C117_taking_needs_none"
   ],
   "note": "REFUTED: a put that runs out of memory has reached some subscribers only, and a subscribe that does so destroys its Subscription with the mutex held and hangs. Proved: exactly which subscribers a failed put reached, every other failed call changes nothing, taking messages needs no memory."
  },
  {
   "property": "C118",
   "status": "proved",
   "theorems": [
    "C118_alive_iff_wanted",
    "C118_destroyed_once",
    "C118_reclaimed",
    "C118_who_destroys"
   ],
   "note": "The reference counts of std::shared_ptr are modelled by the set of pointers in queues and in the hands of the program."
  },
  {
   "property": "C119",
   "status": "partial",
   "theorems": [
    "C119_destructor_hangs_refuted",
    "C119_hangs_exactly_partial",
    "C119_other_operations_safe_partial"
   ],
   "note": "REFUTED: clear, unsubscribe and the end of a subscription destroy messages with the mutex held. Proved: no other operation does, and only a message waiting in that very mailbox whose destructor uses that very mailbox hangs."
  },
  {
   "property": "C120",
   "status": "partial",
   "theorems": [
    "C120_gave_up_still_counted_partial",
    "C120_later_call_needs_round_partial",
    "C120_later_exception_is_corrupt_partial",
    "C120_passes_alone_refuted"
   ],
   "note": "REFUTED: the threads that gave up stay counted, so at a barrier for two a thread that calls after the Timeout passes alone. Proved: a later call passes only if a round was completed since it looked; num_waiters arrivals make a round, those of threads that gave up included; a later exception is Corrupt and comes after that call's own timeout."
  },
  {
   "property": "C121",
   "status": "proved",
   "theorems": [
    "C121_every_line",
    "C121_predicates",
    "C121_refused",
    "C121_succeeds",
    "C121_tests_see_earlier"
   ],
   "note": "Test functions that change variables are not modelled."
  },
  {
   "property": "C122",
   "status": "partial",
   "theorems": [
    "C122_handled_classes",
    "C122_like_refusing",
    "C122_only_tests_throw",
    "C122_reaches_caller",
    "C122_used_again_partial",
    "C122_used_again_refuted"
   ],
   "note": "REFUTED: exceptions of the two classes parse itself uses are taken for its own, and after a throwing test of an option of signed type the next command line is taken for positional arguments. Proved: every other exception reaches the caller with exactly the effects stated, nothing else escapes from parse, and after the test of any other option the object can be used again."
  },
  {
   "property": "C123",
   "status": "proved",
   "theorems": [
    "C123_clear_is_last",
    "C123_gets_there",
    "C123_second_number_after_all"
   ],
   "note": "The number of threads is a parameter (five in the file). The program has no catch block: if a timeout does expire it is terminated (C123_without_catch)."
  },
  {
   "property": "C124",
   "status": "proved",
   "theorems": [
    "C124_all_trials",
    "C124_always_ends",
    "C124_lock_step",
    "C124_reports"
   ],
   "note": "The random naps take arbitrary times; the numbers of threads and trials are parameters (main's options: C133)."
  },
  {
   "property": "C125",
   "status": "partial",
   "theorems": [
    "C125_decimal_partial",
    "C125_hexadecimal_refuted",
    "C125_octal_refuted"
   ],
   "note": "REFUTED for hexadecimal and octal: of 0x... the option always stores 0, and an octal number is read as a decimal one (it comes back only below 8); parse returns true. Proved for decimal, in unsigned int and unsigned long options."
  },
  {
   "property": "C126",
   "status": "partial",
   "theorems": [
    "C126_copy_is_same_partial",
    "C126_copy_refuted",
    "C126_nodes_outlive_objects",
    "C126_separate_trees_partial",
    "C126_what_a_tree_holds"
   ],
   "note": "REFUTED for copies: a copy has the same root pointer, so the two always show the same tree and a file read into one is in the other. Proved: what each object shows is exactly the files read into it and the objects it shares its root with, in order; trees that are not copies have nothing in common; nodes stay valid after the object is destroyed (none is ever released)."
  },
  {
   "property": "C127",
   "status": "partial",
   "theorems": [
    "C127_addB_refuted",
    "C127_agrees_with_options",
    "C127_get_bool_partial",
    "C127_get_char",
    "C127_get_short",
    "C127_get_unsigned",
    "C127_negative_refuted",
    "C127_words_refuted"
   ],
   "note": "REFUTED for bool and unsigned: only the integers 0 and 1 are truth values, so true, yes, T and what addB prints are refused; get<unsigned> takes -1 as 2^32-1. Proved: exactly what each type accepts, and that get<bool> never disagrees with a bool option."
  },
  {
   "property": "C128",
   "status": "partial",
   "theorems": [
    "C128_bool_partial",
    "C128_default_lost_refuted",
    "C128_not_found_partial",
    "C128_signed_partial",
    "C128_text_partial"
   ],
   "note": "REFUTED: a text that is no number overwrites an integer variable with 0 and a bool with false, a number out of range stores the nearest limit (true for bool). Proved: exactly what the variable holds after a failed get of short, int, long and bool (C94 for double); it is left alone for a blank text, a missing property, and strings and characters."
  },
  {
   "property": "C129",
   "status": "proved",
   "theorems": [
    "C129_pipeline"
   ],
   "note": "Any chain length, any schedule, any number of producers; other threads may make any call that makes no subscription and does not use the subscriptions of the chain or put into its later mailboxes."
  },
  {
   "property": "C130",
   "status": "proved",
   "theorems": [
    "C130_defined",
    "C130_in_time",
    "C130_not_early"
   ],
   "note": "The barrier of C64-C71 with a clock: a timeout is reported only when the clock has reached the deadline computed by wait_for. C130_not_early, C130_forever: no exception before the limit. C130_in_time: none at all when rounds are completed in time. C130_defined: no overflow. The clock moves by arbitrary amounts at arbitrary moments and is not bounded from above while a thread runs."
  },
  {
   "property": "C131",
   "status": "partial",
   "theorems": [
    "C131_every_line_partial",
    "C131_help_partial",
    "C131_rejected_partial",
    "C131_report_partial",
    "C131_stuck_refuted",
    "C131_unknown_partial"
   ],
   "note": "REFUTED: when the command line ends with -i (or --intarg) and no value, the first parse succeeds but the second one sets nothing, and the old values are reported again (C131_stuck_refuted). Proved for every other command line: the exact texts on both streams and the exit code (C131_report, help, unknown, rejected), and that there is no further kind of command line (C131_every_line). getVersion and getGitID are arbitrary constants."
  },
  {
   "property": "C132",
   "status": "proved",
   "theorems": [
    "C132_no_file",
    "C132_option",
    "C132_prints_file"
   ],
   "note": "The content is described by the picture of C110; which documents can be read by C83. The file system is a function from names to what YAML::LoadFile does."
  },
  {
   "property": "C133",
   "status": "partial",
   "theorems": [
    "C133_complains",
    "C133_defined_partial",
    "C133_defined_refuted",
    "C133_ends_partial",
    "C133_every_line",
    "C133_numbers"
   ],
   "note": "REFUTED: with --maddur 0 and at least one thread, or with more than 9157 threads, a thread begins with undefined behaviour (limits of the random distribution, overflow of the seed); C133_defined_refuted shows it for all these numbers. Proved for all others (C133_defined_partial), and for all numbers that the test ends (C133_ends_partial, apart from those first lines); the command line without restriction."
  },
  {
   "property": "C134",
   "status": "partial",
   "theorems": [
    "C134_complains",
    "C134_ends_refuted",
    "C134_every_line",
    "C134_no_threads",
    "C134_numbers",
    "C134_works_partial"
   ],
   "note": "REFUTED: with a negative number of messages, or with messages times threads not an int, no thread ever finishes (C134_ends_refuted, for exactly the numbers not covered by works). Proved for all others; the command line without restriction. What main prints besides and its check for leaked messages are left out (C113, C118)."
  },
  {
   "property": "C135",
   "status": "proved",
   "theorems": [
    "C135_fair_ends",
    "C135_fair_exists",
    "C135_test_ends"
   ],
   "note": "Strong fairness: a thread that can move infinitely often moves infinitely often (needed for the mutexes). Spurious wake-ups are unrestricted. C135_test_ends is the same for the program with the int numbers of its command line, C135_fair_exists shows that there are fair schedules for every configuration. The axiom of excluded middle is used (infinite executions)."
  },
  {
   "property": "C136",
   "status": "proved",
   "theorems": [
    "C136_call_returns",
    "C136_fair_exists"
   ],
   "note": "Strong fairness for threads inside a call; whether threads make calls is free. A call that meets undefined behaviour (C63) counts as returned with that result. C136_fair_exists: every execution has a fair continuation."
  },
  {
   "property": "C137",
   "status": "proved",
   "theorems": [
    "C137_everybody_passes",
    "C137_fair_exists"
   ],
   "note": "Strong fairness; being notified does not count as a move, and wake-ups without reason are not something the scheduler owes. C137_fair_exists: every execution has a fair continuation."
  },
  {
   "property": "C138",
   "status": "proved",
   "theorems": [
    "C138_timed_wait_returns"
   ],
   "note": "Besides fairness the hypothesis time_passes is needed: a call that never returns and sleeps again and again is told once that its time is over. How long that takes is C130."
  },
  {
   "property": "C139",
   "status": "proved",
   "theorems": [
    "C139_delivered_in_time"
   ],
   "note": "The chain of C129 with n relays (n = 0: a single mailbox) and the fairness of C136. C139_delivered_in_time also gives the order; C139_received is the plain form for one message. The example is a schedule that repeats itself for ever with three threads competing."
  },
  {
   "property": "C140",
   "status": "proved",
   "theorems": [
    "C140_example_ends",
    "C140_example_fair_exists",
    "C140_test_ends",
    "C140_test_fair_exists",
    "C140_test_passes"
   ],
   "note": "The programs of C123 and C124, run for ever with the fairness of C137 extended to the steps outside wait. C140_example_ends and C140_test_passes: no expiry, any number of spurious wake-ups; C140_test_ends: time limits run out as in C138. The two fair_exists theorems show that every finite execution can be continued in such a way."
  },
  {
   "property": "C141",
   "status": "partial",
   "theorems": [
    "C141_cut_partial",
    "C141_exact_partial",
    "C141_failed_reset_refuted",
    "C141_given_up_refuted",
    "C141_repeat_partial",
    "C141_reset_partial",
    "C141_silent_refuted",
    "C141_thrown_partial"
   ],
   "note": "REFUTED in three places, the rest proved. addI, addU, addF, addC and addB write to a stringstream, which swallows std::bad_alloc: the call returns and a shortened number is in the text, and str(true) finds nothing missing (C141_silent_refuted). A failed add that is not repeated leaves its value in some of the places of its field, and the next value goes to the others (C141_given_up_refuted). A failed reset leaves a shortened template that str(true) takes for complete (C141_failed_reset_refuted). Proved: repeating works (C141_repeat_partial), reset repairs everything (C141_reset_partial), what exactly a failed add leaves (C141_thrown_partial), a cut text without separators is a beginning of the right one (C141_cut_partial), addS and nan/inf are never cut (C141_exact_partial)."
  },
  {
   "property": "C142",
   "status": "partial",
   "theorems": [
    "C142_apart_refuted",
    "C142_as_alone_partial",
    "C142_no_race_partial",
    "C142_race_exactly"
   ],
   "note": "REFUTED: Format::separator is a plain static variable, so a thread that assigns it changes the zeroes another thread prints with addF e, and the two accesses are a data race (C142_apart_refuted). Proved for all programs in which a thread that assigns the separator is the only one to assign it or to print a zero with e: no race (C142_no_race_partial), every thread gets what it gets alone (C142_as_alone_partial); C142_race_exactly: this condition cannot be weakened."
  },
  {
   "property": "C143",
   "status": "partial",
   "theorems": [
    "C143_arguments_partial",
    "C143_blind_refuted",
    "C143_every_line_partial",
    "C143_looks_at_partial",
    "C143_nan_refuted",
    "C143_own_test_partial",
    "C143_pass_refuted"
   ],
   "note": "REFUTED: with arguments the program ignores what parse returns and always prints PASS (C143_pass_refuted; C143_arguments_partial has the whole output for every line, C143_every_line_partial that every line is covered, and that std::cerr is empty exactly when the line is in order). Without arguments the loop over the positional words never runs, because list::merge has emptied the list: any three words and any getPosArg pass (C143_blind_refuted), and so does a library that stores NaN for the two floats (C143_nan_refuted). Proved: what exactly the test looks at, for any library (C143_looks_at_partial), and that the library passes (C143_own_test_partial)."
  },
  {
   "property": "C144",
   "status": "partial",
   "theorems": [
    "C144_flags_partial",
    "C144_negative_refuted",
    "C144_nonsense_refuted"
   ],
   "note": "REFUTED: the check divides by the number itself, so it never complains about a negative number, whatever the text (C144_negative_refuted); a text without a number counts as 0 and passes when no digits are asked for (C144_nonsense_refuted). Proved for all positive numbers from 2^-1015 to 2^1000 and all texts that begin with a number (C144_flags_partial); the rounding of the check itself blurs the border by 10^-9 of v. An empty text would make the check read an uninitialised variable (modelled as UB)."
  },
  {
   "property": "C145",
   "status": "proved",
   "theorems": [
    "C145_own_text",
    "C145_passes",
    "C145_tells"
   ],
   "note": "The messages on std::cerr and the debug run with four or more arguments are left out. pow(10.0, e) for negative e is 1/10^-e rounded (glibc may differ in the last place). C145_own_text is the statement for one number and every separator, positive from 2^-1015 to 2^1000 (zero is in C145_passes, with the separator of the program)."
  },
  {
   "property": "C146",
   "status": "proved",
   "theorems": [
    "C146_library_call_leaves",
    "C146_outlives",
    "C146_own_calls_stay",
    "C146_own_methods"
   ],
   "note": ""
  },
  {
   "property": "C147",
   "status": "partial",
   "theorems": [
    "C147_library_passes",
    "C147_pass_partial",
    "C147_pass_refuted",
    "C147_undefined_partial"
   ],
   "note": "REFUTED: a split that returns nothing passes, and so does a splitVec that returns further fields (C147_pass_refuted). Proved: PASS exactly if the vector begins with the three fields and the list is a beginning of them; with a shorter vector or a longer list the program itself is undefined; the library passes."
  },
  {
   "property": "C148",
   "status": "partial",
   "theorems": [
    "C148_all_lines_refuted",
    "C148_exit_code_partial",
    "C148_library_passes"
   ],
   "note": "REFUTED: the line { 0137, 4 } has the key of the line before it and never gets into the std::map, so a library that prints it wrong passes (C148_all_lines_refuted). Proved: exit code 0 exactly if the other 24 lines are printed as demanded; the library passes and prints the unchecked line right too."
  },
  {
   "property": "C149",
   "status": "partial",
   "theorems": [
    "C149_come_back_iff_partial",
    "C149_come_back_space_iff_partial",
    "C149_fields_come_back_refuted",
    "C149_words_come_back"
   ],
   "note": "REFUTED: an empty last field is lost, spaces are squashed (also inside fields) and a single blank field is undefined behaviour (C149_fields_come_back_refuted). Proved: exactly which lists come back (C149_come_back_iff_partial when the space is no delimiter, C149_come_back_space_iff_partial when it is one), in particular all lists of fields without spaces whose last field is not empty."
  },
  {
   "property": "C150",
   "status": "partial",
   "theorems": [
    "C150_ends",
    "C150_exit_iff_partial",
    "C150_exit_refuted",
    "C150_hang_noticed",
    "C150_library_passes"
   ],
   "note": "REFUTED: an addF that writes nothing at all for infinity can pass, because the words inf and nan also stand in the template (C150_exit_refuted). Proved: exit code 0 exactly if the three calls return one of four triples of texts (C150_exit_iff_partial); a call for infinity that throws or does not return is noticed (C150_hang_noticed), and when the program throws or does not end (C150_ends); the library passes."
  }
 ]
}