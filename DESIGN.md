# Formal model of kb1vc/SoDaUtils in Coq 8.16.1

The model is written in Gallina, function by function, from the text of /repo
(nothing was built or run).  `rocq/theories/` holds, per component:

* `M_*.v` -- the model: total computable functions or transition systems, each
  definition citing the source lines it models and its simplifications
* `S_*.v` -- small independent specifications (what the English property means)
* `L_*.v`, `C_*.v` -- lemmas, and the lemmas each property needs
* `P_*.v` -- the property theorems, named after the property (C01_..., suffix
  `_partial` or `_refuted` where the claim does not hold as stated), each followed
  by `Print Assumptions`; beside them an `Example Cxx_nonvacuous` with a concrete
  case that meets the hypotheses

* `T_Repo.v` -- the model run on the inputs of the repository's own tests, giving the
  outputs those tests demand (a check of the transcription, not a property)

`MANIFEST.json` maps properties to theorems; `seeded/LOG.jsonl` records the wrong
programs tried and which theorems they broke.

## Conventions

* `std::string` is `list ascii` (`str`), i.e. bytes; `char` is `ascii`.
* Undefined behaviour and exceptions are distinct outcomes (`Ok`, `Throw`, `UB`).
  Loops of addF, whose termination is itself a property, take fuel and return `None`
  when it runs out: theorems prove a sufficient fuel, or that no fuel suffices.
* Fixed-width integers are `Z`/`N` with explicit wrap where the C++ wraps and
  an explicit `UB` where signed overflow would occur.
* `<cctype>` functions called with a negative `char` are UB by the standard and
  harmless with glibc; the model takes the platform as a parameter
  (`Strict | Glibc`) and theorems quantify over it.

## Trusted base

1. Coq 8.16.1's kernel (including `vm_compute`), and the reading of the statements in
   `P_*.v` with the specifications `S_*.v`.
2. Axioms, all of the standard library: `Classical_Prop.classic`,
   `FunctionalExtensionality.functional_extensionality_dep`,
   `ClassicalDedekindReals.sig_not_dec`, `ClassicalDedekindReals.sig_forall_dec`.
   They enter through the real numbers and Flocq, in the floating-point properties
   only, except that C118_reclaimed uses `classic` (whether some mailbox holds a
   message is not decidable for unboundedly many mailboxes); the table at the end gives `Print Assumptions` for each theorem.  No axiom,
   parameter, functor or module type is declared here, and no kernel check is
   switched off.  Axiom listings by module (`coqchk -o`) also show the opaque module
   fields of the standard library `Rdefinitions.RbaseSymbolsImpl`/`RinvImpl` and
   `ssrunder.Under_rel`; these are definitions sealed by a signature, not assumptions
   of any theorem.
3. The models of what is not in /repo:
   * `M_Stream`, `M_StreamIn`, `M_StreamFloat`: iostream output and input in the "C"
     locale as libstdc++ implements them (strtod/strtof and printf-style output of
     doubles correctly rounded, as in glibc);
   * `M_Float`: double is IEEE 754 binary64, float binary32, operations rounded to
     nearest even without excess precision; conversion to int of an out-of-range
     double is UB; 64-bit `long`, 32-bit `int`, signed `char` (x86-64 Linux);
   * in `M_PropertyTree`: what yaml-cpp returns for a file is a parameter
     (`load_result`); the node operations used (`IsMap`, iteration, `as<string>` and the
     exceptions they throw) are modelled after yaml-cpp 0.6/0.7;
   * in `M_Barrier` and `M_MailBoxConc`: std::mutex, lock_guard, unique_lock and
     condition_variable::wait_for with spurious wake-ups; threads are sequentially
     consistent between the accesses that are modelled as separate steps.
4. The transcription of /repo into `M_*.v` (checked by reading; the seeded changes
   show that the theorems notice edits of it).

## What is modelled

| source | modelled | in |
|---|---|---|
| src/Split.cxx | squashSpaces, split, splitVec: all of it | M_Split |
| src/Format.cxx, include/Format.hxx | constructor, initialScan, insertField, reset, addI, addU, addF (log1k, fractionate, getIntPartWidth, all formats), addC, addB, addS, str, operator<<, roundToSigDigs, Format_ext, BadFormat; failing allocations, several threads | M_Format, M_FormatF, M_Round, M_FormatExt, M_FormatMem, M_FormatThreads |
| src/Options.cxx, include/Options.hxx | every public function (add for scalars with and without default, addV, addP, addInfo, parse from argc/argv, string, vector and key=value list, isPresent by name and by character, getPosArg(s), numPosArgs, printHelp), tokeniser, value conversion for bool, string, char, int, long, unsigned, unsigned long, float, double | M_Options, M_OptionsTest, M_OptionsObj, M_StreamIn, M_StreamFloat |
| include/MailBox.hxx | all functions, Subscription and its destructor, exceptions; sequentially, with threads, with the lifetimes of mailboxes, subscriptions and messages, and with failing allocations | M_MailBox, M_MailBoxConc, M_MailBoxLife, M_MailBoxMem |
| test/MailBoxTest.cxx | objMailBoxTest and the thread set-up of testObjMessage: the usage shown in the manual | M_Exchange |
| src/Barrier.cxx, include/Barrier.hxx | constructor, wait in all overloads, the exceptions; lifetime under BarrierPtr; the time limits of wait | M_Barrier, M_BarrierLife, M_BarrierTime |
| examples/OptionsExample.cxx, examples/PropertyTreeYamlExample.cxx (and test/PropertyTreeYAML_Test.cxx, the same text) | main, as programs that use Options and PropertyTreeYAML | M_OptionsExample, M_YamlExample |
| examples/BarrierExample.cxx, test/BarrierTest.cxx | the threads and main, as programs that use the barrier | M_BarrierUse |
| test/BarrierTest.cxx, test/MailBoxTest.cxx | main with its options, testMBoxConversion, and the tests run with the int numbers the options give | M_TestMain |
| test/OptionsTest.cxx, test/FormatTest.cxx | main and the functions it calls, up to messages on std::cerr; of FormatTest not the debug run with four or more arguments | M_OptionsTestProg, M_FormatTestProg |
| test/SplitTest.cxx, test/FormatHexTest.cxx | main and testFmt, up to messages on std::cerr | M_SmallTests |
| test/FormatNaN.cxx | main, up to the message on std::cout | M_NaNTest |
| examples/FormatExample.cxx | class MyFormat and its chains | M_FormatOwn |
| src/PropertyTree.cxx, src/PropertyTreeYAML.cxx and headers | PropNode, PropertyTree, PropertyTreeYAML: get, getKeys, getList, getPathName, dump, readFile, fillRecurse, writeFile, exceptions; several objects and copies | M_PropertyTree, M_TreeObj |
| include/Exception.hxx | message construction | M_Format and the exception constructors |

Not modelled: `UtilsBase` (version and git strings filled in by CMake), `NoCopy` (a
compile-time restriction), the YAML parser itself, I/O errors of std::cerr/std::cout, exhaustion of memory (but see C117 for mailboxes and C141 for Format) or of the stack,
wall-clock time (except in C130), CMake files, examples and tests other than those listed.  Value types of options other than
those listed (short, long long, user types) are covered by the theorems that quantify
over the conversion function `ty_read`.


## Plan and result per property

Every property could be expressed in the model.  Where the English claim is false of the code, a
`_refuted` theorem gives the counterexample and a `_partial` theorem states exactly what does hold.


**How:** `squashSpaces`, `split`, `splitVec` (M_Split) as index loops with UB for front()/back() of an empty string; loop invariants against a word/field specification (S_Split).

* **C01** squashSpaces yields the words joined by single spaces -- proved. `C01_squashSpaces_shape`, `C01_squashSpaces_words`
* **C02** squashSpaces is defined on every string -- partial. `C02_squashSpaces_domain_partial`, `C02_squashSpaces_total_refuted`  
  REFUTED as stated: blank strings (incl. the empty string) are undefined behaviour (front()/back() of an empty std::string). Exact domain proved.
* **C03** split cuts the squashed input at the delimiters and nowhere else -- proved. `C03_split_fields`, `C03_split_rejoin`
* **C04** split with no_empty removes exactly the empty tokens -- proved. `C04_split_no_empty`
* **C05** splitVec agrees with split -- proved. `C05_splitVec_split`

**How:** the scanner state machine, segments, insertField, reset and str (M_Format); an inductive relation between template, values and output (S_Format); simulation by induction on the template.

* **C06** placeholders are replaced by position, everything else is copied -- proved. `C06_construction_defined`, `C06_shows_unambiguous`, `C06_str_is_template_instance`, `C06_template_unambiguous`
* **C07** doubling the percent signs protects any text -- proved. `C07_escape_protects`
* **C08** inserted values are never re-interpreted -- proved. `C08_values_verbatim`
* **C09** reset makes a Format as good as new -- proved. `C09_reset_fresh`
* **C10** str(true) throws BadFormat exactly when a placeholder is unfilled -- proved. `C10_message`, `C10_str_check`
* **C11** too many values are reported -- partial. `C11_extra_values_ignored_partial`, `C11_extra_values_refuted`  
  REFUTED: extra values are silently accepted. Proved: they never change the result.
* **C12** distinct placeholder numbers denote distinct values -- partial. `C12_distinct_fields_refuted`, `C12_fields_mod_2_32_partial`  
  REFUTED: the field number is accumulated in an unsigned int, so %4294967296 is %0. Proved: numbers are taken exactly modulo 2^32, hence distinct numbers below 2^32 are distinct fields.

**How:** stream padding and digit generation (M_Stream), grouping loops (M_Format); positional value of numerals and a grouping relation (S_Num, S_Field); induction on digit lists.

* **C13** addI prints the integer in decimal, right-justified -- proved. `C13_addI_decimal`, `C13_addI_huge_width`
* **C14** addI separator groups digits by three -- partial. `C14_addI_huge_width_partial`, `C14_addI_separator_partial`, `C14_addI_separator_refuted`, `C14_delete_separator_partial`  
  REFUTED for negative values whose digit count is a multiple of three (-123 prints -,123). Proved: exact output for every value.
* **C15** addU hexadecimal output is exact -- proved. `C15_addU_hex`
* **C16** addU octal output is exact -- proved. `C16_addU_oct`
* **C17** addU decimal output is exact -- proved. `C17_addU_dec`, `C17_addU_huge_width`
* **C18** addU separators stand between digits only -- partial. `C18_addU_dec_partial`, `C18_addU_group0_partial`, `C18_addU_group0_refuted`, `C18_addU_hex_partial`, `C18_addU_oct_partial`, `C18_addU_padding_refuted`  
  REFUTED for decimal with a width (padding is grouped too) and for group_count 0 (trailing separator). Proved: hex and octal as claimed, decimal exact output.
* **C19** addS justifies without losing characters -- proved. `C19_addS_int_min`, `C19_addS_justify`
* **C20** addC and addB insert one fixed character -- proved. `C20_addC_addB`
* **C21** Format_ext wrappers format like Format -- partial. `C21_ext_addU_refuted`, `C21_ext_same_partial`  
  REFUTED: Format_ext::addU takes unsigned int and drops the upper 32 bits. Proved: all other wrappers, and addU below 2^32, agree.

**How:** doubles as IEEE 754 binary64 (Flocq's binary_float 53 1024), log1k, fractionate, getIntPartWidth and addF statement by statement with fuel per loop (M_Float, M_FormatF); error analysis of the scaling loops over the reals, correct rounding of 'f', 's', 'g' (S_FormatF).

* **C22** addF renders NaN and infinity as padded text -- proved. `C22_inf`, `C22_nan`
* **C23** addF 'e' returns for every finite value -- partial. `C23_fuel_irrelevant`, `C23_limits`, `C23_never_returns`, `C23_terminates_partial`, `C23_terminates_refuted`  
  REFUTED: near DBL_MAX the rounding increment overflows to infinity, and the two smallest doubles scale for ever; both loop without end. Proved: exactly which numbers return, for every number of digits: zero, and 3*2^-1074 <= |v| <= limit(digits)*2^971 (at most 501 iterations of each loop); no other finite number does. The limits are about 10^308 for no digits, and 2^1024 - 5*10^(308-digits) otherwise (C23_limits).
* **C24** addF 'e' prints engineering notation -- partial. `C24_engineering_partial`, `C24_engineering_refuted`  
  REFUTED: 995 with two digits prints 1000e+0; with no digits the integer part is 0. Proved for 1 <= sd < 2^31: the grammar, the sign, an integer part of 1..1000 (1000 only with a zero fraction), exponent a multiple of three.
* **C25** addF 'e' prints the requested number of significant digits -- partial. `C25_digit_count_partial`, `C25_digit_count_refuted`  
  REFUTED: 123 with two digits prints 120 and 1000 with seventeen prints eighteen digits. Proved: the first sd digits are followed by at most three more, all zero.
* **C26** addF 'e' of zero -- partial. `C26_zero_partial`, `C26_zero_refuted`  
  REFUTED: the text is not padded to the width. Proved: the exact text.
* **C27** addF 'e' is accurate -- partial. `C27_accuracy_partial`, `C27_accuracy_refuted`, `C27_tiny_refuted`  
  REFUTED for nine digits: 1.000000144999999e-250 (error accumulated while scaling). Proved as stated for 1..7 digits and within a further 4*10^-13 for 8 to 10, for |v| >= 2^-1015. Below, subnormal numbers lose accuracy: 4.94e-322 with four digits prints 489.1e-324 (C27_tiny_refuted). More than ten digits can overflow int (C90).
* **C28** addF pads to the field width -- partial. `C28_width_partial`, `C28_width_refuted`  
  REFUTED: zero in 'e' and unknown codes are not padded. Proved for everything else.
* **C29** addF 'f' prints the correctly rounded fixed-point numeral -- proved. `C29_fixed`, `C29_sign`
* **C30** addF 's' prints normalized scientific notation -- proved. `C30_scientific`, `C30_scientific_zero`
* **C31** addF rejects or reports unknown format codes -- partial. `C31_unknown_code_partial`, `C31_unknown_code_refuted`  
  REFUTED: nothing is inserted. Proved: the exact result for every other code.
* **C32** the radix separator setting is honoured -- partial. `C32_separator_partial`, `C32_separator_refuted`  
  REFUTED: only zero uses the separator. Proved: zero uses it and every other value's text does not depend on it.

**How:** option objects, the two name maps, the caller's variables as memory, the parse loop, text conversion, token building, key=value front end, help text (M_Options, M_StreamIn); a grammar of command-line items and its effect (S_Options); simulation, by induction on the line and on histories.

* **C33** a well-formed command line is understood exactly -- proved. `C33_always_returns`, `C33_reading_unique`, `C33_true_iff`, `C33_understood_exactly`  
  settled s: no earlier parse of this object stopped at an option of signed type with its value missing or rejected (a fresh object is settled; what happens otherwise is C48).
* **C34** positional arguments are kept in order -- partial. `C34_positional_in_order_partial`, `C34_positional_refuted`  
  REFUTED after an earlier parse that stalled (C48): option tokens become positional arguments. Proved for all other histories.
* **C35** isPresent tells whether the option was on the line -- partial. `C35_new_option_absent_partial`, `C35_present_partial`, `C35_present_refuted`, `C35_unknown_absent_partial`  
  REFUTED: an option that ends the line without its value is not marked present although parse returns true. Proved: for every history of lines read to the end, both isPresent forms are exact.
* **C36** unknown options make parse fail -- proved. `C36_unknown_option`  
  settled s as in C33.
* **C37** a rejected value makes parse fail and leaves the target alone -- partial. `C37_rejected_partial`, `C37_rejected_refuted`  
  REFUTED for scalar options: the variable is overwritten before the test runs, and by a failed conversion. Proved: exact contents of every variable afterwards; vector targets are never changed.
* **C38** help stops the parse -- proved. `C38_help`  
  settled s as in C33.
* **C39** defaults are installed when the option is added -- proved. `C39_defaults`, `C39_unmentioned_unchanged`, `C39_zero`
* **C40** vector options collect every value -- proved. `C40_all_values_in_order`, `C40_appends`, `C40_never_drops`  
  settled s as in C33; no state drops an element.
* **C41** negative numbers can be given to numeric options -- partial. `C41_negative_int_partial`, `C41_negative_looks_like_option_refuted`, `C41_other_types_partial`, `C41_scalar_partial`, `C41_vector_fails_refuted`, `C41_vector_refuted`  
  REFUTED for vector options: a token that looks like an option is never taken as the value. Proved for every scalar option of signed type.
* **C42** quoted tokens survive string parsing -- proved. `C42_quoted_tokens`  
  For objects not constructed for key=value input (those: C49). isspace must be defined for the bytes (always, in glibc).
* **C43** unquoted tokens are split at whitespace -- proved. `C43_mixed_tokens`, `C43_unquoted_tokens`  
  As C42.
* **C44** argc/argv parsing skips only the program name -- proved. `C44_argv`, `C44_no_arguments`  
  Objects constructed for key=value input hand the same tokens to the key=value parser.
* **C45** integers round-trip through Format and Options -- partial. `C45_int_partial`, `C45_long_partial`, `C45_round_trip_partial`, `C45_ulong_partial`, `C45_unsigned_partial`, `C45_unsigned_refuted`  
  REFUTED for unsigned types: a minus sign is accepted and the value wraps. Proved: the round trip through Format, and exactly what int, long, unsigned and unsigned long options accept and store.
* **C46** boolean option values -- partial. `C46_bool_partial`, `C46_empty_refuted`  
  REFUTED for the empty text: false is stored but the value is rejected. Proved: exactly the accepted texts and their values.
* **C47** getPosArg never reads out of range -- partial. `C47_getPosArg_partial`, `C47_getPosArg_refuted`  
  REFUTED at i = numPosArgs(): reads past the end. Proved: every other index is as claimed.
* **C48** successive parses are independent -- partial. `C48_independent_partial`, `C48_independent_refuted`, `C48_stuck_refuted`  
  REFUTED: after a parse that stopped at an option of signed type (value missing or rejected) every later token is taken as positional. Proved: otherwise the outcome is determined by options, variables and arguments.
* **C49** key=value lists set the same options as a command line -- partial. `C49_key_value_partial`, `C49_key_value_refuted`, `C49_kvp_object_partial`  
  REFUTED: an empty value becomes the key, runs of spaces collapse. Proved for non-empty values without such runs, with blanks allowed around pairs.
* **C50** only accepted values reach the program -- proved. `C50_only_accepted`  
  settled s as in C33.
* **C51** help lists every option once, sorted -- proved. `C51_help_sorted`
* **C52** parse touches only registered targets -- proved. `C52_argv`, `C52_key_value`, `C52_list`, `C52_string`
* **C53** registering a name again replaces it -- proved. `C53_registration`, `C53_second_replaces_first`

**How:** a world of mailboxes and subscription objects (M_MailBox); histories by induction against an abstract stream of messages (S_MailBox).

* **C54** each subscriber receives every message once, in order -- proved. `C54_each_message_once_in_order`
* **C55** put with a subscription does not echo to the sender -- proved. `C55_no_echo`, `C55_put_accepted`
* **C56** get returns nothing exactly when nothing is waiting -- proved. `C56_get_null_iff_nothing_waiting`
* **C57** subscribers are isolated -- proved. `C57_subscribers_isolated`
* **C58** counts are accurate -- proved. `C58_minReadyCount`, `C58_readyCount_is_number_of_gets`, `C58_subscriberCount`
* **C59** a subscription for another mailbox is refused -- proved. `C59_foreign_subscription_refused`
* **C60** subscription identities are never reused -- proved. `C60_ids_never_reused`
* **C61** messages are released when the last reader is done -- proved. `C61_held_iff_waiting`, `C61_only_what_was_put`, `C61_released`

**How:** small-step threads with the mutex and one memory access per step (M_MailBoxConc); a linearisation simulation over all schedules (S_MailBoxConc).

* **C62** mailbox operations are atomic under any thread schedule -- proved. `C62_linearizable`, `C62_mutual_exclusion`

**How:** as C54-C61, with destructor effects and the ownership discipline as a predicate on histories.

* **C63** dropping a subscription is always safe -- partial. `C63_drop_removes_partial`, `C63_drop_safe_partial`, `C63_drop_terminates_refuted`  
  REFUTED: unsubscribe(id) followed by destruction of the Subscription throws MissingSubscriber out of a destructor, i.e. std::terminate. Proved: under the ownership discipline (subscriptions come from subscribe, are dropped at most once, unsubscribe(id) is not called) no history terminates, and a drop removes the queue.

**How:** interleaving transition system with the unlocked read as its own step, critical sections atomic, timeouts and spurious wake-ups as nondeterministic steps (M_Barrier); invariants over all reachable states, explicit schedules for the refutations; fairness-free progress by a decreasing measure.  Wall-clock time is not modelled: a timeout may fire at any moment a thread is blocked.

* **C64** nobody passes the barrier early -- proved. `C64_nobody_passes_early`
* **C65** everybody passes the barrier eventually -- proved. `C65_bounded_work`, `C65_everybody_passes`, `C65_no_deadlock`
* **C66** wait has no data race -- proved. `C66_no_data_race`
* **C67** at most one Timeout per barrier -- proved. `C67_at_most_one_timeout`, `C67_corrupt_only_after_timeout`
* **C68** a timeout is reported to every waiter -- partial. `C68_others_return_partial`, `C68_outcome_partial`, `C68_timeout_reported_refuted`, `C68_waiter_left_behind_refuted`  
  REFUTED: the other waiters return normally, as if the barrier had been passed; one may even be left asleep. Proved: an exception goes only to a waiter whose own timeout expired; a thread that had looked at the counter before the timeout returns normally (unless a later round completes).
* **C69** surplus threads wait for the next generation -- partial. `C69_pass_needs_round_partial`, `C69_rounds_partial`, `C69_surplus_refuted`  
  REFUTED: a surplus thread that read the counter before the round completed passes without waiting. Proved: one round per num_waiters arrivals, and nobody passes unless a round completed after the caller read the counter.
* **C70** generation counter wrap-around is harmless -- proved. `C70_wraparound`
* **C71** timeout arguments mean what they say -- partial. `C71_duration_partial`, `C71_timeout_partial`, `C71_timeout_refuted`  
  REFUTED for huge values: above 2^63-1 the timeout becomes negative, and from about 9.2e12 ms on the nanosecond clock arithmetic overflows. Proved: the exact set of values for which the deadline is the intended one.

**How:** YAML documents as an inductive type, fillRecurse, get, getPathName, dump on a heap of nodes (M_PropertyTree); induction on documents and on histories of reads (S_PropertyTree).

* **C72** get follows the path through the tree -- partial. `C72_get_blank_path_partial`, `C72_get_exact_partial`, `C72_get_follows_path_refuted`, `C72_path_components_partial`  
  REFUTED: get never descends: it looks up each path component in the root's dictionary and then reads the root's own text. Proved: the exact result for every path after any history of reads.
* **C73** get without throw_exception does not throw -- partial. `C73_get_no_throw_refuted`, `C73_get_throws_exactly_partial`, `C73_node_no_throw_partial`  
  REFUTED: a missing path throws whatever throw_exception says. Proved: exactly when the call throws, and that the PropNode overloads honour the flag.
* **C74** loading YAML keeps every mapping entry reachable -- proved. `C74_path_unique`, `C74_yaml_history`, `C74_yaml_maps_loaded`
* **C75** loading YAML keeps sequences under their key -- partial. `C75_yaml_list_history_partial`, `C75_yaml_sequence_refuted`, `C75_yaml_sequences_poured_partial`  
  REFUTED: a sequence's key is lost and its scalars go to the list of the node holding the mapping. Proved: the exact lists after any history of reads.
* **C76** getKeys and getList enumerate a node completely -- proved. `C76_getKeys`, `C76_getKeys_loaded`, `C76_getList_loaded`
* **C77** getPathName returns the path that leads to the node -- partial. `C77_getPathName_exact_partial`, `C77_getPathName_refuted`  
  REFUTED: getPathName strings the values together, not the keys. Proved: the exact text for every node.
* **C78** dump shows every stored value -- proved. `C78_dump_complete`

**How:** what() texts computed with the model of Format; containment of the data.

* **C79** exception messages carry their data -- partial. `C79_bad_conversion_partial`, `C79_badtype_partial`, `C79_badtype_refuted`, `C79_corrupt_partial`, `C79_lost_data_partial`, `C79_mismatch_partial`, `C79_mismatch_refuted`, `C79_missing_subscriber_partial`, `C79_not_found_partial`, `C79_nul_refuted`, `C79_texts_partial`, `C79_timeout_partial`  
  REFUTED: SubscriptionMismatch loses the other name, BadPropertyType loses the type ("2" for "%2"), a NUL byte cuts any message. Proved: every other datum is contained.

**How:** progress and safety over the transition systems of C62 and C64-C71.

* **C80** mailbox calls never deadlock -- proved. `C80_no_deadlock`
* **C81** a wait with a timeout always ends -- proved. `C81_never_stuck`, `C81_waiting_ends`
* **C82** a Timeout means the round was not completed -- proved. `C82_timeout_means_not_released`

**How:** as C72-C78.

* **C83** readFile reports unreadable input only with the documented exceptions -- partial. `C83_readFile_bad_file_partial`, `C83_readFile_exceptions_refuted`, `C83_readFile_result_partial`  
  REFUTED: exceptions of yaml-cpp escape for some documents. Proved: the exact set of loadable documents.
* **C84** reading several files accumulates -- proved. `C84_several_files`
* **C85** get<std::string> returns the whole value -- partial. `C85_get_string_blank_partial`, `C85_get_string_partial`, `C85_get_string_refuted`  
  REFUTED: only the first word is returned. Proved: the exact result.
* **C86** a failed readFile leaves the tree unchanged -- partial. `C86_failed_open_partial`, `C86_failed_read_refuted`  
  REFUTED: the part read before the failure stays. Proved: unchanged when the file cannot be opened or parsed; C74_yaml_history gives the exact result otherwise.
* **C87** writeFile stores the tree -- partial. `C87_writeFile_refuted`  
  REFUTED: writeFile has an empty body. Nothing further holds.
* **C88** nodes stay valid and keep their place -- proved. `C88_nodes_stay`, `C88_same_answers`

**How:** as C22-C32.

* **C89** addF 'g' prints the value to the requested significant digits -- proved. `C89_general`
* **C90** addF is defined for every digit count -- partial. `C90_defined_partial`, `C90_defined_refuted`, `C90_fraction_partial`, `C90_wide_partial`, `C90_wide_refuted`  
  REFUTED: with 11 digits 1.5 overflows the int that collects the fraction (undefined behaviour). Proved for up to ten digits, the exact limit. Beyond, a call that is defined prints at most ten digits of the fraction after its leading zeros (C90_fraction_partial); from 29 digits on every call that is defined prints a fraction of zeros only (C90_wide_partial), and for 1 <= |v| < 10 the call is undefined exactly for the numbers that are not integers (C90_wide_refuted).

**How:** operator>> for float and double (M_StreamFloat); the numeral a text begins with and the nearest representable number (S_FloatIn); soundness and completeness of the reader, error bounds by Flocq's rounding theory, composed with the addF and Options theorems.

* **C91** float and double options take the nearest value -- proved. `C91_double`, `C91_float`, `C91_nearest`, `C91_nearest_float`, `C91_option`, `C91_option_float`, `C91_refused`, `C91_refused_float`
* **C92** doubles printed by Format come back from Options -- proved. `C92_fixed`, `C92_general`, `C92_scientific`, `C92_sharp`
* **C93** engineering notation can be read back -- proved. `C93_engineering`
* **C94** PropNode::get<double> -- proved. `C94_get_double`, `C94_no_number`

**How:** composition of the addF, stream-reading, Options and PropertyTree theorems.

* **C95** floats printed by Format come back from Options -- proved. `C95_float_general`, `C95_float_scientific`, `C95_widen`
* **C96** PropNode::get for integers -- proved. `C96_get_int`, `C96_get_long`, `C96_get_refused`
* **C97** values printed by Format come back from a PropertyTree -- proved. `C97_double`, `C97_int`, `C97_unsigned_long`

**How:** operator<< on a stream record (M_Round), composed with C08.

* **C98** printing a format to a stream -- proved. `C98_print`, `C98_print_never_throws`

**How:** roundToSigDigs (M_Round): invariants of its two loops with Flocq error bounds; non-termination by an invariant.

* **C99** rounding to significant digits -- partial. `C99_extremes_refuted`, `C99_nan`, `C99_negative_digits_refuted`, `C99_returns_iff`, `C99_round_partial`, `C99_round_refuted`  
  REFUTED: for zero, negative values and infinities the call never returns; with a negative number of digits it returns for hardly any value; the least positive double is rounded to zero and the greatest to infinity. Proved: up to 15 digits it returns exactly for NaN and the positive finite values; for 1 to 15 digits and values from 10^sd * 2^-1018 to 2^1023 the result is right up to a relative error of 10^-12 from the accumulated roundings.

**How:** happens-before by vector clocks on the Barrier and concurrent MailBox models (S_Publish): each unlock hands the clock of its thread to the mutex, each lock takes it; invariants over all executions (L_Publish, L_PublishM).

* **C100** a barrier publishes what its threads did -- proved. `C100_barrier_publishes`, `C100_clocks`
* **C101** a mailbox publishes what was done before a put -- proved. `C101_clocks`, `C101_put_before_get`

**How:** strings and key=value texts of the option parser (P_Lines): an inductive description of how a string is cut into arguments (command_line, kv_cut in S_Options), existence and uniqueness by induction on the length, agreement with the tokeniser model; order and spelling by the item semantics of C33.

* **C102** every command string is read in exactly one way -- proved. `C102_every_string`
* **C103** parse always returns -- partial. `C103_defined_partial`, `C103_key_value_partial`, `C103_key_value_refuted`, `C103_kvp_arguments_partial`  
  REFUTED: for key=value objects two adjacent commas, a blank text or a blank argument are undefined behaviour. Proved: every other input returns, and exactly what each text does (for characters on which isspace is defined).
* **C104** the order of different options does not matter -- proved. `C104_order`
* **C105** long and short names are interchangeable -- proved. `C105_names_interchangeable`

**How:** Barrier invariants for num_waiters 1 and 0 (L_BarrierZ), explicit racy schedules, and a lexicographic ranking of mailbox states (threads still to lock, steps left inside) that every step without a new call decreases (L_Progress).

* **C106** barriers for one thread and for none -- proved. `C106_none_never_passes`, `C106_one_never_blocks`
* **C107** wait has no data race, whoever calls it -- partial. `C107_mutual_exclusion_partial`, `C107_no_race_refuted`, `C107_writes_locked_partial`  
  REFUTED: the entry read of the generation counter is not protected: a surplus thread, or the second of two threads while the first times out, reads it during a write. Proved: every other access is made with the mutex held, one thread at a time; C66 gives race freedom with num_waiters threads and no timeout.
* **C108** mailbox calls end in every schedule -- proved. `C108_ends_idle`, `C108_no_livelock`

**How:** vector clocks of S_Publish; invariants over the finished and begun calls of every thread (L_PublishO).

* **C109** calls on one mailbox are ordered -- proved. `C109_calls_are_ordered`, `C109_earlier_call_happens_before`

**How:** an inductive picture of the loaded pieces (S_Dump), unique by mutual induction; dump produces it by induction on the fuel with the heap invariant of C74 (L_Dump).

* **C110** dump prints exactly what has been loaded -- proved. `C110_dump_exact`, `C110_entry_order`, `C110_picture_unique`, `C110_same_content`

**How:** objects in memory with the saved pointer (M_FormatExt) against formatters as values (S_FormatExt); a simulation relation kept by every statement (L_FormatExt).

* **C111** formatters are values -- partial. `C111_assignment_refuted`, `C111_copies_refuted`, `C111_formatters_are_values_partial`, `C111_outlives_refuted`, `C111_where_values_go`  
  REFUTED in general: Format_ext copies its saved pointer, so values chained after the first on a copy (or on an assigned formatter) go to the original, or nowhere defined when it has ended (C111_copies_refuted, C111_outlives_refuted, C111_assignment_refuted; C111_where_values_go says where every value goes). Proved: value semantics for plain Formats without restriction and for extended ones as long as chains are not written on copies, or start with reset.

**How:** a world of several objects over one store of options (M_OptionsObj); identities are fresh and, without copies, disjoint (invariant over histories, L_OptionsObj); a parse marks only options of its own tables (loop invariant).

* **C112** Options objects are independent -- partial. `C112_copies_agree`, `C112_copies_refuted`, `C112_separate_objects_partial`, `C112_shared_marks_only`  
  REFUTED for copies: copies share their OptBase objects, so a line parsed by the copy makes isPresent true in the original (C112_copies_refuted, C112_copies_agree). Proved: full independence of objects that are not copies of one another, and for copies that nothing but the marks of shared options can change (C112_shared_marks_only).

**How:** the program of test/MailBoxTest.cxx as threads over the barrier and mailbox step systems (M_Exchange); invariant over a summary of the shared state (who has subscribed, how far each sender and receiver is, what each queue holds; L_ExchangeK), preserved by every step (L_ExchangeG); reachability of the end by a measure on the work left (L_ExchangeP).

* **C113** the documented exchange program works under every schedule -- proved. `C113_can_finish`, `C113_each_trial_exact`, `C113_no_stray_message`, `C113_nothing_left`, `C113_success`, `C113_together`

**How:** case analysis on the dynamic type, with the message text of C79.

* **C114** convert gives the mailbox back or says why not -- partial. `C114_convert_gives_same`, `C114_convert_refuses`, `C114_source_type_refuted`  
  REFUTED in part: the message gives the static type of the argument (a pointer to MailBoxBase), never the type the mailbox has, and a null pointer is undefined behaviour. Proved: what is returned and when, and the exact message.

**How:** addresses with the mailbox living there and its reference count (M_MailBoxLife); safety by an invariant relating held pointers and subscriptions to live queues; each lifetime refines a history of M_MailBox, so that C54 to C61 apply to it.

* **C115** subscriptions and the life of their mailbox -- partial. `C115_foreign_subscription`, `C115_outlive_refuted`, `C115_outlived_safe_partial`, `C115_stale_refuted`, `C115_starts_afresh`  
  REFUTED: a Subscription has a raw pointer, so dropping it after the last MailBoxPtr is undefined behaviour, and before that it is accepted by a later mailbox at the same address. Proved: safe if every mailbox outlives its subscriptions; every mailbox starts afresh and, while it lives, behaves as in C54 to C61.

**How:** the barrier step system with threads that give up their pointers (M_BarrierLife); invariant: a thread without a pointer is outside.

* **C116** a barrier can be destroyed when its threads are through -- partial. `C116_destroyed_untouched_partial`, `C116_done_after_return_refuted`  
  REFUTED in its first half: a thread may still have to take the mutex when everybody has arrived and another one has returned. Proved: with a pointer per thread the barrier is never destroyed under a thread, and afterwards nobody touches it.

**How:** the mailbox calls with a budget of allocations (M_MailBoxMem): the k-th allocation fails; unwinding as the declaration order dictates; induction over the queues reached by put.

* **C117** a mailbox survives running out of memory -- partial. `C117_enough_memory`, `C117_failed_call_partial`, `C117_failed_put_partial`, `C117_otherwise_as_usual`, `C117_put_all_or_nothing_refuted`, `C117_subscribe_hangs_refuted`, `C117_taking_needs_none`  
  REFUTED: a put that runs out of memory has reached some subscribers only, and a subscribe that does so destroys its Subscription with the mutex held and hangs. Proved: exactly which subscribers a failed put reached, every other failed call changes nothing, taking messages needs no memory.

**How:** programs that make, copy, release and send message pointers (M_MailBoxMem): a message dies in the step that removes its last reference; invariants over runs, case analysis on the operations.

* **C118** a message lives exactly as long as somebody can want it -- proved. `C118_alive_iff_wanted`, `C118_destroyed_once`, `C118_reclaimed`, `C118_who_destroys`  
  The reference counts of std::shared_ptr are modelled by the set of pointers in queues and in the hands of the program.
* **C119** the destructor of a message may use the mailbox -- partial. `C119_destructor_hangs_refuted`, `C119_hangs_exactly_partial`, `C119_other_operations_safe_partial`  
  REFUTED: clear, unsubscribe and the end of a subscription destroy messages with the mutex held. Proved: no other operation does, and only a message waiting in that very mailbox whose destructor uses that very mailbox hangs.

**How:** the barrier step system (M_Barrier); the counterexample is a run of it; invariants: nobody overwrites the counter after the Timeout was thrown, and whoever has read it did so in the present call.

* **C120** after a Timeout nobody passes the barrier -- partial. `C120_gave_up_still_counted_partial`, `C120_later_call_needs_round_partial`, `C120_later_exception_is_corrupt_partial`, `C120_passes_alone_refuted`  
  REFUTED: the threads that gave up stay counted, so at a barrier for two a thread that calls after the Timeout passes alone. Proved: a later call passes only if a round was completed since it looked; num_waiters arrivals make a round, those of threads that gave up included; a later exception is Corrupt and comes after that call's own timeout.

**How:** the parser with test functions that look at the program and may throw (M_OptionsTest); induction over the tokens with the readings of S_OptionsTest, which carry the program along; for predicates it is the parser of M_Options, and throwing is compared with refusing by running both.

* **C121** test functions may look at options already read -- proved. `C121_every_line`, `C121_predicates`, `C121_refused`, `C121_succeeds`, `C121_tests_see_earlier`  
  Test functions that change variables are not modelled.
* **C122** a test function may throw -- partial. `C122_handled_classes`, `C122_like_refusing`, `C122_only_tests_throw`, `C122_reaches_caller`, `C122_used_again_partial`, `C122_used_again_refuted`  
  REFUTED: exceptions of the two classes parse itself uses are taken for its own, and after a throwing test of an option of signed type the next command line is taken for positional arguments. Proved: every other exception reaches the caller with exactly the effects stated, nothing else escapes from parse, and after the test of any other option the object can be used again.

**How:** client programs as lists of actions per thread around the barrier's steps (M_BarrierUse); an invariant ties what each thread has done to the barrier's trace, whose theorems (C64-C70, C81) then give order, progress and the bound.

* **C123** the barrier program of the manual works under every schedule -- proved. `C123_clear_is_last`, `C123_gets_there`, `C123_second_number_after_all`  
  The number of threads is a parameter (five in the file). The program has no catch block: if a timeout does expire it is terminated (C123_without_catch).
* **C124** the barrier test program always ends, its threads in lock step -- proved. `C124_all_trials`, `C124_always_ends`, `C124_lock_step`, `C124_reports`  
  The random naps take arbitrary times; the numbers of threads and trials are parameters (main's options: C133).

**How:** C15-C17 give the text, C45 what a reader makes of it; the value of a digit string in base 8 against base 10 by induction.

* **C125** unsigned numbers printed by Format come back from Options -- partial. `C125_decimal_partial`, `C125_hexadecimal_refuted`, `C125_octal_refuted`  
  REFUTED for hexadecimal and octal: of 0x... the option always stores 0, and an octal number is read as a decimal one (it comes back only below 8); parse returns true. Proved for decimal, in unsigned int and unsigned long options.

**How:** objects as root pointers into separate heaps (M_TreeObj), refined by families of objects with the list of files read (S_TreeObj).

* **C126** property trees are independent objects -- partial. `C126_copy_is_same_partial`, `C126_copy_refuted`, `C126_nodes_outlive_objects`, `C126_separate_trees_partial`, `C126_what_a_tree_holds`  
  REFUTED for copies: a copy has the same root pointer, so the two always show the same tree and a file read into one is in the other. Proved: what each object shows is exactly the files read into it and the objects it shares its root with, in order; trees that are not copies have nothing in common; nodes stay valid after the object is destroyed (none is ever released).

**How:** operator>> for bool, short and unsigned types (M_StreamIn); case analysis on the integer a text begins with (S_Options, S_TreeTypes), composed with the heap of C72-C78.

* **C127** PropNode::get understands booleans, unsigned numbers, short and char -- partial. `C127_addB_refuted`, `C127_agrees_with_options`, `C127_get_bool_partial`, `C127_get_char`, `C127_get_short`, `C127_get_unsigned`, `C127_negative_refuted`, `C127_words_refuted`  
  REFUTED for bool and unsigned: only the integers 0 and 1 are truth values, so true, yes, T and what addB prints are refused; get<unsigned> takes -1 as 2^32-1. Proved: exactly what each type accepts, and that get<bool> never disagrees with a bool option.
* **C128** a failed get leaves the variable alone -- partial. `C128_bool_partial`, `C128_default_lost_refuted`, `C128_not_found_partial`, `C128_signed_partial`, `C128_text_partial`  
  REFUTED: a text that is no number overwrites an integer variable with 0 and a bool with false, a number out of range stores the nearest limit (true for bool). Proved: exactly what the variable holds after a failed get of short, int, long and bool (C94 for double); it is left alone for a blank text, a missing property, and strings and characters.

**How:** the linearization of C62 is cut after the set-up; in it each mailbox conserves messages (C01), each relay thread puts what it got, and the equations are chained by induction on the number of mailboxes.

* **C129** a chain of mailboxes passes every message on once and in order -- proved. `C129_pipeline`  
  Any chain length, any schedule, any number of producers; other threads may make any call that makes no subscription and does not use the subscriptions of the chain or put into its later mailboxes.

**How:** the barrier of C64-C71 with a clock (M_BarrierTime): an invariant gives, for each thread in a call, the time of its call and of its first reading of the counter, and its deadline; erasing the clock gives an execution of M_Barrier, where C82 says that no round was completed since that reading.

* **C130** the time limit of Barrier::wait is kept -- proved. `C130_defined`, `C130_in_time`, `C130_not_early`  
  The barrier of C64-C71 with a clock: a timeout is reported only when the clock has reached the deadline computed by wait_for. C130_not_early, C130_forever: no exception before the limit. C130_in_time: none at all when rounds are completed in time. C130_defined: no overflow. The clock moves by arbitrary amounts at arbitrary moments and is not bounded from above while a thread runs.

**How:** the program of examples/OptionsExample.cxx (M_OptionsExample) over the parser of C33-C53; a grammar of its command lines (S_OptionsExample) is shown equivalent to the general one by induction, and the two parses are composed with C33, C36-C38 and C48.

* **C131** the example program OptionsExample reports what its command line says -- partial. `C131_every_line_partial`, `C131_help_partial`, `C131_rejected_partial`, `C131_report_partial`, `C131_stuck_refuted`, `C131_unknown_partial`  
  REFUTED: when the command line ends with -i (or --intarg) and no value, the first parse succeeds but the second one sets nothing, and the old values are reported again (C131_stuck_refuted). Proved for every other command line: the exact texts on both streams and the exit code (C131_report, help, unknown, rejected), and that there is no further kind of command line (C131_every_line). getVersion and getGitID are arbitrary constants.

**How:** the program of examples/PropertyTreeYamlExample.cxx (M_YamlExample), by composing C33, C36, C38 for a parser without options with C83 and C110.

* **C132** the example program PropertyTreeYamlExample prints the file it is given -- proved. `C132_no_file`, `C132_option`, `C132_prints_file`  
  The content is described by the picture of C110; which documents can be read by C83. The file system is a function from names to what YAML::LoadFile does.

**How:** the program test/BarrierTest.cxx with main (M_TestMain): a grammar of command lines of int options and flags (S_TestMain) is shown equivalent to the general one by induction (C_TestMain); the run is that of C124, or for negative numbers that of one thread that only writes.

* **C133** the test program BarrierTest does what its command line says and always ends -- partial. `C133_complains`, `C133_defined_partial`, `C133_defined_refuted`, `C133_ends_partial`, `C133_every_line`, `C133_numbers`  
  REFUTED: with --maddur 0 and at least one thread, or with more than 9157 threads, a thread begins with undefined behaviour (limits of the random distribution, overflow of the seed); C133_defined_refuted shows it for all these numbers. Proved for all others (C133_defined_partial), and for all numbers that the test ends (C133_ends_partial, apart from those first lines); the command line without restriction.

**How:** the program test/MailBoxTest.cxx with main (M_TestMain): command lines as for C133; a step for step simulation by the program of C113 for the numbers that work, invariants on where a thread can be and on the empty mailbox for the others.

* **C134** the test program MailBoxTest does what its command line says and can always end -- partial. `C134_complains`, `C134_ends_refuted`, `C134_every_line`, `C134_no_threads`, `C134_numbers`, `C134_works_partial`  
  REFUTED: with a negative number of messages, or with messages times threads not an int, no thread ever finishes (C134_ends_refuted, for exactly the numbers not covered by works). Proved for all others; the command line without restriction. What main prints besides and its check for leaked messages are left out (C113, C118).

**How:** infinite schedules of the program of C113 (S_ExchangeFair: turn, fair). A rank of each thread (finished calls, then position) never falls and is bounded, so from some time on nobody finishes a call of the barrier or a useful call of get (settles); then the lock of each mailbox is free again and again, the ranks inside the barrier settle too, and the invariants of C12 and C113 leave no thread waiting: nobody in the barrier (none_waits) and nobody without a message (none_spins).

* **C135** under a fair scheduler the threads that exchange messages all finish -- proved. `C135_fair_ends`, `C135_fair_exists`, `C135_test_ends`  
  Strong fairness: a thread that can move infinitely often moves infinitely often (needed for the mutexes). Spurious wake-ups are unrestricted. C135_test_ends is the same for the program with the int numbers of its command line, C135_fair_exists shows that there are fair schedules for every configuration. The axiom of excluded middle is used (infinite executions).

**How:** infinite schedules of M_MailBoxConc (S_Fair); the holder of a mutex has a decreasing measure (room, C108), so the mutex is free again and again, and strong fairness gives it to each caller in turn (L_FairBox).

* **C136** under a fair scheduler every mailbox call returns -- proved. `C136_call_returns`, `C136_fair_exists`  
  Strong fairness for threads inside a call; whether threads make calls is free. A call that meets undefined behaviour (C63) counts as returned with that result. C136_fair_exists: every execution has a fair continuation.

**How:** infinite schedules of M_Barrier (S_Fair): as for C135 the sum of the ranks of the threads never falls and is bounded while some thread has not returned R times; when it has settled, all threads are idle or asleep, and the invariant of C65 says that the round is complete and everybody notified (L_FairAll).

* **C137** under a fair scheduler everybody passes the barrier, in spite of any number of spurious wake-ups -- proved. `C137_everybody_passes`, `C137_fair_exists`  
  Strong fairness; being notified does not count as a move, and wake-ups without reason are not something the scheduler owes. C137_fair_exists: every execution has a fair continuation.

**How:** the mutex is free again and again (L_FairBar), so a call sleeps again or returns; after its expiry it never sleeps again.

* **C138** under a fair scheduler every wait with a time limit returns -- proved. `C138_timed_wait_returns`  
  Besides fairness the hypothesis time_passes is needed: a call that never returns and sleeps again and again is told once that its time is over. How long that takes is C130.

**How:** one mailbox: in the order of C61/C74 the calls after time N contain more gets of the subscriber than there can be messages in its queue at that point, so all of them come out (L_FairPipe.drained, stage); relays: before its next get a relay has put what it got (relay_empty); induction over the chain (arrives), and C129 for the order. The infinite example is a schedule that returns to its starting state (L_FairCycle).

* **C139** under a fair scheduler every message put is received, through any number of relays -- proved. `C139_delivered_in_time`  
  The chain of C129 with n relays (n = 0: a single mailbox) and the fairness of C136. C139_delivered_in_time also gives the order; C139_received is the plain form for one message. The example is a schedule that repeats itself for ever with three threads competing.

**How:** the steps outside wait, the calls and the returns are bounded (C123/C124), so from some time on there are none (L_FairUse.settle, quiet); fairness then leaves no thread that could do something outside wait (no_act); by induction on the rounds everyone has called r times, so by C137 everyone has returned r times (calm_fair_end); with time limits C138 empties the barrier (timed_end).

* **C140** under a fair scheduler the two barrier programs end -- proved. `C140_example_ends`, `C140_example_fair_exists`, `C140_test_ends`, `C140_test_fair_exists`, `C140_test_passes`  
  The programs of C123 and C124, run for ever with the fairness of C137 extended to the steps outside wait. C140_example_ends and C140_test_passes: no expiry, any number of spurious wake-ups; C140_test_ends: time limits run out as in C138. The two fair_exists theorems show that every finite execution can be continued in such a way.

**How:** every call is a relation with a success, a failure while the text is built and a failure at each assignment of insertField or each push_back of the scan (M_FormatMem); filling twice with one text is filling once (L_FormatMem.fill_twice, failed_add), induction over the failures and the calls; the scanner's segments are the template's items one by one (scan_items), which splits the template where the failure was. That a stringstream keeps a beginning of what it should hold is the model's reading of the C++ standard.

* **C141** a Format survives running out of memory -- partial. `C141_cut_partial`, `C141_exact_partial`, `C141_failed_reset_refuted`, `C141_given_up_refuted`, `C141_repeat_partial`, `C141_reset_partial`, `C141_silent_refuted`, `C141_thrown_partial`  
  REFUTED in three places, the rest proved. addI, addU, addF, addC and addB write to a stringstream, which swallows std::bad_alloc: the call returns and a shortened number is in the text, and str(true) finds nothing missing (C141_silent_refuted). A failed add that is not repeated leaves its value in some of the places of its field, and the next value goes to the others (C141_given_up_refuted). A failed reset leaves a shortened template that str(true) takes for complete (C141_failed_reset_refuted). Proved: repeating works (C141_repeat_partial), reset repairs everything (C141_reset_partial), what exactly a failed add leaves (C141_thrown_partial), a cut text without separators is a beginning of the right one (C141_cut_partial), addS and nan/inf are never cut (C141_exact_partial).

**How:** interleaving of threads whose only shared variable is the separator; reading and assigning it are steps of their own, everything else a call does is private (M_FormatThreads). Invariant: each thread, from where it is and with the separator as it is, will end as it does alone (L_FormatThreads.track); a text that is not a zero in format e does not depend on the separator (sep_unused). Converse: each thread is run up to its access (run_to, meet). The streams' global locale is not modelled.

* **C142** threads may format at the same time -- partial. `C142_apart_refuted`, `C142_as_alone_partial`, `C142_no_race_partial`, `C142_race_exactly`  
  REFUTED: Format::separator is a plain static variable, so a thread that assigns it changes the zeroes another thread prints with addF e, and the two accesses are a data race (C142_apart_refuted). Proved for all programs in which a thread that assigns the separator is the only one to assign it or to print a zero with e: no race (C142_no_race_partial), every thread gets what it gets alone (C142_as_alone_partial); C142_race_exactly: this condition cannot be weakened.

**How:** the program test/OptionsTest.cxx as a function of argv and of the four members of Options it calls (M_OptionsTestProg); lines are described by t_line without the Options class and related to the parser's reading (C_OptionsTestProg.t_line_reads, reads_t_line), to which C33-C38 apply. The comparison of floats is brought back to the real numbers: the subtraction is exact near 1.1 (Sterbenz) and far away its rounding does not matter (L_OptionsTestProg.rnd_near). list::merge on unsorted lists is as in libstdc++ (the standard asks for sorted ones).

* **C143** the test program OptionsTest says PASS exactly when Options works -- partial. `C143_arguments_partial`, `C143_blind_refuted`, `C143_every_line_partial`, `C143_looks_at_partial`, `C143_nan_refuted`, `C143_own_test_partial`, `C143_pass_refuted`  
  REFUTED: with arguments the program ignores what parse returns and always prints PASS (C143_pass_refuted; C143_arguments_partial has the whole output for every line, C143_every_line_partial that every line is covered, and that std::cerr is empty exactly when the line is in order). Without arguments the loop over the positional words never runs, because list::merge has emptied the list: any three words and any getPosArg pass (C143_blind_refuted), and so does a library that stores NaN for the two floats (C143_nan_refuted). Proved: what exactly the test looks at, for any library (C143_looks_at_partial), and that the library passes (C143_own_test_partial).

**How:** the program test/FormatTest.cxx (M_FormatTestProg): the check, one test and the nested loops as folds. The texts of s, g and e are shown to be nearer than the tolerance by a margin of 10^-8 (L_FormatTestProg: sci_margin, gen_margin, eng_margin; for e with the arithmetic of C27, for g from the decimal digits), which covers the rounding when the text is read back and in the check (check_margin, from Flocq's correctness theorems). Zero is computed for the 150 combinations of the run. Exit code 0: the error count never decreases (fold_honest).

* **C144** FormatTest complains exactly about texts that are off by more than its tolerance -- partial. `C144_flags_partial`, `C144_negative_refuted`, `C144_nonsense_refuted`  
  REFUTED: the check divides by the number itself, so it never complains about a negative number, whatever the text (C144_negative_refuted); a text without a number counts as 0 and passes when no digits are asked for (C144_nonsense_refuted). Proved for all positive numbers from 2^-1015 to 2^1000 and all texts that begin with a number (C144_flags_partial); the rounding of the check itself blurs the border by 10^-9 of v. An empty text would make the check read an uninitialised variable (modelled as UB).
* **C145** FormatTest passes, and its exit code 0 means that no check complained -- proved. `C145_own_text`, `C145_passes`, `C145_tells`  
  The messages on std::cerr and the debug run with four or more arguments are left out. pow(10.0, e) for negative e is 1/10^-e rounded (glibc may differ in the last place). C145_own_text is the statement for one number and every separator, positive from 2^-1015 to 2^1000 (zero is in C145_passes, with the separator of the program).

**How:** as C111, with a call that works on its own object and returns it (M_FormatOwn); induction on the chain.

* **C146** Format can be extended with own methods -- proved. `C146_library_call_leaves`, `C146_outlives`, `C146_own_calls_stay`, `C146_own_methods`

**How:** the test programs as functions of the library members they call (M_SmallTests); induction over the loops (L_SmallTests.check_vec_iff, check_list_iff, check_map_iff); a std::map from an initializer list keeps the first of two lines with one key.

* **C147** What PASS of SplitTest tells -- partial. `C147_library_passes`, `C147_pass_partial`, `C147_pass_refuted`, `C147_undefined_partial`  
  REFUTED: a split that returns nothing passes, and so does a splitVec that returns further fields (C147_pass_refuted). Proved: PASS exactly if the vector begins with the three fields and the list is a beginning of them; with a shorter vector or a longer list the program itself is undefined; the library passes.
* **C148** What exit code 0 of FormatHexTest tells -- partial. `C148_all_lines_refuted`, `C148_exit_code_partial`, `C148_library_passes`  
  REFUTED: the line { 0137, 4 } has the key of the line before it and never gets into the std::map, so a library that prints it wrong passes (C148_all_lines_refuted). Proved: exit code 0 exactly if the other 24 lines are printed as demanded; the library passes and prints the unchecked line right too.

**How:** fields after join is the identity (L_SplitJoin.fields_join) and a line without superfluous spaces is its own squashed form (squash_tidy), which gives one direction. For the other, squashing keeps the characters that are not spaces (C01), so joining the tokens of a list that comes back gives the squashed line. If the space is a delimiter, the words of the line are the non-empty fields (split_join_space).

* **C149** fields written in a line come back from split -- partial. `C149_come_back_iff_partial`, `C149_come_back_space_iff_partial`, `C149_fields_come_back_refuted`, `C149_words_come_back`  
  REFUTED: an empty last field is lost, spaces are squashed (also inside fields) and a single blank field is undefined behaviour (C149_fields_come_back_refuted). Proved: exactly which lists come back (C149_come_back_iff_partial when the space is no delimiter, C149_come_back_space_iff_partial when it is one), in particular all lists of fields without spaces whose last field is not empty.

**How:** the test program as a function of the text addF inserts (M_NaNTest); the line it compares with is cut in all ways that fit the template (L_NaNTest.line_iff), which leaves four triples of texts.

* **C150** the test of NaN and infinity tells that addF renders them -- partial. `C150_ends`, `C150_exit_iff_partial`, `C150_exit_refuted`, `C150_hang_noticed`, `C150_library_passes`  
  REFUTED: an addF that writes nothing at all for infinity can pass, because the words inf and nan also stand in the template (C150_exit_refuted). Proved: exit code 0 exactly if the three calls return one of four triples of texts (C150_exit_iff_partial); a call for infinity that throws or does not return is noticed (C150_hang_noticed), and when the program throws or does not end (C150_ends); the library passes.

## Print Assumptions, theorem by theorem


### Using `ClassicalDedekindReals.sig_forall_dec`, `ClassicalDedekindReals.sig_not_dec`, `Classical_Prop.classic`, `FunctionalExtensionality.functional_extensionality_dep` (85 theorems)

`C141_cut_partial`, `C141_exact_partial`, `C141_failed_reset_refuted`, `C141_given_up_refuted`, `C141_repeat_partial`, `C141_reset_partial`, `C141_silent_refuted`, `C141_thrown_partial`, `C142_apart_refuted`, `C142_as_alone_partial`, `C142_no_race_partial`, `C142_race_exactly`, `C143_arguments_partial`, `C143_blind_refuted`, `C143_every_line_partial`, `C143_looks_at_partial`, `C143_nan_refuted`, `C143_own_test_partial`, `C143_pass_refuted`, `C144_flags_partial`, `C144_negative_refuted`, `C144_nonsense_refuted`, `C145_own_text`, `C145_passes`, `C145_tells`, `C150_ends`, `C150_exit_iff_partial`, `C150_exit_refuted`, `C150_hang_noticed`, `C150_library_passes`, `C22_inf`, `C22_nan`, `C23_fuel_irrelevant`, `C23_never_returns`, `C23_terminates_partial`, `C23_terminates_refuted`, `C24_engineering_partial`, `C24_engineering_refuted`, `C25_digit_count_partial`, `C25_digit_count_refuted`, `C26_zero_partial`, `C26_zero_refuted`, `C27_accuracy_partial`, `C27_accuracy_refuted`, `C27_tiny_refuted`, `C28_width_partial`, `C28_width_refuted`, `C29_fixed`, `C30_scientific`, `C30_scientific_zero`, `C31_unknown_code_partial`, `C31_unknown_code_refuted`, `C32_separator_partial`, `C32_separator_refuted`, `C89_general`, `C90_defined_partial`, `C90_defined_refuted`, `C90_fraction_partial`, `C90_wide_partial`, `C90_wide_refuted`, `C91_double`, `C91_float`, `C91_nearest`, `C91_nearest_float`, `C91_option`, `C91_option_float`, `C91_refused`, `C91_refused_float`, `C92_fixed`, `C92_general`, `C92_scientific`, `C92_sharp`, `C93_engineering`, `C94_get_double`, `C94_no_number`, `C95_float_general`, `C95_float_scientific`, `C95_widen`, `C97_double`, `C99_extremes_refuted`, `C99_nan`, `C99_negative_digits_refuted`, `C99_returns_iff`, `C99_round_partial`, `C99_round_refuted`

### Closed under the global context (337 theorems, no axioms)

`C01_squashSpaces_shape`, `C01_squashSpaces_words`, `C02_squashSpaces_domain_partial`, `C02_squashSpaces_total_refuted`, `C03_split_fields`, `C03_split_rejoin`, `C04_split_no_empty`, `C05_splitVec_split`, `C06_construction_defined`, `C06_shows_unambiguous`, `C06_str_is_template_instance`, `C06_template_unambiguous`, `C07_escape_protects`, `C08_values_verbatim`, `C09_reset_fresh`, `C100_barrier_publishes`, `C100_clocks`, `C101_clocks`, `C101_put_before_get`, `C102_every_string`, `C103_defined_partial`, `C103_key_value_partial`, `C103_key_value_refuted`, `C103_kvp_arguments_partial`, `C104_order`, `C105_names_interchangeable`, `C106_none_never_passes`, `C106_one_never_blocks`, `C107_mutual_exclusion_partial`, `C107_no_race_refuted`, `C107_writes_locked_partial`, `C108_ends_idle`, `C108_no_livelock`, `C109_calls_are_ordered`, `C109_earlier_call_happens_before`, `C10_message`, `C10_str_check`, `C110_dump_exact`, `C110_entry_order`, `C110_picture_unique`, `C110_same_content`, `C111_assignment_refuted`, `C111_copies_refuted`, `C111_formatters_are_values_partial`, `C111_outlives_refuted`, `C111_where_values_go`, `C112_copies_agree`, `C112_copies_refuted`, `C112_separate_objects_partial`, `C112_shared_marks_only`, `C113_can_finish`, `C113_each_trial_exact`, `C113_no_stray_message`, `C113_nothing_left`, `C113_success`, `C113_together`, `C114_convert_gives_same`, `C114_convert_refuses`, `C114_source_type_refuted`, `C115_foreign_subscription`, `C115_outlive_refuted`, `C115_outlived_safe_partial`, `C115_stale_refuted`, `C115_starts_afresh`, `C116_destroyed_untouched_partial`, `C116_done_after_return_refuted`, `C117_enough_memory`, `C117_failed_call_partial`, `C117_failed_put_partial`, `C117_otherwise_as_usual`, `C117_put_all_or_nothing_refuted`, `C117_subscribe_hangs_refuted`, `C117_taking_needs_none`, `C118_alive_iff_wanted`, `C118_destroyed_once`, `C118_who_destroys`, `C119_destructor_hangs_refuted`, `C119_hangs_exactly_partial`, `C119_other_operations_safe_partial`, `C11_extra_values_ignored_partial`, `C11_extra_values_refuted`, `C120_gave_up_still_counted_partial`, `C120_later_call_needs_round_partial`, `C120_later_exception_is_corrupt_partial`, `C120_passes_alone_refuted`, `C121_every_line`, `C121_predicates`, `C121_refused`, `C121_succeeds`, `C121_tests_see_earlier`, `C122_handled_classes`, `C122_like_refusing`, `C122_only_tests_throw`, `C122_reaches_caller`, `C122_used_again_partial`, `C122_used_again_refuted`, `C123_clear_is_last`, `C123_gets_there`, `C123_second_number_after_all`, `C124_all_trials`, `C124_always_ends`, `C124_lock_step`, `C124_reports`, `C125_decimal_partial`, `C125_hexadecimal_refuted`, `C125_octal_refuted`, `C126_copy_is_same_partial`, `C126_copy_refuted`, `C126_nodes_outlive_objects`, `C126_separate_trees_partial`, `C126_what_a_tree_holds`, `C127_addB_refuted`, `C127_agrees_with_options`, `C127_get_bool_partial`, `C127_get_char`, `C127_get_short`, `C127_get_unsigned`, `C127_negative_refuted`, `C127_words_refuted`, `C128_bool_partial`, `C128_default_lost_refuted`, `C128_not_found_partial`, `C128_signed_partial`, `C128_text_partial`, `C129_delivered`, `C129_pipeline`, `C12_distinct_fields_refuted`, `C12_fields_mod_2_32_partial`, `C130_defined`, `C130_forever`, `C130_in_time`, `C130_not_early`, `C131_every_line_partial`, `C131_help_partial`, `C131_rejected_partial`, `C131_report_partial`, `C131_stuck_refuted`, `C131_unknown_partial`, `C132_no_file`, `C132_option`, `C132_prints_file`, `C133_complains`, `C133_defined_partial`, `C133_defined_refuted`, `C133_ends_partial`, `C133_every_line`, `C133_numbers`, `C134_complains`, `C134_ends_refuted`, `C134_every_line`, `C134_no_threads`, `C134_numbers`, `C134_works_partial`, `C135_fair_exists`, `C136_fair_exists`, `C13_addI_decimal`, `C13_addI_huge_width`, `C146_library_call_leaves`, `C146_outlives`, `C146_own_calls_stay`, `C146_own_methods`, `C147_library_passes`, `C147_pass_partial`, `C147_pass_refuted`, `C147_undefined_partial`, `C148_all_lines_refuted`, `C148_exit_code_partial`, `C148_library_passes`, `C149_come_back_iff_partial`, `C149_come_back_space_iff_partial`, `C149_fields_come_back_refuted`, `C149_words_come_back`, `C14_addI_huge_width_partial`, `C14_addI_separator_partial`, `C14_addI_separator_refuted`, `C14_delete_separator_partial`, `C15_addU_hex`, `C16_addU_oct`, `C17_addU_dec`, `C17_addU_huge_width`, `C18_addU_dec_partial`, `C18_addU_group0_partial`, `C18_addU_group0_refuted`, `C18_addU_hex_partial`, `C18_addU_oct_partial`, `C18_addU_padding_refuted`, `C19_addS_int_min`, `C19_addS_justify`, `C20_addC_addB`, `C21_ext_addU_refuted`, `C21_ext_same_partial`, `C23_limits`, `C33_always_returns`, `C33_reading_unique`, `C33_true_iff`, `C33_understood_exactly`, `C34_positional_in_order_partial`, `C34_positional_refuted`, `C35_new_option_absent_partial`, `C35_present_partial`, `C35_present_refuted`, `C35_unknown_absent_partial`, `C36_unknown_option`, `C37_rejected_partial`, `C37_rejected_refuted`, `C38_help`, `C39_defaults`, `C39_unmentioned_unchanged`, `C39_zero`, `C40_all_values_in_order`, `C40_appends`, `C40_never_drops`, `C41_negative_int_partial`, `C41_negative_looks_like_option_refuted`, `C41_other_types_partial`, `C41_scalar_partial`, `C41_vector_fails_refuted`, `C41_vector_refuted`, `C42_quoted_tokens`, `C43_mixed_tokens`, `C43_unquoted_tokens`, `C44_argv`, `C44_no_arguments`, `C45_int_partial`, `C45_long_partial`, `C45_round_trip_partial`, `C45_ulong_partial`, `C45_unsigned_partial`, `C45_unsigned_refuted`, `C46_bool_partial`, `C46_empty_refuted`, `C47_getPosArg_partial`, `C47_getPosArg_refuted`, `C48_independent_partial`, `C48_independent_refuted`, `C48_stuck_refuted`, `C49_key_value_partial`, `C49_key_value_refuted`, `C49_kvp_object_partial`, `C50_only_accepted`, `C51_help_sorted`, `C52_argv`, `C52_key_value`, `C52_list`, `C52_string`, `C53_registration`, `C53_second_replaces_first`, `C54_each_message_once_in_order`, `C55_no_echo`, `C55_put_accepted`, `C56_get_null_iff_nothing_waiting`, `C57_subscribers_isolated`, `C58_minReadyCount`, `C58_readyCount_is_number_of_gets`, `C58_subscriberCount`, `C59_foreign_subscription_refused`, `C60_ids_never_reused`, `C61_held_iff_waiting`, `C61_only_what_was_put`, `C61_released`, `C62_linearizable`, `C62_mutual_exclusion`, `C63_drop_removes_partial`, `C63_drop_safe_partial`, `C63_drop_terminates_refuted`, `C64_nobody_passes_early`, `C65_bounded_work`, `C65_everybody_passes`, `C65_no_deadlock`, `C66_no_data_race`, `C67_at_most_one_timeout`, `C67_corrupt_only_after_timeout`, `C68_others_return_partial`, `C68_outcome_partial`, `C68_timeout_reported_refuted`, `C68_waiter_left_behind_refuted`, `C69_pass_needs_round_partial`, `C69_rounds_partial`, `C69_surplus_refuted`, `C70_wraparound`, `C71_duration_partial`, `C71_timeout_partial`, `C71_timeout_refuted`, `C72_get_blank_path_partial`, `C72_get_exact_partial`, `C72_get_follows_path_refuted`, `C72_path_components_partial`, `C73_get_no_throw_refuted`, `C73_get_throws_exactly_partial`, `C73_node_no_throw_partial`, `C74_path_unique`, `C74_yaml_history`, `C74_yaml_maps_loaded`, `C75_yaml_list_history_partial`, `C75_yaml_sequence_refuted`, `C75_yaml_sequences_poured_partial`, `C76_getKeys`, `C76_getKeys_loaded`, `C76_getList_loaded`, `C77_getPathName_exact_partial`, `C77_getPathName_refuted`, `C78_dump_complete`, `C79_bad_conversion_partial`, `C79_badtype_partial`, `C79_badtype_refuted`, `C79_corrupt_partial`, `C79_lost_data_partial`, `C79_mismatch_partial`, `C79_mismatch_refuted`, `C79_missing_subscriber_partial`, `C79_not_found_partial`, `C79_nul_refuted`, `C79_texts_partial`, `C79_timeout_partial`, `C80_no_deadlock`, `C81_never_stuck`, `C81_waiting_ends`, `C82_timeout_means_not_released`, `C83_readFile_bad_file_partial`, `C83_readFile_exceptions_refuted`, `C83_readFile_result_partial`, `C84_several_files`, `C85_get_string_blank_partial`, `C85_get_string_partial`, `C85_get_string_refuted`, `C86_failed_open_partial`, `C86_failed_read_refuted`, `C87_writeFile_refuted`, `C88_nodes_stay`, `C88_same_answers`, `C96_get_int`, `C96_get_long`, `C96_get_refused`, `C97_int`, `C97_unsigned_long`, `C98_print`, `C98_print_never_throws`

### Using `Classical_Prop.classic` (14 theorems)

`C118_reclaimed`, `C135_fair_ends`, `C135_test_ends`, `C136_call_returns`, `C137_everybody_passes`, `C137_fair_exists`, `C138_timed_wait_returns`, `C139_delivered_in_time`, `C139_received`, `C140_example_ends`, `C140_example_fair_exists`, `C140_test_ends`, `C140_test_fair_exists`, `C140_test_passes`

### Using `ClassicalDedekindReals.sig_forall_dec`, `FunctionalExtensionality.functional_extensionality_dep` (1 theorems)

`C29_sign`
