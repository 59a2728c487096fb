{
 "claims": [
  {
   "property": "C01",
   "status": "proved",
   "theorems": [
    "C01_number_validation_exact",
    "C01_number_written_verbatim"
   ],
   "note": "Validation is stated for every writer state; the text is written verbatim. Formatting of floating point numbers by the standard library is not modelled."
  },
  {
   "property": "C02",
   "status": "proved",
   "theorems": [
    "C02_invalid_number_no_effect",
    "C02_invalid_number_skippable"
   ],
   "note": "For every state of the writer."
  },
  {
   "property": "C03",
   "status": "proved",
   "theorems": [
    "C03_number_errors",
    "C03_malformed_numbers_fail",
    "C03_numbers_are_returned_verbatim"
   ],
   "note": "Numbers are returned verbatim, and the errors of numbers are exactly those of SpecErrors.number_error, at the stated location, for reading and skipping."
  },
  {
   "property": "C04",
   "status": "proved",
   "theorems": [
    "C04_utf8_validation_is_exact"
   ],
   "note": "Strings without escape sequences; C05_malformed_strings_fail and C05_malformed_names_fail state the same for literals with escape sequences and for member names. That conversion never panics is C21."
  },
  {
   "property": "C05",
   "status": "proved",
   "theorems": [
    "C05_string_errors",
    "C05_malformed_strings_fail",
    "C05_well_formed_strings_are_decoded",
    "C05_name_errors",
    "C05_malformed_names_fail"
   ],
   "note": "Decoding of well-formed literals; for malformed ones the kind and location of the error, in both directions, for values and member names, reading and skipping."
  },
  {
   "property": "C06",
   "status": "proved",
   "theorems": [
    "C06_ways_to_read_agree",
    "C06_string_reader_agrees"
   ],
   "note": "The function pairs agree in every program, at every place; the string reader for buffers of any sizes."
  },
  {
   "property": "C07",
   "status": "proved",
   "theorems": [
    "C07_buffer_sizes_do_not_matter",
    "C07_pieces"
   ],
   "note": ""
  },
  {
   "property": "C08",
   "status": "proved",
   "theorems": [
    "C08_string_reader_errors_sticky",
    "C08_string_writer_errors_sticky",
    "C08_failed_string_not_finished"
   ],
   "note": "Writer and reader half, for every history of calls before and after the failure."
  },
  {
   "property": "C09",
   "status": "proved",
   "theorems": [
    "C09_written_string_reads_back",
    "C09_written_string_denotes_string"
   ],
   "note": ""
  },
  {
   "property": "C10",
   "status": "proved",
   "theorems": [
    "C10_escape_settings_respected"
   ],
   "note": "All settings, every string."
  },
  {
   "property": "C11",
   "status": "proved",
   "theorems": [
    "C11_string_writer_chunks",
    "C11_invalid_utf8_never_finished"
   ],
   "note": "Both directions."
  },
  {
   "property": "C12",
   "status": "proved",
   "theorems": [
    "C12_finished_document_valid",
    "C12_described_data_unique"
   ],
   "note": "Calls with results documented as failures (invalid number) are part of the histories; nothing is claimed after an I/O error was ignored."
  },
  {
   "property": "C13",
   "status": "proved",
   "theorems": [
    "C13_panics_exactly_for_misuse",
    "C13_correct_usage_succeeds",
    "C13_success_is_described",
    "C13_no_internal_panic"
   ],
   "note": "Exact characterisation after successful calls; absence of internal panics for every history, also after errors."
  },
  {
   "property": "C14",
   "status": "proved",
   "theorems": [
    "C14_programs_are_independent_of_the_sink",
    "C14_programs_get_the_error_or_the_same_result",
    "C14_closures_are_independent_of_the_sink",
    "C14_closures_succeed_only_without_sink_error",
    "C14_serializing_is_independent_of_the_sink",
    "C14_sink_independent",
    "C14_sink_failure_prefix",
    "C14_finish_failure_prefix",
    "C14_success_exact"
   ],
   "note": "Independence, exactness on success, prefix on failure."
  },
  {
   "property": "C15",
   "status": "proved",
   "theorems": [
    "C15_written_document_reads_back",
    "C15_written_values_read_back"
   ],
   "note": ""
  },
  {
   "property": "C16",
   "status": "proved",
   "theorems": [
    "C16_pretty_print_only_whitespace"
   ],
   "note": "For every separator of top-level values."
  },
  {
   "property": "C17",
   "status": "proved",
   "theorems": [
    "C17_programs_are_independent_of_delivery",
    "C17_closures_are_independent_of_delivery",
    "C17_copying_is_independent_of_delivery",
    "C17_independent_of_delivery"
   ],
   "note": ""
  },
  {
   "property": "C18",
   "status": "proved",
   "theorems": [
    "C18_programs_get_the_error_or_the_same_result",
    "C18_closures_succeed_only_without_io_error",
    "C18_io_error_reported_or_same_result"
   ],
   "note": "For every continuation of the input after the failure point."
  },
  {
   "property": "C19",
   "status": "proved",
   "theorems": [
    "C19_closures_accept_only_documents",
    "C19_closures_accept_only_rfc8259",
    "C19_accepted_input_is_a_document",
    "C19_accepted_input_is_a_sequence",
    "C19_default_settings_accept_only_rfc8259",
    "C19_skipping_accepts_exactly_the_documents"
   ],
   "note": "Any calls followed by consume_trailing_whitespace; the converse for skipping. With several top-level values the client has to ask has_next before (see C32). For the simple API, success alone implies that the input is a valid document, whatever the closures do."
  },
  {
   "property": "C20",
   "status": "proved",
   "theorems": [
    "C20_layout_is_invisible_to_programs",
    "C20_reader_walks_the_document",
    "C20_layout_is_invisible",
    "C20_complete_reading"
   ],
   "note": ""
  },
  {
   "property": "C21",
   "status": "proved",
   "theorems": [
    "C21_only_misuse_panics"
   ],
   "note": ""
  },
  {
   "property": "C22",
   "status": "partial",
   "theorems": [
    "C22_looking_has_no_effect_partial",
    "C22_repeated_calls_agree",
    "C22_refuted_before_consume_trailing_whitespace"
   ],
   "note": "Holds except for consume_trailing_whitespace with several top-level values (C22_refuted_before_consume_trailing_whitespace). A position asked for afterwards may be behind skipped whitespace; its path is the same."
  },
  {
   "property": "C23",
   "status": "partial",
   "theorems": [
    "C23_failed_call_has_no_effect_partial",
    "C23_refuted_for_seek_to",
    "C23_refuted_for_skip_value"
   ],
   "note": "Holds for all functions which make one step (same exception as C22); refuted for seek_to and skip_value, which make several steps (C23_refuted_for_seek_to, C23_refuted_for_skip_value)."
  },
  {
   "property": "C24",
   "status": "proved",
   "theorems": [
    "C24_limit_is_never_exceeded",
    "C24_reported_only_at_the_limit",
    "C24_limit_is_exact"
   ],
   "note": "The number of open containers is observed as the length of the path of the position; C27 shows that path tracking has no influence. Transferring (C33) is a separate property."
  },
  {
   "property": "C25",
   "status": "proved",
   "theorems": [
    "C25_positions_are_exact",
    "C25_consumed_text",
    "C25_consumed_text_after_looking"
   ],
   "note": "Every reported position (and every location of a recoverable error) is directly behind a prefix of the input; for the calls which read one element, the text between two positions is exactly the element. For skip_value and seeking only the first theorem applies. After an error of a string reader the position is not specified."
  },
  {
   "property": "C26",
   "status": "proved",
   "theorems": [
    "C26_reported_path"
   ],
   "note": ""
  },
  {
   "property": "C27",
   "status": "proved",
   "theorems": [
    "C27_path_tracking_has_no_influence_on_programs",
    "C27_path_tracking_has_no_influence"
   ],
   "note": ""
  },
  {
   "property": "C28",
   "status": "proved",
   "theorems": [
    "C28_skipping_is_reading"
   ],
   "note": ""
  },
  {
   "property": "C29",
   "status": "proved",
   "theorems": [
    "C29_seek_finds_the_value",
    "C29_seek_fails_otherwise"
   ],
   "note": ""
  },
  {
   "property": "C30",
   "status": "proved",
   "theorems": [
    "C30_skip_to_top_level_closes_everything"
   ],
   "note": ""
  },
  {
   "property": "C31",
   "status": "partial",
   "theorems": [
    "C31_errors_of_skip_to_top_level_partial",
    "C31_only_syntax_and_io_errors_without_limit_partial",
    "C31_refuted"
   ],
   "note": "The documented claim is refuted (C31_refuted): MaxNestingDepthExceeded occurs as well. Proved: this is the only other error, and without nesting limit the claim holds."
  },
  {
   "property": "C32",
   "status": "partial",
   "theorems": [
    "C32_exactly_at_the_end_partial",
    "C32_otherwise_an_error_partial",
    "C32_refuted_after_has_next",
    "C32_trailing_data_errors",
    "C32_exactly_at_the_end_of_several_values"
   ],
   "note": "Exact for a single top-level value, and for several ones if the last call has read or skipped an element (C32_exactly_at_the_end_of_several_values). Refuted for several top-level values after has_next or peek (C32_refuted_after_has_next): the peeked token is lost. If has_next has returned false the input is complete (C19_accepted_input_is_a_sequence)."
  },
  {
   "property": "C33",
   "status": "proved",
   "theorems": [
    "C33_unsupported_number_is_reported",
    "C33_transfer_copies_the_value",
    "C33_transfer_to_stream_writer",
    "C33_nothing_to_transfer"
   ],
   "note": "Model of transfer_to with an arbitrary JsonWriter implementation (a state and a function), and with the modelled JsonStreamWriter. For values whose numbers pass restrict_number_values; otherwise reading the number fails as in C29."
  },
  {
   "property": "C34",
   "status": "proved",
   "theorems": [
    "C34_all_top_level_values",
    "C34_end_of_all_values",
    "C34_single_value_only"
   ],
   "note": ""
  },
  {
   "property": "C35",
   "status": "proved",
   "theorems": [
    "C35_programs_without_comments_enabled",
    "C35_programs_without_trailing_comma_enabled",
    "C35_comments_not_enabled",
    "C35_trailing_comma_not_enabled",
    "C35_document_with_comments_rejected",
    "C35_document_with_trailing_comma_rejected",
    "C35_structure_errors",
    "C35_removed_extensions_leave_the_data",
    "C35_same_results_without_extensions"
   ],
   "note": "Rejection with the specific errors, and the same results as for the text from which comments and trailing commas have been removed. The conditions on comments are part of the grammar (SpecJson), which is exact by C19."
  },
  {
   "property": "C36",
   "status": "proved",
   "theorems": [
    "C36_every_call_terminates",
    "C36_operations_of_a_call",
    "C36_operations_of_a_program"
   ],
   "note": "Every call terminates, and the number of operations on the buffer is at most 24 per byte not yet consumed plus 31 for a single call, and 24 per byte of the input plus 13 per call for a whole program (SpecCost)."
  },
  {
   "property": "C37",
   "status": "proved",
   "theorems": [
    "C37_errors_are_sticky",
    "C37_success_means_no_error",
    "C37_later_calls_fail",
    "C37_errors_are_kept",
    "C37_later_calls_fail_refuted",
    "C37_errors_are_sticky_refuted"
   ],
   "note": "All runs of the simple API against any JsonReader, closures as arbitrary programs. C37_errors_are_sticky (outermost method), C37_success_means_no_error (sessions on a JsonStreamReader), C37_later_calls_fail and C37_errors_are_kept (every method inside closures). Refuted for read_seeked_multi with the empty path called on an already failed reader (C37_later_calls_fail_refuted): it only runs the closure, which may swallow the error; the outermost method still reports it. Programs which use read_deserialize must have Deserialize implementations which return errors (as the documentation demands); C37_errors_are_sticky_refuted shows that this is needed. C37_later_calls_fail needs no such assumption."
  },
  {
   "property": "C38",
   "status": "proved",
   "theorems": [
    "C38_rounds_do_not_matter",
    "C38_success_means_the_data",
    "C38_success_exactly",
    "C38_closures_get_the_data",
    "C38_items_in_order",
    "C38_unread_items_are_skipped",
    "C38_members_in_order",
    "C38_read_array_needs_all_items"
   ],
   "note": "C38_closures_get_the_data: for every document and every program of closures the result is that of the tree semantics in SpecSimple. Corollaries for collecting and counting closures. Programs which go on using the reader after a closure inside of a container ended with an error of its own are Unspecified (the error is not kept by the reader, so later calls start in the middle of the container). C38_success_means_the_data and C38_success_exactly are the converse for every input; C38_rounds_do_not_matter removes the fuel of the model for runs which do not reach it."
  },
  {
   "property": "C39",
   "status": "proved",
   "theorems": [
    "C39_visits_selected_values",
    "C39_collects_selected_strings",
    "C39_counts_selected_values"
   ],
   "note": "C39_visits_selected_values: closure calls are exactly those for select path v in order; success iff the data matches the path (and at least one value, if required)."
  },
  {
   "property": "C40",
   "status": "proved",
   "theorems": [
    "C40_closures_write_their_data",
    "C40_success_means_complete",
    "C40_member_without_value_is_null",
    "C40_errors_are_sticky",
    "C40_finish_error_is_reported",
    "C40_write_reports_the_count",
    "C40_later_calls_fail",
    "C40_later_members_fail",
    "C40_errors_are_kept",
    "C40_later_calls_fail_refuted"
   ],
   "note": "For every nesting of closures, with closures modelled as arbitrary programs which see the results of their calls. Two directions (described data is written; success means that the described data has been written completely). The sticky errors are those of the underlying JsonWriter; for errors made by closures themselves the claim is false (C40_later_calls_fail_refuted). write_serialize is one of the methods (see C50)."
  },
  {
   "property": "C41",
   "status": "proved",
   "theorems": [
    "C41_programs_with_larger_nesting_limit",
    "C41_programs_with_unrestricted_numbers",
    "C41_closures_succeed_without_limits",
    "C41_larger_nesting_limit",
    "C41_unrestricted_numbers"
   ],
   "note": "For every program."
  },
  {
   "property": "C42",
   "status": "proved",
   "theorems": [
    "C42_serializer_writes_the_data",
    "C42_result_is_the_meaning",
    "C42_success_means_written",
    "C42_result_with_failing_sink"
   ],
   "note": "Implementations of Serialize are modelled as programs (sval, elems, entries, fields) which see the results of the calls; the meaning is the relation value_means of SpecSer. C42_serializer_writes_the_data and C42_result_is_the_meaning for reliable sinks, C42_success_means_written and C42_result_with_failing_sink for arbitrary sinks and implementations which return when they get an error. Nothing is claimed for implementations which go on after an error. Floating point formatting (ToString) is assumed to give a JSON number."
  },
  {
   "property": "C43",
   "status": "proved",
   "theorems": [
    "C43_number_of_elements",
    "C43_number_of_fields",
    "C43_number_of_entries",
    "C43_success_means_announced_number"
   ],
   "note": "For all seven kinds of compound values, elements given by a list (C43_number_of_*), and for arbitrary implementations: success means the announced number (C43_success_means_announced_number)."
  },
  {
   "property": "C44",
   "status": "proved",
   "theorems": [
    "C44_map_is_written_as_object",
    "C44_unsuitable_key_is_an_error",
    "C44_key_and_value_alternate"
   ],
   "note": "key_means in SpecSer is the table of names. Alternation panics: C44_key_and_value_alternate."
  },
  {
   "property": "C45",
   "status": "proved",
   "theorems": [
    "C45_steps_do_not_matter",
    "C45_steps_of_deserialize_next_do_not_matter",
    "C45_deserializing_visits_the_data",
    "C45_deserialize_next_visits_the_data",
    "C45_no_value_to_deserialize"
   ],
   "note": "Implementations of Deserialize and Visitor are arbitrary transition systems (code in DeModel); the expected result is the tree semantics sem_seed of SpecDe. Only for code which returns the errors it gets unchanged (returns_errors): the documentation leaves the behaviour after errors open. Floating point numbers are represented by their text. C45_steps_do_not_matter: the fuel of the model has no influence on runs which do not reach it."
  },
  {
   "property": "C46",
   "status": "proved",
   "theorems": [
    "C46_success_exactly",
    "C46_deserialized_input_is_a_document"
   ],
   "note": "For arbitrary bytes; uses C19 on the log of calls which the deserializer has made. C46_success_exactly is the equivalence."
  },
  {
   "property": "C47",
   "status": "proved",
   "theorems": [
    "C47_nesting_limit",
    "C47_nesting_limit_of_deserialize_next",
    "C47_only_misuse_panics",
    "C47_only_misuse_panics_in_deserialize_next",
    "C47_limit_matters_only_for_deeper_data",
    "C47_limit_after_errors_refuted"
   ],
   "note": "C47_nesting_limit holds for arbitrary code and arbitrary outcomes of the reader calls; C47_only_misuse_panics for arbitrary code and input. C47_limit_matters_only_for_deeper_data needs code which returns errors; without that it is false (C47_limit_after_errors_refuted: the depth counter is not decremented on errors)."
  },
  {
   "property": "C48",
   "status": "proved",
   "theorems": [
    "C48_deserializing_the_data_gives_the_value",
    "C48_deserialize_next_gives_the_value",
    "C48_serde_round_trip",
    "C48_some_of_null_refuted",
    "C48_long_float_refuted"
   ],
   "note": "C48_serde_round_trip composes the serializer, the writer, the source, the reader and the deserializer; C48_deserializing_the_data_gives_the_value is for any position in a document. Floats are represented by their text. The two _refuted theorems show that the restrictions on Some(null) and on long floats are needed; SpecTypes.v describes derived implementations."
  },
  {
   "property": "C49",
   "status": "proved",
   "theorems": [
    "C49_read_deserialize_gives_the_data",
    "C49_items_are_deserialized_in_order",
    "C49_reader_is_behind_the_value"
   ],
   "note": "read_deserialize of the simple reader at the top level, as item of an array, and followed by other reads. The result is the one of the deserializer's tree semantics (SpecDe). Deserialize implementations which do not return errors, misuse the deserializer, or do not use it at all are outside of the claim."
  },
  {
   "property": "C50",
   "status": "proved",
   "theorems": [
    "C50_write_serialize_gives_the_outcome",
    "C50_serialize_error_is_kept",
    "C50_method_with_stored_error_fails",
    "C50_errors_are_sticky_refuted"
   ],
   "note": "write_serialize is a case of the programs of C40, so C40_closures_write_their_data, C40_success_means_complete and C40_errors_are_sticky cover it at any place in a document; the last two for Serialize implementations which abort after an error (refuted otherwise: C50_errors_are_sticky_refuted). That errors are kept and reported by enclosing methods holds for every implementation."
  },
  {
   "property": "C51",
   "status": "proved",
   "theorems": [
    "C51_positions_are_within_the_input"
   ],
   "note": "Byte position, line + column, and the sum of path pieces and array indices of every reported location are at most the number of bytes supplied, for every program of reader calls, input and source."
  },
  {
   "property": "C52",
   "status": "proved",
   "theorems": [
    "C52_lookahead_of_programs_is_bounded",
    "C52_outcomes_depend_on_the_consumed_bytes",
    "C52_source_is_not_read_ahead",
    "C52_complete_value_without_what_follows",
    "C52_complete_value_is_not_read_ahead",
    "C52_lookahead_is_bounded"
   ],
   "note": "After a call which consumed a delimited token, outcomes depend only on the consumed bytes and no further read call has been made on the source; complete strings, arrays and objects are read without what follows; in all other states the lookahead is at most six bytes. The programs end with a query of the position, which fixes how much has been consumed; programs whose string reader failed are excluded. Also for programs which decide by the results so far."
  },
  {
   "property": "C53",
   "status": "proved",
   "theorems": [
    "C53_buffer_is_bounded",
    "C53_skipping_collects_nothing",
    "C53_collected_bytes_are_one_token"
   ],
   "note": "The predicate holds before, between and after all operations on the buffers. Counted are the input buffer, value_bytes_buf and a vector taken out of it; not counted are the stack of open arrays and objects and the path. A token is a run of number characters, or text behind a quote without a control character or unescaped quote except as its last byte."
  },
  {
   "property": "C54",
   "status": "proved",
   "theorems": [
    "C54_held_back_bounded",
    "C54_flush_passes_on",
    "C54_number_of_writes",
    "C54_buffer_capacity"
   ],
   "note": "The text of an unfinished document is specified in SpecBuffer.v (text_so_far). The number of write calls is stated for sinks which accept up to 1024 bytes per call (counting_sink); the other theorems hold for all sinks. C54_buffer_capacity concerns every sequence of calls, also failing ones."
  },
  {
   "property": "C55",
   "status": "proved",
   "theorems": [
    "C55_reader_debug_never_panics",
    "C55_reader_debug_shows",
    "C55_reader_debug_after_failure_refuted",
    "C55_writer_debug_never_panics",
    "C55_writer_debug_shows"
   ],
   "note": "Only the fields about the buffers are modelled (DebugModel.v), the others have derived Debug implementations. Fully proved as stated; C55_reader_debug_after_failure_refuted shows why sources which fail are excluded for the content: after a failure the reader may show bytes which have been consumed already."
  },
  {
   "property": "C56",
   "status": "proved",
   "theorems": [
    "C56_position_text",
    "C56_plain_position_text",
    "C56_error_text",
    "C56_plain_error_text",
    "C56_number_errors_are_proper",
    "C56_error_path_refuted"
   ],
   "note": "Fully proved as stated. C56_number_errors_are_proper shows that the hypothesis about unsupported numbers is met; C56_error_path_refuted shows that the restriction on names is needed: a dot in a name cannot be told from a nested member. The texts of std::io::Error are a parameter."
  },
  {
   "property": "C57",
   "status": "proved",
   "theorems": [
    "C57_next_number_is_exact",
    "C57_integers_of_a_document",
    "C57_written_integers_read_back",
    "C57_conversions_are_exact"
   ],
   "note": "Fully proved as stated. FromStr and Display of the integer types are the standard library's; their models are part of the trusted base. usize and isize are those of a 64-bit target."
  },
  {
   "property": "C58",
   "status": "proved",
   "theorems": [
    "C58_transfer_always_ends",
    "C58_transfer_accepts_only_documents",
    "C58_reformat_exact",
    "C58_reformat_again"
   ],
   "note": "Fully proved as stated; the statement about rejected numbers is C33_unsupported_number_is_reported."
  },
  {
   "property": "C59",
   "status": "proved",
   "theorems": [
    "C59_correct_usage_never_panics",
    "C59_allowed_call_does_not_panic",
    "C59_incorrect_usage_panics"
   ],
   "note": "Fully proved as stated; after a recoverable error of skip_value, seek_to, seek_back or skip_to_top_level nothing is claimed about later calls, because the client does not know how far the call got."
  },
  {
   "property": "C60",
   "status": "proved",
   "theorems": [
    "C60_orderly_use_never_panics",
    "C60_ignoring_own_errors_refuted",
    "C60_read_name_after_peek_refuted"
   ],
   "note": "Fully proved as stated. The rules are those of SpecOrderly; that the rule about own errors is needed is C60_ignoring_own_errors_refuted. read_name after peek_value is not allowed by the rules because the code panics for it, although its documentation does not say so: C60_read_name_after_peek_refuted."
  },
  {
   "property": "C61",
   "status": "proved",
   "theorems": [
    "C61_string_is_only_a_unit_variant",
    "C61_orderly_code_never_panics",
    "C61_deserialize_next_never_panics",
    "C61_disorderly_code_refuted"
   ],
   "note": "Fully proved as stated, for Deserialize implementations modelled as state machines (DeModel.code); that the rules are needed is C61_disorderly_code_refuted. C61_string_is_only_a_unit_variant is about code which ignores errors."
  },
  {
   "property": "C62",
   "status": "proved",
   "theorems": [
    "C62_orderly_closures_never_panic",
    "C62_ignoring_own_errors_refuted",
    "C62_orderly_values_never_panic",
    "C62_disorderly_values_refuted"
   ],
   "note": "Fully proved as stated. The rules are those of SpecOrderlyWriter; that they are needed is C62_ignoring_own_errors_refuted and C62_disorderly_values_refuted."
  },
  {
   "property": "C63",
   "status": "proved",
   "theorems": [
    "C63_copying_never_panics",
    "C63_copying_makes_only_allowed_calls",
    "C63_copying_from_wrong_position_panics",
    "C63_copying_to_wrong_position_panics"
   ],
   "note": "Fully proved as stated. Which calls are allowed is SpecUsage for the reader and SpecWriter for the writer."
  },
  {
   "property": "C64",
   "status": "proved",
   "theorems": [
    "C64_closures_get_what_closures_wrote",
    "C64_trees_are_read_back",
    "C64_serialized_values_are_deserialized"
   ],
   "note": "Fully proved as stated. Which data closures describe is SpecSimpleWriter, what reading closures get is SpecSimple; the program which builds a tree is in SpecSimpleTrip."
  },
  {
   "property": "C65",
   "status": "proved",
   "theorems": [
    "C65_programs_get_the_results_of_their_calls",
    "C65_later_calls_do_not_matter"
   ],
   "note": "Fully proved as stated. Programs are trees of calls (ClientModel.client); plays and really_happens are the specification (SpecSimple, SpecPrograms)."
  },
  {
   "property": "C66",
   "status": "proved",
   "theorems": [
    "C66_transfer_error_text",
    "C66_serializer_error_text",
    "C66_custom_text_refuted",
    "C66_deserializer_error_text"
   ],
   "note": "Fully proved as stated. The texts of std::io::Error, custom messages (including those which serde makes) and the messages of invalid numbers are parameters; C66_custom_text_refuted shows that custom serializer errors have to be excluded."
  }
 ]
}