{
 "claims": [
  {
   "property": "C01",
   "status": "partial",
   "theorems": [
    "C01_refuted",
    "C01_arguments_survive",
    "C01_arguments_sent_are_right",
    "C01_kinds"
   ],
   "note": "Refuted as stated: the least duration arrives as another value (C01_refuted). C01_arguments_survive is the full statement for every value without the defect of C23."
  },
  {
   "property": "C02",
   "status": "partial",
   "theorems": [
    "C02_refuted",
    "C02_literals_survive"
   ],
   "note": "Refuted as stated: the least duration arrives as another value (C02_refuted). C02_literals_survive is the full statement for every value without the defect of C23."
  },
  {
   "property": "C03",
   "status": "partial",
   "theorems": [
    "C03_refuted",
    "C03_expressions_survive",
    "C03_values_survive",
    "C03_expressions_sent_are_right"
   ],
   "note": "Refuted as stated: a variable with a name of 124 bytes or more arrives as nothing (C03_refuted). The other theorems are the full statement for every expression without the defects of C22 and C23."
  },
  {
   "property": "C04",
   "status": "proved",
   "theorems": [
    "C04_width_independent"
   ],
   "note": ""
  },
  {
   "property": "C05",
   "status": "partial",
   "theorems": [
    "C05_null_whatever_the_values",
    "C05_null_expressions_whatever_the_values",
    "C05_null_exactly_for_nil",
    "C05_null_exactly_for_nil_expressions",
    "C05_refuted"
   ],
   "note": "Refuted as stated: a nil *xtorm.String makes the encoder panic (C05_refuted). C05_null_whatever_the_values is the full statement for every argument that is accepted, C05_null_expressions_whatever_the_values for literals in expressions."
  },
  {
   "property": "C06",
   "status": "partial",
   "theorems": [
    "C06_pointers_transparent",
    "C06_refuted"
   ],
   "note": "Refuted as stated: every pointer, of any depth, to a nil interface is rejected although the nil interface itself is NULL (C06_refuted). C06_pointers_transparent is the statement for every other pointer."
  },
  {
   "property": "C07",
   "status": "proved",
   "theorems": [
    "C07_sent_bytes_are_whole_frames",
    "C07_whole_frames_whatever_the_values"
   ],
   "note": "Every byte string handed to the connection is a concatenation of whole length-prefixed frames, for every program, with units below 4 GiB (see C46 for the rest)."
  },
  {
   "property": "C08",
   "status": "partial",
   "theorems": [
    "C08_accepted_units_of_any_size",
    "C08_sent_is_what_was_written",
    "C08_accepted_programs_are_sent",
    "C08_one_call_one_message",
    "C08_refuted",
    "C08_accepted_are_sent_whatever_the_values",
    "C08_units_of_any_size_whatever_the_values"
   ],
   "note": "Refuted as stated, by the defects of C22 and C23 (C08_refuted). Without them, decoding what was sent gives the messages of the program, and accepted programs are sent."
  },
  {
   "property": "C09",
   "status": "proved",
   "theorems": [
    "C09_output_independent_of_buffer",
    "C09_outcome_independent_of_buffer",
    "C09_any_outcome_independent_of_buffer",
    "C09_independent_whatever_the_values"
   ],
   "note": ""
  },
  {
   "property": "C10",
   "status": "proved",
   "theorems": [
    "C10_errors_are_sticky",
    "C10_nothing_sent_after_error",
    "C10_error_reported",
    "C10_first_error_is_returned",
    "C10_first_error_exactly",
    "C10_nothing_sent_whatever_the_values",
    "C10_reported_whatever_the_values"
   ],
   "note": ""
  },
  {
   "property": "C11",
   "status": "proved",
   "theorems": [
    "C11_reset_is_fresh",
    "C11_reset_gives_a_fresh_pipe",
    "C11_reset_gives_every_outcome",
    "C11_reset_is_fresh_whatever_the_values"
   ],
   "note": ""
  },
  {
   "property": "C12",
   "status": "proved",
   "theorems": [
    "C12_outer_builder_unusable",
    "C12_outer_calls_panic",
    "C12_builder_usable_after_callbacks",
    "C12_outer_use_panics",
    "C12_send_and_reset_panic"
   ],
   "note": ""
  },
  {
   "property": "C13",
   "status": "proved",
   "theorems": [
    "C13_transactions_are_bracketed",
    "C13_levels_by_name",
    "C13_unknown_levels_rejected",
    "C13_bracketed_whatever_the_values"
   ],
   "note": ""
  },
  {
   "property": "C14",
   "status": "partial",
   "theorems": [
    "C14_callback_errors_are_ignored",
    "C14_refuted",
    "C14_refused_calls_prevent_commit_partial",
    "C14_refused_whatever_the_values_partial"
   ],
   "note": "Refuted: the error of a callback is discarded and COMMIT is sent (C14_refuted). Proved part: a refused call inside the transaction prevents sending anything."
  },
  {
   "property": "C15",
   "status": "proved",
   "theorems": [
    "C15_expectation_blocks_balanced",
    "C15_expect_fail_on_error",
    "C15_balanced_whatever_the_values",
    "C15_expect_fail_whatever_the_values"
   ],
   "note": ""
  },
  {
   "property": "C16",
   "status": "partial",
   "theorems": [
    "C16_inserted_rows_match_columns",
    "C16_ragged_rows_rejected",
    "C16_refuted",
    "C16_other_calls_do_not_check",
    "C16_ragged_whatever_else"
   ],
   "note": "Refuted for InsertRow and InsertF: they send every row of acceptable values, whatever the columns (C16_other_calls_do_not_check, C16_refuted). Proved in full for Insert."
  },
  {
   "property": "C17",
   "status": "proved",
   "theorems": [
    "C17_row_variables_distinct",
    "C17_insert_row",
    "C17_insert_row_whatever_the_values"
   ],
   "note": ""
  },
  {
   "property": "C18",
   "status": "proved",
   "theorems": [
    "C18_map_order_irrelevant",
    "C18_map_order_whatever_the_values"
   ],
   "note": ""
  },
  {
   "property": "C19",
   "status": "proved",
   "theorems": [
    "C19_delete_criteria",
    "C19_update_criteria",
    "C19_update_f_criteria",
    "C19_filter_whatever_the_values"
   ],
   "note": ""
  },
  {
   "property": "C20",
   "status": "proved",
   "theorems": [
    "C20_prepared_statements",
    "C20_execute_whatever_the_values",
    "C20_arguments_whatever_the_others"
   ],
   "note": ""
  },
  {
   "property": "C21",
   "status": "proved",
   "theorems": [
    "C21_expect_open",
    "C21_expect_open_returns",
    "C21_expect_close"
   ],
   "note": ""
  },
  {
   "property": "C22",
   "status": "partial",
   "theorems": [
    "C22_variable_names_survive_partial",
    "C22_refuted"
   ],
   "note": "Refuted: no variable name longer than 123 bytes ever arrives (C22_refuted, for all of them). Proved for names up to that size."
  },
  {
   "property": "C23",
   "status": "partial",
   "theorems": [
    "C23_durations_survive_partial",
    "C23_right_exactly_for",
    "C23_refuted"
   ],
   "note": "Refuted for the least duration and, on 32-bit platforms, for those of 2^32 seconds or more (C23_refuted). C23_right_exactly_for: the text is right for exactly the others."
  },
  {
   "property": "C24",
   "status": "proved",
   "theorems": [
    "C24_times_survive"
   ],
   "note": ""
  },
  {
   "property": "C25",
   "status": "partial",
   "theorems": [
    "C25_integer_operators",
    "C25_named_operators",
    "C25_date_arithmetic",
    "C25_functions",
    "C25_refuted"
   ],
   "note": "Refuted: Regexp sends 'rexgexp' and NotBetween sends 'not_between' (C25_refuted). Proved for all other constructors."
  },
  {
   "property": "C26",
   "status": "proved",
   "theorems": [
    "C26_content_types_survive"
   ],
   "note": ""
  },
  {
   "property": "C27",
   "status": "proved",
   "theorems": [
    "C27_one_response_per_request",
    "C27_units_get_one_response_per_message",
    "C27_units_whatever_the_values"
   ],
   "note": ""
  },
  {
   "property": "C28",
   "status": "proved",
   "theorems": [
    "C28_success_means_complete_replies",
    "C28_truncated_replies_are_errors"
   ],
   "note": ""
  },
  {
   "property": "C29",
   "status": "proved",
   "theorems": [
    "C29_stopping_errors"
   ],
   "note": ""
  },
  {
   "property": "C30",
   "status": "proved",
   "theorems": [
    "C30_segmentation_irrelevant",
    "C30_size_irrelevant"
   ],
   "note": ""
  },
  {
   "property": "C31",
   "status": "proved",
   "theorems": [
    "C31_server_errors_faithful",
    "C31_usual_encoding"
   ],
   "note": ""
  },
  {
   "property": "C32",
   "status": "proved",
   "theorems": [
    "C32_mysql41_start",
    "C32_mysql41_response",
    "C32_mysql41_accepted"
   ],
   "note": ""
  },
  {
   "property": "C33",
   "status": "proved",
   "theorems": [
    "C33_sha256_start",
    "C33_sha256_response",
    "C33_sha256_accepted"
   ],
   "note": ""
  },
  {
   "property": "C34",
   "status": "proved",
   "theorems": [
    "C34_plain_start",
    "C34_server_splits_names"
   ],
   "note": ""
  },
  {
   "property": "C35",
   "status": "proved",
   "theorems": [
    "C35_plain_only_as_fallback",
    "C35_challenge_response_never_plain",
    "C35_nothing_before_tls"
   ],
   "note": ""
  },
  {
   "property": "C36",
   "status": "partial",
   "theorems": [
    "C36_failure_closes_partial",
    "C36_success_open_and_authenticated",
    "C36_success_confirmed_by_server",
    "C36_leak_refuted",
    "C36_leaks_whenever_tls_request_fails"
   ],
   "note": "Refuted as stated: when the CapabilitySet exchange fails (write error, read error or fatal server error) New returns without closing the dialled connection (C36_leak_refuted, C36_leaks_whenever_tls_request_fails). Proved for every other failure, and that a returned connection is open and authenticated."
  },
  {
   "property": "C37",
   "status": "proved",
   "theorems": [
    "C37_one_user",
    "C37_used_is_not_idle"
   ],
   "note": ""
  },
  {
   "property": "C38",
   "status": "proved",
   "theorems": [
    "C38_idle_bounded"
   ],
   "note": ""
  },
  {
   "property": "C39",
   "status": "proved",
   "theorems": [
    "C39_every_connection_accounted_for",
    "C39_closed_once",
    "C39_nothing_after_close",
    "C39_failed_is_never_reused"
   ],
   "note": ""
  },
  {
   "property": "C40",
   "status": "proved",
   "theorems": [
    "C40_idle_connections_take_turns",
    "C40_first_in_first_out",
    "C40_new_only_if_none_idle",
    "C40_created_after_none_idle"
   ],
   "note": ""
  },
  {
   "property": "C41",
   "status": "partial",
   "theorems": [
    "C41_close_twice_panics_refuted",
    "C41_close_during_send_panics_refuted",
    "C41_close_leaves_open_refuted",
    "C41_cancelled_close_refuted",
    "C41_promise_refuted",
    "C41_no_close_no_panic",
    "C41_quiet_close_partial",
    "C41_quiet_close_finishes",
    "C41_closed_pool_refuses_partial"
   ],
   "note": "The property as stated is false: a second Close panics, a Send whose reply arrives after Close panics, Close can return nil and leave a connection open which a later Send uses, and a cancelled Close leaves the idle connections open (refutations for every pool size). Proved: without Close no panic; a Close with nothing else running and a live context closes every connection, returns nil, terminates, and afterwards Sends only return ErrPoolClosed or the context's error."
  },
  {
   "property": "C42",
   "status": "proved",
   "theorems": [
    "C42_text_and_parts_agree",
    "C42_text"
   ],
   "note": ""
  },
  {
   "property": "C43",
   "status": "proved",
   "theorems": [
    "C43_mul_add_exact",
    "C43_mul_add_mod",
    "C43_append_bytes"
   ],
   "note": ""
  },
  {
   "property": "C44",
   "status": "proved",
   "theorems": [
    "C44_constants_print_their_name",
    "C44_other_values",
    "C44_different_names",
    "C44_is_binary"
   ],
   "note": ""
  },
  {
   "property": "C45",
   "status": "proved",
   "theorems": [
    "C45_for_append",
    "C45_insert",
    "C45_insert_out_of_range",
    "C45_allocate",
    "C45_room_to_grow"
   ],
   "note": ""
  },
  {
   "property": "C46",
   "status": "partial",
   "theorems": [
    "C46_units_of_any_size",
    "C46_large_frames_are_broken",
    "C46_refuted",
    "C46_frames_below_4GiB_partial",
    "C46_units_of_any_size_whatever_the_values",
    "C46_frames_whatever_the_values_partial"
   ],
   "note": "Refuted: a frame of 4 GiB or more carries a truncated length (C46_refuted, C46_large_frames_are_broken). Proved for frames below that size, in units of work of any size (C46_units_of_any_size)."
  },
  {
   "property": "C47",
   "status": "proved",
   "theorems": [
    "C47_commit_only_after_success",
    "C47_all_executed_if_nothing_fails",
    "C47_commit_whatever_the_values",
    "C47_unreadable_is_not_committed"
   ],
   "note": "For a unit ExpectFailOnError(calls; Tx(body)), any body. The server's treatment of expectation blocks is SpecServer.serve. If the body itself opens expectation blocks the statement needs a server in which closing a failed block counts as an error of the enclosing one (Example nested_needs_propagation); without nested blocks it holds for both kinds of server."
  },
  {
   "property": "C48",
   "status": "proved",
   "theorems": [
    "C48_one_write_after_deadline",
    "C48_deadline_while_connecting"
   ],
   "note": ""
  },
  {
   "property": "C49",
   "status": "proved",
   "theorems": [
    "C49_unchallenged",
    "C49_challenged",
    "C49_unexpected_challenge",
    "C49_second_challenge",
    "C49_success_means_ok"
   ],
   "note": ""
  },
  {
   "property": "C50",
   "status": "proved",
   "theorems": [
    "C50_reset",
    "C50_authenticate_start",
    "C50_authenticate_continue",
    "C50_capability_set"
   ],
   "note": ""
  },
  {
   "property": "C51",
   "status": "proved",
   "theorems": [
    "C51_unsupported_values_never_sent",
    "C51_unsupported_values_reported",
    "C51_never_sent_whatever_else",
    "C51_reported_whatever_the_values",
    "C51_unsupported_arguments_rejected",
    "C51_unsupported_expressions_rejected"
   ],
   "note": ""
  },
  {
   "property": "C52",
   "status": "partial",
   "theorems": [
    "C52_acyclic_result_partial",
    "C52_returns_iff_acyclic_partial",
    "C52_refuted"
   ],
   "note": "Refuted as stated: a pointer cycle (an interface variable holding a pointer to itself) makes the encoder loop for ever (C52_refuted). C52_returns_iff_acyclic_partial: it returns exactly on the heaps where following the pointers ends, C52_acyclic_result_partial: and then with the encoding of the value at the end."
  },
  {
   "property": "C53",
   "status": "partial",
   "theorems": [
    "C53_insert_update_address_tables",
    "C53_refuted",
    "C53_in_every_unit",
    "C53_tables_whatever_the_values"
   ],
   "note": "Refuted for Delete, which omits the data model, whose default is DOCUMENT (C53_refuted). Proved for Insert, InsertRow, InsertF, Update and UpdateF."
  },
  {
   "property": "C54",
   "status": "partial",
   "theorems": [
    "C54_quiet_programs_do_not_panic_partial",
    "C54_refuted",
    "C54_call_outcome_exactly",
    "C54_row_outcome_exactly",
    "C54_panics_exactly",
    "C54_sent_exactly",
    "C54_quiet_whatever_the_values"
   ],
   "note": "Refuted: a criteria function that returns a nil slice with its error makes Delete panic (C54_refuted). Proved for programs whose functions keep their buffer; and which programs panic, fail and are sent, exactly, for all programs whose user code always does the same (C54_panics_exactly, C10_first_error_exactly, C54_sent_exactly)."
  },
  {
   "property": "C55",
   "status": "proved",
   "theorems": [
    "C55_plaintext_not_carried_into_tls"
   ],
   "note": ""
  },
  {
   "property": "C56",
   "status": "proved",
   "theorems": [
    "C56_connects_over_tls",
    "C56_connects_over_unix_socket",
    "C56_falls_back_over_unix_socket",
    "C56_no_fallback_in_the_clear"
   ],
   "note": ""
  },
  {
   "property": "C57",
   "status": "proved",
   "theorems": [
    "C57_never_blocked",
    "C57_send_is_short"
   ],
   "note": ""
  },
  {
   "property": "C58",
   "status": "partial",
   "theorems": [
    "C58_decompose_any_length_partial",
    "C58_no_panic_partial",
    "C58_empty_panics_refuted",
    "C58_missing_sign_refuted",
    "C58_large_scale_refuted",
    "C58_agree_exactly_partial"
   ],
   "note": "False as stated. C58_agree_exactly_partial says for which byte sequences text and parts agree: exactly those with a sign half byte, a digit, a scale of at most the number of digits and a number below 2^256. Also proved: no panic on non-empty input; for every well-formed input of any length Decompose is exact modulo 2^256. C42 has the well-formed case in full."
  },
  {
   "property": "C59",
   "status": "proved",
   "theorems": [
    "C59_at_most_once",
    "C59_outcome_is_what_happened",
    "C59_errors_are_founded",
    "C59_done_context_never_dials"
   ],
   "note": ""
  },
  {
   "property": "C60",
   "status": "proved",
   "theorems": [
    "C60_error_names_the_fault",
    "C60_row_error_names_the_fault",
    "C60_every_failure_has_a_fault",
    "C60_error_whatever_the_values",
    "C60_row_error_whatever_the_values",
    "C60_every_failure_whatever_the_values"
   ],
   "note": ""
  },
  {
   "property": "C61",
   "status": "proved",
   "theorems": [
    "C61_own_responses",
    "C61_send_returns_what_it_got",
    "C61_pool_inside"
   ],
   "note": "About System, the composition of the pool, the connections and what arrives on them. The server answers each request once and sends nothing on its own between units (SpecSystem.serves)."
  },
  {
   "property": "C62",
   "status": "proved",
   "theorems": [
    "C62_units_whole_and_in_order",
    "C62_server_reads_programs",
    "C62_server_reads_frames_whatever_the_values"
   ],
   "note": "About System, as C61."
  },
  {
   "property": "C63",
   "status": "partial",
   "theorems": [
    "C63_all_or_nothing_partial",
    "C63_next_unit_commits_the_rest",
    "C63_failed_unit_becomes_durable_refuted",
    "C63_nested_transaction_refuted",
    "C63_all_or_nothing_whatever_the_values_partial"
   ],
   "note": "Refuted as stated: the transaction of a failed unit stays open on the pooled connection and the next unit's START TRANSACTION makes what it did durable (C63_failed_unit_becomes_durable_refuted, a run of two Sends on a pool of one; C63_next_unit_commits_the_rest in general); Tx inside Tx has the same effect (C63_nested_transaction_refuted). Proved: it holds if the connection has no transaction in progress and ends after the unit."
  },
  {
   "property": "C64",
   "status": "partial",
   "theorems": [
    "C64_connection_is_spoilt_refuted",
    "C64_success_leaves_nothing_partial",
    "C64_connection_is_spoilt_whatever_the_values_refuted",
    "C64_success_whatever_the_values_partial"
   ],
   "note": "Refuted as stated: after a unit whose COMMIT was skipped every unit with an isolation level fails on that connection (C64_connection_is_spoilt_refuted). Proved: a unit that succeeds leaves nothing behind."
  },
  {
   "property": "C65",
   "status": "partial",
   "theorems": [
    "C65_variable_holds_the_row_id",
    "C65_committed_rows_have_their_ids",
    "C65_wrong_parent_refuted"
   ],
   "note": "Refuted without an expectation block: if the row is refused, its variable gets the id of the row before it (C65_wrong_parent_refuted). Proved: the variable holds the row's id if both messages were executed, until the end of the unit, whatever rows follow; and always in a unit of work whose COMMIT was executed."
  },
  {
   "property": "C66",
   "status": "proved",
   "theorems": [
    "C66_send_is_what_was_built",
    "C66_reset_forgets",
    "C66_error_until_reset",
    "C66_send_without_reset_repeats",
    "C66_send_whatever_the_values",
    "C66_reset_whatever_the_values"
   ],
   "note": "For all histories. C66_send_without_reset_repeats records a consequence users may not expect: a pipe used again without Reset sends the first unit again."
  },
  {
   "property": "C67",
   "status": "partial",
   "theorems": [
    "C67_reset_after_panic_partial",
    "C67_plain_calls_leave_nothing_partial",
    "C67_callback_panic_is_final_refuted",
    "C67_rows_callback_panic_is_final_refuted",
    "C67_sets_callback_panic_is_final_refuted",
    "C67_half_a_message_refuted",
    "C67_half_the_rows_refuted"
   ],
   "note": "Refuted: after a panic in a callback of Tx, ExpectFailOnError, InsertF or UpdateF every later use panics, also Reset; after a panic in the middle of Insert the next Send hands over half a message, or half the rows. Proved: outside of callbacks Reset works (and by C66_reset_forgets makes the pipe as new), and calls other than Insert, Update, InsertRow, InsertF and UpdateF leave nothing behind."
  },
  {
   "property": "C68",
   "status": "partial",
   "theorems": [
    "C68_written_before_is_kept",
    "C68_written_before_it_returned_is_kept",
    "C68_keeping_changes_nothing",
    "C68_kept_builder_stays_usable",
    "C68_failed_stays_failed",
    "C68_kept_as_the_pipe",
    "C68_overwritten_whenever_it_fits_refuted",
    "C68_row_overwrites_whenever_it_fits_refuted",
    "C68_set_overwrites_whenever_it_fits_refuted",
    "C68_kept_builder_overwrites_refuted",
    "C68_kept_insert_breaks_the_stream_refuted",
    "C68_kept_update_breaks_the_stream_refuted",
    "C68_overwritten_whatever_the_values_refuted",
    "C68_row_overwrites_whatever_the_values_refuted",
    "C68_set_overwrites_whatever_the_values_refuted"
   ],
   "note": "Refuted: a builder kept by the callback of a transaction overwrites the COMMIT, and so do a kept *Insert's Row and a kept *Update's Set with what comes after, whenever what they append fits the array (.._whenever_it_fits_refuted). Proved: what was written before the callback returned stays, in every history of uses of the pipe and of everything that was kept, with recovered panics; and keeping changes nothing by itself."
  },
  {
   "property": "C69",
   "status": "proved",
   "theorems": [
    "C69_last_option_counts",
    "C69_order_of_kinds_is_free",
    "C69_first_failure_is_returned",
    "C69_connects_with_the_given_account",
    "C69_tls_option_protects",
    "C69_no_tls_unless_asked_for"
   ],
   "note": "A function outside of the package can be an option too; it can only succeed or fail."
  },
  {
   "property": "C70",
   "status": "proved",
   "theorems": [
    "C70_error_text_tells_all"
   ],
   "note": "SQL states of MySQL have five letters and digits, so never a bracket."
  },
  {
   "property": "C71",
   "status": "partial",
   "theorems": [
    "C71_committed_units_ran_their_own_statements",
    "C71_executes_what_was_prepared_partial",
    "C71_skipped_prepare_refuted",
    "C71_committed_units_whatever_the_values",
    "C71_executes_whatever_the_values_partial"
   ],
   "note": "Proved for the README's unit of work when its COMMIT was executed, and for any unit whose Prepare was executed. Refuted for a Prepare that is skipped: an Execute outside of the block runs what an earlier unit left under the number."
  },
  {
   "property": "C72",
   "status": "partial",
   "theorems": [
    "C72_deallocated_after_the_block",
    "C72_deallocate_in_the_block_refuted",
    "C72_deallocated_whatever_the_values"
   ],
   "note": "Proved for statements deallocated after the expectation block; refuted for a Deallocate inside of it, which is skipped when something fails."
  },
  {
   "property": "C73",
   "status": "proved",
   "theorems": [
    "C73_acknowledged_commit_is_durable",
    "C73_through_the_pool",
    "C73_error_must_be_checked",
    "C73_commit_whatever_the_values",
    "C73_pooled_whatever_the_values"
   ],
   "note": "On a connection and through a pool, for a caller who checks Send's error as well as the COMMIT's response. C73_error_must_be_checked shows why both: Send appends a nil response, which means success, for the reply it failed to read."
  },
  {
   "property": "C74",
   "status": "proved",
   "theorems": [
    "C74_units_say_something",
    "C74_account_of_a_session",
    "C74_all_committed",
    "C74_account_of_a_pooled_connection",
    "C74_units_are_taken_for_something",
    "C74_session_whatever_the_values",
    "C74_all_committed_whatever_the_values",
    "C74_pooled_whatever_the_values"
   ],
   "note": "For the Sends that succeeded on the connection; the unit of a Send that failed may have been executed in part or in full after them, and the connection is then closed."
  },
  {
   "property": "C75",
   "status": "proved",
   "theorems": [
    "C75_a_server_reads_what_was_written",
    "C75_reset",
    "C75_authenticate_start",
    "C75_authenticate_continue",
    "C75_capability_set",
    "C75_mysql41",
    "C75_sha256",
    "C75_plain",
    "C75_whatever_the_values"
   ],
   "note": "The reader is generic and driven by tables generated from protobuf/*.proto (SpecSchema); the server's enumerations are closed, Go's are open."
  },
  {
   "property": "C76",
   "status": "proved",
   "theorems": [
    "C76_error_by_name",
    "C76_column_meta_by_name",
    "C76_challenge_by_name",
    "C76_replies_by_name",
    "C76_challenges_by_name",
    "C76_one_response_per_request",
    "C76_success_means_complete_replies",
    "C76_server_errors_faithful",
    "C76_challenged"
   ],
   "note": "Equivalences between SpecReply and the generic reader of SpecProto, and the theorems on Send and the handshake restated with them."
  },
  {
   "property": "C77",
   "status": "proved",
   "theorems": [
    "C77_error_says_what_went_wrong",
    "C77_each_defect_is_reported",
    "C77_one_explanation",
    "C77_read_errors_are_the_connection_s"
   ],
   "note": "Complete characterisation: every result of Send on a connection whose deadline and write succeed (C48 has the other cases), in both directions."
  },
  {
   "property": "C78",
   "status": "partial",
   "theorems": [
    "C78_buffers_fit_messages",
    "C78_bounded_by_what_arrived_partial",
    "C78_at_most_4GiB_more",
    "C78_bounded_by_what_arrived_refuted",
    "C78_small_messages_cost_nothing"
   ],
   "note": "Bound proved unless reading fails, and up to 4 GiB otherwise; refuted in general: the code trusts the announced length."
  },
  {
   "property": "C79",
   "status": "partial",
   "theorems": [
    "C79_done_context_does_nothing_partial",
    "C79_done_context_does_nothing_refuted"
   ],
   "note": "Violated by the code when an idle connection is available; everything else proved (no dialling, which results are possible)."
  },
  {
   "property": "C80",
   "status": "proved",
   "theorems": [
    "C80_new_reads_one_reply_per_request",
    "C80_nothing_left_over",
    "C80_own_responses_from_the_start"
   ],
   "note": ""
  },
  {
   "property": "C81",
   "status": "proved",
   "theorems": [
    "C81_nothing_outside_tls"
   ],
   "note": ""
  },
  {
   "property": "C82",
   "status": "proved",
   "theorems": [
    "C82_built_without_new_memory",
    "C82_capacity_never_shrinks",
    "C82_reused_pipe_keeps_its_memory",
    "C82_new_pipe_never_grows",
    "C82_only_the_first_round_grows"
   ],
   "note": "Hypothesis on user code only: encoders written by the user append in place as Go's append does. Examples show that 10 is the least margin that will do."
  },
  {
   "property": "C83",
   "status": "partial",
   "theorems": [
    "C83_failed_unit_keeps_the_buffer_otherwise",
    "C83_failed_unit_keeps_the_buffer_refuted",
    "C83_bad_level_keeps_the_buffer"
   ],
   "note": "Violated by the code for every statement argument of an unsupported type (C83_failed_unit_keeps_the_buffer_refuted: any pipe, statement and other arguments); proved for every other program and error, given that user code does not itself shrink the slice (C83_failed_unit_keeps_the_buffer_otherwise)."
  },
  {
   "property": "C84",
   "status": "partial",
   "theorems": [
    "C84_models_of_send_agree",
    "C84_whole_messages_never_panic",
    "C84_units_never_panic",
    "C84_cut_header_panics_refuted",
    "C84_endless_message_refuted",
    "C84_length_overflows_refuted",
    "C84_half_a_message_panics_refuted",
    "C84_connection_is_leaked_refuted",
    "C84_units_whatever_the_values"
   ],
   "note": "Proved for whole messages, so for everything a pipe hands over; violated by the code for bytes that end within a header (also reachable after a recovered panic), and on 32 bit platforms for lengths near 2^31 and 2^32."
  },
  {
   "property": "C85",
   "status": "partial",
   "theorems": [
    "C85_recovered_calls_leave_nothing_partial",
    "C85_recovered_units_are_built_partial",
    "C85_block_left_open_refuted",
    "C85_builder_is_dead_refuted",
    "C85_half_a_message_refuted",
    "C85_as_without_recovery",
    "C85_recovered_calls_whatever_the_values_partial",
    "C85_recovered_units_whatever_the_values_partial"
   ],
   "note": "Refuted: if a nested callback panics and the enclosing one recovers, the inner block stays open while the outer one is closed, for every pair of blocks (C85_block_left_open_refuted), and the builder panics on every use until its callback returns; an Insert that panics leaves half a message. Proved for all programs whose recovered panics are their own, those of StmtExecute, Prepare, Execute, Deallocate and Delete, and those of using an outer builder, at any depth. Recovery inside of the callbacks of InsertF and UpdateF is C89."
  },
  {
   "property": "C86",
   "status": "partial",
   "theorems": [
    "C86_others_are_safe",
    "C86_others_go_on",
    "C86_as_if_calls_stopped",
    "C86_panics_exactly",
    "C86_no_panic_unless_closed",
    "C86_connection_is_lost_refuted",
    "C86_nothing_else_is_lost"
   ],
   "note": "Proved for the other calls, which panics do not affect, and which calls panic exactly; refuted for the connection of the call that panics: it stays open and is never closed, put back or used again, whatever is called afterwards (C86_connection_is_lost_refuted). Nothing else is lost."
  },
  {
   "property": "C87",
   "status": "partial",
   "theorems": [
    "C87_garbled_whenever_it_fits_refuted",
    "C87_lost_otherwise_refuted",
    "C87_detected_in_rows",
    "C87_detected_in_sets",
    "C87_garbled_whatever_the_values_refuted"
   ],
   "note": "Refuted for Delete and every program its criteria runs on the builder: if both fit the buffer one garbled message is sent (C87_garbled_whenever_it_fits_refuted), otherwise the program is lost (C87_lost_otherwise_refuted), both without error. Proved for rows and sets inside of InsertF and UpdateF: they panic."
  },
  {
   "property": "C88",
   "status": "partial",
   "theorems": [
    "C88_operators_keep_their_operands",
    "C88_operands_are_sent",
    "C88_concat_follows_the_slice",
    "C88_concat_refuted",
    "C88_byte_slices_refuted",
    "C88_memoryless_ends",
    "C88_concat_of_itself_refuted",
    "C88_operands_are_sent_whatever_the_values"
   ],
   "note": "Proved for the operators, whose operands refer to no memory themselves. Refuted for every Concat of a slice with elements (C88_concat_refuted), for []byte operands (C88_byte_slices_refuted), and for a Concat put into its own slice, whose encoding never ends (C88_concat_of_itself_refuted)."
  },
  {
   "property": "C89",
   "status": "proved",
   "theorems": [
    "C89_recovered_rows_leave_nothing",
    "C89_recovered_sets_leave_nothing",
    "C89_recovering_inserts_return",
    "C89_recovering_updates_return",
    "C89_recovered_rows_whatever_the_values",
    "C89_recovered_sets_whatever_the_values"
   ],
   "note": "Both directions: what was sent, and that the call returns. Functions among the values that make Row lose the message are C54's."
  },
  {
   "property": "C90",
   "status": "partial",
   "theorems": [
    "C90_late_replies_refuted",
    "C90_contents_taken_for_replies_refuted",
    "C90_units_run_together_refuted",
    "C90_in_sync_while_no_send_fails",
    "C90_silent_connections_stay_silent"
   ],
   "note": "The code violates it: refuted for cuts between messages and inside of a header (late replies are taken for the next Send's), for cuts inside of a message (its contents are taken for replies) and for writes that failed half way. Proved: until the first failure every Send gets its own replies, however they arrive, and on a connection that stays silent all later Sends fail. Pools are not affected: they close a connection whose Send failed (C39, C61)."
  },
  {
   "property": "C91",
   "status": "proved",
   "theorems": [
    "C91_memory_agrees_with_values",
    "C91_only_own_memory",
    "C91_pipes_do_not_interfere",
    "C91_callers_memory_is_kept"
   ],
   "note": "MemModel.v is a second model of the encoders, messages and builders, over slice headers into shared arrays; it is proved to agree with the value model used elsewhere. Authentication messages are in MemAuth.v (C93); CapabilitySet is not modelled over memory; arguments are values; interleaving is at the granularity of calls."
  },
  {
   "property": "C92",
   "status": "proved",
   "theorems": [
    "C92_sent_bytes_stay",
    "C92_reset_reuses_the_memory",
    "C92_appending_leaves_alone"
   ],
   "note": "User code is assumed to leave alone the bytes it was given (leaves_alone in SpecMem.v; proved for code that appends); an example shows that it is needed. The last sentence of the property is C92_reset_reuses_the_memory."
  },
  {
   "property": "C93",
   "status": "proved",
   "theorems": [
    "C93_mysql41_start",
    "C93_sha256_start",
    "C93_mysql41_response",
    "C93_sha256_response",
    "C93_plain_start",
    "C93_authenticate_start",
    "C93_authenticate_continue",
    "C93_reset",
    "C93_exchange_mysql41",
    "C93_exchange_sha256",
    "C93_exchange_plain"
   ],
   "note": "MemAuth.v models the mechanisms over slice headers into shared arrays; it is proved to agree with AuthModel.v. The challenge is assumed to be in memory of its own (proto.Unmarshal copies). The mechanisms' messages are for credentials of less than 2^30 bytes, as in C32 to C34."
  },
  {
   "property": "C94",
   "status": "partial",
   "theorems": [
    "C94_arguments_as_they_are",
    "C94_programs",
    "C94_also_what_is_built",
    "C94_free_after_the_call",
    "C94_refuted"
   ],
   "note": "Proved for slices that share no memory with the pipe, and for slices of what is already built if user code leaves that alone; the run equals the run with copies in result and memory. Refuted for a slice in the room behind what is built: the unit a Sender kept, passed after Reset."
  },
  {
   "property": "C95",
   "status": "proved",
   "theorems": [
    "C95_memory_is_free_again",
    "C95_without_writes",
    "C95_one_buffer_for_all_rows",
    "C95_one_buffer_for_all_statements"
   ],
   "note": "Proved for programs and callbacks that write to and read from slices which share no memory with the pipe, against a run on values with the contents at each call; with two instances, a buffer used for all rows and for all statements. Writes from inside of user encoders are not represented."
  },
  {
   "property": "C96",
   "status": "proved",
   "theorems": [
    "C96_same_outcomes",
    "C96_one_response_per_request",
    "C96_success_means_complete_replies",
    "C96_read_returns",
    "C96_stalled",
    "C96_new_and_reset"
   ],
   "note": "Proved for bufio.Reader and io.ReadFull as in the source of Go 1.14, against the reader of Conn; C27 and C28 restated over memory. After its first error the net.Conn is taken to return that error again. proto.Unmarshal is taken to copy."
  },
  {
   "property": "C97",
   "status": "proved",
   "theorems": [
    "C97_send",
    "C97_write_one",
    "C97_authenticate",
    "C97_malformed"
   ],
   "note": "Proved for Conn's Send, WriteOne and Authenticate, with proto.Unmarshal's lexer modelled after its source."
  },
  {
   "property": "C98",
   "status": "proved",
   "theorems": [
    "C98_uses_are_ordered",
    "C98_no_data_races",
    "C98_happens_before_goes_forward",
    "C98_lock_is_exclusive",
    "C98_lock_is_no_obstacle",
    "C98_same_pool"
   ],
   "note": "Proved for any number of concurrent calls; publishing the pool after New is the caller's part."
  },
  {
   "property": "C99",
   "status": "partial",
   "theorems": [
    "C99_send_is_over_by_the_deadline",
    "C99_send_returns_by_the_deadline",
    "C99_new_is_over_by_the_deadline",
    "C99_pool_send_is_over_by_the_deadline",
    "C99_send_is_that_of_the_other_properties",
    "C99_connection_can_be_used_again",
    "C99_new_is_that_of_the_other_properties",
    "C99_pool_send_is_that_of_the_other_properties",
    "C99_send_takes_as_long_as_the_network",
    "C99_expired_context_fails_at_once",
    "C99_time_moves_on",
    "C99_cancelling_does_not_end_send_refuted",
    "C99_cancelling_is_ignored_until_the_deadline_refuted",
    "C99_cancelling_does_not_end_new_refuted",
    "C99_notices_without_end_refuted"
   ],
   "note": "Proved for deadlines, for every server, and that the results are those of the other properties; refuted for cancelling: once dialled, a cancelled context is ignored (C99_cancelling_*_refuted), and without a deadline a server that never stops sending notices keeps Send busy for ever."
  },
  {
   "property": "C100",
   "status": "partial",
   "theorems": [
    "C100_send_returns_unless_buffers_run_full",
    "C100_full_buffers_block_send",
    "C100_units_that_always_return",
    "C100_long_units_block_send_refuted"
   ],
   "note": "The condition under which Send returns is proved to be exact (C100_send_returns_unless_buffers_run_full). The code writes everything before it reads, so the property fails for long units: C100_long_units_block_send_refuted, for networks and statements of any size (below 2^40 bytes, and 2^20)."
  },
  {
   "property": "C101",
   "status": "proved",
   "theorems": [
    "C101_each_encoder_runs_once_in_order",
    "C101_insert_row_runs_each_encoder_once",
    "C101_no_encoder_runs_after_an_error",
    "C101_calls_do_what_their_encoders_did",
    "C101_insert_row_does_what_its_encoders_did",
    "C101_sources_give_their_next_values",
    "C101_sources_give_rows_their_next_values"
   ],
   "note": "For every builder method that takes values. Between the calls of one callback of InsertF or UpdateF the world is changed by encoders only."
  },
  {
   "property": "C102",
   "status": "partial",
   "theorems": [
    "C102_statements_are_the_programs_own",
    "C102_data_changes_only_scalars",
    "C102_four_gigabytes_are_read_as_messages_refuted",
    "C102_data_becomes_sql_refuted",
    "C102_statement_whatever_the_values"
   ],
   "note": "Proved for programs whose calls are each below 2 GiB. Refuted for data of 4 GiB: the frame length wraps, and an argument of exactly 2^32 bytes that consists of frames is read as those frames (C102_four_gigabytes_are_read_as_messages_refuted), with any statement in them (C102_data_becomes_sql_refuted)."
  },
  {
   "property": "C103",
   "status": "proved",
   "theorems": [
    "C103_own_arrays",
    "C103_no_race",
    "C103_other_memory_is_kept",
    "C103_no_wild_access",
    "C103_sees_what_it_would_alone",
    "C103_schedule_does_not_matter",
    "C103_finishes_by_itself",
    "C103_no_goroutine_is_endless"
   ],
   "note": "At the granularity of single byte accesses (C91 has whole calls). ThmFine also shows a pipe shared by two goroutines racing, as a check that the model can express races."
  },
  {
   "property": "C104",
   "status": "proved",
   "theorems": [
    "C104_only_its_arguments",
    "C104_no_race",
    "C104_arguments_are_kept",
    "C104_no_wild_access",
    "C104_sees_what_it_would_alone",
    "C104_finishes_by_itself"
   ],
   "note": "C103 with arguments by reference. ThmShare also shows that a goroutine writing the argument during the call races with it."
  },
  {
   "property": "C105",
   "status": "proved",
   "theorems": [
    "C105_own_arrays",
    "C105_no_race",
    "C105_other_memory_is_kept",
    "C105_no_wild_access",
    "C105_as_alone",
    "C105_returns_by_itself",
    "C105_buffer_does_not_matter"
   ],
   "note": "ThmOpen also shows that two goroutines that are given one buffer race."
  },
  {
   "property": "C106",
   "status": "proved",
   "theorems": [
    "C106_own_arrays",
    "C106_no_race",
    "C106_other_memory_is_kept",
    "C106_the_pool",
    "C106_units_are_what_was_built",
    "C106_sees_what_it_would_alone",
    "C106_answers_are_its_own",
    "C106_servers_get_what_was_built",
    "C106_never_stuck",
    "C106_finishes_by_itself",
    "C106_no_goroutine_is_endless"
   ],
   "note": "Unconditional on servers except for the two theorems on answers and on what servers get, which assume one reply for each request (as C61, C62)."
  },
  {
   "property": "C107",
   "status": "partial",
   "theorems": [
    "C107_calendar",
    "C107_every_time_is_sent",
    "C107_the_clock_is_what_is_sent",
    "C107_one_offset_partial",
    "C107_one_instant_other_text_refuted",
    "C107_other_instant_same_text_refuted",
    "C107_clocks_set_back_refuted"
   ],
   "note": "Violated by the code: the offset of a time is not sent (C107_one_instant_other_text_refuted, C107_other_instant_same_text_refuted, C107_clocks_set_back_refuted). Proved for times of one offset (C107_one_offset_partial), with the exact condition for equal texts (C107_the_clock_is_what_is_sent)."
  },
  {
   "property": "C108",
   "status": "partial",
   "theorems": [
    "C108_what_the_result_tells_partial",
    "C108_repeated_until_done_partial",
    "C108_result_may_not_tell_refuted",
    "C108_write_error_may_not_tell_refuted",
    "C108_done_twice_refuted",
    "C108_result_whatever_the_values_partial",
    "C108_repeated_whatever_the_values_partial"
   ],
   "note": "Violated by the code: a read or write error does not tell whether the unit was done (C108_result_may_not_tell_refuted, C108_write_error_may_not_tell_refuted) and sending it again may do it twice (C108_done_twice_refuted). Proved for the results that do tell (C108_what_the_result_tells_partial, C108_repeated_until_done_partial)."
  },
  {
   "property": "C109",
   "status": "partial",
   "theorems": [
    "C109_in_order_partial",
    "C109_after_an_error_refuted"
   ],
   "note": "Violated by the code after an error: for every two units there is a run in which a failed Send takes effect after a later successful one (C109_after_an_error_refuted). Proved for Sends that are made after one that returned without an error (C109_in_order_partial)."
  },
  {
   "property": "C110",
   "status": "proved",
   "theorems": [
    "C110_whole_units_one_after_the_other",
    "C110_between_call_and_return",
    "C110_in_the_order_of_calls"
   ],
   "note": "For units whose Send returned an error only the first and second claim hold (whole, at most once, not before the call): C109 shows that they may take effect after the return."
  },
  {
   "property": "C111",
   "status": "proved",
   "theorems": [
    "C111_mysql41_shows_the_digest_only",
    "C111_sha256_shows_the_digest_only",
    "C111_nothing_of_the_account_outside_tls",
    "C111_plain_sends_the_password"
   ],
   "note": "Non-interference: the hash functions are arbitrary functions in the theorems."
  },
  {
   "property": "C112",
   "status": "partial",
   "theorems": [
    "C112_alone_is_send",
    "C112_one_at_a_time_partial",
    "C112_crossed_refuted"
   ],
   "note": "Violated by the code for connections: C112_crossed_refuted. Proved for Sends that take turns (C112_one_at_a_time_partial, C112_alone_is_send); for pools see C61 and C106."
  },
  {
   "property": "C113",
   "status": "partial",
   "theorems": [
    "C113_named_level",
    "C113_level_of_the_session_partial",
    "C113_level_left_behind_refuted",
    "C113_no_snapshot_refuted",
    "C113_another_callers_level_refuted",
    "C113_named_level_whatever_the_values",
    "C113_level_of_the_session_whatever_the_values_partial"
   ],
   "note": "Violated by the code for IsolationLevelDefault (C113_level_left_behind_refuted, C113_another_callers_level_refuted) and IsolationLevelSnapshot (C113_no_snapshot_refuted). Proved for the named levels (C113_named_level) and for the other two if no level is left over (C113_level_of_the_session_partial)."
  },
  {
   "property": "C114",
   "status": "proved",
   "theorems": [
    "C114_units_apart",
    "C114_skipped_only_for_an_error_in_its_blocks",
    "C114_skipped_exactly_for_those",
    "C114_pooled",
    "C114_units_apart_whatever_the_values",
    "C114_skipped_whatever_the_values",
    "C114_pooled_whatever_the_values"
   ],
   "note": ""
  },
  {
   "property": "C115",
   "status": "proved",
   "theorems": [
    "C115_size_of_what_is_sent",
    "C115_size_of_a_call",
    "C115_known_before_it_is_sent",
    "C115_size_whatever_the_values"
   ],
   "note": ""
  },
  {
   "property": "C116",
   "status": "partial",
   "theorems": [
    "C116_allocates_in_proportion_partial",
    "C116_only_when_the_buffer_grows",
    "C116_at_most_the_square",
    "C116_refuted"
   ],
   "note": "Violated by the code for Update values, operators and function calls (C116_refuted: no factor is enough, for any first capacity and any runtime). Proved for all other units (C116_allocates_in_proportion_partial), with a quadratic bound for all units without user code (C116_at_most_the_square) and no allocation in a large enough pipe (C116_only_when_the_buffer_grows)."
  },
  {
   "property": "C117",
   "status": "proved",
   "theorems": [
    "C117_open_at_most_busiest",
    "C117_working_ones_are_kept",
    "C117_dials"
   ],
   "note": ""
  },
  {
   "property": "C118",
   "status": "proved",
   "theorems": [
    "C118_responses_of_a_call",
    "C118_through_the_pool",
    "C118_responses_whatever_the_values",
    "C118_pooled_whatever_the_values"
   ],
   "note": ""
  },
  {
   "property": "C119",
   "status": "proved",
   "theorems": [
    "C119_one_failure_per_connection",
    "C119_broken_connections_cost_one_send_each"
   ],
   "note": ""
  },
  {
   "property": "C120",
   "status": "proved",
   "theorems": [
    "C120_only_its_own_message",
    "C120_calls_around_a_wrong_one"
   ],
   "note": ""
  }
 ]
}