{
 "claims": [
  {
   "property": "C01",
   "status": "proved",
   "theorems": [
    "C01_registry_bijection",
    "C01_registration_order",
    "C01_identifier_of_identifier"
   ],
   "note": "All histories of construction, register_name (any outcome) and non-raising bulk loads. After a bulk load that raised the bijection can be lost: see C04."
  },
  {
   "property": "C02",
   "status": "proved",
   "theorems": [
    "C02_registrations_permanent",
    "C02_known_name"
   ],
   "note": ""
  },
  {
   "property": "C03",
   "status": "proved",
   "theorems": [
    "C03_auto_identifier_fresh",
    "C03_explicit_identifier",
    "C03_first_automatic"
   ],
   "note": ""
  },
  {
   "property": "C04",
   "status": "partial",
   "theorems": [
    "C04_conflicting_load_atomic_refuted",
    "C04_conflicting_load_partial"
   ],
   "note": "Full statement is false of the code (mapping.py:62-82 inserts the key before checking the name); refuted with a witness, and the exact set of non-atomic cases is proved."
  },
  {
   "property": "C05",
   "status": "proved",
   "theorems": [
    "C05_registry_lookups_agree",
    "C05_registry_items_permanent",
    "C05_registry_step_effect"
   ],
   "note": "Item construction (schema validation) is an arbitrary partial function."
  },
  {
   "property": "C06",
   "status": "proved",
   "theorems": [
    "C06_enum_translations_agree",
    "C06_enum_unknown_raises",
    "C06_enum_export_import",
    "C06_enum_string_raises",
    "C06_register_bool",
    "C06_constructor",
    "C06_get_bool",
    "C06_number_of_text"
   ],
   "note": "int(str) and StrToBool.parse are arbitrary parameters."
  },
  {
   "property": "C07",
   "status": "proved",
   "theorems": [
    "C07_store_is_wrap",
    "C07_increment",
    "C07_toggle",
    "C07_kinds",
    "C07_new_and_copy",
    "C07_clamp"
   ],
   "note": "All eight integer kinds, all integers."
  },
  {
   "property": "C08",
   "status": "proved",
   "theorems": [
    "C08_decode_encode",
    "C08_encode_decode",
    "C08_errors",
    "C08_byte_order",
    "C08_primitive_transfer",
    "C08_default_order"
   ],
   "note": "Floats by bit pattern; boolean decode is not injective (any non-zero byte), stated as the exception."
  },
  {
   "property": "C09",
   "status": "partial",
   "theorems": [
    "C09_callbacks_report_change_refuted",
    "C09_callbacks_report_change_partial",
    "C09_callbacks_report_change_iff",
    "C09_callbacks_get_assigned_value"
   ],
   "note": "False for out-of-range assignments (callbacks receive the unwrapped value); exact iff proved. Passive callbacks."
  },
  {
   "property": "C10",
   "status": "partial",
   "theorems": [
    "C10_identifiers_never_reused",
    "C10_removed_never_called",
    "C10_once_at_most_once_refuted",
    "C10_once_at_most_once_partial",
    "C10_remove_reports",
    "C10_undisturbed_assignment",
    "C10_disturbed_assignment",
    "C10_table_calls_are_quiet"
   ],
   "note": "One-shot claim is false when a callback raises during dispatch; proved when no assignment raises."
  },
  {
   "property": "C11",
   "status": "partial",
   "theorems": [
    "C11_scaled_set_nearest",
    "C11_unscaled_set_nearest",
    "C11_scaled_roundtrip",
    "C11_scaled_error_bound",
    "C11_apply_is_polynomial",
    "C11_invert_raises_iff",
    "C11_one_term_scaling_refuted",
    "C11_offset_set_nearest"
   ],
   "note": "Over exact rationals (Python float rounding is not modelled). One-term scalings are refuted: invert and apply disagree."
  },
  {
   "property": "C12",
   "status": "partial",
   "theorems": [
    "C12_string_self_delimiting_refuted",
    "C12_string_self_delimiting_iff",
    "C12_string_self_delimiting_partial",
    "C12_string_after_set_iff",
    "C12_utf8_exact",
    "C12_prefix_kinds",
    "C12_read_is_written"
   ],
   "note": "False for non-ASCII strings; the exact set of surviving strings is proved."
  },
  {
   "property": "C13",
   "status": "proved",
   "theorems": [
    "C13_chunk_update",
    "C13_chunk_roundtrip",
    "C13_truncated_stream_raises",
    "C13_chunk_new"
   ],
   "note": ""
  },
  {
   "property": "C14",
   "status": "proved",
   "theorems": [
    "C14_read_after_write",
    "C14_invert_twice",
    "C14_overhang",
    "C14_where",
    "C14_register_writes"
   ],
   "note": "All eight integer kinds; fields overhanging the register (only via the direct constructor) are characterised."
  },
  {
   "property": "C15",
   "status": "proved",
   "theorems": [
    "C15_other_bits_unchanged",
    "C15_disjoint_fields_independent"
   ],
   "note": ""
  },
  {
   "property": "C16",
   "status": "proved",
   "theorems": [
    "C16_never_overlap",
    "C16_unfit_raises",
    "C16_fit_succeeds_partial",
    "C16_fit_succeeds_refuted",
    "C16_automatic_index",
    "C16_finalized",
    "C16_names",
    "C16_granted_iff",
    "C16_granted_effect"
   ],
   "note": "The claim in full; the converse (a fitting request succeeds) is false after a failed call leaked bits, and proved otherwise."
  },
  {
   "property": "C17",
   "status": "proved",
   "theorems": [
    "C17_bytes_length",
    "C17_update_of_bytes",
    "C17_bytes_of_update",
    "C17_native_length_refuted",
    "C17_copy_same_bytes",
    "C17_native_length_iff"
   ],
   "note": "Standard byte orders; the native (padded) order is refuted for the length."
  },
  {
   "property": "C18",
   "status": "proved",
   "theorems": [
    "C18_tables_inverse",
    "C18_every_boundary_partial",
    "C18_interior_missing",
    "C18_every_boundary_refuted"
   ],
   "note": "The claim (recorded boundaries) in full; which boundaries are recorded is characterised."
  },
  {
   "property": "C19",
   "status": "proved",
   "theorems": [
    "C19_fragment_is_slice",
    "C19_fragment_exists",
    "C19_by_bytes_same",
    "C19_update_fragment"
   ],
   "note": "Standard byte orders."
  },
  {
   "property": "C20",
   "status": "proved",
   "theorems": [
    "C20_frames_fit_and_lose_nothing",
    "C20_flush_completes"
   ],
   "note": "Element size is constant between set_mtu calls."
  },
  {
   "property": "C21",
   "status": "partial",
   "theorems": [
    "C21_written_in_order",
    "C21_read_back",
    "C21_copy_same",
    "C21_add_to_end",
    "C21_add_to_end_return_refuted",
    "C21_native_refuted",
    "C21_truncated_fixed_shrinks"
   ],
   "note": "False for arrays in native byte order (refuted); proved for chains of standard-order members. No shared tails or cycles."
  },
  {
   "property": "C22",
   "status": "proved",
   "theorems": [
    "C22_encode_is_frame",
    "C22_chunking_irrelevant",
    "C22_messages_delivered",
    "C22_prefix_delivered",
    "C22_json_delivered",
    "C22_failed_consumer_desynchronizes",
    "C22_bad_json_refuted",
    "C22_oversize_refuted"
   ],
   "note": "For consumers that take every message; a consumer that raises on a message (e.g. invalid JSON) loses the framing, proved as a separate theorem."
  },
  {
   "property": "C23",
   "status": "partial",
   "theorems": [
    "C23_poll_writes_event",
    "C23_chunked_stream_iff",
    "C23_whole_stream_partial",
    "C23_every_chunking_refuted",
    "C23_stuck_forever",
    "C23_new",
    "C23_unknown_identifier",
    "C23_after_unknown_refuted"
   ],
   "note": "False when a chunk ends between an event's header and the end of its value; the exact set of good chunkings is proved."
  },
  {
   "property": "C24",
   "status": "proved",
   "theorems": [
    "C24_rate_limit",
    "C24_events_spaced",
    "C24_run_total",
    "C24_initial_event",
    "C24_enter"
   ],
   "note": "Timestamps below 2^64 ns. The change test compares the assigned value with the stored one (C09)."
  },
  {
   "property": "C25",
   "status": "proved",
   "theorems": [
    "C25_chunking_irrelevant",
    "C25_leading_blank_line_raises",
    "C25_negative_length_is_zero"
   ],
   "note": "All byte streams, any header class; after an exception the remaining chunks are not fed (the connection's task ends)."
  },
  {
   "property": "C26",
   "status": "proved",
   "theorems": [
    "C26_requests_roundtrip",
    "C26_responses_roundtrip",
    "C26_non_ascii_refuted",
    "C26_target_forms",
    "C26_no_length_no_body",
    "C26_body_is_the_announced_bytes",
    "C26_int_texts",
    "C26_length_decides"
   ],
   "note": "Well-formed = ASCII text without CR/LF; non-ASCII header text written by the sender always raises at the receiver (proved)."
  },
  {
   "property": "C27",
   "status": "partial",
   "theorems": [
    "C27_items_reported",
    "C27_every_chunk",
    "C27_chunking_partial",
    "C27_chunking_refuted",
    "C27_escaped_iac_raises",
    "C27_sent_commands_received"
   ],
   "note": "Extraction proved for every byte string in one call; chunk independence holds when chunks end at item and character boundaries and is refuted otherwise (the parser state is local to a call). process_option handlers that read further bytes are not modelled."
  },
  {
   "property": "C28",
   "status": "proved",
   "theorems": [
    "C28_blocks",
    "C28_block_count"
   ],
   "note": ""
  },
  {
   "property": "C29",
   "status": "proved",
   "theorems": [
    "C29_requests_roundtrip",
    "C29_blocks_roundtrip",
    "C29_nul_refuted",
    "C29_error_message"
   ],
   "note": "NUL-free names as stated; a NUL in a name silently changes the request (proved)."
  },
  {
   "property": "C30",
   "status": "partial",
   "theorems": [
    "C30_read_safe",
    "C30_write_safe_partial",
    "C30_write_undisturbed",
    "C30_read_undisturbed",
    "C30_duplicate_request_refuted",
    "C30_empty_write_fails",
    "C30_read_server_never_succeeds",
    "C30_large_file_fails",
    "C30_stale_datagram_refuted",
    "C30_only_on_request",
    "C30_giving_up"
   ],
   "note": "Read safety holds for all schedules of one transfer. Write safety holds when the write request is delivered at most once and is refuted for duplicated requests; empty and too-large files can never be written; stale datagrams of an earlier transfer are accepted."
  },
  {
   "property": "C31",
   "status": "partial",
   "theorems": [
    "C31_rejected_changes_nothing",
    "C31_remote_processor",
    "C31_only_commandable_partial",
    "C31_history_partial",
    "C31_name_collision_refuted",
    "C31_command_is_call",
    "C31_get_and_unknown"
   ],
   "note": "Full for rejected, GET, remote and custom commands. The commandability claim is refuted when a channel and a field share a name (the check reads the channel, the write goes to the field); proved for all histories when no name denotes both."
  },
  {
   "property": "C32",
   "status": "proved",
   "theorems": [
    "C32_hooks",
    "C32_history"
   ],
   "note": "Hooks are passive (they do not themselves raise or issue commands)."
  },
  {
   "property": "C33",
   "status": "proved",
   "theorems": [
    "C33_set_int",
    "C33_set_bool",
    "C33_set_float",
    "C33_set_scaled",
    "C33_set_enum",
    "C33_set_field",
    "C33_set_field_enum",
    "C33_others_unchanged",
    "C33_disjoint_fields",
    "C33_set_own_value",
    "C33_set_bool_number",
    "C33_set_text_is_number",
    "C33_not_finite_refused",
    "C33_infinity_scaled",
    "C33_infinity_zero_coefficient",
    "C33_enum_of_float",
    "C33_initial_value",
    "C33_outcomes"
   ],
   "note": "Exact rationals for scaled values; float storage rounding, int(str), float(str) and StrToBool are arbitrary parameters."
  },
  {
   "property": "C34",
   "status": "proved",
   "theorems": [
    "C34_toggle_channel",
    "C34_toggle_field",
    "C34_toggle_rejected"
   ],
   "note": ""
  },
  {
   "property": "C35",
   "status": "partial",
   "theorems": [
    "C35_channels_frozen",
    "C35_strict_twice_raises",
    "C35_fields_frozen_partial",
    "C35_refinalize_duplicates",
    "C35_field_after_finalize_refuted",
    "C35_create_channel",
    "C35_nothing_lost",
    "C35_identifiers",
    "C35_create_channel_iff",
    "C35_add_field_iff",
    "C35_bypass",
    "C35_new"
   ],
   "note": "Full for channels; for fields it is refuted (add_field succeeds after finalization and the next non-strict finalization makes it live), proved for histories without add_field."
  },
  {
   "property": "C36",
   "status": "proved",
   "theorems": [
    "C36_identifiers_distinct",
    "C36_requests_distinct",
    "C36_unoffset_peers_refuted",
    "C36_identifier_values"
   ],
   "note": "Finding: two peers of the same kind (both ends of a JSON TCP/websocket connection) draw identical identifiers; only subprocess hosts offset theirs."
  },
  {
   "property": "C37",
   "status": "proved",
   "theorems": [
    "C37_completes_with_own_identifier",
    "C37_calls_distinct",
    "C37_one_response_one_call",
    "C37_response_completes_call",
    "C37_two_peers",
    "C37_unoffset_peers_refuted",
    "C37_request_accepted_iff"
   ],
   "note": "Against an arbitrary peer, all interleavings of requests, sends, receives, wake-ups, time-outs and failing writes. Handlers are atomic and do not send. Finding: with coinciding identifiers a peer's request is taken for a response and never answered."
  },
  {
   "property": "C38",
   "status": "partial",
   "theorems": [
    "C38_requests_bounded",
    "C38_standard_handlers",
    "C38_poll_takes_n_plus_one",
    "C38_loopback_send_refuted",
    "C38_duplicated_response_refuted",
    "C38_awaited_sent"
   ],
   "note": "At most two messages per request for any handlers between an odd and an even peer over reliable ordered channels; sends of the standard commands are bounded by their poll count. Refuted for a loopback command sent without waiting and for duplicated responses (both ping-pong for ever)."
  },
  {
   "property": "C39",
   "status": "partial",
   "theorems": [
    "C39_exact_partial",
    "C39_timeouts_leak_refuted"
   ],
   "note": "Exact count of bookkeeping entries in every history; holds for completed requests, refuted for timed-out ones (each leaves an entry for ever)."
  },
  {
   "property": "C40",
   "status": "partial",
   "theorems": [
    "C40_never_exceeds_cap",
    "C40_waits_partial",
    "C40_stops_after_max_tries",
    "C40_reset",
    "C40_exponential_refuted",
    "C40_defaults",
    "C40_default_limit"
   ],
   "note": "The cap and the attempt limit hold. Refuted: the code writes 2 ^ attempt, which is exclusive or, so the waits grow linearly and not monotonically; the fourth attempt follows the third at once."
  },
  {
   "property": "C41",
   "status": "partial",
   "theorems": [
    "C41_limit_partial",
    "C41_exact_partial",
    "C41_large_limit_refuted",
    "C41_no_limit",
    "C41_ends_early",
    "C41_init_fails"
   ],
   "note": "Holds for limits up to 255; refuted above: the dispatch counter is a uint8 that wraps, so the limit is never reached."
  },
  {
   "property": "C42",
   "status": "partial",
   "theorems": [
    "C42_paused_never_dispatches",
    "C42_dispatch_iff",
    "C42_false_ends_loop_partial",
    "C42_false_with_signal_refuted",
    "C42_stop_signal",
    "C42_one_loop_partial",
    "C42_stop_stops_partial",
    "C42_concurrent_starts_refuted",
    "C42_restart_after_exception_refuted",
    "C42_restartable_partial"
   ],
   "note": "Pausing, signals and the dispatch condition hold in every schedule. Refuted: with a stop signal a dispatch that returns False does not end the loop; concurrent starts can make two loops; after an exception in dispatch the task cannot be restarted."
  },
  {
   "property": "C43",
   "status": "partial",
   "theorems": [
    "C43_order",
    "C43_once",
    "C43_started",
    "C43_started_partial",
    "C43_result",
    "C43_result_partial",
    "C43_has_result",
    "C43_recorded_partial",
    "C43_report",
    "C43_dead_connection",
    "C43_configured",
    "C43_codes_cancel_refuted",
    "C43_init_fails_refuted"
   ],
   "note": "Order, single start and reports hold for every run. Exit code 0 iff all pass is proved when no method returns a negative code and refuted otherwise: the codes of a stage are summed, so c and -c cancel. Failing initialization methods leave no results for the applications."
  },
  {
   "property": "C44",
   "status": "partial",
   "theorems": [
    "C44_task_counters",
    "C44_traffic_partial",
    "C44_update",
    "C44_websocket_refuted",
    "C44_restart_counters",
    "C44_restart_attempts_refuted"
   ],
   "note": "Exact for tasks, TCP and UDP. Refuted for websockets: texts are counted in characters and failed sends are counted. The rates (floats, clock) are not modelled."
  },
  {
   "property": "C45",
   "status": "partial",
   "theorems": [
    "C45_hook_once",
    "C45_disable",
    "C45_attempts_bounded",
    "C45_after_stop_partial",
    "C45_called_after_stop",
    "C45_restart_disabled_partial",
    "C45_writes_in_order",
    "C45_sends_complete_in_order_partial",
    "C45_no_send_while_disabled_partial",
    "C45_disable_ends_process_partial",
    "C45_overlap_refuted",
    "C45_restart_after_stop_refuted",
    "C45_stop_disables_partial",
    "C45_end_of_stream",
    "C45_restarts",
    "C45_manager",
    "C45_no_task_left",
    "C45_exited_partial"
   ],
   "note": "The disable hook, the attempt limit and the order of writes hold in every history; the rest when process() calls do not overlap. Refuted: the manager itself starts overlapping process() calls for an auto-restarting connection, which then restart it while it is enabled; and a stop signal during the back-off sleep does not prevent the restart."
  },
  {
   "property": "C46",
   "status": "partial",
   "theorems": [
    "C46_one_outstanding",
    "C46_lines_in_order",
    "C46_own_reply_partial",
    "C46_late_reply_refuted",
    "C46_split_reply_refuted",
    "C46_progress",
    "C46_line_breaks"
   ],
   "note": "Proved for instruments that answer in whole lines and calls that only time out when there is no answer. Refuted: one late reply shifts all later replies by one command; a reply in two TCP segments is taken for two replies."
  },
  {
   "property": "C47",
   "status": "partial",
   "theorems": [
    "C47_inside_partial",
    "C47_absolute_refuted",
    "C47_dotdot_refuted",
    "C47_sibling_refuted"
   ],
   "note": "Proved for requests that do not begin with two slashes, in which .. does not lead out, and that name something. Refuted otherwise: every file of the machine is served; and the request / is answered with the markdown file beside the first directory. Symbolic links are not modelled."
  },
  {
   "property": "C48",
   "status": "partial",
   "theorems": [
    "C48_exact",
    "C48_balanced_partial",
    "C48_leak_refuted"
   ],
   "note": "Exact count of callbacks for every history; the claim holds when a tab is never shown while shown, and is refuted otherwise (a callback per name outlives the connection)."
  },
  {
   "property": "C49",
   "status": "partial",
   "theorems": [
    "C49_fifo",
    "C49_dispatch",
    "C49_exactly_once",
    "C49_duplicate_name",
    "C49_one_by_one_partial",
    "C49_ends_in_order_partial",
    "C49_returns_when_empty",
    "C49_drains",
    "C49_concurrent_refuted",
    "C49_housekeeping_partial",
    "C49_housekeeping_refuted",
    "C49_setup_iff"
   ],
   "note": "Exactly once and in order for every history. Handlers end in order when processors do not overlap (refuted otherwise). A handler that raises ends the housekeeping task: no later command of any object is handled (refuted)."
  },
  {
   "property": "C50",
   "status": "partial",
   "theorems": [
    "C50_round_trip_partial",
    "C50_in_order_partial",
    "C50_probe",
    "C50_assign_exact",
    "C50_accepts_exact",
    "C50_sequence",
    "C50_native_refuted",
    "C50_order_change_refuted"
   ],
   "note": "Proved for every history in the standard byte orders, each datagram on its own (so also under loss and reordering). Refuted: in native order the padded frames are refused; a byte order updated after the assignment is ignored by the transmitter."
  },
  {
   "property": "C51",
   "status": "partial",
   "theorems": [
    "C51_import_succeeds_iff",
    "C51_import_reconstructs",
    "C51_reconstruct_refuted",
    "C51_unsigned_only",
    "C51_packed"
   ],
   "note": "The unrestricted claim is refuted (non-zero padding, upper-case names, raw bits outside fields); exact conditions proved for widths of at least one bit."
  },
  {
   "property": "C52",
   "status": "partial",
   "theorems": [
    "C52_import_succeeds_iff",
    "C52_import_values",
    "C52_round_trip_partial",
    "C52_size_exact",
    "C52_serializables_refuted",
    "C52_second_round_trip_refuted",
    "C52_unnamed_bits_refuted",
    "C52_unnamed_value_refuted"
   ],
   "note": "Proved for every history of protocols without array fields and serializables: identifier, order, size, values, and indistinguishability under all further calls if no bit is set outside the named fields. Refuted: array fields shrink to one element, serializables make the import raise, a second round trip loses every byte, bits outside named fields are lost, an unnamed enum value makes the export raise."
  },
  {
   "property": "C53",
   "status": "partial",
   "theorems": [
    "C53_sizes_partial",
    "C53_unique_partial",
    "C53_lookup_partial",
    "C53_resolve_name",
    "C53_other_types",
    "C53_recursive_refuted",
    "C53_shadowed_refuted",
    "C53_byte_order_refuted"
   ],
   "note": "Proved for every history in which no type is named like a primitive, alias or ByteOrder, under the stated assumption on Namespace.search: exact sizes, unique names, exact registration and lookup. Refuted: sizes are those at the time a field was added, names of primitives are unreachable and silently replaced, a global type ByteOrder counts as one byte."
  },
  {
   "property": "C54",
   "status": "partial",
   "theorems": [
    "C54_logs_leave_once_partial",
    "C54_logs_arrive",
    "C54_failed_write_refuted",
    "C54_send_accepted_iff",
    "C54_unacceptable_logs_refused",
    "C54_acceptable_logs_accepted"
   ],
   "note": "Exactly once and in order when every write succeeds and callers leave the reserved key alone; refuted for failing writes (entries lost)."
  },
  {
   "property": "C55",
   "status": "proved",
   "theorems": [
    "C55_answer",
    "C55_standard_answer",
    "C55_metadata"
   ],
   "note": "Handlers are arbitrary state transformers registered under non-reserved keys; staged log entries may ride along (C54)."
  },
  {
   "property": "C56",
   "status": "partial",
   "theorems": [
    "C56_disabled_partial",
    "C56_disabled_during_dispatch_refuted"
   ],
   "note": "Refuted when disable() is called during a dispatch (the loop overwrites the flag when the dispatch returns); proved for the other suspension points."
  },
  {
   "property": "C57",
   "status": "partial",
   "theorems": [
    "C57_served_partial",
    "C57_handler_exception_refuted"
   ],
   "note": "Proved when no handler or send raises and process() calls do not overlap. Refuted otherwise: an exception in a message handler ends the reader but leaves the connection enabled."
  },
  {
   "property": "C58",
   "status": "partial",
   "theorems": [
    "C58_initialized_partial",
    "C58_failed_init_refuted",
    "C58_event"
   ],
   "note": "Proved when no initialization fails. Refuted otherwise: the event is set on the disabled connection."
  },
  {
   "property": "C59",
   "status": "partial",
   "theorems": [
    "C59_all_ended_partial",
    "C59_exception_refuted"
   ],
   "note": "Proved when no method raises; refuted otherwise: the first exception ends the stage while its other methods go on."
  },
  {
   "property": "C60",
   "status": "partial",
   "theorems": [
    "C60_served_partial",
    "C60_markdown_refuted",
    "C60_encoded_refuted",
    "C60_favicon_refuted",
    "C60_markdown_name"
   ],
   "note": "Proved for files that are not hidden by a markdown file of the same name, not compressed and whose path does not begin with favicon; refuted for those."
  },
  {
   "property": "C61",
   "status": "proved",
   "theorems": [
    "C61_request",
    "C61_found",
    "C61_error"
   ],
   "note": "Encoding to JSON text is not modelled."
  },
  {
   "property": "C62",
   "status": "partial",
   "theorems": [
    "C62_count",
    "C62_at_most_one_partial",
    "C62_nobody_refuted",
    "C62_everybody_refuted",
    "C62_keeps"
   ],
   "note": "The count is right modulo 256; at most one updates (up to 255 connections) and one that is alone does; refuted: nobody does once the first of three has gone, everybody does with 257."
  },
  {
   "property": "C63",
   "status": "partial",
   "theorems": [
    "C63_reported_exact",
    "C63_display_partial",
    "C63_stale_refuted",
    "C63_twice_refuted"
   ],
   "note": "Changes between frames are reported in order, once per unpaired showing; the display is current in tidy histories; refuted: a change after the last frame before hiding is never displayed."
  },
  {
   "property": "C64",
   "status": "proved",
   "theorems": [
    "C64_handlers"
   ],
   "note": "Exact, for every history."
  },
  {
   "property": "C65",
   "status": "partial",
   "theorems": [
    "C65_array_exact",
    "C65_repeated_refuted",
    "C65_once_partial"
   ],
   "note": "Acceptance and contents are exact. Refuted: the primitive of a bit-fields object is added once per field."
  },
  {
   "property": "C66",
   "status": "partial",
   "theorems": [
    "C66_copy_succeeds_iff",
    "C66_copy_reads_the_same_partial",
    "C66_copy_values_partial",
    "C66_identifier_refuted",
    "C66_second_copy_refuted",
    "C66_nested_arrays_refuted",
    "C66_repeated_refuted"
   ],
   "note": "Proved for every history with array fields, bit-fields and single chunk serializables. Refuted: the identifier becomes one, copies of copies are empty, a field after a nested array appears twice, repeated serializables become single."
  },
  {
   "property": "C67",
   "status": "partial",
   "theorems": [
    "C67_result",
    "C67_ends",
    "C67_met_partial",
    "C67_missed_refuted",
    "C67_success_partial",
    "C67_wrapped_refuted",
    "C67_callbacks",
    "C67_state_success_partial",
    "C67_state_at_once"
   ],
   "note": "The result is exact for every history. Refuted: a further change before the waiting task runs turns a success into a failure; assigning an unrepresentable value counts although the primitive never has it."
  },
  {
   "property": "C68",
   "status": "partial",
   "theorems": [
    "C68_exact",
    "C68_at_most",
    "C68_ends",
    "C68_interrupted_refuted"
   ],
   "note": "Exact contents and order in every history. Refuted: a deadline that passes while the consumer is suspended in its loop body cancels the consumer there instead of ending the iteration. Values are those assigned (C09)."
  },
  {
   "property": "C69",
   "status": "partial",
   "theorems": [
    "C69_scaled_partial",
    "C69_negative_refuted",
    "C69_rounded_refuted"
   ],
   "note": "Proved for positive scales and values on the grid, over rationals. Refuted: with a negative scale inequalities are turned round; values between steps are rounded first."
  },
  {
   "property": "C70",
   "status": "partial",
   "theorems": [
    "C70_characters",
    "C70_forwarded_partial",
    "C70_split_refuted",
    "C70_call",
    "C70_delayed_refuted",
    "C70_progress_partial",
    "C70_returns",
    "C70_feedback"
   ],
   "note": "Characters are proved for every history. One entry per line holds when writers append whole lines (a line written in two pieces becomes two entries: C70_split_refuted). One call stops at the first blank line (C70_call is exact, C70_delayed_refuted); enough calls forward everything (C70_progress_partial). A file that grows by a line for every forwarded line keeps a call busy for ever (C70_feedback)."
  },
  {
   "property": "C71",
   "status": "partial",
   "theorems": [
    "C71_exchanges",
    "C71_chunks_partial",
    "C71_chunks_refuted",
    "C71_prompt_refuted",
    "C71_line_breaks",
    "C71_unknown_until_reported"
   ],
   "note": "Proved for texts that arrive in pieces ending at line ends. A piece that ends inside a status line makes outlets show states that were never reported (C71_chunks_refuted); a prompt in front of an echo shifts the pairing (C71_prompt_refuted)."
  },
  {
   "property": "C72",
   "status": "partial",
   "theorems": [
    "C72_result_partial",
    "C72_timeout_refuted",
    "C72_shown_partial",
    "C72_completes_partial",
    "C72_range_partial",
    "C72_range_refuted",
    "C72_command",
    "C72_command_injective",
    "C72_toggle",
    "C72_explicit",
    "C72_no_exception_partial"
   ],
   "note": "Proved for histories without time-outs; after a time-out the late answer wakes the next call (C72_timeout_refuted). The index after the last outlet raises IndexError instead of giving False (C72_range_refuted)."
  },
  {
   "property": "C73",
   "status": "partial",
   "theorems": [
    "C73_streams_partial",
    "C73_early_refuted",
    "C73_raises",
    "C73_no_raise",
    "C73_stderr_only_refuted",
    "C73_closed_partial",
    "C73_late_refuted",
    "C73_drains",
    "C73_counts"
   ],
   "note": "Proved for everything that arrives after the queues were assigned; what the process writes before that is dropped (C73_early_refuted), and what arrives after the queues were logged at the end stays there (C73_late_refuted). C73_raises says exactly when receiving data raises: with a stderr queue but no stdout queue every chunk on stdout does."
  },
  {
   "property": "C74",
   "status": "partial",
   "theorems": [
    "C74_messages",
    "C74_events_partial",
    "C74_alive_partial",
    "C74_stderr_refuted",
    "C74_before_the_peer_is_known"
   ],
   "note": "Messages: proved for all chunkings and schedules. Events: exactly when no chunk ends inside a value (C23). The polling task lives on if no handler raises and stderr carries only telemetry; a line of text on stderr ends it and no later message is processed (C74_stderr_refuted)."
  },
  {
   "property": "C75",
   "status": "partial",
   "theorems": [
    "C75_input",
    "C75_eof_partial",
    "C75_eof_refuted"
   ],
   "note": "Processing and metrics are proved. The end of the input is noticed if no message raised; one message whose handling raises ends the task without the signal, for ever (C75_eof_refuted)."
  },
  {
   "property": "C76",
   "status": "partial",
   "theorems": [
    "C76_first_wins",
    "C76_results",
    "C76_deferred",
    "C76_managed",
    "C76_unmanaged_refuted",
    "C76_again_refuted",
    "C76_awaited"
   ],
   "note": "All parts hold, except that a connection created for a name that is taken is given to nobody and stays open (C76_unmanaged_refuted), and that awaiting deferred connections a second time always raises (C76_again_refuted)."
  },
  {
   "property": "C77",
   "status": "partial",
   "theorems": [
    "C77_accepts",
    "C77_content",
    "C77_files",
    "C77_search_order",
    "C77_front_refuted"
   ],
   "note": "All parts hold except the order of packages: a package added in front is put last, and one not added in front first (C77_front_refuted)."
  },
  {
   "property": "C78",
   "status": "partial",
   "theorems": [
    "C78_start",
    "C78_shared_name_refuted",
    "C78_search",
    "C78_single",
    "C78_two_names_refuted",
    "C78_original",
    "C78_param",
    "C78_param_refuted"
   ],
   "note": "C78_start says exactly which valid configurations start. Not all do: names of different kinds may collide (C78_shared_name_refuted). A connection with two names is found twice (C78_two_names_refuted); parameter lookup needs a loaded file with a config part (C78_param_refuted)."
  },
  {
   "property": "C79",
   "status": "partial",
   "theorems": [
    "C79_reload_partial",
    "C79_export_keeps",
    "C79_scaling_lost",
    "C79_registers_repeat",
    "C79_scaling_refuted",
    "C79_unnamed_refuted",
    "C79_bool_enum_refuted",
    "C79_nan_refuted",
    "C79_upper_refuted",
    "C79_orphan_refuted",
    "C79_shared_refuted",
    "C79_overlap_refuted",
    "C79_same_name_refuted",
    "C79_created",
    "C79_export_exact",
    "C79_accepted"
   ],
   "note": "Proved for every environment the exported form can carry (ExportSpec.portable). Each condition is needed: scaled channels lose their scaling (general: C79_scaling_lost), values without a name cannot be exported, boolean channels with integer enumerations, upper-case names and overlapping fields cannot be loaded, NaN becomes the default, a name left by a failed channel makes exporting raise, channels sharing a primitive or name with a bit field come apart. Registers are listed once more by each export."
  },
  {
   "property": "C80",
   "status": "partial",
   "theorems": [
    "C80_exact",
    "C80_separator",
    "C80_in_order",
    "C80_words",
    "C80_command",
    "C80_release",
    "C80_help_ignored",
    "C80_help_refuted",
    "C80_release_refuted"
   ],
   "note": "Proved: exact meaning of every line without \"--\" (C80_exact), sufficient forms of lines with it (C80_separator), for all lines that nothing is made up or reordered. Not proved: which of the remaining lines with \"--\" are refused. False and refuted: that asking for help keeps the command from running; that the meaning does not depend on the Python release."
  },
  {
   "property": "C81",
   "status": "partial",
   "theorems": [
    "C81_exact",
    "C81_same_command_partial",
    "C81_delivered_partial",
    "C81_separator_refuted",
    "C81_custom_refuted"
   ],
   "note": "Proved for lines typed without \"--\", and exactly which words survive (C81_exact). False in general: words after \"--\" are sent without it and taken for options by the peer; custom commands are run locally and never sent."
  },
  {
   "property": "C82",
   "status": "partial",
   "theorems": [
    "C82_first_environment",
    "C82_first_sent",
    "C82_sharing_returns",
    "C82_share_once",
    "C82_exchange",
    "C82_share_again_refuted"
   ],
   "note": "Proved: the view is the first loadable environment received and stays; what holds when sharing returns; a side shares successfully at most once; the exchange completes from any quiet state. False and refuted for every history: sharing when the peer already has a view raises KeyError."
  },
  {
   "property": "C83",
   "status": "partial",
   "theorems": [
    "C83_first_configuration",
    "C83_first_sent",
    "C83_sharing_returns",
    "C83_no_entry_refuted",
    "C83_no_entry_never_returns"
   ],
   "note": "Proved: the view is the first configuration that is not null and stays; what holds when sharing returns. False and refuted: an object without a \"config\" entry makes the peer raise, nothing is answered and the call never returns."
  },
  {
   "property": "C84",
   "status": "partial",
   "theorems": [
    "C84_start_iff",
    "C84_recording",
    "C84_crash",
    "C84_only_channels",
    "C84_exception_refuted",
    "C84_failed_start_refuted",
    "C84_two_names_refuted",
    "C84_fields_refuted",
    "C84_read_twice_refuted"
   ],
   "note": "Proved for every history: what a finished recording contains, what any prefix of a stream reads as, that another recording can follow, and exactly when recording can start. False and refuted for every such history: when the body raises, the channels can never be recorded again and changing them raises; also a recording that fails to start, an environment under two names, bit-field changes (never recorded), reading a cut stream twice."
  },
  {
   "property": "C85",
   "status": "partial",
   "theorems": [
    "C85_stepping",
    "C85_simulated_time",
    "C85_counter_and_clock",
    "C85_polled_structs",
    "C85_shown_time",
    "C85_shown_after_switch",
    "C85_dispatch",
    "C85_own_subclass_refuted",
    "C85_lockstep_refuted",
    "C85_two_clocks_refuted",
    "C85_as_built",
    "C85_dispatch_runs"
   ],
   "note": "Proved for every history when no struct raises and no stepper polls a stepper; counter and clock agree in every history. Refuted: a stepper class of another name polls itself and every edge raises; a struct that raises leaves the structs unequally polled; with two steppers one switches the other's simulated time off."
  },
  {
   "property": "C86",
   "status": "partial",
   "theorems": [
    "C86_connected_peer",
    "C86_connected_sends",
    "C86_unconnected_sends",
    "C86_received_in_order",
    "C86_echo",
    "C86_restart_raises_iff",
    "C86_local_address",
    "C86_restart_forgets_refuted",
    "C86_other_remote_refuted",
    "C86_socket_other_remote_refuted",
    "C86_no_address_refuted",
    "C86_message_remote_refuted",
    "C86_restart_drops_refuted",
    "C86_local_address_refuted",
    "C86_send_raises_iff",
    "C86_send_disables",
    "C86_process_one",
    "C86_disabled_reads_nothing",
    "C86_send_raises",
    "C86_created_counts",
    "C86_received_counted",
    "C86_received_counted_refuted",
    "C86_quiet_steps",
    "C86_ignores",
    "C86_connected_flag"
   ],
   "note": "Proved for connected connections in every history, for others until they are restarted. False and refuted in general: a restart of an unconnected connection forgets its remote address and the next send ends its transport; a changed remote address is ignored or raises when connected; messages ignore the remote address; a restart loses received datagrams; restarting raises when a back-off or an existing socket was given. What asyncio's datagram transport does is assumed (listed in UdpModel)."
  },
  {
   "property": "C87",
   "status": "partial",
   "theorems": [
    "C87_behaves",
    "C87_one_behaviour",
    "C87_one_stream",
    "C87_whole_messages",
    "C87_cut_message",
    "C87_new_session_refuted",
    "C87_false_finishes_chunk",
    "C87_exception_misaligns_refuted",
    "C87_echo",
    "C87_strings",
    "C87_string_result",
    "C87_not_text_refuted"
   ],
   "note": "Proved: an exact specification of what is processed for every history, and the full claim when only whole messages arrive and each is handled without failure. False in general and refuted: after a cut inside a message the next session (or sender) is misread, and after an exception the next n bytes count as a message of n bytes, because one processor with its buffer serves all senders and is kept over restarts."
  },
  {
   "property": "C88",
   "status": "partial",
   "theorems": [
    "C88_responses_in_order",
    "C88_returns_once",
    "C88_own_response",
    "C88_nothing_cancelled",
    "C88_all_can_return",
    "C88_after_cancel_refuted",
    "C88_never_again_refuted",
    "C88_lost_request_blocks_refuted",
    "C88_next_session_refuted",
    "C88_response_is_no_request",
    "C88_refused_header_stays",
    "C88_refused_request_extends",
    "C88_refused_response_extends",
    "C88_next_response_refused"
   ],
   "note": "Proved for connections that stay up when no request is cancelled after it was sent, for every schedule and number of concurrent calls. False otherwise and refuted: after a cancelled request later ones get others' responses, then the reading task fails and the connection is unusable even after restarts; a request lost with the connection blocks all others."
  },
  {
   "property": "C89",
   "status": "partial",
   "theorems": [
    "C89_runs",
    "C89_words",
    "C89_refused",
    "C89_nothing_else",
    "C89_everything_else",
    "C89_not_transmitted",
    "C89_registered",
    "C89_register",
    "C89_sound",
    "C89_answered_refuted",
    "C89_slash_refuted"
   ],
   "note": "Proved in full except two parts that are false: words with '/' or '?' (and, without a tab, empty ones and '.') cannot be sent (which words can is characterised exactly), and a command that raises is not answered."
  },
  {
   "property": "C90",
   "status": "proved",
   "theorems": [
    "C90_redirect",
    "C90_otherwise",
    "C90_no_file"
   ],
   "note": "Proved over ServeModel for paths written as a request gives them (one leading slash)."
  },
  {
   "property": "C91",
   "status": "partial",
   "theorems": [
    "C91_in_order",
    "C91_arrives",
    "C91_caught_up",
    "C91_progress",
    "C91_disabled_drops_refuted",
    "C91_all_processed_refuted",
    "C91_disabled_iff",
    "C91_stale_loss_refuted",
    "C91_former_open_refuted",
    "C91_ended_closed",
    "C91_restart",
    "C91_server_side",
    "C91_sent",
    "C91_send",
    "C91_counted_dropped_refuted",
    "C91_as_built",
    "C91_starts",
    "C91_one_at_a_time",
    "C91_raised_stalls_refuted",
    "C91_next"
   ],
   "note": "Order, at-most-once, session separation, routing of sends and received counts proved; false: data queued when the connection is lost or disabled is never processed, the late end of a former session disables the new one, a connection disabled before it is processed leaves its first transport open, and bytes sent after a loss are counted. TLS (data before the protocol is attached) and several process() calls at once are not in this model."
  },
  {
   "property": "C92",
   "status": "partial",
   "theorems": [
    "C92_in_order",
    "C92_taken",
    "C92_wake",
    "C92_waited",
    "C92_ended",
    "C92_only_wake",
    "C92_kept",
    "C92_let_go",
    "C92_one_process_refuted",
    "C92_stopped",
    "C92_stop_refuted",
    "C92_returns",
    "C92_second_call",
    "C92_manages_again",
    "C92_set_signal",
    "C92_reuse_refuted",
    "C92_swallowed_refuted",
    "C92_as_built"
   ],
   "note": "Order, keeping, letting go, waking and ending proved; false: a connection can get several process() calls at once, calls start after the stop signal, and a manager whose managing call was cancelled or ended with an exception manages nothing any more and loses a connection. What a process() call does is C45, C57, C58 (one connection)."
  },
  {
   "property": "C93",
   "status": "partial",
   "theorems": [
    "C93_tabs",
    "C93_composes",
    "C93_unready_peer_refuted",
    "C93_one_control",
    "C93_which_control",
    "C93_menu_options",
    "C93_marked_once",
    "C93_reset_button",
    "C93_reset_refuted",
    "C93_slider",
    "C93_slider_step_refuted",
    "C93_reset_all",
    "C93_commands",
    "C93_description",
    "C93_tab_ids",
    "C93_tab_ids_refuted",
    "C93_element_ids_refuted"
   ],
   "note": "Tabs, rows, controls, menus, sliders and buttons proved exactly; false: enumerated channels with a default have no reset button, sliders of whole numbers can have step 0, one peer that is not ready or one bad slider takes the whole page away, ids are not unique. Classes, icons, scripts and the plot are not modelled."
  },
  {
   "property": "C94",
   "status": "partial",
   "theorems": [
    "C94_answer",
    "C94_fresh",
    "C94_own_page",
    "C94_kept_for_ever",
    "C94_own_page_refuted",
    "C94_uncached_leaks_refuted",
    "C94_retry",
    "C94_current_refuted"
   ],
   "note": "The answer to every request of every history proved exactly; false: pages are kept by the name of the composing function, which is main for every application made with create_app, so the second application answers with the page of the first."
  },
  {
   "property": "C95",
   "status": "partial",
   "theorems": [
    "C95_screen",
    "C95_draws",
    "C95_current_value",
    "C95_no_remains_partial",
    "C95_remains_stay",
    "C95_only_the_value_refuted",
    "C95_enumerated_not_shown",
    "C95_integer_text",
    "C95_once",
    "C95_list_is_fixed",
    "C95_names_lost",
    "C95_too_many",
    "C95_cursor_move",
    "C95_cursor_inside_partial",
    "C95_cursor_inside_refuted",
    "C95_cursor_size",
    "C95_cursor_reset"
   ],
   "note": "Every character of a channel's line proved exactly, for any history of drawings; false: longer texts leave characters behind, values of enumerated channels never appear, the names are gone after a change of size, a negative move puts the cursor outside. The header window and the title are not modelled, and addstr is as the curses documentation says."
  },
  {
   "property": "C96",
   "status": "partial",
   "theorems": [
    "C96_received",
    "C96_sent",
    "C96_asked_by_user",
    "C96_asked_by_handler",
    "C96_close_noticed",
    "C96_send_closed",
    "C96_disabled_is_silent",
    "C96_drains",
    "C96_raise_refuted",
    "C96_echo",
    "C96_order_of_kinds_refuted",
    "C96_counts_refuted",
    "C96_served_once",
    "C96_handler_ends",
    "C96_disabled_by"
   ],
   "note": "Delivery, order, losses (at most one message, at a close), the end of the connection and of the server's call proved for every history; false: texts and binary messages keep no common order, a message lost at a close is counted as transmitted, and after an exception of the handler the connection stays enabled but handles nothing. The websockets library is assumed; a send that waits and is cancelled is not modelled."
  },
  {
   "property": "C97",
   "status": "partial",
   "theorems": [
    "C97_from_address",
    "C97_host_unchanged",
    "C97_family",
    "C97_port_dropped_refuted",
    "C97_v6_address_refuted",
    "C97_zero_port",
    "C97_result",
    "C97_option_restored_partial",
    "C97_option_restored_refuted",
    "C97_answer",
    "C97_current_refuted",
    "C97_retried",
    "C97_sockets",
    "C97_local_port_free",
    "C97_kept_for_ever",
    "C97_one_entry",
    "C97_same_family",
    "C97_default_probe",
    "C97_bound",
    "C97_arguments"
   ],
   "note": "Hosts, result, option and the answer to every call of every history proved; false: a port given without a name or with a host is dropped, the first answer is kept for ever, an exception other than OSError leaves the option changed, and a call that raises does not close its socket. What the system reports is a parameter."
  },
  {
   "property": "C98",
   "status": "partial",
   "theorems": [
    "C98_ports_items",
    "C98_ports_names",
    "C98_ports_fail",
    "C98_duplicate_port_refuted",
    "C98_own_port",
    "C98_names",
    "C98_tcp_server",
    "C98_udp_server",
    "C98_udp_host_refuted",
    "C98_includes",
    "C98_text_unchanged",
    "C98_loopback_client",
    "C98_loopback_plain",
    "C98_loopback_web",
    "C98_colon_refuted",
    "C98_ssl_context",
    "C98_ssl_left",
    "C98_ssl_consumed",
    "C98_keyfile_refuted",
    "C98_ssl_given",
    "C98_server_tls",
    "C98_loopback_tls_refuted"
   ],
   "note": "Ports, listeners, the loopback client and certificates proved for every command line; false: --host is ignored with --udp, the TCP loopback client does not use TLS, a key without a certificate is left over, of two ports with one name references mean the last, and a colon in a factory's name breaks the loopback address. The resolution of variables and the merging of files are vcorelib's and assumed."
  },
  {
   "property": "C99",
   "status": "partial",
   "theorems": [
    "C99_stored",
    "C99_follows",
    "C99_initial_refuted",
    "C99_dispatch_raises",
    "C99_one_stops_both_refuted",
    "C99_steps_later",
    "C99_poll",
    "C99_poll_raises",
    "C99_names_distinct",
    "C99_names",
    "C99_names_order",
    "C99_flushes",
    "C99_flush_once",
    "C99_flush_zero_refuted",
    "C99_flush_late_refuted"
   ],
   "note": "Proved for every number type in which a value that compares equal to a stored one is stored as the same (up to the sign of zero this holds of floats), and for a constant flush_count; false: before the first dispatch the cosine is 0, an infinite sine phase stops the cosine too, a flush_count of 0 ends the task, and changing flush_count can put a flush off."
  },
  {
   "property": "C100",
   "status": "partial",
   "theorems": [
    "C100_setup",
    "C100_history",
    "C100_clash",
    "C100_missing",
    "C100_again_refuted",
    "C100_redirected",
    "C100_otherwise",
    "C100_relative_app_refuted",
    "C100_browser"
   ],
   "note": "Proved for every sequence of configurations and composed with the model of how requests are answered; false: the same configuration cannot be set up twice if it has a redirect, and a path of an application without the slash in front is never answered. vcorelib's normalize is taken to be pathlib's Path."
  },
  {
   "property": "C101",
   "status": "partial",
   "theorems": [
    "C101_letters",
    "C101_number",
    "C101_itself",
    "C101_text",
    "C101_any_case",
    "C101_small_letters_refuted",
    "C101_other_refuted",
    "C101_members",
    "C101_direct",
    "C101_registered",
    "C101_register_iff",
    "C101_translates",
    "C101_case_refuted",
    "C101_alias_refuted",
    "C101_primitive_refuted"
   ],
   "note": "Proved for every class and reachable registry; false: names with small letters cannot be normalized, members that differ only in case are lost, other names of members are unknown to the runtime enumeration, and enumerations made directly are always uint8. Names are ASCII."
  },
  {
   "property": "C102",
   "status": "partial",
   "theorems": [
    "C102_config",
    "C102_again",
    "C102_setup",
    "C102_spelling_refuted",
    "C102_served"
   ],
   "note": "Proved for every configuration and list of prefixes, composed with the models of the setup and of how requests are answered; false: a prefix that was configured as redirect with another spelling (without the slash) makes the setup fail. Values in the configuration have the expected types."
  }
 ]
}