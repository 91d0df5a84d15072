{
 "claims": [
  {
   "property": "C01",
   "status": "proved",
   "theorems": [
    "C01_into_bytes_always_ok",
    "C01_round_trip_exactly",
    "C01_empty_namespace_becomes_none"
   ],
   "note": ""
  },
  {
   "property": "C02",
   "status": "proved",
   "theorems": [
    "C02_stream_of_events",
    "C02_prefix_free"
   ],
   "note": ""
  },
  {
   "property": "C03",
   "status": "proved",
   "theorems": [
    "C03_truncated_event"
   ],
   "note": ""
  },
  {
   "property": "C04",
   "status": "proved",
   "theorems": [
    "C04_chunking_irrelevant",
    "C04_complete_event_is_read",
    "C04_partial_event_waits"
   ],
   "note": ""
  },
  {
   "property": "C05",
   "status": "proved",
   "theorems": [
    "C05_unsupported_version",
    "C05_never_an_event",
    "C05_minor_and_patch_irrelevant"
   ],
   "note": ""
  },
  {
   "property": "C06",
   "status": "proved",
   "theorems": [
    "C06_appended_header_bytes"
   ],
   "note": ""
  },
  {
   "property": "C07",
   "status": "proved",
   "theorems": [
    "C07_accepted_events_are_well_formed",
    "C07_reencoding_is_stable",
    "C07_unknown_type",
    "C07_unknown_reference_marker",
    "C07_namespace_not_text",
    "C07_name_not_text"
   ],
   "note": ""
  },
  {
   "property": "C08",
   "status": "proved",
   "theorems": [
    "C08_when_reading_crashes",
    "C08_no_input_crashes_refuted",
    "C08_no_input_crashes_release_refuted"
   ],
   "note": "the claim 'no input crashes the reader' is refuted by the two _refuted theorems; C08_when_reading_crashes is the exact condition"
  },
  {
   "property": "C09",
   "status": "proved",
   "theorems": [
    "C09_buffers",
    "C09_header_buffers",
    "C09_bounded_by_received_refuted"
   ],
   "note": "'bounded by received bytes' is refuted"
  },
  {
   "property": "C10",
   "status": "proved",
   "theorems": [
    "C10_wire_layout",
    "C10_documented_layout_refuted"
   ],
   "note": "the documented header table is refuted"
  },
  {
   "property": "C11",
   "status": "proved",
   "theorems": [
    "C11_constructors",
    "C11_end_is_an_end_event_refuted"
   ],
   "note": "Event::end is refuted to produce an End event"
  },
  {
   "property": "C12",
   "status": "proved",
   "theorems": [
    "C12_unique_within_process",
    "C12_unique_for_ever_refuted",
    "C12_ids_are_u64"
   ],
   "note": ""
  },
  {
   "property": "C13",
   "status": "proved",
   "theorems": [
    "C13_equal_across_processes_iff",
    "C13_unique_across_processes_refuted"
   ],
   "note": "negative finding: 'ids are globally unique' does not hold; the theorems give the exact coincidence condition and a witness"
  },
  {
   "property": "C14",
   "status": "proved",
   "theorems": [
    "C14_bytes_arrive_unchanged"
   ],
   "note": ""
  },
  {
   "property": "C15",
   "status": "proved",
   "theorems": [
    "C15_tandem_round_trip",
    "C15_layout",
    "C15_each_part_sees_its_own_bytes",
    "C15_any_nesting"
   ],
   "note": ""
  },
  {
   "property": "C16",
   "status": "proved",
   "theorems": [
    "C16_accepted_tandem",
    "C16_tandem_crashes_exactly",
    "C16_truncated_tandem"
   ],
   "note": ""
  },
  {
   "property": "C17",
   "status": "proved",
   "theorems": [
    "C17_error_round_trip",
    "C17_longer_messages_refuted",
    "C17_accepted_error",
    "C17_short_input",
    "C17_message_not_text",
    "C17_crashes_exactly"
   ],
   "note": ""
  },
  {
   "property": "C18",
   "status": "proved",
   "theorems": [
    "C18_value_round_trip",
    "C18_explicit_format_round_trip"
   ],
   "note": ""
  },
  {
   "property": "C19",
   "status": "proved",
   "theorems": [
    "C19_unknown_format",
    "C19_disabled_format_at_receiver",
    "C19_empty_payload",
    "C19_disabled_format_at_sender",
    "C19_disabled_format_used_directly",
    "C19_default_format",
    "C19_format_numbers"
   ],
   "note": ""
  },
  {
   "property": "C20",
   "status": "proved",
   "theorems": [
    "C20_one_nonce_per_package",
    "C20_nonce_of_number",
    "C20_wraps_refuted"
   ],
   "note": ""
  },
  {
   "property": "C21",
   "status": "proved",
   "theorems": [
    "C21_both_directions_share_nonces",
    "C21_two_packages_leak"
   ],
   "note": "negative finding: nonce reuse between directions, for every key and every count"
  },
  {
   "property": "C22",
   "status": "proved",
   "theorems": [
    "C22_events_arrive",
    "C22_a_prefix_arrives",
    "C22_emitting_completes",
    "C22_connection_server_to_client",
    "C22_connection_client_to_server"
   ],
   "note": ""
  },
  {
   "property": "C23",
   "status": "proved",
   "theorems": [
    "C23_accepted_bytes",
    "C23_accepted_events",
    "C23_every_stream"
   ],
   "note": ""
  },
  {
   "property": "C24",
   "status": "proved",
   "theorems": [
    "C24_client_accepts_its_own_packages_refuted",
    "C24_server_accepts_its_own_packages_refuted"
   ],
   "note": "negative finding: reflection is accepted"
  },
  {
   "property": "C25",
   "status": "proved",
   "theorems": [
    "C25_writer_loses_nothing",
    "C25_flush_empties_the_buffer"
   ],
   "note": ""
  },
  {
   "property": "C26",
   "status": "proved",
   "theorems": [
    "C26_cancelled_write_refuted",
    "C26_cancelled_flush_refuted"
   ],
   "note": "negative finding: data loss after a cancelled write"
  },
  {
   "property": "C27",
   "status": "proved",
   "theorems": [
    "C27_package_round_trip",
    "C27_largest_packages_refuted",
    "C27_writer_sends_them_refuted"
   ],
   "note": ""
  },
  {
   "property": "C28",
   "status": "proved",
   "theorems": [
    "C28_inside_a_package",
    "C28_package_too_short_refuted",
    "C28_straddling_integer_refuted",
    "C28_straddling_buffer"
   ],
   "note": ""
  },
  {
   "property": "C29",
   "status": "proved",
   "theorems": [
    "C29_polling_after_an_error",
    "C29_loop_never_reads_again"
   ],
   "note": ""
  },
  {
   "property": "C30",
   "status": "proved",
   "theorems": [
    "C30_exchange_completes",
    "C30_both_sides_agree"
   ],
   "note": ""
  },
  {
   "property": "C31",
   "status": "proved",
   "theorems": [
    "C31_server_peer_is_accepted",
    "C31_client_peer_is_accepted",
    "C31_server_refuses_unknown",
    "C31_client_refuses_unknown",
    "C31_default_options_refuse_everyone"
   ],
   "note": ""
  },
  {
   "property": "C32",
   "status": "proved",
   "theorems": [
    "C32_serves_until_the_first_failure",
    "C32_an_unknown_peer_ends_the_server",
    "C32_a_dropped_connection_ends_the_server"
   ],
   "note": "negative finding: one failed handshake ends the server"
  },
  {
   "property": "C33",
   "status": "proved",
   "theorems": [
    "C33_where_events_go",
    "C33_one_place",
    "C33_handler_called"
   ],
   "note": ""
  },
  {
   "property": "C34",
   "status": "proved",
   "theorems": [
    "C34_unknown_namespace_reaches_global_handler",
    "C34_ignored_refuted"
   ],
   "note": "the promise of SPECIFICATON.md is refuted by C34_ignored_refuted; the other theorem says what happens instead"
  },
  {
   "property": "C35",
   "status": "proved",
   "theorems": [
    "C35_global_last_registration_wins",
    "C35_only_error_is_predefined",
    "C35_last_namespace_replaces",
    "C35_last_namespace_object_replaces",
    "C35_no_other_namespaces",
    "C35_provider_last_wins"
   ],
   "note": ""
  },
  {
   "property": "C36",
   "status": "proved",
   "theorems": [
    "C36_one_final_answer",
    "C36_at_most_one_final_answer",
    "C36_answer_not_blocked",
    "C36_no_handler_empty_answer"
   ],
   "note": ""
  },
  {
   "property": "C37",
   "status": "proved",
   "theorems": [
    "C37_emits_are_replies",
    "C37_handler_context"
   ],
   "note": ""
  },
  {
   "property": "C38",
   "status": "proved",
   "theorems": [
    "C38_reply_belongs_to_request",
    "C38_error_reply",
    "C38_first_reply_decides",
    "C38_stream_items_belong_to_request"
   ],
   "note": ""
  },
  {
   "property": "C39",
   "status": "proved",
   "theorems": [
    "C39_listens_before_sending",
    "C39_requests_listen_first",
    "C39_no_reply_missed",
    "C39_no_send_error_over_a_reply",
    "C39_no_end_over_a_reply"
   ],
   "note": "premise 'no received event carries an id created locally' appears as never_handled (no event with that id was passed to a handler)"
  },
  {
   "property": "C40",
   "status": "proved",
   "theorems": [
    "C40_completed_handler_removes_listener",
    "C40_request_without_listener_fails",
    "C40_peer_cancels_request",
    "C40_late_reply_unsolicited"
   ],
   "note": "negative finding about ids chosen by the peer"
  },
  {
   "property": "C41",
   "status": "proved",
   "theorems": [
    "C41_error_reply_unregisters",
    "C41_stream_end_unregisters",
    "C41_answered_request_unregistered",
    "C41_ended_stream_unregistered",
    "C41_failed_request_stays_registered"
   ],
   "note": ""
  },
  {
   "property": "C42",
   "status": "proved",
   "theorems": [
    "C42_stream_polls",
    "C42_stream_yields_queue_in_order",
    "C42_stream_yields_received_in_order",
    "C42_stream_yields_everything",
    "C42_each_connection_in_order"
   ],
   "note": "'exactly the events received' holds for one connection (C42_stream_yields_received_in_order, _everything); with several connections sharing the listener table only per connection"
  },
  {
   "property": "C43",
   "status": "proved",
   "theorems": [
    "C43_stream_after_timeout",
    "C43_error_reply_is_an_item",
    "C43_errors_are_items",
    "C43_failing_handler_sends_no_end",
    "C43_polling_after_timeout_panics"
   ],
   "note": ""
  },
  {
   "property": "C44",
   "status": "proved",
   "theorems": [
    "C44_at_most_8_buffered",
    "C44_full_queue_blocks_connection",
    "C44_otherwise_goes_on"
   ],
   "note": ""
  },
  {
   "property": "C45",
   "status": "proved",
   "theorems": [
    "C45_reply_to_abandoned_request",
    "C45_abandoned_reply_not_held",
    "C45_abandoned_requests_keep_listener"
   ],
   "note": ""
  },
  {
   "property": "C46",
   "status": "proved",
   "theorems": [
    "C46_at_most_two_further_events",
    "C46_comes_to_rest",
    "C46_no_infinite_exchange",
    "C46_errors_forever"
   ],
   "note": "The bound of two further events per event and coming to rest are for pairs whose user handlers emit nothing; rest additionally needs the handlers to end. The debug text of an error must survive its own encoding (debug_fits), as Rust's UTF-8 strings do."
  },
  {
   "property": "C47",
   "status": "proved",
   "theorems": [
    "C47_emits_do_not_interleave",
    "C47_order_of_completion",
    "C47_contiguous_pieces",
    "C47_cut_event_swallows_what_follows",
    "C47_cancelled_emit_refuted"
   ],
   "note": ""
  },
  {
   "property": "C48",
   "status": "proved",
   "theorems": [
    "C48_emit_is_lazy",
    "C48_failing_payload_emit",
    "C48_failing_payload_await_reply",
    "C48_failing_payload_stream_replies",
    "C48_one_event_per_emit",
    "C48_await_reply_listens_on_the_event_sent",
    "C48_stream_replies_listens_on_the_event_sent"
   ],
   "note": ""
  },
  {
   "property": "C49",
   "status": "proved",
   "theorems": [
    "C49_count_is_live_guards_minus_one",
    "C49_acquire_takes_the_first_least_used",
    "C49_balanced_without_releases",
    "C49_overlapping_acquires_refuted"
   ],
   "note": ""
  },
  {
   "property": "C50",
   "status": "proved",
   "theorems": [
    "C50_address_required",
    "C50_pool_size_zero",
    "C50_last_address_is_used",
    "C50_server_result",
    "C50_pooled_client",
    "C50_acquire_never_panics"
   ],
   "note": ""
  },
  {
   "property": "C51",
   "status": "proved",
   "theorems": [
    "C51_stop_once",
    "C51_stop_takes_effect",
    "C51_nothing_dispatched_after_stop",
    "C51_emits_still_succeed",
    "C51_pending_requests_time_out"
   ],
   "note": ""
  },
  {
   "property": "C52",
   "status": "proved",
   "theorems": [
    "C52_reply_is_the_first_sent",
    "C52_end_to_end"
   ],
   "note": "One client, one server connection; server handlers emit anything but do not themselves wait for replies. Hypotheses: no id clash (few_events, never_handled), loops not stopped, no reply stream of the client is full (room). A handler that panics before emitting answers nothing, which the theorem says."
  },
  {
   "property": "C53",
   "status": "proved",
   "theorems": [
    "C53_handshakes_share_key_and_nonce",
    "C53_session_keys_leak"
   ],
   "note": ""
  },
  {
   "property": "C54",
   "status": "proved",
   "theorems": [
    "C54_replayed_handshake"
   ],
   "note": ""
  },
  {
   "property": "C55",
   "status": "proved",
   "theorems": [
    "C55_public_key_is_enough"
   ],
   "note": ""
  },
  {
   "property": "C56",
   "status": "proved",
   "theorems": [
    "C56_what_shutdown_does",
    "C56_shutdown_never_returns"
   ],
   "note": ""
  },
  {
   "property": "C57",
   "status": "proved",
   "theorems": [
    "C57_a_silent_peer_blocks_the_server",
    "C57_a_short_secret_hangs_the_client"
   ],
   "note": ""
  },
  {
   "property": "C58",
   "status": "proved",
   "theorems": [
    "C58_loss_is_not_reported",
    "C58_outcomes_after_loss",
    "C58_streams_do_not_end",
    "C58_lost_is_quiet"
   ],
   "note": ""
  },
  {
   "property": "C59",
   "status": "proved",
   "theorems": [
    "C59_outcome_after_sending",
    "C59_timeout_only_after_sending",
    "C59_item_after_sending",
    "C59_replies_are_not_timeouts"
   ],
   "note": ""
  },
  {
   "property": "C60",
   "status": "proved",
   "theorems": [
    "C60_reply_over_any_connection",
    "C60_stop_is_per_connection",
    "C60_others_go_on"
   ],
   "note": ""
  },
  {
   "property": "C61",
   "status": "proved",
   "theorems": [
    "C61_sent_ids_distinct",
    "C61_no_event_sent_twice"
   ],
   "note": ""
  },
  {
   "property": "C62",
   "status": "proved",
   "theorems": [
    "C62_contexts_have_the_settings",
    "C62_only_clients_stop",
    "C62_options_are_used",
    "C62_last_insert_wins",
    "C62_no_other_data",
    "C62_sharing",
    "C62_settings_exist"
   ],
   "note": ""
  },
  {
   "property": "C63",
   "status": "proved",
   "theorems": [
    "C63_request",
    "C63_no_early_timeout",
    "C63_late_with_timeout",
    "C63_stream_timeout",
    "C63_item_results",
    "C63_item_timeout_not_early"
   ],
   "note": ""
  },
  {
   "property": "C64",
   "status": "proved",
   "theorems": [
    "C64_emits_arrive",
    "C64_encrypted_emits_arrive",
    "C64_cancelled_encrypted_emit_refuted",
    "C64_writer_is_not_kept",
    "C64_waiting_is_for_the_writer"
   ],
   "note": "'a cancelled emit does no harm' is refuted for encrypted connections; on plain ones a cancelled partial write corrupts the stream (C47)"
  },
  {
   "property": "C65",
   "status": "proved",
   "theorems": [
    "C65_each_endpoint_as_if_alone",
    "C65_others_neither_block_nor_help",
    "C65_ids_distinct_in_process",
    "C65_replies_only_from_own_endpoint",
    "C65_foreign_reply_is_dispatched"
   ],
   "note": "projection of every run of the process onto each endpoint (so C33-C45, C51, C58-C61 hold for each), indifference to the steps of others, ids unique over the process (fewer than 2^32 events, SystemTime-like clock)"
  },
  {
   "property": "C66",
   "status": "proved",
   "theorems": [
    "C66_no_jam_without_streams",
    "C66_streams_can_jam"
   ],
   "note": "no_jam: progress theorem for every positive capacity (counted in events) and user code without reply streams, stop and forged contexts; streams_can_jam: for every capacity a reachable state with no step but dropping futures/streams"
  },
  {
   "property": "C67",
   "status": "proved",
   "theorems": [
    "C67_bytes_carry_events",
    "C67_all_event_runs_possible",
    "C67_never_closed",
    "C67_end_to_end",
    "C67_no_jam_without_streams"
   ],
   "note": "forward simulation from the byte-level pair to Pair.v (and back, for a large enough capacity); C52 and C66 transferred, for every positive capacity in bytes; loss-free connection: no failing write, no dropped send"
  },
  {
   "property": "C68",
   "status": "proved",
   "theorems": [
    "C68_requests_come_to_rest",
    "C68_no_infinite_execution",
    "C68_requests_get_answered",
    "C68_handlers_that_emit_refuted"
   ],
   "note": "accessibility of every reachable state in the step relation of Pair.v (all steps except creation of unrelated events), proved with a multiset order; server handlers do not wait for replies themselves; loss-free connection. The last clause is the refuted version without the condition on client handlers."
  },
  {
   "property": "C69",
   "status": "proved",
   "theorems": [
    "C69_open_while_anything_lives",
    "C69_dropping_closes_nothing",
    "C69_abandoned_connections_stay",
    "C69_only_the_client_stops",
    "C69_stop_takes_effect",
    "C69_server_lasts_longest",
    "C69_half_open_connections_send",
    "C69_closing_reaches_the_server",
    "C69_all_released"
   ],
   "note": "reference counts of the shared write half and the stop sender modelled next to a ledger of owners; transport: dropping the write half is end of file for the peer after what was written; a receive loop blocked on a full reply stream (C44) reads on only when the stream is read or dropped"
  },
  {
   "property": "C70",
   "status": "proved",
   "theorems": [
    "C70_stream_is_what_the_handler_sent",
    "C70_streams_end_to_end",
    "C70_streams_over_bytes"
   ],
   "note": "loss-free connection, server handlers do not wait for replies themselves; C70_streams_over_bytes is the same over byte streams of any positive capacity. The statement about rest asks that other streams of the client do not block its receive loop (C44) and that it was not stopped."
  },
  {
   "property": "C71",
   "status": "proved",
   "theorems": [
    "C71_encryption_carries_events",
    "C71_all_event_runs_possible",
    "C71_never_closed",
    "C71_end_to_end",
    "C71_streams",
    "C71_no_jam_without_streams"
   ],
   "note": "the connection starts in a state the modelled key exchange leaves at both ends; loss-free transport, no failing write, no dropped send; forward simulation to Pair.v, then C52, C66, C70 transferred for every positive capacity in bytes"
  },
  {
   "property": "C72",
   "status": "proved",
   "theorems": [
    "C72_processed_in_order",
    "C72_sent_in_order",
    "C72_handlers_called_in_order",
    "C72_over_bytes",
    "C72_over_encryption"
   ],
   "note": "Event level (Pair), byte level (BytePair) and encrypted (Link). The order is that in which sends complete; ids distinct needs fewer than 2^32 events per process and real clocks, as in C61. 'Everything processed' needs handlers and programs without reply streams (C66 shows why)."
  },
  {
   "property": "C73",
   "status": "proved",
   "theorems": [
    "C73_reads_see_the_latest",
    "C73_latest_is_unique",
    "C73_writers_exclude",
    "C73_sections_are_atomic",
    "C73_no_update_is_lost",
    "C73_nobody_overtakes",
    "C73_nobody_waits_in_vain",
    "C73_locking_twice_is_forever"
   ],
   "note": "The lock is tokio's RwLock, modelled from its batch semaphore (a dependency: trusted to be as modelled); 'in vain' excludes 2^29-1 simultaneous calls; a task waiting for a lock does nothing else, and only dropping the waiting future or the whole task ends that. Which contexts share the data: C62_sharing."
  },
  {
   "property": "C74",
   "status": "proved",
   "theorems": [
    "C74_any_number_of_handlers",
    "C74_tasks_never_block_loops",
    "C74_panics_are_contained"
   ],
   "note": "Over the endpoint model: the loop's own waits are reading and handing a reply to a full listener queue (C44, C66); a blocking (non-async) handler that keeps a tokio worker thread busy is outside the model, as is panic=abort."
  },
  {
   "property": "C75",
   "status": "proved",
   "theorems": [
    "C75_only_what_fits",
    "C75_total_is_bounded",
    "C75_full_is_for_ever",
    "C75_encrypted_only_what_fits",
    "C75_encrypted_total_is_bounded",
    "C75_encrypted_full_is_for_ever"
   ],
   "note": "over the byte pair of BytePair.v (plain sockets) and over the encrypted link of Link.v (events that fit one package). The connection stays open as long as anything at the stopped end owns its write half (C69). Dropping the future of a send (as a select in user code might) is not a step of that model."
  },
  {
   "property": "C76",
   "status": "proved",
   "theorems": [
    "C76_nothing_invented",
    "C76_without_reflection",
    "C76_cut_connection",
    "C76_handlers",
    "C76_refused_package_last",
    "C76_refused_package_ends",
    "C76_what_is_written",
    "C76_own_events_accepted_refuted",
    "C76_own_answer_refuted"
   ],
   "note": "after the key exchange (`connected` says that it was not tampered with; see C77). Unforgeability of the cipher is a hypothesis on the run (which packages given were accepted), not on the cipher; good_cipher only says that decryption inverts encryption. Every event made fits one package. No write fails and no future of a send is dropped. The two refutations say what the code does not guarantee (same key and counters in both directions)."
  },
  {
   "property": "C77",
   "status": "proved",
   "theorems": [
    "C77_exchange_interceptable_refuted",
    "C77_only_with_an_accepted_key",
    "C77_the_key_is_known",
    "C77_reads_everything_refuted",
    "C77_supplies_any_events_refuted"
   ],
   "note": "a limit of the protocol (the theorems named _refuted state what is not guaranteed); positive half: C77_only_with_an_accepted_key. The attacker's own computation is the function `middle` (and `spied` for reading), from what he sees and his secret key only."
  },
  {
   "property": "C78",
   "status": "proved",
   "theorems": [
    "C78_user_tasks",
    "C78_handlers",
    "C78_everything_is_written",
    "C78_every_event_was_asked_for"
   ],
   "note": "over the endpoint model (Ipc.v), where user code is the coinductive type prog; results of operations are any the library can give (C38, C42, C63 say which)."
  },
  {
   "property": "C79",
   "status": "proved",
   "theorems": [
    "C79_each_endpoint_by_itself",
    "C79_no_crosstalk",
    "C79_answered_by_the_peer_asked",
    "C79_streams_from_the_peer_asked",
    "C79_intact_connections_answer",
    "C79_intact_connections_stream"
   ],
   "note": "over Net.v: wires carry events (C47, C02, C22, C67, C71 carry events to bytes). A client is joined to accepted server connections whose handlers reply, emit and do anything but wait for replies; the event counter is per endpoint (C65 for a shared one). After a failed write nothing more is completely written to that connection; futures of sends are not dropped half way (C64)."
  },
  {
   "property": "C80",
   "status": "proved",
   "theorems": [
    "C80_written_in_order_of_asking",
    "C80_nobody_overtakes",
    "C80_abandoned_emit_blocks",
    "C80_everybody_gets_through"
   ],
   "note": "over Fair.v, which adds the FIFO queue of tokio::sync::Mutex (batch_semaphore: hand-over to the first waiter, removal on drop, coop budget) to the emit futures of Emit.v; that tokio's mutex works this way is trusted. Emits of one kind (send); requests wait for the connection through the same future. C47 (which does not rely on the queue) holds for any mutex."
  },
  {
   "property": "C81",
   "status": "proved",
   "theorems": [
    "C81_every_request_is_answered",
    "C81_every_item_arrives",
    "C81_fair_runs_exist"
   ],
   "note": "over Pair.v; weak fairness (a task or loop that could always go on gets a turn); the user reads his streams or drops them (without that a full stream blocks the loop: C66). The client's loop is not stopped. If the client's process ever creates more than 2^32 events, ids may repeat and nothing is claimed from then on. Items are claimed to be handed to the stream's queue; that a call of next() yields them in order is C42."
  },
  {
   "property": "C82",
   "status": "proved",
   "theorems": [
    "C82_replies_between_peers",
    "C82_streams_between_peers",
    "C82_waiting_has_an_end",
    "C82_peers_do_not_deadlock",
    "C82_fresh_requests_ask_freely",
    "C82_peers_bounded",
    "C82_peers_over_bytes",
    "C82_peers_over_encryption"
   ],
   "note": "over Pair.v, both ends with any polite code (anything but contexts of other events), also from within handlers; at rest without reply streams (with them: C66). The results of requests given up are part of the trace as None."
  },
  {
   "property": "C83",
   "status": "proved",
   "theorems": [
    "C83_nested_requests",
    "C83_handlers_answer",
    "C83_all_get_results",
    "C83_fresh_requests_get_results",
    "C83_bounded_capacity"
   ],
   "note": "over Pair.v, both ends with plain_code (no streams: a stream nobody reads blocks the loop, C66); weak fairness. Handlers end once their own requests have results (`finishes`); tasks and spawned tasks need not. If an end makes more than 2^32 events, ids may repeat and nothing is claimed from then on; handlers that ask each other in circles without end get there. Over bounded capacity a sender must not be passed over for ever (eager_tasks); the crate locks the writer with a fair mutex, C80."
  },
  {
   "property": "C84",
   "status": "proved",
   "theorems": [
    "C84_sends_complete",
    "C84_nested_requests",
    "C84_all_get_results"
   ],
   "note": "over BytePair.v; plain_code at both ends as in C83. Assumed: all events sent can be carried (all_deliverable: C67), no sender that could write again and again is passed over for ever (the writer's mutex is fair, C80), loops read weakly fairly. Nothing is claimed once an end has made 2^32 events."
  },
  {
   "property": "C85",
   "status": "proved",
   "theorems": [
    "C85_sends_complete_or_fail",
    "C85_requests_over_intact_connections_are_answered",
    "C85_every_request_is_handled",
    "C85_every_item_arrives",
    "C85_fair_runs_exist"
   ],
   "note": "over Net.v, as C79: the servers are accepted connections with only_replies handlers, any client, any other endpoints. Assumed: weak fairness of the tasks of the two ends and of their loops of this connection (nothing of the others), the user reads or drops the streams fed by the connection. Nothing is claimed once the client has made 2^32 events."
  },
  {
   "property": "C86",
   "status": "proved",
   "theorems": [
    "C86_capacity_kept",
    "C86_sends_complete",
    "C86_every_request_is_answered",
    "C86_every_item_arrives"
   ],
   "note": "over Bounded.v (buffers counted in events). Server: only_replies handlers, no tasks of its own. Assumed: a task that can act again and again is not passed over for ever (senders wait in line for the writer's mutex, C80), loops read weakly fairly, every reply stream opened is read or dropped. A request answered in the case of a panic or after 2^32 events is not claimed. C66_streams_can_jam shows that reading is needed."
  },
  {
   "property": "C87",
   "status": "proved",
   "theorems": [
    "C87_sends_complete",
    "C87_every_request_is_answered",
    "C87_every_item_arrives"
   ],
   "note": "over BytePair.v, as C84. Server: only_replies handlers, no tasks of its own. Assumed: every event can be carried (all_deliverable: C67), no sender that could write again and again is passed over for ever (the writer's mutex is fair, C80), loops read weakly fairly, every reply stream opened is read or dropped. Nothing is claimed once the client has made 2^32 events."
  },
  {
   "property": "C88",
   "status": "proved",
   "theorems": [
    "C88_programs_end",
    "C88_bounded_capacity",
    "C88_byte_streams",
    "C88_handlers_end",
    "C88_handlers_end_bounded",
    "C88_handlers_end_bytes"
   ],
   "note": "over Pair.v, Bounded.v and BytePair.v, with the hypotheses of C81, C86 and C87. The program: a finite tree (finishes) of emits, awaited requests, environment reads and spawns; it opens no streams and stops no connections. Assumed: no event with the id of one of the client's requests is handled by the client (ids of the two processes differ). The server's handlers must not panic before sending: otherwise the request waits for good (no timeout is assumed to fire)."
  }
 ]
}