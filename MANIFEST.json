{
 "claims": [
  {
   "property": "C01",
   "status": "proved",
   "theorems": [
    "C01_header_round_trip",
    "C01_header_layout"
   ],
   "note": ""
  },
  {
   "property": "C02",
   "status": "proved",
   "theorems": [
    "C02_accepts_exactly",
    "C02_no_panic",
    "C02_canonical"
   ],
   "note": ""
  },
  {
   "property": "C03",
   "status": "proved",
   "theorems": [
    "C03_slice_encoder",
    "C03_encoded_length",
    "C03_prefix_free"
   ],
   "note": ""
  },
  {
   "property": "C04",
   "status": "proved",
   "theorems": [
    "C04_conversions",
    "C04_try_from",
    "C04_any_route"
   ],
   "note": ""
  },
  {
   "property": "C05",
   "status": "proved",
   "theorems": [
    "C05_equality",
    "C05_refl_sym",
    "C05_transitive_through_longer",
    "C05_not_transitive_through_shorter"
   ],
   "note": ""
  },
  {
   "property": "C06",
   "status": "proved",
   "theorems": [
    "C06_shrink",
    "C06_shrink_twice"
   ],
   "note": ""
  },
  {
   "property": "C07",
   "status": "proved",
   "theorems": [
    "C07_equality",
    "C07_lengths_matter_refuted",
    "C07_resize",
    "C07_resize_keeps",
    "C07_conversions"
   ],
   "note": "Proved as stated. C07_lengths_matter_refuted is about the documentation of the type, which says something else."
  },
  {
   "property": "C08",
   "status": "proved",
   "theorems": [
    "C08_collision_free_and_minimal",
    "C08_fails_iff_duplicate",
    "C08_dispatcher_size",
    "C08_dispatcher_size_minimal"
   ],
   "note": ""
  },
  {
   "property": "C09",
   "status": "proved",
   "theorems": [
    "C09_endpoint_routing",
    "C09_topic_routing",
    "C09_ping",
    "C09_at_most_one_handler",
    "C09_made_for",
    "C09_shadowed_without_std_refuted"
   ],
   "note": "The side theorem C09_shadowed_without_std_refuted shows that the hypothesis that the standard keys take part in the length computation is needed."
  },
  {
   "property": "C10",
   "status": "proved",
   "theorems": [
    "C10_key_too_small",
    "C10_unknown_key",
    "C10_endpoint_deser_failed",
    "C10_ping_deser_failed",
    "C10_failed_to_spawn",
    "C10_topic_deser_failed"
   ],
   "note": ""
  },
  {
   "property": "C11",
   "status": "proved",
   "theorems": [
    "C11_exactly_one_reply",
    "C11_at_most_one_reply"
   ],
   "note": ""
  },
  {
   "property": "C12",
   "status": "partial",
   "theorems": [
    "C12_unknown_full_key_partial",
    "C12_unknown_full_key_long",
    "C12_unknown_full_key_refuted",
    "C12_refused_iff_partial"
   ],
   "note": "False as stated: the dispatcher compacts an 8-byte key to its own length before matching, so an unknown key that agrees with a handled one after compaction runs that handler (C12_unknown_full_key_refuted). Proved: refusal for all other unknown keys, and for all unknown keys when the dispatcher uses 8-byte keys. Exactly when: a frame is refused iff no known key agrees with its key at the length the dispatcher uses (C12_refused_iff_partial)."
  },
  {
   "property": "C13",
   "status": "proved",
   "theorems": [
    "C13_run",
    "C13_never_stops",
    "C13_frames_determined"
   ],
   "note": ""
  },
  {
   "property": "C14",
   "status": "partial",
   "theorems": [
    "C14_timeout_stops_refuted",
    "C14_timeout_stops_partial",
    "C14_all_timeouts",
    "C14_exactly_partial"
   ],
   "note": "False as stated: when a handler's reply times out and the error frame sent in its place is accepted, the loop goes on (C14_timeout_stops_refuted). Proved: a timeout of the last frame attempted for a request stops the loop, and so does a request all of whose frames time out. Exactly when: the loop stops iff the last frame attempted for the request timed out or found the connection closed (C14_exactly_partial)."
  },
  {
   "property": "C15",
   "status": "proved",
   "theorems": [
    "C15_lossless"
   ],
   "note": ""
  },
  {
   "property": "C16",
   "status": "proved",
   "theorems": [
    "C16_interrupted_sends",
    "C16_completed_intact",
    "C16_no_mixing"
   ],
   "note": ""
  },
  {
   "property": "C17",
   "status": "proved",
   "theorems": [
    "C17_lossless",
    "C17_server"
   ],
   "note": ""
  },
  {
   "property": "C18",
   "status": "partial",
   "theorems": [
    "C18_oversized_dropped_partial",
    "C18_oversized_dropped_refuted",
    "C18_exactly_partial",
    "C18_tail_delivered_partial"
   ],
   "note": "False for buffers whose length is not a multiple of 64 (C18_oversized_dropped_refuted); proved for every positive multiple of 64. For the other lengths, C18_exactly_partial gives exactly the packets that are left of an oversized frame, and C18_tail_delivered_partial shows that they are delivered as a frame if they fit."
  },
  {
   "property": "C19",
   "status": "partial",
   "theorems": [
    "C19_accepted_iff_partial",
    "C19_accepted_refuted"
   ],
   "note": "False for a frame of a multiple of 64 bytes that fills the buffer exactly (C19_accepted_refuted); C19_accepted_iff_partial says exactly which frames are accepted."
  },
  {
   "property": "C20",
   "status": "proved",
   "theorems": [
    "C20_round_trip",
    "C20_bytes"
   ],
   "note": ""
  },
  {
   "property": "C21",
   "status": "proved",
   "theorems": [
    "C21_any_chunking"
   ],
   "note": ""
  },
  {
   "property": "C22",
   "status": "proved",
   "theorems": [
    "C22_total",
    "C22_progress",
    "C22_resynchronises",
    "C22_size_zero_spins"
   ],
   "note": ""
  },
  {
   "property": "C23",
   "status": "partial",
   "theorems": [
    "C23_oversized_surfaces_refuted",
    "C23_oversized_dropped_partial",
    "C23_overflow_reported_partial",
    "C23_exactly_partial",
    "C23_surfaces_iff_partial"
   ],
   "note": "False: a chunk without terminator that overflows resets the accumulator, and the end of the oversized frame is delivered (C23_oversized_surfaces_refuted). Proved: dropping when the overflow happens in the chunk with the terminator, and that an overflow is always reported. Exactly when: C23_exactly_partial gives every outcome for an overlong frame in closed form, and C23_surfaces_iff_partial when a remainder is delivered."
  },
  {
   "property": "C24",
   "status": "partial",
   "theorems": [
    "C24_short_frame_lost_refuted",
    "C24_delivered_partial",
    "C24_wide_headers_partial",
    "C24_exactly_partial",
    "C24_lost_iff_short_partial"
   ],
   "note": "False: the receiver discards frames shorter than nine bytes, valid ones included (C24_short_frame_lost_refuted). Proved for all frames of at least nine bytes, for every division into reads. Exactly when: C24_exactly_partial, C24_lost_iff_short_partial (a frame is lost iff it is shorter than nine bytes)."
  },
  {
   "property": "C25",
   "status": "proved",
   "theorems": [
    "C25_comparison_decides_equality"
   ],
   "note": ""
  },
  {
   "property": "C26",
   "status": "proved",
   "theorems": [
    "C26_sound_and_unique",
    "C26_exact"
   ],
   "note": ""
  },
  {
   "property": "C27",
   "status": "proved",
   "theorems": [
    "C27_collecting_never_fails",
    "C27_upper_bound",
    "C27_merging_never_fails",
    "C27_macros_never_fail"
   ],
   "note": ""
  },
  {
   "property": "C28",
   "status": "partial",
   "theorems": [
    "C28_complete_partial",
    "C28_complete_refuted"
   ],
   "note": "False: types nested below the payload of a newtype variant are not collected (C28_complete_refuted). Proved for schemas without composite types there. The types collected are exactly the visible non-primitive ones (C26)."
  },
  {
   "property": "C29",
   "status": "proved",
   "theorems": [
    "C29_merge",
    "C29_merge_members",
    "C29_concat",
    "C29_endpoint_table",
    "C29_topic_table",
    "C29_device_map",
    "C29_device_map_complete"
   ],
   "note": ""
  },
  {
   "property": "C30",
   "status": "proved",
   "theorems": [
    "C30_answer_matches",
    "C30_each_frame_once",
    "C30_each_request_once"
   ],
   "note": ""
  },
  {
   "property": "C31",
   "status": "proved",
   "theorems": [
    "C31_reply_reaches_request",
    "C31_answer_returned"
   ],
   "note": ""
  },
  {
   "property": "C32",
   "status": "proved",
   "theorems": [
    "C32_cancel_effect",
    "C32_silent",
    "C32_late_reply_discarded",
    "C32_no_trace"
   ],
   "note": ""
  },
  {
   "property": "C33",
   "status": "proved",
   "theorems": [
    "C33_numbering",
    "C33_distinct"
   ],
   "note": ""
  },
  {
   "property": "C34",
   "status": "proved",
   "theorems": [
    "C34_only_seen_lengths",
    "C34_adopts_server_length"
   ],
   "note": ""
  },
  {
   "property": "C35",
   "status": "partial",
   "theorems": [
    "C35_configured_width_refuted",
    "C35_always_four_bytes_partial",
    "C35_width_has_no_effect_partial"
   ],
   "note": "False: the configured width is stored but never applied (C35_configured_width_refuted). Proved: requests always carry four-byte numbers, whatever was configured."
  },
  {
   "property": "C36",
   "status": "proved",
   "theorems": [
    "C36_subscribe_fails",
    "C36_exclusive_drains",
    "C36_broadcast_drains",
    "C36_closed_stays",
    "C36_what_closes",
    "C36_every_request_ends",
    "C36_no_answer_after_end",
    "C36_publications",
    "C36_subscribing",
    "C36_no_grace_refuted"
   ],
   "note": "C36_no_grace_refuted: between closing and the moment the workers notice, calls can still succeed, so that interval cannot be left out of the claim."
  },
  {
   "property": "C37",
   "status": "proved",
   "theorems": [
    "C37_at_most_one",
    "C37_exclusive_iff",
    "C37_legacy_replaces",
    "C37_replaced_drains"
   ],
   "note": ""
  },
  {
   "property": "C38",
   "status": "proved",
   "theorems": [
    "C38_bounded_fifo",
    "C38_in_order",
    "C38_typed"
   ],
   "note": ""
  },
  {
   "property": "C39",
   "status": "proved",
   "theorems": [
    "C39_reader",
    "C39_accounting",
    "C39_no_loss_within_depth"
   ],
   "note": ""
  },
  {
   "property": "C40",
   "status": "partial",
   "theorems": [
    "C40_refuted",
    "C40_exclusive_partial",
    "C40_broadcast_partial",
    "C40_other_keys_partial",
    "C40_removed_iff_partial",
    "C40_receiving_iff_partial"
   ],
   "note": "False: the clean-up removes every exclusive subscription whose key agrees with the frame at the wire key length (C40_refuted). Proved: no effect on subscriptions whose keys do not agree. Exactly when: a subscription is removed iff its key agrees with the frame at wire length and the first entry that does so was dropped (C40_removed_iff_partial)."
  },
  {
   "property": "C41",
   "status": "proved",
   "theorems": [
    "C41_offered_to_requests_iff",
    "C41_reaches_both",
    "C41_requests_get_the_rest"
   ],
   "note": ""
  },
  {
   "property": "C42",
   "status": "proved",
   "theorems": [
    "C42_schema_stream",
    "C42_advertised_is_declared"
   ],
   "note": ""
  },
  {
   "property": "C43",
   "status": "proved",
   "theorems": [
    "C43_report",
    "C43_missing_type",
    "C43_device_to_host",
    "C43_declared_types",
    "C43_two_calls_fail"
   ],
   "note": ""
  },
  {
   "property": "C44",
   "status": "partial",
   "theorems": [
    "C44_rows_partial",
    "C44_payload_types_partial",
    "C44_lost_type_refuted",
    "C44_two_calls_refuted"
   ],
   "note": "False in two ways: lost nested types are not noticed because types_sent is not compared (C44_lost_type_refuted), and two reports at the same time mix (C44_two_calls_refuted). Proved: no row and no payload type can be lost unnoticed."
  },
  {
   "property": "C45",
   "status": "partial",
   "theorems": [
    "C45_overflow_panics_refuted",
    "C45_narrow_length_refuted",
    "C45_exact_partial",
    "C45_small_logs_partial",
    "C45_str_partial"
   ],
   "note": "False: send_log_fmt panics instead of truncating, and also for texts that fit when the length field is too narrow (two refutations). C45_exact_partial says exactly when it panics, transmits or refuses."
  },
  {
   "property": "C46",
   "status": "proved",
   "theorems": [
    "C46_formatted",
    "C46_fitting_text_arrives",
    "C46_str"
   ],
   "note": ""
  },
  {
   "property": "C47",
   "status": "proved",
   "theorems": [
    "C47_consecutive",
    "C47_one_result_per_call",
    "C47_channel"
   ],
   "note": ""
  },
  {
   "property": "C48",
   "status": "proved",
   "theorems": [
    "C48_in_flight",
    "C48_recovers",
    "C48_gives_up",
    "C48_other_errors",
    "C48_halt_failure",
    "C48_error_only_if",
    "C48_connection_survives"
   ],
   "note": ""
  },
  {
   "property": "C49",
   "status": "proved",
   "theorems": [
    "C49_at_most_one_run",
    "C49_reply_is_the_answer"
   ],
   "note": ""
  },
  {
   "property": "C50",
   "status": "partial",
   "theorems": [
    "C50_requests_can_be_issued_partial",
    "C50_error_never_a_reply_partial",
    "C50_error_taken_for_reply_refuted"
   ],
   "note": "False: the error key takes no part in the key length computation (C50_error_taken_for_reply_refuted). Proved for all devices on which the error key differs from the other outgoing keys at the computed length."
  },
  {
   "property": "C51",
   "status": "partial",
   "theorems": [
    "C51_error_is_about_this_request_partial",
    "C51_error_of_a_publication_refuted"
   ],
   "note": "False: the error answering a publication carries the publication's sequence number, which can be that of a pending request (C51_error_of_a_publication_refuted). Proved when every publication goes to a handled topic."
  },
  {
   "property": "C52",
   "status": "proved",
   "theorems": [
    "C52_timeout",
    "C52_counts_packets"
   ],
   "note": ""
  },
  {
   "property": "C53",
   "status": "proved",
   "theorems": [
    "C53_lossless_in_order",
    "C53_bounded",
    "C53_closed",
    "C53_send"
   ],
   "note": ""
  },
  {
   "property": "C54",
   "status": "proved",
   "theorems": [
    "C54_up_to_1024",
    "C54_longer_is_split"
   ],
   "note": ""
  },
  {
   "property": "C55",
   "status": "partial",
   "theorems": [
    "C55_recovery_loses_refuted",
    "C55_no_errors_lossless_partial",
    "C55_subsequence_partial",
    "C55_lost_iff_partial"
   ],
   "note": "False: data completing during stall recovery is dropped (C55_recovery_loses_refuted). Proved: lossless without errors; with errors a subsequence in order. Exactly when: the lost data is the three completions that follow each recovered error (C55_lost_iff_partial)."
  },
  {
   "property": "C56",
   "status": "partial",
   "theorems": [
    "C56_end_of_file_spins_refuted",
    "C56_read_error_partial"
   ],
   "note": "False at end of file: the receiver spins (C56_end_of_file_spins_refuted). Proved for read errors."
  },
  {
   "property": "C57",
   "status": "proved",
   "theorems": [
    "C57_send_exact"
   ],
   "note": ""
  },
  {
   "property": "C58",
   "status": "partial",
   "theorems": [
    "C58_refuted",
    "C58_opener_partial",
    "C58_exactly_partial"
   ],
   "note": "False: a later subscriber shares the channel the first one made, with its depth (C58_refuted). Proved for the subscriber that opened the channel; C58_exactly_partial: messages are missed exactly when the backlog exceeds the next power of two of the opener's depth."
  },
  {
   "property": "C59",
   "status": "proved",
   "theorems": [
    "C59_in_order_once"
   ],
   "note": ""
  },
  {
   "property": "C60",
   "status": "partial",
   "theorems": [
    "C60_describable_partial",
    "C60_fails_iff_partial",
    "C60_usize_refuted"
   ],
   "note": "False: usize and isize are not collected by the macros and not known to the host (C60_usize_refuted). Proved for all devices whose payloads have no such top-level type; C60_fails_iff_partial: otherwise every report fails."
  },
  {
   "property": "C61",
   "status": "partial",
   "theorems": [
    "C61_joined_partial",
    "C61_lossless_partial",
    "C61_lossless_refuted"
   ],
   "note": "False: a frame whose length is a multiple of 64 is not terminated and is joined with the next (C61_lossless_refuted). C61_joined_partial says exactly what the device receives; proved lossless for all other lengths."
  },
  {
   "property": "C62",
   "status": "proved",
   "theorems": [
    "C62_up_to_max",
    "C62_longer"
   ],
   "note": ""
  },
  {
   "property": "C63",
   "status": "proved",
   "theorems": [
    "C63_round_trip",
    "C63_injective",
    "C63_well_formed",
    "C63_varints_exact",
    "C63_lengths_exact"
   ],
   "note": ""
  },
  {
   "property": "C64",
   "status": "proved",
   "theorems": [
    "C64_cut",
    "C64_prefix_free",
    "C64_standard_cut"
   ],
   "note": ""
  },
  {
   "property": "C65",
   "status": "proved",
   "theorems": [
    "C65_standard_round_trip"
   ],
   "note": ""
  },
  {
   "property": "C66",
   "status": "partial",
   "theorems": [
    "C66_value_is_computed",
    "C66_reply_decodes",
    "C66_error_is_the_refusal_partial",
    "C66_value_error_or_closed_partial",
    "C66_never_bad_response_partial"
   ],
   "note": "The clauses about values and about decoding of replies are proved for all devices on which the error key differs from the response keys at the key length in use. The clauses about wire errors need in addition the side conditions of C51 (every publication goes to a handled topic), without which they are false, see C51_error_of_a_publication_refuted."
  },
  {
   "property": "C67",
   "status": "proved",
   "theorems": [
    "C67_every_run_was_called"
   ],
   "note": ""
  },
  {
   "property": "C68",
   "status": "proved",
   "theorems": [
    "C68_given_was_sent",
    "C68_given_multi_was_sent"
   ],
   "note": ""
  },
  {
   "property": "C69",
   "status": "partial",
   "theorems": [
    "C69_given_was_published_partial",
    "C69_given_multi_was_published_partial",
    "C69_typed_subscription_partial",
    "C69_typed_multi_subscription_partial",
    "C69_error_given_to_subscriber_refuted"
   ],
   "note": "Proved for all devices on which the error key differs from the key of the topic at the key length in use; without that it is false, see C69_error_given_to_subscriber_refuted."
  },
  {
   "property": "C70",
   "status": "partial",
   "theorems": [
    "C70_own_steps_end",
    "C70_keeps_serving",
    "C70_waits_because_lost_partial",
    "C70_every_call_returns_partial",
    "C70_every_call_is_answered_partial",
    "C70_error_given_to_a_subscription_refuted"
   ],
   "note": "Proved for all histories in which no subscription is for a key that looks like the error key (or a response key) at the key length in use; without that a refused call never returns, see C70_error_given_to_a_subscription_refuted."
  },
  {
   "property": "C71",
   "status": "partial",
   "theorems": [
    "C71_usb_is_a_link",
    "C71_usb_is_a_lossless_link",
    "C71_reply_is_the_answer",
    "C71_handlers_run_in_call_order",
    "C71_given_in_order",
    "C71_given_multi_in_order",
    "C71_value_is_computed",
    "C71_whole_answer_refuted",
    "C71_error_amid_message_refuted"
   ],
   "note": "False when an IN transfer fails amid a message: the rest of the message is taken for a message (C71_error_amid_message_refuted), and a message whose sending was interrupted is delivered as if complete (C71_whole_answer_refuted). Proved for all histories in which IN transfers fail between messages only; there a reply is the answer or a beginning of it, the whole answer if no message was interrupted."
  },
  {
   "property": "C72",
   "status": "partial",
   "theorems": [
    "C72_own_steps_end",
    "C72_waits_because_partial",
    "C72_every_call_returns_partial",
    "C72_every_call_is_answered_partial",
    "C72_too_long_refuted"
   ],
   "note": "False for requests that do not fit the receive buffer of the device, which are dropped without an error message (C72_too_long_refuted). Proved, request by request, that this and an answer not sent completely are the only reasons for waiting, under the side condition of C70 about subscriptions."
  },
  {
   "property": "C73",
   "status": "partial",
   "theorems": [
    "C73_dispatcher",
    "C73_as_if_at_once",
    "C73_own_steps_end",
    "C73_reply_is_the_answer",
    "C73_every_run_was_called",
    "C73_given_was_sent",
    "C73_given_multi_was_sent",
    "C73_waits_because_lost_partial",
    "C73_every_call_returns_partial",
    "C73_every_call_is_answered_partial",
    "C73_value_is_computed"
   ],
   "note": "Proved without restriction: equivalence with dispatching at once, replies are the answers to their own requests, runs, flow, typed values, coming to rest. That every call returns is proved under the side condition of C70 about subscriptions."
  },
  {
   "property": "C74",
   "status": "partial",
   "theorems": [
    "C74_like_a_new_device",
    "C74_reply_is_the_answer",
    "C74_every_run_was_called",
    "C74_given_was_sent",
    "C74_given_multi_was_sent",
    "C74_waits_because_lost_partial",
    "C74_every_call_returns_partial",
    "C74_no_answer_crosses_sessions",
    "C74_value_is_computed",
    "C74_stale_answer_refuted",
    "C74_stale_task_refuted",
    "C74_stale_frame_refuted",
    "C74_stale_request_refuted"
   ],
   "note": "False in general: an answer of the last connection, still being worked out (C74_stale_answer_refuted, C74_stale_task_refuted) or on its way (C74_stale_frame_refuted, C74_stale_request_refuted), is taken for the answer to a request of the new client. Proved for every settled device, for which it meets the behaviour of a new one; for devices without spawned endpoint handlers an idle server and an empty link suffice, for any number of clients. That calls return has the side condition of C70."
  },
  {
   "property": "C75",
   "status": "proved",
   "theorems": [
    "C75_nothing_missed",
    "C75_multi_nothing_missed",
    "C75_all_received",
    "C75_multi_all_received",
    "C75_impatient_misses",
    "C75_behind_misses"
   ],
   "note": "C75_impatient_misses and C75_behind_misses show that the conditions on the user cannot be dropped."
  },
  {
   "property": "C76",
   "status": "partial",
   "theorems": [
    "C76_report_is_of_the_device",
    "C76_discovery_succeeds",
    "C76_two_at_once_refuted"
   ],
   "note": "Proved for one discovery at a time; C76_two_at_once_refuted: two at once through one client both fail although nothing is lost."
  },
  {
   "property": "C77",
   "status": "proved",
   "theorems": [
    "C77_threads",
    "C77_all_said",
    "C77_tasks_are_heard",
    "C77_tasks_are_heard_multi"
   ],
   "note": ""
  },
  {
   "property": "C78",
   "status": "partial",
   "theorems": [
    "C78_bounded",
    "C78_as_over_a_link",
    "C78_told_last",
    "C78_own_steps_end",
    "C78_no_deadlock",
    "C78_stop",
    "C78_closed",
    "C78_reply_is_the_answer",
    "C78_every_run_was_called",
    "C78_given_was_sent",
    "C78_given_multi_was_sent",
    "C78_every_call_returns_partial",
    "C78_every_call_is_answered_partial",
    "C78_nothing_missed",
    "C78_multi_nothing_missed",
    "C78_stopped_call_waits_refuted"
   ],
   "note": "Proved: no deadlock, coming to rest, stopping, closing, dropping, and all of safety. That every call returns is proved for a server that was not stopped, under the side condition of C70 about subscriptions, and except for frames longer than the receive buffer; while a stopped server is kept a call waits for ever (C78_stopped_call_waits_refuted)."
  },
  {
   "property": "C79",
   "status": "proved",
   "theorems": [
    "C79_accounted",
    "C79_every_call_is_accepted",
    "C79_every_call_is_handled",
    "C79_channels",
    "C79_usb"
   ],
   "note": "C79_full_executor_ex: without room in the executor a call that arrived is refused, so that condition cannot be dropped."
  },
  {
   "property": "C80",
   "status": "partial",
   "theorems": [
    "C80_open_while_held",
    "C80_nobody_is_refused",
    "C80_futures_hold",
    "C80_can_be_dropped",
    "C80_everything_accepted",
    "C80_wait_closed",
    "C80_ends",
    "C80_own_steps_end",
    "C80_server_returns",
    "C80_nothing_left_behind",
    "C80_fire_and_forget",
    "C80_dropping_loses_calls_refuted"
   ],
   "note": "Proved: everything accepted is sent, the client and the server end, nothing is left behind when run ended for lack of senders, and for a client that only publishes. False with requests whose callers gave up (C80_dropping_loses_calls_refuted)."
  },
  {
   "property": "C81",
   "status": "partial",
   "theorems": [
    "C81_first_device",
    "C81_endpoints",
    "C81_full_packets_noticed",
    "C81_interface_partial",
    "C81_vendor_interface_partial",
    "C81_finds",
    "C81_embassy",
    "C81_webusb_device",
    "C81_wrong_interface_refuted",
    "C81_inactive_endpoint_refuted"
   ],
   "note": "Proved, with the condition that the operating system lists interfaces under their numbers for the choice of the interface; false without it (C81_wrong_interface_refuted) and with several alternate settings (C81_inactive_endpoint_refuted)."
  },
  {
   "property": "C82",
   "status": "proved",
   "theorems": [
    "C82_server_receives",
    "C82_everything_received",
    "C82_full_keys",
    "C82_client_receives",
    "C82_failure_ends",
    "C82_own_steps_end",
    "C82_at_most_one_more",
    "C82_reply_returned",
    "C82_one_more_possible"
   ],
   "note": ""
  },
  {
   "property": "C83",
   "status": "proved",
   "theorems": [
    "C83_samples_numbered",
    "C83_samples_are_readings",
    "C83_stop_is_effective",
    "C83_stop_ends",
    "C83_never_stuck",
    "C83_refused_iff"
   ],
   "note": ""
  },
  {
   "property": "C84",
   "status": "partial",
   "theorems": [
    "C84_ends_iff",
    "C84_streams_partial",
    "C84_silent_start_refuted",
    "C84_range_refuted",
    "C84_restart_refuted"
   ],
   "note": "False: C84_silent_start_refuted, C84_range_refuted, C84_restart_refuted. C84_ends_iff says exactly when a stream ends; proved to stream until stopped as long as no reply to a start has failed."
  },
  {
   "property": "C85",
   "status": "proved",
   "theorems": [
    "C85_lights"
   ],
   "note": ""
  },
  {
   "property": "C86",
   "status": "partial",
   "theorems": [
    "C86_who_handles",
    "C86_as_with_std_partial",
    "C86_reply_is_the_answer_partial",
    "C86_ping_is_echoed_partial",
    "C86_never_answered_refuted",
    "C86_wrong_answer_refuted"
   ],
   "note": "False in general: C86_never_answered_refuted, C86_wrong_answer_refuted. C86_who_handles says who handles a request, for all tables. Proved, for all devices on which the standard keys stand apart at the key length in use, that every hypothesis of the theorems about whole systems (C49-C51, C66-C80) holds with the standard endpoints included, and so that replies are the answers of the endpoint called and a ping is echoed."
  },
  {
   "property": "C87",
   "status": "proved",
   "theorems": [
    "C87_nothing_missed",
    "C87_multi_nothing_missed",
    "C87_tasks_are_heard",
    "C87_report_is_of_the_device",
    "C87_discovery_succeeds"
   ],
   "note": ""
  },
  {
   "property": "C88",
   "status": "partial",
   "theorems": [
    "C88_log_frames",
    "C88_only_publisher",
    "C88_host_prints_the_log",
    "C88_numbers_without_gaps",
    "C88_every_logger_is_heard",
    "C88_example_logs_go_out",
    "C88_example_texts",
    "C88_prints_while_connected_refuted"
   ],
   "note": "The general claim that the host program prints as long as the device is connected is false: C88_prints_while_connected_refuted (it falls behind by 65 messages). Everything else is proved, for subscribers that are never told of missed messages or that keep up."
  },
  {
   "property": "C89",
   "status": "partial",
   "theorems": [
    "C89_own_steps_end",
    "C89_as_over_nusb_partial",
    "C89_at_rest_as_over_nusb_partial",
    "C89_reply_is_the_answer_partial",
    "C89_handlers_run_in_call_order_partial",
    "C89_given_in_order_partial",
    "C89_every_call_returns_partial",
    "C89_every_call_is_answered_partial",
    "C89_waits_because_partial",
    "C89_whole_packets_refuted",
    "C89_babble_refuted"
   ],
   "note": "False for frames of whole packets (C89_whole_packets_refuted) and for messages longer than an IN transfer (C89_babble_refuted). Proved for all other lengths: whatever happens over WebUSB could have happened over nusb, so that C71 and C72 apply; that calls return has the side condition of C70. C89_own_steps_end has no such conditions."
  },
  {
   "property": "C90",
   "status": "partial",
   "theorems": [
    "C90_one_object",
    "C90_over_usb_partial",
    "C90_over_webusb_partial",
    "C90_values",
    "C90_replies_decode"
   ],
   "note": "C90_one_object is the whole claim, for any link. Over USB it needs that no transfer fails amid a message (false otherwise: C71_error_amid_message_refuted), over WebUSB the lengths of C89 (false otherwise: C89_whole_packets_refuted)."
  },
  {
   "property": "C91",
   "status": "partial",
   "theorems": [
    "C91_over_usb_partial",
    "C91_step_by_step_partial",
    "C91_over_webusb_partial"
   ],
   "note": "Proved over USB if no transfer fails amid a message (false otherwise: C71_error_amid_message_refuted) and the standard keys stand apart from those of the workbook at the key length in use (not checked by the library: C86_wrong_answer_refuted), and over WebUSB for the lengths of C89."
  },
  {
   "property": "C92",
   "status": "partial",
   "theorems": [
    "C92_cause_before_effect",
    "C92_over_usb_partial",
    "C92_over_webusb_partial",
    "C92_out_of_order_refuted"
   ],
   "note": "Proved for every link that keeps the order of messages to the host (false otherwise: C92_out_of_order_refuted); over USB if no transfer fails amid a message, and over WebUSB for the lengths of C89."
  },
  {
   "property": "C93",
   "status": "partial",
   "theorems": [
    "C93_over_usb_partial",
    "C93_over_webusb_partial",
    "C93_stop_before_start_returns_refuted"
   ],
   "note": "Proved if the starts had returned when the stop was called (false otherwise: C93_stop_before_start_returns_refuted); over USB if no transfer fails amid a message, over WebUSB for the lengths of C89; the statement is about histories without later starts, and holds at every moment before one since every beginning of a history is a history."
  },
  {
   "property": "C94",
   "status": "partial",
   "theorems": [
    "C94_completes_iff",
    "C94_a_third_suffices",
    "C94_a_half_suffices_partial",
    "C94_keeping_pace_suffices_partial",
    "C94_keeping_pace_suffices_refuted",
    "C94_recovers_from_a_delay_refuted"
   ],
   "note": "The general claim is false: C94_keeping_pace_suffices_refuted (empty packets are not paid for) and C94_recovers_from_a_delay_refuted (one delay can make all later sends of 64 bytes time out). C94_completes_iff says exactly when a send completes, in a model in which time passes only in the writes to the endpoint."
  },
  {
   "property": "C95",
   "status": "partial",
   "theorems": [
    "C95_device_finds_its_footing",
    "C95_no_request_is_made_up_refuted",
    "C95_host_finds_its_footing",
    "C95_no_answer_is_made_up_refuted",
    "C95_first_call_returns_refuted",
    "C95_clean_restart_partial",
    "C95_reply_after_restart_partial",
    "C95_answered_after_restart_partial",
    "C95_old_answer_refuted",
    "C95_waiting_answer_refuted"
   ],
   "note": "The general claim, that the earlier program leaves no trace, is false: C95_no_request_is_made_up_refuted, C95_no_answer_is_made_up_refuted, C95_first_call_returns_refuted, and C95_old_answer_refuted and C95_waiting_answer_refuted (a call returns the answer to the earlier program's call of the same number). Proved: at most the first frame in each direction is affected, for device buffers that are a multiple of 64 and messages of up to 1024 bytes (for others see C23 and C54), if nothing resets the endpoints between the two programs (the library does not); and if the earlier program ended with nothing under way and no task owes it an answer, everything goes on as with a new device (C95_clean_restart_partial), so that replies are the answers of this session and every call is answered."
  },
  {
   "property": "C96",
   "status": "partial",
   "theorems": [
    "C96_lights_show_partial",
    "C96_too_soon_is_lost",
    "C96_pulses",
    "C96_lights_show_refuted"
   ],
   "note": "The general claim is false: C96_lights_show_refuted, and C96_too_soon_is_lost for all colours. C96_lights_show_partial proves it for pauses that are long enough; the two conditions are 8 cycles (1 us) apart. In a model of the hardware from its documentation, in which taking a word and the DMA transfer take no time."
  },
  {
   "property": "C97",
   "status": "partial",
   "theorems": [
    "C97_words",
    "C97_typed_is_called",
    "C97_calls_are_in_range",
    "C97_session_partial",
    "C97_goes_on_partial",
    "C97_dies_of_bad_colours",
    "C97_samples_shown",
    "C97_listens_as_long",
    "C97_goes_on_refuted",
    "C97_listening_stops_refuted",
    "C97_ends_with_input_refuted",
    "C97_one_at_a_time",
    "C97_typed_colours_partial"
   ],
   "note": "That the program goes on whatever is typed, that listening always stops the accelerometer and that the program ends with its input are false: C97_goes_on_refuted, C97_listening_stops_refuted, C97_ends_with_input_refuted. Proved: what each line calls (exactly), whole sessions that come back to the prompt, and that the program goes on if no colour is typed that is none and nothing goes wrong; and, in the circumstances of C91 and without the command that asks for the schemas, which colours the lights have. The parsing of white space and numbers is modelled after the documentation of the Rust standard library."
  },
  {
   "property": "C98",
   "status": "proved",
   "theorems": [
    "C98_timer_starts_with_the_turn",
    "C98_one_at_a_time",
    "C98_host_sees_the_turns",
    "C98_own_steps_end",
    "C98_everybody_is_served",
    "C98_never_held_for_good",
    "C98_each_asked_once",
    "C98_keeping_pace_suffices"
   ],
   "note": ""
  },
  {
   "property": "C99",
   "status": "partial",
   "theorems": [
    "C99_prints_as_documented_partial",
    "C99_goes_on",
    "C99_ends",
    "C99_unplugged_refuted"
   ],
   "note": "That the program says that the client is closed when the connection is lost is false: the pending call fails at the same time, and if that branch of select! is polled first the program panics (C99_unplugged_refuted). Proved, in the circumstances of C91 (firmware of comms-02.rs, no errors amid a message, keys that stand apart): what is printed is always as documented, the assertion never fails, and the only panic is that of a call that failed to communicate. The program is told at most twenty things and waits only for the ticker or for a call that has not returned; that every call returns is not proved, for the cable need not deliver."
  }
 ]
}