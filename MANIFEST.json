{
 "claims": [
  {
   "property": "C01",
   "status": "proved",
   "theorems": [
    "C01_header_round_trip",
    "C01_header_injective",
    "C01_header_surjective"
   ],
   "note": ""
  },
  {
   "property": "C02",
   "status": "proved",
   "theorems": [
    "C02_control_frames_round_trip"
   ],
   "note": ""
  },
  {
   "property": "C03",
   "status": "proved",
   "theorems": [
    "C03_payload_round_trip",
    "C03_payload_round_trip_unbounded_refuted"
   ],
   "note": "Exact boundary: iff metadata < 2^24 bytes; the unbounded claim is refuted."
  },
  {
   "property": "C04",
   "status": "proved",
   "theorems": [
    "C04_request_round_trip",
    "C04_follows_mark_lost",
    "C04_request_follows_refuted"
   ],
   "note": "Exact characterisation; the claim for frames carrying the follows mark is refuted."
  },
  {
   "property": "C05",
   "status": "proved",
   "theorems": [
    "C05_encode_fills_announced_size"
   ],
   "note": ""
  },
  {
   "property": "C06",
   "status": "proved",
   "theorems": [
    "C06_payload_fragment"
   ],
   "note": ""
  },
  {
   "property": "C07",
   "status": "proved",
   "theorems": [
    "C07_split_terminates_iff"
   ],
   "note": ""
  },
  {
   "property": "C08",
   "status": "proved",
   "theorems": [
    "C08_request_fragment",
    "C08_request_small_not_split",
    "C08_request_fragment_metadata_refuted"
   ],
   "note": "Exact characterisation; the claim for metadata that fits the first frame is refuted."
  },
  {
   "property": "C09",
   "status": "proved",
   "theorems": [
    "C09_u24"
   ],
   "note": ""
  },
  {
   "property": "C10",
   "status": "proved",
   "theorems": [
    "C10_ids_follow_numbering",
    "C10_ids_unique",
    "C10_ids_unique_in_every_window",
    "C10_sides_disjoint",
    "C10_zero_iff",
    "C10_first_loop_mark",
    "C10_nonzero_in_first_loop_refuted",
    "C10_next_total"
   ],
   "note": "Numbering, uniqueness and parity for the first 2^63 calls; 'never 0 in the first loop' refuted for call 2^30 of a server."
  },
  {
   "property": "C11",
   "status": "proved",
   "theorems": [
    "C11_fifo_no_loss_no_panic",
    "C11_dispose_rejects",
    "C11_closed_means_drained",
    "C11_consumer_progress",
    "C11_lock_released"
   ],
   "note": ""
  },
  {
   "property": "C12",
   "status": "proved",
   "theorems": [
    "C12_map_iff",
    "C12_oldest_found_forever",
    "C12_every_history",
    "C12_map_refuted"
   ],
   "note": "Exact characterisation of the histories on which the registry is a map; the unguarded claim is refuted."
  },
  {
   "property": "C13",
   "status": "proved",
   "theorems": [
    "C13_round_trip_iff",
    "C13_long_names",
    "C13_bytes",
    "C13_injective",
    "C13_reserved_skipped"
   ],
   "note": ""
  },
  {
   "property": "C14",
   "status": "proved",
   "theorems": [
    "C14_returns_only_what_is_there",
    "C14_error_iff",
    "C14_no_panic_refuted",
    "C14_reserved_skipped_refuted"
   ],
   "note": "Exact iff for results and errors; absence of panics and skipping of 65534-byte reserved fields refuted."
  },
  {
   "property": "C15",
   "status": "proved",
   "theorems": [
    "C15_round_trip_iff",
    "C15_contents_survive",
    "C15_marks_never_differ",
    "C15_decode_panics_iff"
   ],
   "note": "Exact iff; the two marks share one bit."
  },
  {
   "property": "C16",
   "status": "proved",
   "theorems": [
    "C16_scalar_round_trip",
    "C16_sequence_round_trip"
   ],
   "note": ""
  },
  {
   "property": "C17",
   "status": "proved",
   "theorems": [
    "C17_shortest_signed",
    "C17_shortest_unsigned",
    "C17_width_independent",
    "C17_signedness_iff",
    "C17_uint_reads_int",
    "C17_int_reads_uint_iff",
    "C17_refuted"
   ],
   "note": "Exact iff for the dependence on signedness; the claim across signedness is refuted (200)."
  },
  {
   "property": "C18",
   "status": "proved",
   "theorems": [
    "C18_size",
    "C18_buffer",
    "C18_exact_iff",
    "C18_refuted"
   ],
   "note": "Exact formula; the two exceptions refute the unconditional claim."
  },
  {
   "property": "C19",
   "status": "proved",
   "theorems": [
    "C19_int_readers",
    "C19_uint_readers",
    "C19_total"
   ],
   "note": ""
  },
  {
   "property": "C20",
   "status": "proved",
   "theorems": [
    "C20_no_panic",
    "C20_sticky",
    "C20_panic_iff",
    "C20_read_any_ends",
    "C20_refuted"
   ],
   "note": "Conditional on tame inputs; exact iff for the panicking bounds check; three hostile inputs refute the unconditional claim."
  },
  {
   "property": "C21",
   "status": "proved",
   "theorems": [
    "C21_skips_one_value",
    "C21_skips_written",
    "C21_long_times_fail",
    "C21_refuted"
   ],
   "note": "All values without the extension forms Skip does not know; those are refuted."
  },
  {
   "property": "C22",
   "status": "proved",
   "theorems": [
    "C22_any_round_trip",
    "C22_any_to_bytes",
    "C22_any_formats",
    "C22_refuted"
   ],
   "note": "All clean values; nil and time refuted."
  },
  {
   "property": "C23",
   "status": "proved",
   "theorems": [
    "C23_time_round_trip",
    "C23_data_length"
   ],
   "note": ""
  },
  {
   "property": "C24",
   "status": "proved",
   "theorems": [
    "C24_any_order_unknown_skipped",
    "C24_field_values"
   ],
   "note": ""
  },
  {
   "property": "C25",
   "status": "proved",
   "theorems": [
    "C25_scalar_round_trip",
    "C25_scalar_injective",
    "C25_time",
    "C25_record_round_trip",
    "C25_slice_round_trip",
    "C25_slice_errors_refuted"
   ],
   "note": "Times relative to time.Format/time.Parse; SliceDecode swallowing errors is refuted as an error-reporting claim."
  },
  {
   "property": "C26",
   "status": "proved",
   "theorems": [
    "C26_one_outcome",
    "C26_get",
    "C26_notify",
    "C26_notify_after",
    "C26_notify_signal_refuted",
    "C26_notify_twice_refuted",
    "C26_two_threads_refuted",
    "C26_mapped",
    "C26_mapped_signal_refuted"
   ],
   "note": "Exact for one thread; two threads, two subscriptions and late registrations are refuted."
  },
  {
   "property": "C27",
   "status": "proved",
   "theorems": [
    "C27_processor",
    "C27_late_subscriber_refuted"
   ],
   "note": "Exact for every history; a late subscriber is refuted."
  },
  {
   "property": "C28",
   "status": "proved",
   "theorems": [
    "C28_deliveries",
    "C28_well_formed",
    "C28_two_threads_refuted",
    "C28_mapped",
    "C28_mapped_well_formed_iff",
    "C28_mapped_refuted"
   ],
   "note": "Exact for one thread and synchronous requests; exact iff for mapped fluxes; races and failing transforms refuted."
  },
  {
   "property": "C29",
   "status": "proved",
   "theorems": [
    "C29_finally",
    "C29_once_iff",
    "C29_cancel_after_complete_refuted",
    "C29_close_refuted",
    "C29_mapped",
    "C29_mapped_refuted",
    "C29_block",
    "C29_notify",
    "C29_notify_cancel_refuted"
   ],
   "note": "Exact iff; Cancel after completion, Close and failing transforms refuted."
  },
  {
   "property": "C30",
   "status": "proved",
   "theorems": [
    "C30_demand",
    "C30_settled",
    "C30_delivered",
    "C30_response_nested_refuted",
    "C30_response_negative"
   ],
   "note": "FromSlice with any subscriber; SliceResponse with requests one after the other, nested requests refuted."
  },
  {
   "property": "C31",
   "status": "proved",
   "theorems": [
    "C31_order",
    "C31_waited",
    "C31_stops",
    "C31_progress",
    "C31_no_panic",
    "C31_empty_group",
    "C31_rerun_refuted",
    "C31_skip_refuted",
    "C31_panic_refuted",
    "C31_late_end_refuted"
   ],
   "note": "Under the condition that no group is complete before its registration loop ends; without it order, once-only and absence of panics are refuted, as is stopping at once on End."
  },
  {
   "property": "C32",
   "status": "proved",
   "theorems": [
    "C32_stable",
    "C32_unambiguous",
    "C32_position",
    "C32_fresh",
    "C32_published"
   ],
   "note": ""
  },
  {
   "property": "C33",
   "status": "proved",
   "theorems": [
    "C33_lookup",
    "C33_published",
    "C33_unpublished",
    "C33_delivered"
   ],
   "note": ""
  },
  {
   "property": "C34",
   "status": "proved",
   "theorems": [
    "C34_resolves",
    "C34_removed",
    "C34_unissued",
    "C34_exact",
    "C34_remove_returns",
    "C34_stale_handles_refuted",
    "C34_zero_size_refuted",
    "C34_narrow_pointers_refuted"
   ],
   "note": "Proved for a fair allocator; stronger claims (stale handles, zero-size types, 32-bit pointers) refuted."
  },
  {
   "property": "C35",
   "status": "proved",
   "theorems": [
    "C35_guest",
    "C35_host",
    "C35_host_batch",
    "C35_host_batch_refuted",
    "C35_host_too_big_refuted"
   ],
   "note": "Proved for guests and for single frames towards the host. For batches towards the host (which guests do not send) the exact wrong result is proved, and refuted theorems give witnesses, also for frames beyond the 16 KiB buffer."
  },
  {
   "property": "C36",
   "status": "proved",
   "theorems": [
    "C36_delivers",
    "C36_too_big",
    "C36_close",
    "C36_closed"
   ],
   "note": "For buffers below 2^24 bytes (the code uses 16 KiB); every schedule of arrivals and idle moments."
  },
  {
   "property": "C37",
   "status": "proved",
   "theorems": [
    "C37_stream",
    "C37_stream_total",
    "C37_stream_unique",
    "C37_stall",
    "C37_frames",
    "C37_early_error",
    "C37_early_error_refuted",
    "C37_end_to_end",
    "C37_writes",
    "C37_oversize",
    "C37_concurrent_refuted"
   ],
   "note": "Any bytes and any chunking: what is read is a function of the bytes alone, also for malformed input; bufio.Scanner and bufio.Writer are modelled in detail. Refuted theorems: frames arriving together with the end of the connection, concurrent senders."
  },
  {
   "property": "C38",
   "status": "proved",
   "theorems": [
    "C38_at_once",
    "C38_small",
    "C38_refuted"
   ],
   "note": "Refuted in general with a witness; proved for frames handled before the next read and for connections of at most 4096 bytes in all."
  },
  {
   "property": "C39",
   "status": "proved",
   "theorems": [
    "C39_peer",
    "C39_refusals",
    "C39_wire",
    "C39_answered_iff",
    "C39_fragmented_refuted",
    "C39_own_requests",
    "C39_context"
   ],
   "note": "Requests marked as first fragment are never answered (exact condition proved, witness given); requests written by the library are never marked."
  },
  {
   "property": "C40",
   "status": "proved",
   "theorems": [
    "C40_demand",
    "C40_demand_only",
    "C40_answer",
    "C40_well_formed",
    "C40_serial",
    "C40_serial_answer",
    "C40_two_threads_refuted",
    "C40_input",
    "C40_slice_credit",
    "C40_credit_refuted",
    "C40_mapped_refuted",
    "C40_early_refuted",
    "C40_cancel_channel_refuted",
    "C40_cancel_stream_refuted"
   ],
   "note": "Exact answer with one thread; exact answer with serial sources on any threads; credit proved for slice sources, refuted for others; early RequestN and Cancel refuted with witnesses. The demand passed on is exact for user code that leaves subscribing and requesting to the responder (ResponderAsk*)."
  },
  {
   "property": "C41",
   "status": "proved",
   "theorems": [
    "C41_outcome",
    "C41_one_run",
    "C41_at_rest",
    "C41_no_panic",
    "C41_progress",
    "C41_all_answered",
    "C41_twice_refuted"
   ],
   "note": "All executions of two peers with any number of concurrent calls in both directions; double subscription refuted with a witness. Moves are atomic; the carriers of the frames are the subject of the batch and TCP properties."
  },
  {
   "property": "C42",
   "status": "proved",
   "theorems": [
    "C42_frames",
    "C42_requests",
    "C42_total",
    "C42_automatic",
    "C42_hosts",
    "C42_order_refuted",
    "C42_range_refuted",
    "C42_late_refuted"
   ],
   "note": "Exact frames for all schedules; order and range limits refuted with witnesses."
  },
  {
   "property": "C43",
   "status": "proved",
   "theorems": [
    "C43_linked",
    "C43_nothing_else",
    "C43_complete",
    "C43_any_order",
    "C43_order_with_two_exports_refuted",
    "C43_links_stay",
    "C43_requests",
    "C43_reload_refuted",
    "C43_same_kind_refuted",
    "C43_metadata",
    "C43_short_metadata"
   ],
   "note": "For tables in which imports of one kind have distinct indices below 2^32-1. The two refuted theorems record stale links after a reload and kinds not being compared."
  },
  {
   "property": "C44",
   "status": "proved",
   "theorems": [
    "C44_contents",
    "C44_accepts",
    "C44_rejects",
    "C44_no_panic",
    "C44_header",
    "C44_unique",
    "C44_empty_at_end",
    "C44_all_modules_refuted"
   ],
   "note": "leb128.DecodeUint32 of wabin is not in the repository and modelled after the WebAssembly specification. A well-formed module ending with an empty requested section is rejected (C44_all_modules_refuted)."
  },
  {
   "property": "C45",
   "status": "proved",
   "theorems": [
    "C45_parse_iff",
    "C45_errors",
    "C45_error_iff",
    "C45_string",
    "C45_urn",
    "C45_round_trip",
    "C45_string_injective",
    "C45_unmarshal_text",
    "C45_unmarshal_binary",
    "C45_braces_refuted",
    "C45_failed_parse_zero_refuted"
   ],
   "note": "Exact; that braces are checked and that a failed Parse returns the zero UUID are refuted."
  },
  {
   "property": "C46",
   "status": "proved",
   "theorems": [
    "C46_marks",
    "C46_free_bits",
    "C46_lossless",
    "C46_variants",
    "C46_disjoint",
    "C46_new_succeeds",
    "C46_cost"
   ],
   "note": ""
  },
  {
   "property": "C47",
   "status": "proved",
   "theorems": [
    "C47_window",
    "C47_longer_window_refuted",
    "C47_across_set_refuted",
    "C47_variant",
    "C47_reading_time",
    "C47_unix",
    "C47_fields"
   ],
   "note": "The window of 16384 is exact; longer windows and windows across SetClockSequence are refuted."
  },
  {
   "property": "C48",
   "status": "proved",
   "theorems": [
    "C48_last_set",
    "C48_top_index",
    "C48_every_index_refuted"
   ],
   "note": "Exact: index 2^32-1 panics."
  },
  {
   "property": "C49",
   "status": "proved",
   "theorems": [
    "C49_peer",
    "C49_wire",
    "C49_unknown"
   ],
   "note": "Handlers of one received frame; what the streams do with the calls is C26-C30 and C42."
  },
  {
   "property": "C50",
   "status": "proved",
   "theorems": [
    "C50_peer_iff",
    "C50_wire_iff",
    "C50_cancel_refuted"
   ],
   "note": "Exact conditions; the crash by Cancel has a witness."
  },
  {
   "property": "C51",
   "status": "proved",
   "theorems": [
    "C51_sizes",
    "C51_bytes",
    "C51_bool",
    "C51_float64",
    "C51_float32",
    "C51_refuted"
   ],
   "note": "Exact iff per reader. \"Only strings are read as strings\" is refuted (C51_refuted): array heads are accepted by ReadString."
  },
  {
   "property": "C52",
   "status": "proved",
   "theorems": [
    "C52_any",
    "C52_map_unique",
    "C52_keys"
   ],
   "note": "Exact for every encodable value, panics and errors included; C52_map_unique shows the map specification leaves only the order open."
  },
  {
   "property": "C53",
   "status": "proved",
   "theorems": [
    "C53_numeric",
    "C53_there_and_back",
    "C53_types",
    "C53_nillable_signed",
    "C53_nillable_unsigned",
    "C53_nillable_bool",
    "C53_nillable_string",
    "C53_parse",
    "C53_errors",
    "C53_required",
    "C53_time",
    "C53_format_parse",
    "C53_refuted"
   ],
   "note": "Exact iff. \"A nil field is read as nil\" and \"conversions never truncate\" are refuted (C53_refuted). Floating-point conversions are not modelled."
  },
  {
   "property": "C54",
   "status": "proved",
   "theorems": [
    "C54_stream",
    "C54_rest",
    "C54_handler",
    "C54_refused",
    "C54_credit",
    "C54_credit_refuted",
    "C54_early_refuted",
    "C54_cancel_refuted",
    "C54_request"
   ],
   "note": "All interleavings of one streaming call and frames of other streams, for handlers whose sink calls do not overlap (overlapping ones are refuted in C40). Refuted with witnesses: credit arriving early is lost or crashes the responder, a subscriber's Cancel crashes the responder."
  },
  {
   "property": "C55",
   "status": "proved",
   "theorems": [
    "C55_outcome",
    "C55_subscribe",
    "C55_finally_refuted",
    "C55_signal_refuted",
    "C55_notify",
    "C55_block",
    "C55_cancelled",
    "C55_cancelled_refuted",
    "C55_machine",
    "C55_flux_block",
    "C55_mapped_block",
    "C55_mapped_block_refuted",
    "C55_created_block",
    "C55_created_block_refuted"
   ],
   "note": "Refuted with witnesses: Finally does not run for Just and Error; a failed transform ends in SignalComplete; Get of a cancelled mapped mono returns the transformed zero value without an error; a failed transform of a flux followed by the source's end makes Block panic; Block as a method of a created flux panics on a flux nobody has subscribed to."
  },
  {
   "property": "C56",
   "status": "proved",
   "theorems": [
    "C56_down",
    "C56_up",
    "C56_rest",
    "C56_handler",
    "C56_refused",
    "C56_credit",
    "C56_safe",
    "C56_down_refuted",
    "C56_up_refuted",
    "C56_cancel_refuted",
    "C56_unasked_refuted",
    "C56_early_refuted",
    "C56_credit_refuted",
    "C56_input_credit_refuted",
    "C56_request"
   ],
   "note": "All interleavings of one channel call and frames of other streams. Refuted with witnesses: a handler that cancels its input ends the caller's response; a caller's Cancel ends the handler's input instead of cancelling its flux, and crashes the responder if the input is not subscribed yet; unasked items crash the responder; a RequestN received before the caller's flux is subscribed crashes the requester; the end of one direction makes later RequestN of the other direction get lost."
  },
  {
   "property": "C57",
   "status": "proved",
   "theorems": [
    "C57_time",
    "C57_unique",
    "C57_conforming",
    "C57_heads",
    "C57_refuted"
   ],
   "note": "Refuted with a witness: lengths of 16 and 32 bits are not read as such, so a time announced so is refused, and an extension of another type and of 1037 bytes is read as a time, the reader left inside it."
  },
  {
   "property": "C58",
   "status": "proved",
   "theorems": [
    "C58_at_most",
    "C58_demand",
    "C58_unasked_refuted"
   ],
   "note": "The counters n are unbounded in the model. A subscription that asks by itself is covered as long as nobody else requests and fewer than RequestMax items came. Refuted with a witness: items sent before the source was asked reduce what it is asked for."
  },
  {
   "property": "C59",
   "status": "proved",
   "theorems": [
    "C59_order",
    "C59_return",
    "C59_stops",
    "C59_reports",
    "C59_leaves",
    "C59_not_stuck",
    "C59_reports_refuted",
    "C59_closes_refuted"
   ],
   "note": "Handlers are taken to return. Refuted with witnesses: a failure followed by the end of the connection is swallowed (Start returns nil); a failure alone does not close the connection until another read returns."
  },
  {
   "property": "C60",
   "status": "proved",
   "theorems": [
    "C60_at_most_once",
    "C60_exactly_once",
    "C60_enabled",
    "C60_settles",
    "C60_errors",
    "C60_registered",
    "C60_leaves_nothing_refuted"
   ],
   "note": "Refuted with a witness: a handler's run leaves nothing behind (its stream stays registered). Handlers themselves do nothing visible in the model; ids may be reused (no uniqueness assumed)."
  },
  {
   "property": "C61",
   "status": "proved",
   "theorems": [
    "C61_result",
    "C61_at_rest",
    "C61_errors",
    "C61_fields",
    "C61_time_field_refuted",
    "C61_numbers",
    "C61_numbers_refuted"
   ],
   "note": "End to end over the request/response executions of C41. Refuted with witnesses: a service that skips every unknown field (a time before 1970), numbers that mean names whatever the order of registration. One result of a scalar type per operation; streams and channels through stubs are not modelled."
  },
  {
   "property": "C62",
   "status": "proved",
   "theorems": [
    "C62_stop",
    "C62_unserved",
    "C62_served",
    "C62_context",
    "C62_returns",
    "C62_result",
    "C62_registry",
    "C62_early",
    "C62_cases",
    "C62_all_closed_refuted",
    "C62_stops_refuted",
    "C62_notification_refuted",
    "C62_forgets_refuted"
   ],
   "note": "Refuted with witnesses: all connections closed once Listen has returned, Close before the listener and cancellation before the notification end Listen, ended connections are forgotten. The serving of a connection is abstract here (C59 has it)."
  },
  {
   "property": "C63",
   "status": "proved",
   "theorems": [
    "C63_order",
    "C63_stuck_iff",
    "C63_settles",
    "C63_arrives",
    "C63_deadlock",
    "C63_never_stuck_refuted",
    "C63_no_panic",
    "C63_close_iff",
    "C63_close_busy",
    "C63_send_closed"
   ],
   "note": "Refuted with a witness: an instance never gets stuck (202 frames from one guest call, each handled by sending one). Layout of frames in the guest's memory is C35's and C36's; here only whether a frame fits."
  },
  {
   "property": "C64",
   "status": "proved",
   "theorems": [
    "C64_handled",
    "C64_slice",
    "C64_during",
    "C64_after",
    "C64_kept_refuted",
    "C64_late_refuted"
   ],
   "note": "Refuted with witnesses made of encoded requests: payloads keep their bytes after recvOne has returned; waiting requests are unaffected by late rewriting of metadata. C41 and its kin take payloads as values, i.e. speak of executions in which this does not happen."
  },
  {
   "property": "C65",
   "status": "proved",
   "theorems": [
    "C65_outcome",
    "C65_once",
    "C65_at_rest",
    "C65_no_panic",
    "C65_progress",
    "C65_all_answered",
    "C65_import",
    "C65_kind_refuted"
   ],
   "note": "Refuted with a witness: exports of the same name but another kind are told apart. The modules are loaded before the calls begin; handlers are nondeterministic."
  },
  {
   "property": "C66",
   "status": "proved",
   "theorems": [
    "C66_asked",
    "C66_only",
    "C66_never",
    "C66_stops",
    "C66_told",
    "C66_threads_refuted",
    "C66_overrun_refuted",
    "C66_early_refuted"
   ],
   "note": "Refuted with witnesses: OnRequest only at used-up demand with two threads; not starved with a source that overruns; a Cancel before the source's OnSubscribe reaches it."
  },
  {
   "property": "C67",
   "status": "proved",
   "theorems": [
    "C67_boot",
    "C67_early",
    "C67_any",
    "C67_refused",
    "C67_crash",
    "C67_crash_refuted",
    "C67_unread_refuted"
   ],
   "note": "Refuted with witnesses: a module without __wasmrs_op_list_request is refused (it crashes the host; C67_crash says exactly when); a guest with an unreadable table is refused (its instance has no operations)."
  },
  {
   "property": "C68",
   "status": "proved",
   "theorems": [
    "C68_loads",
    "C68_call",
    "C68_at_rest",
    "C68_application",
    "C68_service"
   ],
   "note": "Composition of C32, C33, C43, C61, C65 and C67; nothing assumed about the linked tables beyond what the modules register."
  },
  {
   "property": "C69",
   "status": "proved",
   "theorems": [
    "C69_stream",
    "C69_faithful",
    "C69_service",
    "C69_unknown",
    "C69_any",
    "C69_error_ends_refuted",
    "C69_crash",
    "C69_crash_refuted"
   ],
   "note": "Refuted with witnesses: that a stream ends with the error of an item that does not decode; that a wrapper survives a request that does not decode (it panics; C69_crash says exactly when). An item of the service that cannot be encoded (4 GiB or more) is outside the model."
  },
  {
   "property": "C70",
   "status": "proved",
   "theorems": [
    "C70_outcome",
    "C70_run",
    "C70_rest",
    "C70_ends",
    "C70_forged_refuted"
   ],
   "note": "Refuted with a witness: the same without the condition that other streams have other ids (the dispatchers do not ask who sent a frame)."
  },
  {
   "property": "C71",
   "status": "proved",
   "theorems": [
    "C71_down",
    "C71_up",
    "C71_rest",
    "C71_service",
    "C71_unknown",
    "C71_any",
    "C71_error_ends_refuted"
   ],
   "note": "Refuted with a witness: that the input of a service ends with the error of an item that does not decode. Executions are those of C56 (sink calls do not overlap and the caller's flux emits only when asked)."
  },
  {
   "property": "C72",
   "status": "proved",
   "theorems": [
    "C72_seen",
    "C72_behind",
    "C72_mono",
    "C72_error",
    "C72_panics",
    "C72_steps",
    "C72_rest",
    "C72_silent_refuted",
    "C72_after_refuted"
   ],
   "note": "Refuted with witnesses: that a flow whose steps are all done ends its subscription, and that reporting success stops the later steps."
  },
  {
   "property": "C73",
   "status": "proved",
   "theorems": [
    "C73_stream",
    "C73_rest",
    "C73_handler",
    "C73_refused",
    "C73_credit",
    "C73_cancel_refuted"
   ],
   "note": "Sink calls of the exporting guest do not overlap and carry items that fit a frame, as in C54. Refuted with a witness: that the caller can cancel."
  },
  {
   "property": "C74",
   "status": "proved",
   "theorems": [
    "C74_process",
    "C74_word",
    "C74_bad_word",
    "C74_input_end",
    "C74_cancel",
    "C74_one_word",
    "C74_crash",
    "C74_marks",
    "C74_count_refuted",
    "C74_greeter",
    "C74_concat"
   ],
   "note": "Strings below 2^31 bytes. The claim that the caller of WordFrequency gets the counts of all its words is refuted with a witness; so is that every caller is answered (a failed input, an input without a marked message)."
  },
  {
   "property": "C75",
   "status": "proved",
   "theorems": [
    "C75_at_most_once",
    "C75_exactly_once",
    "C75_told",
    "C75_progress",
    "C75_short",
    "C75_by_name",
    "C75_kind_refuted"
   ],
   "note": "Proved on top of C60 (two peers) and the linking of C43. The claim that only handlers exported under the called name are run is refuted with a witness (kind mismatch)."
  },
  {
   "property": "C76",
   "status": "proved",
   "theorems": [
    "C76_get",
    "C76_write",
    "C76_nothing_else",
    "C76_state",
    "C76_registered",
    "C76_map",
    "C76_no_crash",
    "C76_get_never_waits",
    "C76_no_deadlock",
    "C76_steps",
    "C76_still_registered_refuted"
   ],
   "note": "Linearizability, with the sequential methods of C12 as the reference. Pointers are taken to be read and written whole and in order (Go promises this only without data races). The claim that a returned stream is still registered is refuted with a witness."
  },
  {
   "property": "C77",
   "status": "proved",
   "theorems": [
    "C77_part",
    "C77_during",
    "C77_after",
    "C77_kept_refuted"
   ],
   "note": "Builds on C64 for the buffers. That a decoded string keeps its value is refuted with a witness of two responses."
  },
  {
   "property": "C78",
   "status": "proved",
   "theorems": [
    "C78_services",
    "C78_flow",
    "C78_error_refuted",
    "C78_hello",
    "C78_hello_application"
   ],
   "note": "Builds on C61 (stubs) and C65 (calls through the mesh). That errors are passed on is refuted with witnesses."
  },
  {
   "property": "C79",
   "status": "proved",
   "theorems": [
    "C79_same_frame",
    "C79_rust_error_iff",
    "C79_text_refuted",
    "C79_rust_panics_iff",
    "C79_skipped_type_refuted",
    "C79_rust_to_go",
    "C79_go_to_rust",
    "C79_prefixed",
    "C79_ignore_refuted"
   ],
   "note": "Three natural claims are refuted with witnesses; the exact conditions are proved."
  },
  {
   "property": "C80",
   "status": "proved",
   "theorems": [
    "C80_rust_reads",
    "C80_go_to_rust",
    "C80_unknown_type_refuted",
    "C80_rust_to_go",
    "C80_same_refusal",
    "C80_reserved_refuted",
    "C80_long_name_refuted",
    "C80_lookup",
    "C80_lookup_kind_refuted",
    "C80_metadata"
   ],
   "note": "Four natural claims are refuted with witnesses; what holds instead is characterised exactly."
  },
  {
   "property": "C81",
   "status": "proved",
   "theorems": [
    "C81_host_calls",
    "C81_guest_calls",
    "C81_one_run",
    "C81_at_rest",
    "C81_no_panic",
    "C81_progress",
    "C81_all_answered",
    "C81_same_ids",
    "C81_guest_panics_iff",
    "C81_short_metadata_refuted",
    "C81_text_refuted",
    "C81_dropped_refuted"
   ],
   "note": "Three natural claims are refuted with witnesses; calls with short metadata are characterised exactly. Executions in which ids would be used again are left out."
  },
  {
   "property": "C82",
   "status": "proved",
   "theorems": [
    "C82_go_to_rust",
    "C82_rust_reads_iff",
    "C82_unreadable",
    "C82_good_frames_refuted",
    "C82_rust_to_go",
    "C82_buffer",
    "C82_seen_iff",
    "C82_dropped",
    "C82_moved",
    "C82_fits_refuted",
    "C82_go_to_rust_host",
    "C82_several_refuted",
    "C82_host_write_iff",
    "C82_host_refuses_iff",
    "C82_overrun_refuted",
    "C82_starts_iff",
    "C82_start_refuted"
   ],
   "note": "Five natural claims are refuted with witnesses; what holds instead is characterised exactly."
  },
  {
   "property": "C83",
   "status": "proved",
   "theorems": [
    "C83_stream",
    "C83_rest",
    "C83_said",
    "C83_complaints",
    "C83_once",
    "C83_again",
    "C83_again_refuted",
    "C83_handler",
    "C83_refused",
    "C83_short",
    "C83_credit_refuted",
    "C83_cancel_refuted"
   ],
   "note": "Three natural claims are refuted with witnesses; what holds instead is characterised exactly."
  },
  {
   "property": "C84",
   "status": "proved",
   "theorems": [
    "C84_stream",
    "C84_rest",
    "C84_runs",
    "C84_refused",
    "C84_no_credit",
    "C84_slice",
    "C84_sent",
    "C84_cancel",
    "C84_drop_refuted",
    "C84_trap",
    "C84_trap_refuted",
    "C84_text_refuted"
   ],
   "note": "Three natural claims are refuted with witnesses; what holds instead is characterised exactly."
  },
  {
   "property": "C85",
   "status": "proved",
   "theorems": [
    "C85_history",
    "C85_calls",
    "C85_delivered",
    "C85_receivers",
    "C85_received",
    "C85_served",
    "C85_unasked",
    "C85_channel",
    "C85_channel_rest",
    "C85_credit",
    "C85_replies",
    "C85_panic",
    "C85_requested_refuted",
    "C85_end_refuted",
    "C85_cancel_refuted",
    "C85_drop_refuted",
    "C85_displaced_refuted"
   ],
   "note": "Five natural claims are refuted with witnesses; what holds instead is characterised exactly."
  },
  {
   "property": "C86",
   "status": "proved",
   "theorems": [
    "C86_received",
    "C86_calls",
    "C86_response",
    "C86_stream",
    "C86_channel_output",
    "C86_channel_input",
    "C86_channel_request",
    "C86_no_errors",
    "C86_no_panic",
    "C86_channels_reach_refuted",
    "C86_output_arrives_refuted",
    "C86_errors_told_refuted",
    "C86_cancel_stops_refuted"
   ],
   "note": "Four natural claims are refuted with witnesses; what holds instead is proved for every interleaving."
  },
  {
   "property": "C87",
   "status": "proved",
   "theorems": [
    "C87_compiles",
    "C87_compiles_refuted",
    "C87_round_trip",
    "C87_as_it_was",
    "C87_as_it_was_refuted",
    "C87_panics_refuted"
   ],
   "note": "Exact: which types compile (iff), what is read back (a function of the value, panics included). Three claims refuted with witnesses."
  },
  {
   "property": "C88",
   "status": "proved",
   "theorems": [
    "C88_evolves",
    "C88_evolves_refuted"
   ],
   "note": "Exact, panics included; the limits on what is passed over are those of Skip, and C88_evolves_refuted shows that the one on times is needed."
  },
  {
   "property": "C89",
   "status": "proved",
   "theorems": [
    "C89_invoker",
    "C89_wrapper",
    "C89_both_refuted",
    "C89_request",
    "C89_items",
    "C89_response",
    "C89_nothing",
    "C89_any_list",
    "C89_list_errors_refuted"
   ],
   "note": "Which operations compile is an iff for each side; what is carried is exact (the same value up to C87's `back`, panics included). The claim that both sides compile for the same operations is refuted with ten operations."
  },
  {
   "property": "C90",
   "status": "proved",
   "theorems": [
    "C90_style",
    "C90_registers",
    "C90_imports",
    "C90_names",
    "C90_names_refuted",
    "C90_call",
    "C90_at_rest",
    "C90_linked",
    "C90_stream",
    "C90_values"
   ],
   "note": "Exports and imports are exact (iff). Calls are those of C68 with the modules' registrations generated; values by C89. Two claims refuted with witnesses."
  },
  {
   "property": "C91",
   "status": "proved",
   "theorems": [
    "C91_export",
    "C91_provider",
    "C91_export_coded",
    "C91_provider_coded",
    "C91_files_refuted",
    "C91_variables",
    "C91_client",
    "C91_clients_refuted"
   ],
   "note": "The characterisations are iff, for all namespaces whose written operations compile on their own; six refuting files with witnesses. The namespace of the repository's own test data is the case beside the theorems."
  },
  {
   "property": "C92",
   "status": "proved",
   "theorems": [
    "C92_file",
    "C92_services",
    "C92_method",
    "C92_scaffold_refuted"
   ],
   "note": "Iff for all namespaces without functions; no hypothesis on the operations. Four refuting files with witnesses."
  }
 ]
}