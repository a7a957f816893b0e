{
 "claims": [
  {
   "property": "C01",
   "status": "proved",
   "theorems": [
    "C01_id_text_roundtrip"
   ],
   "note": "all 64-bit IDs"
  },
  {
   "property": "C02",
   "status": "proved",
   "theorems": [
    "C02_parse_id_exact"
   ],
   "note": "all byte strings; ParseUint's 64-bit overflow checks are modelled"
  },
  {
   "property": "C03",
   "status": "proved",
   "theorems": [
    "C03_id_order"
   ],
   "note": "all pairs of 64-bit IDs"
  },
  {
   "property": "C04",
   "status": "proved",
   "theorems": [
    "C04_spanid_text_roundtrip"
   ],
   "note": ""
  },
  {
   "property": "C05",
   "status": "proved",
   "theorems": [
    "C05_parse_spanid_exact"
   ],
   "note": ""
  },
  {
   "property": "C06",
   "status": "proved",
   "theorems": [
    "C06_span_derivation"
   ],
   "note": "all programs making roots and children, all ID streams"
  },
  {
   "property": "C07",
   "status": "proved",
   "theorems": [
    "C07_generator_follows_keystream",
    "C07_pairs_never_repeat"
   ],
   "note": "cipher is an arbitrary function (a permutation of blocks for the non-repetition part); native word order taken as little-endian"
  },
  {
   "property": "C08",
   "status": "proved",
   "theorems": [
    "C08_round_trip",
    "C08_integer",
    "C08_shape"
   ],
   "note": ""
  },
  {
   "property": "C09",
   "status": "proved",
   "theorems": [
    "C09_collect_never_fails"
   ],
   "note": "all histories, arbitrary IDs"
  },
  {
   "property": "C10",
   "status": "proved",
   "theorems": [
    "C10_each_span_once_under_parent"
   ],
   "note": "all histories; parents of the trace acyclic"
  },
  {
   "property": "C11",
   "status": "proved",
   "theorems": [
    "C11_arrival_order_irrelevant"
   ],
   "note": ""
  },
  {
   "property": "C12",
   "status": "proved",
   "theorems": [
    "C12_annotations_accumulate"
   ],
   "note": ""
  },
  {
   "property": "C13",
   "status": "proved",
   "theorems": [
    "C13_traces_isolated"
   ],
   "note": ""
  },
  {
   "property": "C14",
   "status": "proved",
   "theorems": [
    "C14_delete_exact"
   ],
   "note": ""
  },
  {
   "property": "C15",
   "status": "proved",
   "theorems": [
    "C15_trace_found_iff",
    "C15_traces_each_once"
   ],
   "note": "all map iteration orders"
  },
  {
   "property": "C16",
   "status": "partial",
   "theorems": [
    "C16_traces_honours_ids_refuted",
    "C16_traces_ids_partial"
   ],
   "note": "documented claim is false: MemoryStore.Traces ignores TraceIDs (refuted); proved: the listed traces are among those returned"
  },
  {
   "property": "C17",
   "status": "partial",
   "theorems": [
    "C17_snapshot_refuted",
    "C17_snapshot_partial"
   ],
   "note": "false: Trace returns live pointers (refuted); proved: stable under all later calls that do not collect into the trace"
  },
  {
   "property": "C18",
   "status": "partial",
   "theorems": [
    "C18_none_lost_refuted",
    "C18_none_lost_partial"
   ],
   "note": "false for parent cycles (refuted); proved: the tree is finite and shows exactly the spans not caught in a parent cycle"
  },
  {
   "property": "C19",
   "status": "proved",
   "theorems": [
    "C19_write_read_round_trip"
   ],
   "note": "gob is modelled as copying both maps by value, with empty values becoming nil"
  },
  {
   "property": "C20",
   "status": "partial",
   "theorems": [
    "C20_collect_after_restore_refuted",
    "C20_collect_after_restore_partial"
   ],
   "note": "false: Collect into a restored trace is invisible (refuted); proved: no later call panics and all traces not restored, or deleted since, behave as in C10-C15"
  },
  {
   "property": "C21",
   "status": "proved",
   "theorems": [
    "C21_persist_crash_atomic",
    "C21_persist_never_goes_back"
   ],
   "note": "process crashes; power loss is not modelled (the code does not sync)"
  },
  {
   "property": "C22",
   "status": "proved",
   "theorems": [
    "C22_limit_capacity"
   ],
   "note": "at every moment, also when underlying deletes fail"
  },
  {
   "property": "C23",
   "status": "proved",
   "theorems": [
    "C23_limit_keeps_newest"
   ],
   "note": "also with Delete calls in the history"
  },
  {
   "property": "C24",
   "status": "partial",
   "theorems": [
    "C24_limit_capacity_any_id_refuted",
    "C24_limit_capacity_any_id_partial"
   ],
   "note": "false: trace ID 0 is the empty-slot mark (refuted); proved: never more than Max+1"
  },
  {
   "property": "C25",
   "status": "proved",
   "theorems": [
    "C25_recent_never_evicts_young"
   ],
   "note": ""
  },
  {
   "property": "C26",
   "status": "proved",
   "theorems": [
    "C26_recent_evicts_every_old"
   ],
   "note": ""
  },
  {
   "property": "C27",
   "status": "partial",
   "theorems": [
    "C27_recent_keeps_recent_spans_refuted",
    "C27_recent_keeps_young_traces_partial",
    "C27_recent_prompt_partial"
   ],
   "note": "false: eviction goes by the age of the trace, not of the span (refuted); proved for every schedule: traces whose spans are all young are complete; with prompt deletes the store shows what was collected since the last eviction"
  },
  {
   "property": "C28",
   "status": "proved",
   "theorems": [
    "C28_multi_collect_stops_at_first_failure"
   ],
   "note": ""
  },
  {
   "property": "C29",
   "status": "proved",
   "theorems": [
    "C29_multi_trace_first_hit"
   ],
   "note": ""
  },
  {
   "property": "C30",
   "status": "proved",
   "theorems": [
    "C30_multi_queryer_union",
    "C30_multi_queryer_error"
   ],
   "note": ""
  },
  {
   "property": "C31",
   "status": "proved",
   "theorems": [
    "C31_chunked_conservation",
    "C31_chunked_spans"
   ],
   "note": ""
  },
  {
   "property": "C32",
   "status": "proved",
   "theorems": [
    "C32_chunked_order"
   ],
   "note": ""
  },
  {
   "property": "C33",
   "status": "partial",
   "theorems": [
    "C33_chunked_order_refuted",
    "C33_chunked_multiset_partial"
   ],
   "note": "false: a manual Flush may overtake a running one (refuted); proved without the overlap hypothesis: what is sent is, as a multiset, among what was accepted. In-order delivery without overlaps is C32"
  },
  {
   "property": "C34",
   "status": "proved",
   "theorems": [
    "C34_chunked_queue_bounded",
    "C34_chunked_collect_limit",
    "C34_chunked_zero_means_unlimited"
   ],
   "note": "sizes below 2^64, as in the statement"
  },
  {
   "property": "C35",
   "status": "proved",
   "theorems": [
    "C35_chunked_refuses_after_stop",
    "C35_chunked_sends_only_earlier_data"
   ],
   "note": ""
  },
  {
   "property": "C36",
   "status": "partial",
   "theorems": [
    "C36_stop_panics_refuted",
    "C36_stop_panics_iff_partial"
   ],
   "note": "false: Stop panics before the first Collect and when called twice (refuted); proved: exactly when it does not panic"
  },
  {
   "property": "C37",
   "status": "proved",
   "theorems": [
    "C37_flush_returns",
    "C37_flush_nil_means_all_delivered",
    "C37_collect_returns_background_error",
    "C37_background_error_from_flush"
   ],
   "note": ""
  },
  {
   "property": "C38",
   "status": "proved",
   "theorems": [
    "C38_round_trip"
   ],
   "note": ""
  },
  {
   "property": "C39",
   "status": "proved",
   "theorems": [
    "C39_exactly_complete",
    "C39_whole"
   ],
   "note": ""
  },
  {
   "property": "C40",
   "status": "proved",
   "theorems": [
    "C40_stops"
   ],
   "note": ""
  },
  {
   "property": "C41",
   "status": "partial",
   "theorems": [
    "C41_delivered_partial",
    "C41_refuted",
    "C41_larger_refuted"
   ],
   "note": "False as stated: C41_refuted exhibits a Collect that returns nil, is completely delivered and is dropped because it exceeds 1 MiB; C41_delivered_partial proves delivery for packets within the limit, over every schedule of dial and write failures. C41_larger_refuted: every Collect above the limit is lost."
  },
  {
   "property": "C42",
   "status": "partial",
   "theorems": [
    "C42_refuted",
    "C42_panics_partial",
    "C42_clients_partial"
   ],
   "note": "False as stated: C42_refuted is a packet without the optional parent that makes the handler dereference nil. C42_panics_partial characterises all panics, C42_clients_partial excludes them for streams written by this package."
  },
  {
   "property": "C43",
   "status": "proved",
   "theorems": [
    "C43_streams",
    "C43_received",
    "C43_attempts"
   ],
   "note": "Write failures are permanent per connection (net and tls connections without deadlines)."
  },
  {
   "property": "C44",
   "status": "proved",
   "theorems": [
    "C44_finish",
    "C44_finish_success"
   ],
   "note": "Methods are called one after another, as the Recorder's unprotected fields require."
  },
  {
   "property": "C45",
   "status": "proved",
   "theorems": [
    "C45_errors",
    "C45_errors_pending",
    "C45_logger"
   ],
   "note": ""
  },
  {
   "property": "C46",
   "status": "proved",
   "theorems": [
    "C46_schema_gate",
    "C46_found",
    "C46_marshalled"
   ],
   "note": "types with their own MarshalEvent/UnmarshalEvent included"
  },
  {
   "property": "C47",
   "status": "proved",
   "theorems": [
    "C47_round_trip",
    "C47_library"
   ],
   "note": "pointers to scalars are included; the target of UnmarshalEvent is a zero event"
  },
  {
   "property": "C48",
   "status": "partial",
   "theorems": [
    "C48_refuted",
    "C48_refuted_names",
    "C48_refuted_panics",
    "C48_refuted_pointers",
    "C48_round_trip_partial",
    "C48_numbers",
    "C48_refuted_any_pointer"
   ],
   "note": "False as stated: C48_refuted (an empty slice loses the fields after it), C48_refuted_names (names like A and A-b), C48_refuted_panics (nil pointers, named scalar types). C48_refuted_pointers (pointers to times and durations). C48_round_trip_partial: the values that do survive; C48_numbers: the floats and durations among them (uses the axioms of the reals, see DESIGN.md). Interfaces and other Stringers are not modelled."
  },
  {
   "property": "C49",
   "status": "partial",
   "theorems": [
    "C49_refuted",
    "C49_recovered_partial",
    "C49_library_partial"
   ],
   "note": "False as stated: C49_refuted (Msg and Log events on one span share a key). C49_recovered_partial: all events are recovered when their types do not share names; C49_library_partial: the library's types except Msg with Log."
  },
  {
   "property": "C50",
   "status": "proved",
   "theorems": [
    "C50_one_event_each",
    "C50_unregistered"
   ],
   "note": "for runs without error; C79 shows when there is none"
  },
  {
   "property": "C51",
   "status": "proved",
   "theorems": [
    "C51_name",
    "C51_empty",
    "C51_stable",
    "C51_recorded"
   ],
   "note": ""
  },
  {
   "property": "C52",
   "status": "proved",
   "theorems": [
    "C52_annotations",
    "C52_no_leak",
    "C52_redacted",
    "C52_recorded"
   ],
   "note": "C52_annotations: the annotations that a collector is given. EqualFold is modelled for ASCII names. The other headers are recorded completely if their names are in canonical form, as net/http stores them."
  },
  {
   "property": "C53",
   "status": "proved",
   "theorems": [
    "C53_propagation"
   ],
   "note": ""
  },
  {
   "property": "C54",
   "status": "proved",
   "theorems": [
    "C54_selection"
   ],
   "note": ""
  },
  {
   "property": "C55",
   "status": "partial",
   "theorems": [
    "C55_refuted",
    "C55_handled_partial"
   ],
   "note": "False as stated: C55_refuted, the middleware dereferences a nil span for every such request. All other requests are handled once."
  },
  {
   "property": "C56",
   "status": "proved",
   "theorems": [
    "C56_length",
    "C56_status"
   ],
   "note": "Codes 1xx are not modelled."
  },
  {
   "property": "C57",
   "status": "partial",
   "theorems": [
    "C57_refuted",
    "C57_recorded_partial",
    "C57_sent_partial"
   ],
   "note": "False as stated: C57_refuted. Proved which code is recorded (the last) and which is sent (the first)."
  },
  {
   "property": "C58",
   "status": "proved",
   "theorems": [
    "C58_annotations",
    "C58_one_span",
    "C58_read_back"
   ],
   "note": "for handlers that return and a collector that accepts the span; C58_annotations spells out the annotations collected, C58_read_back the events read from them"
  },
  {
   "property": "C59",
   "status": "proved",
   "theorems": [
    "C59_annotations",
    "C59_read_back",
    "C59_round_trip",
    "C59_nothing_kept"
   ],
   "note": "C59_annotations spells out the annotations collected, C59_read_back the events read from them."
  },
  {
   "property": "C60",
   "status": "proved",
   "theorems": [
    "C60_calendar",
    "C60_profile",
    "C60_sums",
    "C60_total",
    "C60_rounding"
   ],
   "note": "Sums are exact while they fit int64 (C60_sums), modulo 2^64 in general (C60_profile). C60_calendar: the instants that are subtracted follow the Gregorian calendar. C60_rounding uses the standard library's axioms of the reals (through Flocq), see DESIGN.md."
  },
  {
   "property": "C61",
   "status": "proved",
   "theorems": [
    "C61_totals",
    "C61_positive",
    "C61_total",
    "C61_modes"
   ],
   "note": "For totals below 2^63 - 1 milliseconds."
  },
  {
   "property": "C62",
   "status": "proved",
   "theorems": [
    "C62_items",
    "C62_milliseconds"
   ],
   "note": ""
  },
  {
   "property": "C63",
   "status": "partial",
   "theorems": [
    "C63_refuted",
    "C63_nameless_refuted",
    "C63_fails",
    "C63_partial"
   ],
   "note": "False as stated: C63_refuted (a span without times hides those below it) and C63_nameless_refuted (a span without a name makes the timeline fail). C63_fails says exactly when it fails; C63_partial: all spans are shown if all have a name and times."
  },
  {
   "property": "C64",
   "status": "partial",
   "theorems": [
    "C64_recreated_partial",
    "C64_rooted",
    "C64_refuted",
    "C64_incomplete_refuted",
    "C64_existing_partial",
    "C64_existing_refuted",
    "C64_total"
   ],
   "note": "proved: any export of a shown trace or sub-span is recreated exactly when no span below it lacks a parent or is the exported root's parent, in particular for every export of a trace with one parentless span and no zero span ID; an upload of single-trace trees never changes an existing trace. Refuted as stated: two parentless spans, missing parents, and sub-spans of another trace in an upload. The JSON, gzip and base64 coding of the export is not modelled."
  },
  {
   "property": "C65",
   "status": "partial",
   "theorems": [
    "C65_failed",
    "C65_panicked",
    "C65_succeeded_partial",
    "C65_bodyless_partial",
    "C65_refuted"
   ],
   "note": "C65_refuted: a handler error after it set headers, with a status code that is not three digits, leaks the handler's headers into the error page. Everything else is proved."
  },
  {
   "property": "C66",
   "status": "proved",
   "theorems": [
    "C66_first",
    "C66_none"
   ],
   "note": ""
  },
  {
   "property": "C67",
   "status": "partial",
   "theorems": [
    "C67_range_partial",
    "C67_span_partial",
    "C67_refuted",
    "C67_timespan_events"
   ],
   "note": "Proved for times that are zero or between September 1754 and 2261; refuted outside (UnixNano wraps)."
  },
  {
   "property": "C68",
   "status": "partial",
   "theorems": [
    "C68_refuted",
    "C68_refuted_lost",
    "C68_after_zero_partial"
   ],
   "note": "Refuted: an event with a zero start time hides the timespan events before it; proved which events count."
  },
  {
   "property": "C69",
   "status": "proved",
   "theorems": [
    "C69_admits",
    "C69_rejects",
    "C69_starts",
    "C69_distinct"
   ],
   "note": "The first Authorization header value is the one that counts."
  },
  {
   "property": "C70",
   "status": "partial",
   "theorems": [
    "C70_partial",
    "C70_refuted"
   ],
   "note": "C70_refuted: for value = MaxInt64 and n = 2 the arithmetic overflows and the call panics. Proved for value < MaxInt64."
  },
  {
   "property": "C71",
   "status": "proved",
   "theorems": [
    "C71_unsampled",
    "C71_writes",
    "C71_accepted",
    "C71_id",
    "C71_lines",
    "C71_possible"
   ],
   "note": "The formatting of tag values and log fields, and json.Marshal of the fields, are parameters."
  },
  {
   "property": "C72",
   "status": "proved",
   "theorems": [
    "C72_api_spans_all_shown"
   ],
   "note": ""
  },
  {
   "property": "C73",
   "status": "partial",
   "theorems": [
    "C73_write_always_ends_refuted",
    "C73_write_always_ends_partial"
   ],
   "note": "false: a span that is its own parent makes the encoder run forever (refuted); proved: Write ends when no trace has a parent cycle"
  },
  {
   "property": "C74",
   "status": "partial",
   "theorems": [
    "C74_multi_queryer_options_refuted",
    "C74_multi_queryer_options_partial"
   ],
   "note": "false: the options are dropped (refuted); proved: nothing asked for is missing"
  },
  {
   "property": "C75",
   "status": "partial",
   "theorems": [
    "C75_nothing_sent_after_stop_refuted",
    "C75_only_queued_before_partial"
   ],
   "note": "false: flushes in progress, or begun after Stop, still send (refuted); proved: flushes begun after Stop send at most what was queued at Stop, once"
  },
  {
   "property": "C76",
   "status": "partial",
   "theorems": [
    "C76_error_means_not_queued_refuted",
    "C76_nil_means_queued_partial"
   ],
   "note": "false: Collect also returns the error of an earlier background flush while queueing its data (refuted); proved: the effect of Collect on the queue for each outcome"
  },
  {
   "property": "C77",
   "status": "partial",
   "theorems": [
    "C77_dropped_means_dropped_refuted",
    "C77_dropped_is_reported_partial"
   ],
   "note": "false: a time-out noticed after the last underlying call reports ErrQueueDropped though all was delivered (refuted); proved: every drop is reported"
  },
  {
   "property": "C78",
   "status": "partial",
   "theorems": [
    "C78_refuted",
    "C78_reported_partial"
   ],
   "note": "False as stated: C78_refuted (cut right after the length prefix). C78_reported_partial: every other cut is reported."
  },
  {
   "property": "C79",
   "status": "proved",
   "theorems": [
    "C79_plain_total",
    "C79_library_total"
   ],
   "note": ""
  },
  {
   "property": "C80",
   "status": "proved",
   "theorems": [
    "C80_order",
    "C80_last"
   ],
   "note": ""
  },
  {
   "property": "C81",
   "status": "partial",
   "theorems": [
    "C81_refuted",
    "C81_before_finish_partial"
   ],
   "note": "Refuted: an event recorded after Finish is dropped silently; proved for events recorded before."
  },
  {
   "property": "C82",
   "status": "partial",
   "theorems": [
    "C82_refuted",
    "C82_accepted_partial"
   ],
   "note": "Refuted: null is read as the ID 0; proved exactly for everything else."
  },
  {
   "property": "C83",
   "status": "partial",
   "theorems": [
    "C83_refuted",
    "C83_recorded_partial"
   ],
   "note": "False as stated: C83_refuted, for every request and configuration. Proved for handlers that return."
  },
  {
   "property": "C84",
   "status": "partial",
   "theorems": [
    "C84_refuted",
    "C84_silent_partial"
   ],
   "note": "False as stated: C84_refuted, for a handler that writes. Proved for handlers that send nothing themselves."
  },
  {
   "property": "C85",
   "status": "proved",
   "theorems": [
    "C85_cancel"
   ],
   "note": ""
  },
  {
   "property": "C86",
   "status": "partial",
   "theorems": [
    "C86_refuted",
    "C86_partial"
   ],
   "note": "False as stated: C86_refuted, for a root with two timespans. Proved: all the bars of a span have the length of its first one."
  },
  {
   "property": "C87",
   "status": "partial",
   "theorems": [
    "C87_name",
    "C87_tags_partial",
    "C87_events_partial",
    "C87_logs_partial",
    "C87_refuted",
    "C87_name_refuted"
   ],
   "note": "False as stated: C87_refuted (only the last of several logs is read back) and C87_name_refuted (a tag called Name replaces the decoded name event; the displayed name is not affected: C87_name). Proved: name, times, tags and baggage are read back if their keys do not clash; of the logs the last one."
  },
  {
   "property": "C88",
   "status": "proved",
   "theorems": [
    "C88_text"
   ],
   "note": ""
  },
  {
   "property": "C89",
   "status": "partial",
   "theorems": [
    "C89_received_partial",
    "C89_refuted"
   ],
   "note": "C89_refuted: a program that goes on after an exception loses later calls that return, because part of a packet was sent. Proved for sessions in which only the last call may raise."
  },
  {
   "property": "C90",
   "status": "proved",
   "theorems": [
    "C90_read",
    "C90_alone"
   ],
   "note": "The texts of times come from strict_rfc3339, outside the repository: the theorem assumes that Go reads them as times."
  },
  {
   "property": "C91",
   "status": "partial",
   "theorems": [
    "C91_refuted",
    "C91_overwritten_refuted",
    "C91_partial"
   ],
   "note": "False: C91_refuted shows, for every HTTP event of the Python client, that the Go program reads an event without any information (the keys differ); C91_overwritten_refuted shows that the response's information replaces the request's. C91_partial says what is recorded instead: exactly which annotations the Python client makes of an event."
  },
  {
   "property": "C92",
   "status": "partial",
   "theorems": [
    "C92_recorded_partial",
    "C92_refuted"
   ],
   "note": "C92_refuted: every sampled span with baggage makes record_span raise (a misspelt attribute) and none of its baggage is recorded. Proved for spans without baggage whose tags are strings."
  },
  {
   "property": "C93",
   "status": "partial",
   "theorems": [
    "C93_once_partial",
    "C93_refuted",
    "C93_lost_refuted"
   ],
   "note": "C93_refuted: two factories share the pending list of their class until their first flush; C93_lost_refuted: what is flushed to a lost connection is gone. Proved for one factory whose connection is never lost."
  },
  {
   "property": "C94",
   "status": "proved",
   "theorems": [
    "C94_page",
    "C94_profile",
    "C94_links"
   ],
   "note": "Router of gorilla/mux as documented: clean paths, first matching route. Templates are not modelled."
  },
  {
   "property": "C95",
   "status": "partial",
   "theorems": [
    "C95_profile_link_partial",
    "C95_refuted"
   ],
   "note": "C95_refuted: with two spans without parent, the page of the one that is not the displayed root links to the whole trace's profile. Proved for whole traces and for spans with a parent."
  },
  {
   "property": "C96",
   "status": "partial",
   "theorems": [
    "C96_permalink_partial",
    "C96_complete_iff",
    "C96_refuted"
   ],
   "note": "C96_refuted: the encoder is never closed, so one or two bytes are missing unless the length is a multiple of three (C96_complete_iff). At most the last two bytes are missing (C96_permalink_partial)."
  },
  {
   "property": "C97",
   "status": "partial",
   "theorems": [
    "C97_elsewhere_partial",
    "C97_here_partial",
    "C97_refuted"
   ],
   "note": "C97_refuted: on the server itself the permalink of a sub-span shows the whole trace. Proved for servers without the trace, under the conditions of C64; compression and JSON are assumed to give back the trace."
  },
  {
   "property": "C98",
   "status": "partial",
   "theorems": [
    "C98_asked_partial",
    "C98_row_partial",
    "C98_shown_partial",
    "C98_refuted",
    "C98_none_refuted"
   ],
   "note": "C98_refuted: MemoryStore shows all traces; C98_none_refuted: a list without any ID asks for all. Proved: which traces are asked for, that rows' links ask for their slowest traces, and that these are shown if they exist."
  },
  {
   "property": "C99",
   "status": "partial",
   "theorems": [
    "C99_all",
    "C99_error",
    "C99_selected_partial",
    "C99_refuted"
   ],
   "note": "C99_refuted: an ID named twice (also in two notations) counts twice. Proved for selections without repetition."
  },
  {
   "property": "C100",
   "status": "partial",
   "theorems": [
    "C100_window_partial",
    "C100_absent",
    "C100_refuted"
   ],
   "note": "C100_refuted: overflow. Proved for bounds within about 292 years."
  },
  {
   "property": "C101",
   "status": "partial",
   "theorems": [
    "C101_restored_kept",
    "C101_refuted",
    "C101_collected_partial",
    "C101_schedules_partial",
    "C101_late_refuted",
    "C101_forever"
   ],
   "note": "C101_refuted, C101_restored_kept: a trace restored from the store file for which nothing more is collected is never deleted, in any history and schedule. C101_collected_partial: traces with a span collected since the start are gone after the next eviction pass, when each call's actions run before the next call. C101_schedules_partial: the same for every schedule, if the trace's spans are stored before its deletion is made; C101_late_refuted: a span stored after it keeps the trace."
  },
  {
   "property": "C102",
   "status": "partial",
   "theorems": [
    "C102_nil_iff",
    "C102_refuted",
    "C102_delivered_partial"
   ],
   "note": "C102_refuted: the command succeeds although every delivery failed; C102_nil_iff: it succeeds exactly if the non-root events can be marshaled. C102_delivered_partial: what the collector is given for a trace whose events can be marshaled."
  },
  {
   "property": "C103",
   "status": "proved",
   "theorems": [
    "C103_sample_trace"
   ],
   "note": "Random draws are any functions with values in their ranges; times in nanoseconds."
  },
  {
   "property": "C104",
   "status": "partial",
   "theorems": [
    "C104_partial",
    "C104_starts",
    "C104_refuted"
   ],
   "note": "C104_refuted: for every host with colons (IPv6) the URL's host is no address. C104_partial: all other hosts; C104_starts: refused exactly if no address."
  },
  {
   "property": "C105",
   "status": "partial",
   "theorems": [
    "C105_verbose_partial",
    "C105_default",
    "C105_sql",
    "C105_http",
    "C105_refuted"
   ],
   "note": "C105_refuted: names starting with an underscore (struct tags) are hidden. C105_verbose_partial: all events with showable field names; C105_default, C105_sql, C105_http: the default table. Templates' HTML is not modelled."
  },
  {
   "property": "C106",
   "status": "partial",
   "theorems": [
    "C106_partial",
    "C106_accepted",
    "C106_refuted"
   ],
   "note": "C106_partial: all traces whose annotation keys are UTF-8 (and which C64's condition on parents admits). C106_accepted: every export is accepted. C106_refuted: other keys come back with U+FFFD. encoding/json is modelled byte by byte, with its HTML escapes."
  },
  {
   "property": "C107",
   "status": "partial",
   "theorems": [
    "C107_partial",
    "C107_existing",
    "C107_query_safe",
    "C107_truncated"
   ],
   "note": "C107_partial: as C106, for every compression that can be read without its last two bytes; C107_existing; C107_query_safe. C107_truncated: the base64 encoder is not closed, so that the link lacks up to two bytes of gzip's trailer."
  },
  {
   "property": "C108",
   "status": "partial",
   "theorems": [
    "C108_refused",
    "C108_refuted",
    "C108_partial",
    "C108_total"
   ],
   "note": "C108_refuted: a null trace in the text ends the request in a panic after what came before it was stored. C108_partial: every text without null traces; C108_refused: refused texts; C108_total: the store never panics."
  },
  {
   "property": "C109",
   "status": "proved",
   "theorems": [
    "C109_end_to_end"
   ],
   "note": "The hypotheses say that the IDs differ, the events of a span can be told apart (C49), packets are within the size limit (C41), nothing is dropped (C31), Flushes do not overlap (C33) and connections do not break (C43); the negations of each are treated in the properties named."
  },
  {
   "property": "C110",
   "status": "partial",
   "theorems": [
    "C110_durations_partial",
    "C110_long_partial",
    "C110_refuted",
    "C110_written_partial",
    "C110_read_partial"
   ],
   "note": "False as stated: C110_refuted (249 ns come back as 248 ns). C110_durations_partial: up to 52 days the same or one nanosecond closer to zero, exact for whole milliseconds. C110_long_partial: the error of longer durations, up to 146 years. C110_written_partial and C110_read_partial say the same of the text in between, as a decimal numeral. Uses the axioms of the reals, see DESIGN.md."
  },
  {
   "property": "C111",
   "status": "partial",
   "theorems": [
    "C111_float32",
    "C111_float64_partial",
    "C111_special",
    "C111_neighbour",
    "C111_error",
    "C111_text",
    "C111_any_text_partial",
    "C111_refuted",
    "C111_written",
    "C111_read",
    "C111_too_large"
   ],
   "note": "False as stated for float64: C111_refuted (both kinds are read with 32 bits). C111_float32: float32 fields survive. C111_float64_partial: a float64 survives if and only if it has single precision; C111_neighbour and C111_error say what happens otherwise. C111_special: NaN and infinities survive. C111_text: FormatFloat's text is one of the number; C111_any_text_partial: the result does not depend on which. C111_written, C111_read and C111_too_large say what the text is and how any text is read, with the text as a decimal numeral. Uses the axioms of the reals, see DESIGN.md."
  },
  {
   "property": "C112",
   "status": "partial",
   "theorems": [
    "C112_values_partial",
    "C112_stable_partial",
    "C112_refuted"
   ],
   "note": "False as stated: C112_refuted (an event recorded after Finish overwrites annotations in the store). C112_values_partial, C112_stable_partial: true in every interleaving if nothing is recorded after Finish and there is no MultiStore; this also justifies the other models' treatment of annotations as values."
  },
  {
   "property": "C113",
   "status": "partial",
   "theorems": [
    "C113_one_by_one_partial",
    "C113_refuted"
   ],
   "note": "False as stated: C113_refuted (three concurrent Collects on one span; the first store loses an annotation for good). C113_one_by_one_partial: true if the Collects happen one after the other."
  },
  {
   "property": "C114",
   "status": "partial",
   "theorems": [
    "C114_own_bytes_partial",
    "C114_clients_partial",
    "C114_progress_partial",
    "C114_crash_partial",
    "C114_refuted"
   ],
   "note": "False as stated: C114_refuted (a packet without parent from one client ends the process before another client's packet is collected). C114_own_bytes_partial: what is collected for a client depends on its own bytes alone, unless the process dies; C114_crash_partial: it dies only of an incomplete packet; C114_clients_partial: with clients that write calls of the API the full claim holds; C114_progress_partial: a handler needs no other to finish its work."
  },
  {
   "property": "C115",
   "status": "proved",
   "theorems": [
    "C115_one_trace",
    "C115_possible"
   ],
   "note": "C115_one_trace, for generated IDs that are non-zero and different; C115_possible: every tree of requests can happen."
  },
  {
   "property": "C116",
   "status": "proved",
   "theorems": [
    "C116_out",
    "C116_sent",
    "C116_flush_returns"
   ],
   "note": "C116_out, C116_sent, C116_flush_returns: infinite executions with weak fairness for flushes and for the background goroutine."
  },
  {
   "property": "C117",
   "status": "partial",
   "theorems": [
    "C117_fields_partial",
    "C117_event",
    "C117_values",
    "C117_lazy",
    "C117_sets",
    "C117_span_partial",
    "C117_refuted"
   ],
   "note": "C117_fields_partial and C117_span_partial: logs whose keys and values are UTF-8 and which have a key other than \"event\"; C117_event: the others. C117_refuted: the payload of an event can look like fields, and bytes that are not UTF-8 become U+FFFD. C117_values: booleans and integers; floats are a parameter. Which pairs a list of fields sets is stated apart (sets, C117_sets)."
  },
  {
   "property": "C118",
   "status": "partial",
   "theorems": [
    "C118_partial",
    "C118_refuted"
   ],
   "note": "C118_partial: traces whose annotations are single lines and whose keys have no \"=\"; C118_refuted: a value with a newline can look like a span."
  },
  {
   "property": "C119",
   "status": "partial",
   "theorems": [
    "C119_partial",
    "C119_refuted",
    "C119_span_partial"
   ],
   "note": "C119_partial: annotation keys in UTF-8; C119_refuted: other keys come back with U+FFFD."
  },
  {
   "property": "C120",
   "status": "partial",
   "theorems": [
    "C120_partial",
    "C120_refuted"
   ],
   "note": "C120_partial: keys without \"=\", any values, whatever strconv.IsPrint says; C120_refuted: a key can contain the text of another annotation."
  },
  {
   "property": "C121",
   "status": "proved",
   "theorems": [
    "C121_once",
    "C121_logged"
   ],
   "note": "C121_once without a Logger, C121_logged with one."
  },
  {
   "property": "C122",
   "status": "partial",
   "theorems": [
    "C122_partial",
    "C122_refuted",
    "C122_twice_refuted"
   ],
   "note": "C122_partial: calls of Event and Finish do not overlap each other (Annotation, Errors and error reports may overlap anything); C122_refuted: of two overlapping Events one is lost; C122_twice_refuted: two overlapping Finish calls both deliver."
  },
  {
   "property": "C123",
   "status": "partial",
   "theorems": [
    "C123_partial",
    "C123_refuted"
   ],
   "note": "C123_partial: the names of the added fields sort after those of the common fields and begin no key on the span; C123_refuted: an added field that sorts before a common one makes the common one lose its value (pairs are dropped until one has the field's prefix)."
  },
  {
   "property": "C124",
   "status": "proved",
   "theorems": [
    "C124_names",
    "C124_no_race",
    "C124_ends"
   ],
   "note": "C124_names, C124_no_race, C124_ends. One step per operation on the mutex or on a map; maps are references."
  },
  {
   "property": "C125",
   "status": "proved",
   "theorems": [
    "C125_newer_clients",
    "C125_this_version"
   ],
   "note": "C125_newer_clients; C125_this_version: this version's packets are among them. The protobuf library is modelled after its documented format."
  },
  {
   "property": "C126",
   "status": "proved",
   "theorems": [
    "C126_decision",
    "C126_all_or_none",
    "C126_default",
    "C126_nil_refuted",
    "C126_baggage",
    "C126_parent"
   ],
   "note": "C126_decision, C126_all_or_none, C126_default, C126_baggage, C126_parent; C126_nil_refuted is the panic the statement mentions. The basictracer library is modelled after its documented behaviour; a propagated context carries the flag unchanged (C71)."
  },
  {
   "property": "C127",
   "status": "proved",
   "theorems": [
    "C127_accepted",
    "C127_not_json",
    "C127_wrong",
    "C127_one_value"
   ],
   "note": "C127_accepted, C127_not_json, C127_wrong, C127_one_value. JSON is specified by the grammar of RFC 8259 (JsonGramSpec), independently of the decoder. Null traces are not covered here: they panic (C108_refuted). Texts with two members for one field, and encoding/json's limit on nesting, are not covered. Half surrogates and invalid UTF-8 read as U+FFFD, as encoding/json documents."
  },
  {
   "property": "C128",
   "status": "proved",
   "theorems": [
    "C128_addresses",
    "C128_rest",
    "C128_urls"
   ],
   "note": "C128_addresses, C128_rest, C128_urls. gorilla/mux is modelled after its documentation; without a base router that has routes of its own."
  },
  {
   "property": "C129",
   "status": "partial",
   "theorems": [
    "C129_partial",
    "C129_complete",
    "C129_refuted_fault",
    "C129_refuted_wraps"
   ],
   "note": "C129_partial says of every field when it is read and what it becomes; C129_complete is the case in which all fields have a text. The property is false: a text that stands for no value, or no text, keeps all fields later in alphabetical order from being read (C129_refuted_fault), and a numeral out of the field's range is reduced modulo its size (C129_refuted_wraps). The meaning of texts for times, durations and floats is that of C60, C110 and C111."
  },
  {
   "property": "C130",
   "status": "partial",
   "theorems": [
    "C130_new",
    "C130_root_partial",
    "C130_below_partial",
    "C130_refuted",
    "C130_selection_partial"
   ],
   "note": "C130_root_partial: true if the application is at the root of its host. Below a path only references that do not start with a slash work, and only if the base path ends in a slash (C130_below_partial); with a base URL such as https://mysite.com/appdash, the documented form, no reference but that of the logo works (C130_refuted). C130_new says which base URLs New accepts. C130_selection_partial is for the button of selected traces. References are modelled as the templates write them; the scripts inside the static files are not."
  },
  {
   "property": "C131",
   "status": "partial",
   "theorems": [
    "C131_partial",
    "C131_else_partial",
    "C131_refuted",
    "C131_none_refuted"
   ],
   "note": "C131_partial: true if some but not all listed traces are selected, or if all are and the list is of all traces. False otherwise: all of a partial list aggregates every trace of the store (C131_refuted), and so does an empty selection (C131_none_refuted); C131_else_partial says exactly what happens then."
  },
  {
   "property": "C132",
   "status": "partial",
   "theorems": [
    "C132_partial",
    "C132_store_partial",
    "C132_orphan_refuted",
    "C132_endless_refuted",
    "C132_colon_refuted"
   ],
   "note": "C132_partial and, for complete traces of a MemoryStore and the pages of all their spans, C132_store_partial. False for spans shown below the root because their parent is missing (C132_orphan_refuted), for spans that are their own parents (the script never ends, C132_endless_refuted) and for exact searches for values with a colon (C132_colon_refuted). The fuzzy search (Fuse) is a parameter."
  },
  {
   "property": "C133",
   "status": "partial",
   "theorems": [
    "C133_partial",
    "C133_exports",
    "C133_script",
    "C133_tip_partial",
    "C133_label_partial",
    "C133_refuted",
    "C133_label_refuted",
    "C133_data"
   ],
   "note": "C133_partial (elements, attributes, text areas; up to the browser's own normalisation of line ends and NUL), C133_exports and C133_script hold. False in three places written by the page's script: the tips and the headings of the context menu are markup, so that a span's name can run a script (C133_refuted); the names beside the bars are escaped twice (C133_label_refuted). C133_tip_partial and C133_label_partial say for which names these places are right (short names: exactly those without &, <, > and no-break spaces). C133_data: the script gets the names as recorded. Not modelled: d3-timeline and bootstrap-table, which rewrite what the browser has read."
  },
  {
   "property": "C134",
   "status": "partial",
   "theorems": [
    "C134_partial",
    "C134_goes_on_partial",
    "C134_ties_partial",
    "C134_root_partial",
    "C134_refuted"
   ],
   "note": "C134_partial, C134_goes_on_partial, C134_ties_partial and C134_root_partial hold of timelines whose bars are at most 292 years long (and traces as in C132). A longer bar overflows and is listed among the shortest: C134_refuted. ECMAScript's sort is any stable sort, toLowerCase a parameter."
  },
  {
   "property": "C135",
   "status": "partial",
   "theorems": [
    "C135_partial",
    "C135_selected",
    "C135_refuted"
   ],
   "note": "C135_partial and C135_selected hold of trees whose keys are UTF-8 and whose orphans are as in C64; a key that is not UTF-8 comes back as another (C135_refuted). JSON.parse is any function that reads RFC 8259 texts; JSON.stringify by its specification. The clipboard is not modelled."
  },
  {
   "property": "C136",
   "status": "proved",
   "theorems": [
    "C136_page",
    "C136_typed_refuted"
   ],
   "note": "C136_page for the addresses that the pages lead to, C136 for all addresses of one path and one query that write the mode without escapes; addresses typed otherwise can defeat the script (C136_typed_refuted)."
  },
  {
   "property": "C137",
   "status": "partial",
   "theorems": [
    "C137_partial",
    "C137_refuted"
   ],
   "note": "C137_partial: every position of the slider asks for one window, which is the one in the heading exactly if the two ends are symmetrical; otherwise the heading is wrong (C137_refuted: \"0-24 hours ago\" shows 72 to 48 hours ago)."
  },
  {
   "property": "C138",
   "status": "proved",
   "theorems": [
    "C138_link",
    "C138_errors"
   ],
   "note": "The Aggregator is any function of the window. The result's times have 64 bits and its trace IDs are IDs. The DataTables script that draws the rows is not modelled."
  },
  {
   "property": "C139",
   "status": "partial",
   "theorems": [
    "C139_partial",
    "C139_lines",
    "C139_refuted"
   ],
   "note": "C139_partial says for every sequence of clicks which boxes are ticked; it alternates as long as no box is clicked by hand. After unticking all by hand it has no effect (C139_refuted)."
  },
  {
   "property": "C140",
   "status": "proved",
   "theorems": [
    "C140_stored",
    "C140_all"
   ],
   "note": "C140_stored gives the table; C140_all says that it covers every value of the library's event types that an event can be read back into (headers are a map with distinct keys, times are those RFC 3339 can write). The texts of times are those of C60."
  },
  {
   "property": "C141",
   "status": "partial",
   "theorems": [
    "C141_partial",
    "C141_refuted"
   ],
   "note": "Refuted as stated: C141_refuted, n requests may all find the trace missing before any of them has collected, and then every annotation is shown n times. C141_partial: under every interleaving the trace is shown with every span under its parent and each annotation repeated k times, where k is the number of requests that asked before its first span arrived, and k is at least 1. Siblings are given up to order."
  },
  {
   "property": "C142",
   "status": "partial",
   "theorems": [
    "C142_partial",
    "C142_refuted"
   ],
   "note": "C142_partial: names, messages, logs and SQL statements sent as documented are read as sent. C142_refuted: HTTP events sent with the documented keys are read as empty events, whatever their contents, as the library's own events have a further prefix in their keys."
  },
  {
   "property": "C143",
   "status": "partial",
   "theorems": [
    "C143_partial",
    "C143_shown_partial",
    "C143_writes",
    "C143_refuted",
    "C143_missing_refuted"
   ],
   "note": "Refuted as stated, for complete traces whose children arrive before their parents: C143_refuted, a span is shown twice, where it was held and where it was moved; C143_missing_refuted, a span that the trace had is not shown. C143_partial: if spans arrive parents first, the page shows a tree between what the trace was when it was looked up and what it is in the end. C143_shown_partial: in any order of arrival, only spans of the trace are shown, each with the annotations it had, followed by some of those that came. Both also when the trace is deleted, and perhaps collected again, meanwhile: the end is then the deletion. C143_writes: the single writes of the model end in the state of the store's model. Each read sees one of the values written; torn reads of slice headers, which Go's memory model allows for such a race, are not modelled."
  },
  {
   "property": "C144",
   "status": "proved",
   "theorems": [
    "C144_client",
    "C144_server"
   ],
   "note": "C144_client, C144_server. The times are those of a clock between the years 0 and 9999; lengths and codes are 64-bit numbers. If two header names differ in their case only, it is left open which is shown. For a server that got a span ID, the request is told as it came in, otherwise as the handler left it. The status told is the last one given (C57)."
  },
  {
   "property": "C145",
   "status": "partial",
   "theorems": [
    "C145_partial",
    "C145_refuted"
   ],
   "note": "Refuted as stated: C145_refuted, the next Collect for the oldest trace deletes what it had. C145_partial: the refused Collect has no effect on the underlying store, and none on later calls as long as nothing is collected for that one trace."
  },
  {
   "property": "C146",
   "status": "partial",
   "theorems": [
    "C146_kept",
    "C146_partial",
    "C146_refuted"
   ],
   "note": "Refuted as stated: C146_refuted, and C146_kept: in every execution a trace whose deletion failed, and for which nothing more is collected, stays with all its spans. C146_partial: if something is collected for it, a pass more than MinEvictAge later tries again."
  },
  {
   "property": "C147",
   "status": "partial",
   "theorems": [
    "C147_link_partial",
    "C147_refuted",
    "C147_named",
    "C147_calls"
   ],
   "note": "Refuted as stated: C147_refuted, for an --appdash-http with a host the links name a host that does not exist (localhost127.0.0.1). C147_link_partial: for addresses without a host, as by default, every page has a link to localhost at that port, to the page of the trace for which its request was collected. C147_calls: the trace of the page with the API calls. C147_named: the names."
  },
  {
   "property": "C148",
   "status": "partial",
   "theorems": [
    "C148_refuted",
    "C148_decisions",
    "C148_partial"
   ],
   "note": "Refuted as stated: C148_refuted, the new trace is evicted by the age of the deleted one, since Delete does not reset the time the trace ID was first seen. C148_partial: while no span ever collected for the ID has reached the age, the store shows exactly what the users' own Collect and Delete calls leave. C148_decisions: users' deletions do not change what is evicted."
  },
  {
   "property": "C149",
   "status": "partial",
   "theorems": [
    "C149_partial",
    "C149_ends",
    "C149_refuted"
   ],
   "note": "C149_partial with C149_ends: in every execution some goroutine can go on until all are done, and no execution is endless, if dialling, the disk and the user's functions return. False while a store is written that has a trace with a parent cycle (C149_refuted, see C73). What the calls compute is left out of this model: all branches are possible."
  },
  {
   "property": "C150",
   "status": "proved",
   "theorems": [
    "C150_recording_returns",
    "C150_direct"
   ],
   "note": "C150_recording_returns, for any number of hanging servers, files and clients; with C149_ends. C150_direct: not so for a RemoteCollector without ChunkedCollector."
  },
  {
   "property": "C151",
   "status": "partial",
   "theorems": [
    "C151_json",
    "C151_pages",
    "C151_errors",
    "C151_data_partial",
    "C151_dashboard_partial",
    "C151_refuted",
    "C151_profile_partial"
   ],
   "note": "C151_pages and C151_errors for all pages and errors; C151_json: a JSON array or object is never guessed to be a page, a script, XML or an image. False of data (C151_refuted): it is written without a Content-Type, and a name with LP at the right place makes it a font; C151_data_partial, C151_dashboard_partial and C151_profile_partial say exactly when. net/http's guess is modelled as of Go 1.12."
  },
  {
   "property": "C152",
   "status": "proved",
   "theorems": [
    "C152_rows"
   ],
   "note": "C152, for the addresses that the router makes; the times themselves are those of C60."
  },
  {
   "property": "C153",
   "status": "partial",
   "theorems": [
    "C153_partial",
    "C153_markup",
    "C153_refuted"
   ],
   "note": "C153_partial: names without < and & are shown as they are. False in general (C153_refuted, C153_markup): bootstrap-table 1.6.0 puts values into the page as markup, so that a name that starts with a tag becomes one. The table library is not in the repository: its one step is modelled from its documentation."
  },
  {
   "property": "C154",
   "status": "proved",
   "theorems": [
    "C154_whole_recordings",
    "C154_short_writes_needed"
   ],
   "note": "C154_whole_recordings; that none is shown more often than recorded is for connections on which a failed write has not written everything, as it is for TCP and TLS connections (short_writes); C154_short_writes_needed shows that it would be false otherwise."
  },
  {
   "property": "C155",
   "status": "proved",
   "theorems": [
    "C155_chart"
   ],
   "note": "C155_chart; the values are those of C61. d3pie itself is not modelled."
  },
  {
   "property": "C156",
   "status": "partial",
   "theorems": [
    "C156_passes_partial",
    "C156_length_partial",
    "C156_hijack_refuted",
    "C156_length_refuted"
   ],
   "note": "C156_passes_partial for handlers that look for no optional interface but Flusher, if the server's writer implements that; C156_length_partial if every Write accepts all its bytes; C156_hijack_refuted and C156_length_refuted: not without these conditions."
  },
  {
   "property": "C157",
   "status": "proved",
   "theorems": [
    "C157_starts",
    "C157_recorded",
    "C157_kept"
   ],
   "note": "C157_starts, C157_kept, C157_recorded. Process crashes, as in C21. That later spans of a restored trace are lost is C20."
  },
  {
   "property": "C158",
   "status": "partial",
   "theorems": [
    "C158_capacity_recent",
    "C158_capacity_limit",
    "C158_recent_partial",
    "C158_limit_partial",
    "C158_recent_refuted",
    "C158_limit_refuted"
   ],
   "note": "C158_capacity_recent and C158_capacity_limit: never more than Max, in either order. C158_recent_partial and C158_limit_partial: a trace none of whose spans has reached the age, and since whose first span fewer than Max others have come, is complete. False of trace IDs that come back after their eviction: C158_recent_refuted and C158_limit_refuted, a young trace that is alone in the store is deleted, since the LimitStore counts its place from before. Non-zero trace IDs, see C24; the MemoryStore's Delete does not fail."
  },
  {
   "property": "C159",
   "status": "proved",
   "theorems": [
    "C159_shown",
    "C159_unsampled"
   ],
   "note": "C159_shown, for traces whose spans are all finished, whose Collect calls the collector accepts, whose span numbers are distinct and not zero and whose ID nobody else uses. C159_unsampled: nothing is collected for the others. The tracer is basictracer's, modelled after its documentation, as in C126."
  },
  {
   "property": "C160",
   "status": "proved",
   "theorems": [
    "C160_page",
    "C160_named"
   ],
   "note": "C160_page, from the request to the page that the link leads to. gorilla/mux and negroni are modelled as far as the two routes and other clean paths; the IDs drawn are distinct and not zero; net/http as in C115. C160_named: the names."
  },
  {
   "property": "C161",
   "status": "partial",
   "theorems": [
    "C161_addresses_partial",
    "C161_others_partial",
    "C161_urls_partial",
    "C161_relative_partial",
    "C161_files_partial",
    "C161_static_refuted",
    "C161_references_refuted"
   ],
   "note": "C161_addresses_partial, C161_others_partial, C161_urls_partial, C161_relative_partial, C161_files_partial: addresses, URLs and references relative to a base URL that ends with a slash. C161_static_refuted: below any prefix no static file is served, as only \"/static/\" is stripped. C161_references_refuted: references written from the root of the site (the upload form, the dashboard's data, the first page's) lead out of the application, and the prefix without a slash is not found. gorilla/mux is modelled after its documentation; no variables in the prefix."
  },
  {
   "property": "C162",
   "status": "proved",
   "theorems": [
    "C162_no_silent_loss",
    "C162_flush_nil_shown",
    "C162_everything_shown",
    "C162_delivery_needed",
    "C162_recent",
    "C162_recent_everything",
    "C162_recent_tree",
    "C162_tree"
   ],
   "note": "C162_no_silent_loss: the five fates of a recording; C162_flush_nil_shown; C162_everything_shown: exact multisets, if failed writes are short (as in C154). C162_tree: the tree, when the recorded spans make up one. C162_recent, C162_recent_everything: the same for a server with a RecentStore (serve --delete-after), for traces that are not older than MinEvictAge. Parent cycles among the recorded spans are excluded, as such spans are not shown (C10). C162_delivery_needed: without the assumption on the network a Flush that returned nil may have been for nothing, since the server does not acknowledge."
  },
  {
   "property": "C163",
   "status": "proved",
   "theorems": [
    "C163_recent",
    "C163_recent_possible",
    "C163_one_trace",
    "C163_possible"
   ],
   "note": "C163_one_trace; C163_possible: every chain of requests, in every distribution over services whose connections break before each packet, meets the hypotheses if its packets are within the server's limit; C163_nonvacuous: a concrete one. C163_recent: the same through a RecentStore that has not found the trace old; C163_recent_possible."
  }
 ]
}