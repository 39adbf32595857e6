{
 "claims": [
  {
   "property": "C01",
   "status": "proved",
   "theorems": [
    "C01_roundtrip",
    "C01_only_unlimited_on_wire",
    "C01_ttl_constants"
   ],
   "note": ""
  },
  {
   "property": "C02",
   "status": "proved",
   "theorems": [
    "C02_accepts_iff",
    "C02_result",
    "C02_terminates",
    "C02_no_panic",
    "C02_panics",
    "C02_never_panics_refuted",
    "C02_version"
   ],
   "note": "Never-panics is false on inputs whose length prefix overflows int; exact guard proved."
  },
  {
   "property": "C03",
   "status": "proved",
   "theorems": [
    "C03_new",
    "C03_isolation"
   ],
   "note": ""
  },
  {
   "property": "C04",
   "status": "proved",
   "theorems": [
    "C04_valid",
    "C04_new_key",
    "C04_zero_key_refuted"
   ],
   "note": "The zero Key (not built by NewKey) can put an empty name in a map."
  },
  {
   "property": "C05",
   "status": "proved",
   "theorems": [
    "C05_same_row_iff",
    "C05_row_tags",
    "C05_long_values_refuted"
   ],
   "note": "Values of at most 255 bytes, as the tag package enforces (C04)."
  },
  {
   "property": "C06",
   "status": "proved",
   "theorems": [
    "C06_group_by",
    "C06_no_panic"
   ],
   "note": ""
  },
  {
   "property": "C07",
   "status": "proved",
   "theorems": [
    "C07_count",
    "C07_count_wraps",
    "C07_sum",
    "C07_sum_exact",
    "C07_last",
    "C07_int_sum",
    "C07_int_sum_refuted",
    "C07_sum_error",
    "C07_sum_order",
    "C07_order_refuted"
   ],
   "note": "C07_sum_error and C07_sum_order are about float64 and at most 2^52 recordings whose sizes add up to at most 2^1022. Sums of integers are exact while they stay within 2^53; beyond that recordings are lost (refuted case)."
  },
  {
   "property": "C08",
   "status": "proved",
   "theorems": [
    "C08_shape",
    "C08_buckets",
    "C08_partition",
    "C08_total"
   ],
   "note": ""
  },
  {
   "property": "C09",
   "status": "proved",
   "theorems": [
    "C09_min",
    "C09_max",
    "C09_max_refuted",
    "C09_min_refuted"
   ],
   "note": "Max fails when every sample is <= 0; Min fails when every sample is +Inf (refuted cases)."
  },
  {
   "property": "C10",
   "status": "proved",
   "theorems": [
    "C10_welford",
    "C10_mean_bounds",
    "C10_mean_min_max",
    "C10_mean_error",
    "C10_ssd_nonneg",
    "C10_ssd_error",
    "C10_sum_error",
    "C10_sum_refuted",
    "C10_mean_refuted"
   ],
   "note": "C10_welford is over exact rationals; the others are about float64. The error of SumOfSquaredDev is bounded for samples of size at most 2^480, so that squares do not overflow. Sums of integers are not exact (C10_sum_refuted) and means of values beyond 2^1022 may be infinite or NaN (C10_mean_refuted)."
  },
  {
   "property": "C11",
   "status": "proved",
   "theorems": [
    "C11_exemplars"
   ],
   "note": ""
  },
  {
   "property": "C12",
   "status": "proved",
   "theorems": [
    "C12_snapshot_isolated",
    "C12_row_isolated",
    "C12_user_writes_invisible"
   ],
   "note": ""
  },
  {
   "property": "C13",
   "status": "proved",
   "theorems": [
    "C13_register_one",
    "C13_register_keeps",
    "C13_invalid_registers_nothing",
    "C13_register_error_iff",
    "C13_unique_names",
    "C13_different_keys_refuted",
    "C13_equal_definition_refuted",
    "C13_unregister_by_name_refuted"
   ],
   "note": "The code compares only name, measure and aggregation pointer, and unregisters by name: three refuted readings recorded."
  },
  {
   "property": "C14",
   "status": "proved",
   "theorems": [
    "C14_meter_answers",
    "C14_retrieve_since_registration",
    "C14_unregister"
   ],
   "note": ""
  },
  {
   "property": "C15",
   "status": "proved",
   "theorems": [
    "C15_exactly_once_in_order",
    "C15_fifo",
    "C15_linearizable",
    "C15_replies",
    "C15_bounded_queue",
    "C15_no_panic",
    "C15_no_deadlock",
    "C15_terminates",
    "C15_finished",
    "C15_stop_loses_calls_refuted",
    "C15_record_after_stop_refuted",
    "C15_concurrent_stop_refuted"
   ],
   "note": "Holds without Stop; with Stop calls can hang or panic (refuted cases)."
  },
  {
   "property": "C16",
   "status": "proved",
   "theorems": [
    "C16_record",
    "C16_record_with_options",
    "C16_record_with_tags",
    "C16_delivered",
    "C16_drop_unobservable",
    "C16_zero_measurement",
    "C16_unlinked",
    "C16_zero_measurement_refuted"
   ],
   "note": ""
  },
  {
   "property": "C17",
   "status": "proved",
   "theorems": [
    "C17_canonical_form",
    "C17_rejected_iff"
   ],
   "note": ""
  },
  {
   "property": "C18",
   "status": "proved",
   "theorems": [
    "C18_read",
    "C18_type_table",
    "C18_point",
    "C18_start",
    "C18_int_sum",
    "C18_int_last",
    "C18_trunc",
    "C18_int_last_refuted"
   ],
   "note": "Integers beyond 2^53 are shown as others; out of range conversions are those of amd64 (refuted case)."
  },
  {
   "property": "C19",
   "status": "proved",
   "theorems": [
    "C19_same_entry_iff",
    "C19_long_values_refuted"
   ],
   "note": "Values shorter than 255 bytes; longer ones collide (refuted case)."
  },
  {
   "property": "C20",
   "status": "proved",
   "theorems": [
    "C20_read",
    "C20_entries",
    "C20_constant_labels",
    "C20_long_value_read_panics_refuted"
   ],
   "note": "A 255-byte value makes Read panic (refuted case)."
  },
  {
   "property": "C21",
   "status": "proved",
   "theorems": [
    "C21_every_call_once",
    "C21_int_value",
    "C21_int_never_decreases",
    "C21_float_value",
    "C21_float_never_decreases",
    "C21_int_overflow_refuted",
    "C21_float_nan_refuted"
   ],
   "note": "Integers while the sum stays below 2^63, floats for increments that are numbers; both limits refuted beyond. Float monotonicity rests on the standard library's real number axioms (through Flocq)."
  },
  {
   "property": "C22",
   "status": "proved",
   "theorems": [
    "C22_linearizable",
    "C22_no_deadlock",
    "C22_terminates"
   ],
   "note": ""
  },
  {
   "property": "C23",
   "status": "proved",
   "theorems": [
    "C23_same_entry_iff",
    "C23_read",
    "C23_no_panic",
    "C23_read_upserts",
    "C23_shared_append_refuted",
    "C23_upsert_window_refuted"
   ],
   "note": "Holds when append has no spare slot to share; refuted with three constant labels, and for UpsertEntry's delete-then-store."
  },
  {
   "property": "C24",
   "status": "proved",
   "theorems": [
    "C24_add",
    "C24_one_type",
    "C24_read_types",
    "C24_readd_hides_entries_refuted",
    "C24_concurrent_add_refuted",
    "C24_concurrent_add",
    "C24_add_after"
   ],
   "note": "Adding a name again with the same type replaces the metric and hides its entries (refuted case)."
  },
  {
   "property": "C25",
   "status": "proved",
   "theorems": [
    "C25_arity",
    "C25_series_arity"
   ],
   "note": ""
  },
  {
   "property": "C26",
   "status": "proved",
   "theorems": [
    "C26_nonzero",
    "C26_unique",
    "C26_retry",
    "C26_trace_id_zero_refuted"
   ],
   "note": "NewTraceID can return the zero ID (refuted case)."
  },
  {
   "property": "C27",
   "status": "proved",
   "theorems": [
    "C27_identity",
    "C27_context_constant",
    "C27_exported",
    "C27_one_trace",
    "C27_zero_trace_refuted"
   ],
   "note": "A parent with a zero trace ID but another non-zero field counts as a parent (refuted case)."
  },
  {
   "property": "C28",
   "status": "proved",
   "theorems": [
    "C28_decision",
    "C28_inherited",
    "C28_own_sampler",
    "C28_default_sampler",
    "C28_always",
    "C28_never",
    "C28_unconfigured"
   ],
   "note": ""
  },
  {
   "property": "C29",
   "status": "proved",
   "theorems": [
    "C29_decision",
    "C29_sampled_parent",
    "C29_trace_id_only",
    "C29_monotone",
    "C29_none",
    "C29_all",
    "C29_count"
   ],
   "note": "Rests on the standard library's real number axioms (through Flocq)."
  },
  {
   "property": "C30",
   "status": "proved",
   "theorems": [
    "C30_at_most_once",
    "C30_only_registered",
    "C30_exported_once",
    "C30_nothing_else",
    "C30_second_end",
    "C30_end_progress"
   ],
   "note": ""
  },
  {
   "property": "C31",
   "status": "proved",
   "theorems": [
    "C31_newest_kept"
   ],
   "note": ""
  },
  {
   "property": "C32",
   "status": "proved",
   "theorems": [
    "C32_last_write",
    "C32_report_reorders_refuted"
   ],
   "note": "ReportActiveSpans changes which keys are kept (refuted case)."
  },
  {
   "property": "C33",
   "status": "proved",
   "theorems": [
    "C33_children"
   ],
   "note": ""
  },
  {
   "property": "C34",
   "status": "proved",
   "theorems": [
    "C34_inert",
    "C34_not_recording",
    "C34_removable",
    "C34_no_panic",
    "C34_nil_internal_refuted"
   ],
   "note": "NewSpan(nil) gives a span whose methods panic (refuted case)."
  },
  {
   "property": "C35",
   "status": "proved",
   "theorems": [
    "C35_config",
    "C35_positive"
   ],
   "note": ""
  },
  {
   "property": "C36",
   "status": "proved",
   "theorems": [
    "C36_registered",
    "C36_published",
    "C36_atomic",
    "C36_snapshot",
    "C36_no_deadlock",
    "C36_unhashable_refuted"
   ],
   "note": "An exporter that cannot be a map key panics with the mutex locked (refuted case)."
  },
  {
   "property": "C37",
   "status": "proved",
   "theorems": [
    "C37_bucket",
    "C37_bounded",
    "C37_newest",
    "C37_resize",
    "C37_rate"
   ],
   "note": ""
  },
  {
   "property": "C38",
   "status": "proved",
   "theorems": [
    "C38_partition",
    "C38_tiling"
   ],
   "note": ""
  },
  {
   "property": "C39",
   "status": "proved",
   "theorems": [
    "C39_active",
    "C39_one_bucket"
   ],
   "note": ""
  },
  {
   "property": "C40",
   "status": "proved",
   "theorems": [
    "C40_by_latency",
    "C40_by_error",
    "C40_all_errors",
    "C40_stored_finished",
    "C40_renamed_refuted"
   ],
   "note": "A span renamed by SetName stays in the store of its first name (refuted case)."
  },
  {
   "property": "C41",
   "status": "proved",
   "theorems": [
    "C41_roundtrip",
    "C41_zero",
    "C41_accepts_iff",
    "C41_no_panic"
   ],
   "note": ""
  },
  {
   "property": "C42",
   "status": "proved",
   "theorems": [
    "C42_roundtrip",
    "C42_headers",
    "C42_accepts_iff",
    "C42_header_case"
   ],
   "note": ""
  },
  {
   "property": "C43",
   "status": "proved",
   "theorems": [
    "C43_headers_roundtrip",
    "C43_wire",
    "C43_roundtrip",
    "C43_accepts_iff",
    "C43_never_zero",
    "C43_no_panic",
    "C43_tracestate_iff",
    "C43_stale_tracestate_refuted"
   ],
   "note": "A tracestate header already on the request is not removed (refuted case)."
  },
  {
   "property": "C44",
   "status": "proved",
   "theorems": [
    "C44_roundtrip",
    "C44_wire",
    "C44_accepts_iff",
    "C44_trace_id_length_refuted"
   ],
   "note": "Trace IDs of any length are accepted."
  },
  {
   "property": "C45",
   "status": "proved",
   "theorems": [
    "C45_new",
    "C45_errors",
    "C45_reachable_ok",
    "C45_heap",
    "C45_parent_unchanged"
   ],
   "note": ""
  },
  {
   "property": "C46",
   "status": "proved",
   "theorems": [
    "C46_isolation",
    "C46_values",
    "C46_shared_slice_refuted",
    "C46_caller_write_refuted"
   ],
   "note": "Isolation holds for literal arguments; refuted for slices passed with ...."
  },
  {
   "property": "C47",
   "status": "proved",
   "theorems": [
    "C47_roundtrip",
    "C47_plain_roundtrip",
    "C47_quote_roundtrip",
    "C47_no_panic",
    "C47_accepted",
    "C47_empty_refuted",
    "C47_quote_comma_refuted",
    "C47_injection_refuted",
    "C47_other_refuted"
   ],
   "note": "Round trip for every non-empty map of safe keys and values (any iteration order); the maps that do not survive (empty map, quote-comma values, a label inside a key, leading space, non-ASCII printable, over 256 bytes) are refuted with witnesses; DecodeLabels never panics or loops"
  },
  {
   "property": "C48",
   "status": "proved",
   "theorems": [
    "C48_merge",
    "C48_inputs_unmodified",
    "C48_associative",
    "C48_detect",
    "C48_detect_error"
   ],
   "note": ""
  },
  {
   "property": "C49",
   "status": "proved",
   "theorems": [
    "C49_length",
    "C49_alphabet",
    "C49_first",
    "C49_runes",
    "C49_unchanged",
    "C49_idempotent",
    "C49_idempotent_refuted",
    "C49_digit_first_refuted"
   ],
   "note": "Holds for ASCII digits; a first rune that is a non-ASCII digit gets no prefix, and idempotence fails for results over 100 bytes (both refuted with witnesses)"
  },
  {
   "property": "C50",
   "status": "proved",
   "theorems": [
    "C50_history",
    "C50_no_panic",
    "C50_one_loop",
    "C50_stop",
    "C50_serial",
    "C50_ticks",
    "C50_no_deadlock",
    "C50_calls_end",
    "C50_exporter_stop_refuted"
   ],
   "note": "Every interleaving of any number of callers, the loop and the ticker. Fails for an exporter that calls Stop on its own reader (refuted with witness)"
  },
  {
   "property": "C51",
   "status": "proved",
   "theorems": [
    "C51_get_all"
   ],
   "note": ""
  },
  {
   "property": "C52",
   "status": "proved",
   "theorems": [
    "C52_read_and_export",
    "C52_span_name"
   ],
   "note": ""
  },
  {
   "property": "C53",
   "status": "proved",
   "theorems": [
    "C53_response",
    "C53_error",
    "C53_health",
    "C53_concurrent",
    "C53_tags",
    "C53_delivered",
    "C53_sent_bytes_refuted",
    "C53_error_status_refuted",
    "C53_unread_refuted",
    "C53_long_path_refuted"
   ],
   "note": "Every sequence and every interleaving of Read and Close; composed with tag.New (C03) and RecordWithTags (C16). The documented deviations are refuted with witnesses"
  },
  {
   "property": "C54",
   "status": "proved",
   "theorems": [
    "C54_response",
    "C54_error",
    "C54_concurrent",
    "C54_exported"
   ],
   "note": "Composed with the tracer: what exporters get"
  },
  {
   "property": "C55",
   "status": "proved",
   "theorems": [
    "C55_stats",
    "C55_span",
    "C55_health",
    "C55_tags",
    "C55_delivered",
    "C55_exported",
    "C55_read_from_refuted",
    "C55_status_sent_refuted",
    "C55_panic_refuted",
    "C55_health_outer_refuted"
   ],
   "note": "Every handler behaviour, panics included"
  },
  {
   "property": "C56",
   "status": "proved",
   "theorems": [
    "C56_status",
    "C56_ok"
   ],
   "note": ""
  },
  {
   "property": "C57",
   "status": "proved",
   "theorems": [
    "C57_accounting",
    "C57_exact",
    "C57_once",
    "C57_delivered",
    "C57_no_panic",
    "C57_untagged",
    "C57_untagged_refuted",
    "C57_server_started_refuted"
   ],
   "note": "Every interleaving of HandleRPC calls; composed with RecordWithOptions (C16). Deviations refuted with witnesses"
  },
  {
   "property": "C58",
   "status": "proved",
   "theorems": [
    "C58_client",
    "C58_server",
    "C58_continues",
    "C58_public",
    "C58_forwarded_refuted",
    "C58_events",
    "C58_span",
    "C58_exported"
   ],
   "note": "Composed with Binary/FromBinary (C41) and the tracer; a value already in the metadata wins (refuted with witness)"
  },
  {
   "property": "C59",
   "status": "proved",
   "theorems": [
    "C59_status",
    "C59_injective",
    "C59_valid",
    "C59_other_error_refuted",
    "C59_canonical",
    "C59_canonical_injective"
   ],
   "note": ""
  },
  {
   "property": "C60",
   "status": "proved",
   "theorems": [
    "C60_rows",
    "C60_summary",
    "C60_header",
    "C60_per_method",
    "C60_columns",
    "C60_latency",
    "C60_agree",
    "C60_found",
    "C60_active",
    "C60_errors",
    "C60_no_panic",
    "C60_minute_refuted",
    "C60_bound_refuted",
    "C60_negative_refuted"
   ],
   "note": "The claim is refuted with three witnesses; C60_agree proves it for all other latencies and C60_latency says exactly what is listed"
  },
  {
   "property": "C61",
   "status": "proved",
   "theorems": [
    "C61_read",
    "C61_names_distinct",
    "C61_default_memory_refuted",
    "C61_release_refuted"
   ],
   "note": "C61_read gives, for every options and history, the exact metrics and values; the claim is proved with UseDerivedCumulative and refuted without it: every memory metric stays 0 forever. Concurrent Reads of one producer (a data race in the code) are not modelled"
  },
  {
   "property": "C62",
   "status": "proved",
   "theorems": [
    "C62_continues",
    "C62_public"
   ],
   "note": "B3, W3C TraceContext and Stackdriver formats"
  },
  {
   "property": "C63",
   "status": "proved",
   "theorems": [
    "C63_writer",
    "C63_body"
   ],
   "note": ""
  },
  {
   "property": "C64",
   "status": "proved",
   "theorems": [
    "C64_headers",
    "C64_format"
   ],
   "note": ""
  },
  {
   "property": "C65",
   "status": "proved",
   "theorems": [
    "C65_arrives",
    "C65_sent",
    "C65_malformed",
    "C65_no_panic",
    "C65_remote_panic_refuted"
   ],
   "note": "The remote panic is refuted with a witness; C65_no_panic characterises exactly when it happens"
  },
  {
   "property": "C66",
   "status": "proved",
   "theorems": [
    "C66_rows",
    "C66_width",
    "C66_elapsed",
    "C66_blanks_refuted",
    "C66_sign_refuted"
   ],
   "note": "fmt, the local date and html are arguments or outside; short elapsed times are refuted with witnesses"
  },
  {
   "property": "C67",
   "status": "proved",
   "theorems": [
    "C67_page",
    "C67_method",
    "C67_isolated",
    "C67_count",
    "C67_errors",
    "C67_server_input_never",
    "C67_server_input_refuted"
   ],
   "note": "C67_count and C67_errors use Flocq and so the axioms of the real numbers"
  },
  {
   "property": "C68",
   "status": "proved",
   "theorems": [
    "C68_enable_never_fails",
    "C68_one_producer",
    "C68_current_enabled"
   ],
   "note": "Enable and Disable are one step each, as their lock makes them"
  },
  {
   "property": "C69",
   "status": "proved",
   "theorems": [
    "C69_no_panic",
    "C69_tags_stable",
    "C69_rows",
    "C69_count"
   ],
   "note": "one action of the process is one API call, with the delivery handled by the worker in the same action; C15 covers the queue in between"
  },
  {
   "property": "C70",
   "status": "proved",
   "theorems": [
    "C70_completed",
    "C70_started",
    "C70_distribution",
    "C70_buckets",
    "C70_server_latency_never",
    "C70_views",
    "C70_metrics",
    "C72_measures",
    "C72_custom_view",
    "C70_history",
    "C70_no_panic",
    "C70_server_method_refuted"
   ],
   "note": "C70_distribution: the row's data are the aggregation of the values of exactly the RPCs finished since, in some order; C70_buckets gives count and histogram and uses the axioms of the real numbers; the server's methods must be legal tag values, what happens otherwise is refuted with a witness"
  },
  {
   "property": "C71",
   "status": "proved",
   "theorems": [
    "C71_from_env",
    "C71_trimmed",
    "C71_roundtrip"
   ],
   "note": "the environment variables are arguments"
  },
  {
   "property": "C72",
   "status": "proved",
   "theorems": [
    "C72_count",
    "C72_distribution",
    "C72_buckets",
    "C72_views",
    "C72_metrics",
    "C72_history",
    "C72_no_panic",
    "C72_measures",
    "C72_custom_view",
    "C72_method_refuted",
    "C72_route_refuted"
   ],
   "note": "C72_count allows overlapping calls of Read and Close; C72_distribution and C72_buckets exclude them, because tracker.Read adds to the size without synchronisation; C72_buckets uses the axioms of the real numbers; for views by method host, path and method must be legal tag values, what happens otherwise is refuted with a witness"
  },
  {
   "property": "C73",
   "status": "proved",
   "theorems": [
    "C73_panic",
    "C73_latest",
    "C73_one_label",
    "C73_process",
    "C73_one_key_samples",
    "C73_labels_refuted"
   ],
   "note": "sort.Slice is an argument (any sorting by key); C73_one_label and C73_one_key_samples: with at most one label key no two series can be confused; what happens otherwise is refuted with a witness"
  },
  {
   "property": "C74",
   "status": "proved",
   "theorems": [
    "C74_exported"
   ],
   "note": "the texts of durations, addresses and errors are arguments"
  },
  {
   "property": "C75",
   "status": "proved",
   "theorems": [
    "C75_read",
    "C75_effects",
    "C75_commands",
    "C75_progress",
    "C75_resource_refuted"
   ],
   "note": "a step is what happens between two operations another goroutine can see; the unsynchronised accesses to the collector's map and to w.r, data races in Go, are taken to be sequentially consistent; SetResource during a Read is refuted with a witness"
  },
  {
   "property": "C76",
   "status": "proved",
   "theorems": [
    "C76_linearizable",
    "C76_identity",
    "C76_stable",
    "C76_record_only_if",
    "C76_record_if",
    "C76_by_name",
    "C76_no_panic",
    "C76_foreign_refuted",
    "C76_progress"
   ],
   "note": "one step is one operation another goroutine can see; the subscription to a foreign Measure is refuted with a witness"
  },
  {
   "property": "C77",
   "status": "proved",
   "theorems": [
    "C77_registered_views_keep",
    "C77_unshared",
    "C77_overlap_refuted",
    "C77_overlap_rows_refuted"
   ],
   "note": "C77_unshared: without sharing this model agrees with that of C17, which the other view properties use; slices that overlap in part are refuted with a witness"
  },
  {
   "property": "C78",
   "status": "proved",
   "theorems": [
    "C78_as_called",
    "C78_single_arguments",
    "C78_in_order",
    "C78_attachments",
    "C78_reused_slice_refuted",
    "C78_rewritten_attachments_refuted"
   ],
   "note": "data races in Go are taken to be sequentially consistent; reuse of the slice or the map is refuted with witnesses"
  },
  {
   "property": "C79",
   "status": "proved",
   "theorems": [
    "C79_identifiers",
    "C79_identity",
    "C79_identity_read",
    "C79_spans",
    "C79_summary",
    "C79_summary_empty",
    "C79_number",
    "C79_links",
    "C79_first_value",
    "C79_no_name",
    "C79_empty_name_refuted",
    "C79_forged_refuted",
    "C79_name_refuted",
    "C79_rpcz_text",
    "C79_rpcz_columns_refuted"
   ],
   "note": "cells are what tabwriter gets: its padding is not modelled; the texts of durations, two-digit floats and times of day are arguments"
  },
  {
   "property": "C80",
   "status": "proved",
   "theorems": [
    "C80_rate",
    "C80_count",
    "C80_count_order",
    "C80_unit_refuted",
    "C80_latency",
    "C80_data_rate",
    "C80_row",
    "C80_kb_refuted"
   ],
   "note": "strconv's %.3f is modelled as exact rounding of the binary value; C80_latency is for latencies from -10^15 ns, C80_data_rate for rates up to 2^50 bytes per second"
  },
  {
   "property": "C81",
   "status": "proved",
   "theorems": [
    "C81_hang",
    "C81_record",
    "C81_resource",
    "C81_read_tick",
    "C81_read_unregister",
    "C81_record_refuted",
    "C81_no_deadlock",
    "C81_terminates",
    "C81_all_return"
   ],
   "note": "exporters call only methods of the meter that calls them; the synchronising operations are modelled, not the data; that a meter works as documented whatever the exporter calls is refuted with a witness"
  },
  {
   "property": "C82",
   "status": "proved",
   "theorems": [
    "C82_total",
    "C82_attributes",
    "C82_annotations",
    "C82_links",
    "C82_rest",
    "C82_exported",
    "C82_start",
    "C82_link_refuted",
    "C82_shared_refuted"
   ],
   "note": "one span; maps that come from a SpanData are not passed to AddLink; that links are safe from writes of the program, and SpanData from edits of others, is refuted with witnesses"
  },
  {
   "property": "C83",
   "status": "proved",
   "theorems": [
    "C83_equal",
    "C83_close",
    "C83_symmetric",
    "C83_copy",
    "C83_copy_refuted",
    "C83_order_refuted",
    "C83_transitive_refuted",
    "C83_bounds_refuted",
    "C83_nil_refuted"
   ],
   "note": "math.Pow(x, 2) is modelled as the rounded product: they differ only in subnormal results; the data of a row is not nil"
  },
  {
   "property": "C84",
   "status": "proved",
   "theorems": [
    "C84_race_free",
    "C84_deadlock_free",
    "C84_bounded",
    "C84_returns",
    "C84_exporter_refuted"
   ],
   "note": "atomic fields are no accesses; the deadlock theorems are for exporters that do not End recording spans in ExportSpan; that any exporter is safe is refuted with a witness"
  },
  {
   "property": "C85",
   "status": "proved",
   "theorems": [
    "C85_races",
    "C85_race_free",
    "C85_one_meter",
    "C85_unregister_refuted",
    "C85_resource_refuted",
    "C85_meters_refuted",
    "C85_views_refuted"
   ],
   "note": "calls do not wait for the answer in this model: it has more schedules than the program; the fields that user code reads itself are not modelled"
  },
  {
   "property": "C86",
   "status": "proved",
   "theorems": [
    "C86_isolation",
    "C86_tame",
    "C86_valid",
    "C86_mutate",
    "C86_mutate_refuted",
    "C86_custom_refuted",
    "C86_new",
    "C86_custom_error",
    "C86_mutate_error",
    "C86_do",
    "C86_do_refuted",
    "C86_labels_refuted",
    "C86_value",
    "C86_encode",
    "C86_string"
   ],
   "note": "Mutate on the map of a context, or a mutator that returns the map of another, changes contexts in place; Do panics without tags and keeps labels of deleted tags (refuted cases)."
  },
  {
   "property": "C87",
   "status": "proved",
   "theorems": [
    "C87_rows",
    "C87_read",
    "C87_export",
    "C87_restart",
    "C87_sum_refuted",
    "C87_restart_refuted"
   ],
   "note": "sums do go back when negative values are recorded, although their metric type is cumulative; a Record overtaken by Unregister and Register gives a series a start before the end of the previous one: both refuted with a witness"
  },
  {
   "property": "C88",
   "status": "proved",
   "theorems": [
    "C88_pages",
    "C88_others",
    "C88_panics",
    "C88_twice",
    "C88_relative",
    "C88_relative_refuted",
    "C88_stylesheet",
    "C88_stylesheet_missing",
    "C88_enabled",
    "C88_handler",
    "C88_target",
    "C88_dotted",
    "C88_untidy",
    "C88_slash",
    "C88_own",
    "C88_templates"
   ],
   "note": "http.ServeMux is modelled as in Go before 1.22, without CONNECT; that a prefix without a slash at its start works like one with it is refuted with a witness; a prefix with empty, dot or dot-dot elements works like the tidy one it leads to (C88_dotted)"
  },
  {
   "property": "C89",
   "status": "proved",
   "theorems": [
    "C89_all_or_nothing",
    "C89_ids",
    "C89_no_orphans",
    "C89_rooted",
    "C89_one_root",
    "C89_children",
    "C89_children_all",
    "C89_sampler_refuted"
   ],
   "note": "different non-zero span IDs are a hypothesis, proved for the default generator in C26; one root per trace also needs different trace IDs; without the condition on samplers it is refuted with a witness"
  }
 ]
}
