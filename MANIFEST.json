{"claims": [
 {"property": "C01", "status": "proved", "theorems": ["C01_id_text_roundtrip"], "note": ""},
 {"property": "C02", "status": "proved", "theorems": ["C02_parse_exact", "C02_parse_injective", "C02_parse_rejects", "C02_unmarshal_exact"], "note": ""},
 {"property": "C03", "status": "proved", "theorems": ["C03_binary_roundtrip"], "note": ""},
 {"property": "C04", "status": "proved", "theorems": ["C04_binary_truncation"], "note": ""},
 {"property": "C05", "status": "proved", "theorems": ["C05_binary_terminates", "C05_binary_local"], "note": ""},
 {"property": "C06", "status": "proved", "theorems": ["C06_varint_shape", "C06_varint_prefix_free"], "note": ""},
 {"property": "C07", "status": "proved", "theorems": ["C07_binary_injective"], "note": ""},
 {"property": "C08", "status": "proved", "theorems": ["C08_messages_never_overwritten"], "note": ""},
 {"property": "C09", "status": "proved", "theorems": ["C08_messages_never_overwritten", "C09_sharding_key"], "note": ""},
 {"property": "C10", "status": "proved", "theorems": ["C10_consumer_exact", "C10_marked_after_callback"], "note": ""},
 {"property": "C11", "status": "proved", "theorems": ["C11_kafka_transparent"], "note": "Kafka itself is assumed to deliver the bytes it read, in order"},
 {"property": "C12", "status": "proved", "theorems": ["C12_lookup_returns_asked", "C12_lookups_return"], "note": "all interleavings of the two critical sections of a lookup"},
 {"property": "C13", "status": "proved", "theorems": ["C13_interned_forever"], "note": "callers overwrite buffers between lookups; no-copy lookups only on arrays not written again (the only call site)"},
 {"property": "C14", "status": "proved", "theorems": ["C14_recency_list", "C14_ideal_determined"], "note": "pointer-level list refines the ideal recency list"},
 {"property": "C15", "status": "proved", "theorems": ["C14_recency_list"], "note": "count, size and bound are conjuncts of the same theorem"},
 {"property": "C16", "status": "partial", "theorems": ["C16_set_returns_refuted", "C16_hangs_for_nonpositive_limits", "C16_set_returns"], "note": "Refuted as stated: false for limits <= 0 (endless loop); proved for positive limits"},
 {"property": "C17", "status": "proved", "theorems": ["C17_split_independent_v2", "C17_split_independent_v1"], "note": "for bodies whose tokens fit the buffer"},
 {"property": "C18", "status": "partial", "theorems": ["C18_terminates_refuted", "C18_hangs_on_long_names", "C18_terminates_v2", "C18_terminates_v1", "C18_small_bodies", "C18_ends_or_hangs_v2", "C18_ends_or_hangs_v1", "C18_answered_or_never", "C18_never_answered"], "note": "Refuted as stated: false for tokens that do not fit the buffer (endless loop, the request is never answered); proved otherwise. In every case the parser ends after linearly many steps or never (C18_ends_or_hangs_v2, C18_ends_or_hangs_v1, C18_answered_or_never). Exactly when it never ends: C89."},
 {"property": "C19", "status": "proved", "theorems": ["C19_no_panic"], "note": ""},
 {"property": "C20", "status": "proved", "theorems": ["C20_in_place"], "note": ""},
 {"property": "C21", "status": "partial", "theorems": ["C21_escapes_refuted", "C21_simple_strings", "C21_simple_is_json", "C21_exact"], "note": "Refuted as stated: false for the escapes b f n r t and for surrogate pairs; proved for exactly the other strings (C21_exact)."},
 {"property": "C22", "status": "proved", "theorems": ["C22_skip_exact"], "note": ""},
 {"property": "C23", "status": "proved", "theorems": ["C23_v2_documents"], "note": ""},
 {"property": "C24", "status": "proved", "theorems": ["C24_v1_documents"], "note": "annotations and binaryAnnotations at most once per object; without this: C111"},
 {"property": "C25", "status": "partial", "theorems": ["C25_pool_refuted", "C25_no_leak"], "note": "Refuted as stated: false after objects repeating binaryAnnotations; proved otherwise. Documents that do not depend on the memory at all: C112."},
 {"property": "C26", "status": "proved", "theorems": ["C26_decimal"], "note": ""},
 {"property": "C27", "status": "proved", "theorems": ["C27_jaeger_spans", "C27_description_determines"], "note": "from the decoded object; encoding/json is not modelled"},
 {"property": "C28", "status": "proved", "theorems": ["C28_trace_contents", "C28_ids_independent"], "note": ""},
 {"property": "C29", "status": "proved", "theorems": ["C29_halves", "C29_hidden_by_correction"], "note": "start and duration are those of the first half; hidden by correction when all four timings are known"},
 {"property": "C30", "status": "proved", "theorems": ["C30_merge_keeps"], "note": ""},
 {"property": "C31", "status": "proved", "theorems": ["C31_terminates", "C32_path_offset"], "note": ""},
 {"property": "C32", "status": "proved", "theorems": ["C32_path_offset"], "note": ""},
 {"property": "C33", "status": "proved", "theorems": ["C33_only_times"], "note": ""},
 {"property": "C34", "status": "proved", "theorems": ["C34_centred", "C34_child_inside"], "note": ""},
 {"property": "C35", "status": "proved", "theorems": ["C35_roots", "C35_injected_root", "C35_no_injection"], "note": ""},
 {"property": "C36", "status": "proved", "theorems": ["C36_emitted_traces", "C36_emission"], "note": ""},
 {"property": "C37", "status": "proved", "theorems": ["C37_not_lost", "C37_emitted", "C37_reasons"], "note": ""},
 {"property": "C38", "status": "proved", "theorems": ["C38_emitted_idle", "C38_not_kept_long"], "note": ""},
 {"property": "C39", "status": "proved", "theorems": ["C39_buffer_time", "C39_load"], "note": ""},
 {"property": "C40", "status": "proved", "theorems": ["C40_blacklist", "C40_blacklisted_why", "C40_ignored", "C40_bounded", "C40_evicted_only_when_full"], "note": ""},
 {"property": "C41", "status": "partial", "theorems": ["C41_inflight_refuted", "C41_counted", "C41_guarded"], "note": "Refuted as stated: False for real span counts, because the counter of a trace has 16 bits; true for the counters, and for spans while each trace has fewer than 65536."},
 {"property": "C42", "status": "proved", "theorems": ["C42_discard_largest", "C42_run"], "note": ""},
 {"property": "C43", "status": "partial", "theorems": ["C43_oversized_refuted", "C43_guarded", "C43_exact"], "note": "Refuted as stated: A trace of 65537 spans counts as one; true below 65536 spans. C43_exact: dropped as too large are exactly the traces whose number of spans modulo 65536 exceeds 8192."},
 {"property": "C44", "status": "partial", "theorems": ["C44_close_refuted", "C44_guarded", "C44_quiet", "C44_exact"], "note": "Refuted as stated: Traces that wait when the input is closed are lost; true if none wait. C44_exact: lost are exactly the spans whose trace has no outcome since they were received."},
 {"property": "C45", "status": "proved", "theorems": ["C45_order_free"], "note": ""},
 {"property": "C46", "status": "proved", "theorems": ["C46_forward", "C46_determined"], "note": ""},
 {"property": "C47", "status": "proved", "theorems": ["C47_ring_recent"], "note": ""},
 {"property": "C48", "status": "partial", "theorems": ["C48_ring_order_refuted", "C48_ring_order_guarded", "C48_exact"], "note": "Refuted as stated: after wrap-around the oldest span is not first; proved if at most as many spans as the capacity were stored, or a multiple of it, and for different spans only then (C48_exact)."},
 {"property": "C49", "status": "proved", "theorems": ["C49_sent_converted", "C49_conversion", "C49_never_shared"], "note": ""},
 {"property": "C50", "status": "proved", "theorems": ["C50_conservation", "C50_flush", "C50_buffered_small", "C50_sent_in_order", "C50_state"], "note": ""},
 {"property": "C51", "status": "partial", "theorems": ["C51_close_refuted", "C51_close_guarded", "C51_exact"], "note": "Refuted as stated: the sink drops what is buffered when its input closes; proved if nothing arrived since the last flush. C51_exact: lost are exactly the spans received since the last flush, fewer than 1000."},
 {"property": "C52", "status": "proved", "theorems": ["C52_all_or_nothing", "C52_no_panic", "C52_not_json", "C52_bad_gzip", "C52_v2", "C52_v1", "C52_jaeger", "C52_jaeger_rejected"], "note": ""},
 {"property": "C53", "status": "proved", "theorems": ["C53_delivers", "C53_bounded", "C53_no_panic"], "note": ""},
 {"property": "C54", "status": "proved", "theorems": ["C54_no_deadlock", "C54_terminates", "C54_drains"], "note": ""},
 {"property": "C55", "status": "proved", "theorems": ["C55_micros_roundtrip", "C55_micros_wrap", "C55_millis"], "note": ""},
 {"property": "C56", "status": "proved", "theorems": ["C56_map_blocks"], "note": ""},
 {"property": "C57", "status": "proved", "theorems": ["C57_ingest", "C57_answered", "C57_record", "C57_delivers", "C57_no_panic"], "note": ""},
 {"property": "C58", "status": "proved", "theorems": ["C58_no_deadlock", "C58_terminates", "C58_stops"], "note": ""},
 {"property": "C59", "status": "proved", "theorems": ["C59_fate", "C59_settles"], "note": ""},
 {"property": "C60", "status": "proved", "theorems": ["C60_origin"], "note": ""},
 {"property": "C61", "status": "proved", "theorems": ["C61_ring", "C61_sink"], "note": ""},
 {"property": "C62", "status": "partial", "theorems": ["C62_meters", "C62_sizes", "C62_gauges", "C62_discarded", "C62_discarded_refuted"], "note": "Refuted as stated: traces.discarded is marked with the number of spans; everything else proved"},
 {"property": "C63", "status": "partial", "theorems": ["C63_printed", "C63_all", "C63_once", "C63_short", "C63_indented", "C63_children", "C63_roots", "C63_deep", "C63_many", "C63_many_refuted", "C63_silent"], "note": "Refuted as stated: the number of children left out is one too large; everything else proved"},
 {"property": "C64", "status": "partial", "theorems": ["C64_replay", "C64_twice", "C64_part", "C64_emitted", "C64_late_refuted"], "note": "All clauses proved except the last one, which is refuted: spans that come again after their trace was emitted are emitted a second time."},
 {"property": "C65", "status": "proved", "theorems": ["C65_no_panic", "C65_closed", "C65_close_returns", "C65_goes_on", "C65_messages"], "note": "Sarama's Consume is represented by its contract."},
 {"property": "C66", "status": "partial", "theorems": ["C66_at_least_once", "C66_commits", "C66_closes", "C66_origin", "C66_received", "C66_no_skip", "C66_accounting", "C66_no_panic", "C66_first_commit_refuted"], "note": "All clauses proved but the last, which is refuted; before the first commit of a partition a new owner starts at the end of the log."},
 {"property": "C67", "status": "proved", "theorems": ["C67_meeting"], "note": ""},
 {"property": "C68", "status": "proved", "theorems": ["C68_reading", "C68_catches_up"], "note": ""},
 {"property": "C69", "status": "partial", "theorems": ["C69_blocked_refuted", "C69_main_refuted", "C69_goes_on", "C69_bounded"], "note": "Refuted as stated: the first clause fails (C69_blocked_refuted, C69_main_refuted); the second and third are proved (C69_goes_on, C69_bounded)."},
 {"property": "C70", "status": "proved", "theorems": ["C70_joined", "C70_elsewhere", "C70_again"], "note": ""},
 {"property": "C71", "status": "proved", "theorems": ["C71_not_split", "C71_in_time"], "note": ""},
 {"property": "C72", "status": "partial", "theorems": ["C72_stall_refuted", "C72_late"], "note": "Refuted as stated: With main.go's capacities a stall of 42 s in a conversion costs a complete trace whose requests were answered 202. C71_in_time is the guarded version - a check that comes in time finishes the trace."},
 {"property": "C73", "status": "proved", "theorems": ["C73_strings", "C73_wire", "C73_survives"], "note": "encoding/json (Jaeger bodies) is assumed to give 64 bit identifiers and strings below 2^31 bytes; C82_survives is without that assumption"},
 {"property": "C74", "status": "proved", "theorems": ["C74_same", "C74_no_write", "C74_exclusive"], "note": "each span arrives with a map of its own (the decoders make one per span)"},
 {"property": "C75", "status": "proved", "theorems": ["C75_tick", "C75_two_ticks", "C75_sent"], "note": ""},
 {"property": "C76", "status": "proved", "theorems": ["C76_v2", "C76_v1_accepted", "C76_v1_document", "C76_skip", "C76_http_v2", "C76_http_v2_only", "C76_http_v1", "C76_http_v2_rejected", "C76_http_v1_rejected"], "note": "both directions for version 2 and for skipping; for version 1 the spans of documents with repeated members annotations or binaryAnnotations are left open (C25)"},
 {"property": "C77", "status": "partial", "theorems": ["C77_tree", "C77_acyclic", "C77_circular_unchanged", "C77_circular_refuted", "C77_delivered", "C77_delivered_refuted"], "note": "Refuted as stated: circular spans are emitted beside the tree (C77_circular_refuted) and the injected root with id 0 is dropped on the way to the targets (C77_delivered_refuted). Proved: exactly one root and a strict dichotomy between spans below the root and spans below a circle (C77_tree), everything connected without circles (C77_acyclic), circular spans untouched (C77_circular_unchanged), one root at the targets when no id is 0 (C77_delivered)."},
 {"property": "C78", "status": "partial", "theorems": ["C78_counted_once", "C78_record", "C78_never_more", "C78_interval", "C78_interval_refuted", "C78_size_and_count", "C78_returns"], "note": "Refuted as stated: a report need not be that of the time since the previous one when lookups are counted between the two swaps (C78_interval_refuted). Proved: every lookup reported once (C78_counted_once, C78_never_more), exact reports for readings during which nothing is counted (C78_interval), exact size and count (C78_size_and_count)."},
 {"property": "C79", "status": "proved", "theorems": ["C79_array", "C79_object", "C79_array_only", "C79_object_only", "C79_strings", "C79_count", "C79_keys", "C79_idle"], "note": "Consumers are functions of their memory and the parser; the key is passed as a value (the code asks consumers to use it before calling the parser). The two methods are exported but not used by the program."},
 {"property": "C80", "status": "proved", "theorems": ["C80_same", "C80_request", "C80_running"], "note": "requests whose parser does not end (C18) do nothing, hence count nothing"},
 {"property": "C81", "status": "proved", "theorems": ["C81_sizes"], "note": ""},
 {"property": "C82", "status": "partial", "theorems": ["C82_document", "C82_not_json", "C82_cut", "C82_utf8", "C82_survives", "C82_escapes_refuted", "C82_twice_refuted", "C82_numbers_refuted"], "note": "Refuted as stated: identifiers written with escapes are errors (C82_escapes_refuted), a list given twice is decoded over the first one (C82_twice_refuted), a tag with a number beyond float64 rejects the body (C82_numbers_refuted). Proved for documents without these (C82_document); rejection of other bodies, UTF-8 and survival without restriction. encoding/json itself is a model after the library's rules, see DESIGN.md. Documents that give lists several times: C113."},
 {"property": "C83", "status": "partial", "theorems": ["C83_calendar", "C83_marshal", "C83_unmarshal", "C83_roundtrip", "C83_zone_refuted", "C83_range_refuted", "C83_null_refuted", "C83_fraction_refuted", "C83_exact", "C83_wider"], "note": "Refuted as stated: offsets with seconds lose them (C83_zone_refuted), texts of instants without a timestamp are read as other instants (C83_range_refuted), null is read as an instant of 1754 (C83_null_refuted), fractions of more than nine digits are misread (C83_fraction_refuted). Proved for zones with whole minutes, and for texts of instants in range with at most nine digits. The time package is a model after the library's rules, see DESIGN.md."},
 {"property": "C84", "status": "partial", "theorems": ["C84_text", "C84_roundtrip", "C84_any", "C84_html", "C84_by_value", "C84_value_refuted", "C84_tags_refuted"], "note": "Refuted as stated: marshalled by value the ids are numbers that cannot be read (C84_value_refuted, C84_by_value), and tags whose names differ only in wrong bytes become one (C84_tags_refuted). Proved for elements of slices and spans passed by reference. encoding/json is a model after the library's rules, see DESIGN.md."},
 {"property": "C85", "status": "partial", "theorems": ["C85_methods", "C85_literal", "C85_complaint", "C85_names", "C85_words_refuted"], "note": "Refuted as stated: any word of four bytes that begins with n is taken for null, and any that begins with t, or of five bytes with f, for a boolean (C85_words_refuted). Everything else proved, with these words as literals."},
 {"property": "C86", "status": "partial", "theorems": ["C86_by_parent", "C86_children", "C86_lookups", "C86_root_refuted"], "note": "Refuted as stated: Root returns the span whose id is that of the trace, which need not be the root (C86_root_refuted). Everything else proved."},
 {"property": "C87", "status": "proved", "theorems": ["C87_list"], "note": ""},
 {"property": "C88", "status": "proved", "theorems": ["C88_ids"], "note": ""},
 {"property": "C89", "status": "proved", "theorems": ["C89_exact_v2", "C89_exact_v1", "C89_unanswered"], "note": ""},
 {"property": "C90", "status": "partial", "theorems": ["C90_http", "C90_pool", "C90_message", "C90_pool_refuted", "C90_jaeger_refuted", "C90_jaeger"], "note": "False as stated for v1 requests on a pool where an earlier request repeated a member (C90_pool_refuted; C90_pool gives the exact addition) and for Jaeger bodies (C90_jaeger_refuted; C90_jaeger bounds everything but the repeated names of services). Proved for v2, for v1 otherwise, and for messages."},
 {"property": "C91", "status": "partial", "theorems": ["C91_huge_refuted", "C91_same", "C91_each", "C91_accepted", "C91_last"], "note": "False as stated (C91_huge_refuted); the remaining theorems say what holds of every message."},
 {"property": "C92", "status": "proved", "theorems": ["C92_race_free"], "note": "About the model of references and synchronisation in RaceModel (no data; every decision by data is free). Libraries are represented by the accesses that their documentation allows: sarama reads sent messages and fills received ones, and does not keep or change them otherwise."},
 {"property": "C93", "status": "proved", "theorems": ["C93_pools"], "note": "About the model of references and synchronisation in RaceModel, as C92. A pool may drop objects at any time; it gives an object to one goroutine only."},
 {"property": "C94", "status": "proved", "theorems": ["C94_emitted", "C94_system", "C94_cluster"], "note": "Before the converter, which may change every span. Start and duration are the subject of C32 and C33."},
 {"property": "C95", "status": "proved", "theorems": ["C95_spans", "C95_traces", "C95_overflow_refuted"], "note": "C95_overflow_refuted shows that the guard of C95_spans is needed."},
 {"property": "C96", "status": "proved", "theorems": ["C96_spans", "C96_fate", "C96_content", "C96_own_root", "C96_any_root", "C96_whole", "C96_fake_root_refuted", "C96_circle_refuted", "C96_half_refuted"], "note": "The refuted clauses show that the conditions of C96_own_root, C96_any_root and of `orderly` are needed."},
 {"property": "C97", "status": "proved", "theorems": ["C97_refines", "C97_owned", "C97_hands_off"], "note": "The slices share tag maps with nothing else by C74 (TagHeapModel); here a span is a value with its tags. The handling of one span and of one trace within a tick is atomic."},
 {"property": "C98", "status": "proved", "theorems": ["C98_agrees_v2", "C98_agrees_v1", "C98_enough_v2", "C98_enough_v1", "C98_height", "C98_overflow_v2", "C98_overflow_v1"], "note": "Room is counted in open calls of skip, not in bytes: the size of Go's stack frames and its limit of 1 GB are not modelled. Reported as a finding: the depth of skipping should be limited, as encoding/json does (10000)."},
 {"property": "C99", "status": "proved", "theorems": ["C99_run", "C99_tags", "C99_fate"], "note": ""},
 {"property": "C100", "status": "partial", "theorems": ["C100_v2", "C100_v1", "C100_jaeger", "C100_corrector", "C100_instant_refuted", "C100_service_refuted", "C100_roots_refuted"], "note": "Without the exceptions the claim is false (refuted with witnesses); with them it is proved for all reports. Documents in another order: C108. Version 1 documents with repeated lists: C111."},
 {"property": "C101", "status": "proved", "theorems": ["C101_check", "C101_emittable", "C101_one_trace"], "note": "Which traces are discarded under overload: C42."},
 {"property": "C102", "status": "proved", "theorems": ["C102_same", "C102_search", "C102_receive", "C102_moves", "C102_depth", "C102_looks", "C102_finish_one", "C102_finish"], "note": "Counted are comparisons of ids, spans moved by copy and spans looked at by loops; map operations, allocation and merging of two spans are not counted. The counting functions are shown to compute the same as the model (C102_same, C102_looks)."},
 {"property": "C103", "status": "proved", "theorems": ["C103_isolated", "C103_alone", "C103_system", "C103_load_refuted", "C103_forgotten_refuted"], "note": "The load is bounded by 100000 in the comparison of two runs, because above it the corrector drops the largest traces until the load is below; the two refuted theorems show that neither condition of C103_alone can be left out. C103_system is for the program without Kafka."},
 {"property": "C104", "status": "proved", "theorems": ["C104_cut", "C104_same_or_rejected", "C104_unanswered", "C104_parse_v2", "C104_parse_v1"], "note": "With it C18, C89, C90 and the rejecting half of C76 are stated for every reader; the theorems that a document is accepted exclude these readers, since they are not (C104_instance)."},
 {"property": "C105", "status": "proved", "theorems": ["C105_answer", "C105_text", "C105_short", "C105_other", "C105_reads", "C105_eager", "C105_final"], "note": "Places and causes are paired freely: C105_text lists what can be said, not which cause can appear at which place. C105_reads excludes readers that fail together with their last bytes, since what is lost then depends on the pieces; C105_eager says what they get."},
 {"property": "C106", "status": "proved", "theorems": ["C106_same", "C106_v2", "C106_v1"], "note": "For calls that return: a token longer than the buffer makes them spin (C89). Growing slices and maps, clearing pooled memory and the texts of errors are not counted."},
 {"property": "C107", "status": "proved", "theorems": ["C107_sees", "C107_once", "C107_names", "C107_answer", "C107_others", "C107_fields"], "note": "What the router does with requests that match none of the three routes is arbitrary. The field ContentLength of the request, which the wrapper does not change, is not modelled."},
 {"property": "C108", "status": "proved", "theorems": ["C108_names", "C108_v2", "C108_v1", "C108_jaeger", "C108_fifth_refuted", "C108_service_refuted", "C108_parent_refuted"], "note": "The guards of C24 and C82 apply: the two lists of version 1 and the lists and processes of Jaeger are given once, identifiers of Jaeger documents are written without escapes, numbers in Jaeger tags are doubles. The statement names the cases in which order matters; the refutations are their witnesses."},
 {"property": "C109", "status": "proved", "theorems": ["C109_clock", "C109_spans", "C109_2020_refuted"], "note": "The bounds of C109_spans: everything spans tell lies between two times lo and hi, and lo and hi keep a distance of (number of events + 1) times (hi - lo) from the beginning of 2020 and from 2^62 ns; corrections of spans below each other add up. Map iterations and the unstable sort are taken to behave alike in the two executions."},
 {"property": "C110", "status": "proved", "theorems": ["C110_run", "C110_order_refuted"], "note": "Map iterations and the unstable sort are taken to behave alike in the two executions (in corresponding orders). C110_order_refuted is the witness of the last sentence."},
 {"property": "C111", "status": "proved", "theorems": ["C111_documents", "C111_once", "C111_last_refuted", "C111_joined_refuted"], "note": "Complements C24 and C52, which ask for lists given once. After requests that repeated a list: C25. The _refuted theorems are witnesses of the last sentence."},
 {"property": "C112", "status": "proved", "theorems": ["C112_whole", "C112_parts_refuted"], "note": "C112_parts_refuted is the witness of the last sentence: three documents, one memory."},
 {"property": "C113", "status": "proved", "theorems": ["C113_document", "C113_once", "C113_hidden_refuted"], "note": "Identifiers are written without escapes and numbers are in the range of float64, as in C82. C113_hidden_refuted is the witness of the last sentence."},
 {"property": "C114", "status": "proved", "theorems": ["C114_extra", "C114_v2", "C114_v1", "C114_jaeger", "C114_letters_refuted"], "note": "C114_letters_refuted: in Jaeger documents a member in other letters is asked for too. Numbers of Jaeger documents are in the range of float64 and identifiers are written without escapes, as in C82."},
 {"property": "C115", "status": "proved", "theorems": ["C115_fate", "C115_once", "C115_content", "C115_same", "C115_targets", "C115_breaks_refuted"], "note": "C115_breaks_refuted is the last sentence. Two reports with one id are equal or the two halves of a request (orderly), as in C96."},
 {"property": "C116", "status": "proved", "theorems": ["C116_fate", "C116_same", "C116_injected", "C116_datadog", "C116_one_side_refuted"], "note": "C116_one_side_refuted is the last sentence. Spans that run in circles are excluded (they are emitted uncorrected, C77)."},
 {"property": "C117", "status": "proved", "theorems": ["C117_fate", "C117_same", "C117_injected", "C117_targets"], "note": "Spans that run in circles are excluded (they are emitted uncorrected, C77); without long breaks is the condition of C71 and C115."},
 {"property": "C118", "status": "proved", "theorems": ["C118_run", "C118_fate", "C118_tree", "C118_system", "C118_clocks"], "note": "C118_run compares runs in which the iteration orders of Go's maps do not depend on what spans say; the others hold for any orders."},
 {"property": "C119", "status": "proved", "theorems": ["C119_fate", "C119_same", "C119_system", "C119_targets"], "note": "Unlike C110 the two executions need not correspond event by event."},
 {"property": "C120", "status": "proved", "theorems": ["C120_fate", "C120_same", "C120_system", "C120_targets"], "note": "Unlike C109 the two executions need not correspond event by event. That times must not lie before 2020 is necessary: C109_2020_refuted."},
 {"property": "C121", "status": "proved", "theorems": ["C121_fate", "C121_same", "C121_system", "C121_targets", "C121_inner_refuted", "C121_top_refuted"], "note": "The two refuted statements show that the conditions named in the property cannot be dropped; they are part of it."},
 {"property": "C122", "status": "proved", "theorems": ["C122_run", "C122_shared", "C122_system", "C122_targets", "C122_ahead_refuted"], "note": "C122_ahead_refuted is the last sentence of the property: without agreeing clocks spans are changed (how: C32, C34, C116)."},
 {"property": "C123", "status": "proved", "theorems": ["C123_alone", "C123_targets", "C123_siblings", "C123_strangers_refuted"], "note": "C123_strangers_refuted is the last sentence of the property: latecomers with different parents take each other with them."}
]}
