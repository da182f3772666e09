{
 "claims": [
  {
   "property": "C01",
   "status": "proved",
   "theorems": [
    "C01_seqnum_distance",
    "C01_blknum_distance",
    "C01_timestamp_distance",
    "C01_seqnum_add",
    "C01_timestamp_add",
    "C01_seqnum_antisym",
    "C01_seqnum_half_range",
    "C01_timestamp_antisym",
    "C01_seqnum_shift",
    "C01_timestamp_shift",
    "C01_order"
   ],
   "note": ""
  },
  {
   "property": "C02",
   "status": "proved",
   "theorems": [
    "C02_jitter_buffer_rtp",
    "C02_jitter_buffer_fec",
    "C02_conservation",
    "C02_reads_increasing",
    "C02_capacity",
    "C02_latest"
   ],
   "note": ""
  },
  {
   "property": "C03",
   "status": "proved",
   "theorems": [
    "C03_fifo",
    "C03_nodata_iff_drained"
   ],
   "note": ""
  },
  {
   "property": "C04",
   "status": "proved",
   "theorems": [
    "C04_waits",
    "C04_starts",
    "C04_zero_delay_refuted"
   ],
   "note": "Holds for a positive delay; C04_zero_delay_refuted shows the code drops queued packets when the delay converts to 0 samples."
  },
  {
   "property": "C05",
   "status": "proved",
   "theorems": [
    "C05_order_is_permutation",
    "C05_blockwise_permutation",
    "C05_blocks_partition_stream",
    "C05_flush_emits_everything",
    "C05_failing_writer_refuted",
    "C05_flush_status"
   ],
   "note": "Holds while the downstream writer succeeds; C05_failing_writer_refuted shows packets are lost when a write fails inside a flush."
  },
  {
   "property": "C06",
   "status": "proved",
   "theorems": [
    "C06_delivery",
    "C06_one_source_per_route",
    "C06_source"
   ],
   "note": ""
  },
  {
   "property": "C07",
   "status": "proved",
   "theorems": [
    "C07_rtp_round_trip",
    "C07_repair_round_trip",
    "C07_small_buffer",
    "C07_repair_small_buffer_refuted",
    "C07_header_fields",
    "C07_kinds"
   ],
   "note": "RTP, FEC source and FEC repair stacks. C07_repair_small_buffer_refuted: the FEC repair composer panics instead of reporting failure when the buffer is too small."
  },
  {
   "property": "C08",
   "status": "proved",
   "theorems": [
    "C08_rtp_exact",
    "C08_rejects",
    "C08_all_stacks_safe"
   ],
   "note": ""
  },
  {
   "property": "C09",
   "status": "proved",
   "theorems": [
    "C09_decides",
    "C09_one_stream",
    "C09_no_overflow",
    "C09_half_range_refuted"
   ],
   "note": "Jump limit below 2^15. C09_half_range_refuted: two packets exactly 2^31 apart make the filter negate INT32_MIN (undefined behaviour)."
  },
  {
   "property": "C10",
   "status": "partial",
   "theorems": [
    "C10_counted",
    "C10_reported_last",
    "C10_reported_last_partial",
    "C10_reported_first_partial",
    "C10_reported_last_refuted",
    "C10_reported_first_refuted",
    "C10_reported_first_le_last_refuted",
    "C10_last",
    "C10_last_before_wrap",
    "C10_wrap_refuted",
    "C10_first",
    "C10_first_refuted"
   ],
   "note": "The code violates the property: C10_wrap_refuted (65535 instead of 65536 is added per wrap) and C10_first_refuted (first number is overwritten after 2^15 packets). C10_last gives the exact value for every stream; C10_last_before_wrap and C10_first prove the claim under the exact conditions. The same for the whole link meter, fed with any sequence of packets of known and unknown payload types: C10_counted, C10_reported_last, C10_reported_last_partial, C10_reported_first_partial and the refutations C10_reported_*_refuted."
  },
  {
   "property": "C11",
   "status": "proved",
   "theorems": [
    "C11_numbering",
    "C11_consecutive"
   ],
   "note": ""
  },
  {
   "property": "C12",
   "status": "proved",
   "theorems": [
    "C12_block_number",
    "C12_symbol_id",
    "C12_block_length",
    "C12_total_length",
    "C12_rs8m_too_wide"
   ],
   "note": ""
  },
  {
   "property": "C13",
   "status": "proved",
   "theorems": [
    "C13_stream",
    "C13_forward",
    "C13_live",
    "C13_uniform",
    "C13_resize",
    "C13_zero_refuted",
    "C13_overflow_refuted"
   ],
   "note": "All call sequences, block sizes and failures of the allocator, encoder, composers; exactly the configured number of repair packets when none of them fails (otherwise the packets that could be made). Encoders allow at most 2^16 symbols per block (OpenFEC: 255 or 50000). Validation gaps: sizes (0,0) at construction (C13_zero_refuted) and overflow of the sum (C13_overflow_refuted). A failing next writer or composer panics in the code and is outside C13_live."
  },
  {
   "property": "C14",
   "status": "partial",
   "theorems": [
    "C14_order",
    "C14_safe",
    "C14_recovery",
    "C14_lossless",
    "C14_length_refuted",
    "C14_limit_refuted",
    "C14_partial_refuted",
    "C14_forward_refuted",
    "C14_start_refuted"
   ],
   "note": "Order, no duplicates and provenance of decoded packets are proved for every input (C14_order); absence of crashes and termination for a fixed block length and an all-or-nothing decoder (C14_safe). Losses, duplicates and reordering within the decoder's capability give back exactly the source stream, with any sequence of block sizes (C14_recovery, C14_lossless). Refuted: a repair packet with block length 0 aborts the receiver (C14_length_refuted); a block above the decoder's limit reaches it after a block-size change (C14_limit_refuted); a partial LDPC restore followed by a late packet dereferences NULL (C14_partial_refuted); before decoding starts packets are forwarded out of order and duplicated (C14_forward_refuted); decoding may never start after a block-size change (C14_start_refuted)."
  },
  {
   "property": "C15",
   "status": "proved",
   "theorems": [
    "C15_safe",
    "C15_safe_single",
    "C15_compound",
    "C15_layout",
    "C15_meaning",
    "C15_padding_refuted"
   ],
   "note": "Safety and termination hold for all byte strings, and a compound packet reads as the concatenation of its parts. One defect found beyond the stated property: a padded SR/RR that is not first is read from the first packet's bytes (C15_padding_refuted); C15_compound therefore excludes it. C15_meaning: for any single packet the walk equals an independent relational reading of the formats (RtcpMean_spec.v), in both directions."
  },
  {
   "property": "C16",
   "status": "partial",
   "theorems": [
    "C16_roundtrip",
    "C16_layout",
    "C16_wire",
    "C16_destroy",
    "C16_protocol",
    "C16_bounds",
    "C16_padding_refuted"
   ],
   "note": "C16_wire gives the bytes of the result, independently of the reader (RtcpWire_spec.v). Proved for every sequence of calls the builder accepts (C16_protocol shows these are exactly descriptions of packets), all field values and all texts. Read-back is exact up to the fixed-point rounding the formats prescribe (functions middle, delay, metric in RtcpBuild_spec.v). False for padding added after a report that is not the only packet: C16_padding_refuted (traverser.cpp:145); each packet still reads correctly alone (C16_layout). The conversion of the loss fraction between float and its 8-bit code is not part of this model; packets above 65532 bytes, which the builder refuses with a panic, are excluded."
  },
  {
   "property": "C17",
   "status": "proved",
   "theorems": [
    "C17_extend",
    "C17_extend_truncates",
    "C17_delay_saturates",
    "C17_metric_available",
    "C17_metric64_available",
    "C17_delay_wraps_refuted"
   ],
   "note": "C17_delay_wraps_refuted: within half a unit of 2^64 the rounding wraps to zero."
  },
  {
   "property": "C18",
   "status": "partial",
   "theorems": [
    "C18_value",
    "C18_before_wrap",
    "C18_wrap_refuted",
    "C18_first_after_wrap_refuted"
   ],
   "note": "The code violates the property after a wrap: C18_wrap_refuted (2^32-1 is added instead of 2^32) and C18_first_after_wrap_refuted. C18_value gives the exact value for every history, C18_before_wrap the claim before the first wrap."
  },
  {
   "property": "C19",
   "status": "partial",
   "theorems": [
    "C19_complete",
    "C19_bounds",
    "C19_small_refuted",
    "C19_nospace_refuted",
    "C19_goodbye_refuted",
    "C19_noxr_refuted",
    "C19_collision_refuted",
    "C19_goodbye"
   ],
   "note": "Termination and complete, non-repeating coverage are proved for any sequence of generations, any numbers of streams and destinations and any failures of memory, composer and writer, provided any two streams fit one packet (C19_complete). Without that the claim is false: with room for one stream but not two generation never ends (C19_small_refuted); after one 'no space' failure the next generation never ends (C19_nospace_refuted); generate_goodbye never ends if any stream is known (C19_goodbye_refuted); with XR disabled a sender with a known receiver never finishes (C19_noxr_refuted). A failed allocation after an SSRC collision aborts (C19_collision_refuted)."
  },
  {
   "property": "C20",
   "status": "partial",
   "theorems": [
    "C20_own_id",
    "C20_unique",
    "C20_ends",
    "C20_terminates",
    "C20_report",
    "C20_bye",
    "C20_alive",
    "C20_forgotten",
    "C20_batch_refuted",
    "C20_clock_refuted",
    "C20_zero_timeout_refuted"
   ],
   "note": "Uniqueness holds for every history at any times. Expiry, notification and liveness are proved for every history in which the clock does not go back (C20_ends, C20_alive, C20_forgotten, C20_report, C20_bye, C20_terminates). Without that condition the property is false of the code: C20_batch_refuted (three packets processed with the same current time: report times t, t+1, t, a notification is lost), C20_clock_refuted (wall clock set back: a silent stream stays), C20_zero_timeout_refuted (zero timeout loops forever)."
  },
  {
   "property": "C21",
   "status": "proved",
   "theorems": [
    "C21_unix_round_trip",
    "C21_ntp_round_trip",
    "C21_durations",
    "C21_durations_back",
    "C21_monotone",
    "C21_out_of_range_refuted"
   ],
   "note": "C21_out_of_range_refuted shows what happens before 1900 (abort) and after 2104 (wraps to another era)."
  },
  {
   "property": "C22",
   "status": "partial",
   "theorems": [
    "C22_map",
    "C22_grow_after_remove_refuted"
   ],
   "note": "Exact map semantics for every history that returns; every panic is a contract violation or a growth of a full table after a removal. The latter is a defect of the code (C22_grow_after_remove_refuted): removing the last element waiting for migration leaves rehash_pos_ non-zero and the next growth panics."
  },
  {
   "property": "C23",
   "status": "proved",
   "theorems": [
    "C23_sequence",
    "C23_misuse_detected",
    "C23_insert_after_removed_refuted"
   ],
   "note": "Exact sequence semantics and misuse detection for every history. Inserting after a node that was removed earlier is not detected by the code (C23_insert_after_removed_refuted); inserting before / removing a foreign node is."
  },
  {
   "property": "C24",
   "status": "partial",
   "theorems": [
    "C24_deque",
    "C24_full_never_detected",
    "C24_capacity_refuted",
    "C24_pop_back_destructor_refuted"
   ],
   "note": "Deque behaviour holds for every history that keeps fewer than capacity elements. The documented capacity is not usable: the code never detects a full queue (C24_full_never_detected, C24_capacity_refuted), and pop_back destroys the wrong slot (C24_pop_back_destructor_refuted)."
  },
  {
   "property": "C25",
   "status": "partial",
   "theorems": [
    "C25_fifo",
    "C25_full_empty",
    "C25_pop_delivers",
    "C25_wrap_refuted"
   ],
   "note": "Holds for every schedule if the number of chunks (capacity + 1) divides 2^32 or fewer than 2^32 - 1 pushes are made; C25_wrap_refuted shows a buffer for 2 elements overwriting a live element after the 32-bit positions wrap. Sequentially consistent memory is assumed."
  },
  {
   "property": "C26",
   "status": "proved",
   "theorems": [
    "C26_limit",
    "C26_refusal_justified",
    "C26_uncontended",
    "C26_over_release",
    "C26_huge_request_refuted",
    "C26_arena"
   ],
   "note": "For requests that do not overflow size_t together with the limit; C26_huge_request_refuted shows the counter wrapping otherwise."
  },
  {
   "property": "C27",
   "status": "partial",
   "theorems": [
    "C27_average",
    "C27_extremes_partial",
    "C27_extremes_refuted",
    "C27_extend_refuted",
    "C27_extend_partial"
   ],
   "note": "Average and deviation are exact for every history and nothing panics. Maximum and minimum are proved when none of the first win values is zero (C27_extremes_partial); otherwise the code is wrong (C27_extremes_refuted). extend_win() does not extend the window (C27_extend_refuted). Values are unbounded integers."
  },
  {
   "property": "C28",
   "status": "proved",
   "theorems": [
    "C28_fifo",
    "C28_producer_order",
    "C28_safe",
    "C28_double_push_detected",
    "C28_empty",
    "C28_blocking_empty",
    "C28_drain"
   ],
   "note": ""
  },
  {
   "property": "C29",
   "status": "proved",
   "theorems": [
    "C29_no_tearing",
    "C29_wrap_refuted",
    "C29_one_writer",
    "C29_uncontended"
   ],
   "note": "Sequentially consistent interleavings; fewer than 2^31 stores complete during one load attempt. C29_wrap_refuted shows a torn value when exactly 2^31 do (the version is 32 bits)."
  },
  {
   "property": "C30",
   "status": "proved",
   "theorems": [
    "C30_no_lost_wakeup",
    "C30_wakes",
    "C30_not_early",
    "C30_uncontended"
   ],
   "note": ""
  },
  {
   "property": "C31",
   "status": "proved",
   "theorems": [
    "C31_first",
    "C31_grow",
    "C31_reserve_block",
    "C31_reserve_result",
    "C31_reserve_once",
    "C31_separate",
    "C31_reuse",
    "C31_overflow",
    "C31_foreign",
    "C31_allocate",
    "C31_reserve",
    "C31_slab_limit",
    "C31_destroy",
    "C31_equal_limits_refuted"
   ],
   "note": "Guard bytes, ownership and reuse are proved for permitted histories. C31_equal_limits_refuted: construction panics when the smallest and largest slab sizes are equal and not a whole number of slots."
  },
  {
   "property": "C32",
   "status": "proved",
   "theorems": [
    "C32_safe",
    "C32_once",
    "C32_not_while_held",
    "C32_last_release",
    "C32_getref",
    "C32_self_member_refuted"
   ],
   "note": "Any number of threads, any schedule without data races on the SharedPtr variables themselves. The form p = p->member is excluded and refuted (C32_self_member_refuted): reset() releases the old object before it acquires the new one."
  },
  {
   "property": "C33",
   "status": "proved",
   "theorems": [
    "C33_static",
    "C33_c_string",
    "C33_empty_buffer",
    "C33_null_buffer",
    "C33_dynamic",
    "C33_uint",
    "C33_dynamic_failed"
   ],
   "note": ""
  },
  {
   "property": "C34",
   "status": "proved",
   "theorems": [
    "C34_order",
    "C34_find",
    "C34_find_complete",
    "C34_find_exact",
    "C34_find_prefix_refuted"
   ],
   "note": "Order, append/pop and exact search proved; C34_find_prefix_refuted shows that find also matches a stored string whose prefix is the key when both fit the same 4-byte block, so C34_find and C34_find_complete are stated with the condition that excludes this and C34_find_exact covers it."
  },
  {
   "property": "C35",
   "status": "proved",
   "theorems": [
    "C35_round_trip",
    "C35_alphabet",
    "C35_decode_exact",
    "C35_decode_shrinks",
    "C35_encode_nul",
    "C35_literal"
   ],
   "note": ""
  },
  {
   "property": "C36",
   "status": "partial",
   "theorems": [
    "C36_clear",
    "C36_set_proto",
    "C36_set_host",
    "C36_set_port",
    "C36_set_path",
    "C36_equal",
    "C36_parse",
    "C36_round_trip",
    "C36_query_after_host_refuted",
    "C36_port_wrap_refuted",
    "C36_accepts_only_grammar",
    "C36_safe",
    "C36_accepts_only_resource"
   ],
   "note": "C36_parse and C36_round_trip hold for unambiguous URIs with a port number below 2^31; C36_query_after_host_refuted and C36_port_wrap_refuted show that the code violates the unconditional statement. C36_accepts_only_grammar, C36_accepts_only_resource and C36_safe hold for every input."
  },
  {
   "property": "C37",
   "status": "partial",
   "theorems": [
    "C37_queries",
    "C37_toggle",
    "C37_toggle_range",
    "C37_set_range",
    "C37_set_mask",
    "C37_set_count",
    "C37_set_count_max_refuted",
    "C37_bitwise",
    "C37_is_equal",
    "C37_is_subset",
    "C37_is_superset",
    "C37_is_superset_refuted",
    "C37_eq",
    "C37_bytes",
    "C37_valid"
   ],
   "note": "All operations agree with set semantics except is_superset() for sets with a channel from 64 up (C37_is_superset_refuted: it always says yes) and set_count(1024), which panics (C37_set_count_max_refuted)."
  },
  {
   "property": "C38",
   "status": "proved",
   "theorems": [
    "C38_stream",
    "C38_samples",
    "C38_full_length",
    "C38_padded",
    "C38_timestamp",
    "C38_unpaddable_refuted"
   ],
   "note": "Functional specification of every packet for all frame partitions, flush points and allocation failures. Assumes the composer can pad (otherwise flush panics: C38_unpaddable_refuted) and the writer succeeds. Timestamps are exact when the sample-to-nanosecond conversion is additive; in general they are the sum of the converted chunk lengths."
  },
  {
   "property": "C39",
   "status": "partial",
   "theorems": [
    "C39_refines",
    "C39_length",
    "C39_clock",
    "C39_next_timestamp",
    "C39_sound",
    "C39_complete",
    "C39_late",
    "C39_crash_refuted",
    "C39_frame_size"
   ],
   "note": "Proved for every history of packets with 1 to 2^31-1 samples: exact frames, lengths, flags, no panic. The unconditional 'no crash' part is false: C39_crash_refuted exhibits an empty packet exactly 2^31 from the stream position that makes the depacketizer panic. Capture timestamps and beep mode are not modelled."
  },
  {
   "property": "C40",
   "status": "partial",
   "theorems": [
    "C40_mix",
    "C40_chunks",
    "C40_split",
    "C40_exact",
    "C40_two",
    "C40_one_sign",
    "C40_clamp_refuted",
    "C40_float",
    "C40_float_range",
    "C40_removed",
    "C40_added",
    "C40_single",
    "C40_single_refuted"
   ],
   "note": "Proved: chunk and frame independence, per-input saturating accumulation for any arithmetic, exact and float versions, range. The stated 'clamped sum' holds for two inputs, one sign or sums in range; C40_clamp_refuted shows three inputs where intermediate saturation gives another value, and C40_single_refuted that one input is neither clamped nor silenced when it refuses to read. Capture timestamps are not modelled."
  },
  {
   "property": "C41",
   "status": "partial",
   "theorems": [
    "C41_exact",
    "C41_stays_dead",
    "C41_warmup",
    "C41_config",
    "C41_long_frame_refuted",
    "C41_wrap_refuted"
   ],
   "note": "Proved exactly for frames not longer than a detection window and windows aligned at the 32-bit wrap (or no wrap). Outside these limits the claim is false: C41_long_frame_refuted and C41_wrap_refuted exhibit sessions killed although a clean window was completed within the timeout. Conversion of configured times to samples is not part of this model."
  },
  {
   "property": "C42",
   "status": "partial",
   "theorems": [
    "C42_bytes",
    "C42_encode_split",
    "C42_decode_split",
    "C42_encode",
    "C42_decode",
    "C42_roundtrip",
    "C42_restore",
    "C42_float32",
    "C42_float64",
    "C42_map",
    "C42_widen",
    "C42_safe",
    "C42_packed20_refuted",
    "C42_packed18_refuted",
    "C42_nan_refuted",
    "C42_encode_frames",
    "C42_decode_frames"
   ],
   "note": "Proved for every integer format whose samples occupy whole octets (8, 16, 24, 32, 64 bits and 18, 20, 24 bits in 3 or 4 octet containers) and for Float32/Float64, for both byte orders, all partitions of the samples into writes, reads and skips, and any number of frames with one encoder or decoder (C42_encode_frames, C42_decode_frames). The claim is false for the bit-packed 18- and 20-bit formats: C42_packed20_refuted and C42_packed18_refuted show samples that come back changed, even outside [-1, 1]; for those only memory safety (C42_safe) is proved. C42_nan_refuted: a NaN sample makes encoding to an integer format undefined."
  },
  {
   "property": "C43",
   "status": "proved",
   "theorems": [
    "C43_one_per_interval",
    "C43_two_per_window",
    "C43_not_starved",
    "C43_close_events_refuted",
    "C43_would_allow"
   ],
   "note": "Elapsed times below 2^53 ns. C43_close_events_refuted: intervals are fixed, so two events at an interval boundary can both pass."
  },
  {
   "property": "C44",
   "status": "proved",
   "theorems": [
    "C44_align",
    "C44_pad",
    "C44_agree",
    "C44_zero",
    "C44_overflow_refuted"
   ],
   "note": "C44_overflow_refuted shows why size + alignment <= 2^64 is assumed."
  },
  {
   "property": "C45",
   "status": "proved",
   "theorems": [
    "C45_in_range",
    "C45_onto",
    "C45_generator_range",
    "C45_generator_distinct",
    "C45_unbiased_refuted"
   ],
   "note": "C45_unbiased_refuted: the debiasing loop announced in the code never rejects."
  },
  {
   "property": "C46",
   "status": "proved",
   "theorems": [
    "C46_table",
    "C46_ids",
    "C46_inverse",
    "C46_names",
    "C46_interfaces"
   ],
   "note": ""
  },
  {
   "property": "C47",
   "status": "partial",
   "theorems": [
    "C47_exclusive",
    "C47_once",
    "C47_notified",
    "C47_wait",
    "C47_order",
    "C47_fire",
    "C47_rearm",
    "C47_frame",
    "C47_inframe",
    "C47_rounds",
    "C47_sequential",
    "C47_frame_client_refuted",
    "C47_running_refuted",
    "C47_scheduled_refuted"
   ],
   "note": "Exclusion, exactly-once, notification, waiting and order are proved for any number of threads and every interleaving (sequentially consistent memory). Eventual execution is proved for every history in which calls overlap only if they are scheduling calls (C47_rounds, any interleaving of those; C47_sequential), after any undisturbed frame, and for every firing of armed background processing. When scheduling calls overlap with frames or background processing it is false: three refuted theorems exhibit interleavings after which a scheduled task waits with background processing not armed."
  },
  {
   "property": "C48",
   "status": "proved",
   "theorems": [
    "C48_schedule"
   ],
   "note": "All non-decreasing call times; times and intervals as unbounded integers (nanoseconds do not overflow 64 bits before year 2262)."
  },
  {
   "property": "C49",
   "status": "partial",
   "theorems": [
    "C49_complete",
    "C49_received_known",
    "C49_duplicate_refuted",
    "C49_dangling_refuted",
    "C49_switch_refuted",
    "C49_start_refuted",
    "C49_late_rrtr_refuted"
   ],
   "note": "Proved for every history in which the clock does not go back, local stream answers are steady, reports carry non-zero times and the first RRTR of a receiver comes while a rebuild is pending (C49_complete, C49_received_known). Each of these conditions is necessary, with a history showing it: C49_duplicate_refuted and C49_dangling_refuted (packets of one batch with the same current time: a receiver listed twice, a dangling stream pointer read after a goodbye), C49_switch_refuted (replacement of one receiving stream by another known one unnoticed, reporter.cpp:1031-1036: wrong numbers in the block), C49_start_refuted (starting to send unnoticed), C49_late_rrtr_refuted (RRTR in a later packet than the first reception block unnoticed)."
  },
  {
   "property": "C50",
   "status": "partial",
   "theorems": [
    "C50_safe",
    "C50_refines",
    "C50_valid",
    "C50_together",
    "C50_added",
    "C50_removed",
    "C50_empty_cname_refuted",
    "C50_relink_refuted",
    "C50_relink_wipes_refuted"
   ],
   "note": "Proved for every history in which sessions are registered with an address, CNAMEs are not empty and an SSRC is unlinked before it is linked to another CNAME: no abort under any allocation failures (C50_safe), answers equal to a reference table while memory suffices (C50_refines, C50_together, C50_added), answers valid even after failures (C50_valid, C50_removed). Other histories abort or lose sessions: C50_empty_cname_refuted, C50_relink_refuted, C50_relink_wipes_refuted."
  },
  {
   "property": "C51",
   "status": "partial",
   "theorems": [
    "C51_datagram",
    "C51_names_differ",
    "C51_safe",
    "C51_consistent",
    "C51_packet",
    "C51_created",
    "C51_sticky",
    "C51_no_routing",
    "C51_goodbye",
    "C51_together",
    "C51_refresh",
    "C51_crash_refuted",
    "C51_memory_crash_refuted",
    "C51_orphan_refuted"
   ],
   "note": "Proved for every history of datagrams of arbitrary bytes in which the clock does not go back and each sender report follows a CNAME item for its SSRC in the same datagram, stored successfully (C51_safe, C51_consistent, C51_packet, C51_created, C51_sticky, C51_no_routing, C51_goodbye, C51_together, C51_refresh). What a peer describes to its RTCP builder is exactly what the receiver is told (C51_datagram, C51_names_differ). Without that condition the receiver aborts: one 28-byte datagram is enough (C51_crash_refuted); so is one failed allocation (C51_memory_crash_refuted). A session displaced by CNAME stays in the mixer although nothing leads to it (C51_orphan_refuted)."
  },
  {
   "property": "C52",
   "status": "partial",
   "theorems": [
    "C52_no_crash",
    "C52_execution_justified",
    "C52_requests_numbered",
    "C52_nothing_lost",
    "C52_completion",
    "C52_wait",
    "C52_once_refuted",
    "C52_destroy_in_completer_refuted",
    "C52_cancel_pausing_refuted",
    "C52_pause_twice_refuted",
    "C52_resume_completed_refuted",
    "C52_wait_refuted"
   ],
   "note": "Proved for any number of threads and tasks and every interleaving of atomic operations (sequentially consistent memory) of schedule, schedule_at, async_cancel and wait: no assertion fails, nothing destroyed is touched, no early or unrequested execution, nothing lost at rest, completion counts; wait() returns only when completed if nobody schedules the task meanwhile (C52_wait). Tasks that pause are outside these theorems. False of the code, with an execution each: one request executed twice (C52_once_refuted) and use of a task destroyed by its completer (C52_destroy_in_completer_refuted); cancellation lost if the task pauses (C52_cancel_pausing_refuted); second pause, or destruction after a resume, panics (C52_pause_twice_refuted); resume of a completed task executes it again or panics (C52_resume_completed_refuted); a later wait() returns at once after a schedule overlapped an earlier one (C52_wait_refuted)."
  },
  {
   "property": "C53",
   "status": "partial",
   "theorems": [
    "C53_no_panic",
    "C53_exact",
    "C53_idle_sound",
    "C53_active_sound",
    "C53_stuck_forever",
    "C53_fifo",
    "C53_pull",
    "C53_active_refuted"
   ],
   "note": "Proved for every interleaving: no abort, exact answer of state(), Idle sound, order. Active is sound only if no packet was malformed and none was destroyed with its endpoint (C53_active_sound); otherwise it is false: pull_packets does not subtract a packet that cannot be parsed from the pending counter, so that one malformed datagram makes the receiver Active for ever (C53_stuck_forever, C53_active_refuted)."
  },
  {
   "property": "C54",
   "status": "partial",
   "theorems": [
    "C54_forward",
    "C54_one_at_a_time",
    "C54_capture",
    "C54_playback",
    "C54_choice",
    "C54_backup_running",
    "C54_main_running_partial",
    "C54_end",
    "C54_end_at_once",
    "C54_stop_soon",
    "C54_progress",
    "C54_main_running_refuted",
    "C54_spin_refuted"
   ],
   "note": "Proved for all sequences of answers, except that a source is read only while it is running: true of the backup source, and of the main source until the backup source ends (C54_main_running_partial); after that the main source can be read while paused (C54_main_running_refuted). Each iteration moves a frame unless a source ended (C54_progress); a backup source without frames makes the loop spin (C54_spin_refuted)."
  },
  {
   "property": "C55",
   "status": "partial",
   "theorems": [
    "C55_never_undefined",
    "C55_duration_to_samples",
    "C55_delta_to_samples",
    "C55_saturates",
    "C55_samples_to_duration",
    "C55_overall_to_duration",
    "C55_round_trip",
    "C55_round_trip_refuted",
    "C55_exact_refuted",
    "C55_monotone",
    "C55_bytes",
    "C55_bytes_duration",
    "C55_units_agree",
    "C55_units_refuted"
   ],
   "note": "Proved with IEEE single precision arithmetic (Flocq): defined for all inputs, accuracy and saturation for rates up to 2^24 Hz, order, bytes. Round trip proved for up to 1500000 samples (C55_round_trip) and false beyond: after 69 s at 44100 Hz the result is off by a sample (C55_round_trip_refuted); whole durations are not exact (C55_exact_refuted). The conversions of roc_packet/units.cpp agree with those of SampleSpec except that they are undefined where these saturate (C55_units_agree, C55_units_refuted)."
  },
  {
   "property": "C56",
   "status": "proved",
   "theorems": [
    "C56_sender",
    "C56_receiver",
    "C56_end_to_end",
    "C56_order"
   ],
   "note": "Sender, receiver, composition through the NTP format and order, on top of the single precision model of C55. The wire format of the report between the two is C21 (NTP) and the RTCP properties."
  },
  {
   "property": "C57",
   "status": "partial",
   "theorems": [
    "C57_outputs",
    "C57_safe",
    "C57_rate",
    "C57_window",
    "C57_portions",
    "C57_input_used",
    "C57_safe_refuted",
    "C57_frame_refuted",
    "C57_fraction_refuted",
    "C57_nan_refuted"
   ],
   "note": "Proved for all histories: what each output sample is made of (C57_outputs, C57_window), its time (C57_rate), independence of portions, and that bounds are kept exactly if no window ends at the end of a frame (C57_safe, an equivalence). That condition is violated by histories in ordinary use (C57_safe_refuted: a sample past the end of a frame is read), and the frame is too short for much higher output rates (C57_frame_refuted: the program stops). The fraction for interpolation is that of the first term of each side, not of each term (C57_fraction_refuted). A multiplier that is not a number is undefined behaviour (C57_nan_refuted). Frames of up to 2048 samples per channel. Not modelled: the values of the sinc table and the sum in floating point."
  },
  {
   "property": "C58",
   "status": "partial",
   "theorems": [
    "C58_latest",
    "C58_accurate",
    "C58_robust",
    "C58_unknown_refuted"
   ],
   "note": "Proved: no overflow and no abort, latest exchange, accuracy through the wire format. False: that there is no round trip time before the peer received a report: LSR = 0 is taken for a time (C58_unknown_refuted), giving a round trip time of up to 9 hours."
  },
  {
   "property": "C59",
   "status": "proved",
   "theorems": [
    "C59_accurate",
    "C59_exact",
    "C59_exact_refuted"
   ],
   "note": "In IEEE single precision. Rounded down exactly up to 65536 packets per report (C59_exact); for longer intervals the result may be the next higher 1/256 (C59_exact_refuted), within the bound of C59_accurate."
  },
  {
   "property": "C60",
   "status": "partial",
   "theorems": [
    "C60_read",
    "C60_read_done",
    "C60_write",
    "C60_write_done",
    "C60_read_sizes",
    "C60_failed_read_refuted",
    "C60_buffer_refuted"
   ],
   "note": "Proved for all sequences while the input can be read, for buffers that hold a whole number of samples of all channels and scalings of at least 2^-20; no window may end at the end of a frame (see C57). False after a failed read of the input: the frame played next was played before (C60_failed_read_refuted). False for other buffers: with the default buffer and six channels the writer writes behind the end of its buffer (C60_buffer_refuted)."
  },
  {
   "property": "C61",
   "status": "partial",
   "theorems": [
    "C61_frames",
    "C61_sizes",
    "C61_linear",
    "C61_average",
    "C61_no_clip",
    "C61_shared",
    "C61_same",
    "C61_mirror",
    "C61_order",
    "C61_tracks",
    "C61_copy",
    "C61_terminates",
    "C61_terminates_out_refuted",
    "C61_terminates_in_refuted",
    "C61_layouts",
    "C61_layouts_refuted"
   ],
   "note": "Proved for all sets over exact rational samples. False: that a mapper is always made: the constructor loops forever if one side has no channel but LFE (or, with ALSA order, no channel that ALSA knows) and the other has more (C61_terminates_out_refuted, C61_terminates_in_refuted); proved for all other sets (C61_terminates). False for six pairs of named layouts, which lose channels (C61_layouts_refuted); proved for all other pairs (C61_layouts). Rounding of floating point sums is not modelled."
  },
  {
   "property": "C62",
   "status": "partial",
   "theorems": [
    "C62_sub",
    "C62_reslice",
    "C62_extend",
    "C62_extend_refuted",
    "C62_get",
    "C62_get_refuted",
    "C62_set",
    "C62_program"
   ],
   "note": "Proved for all programs. False: an access with an index equal to the size is not stopped and reaches the element after the slice (C62_get_refuted, slice.h:194 compares with >); C62_program shows that this is the only way to leave the buffer. Extending by a number of elements close to 2^64 makes the sum wrap and the slice shrink (C62_extend_refuted); C62_extend holds when the sum does not wrap."
  },
  {
   "property": "C63",
   "status": "partial",
   "theorems": [
    "C63_read",
    "C63_stream",
    "C63_failed",
    "C63_small_buffer",
    "C63_refused",
    "C63_write"
   ],
   "note": "Proved for every internal buffer that holds one sample of each channel. False: that a failed read takes nothing: what the batches before the failure took is lost (C63_failed). With a smaller buffer the reader asks for empty frames without end and the writer panics (C63_small_buffer); asking for an empty frame panics (C63_refused)."
  },
  {
   "property": "C64",
   "status": "partial",
   "theorems": [
    "C64_read",
    "C64_stream",
    "C64_failed",
    "C64_write",
    "C64_levels",
    "C64_small_buffer",
    "C64_short"
   ],
   "note": "Proved for every internal buffer that holds one sample of each channel, for samples stored with zero padding. False: that a failed read takes nothing: what the batches before the failure took is lost (C64_failed). With a smaller buffer the reader asks for empty frames without end and the writer panics (C64_small_buffer); filling a frame too short for one sample of each channel panics (C64_short)."
  },
  {
   "property": "C65",
   "status": "partial",
   "theorems": [
    "C65_accepted",
    "C65_history",
    "C65_verdict",
    "C65_inside",
    "C65_outside",
    "C65_cadence",
    "C65_range",
    "C65_receiver_defaults",
    "C65_target_required",
    "C65_sender_default",
    "C65_defaults_stable",
    "C65_endless_refuted",
    "C65_wrap_refuted",
    "C65_filled_in"
   ],
   "note": "Proved for all histories of up to 2^32 samples less one interval (27 hours at 44.1 kHz). False after that: positions are 32-bit numbers compared without regard to wrap. If the position reaches exactly 2^32 - 1 the call never returns (C65_endless_refuted); after it has wrapped no scaling is computed for another 2^32 samples (C65_wrap_refuted). C65_range assumes an estimator that produces no NaN."
  },
  {
   "property": "C66",
   "status": "partial",
   "theorems": [
    "C66_exact",
    "C66_cadence",
    "C66_forgotten",
    "C66_all_count_refuted",
    "C66_bound",
    "C66_slope",
    "C66_sign"
   ],
   "note": "The latencies whose number is a multiple of the period leave the filter with the next one, so the filtered value is not the weighted mean of the last latencies (C66_all_count_refuted, C66_forgotten): the ring position is not advanced on the early return. All else is proved for up to 2^64 updates; bounds and slope are for exact real arithmetic, C66_exact and C66_cadence for every arithmetic including IEEE doubles."
  },
  {
   "property": "C67",
   "status": "partial",
   "theorems": [
    "C67_api",
    "C67_no_leak",
    "C67_close",
    "C67_moments",
    "C67_reported_port",
    "C67_one_protocol",
    "C67_sharing",
    "C67_outgoing_address",
    "C67_rebind_refuted",
    "C67_query_refuted",
    "C67_late_configure_refuted",
    "C67_relink_protocol_refuted",
    "C67_cleanup_window_refuted"
   ],
   "note": "Proved for senders without condition, except that a query of a broken slot aborts (C67_query_refuted). For receivers the part about resources is under the condition that no interface is bound again before its slot is unlinked: a second bind is refused, but leaks the first port, which goes on delivering to a deleted endpoint (C67_rebind_refuted). Further faults: a sender accepts configure for a connected interface that shares a port (C67_late_configure_refuted), protocols stay fixed after unlink (C67_relink_protocol_refuted), and the order of cleanup leaves a window in the other direction for control endpoints (C67_cleanup_window_refuted). Calls are serialised by the node's mutex; allocation of the slot object is assumed to succeed."
  },
  {
   "property": "C68",
   "status": "partial",
   "theorems": [
    "C68_calls",
    "C68_determined",
    "C68_panics",
    "C68_no_leak",
    "C68_memory",
    "C68_amortized",
    "C68_stable",
    "C68_self_push_refuted",
    "C68_huge_refuted",
    "C68_endless_refuted",
    "C68_data_refuted"
   ],
   "note": "Proved for all programs that ask for at most 2^62 bytes at once and do not push an element of the array into the array itself while it is full. False otherwise: such a push reads the element after it was destroyed (C68_self_push_refuted), a number of elements whose size in bytes wraps is granted with too little memory (C68_huge_refuted), and exponential growth beyond 2^63 elements never returns (C68_endless_refuted). The arena is assumed to give no block above 2^62 bytes."
  },
  {
   "property": "C69",
   "status": "partial",
   "theorems": [
    "C69_shown",
    "C69_single",
    "C69_silent",
    "C69_fed",
    "C69_frames",
    "C69_replaced",
    "C69_switching",
    "C69_cooldown_refuted",
    "C69_counts_refuted"
   ],
   "note": "Proved as stated. The stronger documented promise, no second change during the cooldown after a change, is false: two changes can be one nanosecond apart (C69_cooldown_refuted), because the limiter counts periods on a fixed grid; C69_switching is what holds, for times within 2^62 ns. After one report with a packet count of zero the counts of the receiver are never shown again, also when it reports them (C69_counts_refuted); without such a report they are shown as reported (C69_shown)."
  },
  {
   "property": "C70",
   "status": "partial",
   "theorems": [
    "C70_fifo",
    "C70_blocking",
    "C70_nodata",
    "C70_waiting",
    "C70_safe",
    "C70_progress",
    "C70_blocked_refuted",
    "C70_wait_free_refuted"
   ],
   "note": "Proved as stated, on top of the step by step model of C28 (sequentially consistent memory; the semaphore and the mutex are assumed to work). Two documented promises are false: a blocking read can wait although a packet whose write returned is in the queue, namely for another writer that entered before and is stopped before its end (C70_blocked_refuted; C70_waiting says what holds), and reads of a non-blocking queue are not wait-free, they go on while a writer is stopped inside write (C70_wait_free_refuted)."
  },
  {
   "property": "C71",
   "status": "partial",
   "theorems": [
    "C71_memory",
    "C71_fresh",
    "C71_overrun",
    "C71_foreign",
    "C71_count",
    "C71_size",
    "C71_safe",
    "C71_huge_refuted",
    "C71_twice_refuted"
   ],
   "note": "Proved for all sizes below 2^64-48. Larger ones wrap: a few bytes are asked from the heap and the arena writes beyond them (C71_huge_refuted). The header comment says that returning memory twice is caught; it is not, the second return reads a header that was given back to the heap (C71_twice_refuted). Pointers are modelled as never used again by malloc; the counters are taken as unbounded; calls of different threads are not interleaved."
  },
  {
   "property": "C72",
   "status": "partial",
   "theorems": [
    "C72_shown",
    "C72_latency",
    "C72_over",
    "C72_read",
    "C72_played",
    "C72_factors",
    "C72_safe",
    "C72_stalling_refuted",
    "C72_end_to_end_refuted"
   ],
   "note": "Proved as stated. Two figures can be stale: the documented delay since the last packet keeps the value of an older packet if the clock does not read later than the receive time of the latest one (C72_stalling_refuted), and the end-to-end latency stays when later frames have no capture time (C72_end_to_end_refuted); C72_shown says exactly what is shown. The tuner is any (its own claim is C65), the link metrics and the factors are opaque."
  },
  {
   "property": "C73",
   "status": "partial",
   "theorems": [
    "C73_file",
    "C73_mono",
    "C73_channels_refuted",
    "C73_counter_refuted",
    "C73_plays",
    "C73_cut_refuted",
    "C73_long_refuted",
    "C73_crash",
    "C73_empty_refuted"
   ],
   "note": "Format and samples are proved (C73_file), and that crashes lose nothing as long as the declared size did not wrap (C73_crash, C73_plays). The declared size is wrong: it is multiplied by the number of channels twice (C73_channels_refuted), counted from memory that is not initialized (C73_counter_refuted; C73_mono is what holds for one channel if that memory is zero), and wraps around, after 17.5 minutes of stereo at 44.1 kHz in memory of the heap arena (C73_cut_refuted, C73_long_refuted), so that readers that believe it lose the recording. A file without samples is empty (C73_empty_refuted). Little-endian machine; operations on the file succeed; the header reaches the file in one piece."
  },
  {
   "property": "C74",
   "status": "partial",
   "theorems": [
    "C74_any_durations",
    "C74_any_sizes",
    "C74_infinity_refused",
    "C74_whole_durations",
    "C74_decimal_durations",
    "C74_whole_sizes",
    "C74_decimal_sizes",
    "C74_duration_form",
    "C74_size_form",
    "C74_too_large_refused",
    "C74_large_whole_refuted",
    "C74_no_undefined_refuted"
   ],
   "note": "Proved as stated for all forms of numbers: fractions, exponents and hexadecimal numbers (C74_any_durations, C74_any_sizes), up to 2^62 ns or bytes; refusal of whole numbers from 2^64 ns or 2^65 bytes and of infinity. Between those bounds nothing is said about the value. Whole numbers above 2^53 ns are not exact (C74_large_whole_refuted). The range check lets 2^63 ns, 2^64 bytes and NaN through to a conversion that is undefined behaviour (C74_no_undefined_refuted), for example 9223372036854775807ns or -nanms. strtod is modelled after the C standard with correct rounding, in the C locale."
  },
  {
   "property": "C75",
   "status": "partial",
   "theorems": [
    "C75_uuid",
    "C75_small_buffer",
    "C75_identity",
    "C75_new_ssrc",
    "C75_same_identity",
    "C75_unique_refuted",
    "C75_few"
   ],
   "note": "Proved as stated. The documented promise that CNAMEs identify participants uniquely is false: they depend on 32 bits of the monotonic clock only, so that processes whose clocks differ by a multiple of 2^32 ns have the same CNAME and the same SSRC (C75_same_identity, C75_unique_refuted), and there are at most 2^32 of them at one time instead of 2^122 (C75_few). C75_new_ssrc holds until the generator is seeded again, which is when its state is zero."
  },
  {
   "property": "C76",
   "status": "proved",
   "theorems": [
    "C76_sent",
    "C76_aborts",
    "C76_packet"
   ],
   "note": "Any composer that depends on the packet only, and any writer that does not change the packet. The status of the writer is returned as it is and is left out."
  }
 ]
}