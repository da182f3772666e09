{"id": "C01", "title": "Circular sequence-number and timestamp ordering", "statement": "Comparing two 16-bit sequence numbers (or 32-bit stream timestamps, or 16-bit block numbers) yields the signed distance modulo 2^n: adding k to a value puts it exactly k ahead for every k in (-2^(n-1), 2^(n-1)), including across the wrap; 'before' is antisymmetric, except for pairs exactly half the range apart, and is unchanged by shifting both operands.", "quantifier": "all pairs of 16-bit / 32-bit values and all offsets", "why_tests_cant": "4 billion pairs per comparison and every wrap position; tests sample a handful", "anchors": ["src/internal_modules/roc_packet/units.h: seqnum_diff, seqnum_lt, stream_timestamp_diff, stream_timestamp_lt, blknum_diff"]}
{"id": "C02", "title": "Jitter buffer ordering and completeness", "statement": "After any interleaving of writes and reads on the sorted packet queue, each read returns the oldest packet stored, so packets read without intervening writes come out in strictly increasing sequence order, no packet comes out twice for one write, nothing stored is lost, a write is dropped only when an equal packet is still stored or the queue is full, and the number stored never exceeds the configured maximum. Holds whenever all live sequence numbers lie in a window shorter than half the range, including windows that wrap.", "quantifier": "all finite sequences of write/read operations with arbitrary (wrapping) sequence numbers in a half-range window", "why_tests_cant": "unbounded arrival orders and wrap positions", "anchors": ["src/internal_modules/roc_packet/sorted_queue.cpp: SortedQueue::write, SortedQueue::read, head, tail, latest"]}
{"id": "C03", "title": "FIFO packet queue", "statement": "The plain packet queue returns exactly the written packets, in write order, each once, and reports 'no data' exactly when every written packet was already read.", "quantifier": "all finite sequences of write/read operations", "why_tests_cant": "unbounded histories", "anchors": ["src/internal_modules/roc_packet/queue.cpp: Queue::write, Queue::read"]}
{"id": "C04", "title": "Start-up delay buffer", "statement": "A delayed reader returns no packet before the buffered duration has reached the configured target delay; at the moment it starts, it drops the oldest packets only while the remaining ones still cover the delay; after it started it hands over the upstream packets in order with no loss, no duplication and no further delay.", "quantifier": "all upstream packet streams, all poll schedules, all target delays", "why_tests_cant": "depends on the whole arrival history", "anchors": ["src/internal_modules/roc_packet/delayed_reader.cpp: DelayedReader::read, start_, fetch_packets_, read_queued_packet_, queue_size_"]}
{"id": "C05", "title": "Interleaver emits a permutation with bounded displacement", "statement": "Whatever random permutation the interleaver draws for each block, after a flush the downstream writer has received exactly the packets written, each once, and no packet is overtaken by more than (block size - 1) later packets or emitted outside its block.", "quantifier": "all packet streams, all block sizes, all outcomes of the random generator, all flush points", "why_tests_cant": "tests see one random seed", "anchors": ["src/internal_modules/roc_packet/interleaver.cpp: Interleaver::write, flush, reinit_seq_, put, next"]}
{"id": "C06", "title": "Router delivers to one route and sticks to one source", "statement": "A routed packet is delivered to at most one route, the first whose required flags the packet has; once a route with source-id has locked on to a source, packets of other sources are never delivered to it; and packets not matching any route are dropped with success status.", "quantifier": "all route tables, all packet sequences", "why_tests_cant": "history dependent (first packet locks the source)", "anchors": ["src/internal_modules/roc_packet/router.cpp: Router::write, find_route_, allow_route_"]}
{"id": "C07", "title": "RTP compose/parse round trip", "statement": "Every RTP packet composed into bytes and parsed back has the same source id, sequence number, timestamp, marker, payload type, payload bytes and padding; the composed packet occupies exactly the prepared buffer.", "quantifier": "all header field values, all payloads, all padding sizes the composer accepts, all alignments", "why_tests_cant": "cartesian product of header fields, payload sizes and padding", "anchors": ["src/internal_modules/roc_rtp/composer.cpp: Composer::prepare, pad, compose", "src/internal_modules/roc_rtp/parser.cpp: Parser::parse", "src/internal_modules/roc_rtp/headers.h: Header"]}
{"id": "C08", "title": "RTP parser is memory safe and total on arbitrary datagrams", "statement": "Parsing any byte string never reads outside it; it either rejects it, or yields header, payload and padding slices lying inside the datagram, adjacent and non-overlapping, and covering it up to the end; it rejects every datagram with a wrong version, a truncated header, CSRC list or extension, or an impossible padding count.", "quantifier": "all byte strings", "why_tests_cant": "attacker-controlled input space", "anchors": ["src/internal_modules/roc_rtp/parser.cpp: Parser::parse", "src/internal_modules/roc_rtp/headers.h: Header, ExtentionHeader"]}
{"id": "C09", "title": "RTP stream filter admits only one coherent stream", "statement": "Packets that pass the filter all have the session's source id and payload type of the first accepted one; a packet is accepted exactly when it is an RTP audio packet within the configured sequence-number and timestamp jump of the newest packet accepted before it, with a capture time that is not negative and does not go back to 'unknown'; a rejected packet leaves the filter state unchanged.", "quantifier": "all packet sequences and all jump limits", "why_tests_cant": "history dependent, and extreme jumps (half range) are corner cases", "anchors": ["src/internal_modules/roc_rtp/filter.cpp: Filter::read, validate_, validate_sequence_"]}
{"id": "C10", "title": "Link metrics count packets and losses", "statement": "The reported extended first and last sequence numbers agree with the lowest and highest true (unwrapped) sequence numbers received, for streams of any length, including after wrap-arounds of the 16-bit sequence number.", "quantifier": "all received packet sequences whose successive seqnums are within half range", "why_tests_cant": "needs more than 65536 packets to see the first wrap, and then all later wraps", "anchors": ["src/internal_modules/roc_rtp/link_meter.cpp: LinkMeter::update_metrics_, update_seqnums_"]}
{"id": "C11", "title": "Sequencer numbers packets consecutively", "statement": "Packets produced by one sender carry sequence numbers increasing by exactly 1 modulo 2^16, and stream timestamps increasing by exactly the previous packet's duration modulo 2^32, with constant source id and payload type.", "quantifier": "all packet sequences with all durations and any random starting point", "why_tests_cant": "wraps and unbounded lengths", "anchors": ["src/internal_modules/roc_rtp/sequencer.cpp: Sequencer::next"]}
{"id": "C12", "title": "FEC payload-ID wire formats round trip", "statement": "For LDPC-Staircase and Reed-Solomon (m=8) source and repair payload IDs, reading back the fields written into the header yields the same block number, symbol id, block length and repair length, for every value fitting the field widths, and writing one field does not disturb another.", "quantifier": "all field values and all initial buffer contents", "why_tests_cant": "product of field values", "anchors": ["src/internal_modules/roc_fec/headers.h: LDPC_Source_PayloadID, LDPC_Repair_PayloadID, RS8M_PayloadID", "src/internal_modules/roc_fec/composer.h", "src/internal_modules/roc_fec/parser.h"]}
{"id": "C13", "title": "FEC writer numbers blocks and symbols consistently", "statement": "Every source packet passed to the FEC writer is forwarded once, in order, tagged with the current block number and the next symbol index; every completed block is followed by exactly the configured number of repair packets with the same block number and symbol indices following the source ones; block numbers increase by one; a block is never mixed with the next one's size even when the block size is changed in the middle of the stream.", "quantifier": "all write sequences interleaved with resize calls, all block sizes", "why_tests_cant": "interleaving of resizes with partial blocks", "anchors": ["src/internal_modules/roc_fec/writer.cpp: Writer::write, resize, begin_block_, end_block_, next_block_, apply_sizes_, write_source_packet_, write_repair_packets_"]}
{"id": "C14", "title": "FEC reader preserves the stream", "statement": "Packets returned by the FEC reader are source packets received or recovered, in increasing (block, position) order, with no duplicates; when nothing is lost the output equals the source stream; and no datagram sequence makes it crash.", "quantifier": "all interleavings of arrival, loss and duplication of source and repair packets, all block sizes", "why_tests_cant": "combinatorial loss patterns and block resizes; malformed remote headers", "anchors": ["src/internal_modules/roc_fec/reader.cpp: Reader::read, try_start_, get_next_packet_, next_block_, try_repair_, process_source_packet_, process_repair_packet_, update_repair_block_size_"]}
{"id": "C15", "title": "RTCP traversal is memory safe and terminating on arbitrary datagrams", "statement": "Iterating over any byte string as an RTCP compound packet (including nested SDES chunks, BYE and XR blocks) terminates, never reads outside the buffer, and every element returned lies inside it. What a single packet is read as is exactly what the packet format (RFC 3550, RFC 3611) says its bytes mean, up to the first malformed element.", "quantifier": "all byte strings", "why_tests_cant": "attacker-controlled input space", "anchors": ["src/internal_modules/roc_rtcp/traverser.cpp", "src/internal_modules/roc_rtcp/sdes_traverser.cpp", "src/internal_modules/roc_rtcp/bye_traverser.cpp", "src/internal_modules/roc_rtcp/xr_traverser.cpp"]}
{"id": "C16", "title": "RTCP build/traverse round trip", "statement": "A compound packet produced by the builder is valid for the traverser, which returns exactly the packets, report blocks, SDES items, BYE sources and XR blocks added, in the same order with the same contents; the total size is a multiple of 4 and each header length field matches. The bytes produced are the ones the packet formats (RFC 3550, RFC 3611) prescribe for the calls made.", "quantifier": "all sequences of builder calls allowed by its protocol, all field values, all text lengths", "why_tests_cant": "unbounded call sequences and text lengths with padding rules", "anchors": ["src/internal_modules/roc_rtcp/builder.cpp: Builder", "src/internal_modules/roc_rtcp/traverser.cpp", "src/internal_modules/roc_rtcp/headers.h"]}
{"id": "C17", "title": "Compact NTP timestamps are extended correctly", "statement": "Compressing a 64-bit NTP timestamp into its middle 32 bits and extending it against a nearby base restores the original high bits, for every pair less than half the compact range apart.", "quantifier": "all 64-bit NTP timestamps and bases within the half range", "why_tests_cant": "wrap positions of the compact format (every 18 hours)", "anchors": ["src/internal_modules/roc_rtcp/ntp.cpp: ntp_extend, ntp_clamp_32, ntp_clamp_64", "src/internal_modules/roc_rtcp/headers.h: NtpTimestamp32"]}
{"id": "C18", "title": "RTCP packet counter extends 32-bit counts", "statement": "The packet counter's result equals the number of packets sent since the first extended sequence number reported, over any number of wraps of the 32-bit report.", "quantifier": "all monotone histories of 32-bit extended sequence numbers", "why_tests_cant": "needs histories that wrap a 32-bit counter", "anchors": ["src/internal_modules/roc_rtcp/packet_counter.cpp: PacketCounter::update"]}
{"id": "C19", "title": "RTCP report generation terminates and covers every stream", "statement": "Generating RTCP reports finishes after finitely many packets, and every local sending and receiving stream is described in at least one of them, whatever the number of streams and the packet size limit.", "quantifier": "all numbers of send/receive streams and all maximum packet sizes", "why_tests_cant": "loop whose exit depends on how many blocks fit each packet", "anchors": ["src/internal_modules/roc_rtcp/communicator.cpp: generate_packets_, continue_packet_generation_, next_send_stream_, next_recv_stream_"]}
{"id": "C20", "title": "RTCP stream table stays consistent", "statement": "At any time the table of known remote streams has at most one entry per source id, entries are removed exactly when no report arrived during the timeout or a BYE was received, and the least recently updated entry is the one found by timeout detection. The participant gives up its own source id only after someone else reported under it and it has said goodbye, and then takes one that no known stream has.", "quantifier": "all sequences of processed reports, BYEs and time advances", "why_tests_cant": "unbounded histories", "anchors": ["src/internal_modules/roc_rtcp/reporter.cpp: find_stream_, remove_stream_, update_stream_, detect_timeouts_"]}
{"id": "C21", "title": "NTP time conversion", "statement": "Converting Unix nanoseconds to NTP format and back gives the same time or one nanosecond less, for all times from 1968 to 2104; converting an NTP timestamp to Unix time and back changes it by less than the nanosecond resolution; duration conversions are monotone and rounded down.", "quantifier": "all 64-bit times", "why_tests_cant": "2^64 inputs", "anchors": ["src/internal_modules/roc_packet/ntp.cpp: unix_2_ntp, ntp_2_unix, nanoseconds_2_ntp, ntp_2_nanoseconds"]}
{"id": "C22", "title": "Hash map behaves as a finite map", "statement": "After any sequence of grow, insert, find and remove calls, lookup finds exactly the inserted and not removed elements, iteration visits each exactly once in insertion order, and inserting after a successful grow never fails, regardless of incremental rehashing.", "quantifier": "all operation sequences and all hash functions (including total collisions)", "why_tests_cant": "interaction of incremental migration with removal", "anchors": ["src/internal_modules/roc_core/hashmap_impl.cpp: HashmapImpl", "src/internal_modules/roc_core/hashmap.h"]}
{"id": "C23", "title": "Intrusive list behaves as a sequence", "statement": "Any sequence of push, insert-before/after, pop and remove operations on the intrusive list keeps the forward and backward chains consistent and equal to the mathematical sequence; inserting a node already in a list or removing a foreign one is detected.", "quantifier": "all operation sequences", "why_tests_cant": "pointer structure for unbounded histories", "anchors": ["src/internal_modules/roc_core/list_impl.cpp: ListImpl"]}
{"id": "C24", "title": "Bounded ring queue", "statement": "The ring queue behaves as a FIFO/deque of the configured capacity: size, emptiness, fullness, front and back agree with the sequence of elements pushed and not yet popped.", "quantifier": "all operation sequences and capacities", "why_tests_cant": "full/empty boundary at every wrap position", "anchors": ["src/internal_modules/roc_core/ring_queue.h: RingQueue"]}
{"id": "C25", "title": "Single-producer single-consumer ring buffer", "statement": "Under every interleaving of one producer and one consumer thread, the consumer receives exactly the produced elements in order, never sees a partially written element, and a push fails only if the buffer is full.", "quantifier": "all interleavings of the producer's and consumer's atomic steps, all capacities", "why_tests_cant": "schedules cannot be enumerated by tests", "anchors": ["src/internal_modules/roc_core/spsc_ring_buffer.h: SpscRingBuffer", "src/internal_modules/roc_core/spsc_byte_buffer.cpp: SpscByteBuffer"]}
{"id": "C26", "title": "Memory limiter never over-commits", "statement": "With any number of threads acquiring and releasing, the total outstanding amount never exceeds the configured limit, and an acquire within the remaining limit in the absence of contention succeeds.", "quantifier": "all interleavings of acquire/release steps by any number of threads", "why_tests_cant": "schedule dependent", "anchors": ["src/internal_modules/roc_core/memory_limiter.cpp: MemoryLimiter::acquire, release"]}
{"id": "C27", "title": "Moving statistics", "statement": "The sliding-window statistics report the average, minimum and maximum of exactly the last N values added.", "quantifier": "all value sequences and window sizes", "why_tests_cant": "unbounded input sequences", "anchors": ["src/internal_modules/roc_core/mov_stats.h: MovStats"]}
{"id": "C28", "title": "Multi-producer single-consumer queue is linearizable", "statement": "Under every interleaving of any number of pushing threads and one popping thread, each pushed element is popped at most once, never invented, per-producer order is preserved, and once all pushes finished every element is eventually popped.", "quantifier": "all interleavings of atomic steps, any number of producers", "why_tests_cant": "schedule dependent", "anchors": ["src/internal_modules/roc_core/mpsc_queue_impl.cpp", "src/internal_modules/roc_core/mpsc_queue.h"]}
{"id": "C29", "title": "Seqlock readers never return a torn value", "statement": "A successful load returns a value that was current at some moment during the load: never a mix of two stores, under every interleaving of writers and readers.", "quantifier": "all interleavings of reader and writer steps, all values", "why_tests_cant": "schedule dependent", "anchors": ["src/internal_modules/roc_core/seqlock.h", "src/internal_modules/roc_core/seqlock_impl.h"]}
{"id": "C30", "title": "Timer wakeups are not lost", "statement": "When a deadline is set to an earlier time while another thread is waiting, the waiter never sleeps past the most recently set deadline.", "quantifier": "all interleavings of set-deadline calls from any number of threads with the waiting thread", "why_tests_cant": "schedule dependent, lost wake-up", "anchors": ["src/internal_modules/roc_core/timer.cpp: Timer::try_set_deadline, wait_deadline"]}
{"id": "C31", "title": "Slab pool allocation", "statement": "Slots handed out by the pool and not returned are pairwise disjoint, within memory obtained from the arena in blocks no larger than the configured maximum, each with room for twice as many objects as the one before until that maximum is reached; a returned slot is the next one to be reused, reserving n objects makes n allocations succeed, and overwriting past either end of a slot, returning it twice or returning a foreign pointer is detected (when guards are enabled).", "quantifier": "all allocate/deallocate sequences and all slot/slab sizes", "why_tests_cant": "unbounded allocation histories", "anchors": ["src/internal_modules/roc_core/slab_pool_impl.cpp: SlabPoolImpl", "src/internal_modules/roc_core/memory_ops.cpp"]}
{"id": "C32", "title": "Reference counting destroys exactly once", "statement": "With any number of threads holding references, the object is destroyed exactly once, when the last reference is released, and never while a reference is held.", "quantifier": "all interleavings of reference acquisition/release", "why_tests_cant": "schedule dependent", "anchors": ["src/internal_modules/roc_core/ref_counted.h", "src/internal_modules/roc_core/ref_counted_impl.h", "src/internal_modules/roc_core/shared_ptr.h"]}
{"id": "C33", "title": "String builder is bounded and always terminated", "statement": "Whatever is appended, the builder never writes outside its buffer, the result is always NUL-terminated when the buffer is non-empty, equals the longest fitting prefix of the concatenation, and success is reported exactly when nothing was truncated.", "quantifier": "all buffer sizes and all sequences of appends", "why_tests_cant": "boundary at every buffer size", "anchors": ["src/internal_modules/roc_core/string_builder.cpp: StringBuilder"]}
{"id": "C34", "title": "String list lookup", "statement": "The string list returns the appended strings in order, and a lookup for a string succeeds exactly when that exact string was appended.", "quantifier": "all sequences of appended strings and all looked-up strings", "why_tests_cant": "unbounded histories, prefix collisions", "anchors": ["src/internal_modules/roc_core/string_list.cpp: StringList"]}
{"id": "C35", "title": "Percent encoding round trip and safety", "statement": "Percent-encoding any NUL-free byte string and decoding it yields the original string; the encoded text contains only characters permitted in the chosen URI component; decoding never accepts malformed escapes and never expands its input.", "quantifier": "all byte strings and all encoding modes", "why_tests_cant": "unbounded strings", "anchors": ["src/internal_modules/roc_address/pct.cpp: pct_encode, pct_decode"]}
{"id": "C36", "title": "Endpoint URI round trip", "statement": "Formatting a valid endpoint URI and parsing the text gives an equal URI; parsing accepts exactly the documented grammar and the port that is stored is the decimal number written, in 0..65535. Each part can be set on its own: a value that is accepted is seen afterwards, one that is refused makes the URI invalid, and other parts do not change; equal URIs look the same.", "quantifier": "all URIs and all input strings", "why_tests_cant": "unbounded strings", "anchors": ["src/internal_modules/roc_address/endpoint_uri_parse.rl", "src/internal_modules/roc_address/endpoint_uri_format.cpp", "src/internal_modules/roc_address/endpoint_uri.cpp"]}
{"id": "C37", "title": "Channel sets", "statement": "Operations on channel sets agree with finite-set semantics: membership, count, first and last channel, union, intersection, symmetric difference, ranges and mask comparison.", "quantifier": "all channel sets and operations", "why_tests_cant": "2^1024 sets", "anchors": ["src/internal_modules/roc_audio/channel_set.cpp: ChannelSet"]}
{"id": "C38", "title": "Packetizer preserves samples", "statement": "The payloads of the packets produced, concatenated, equal the samples written, in order, for any partition of the stream into frames; every packet except a flushed one has the configured length; durations and capture timestamps match the sample positions.", "quantifier": "all frame partitions, all packet lengths, all flush points", "why_tests_cant": "unbounded partitions", "anchors": ["src/internal_modules/roc_audio/packetizer.cpp: Packetizer::write, flush, begin_packet_, end_packet_, pad_packet_"]}
{"id": "C39", "title": "Depacketizer places samples at their timeline position", "statement": "Each output sample equals the sample of the received packet covering that stream position, or silence if none does; the output has exactly the requested length; late packets never shift the timeline, and no packet sequence makes it crash.", "quantifier": "all packet sequences (gaps, overlaps, late packets), all frame sizes", "why_tests_cant": "unbounded combinations of overlaps and frame boundaries", "anchors": ["src/internal_modules/roc_audio/depacketizer.cpp: Depacketizer::read, read_samples_, update_packet_, read_packet_samples_, read_missing_samples_"]}
{"id": "C40", "title": "Mixer sums and clips all inputs", "statement": "Each mixed sample is the sum of the inputs' samples clamped to the sample range, independent of how reads are split into chunks; removed inputs contribute nothing.", "quantifier": "all numbers of inputs, all samples, all frame lengths versus internal buffer size", "why_tests_cant": "unbounded frame/chunk combinations", "anchors": ["src/internal_modules/roc_audio/mixer.cpp: Mixer::read"]}
{"id": "C41", "title": "Session watchdog verdicts", "statement": "A session is declared dead exactly when, after the warm-up, no non-blank audio was produced for the no-playback timeout, or every detection window had drops for the choppy timeout; once dead it stays dead; warm-up is never counted as silence.", "quantifier": "all frame sequences with arbitrary durations and flags, including position wrap-around", "why_tests_cant": "history dependent over long time spans", "anchors": ["src/internal_modules/roc_audio/watchdog.cpp: Watchdog::read, update_blank_timeout_, check_blank_timeout_, update_drops_timeout_"]}
{"id": "C42", "title": "PCM payload coding", "statement": "Encoding samples to a PCM payload and decoding them restores every value representable in the format, with byte counts equal to ceil(samples*width/8), independent of how the stream is split into calls.", "quantifier": "all sample values and formats, all partitions", "why_tests_cant": "2^32 values per format and unbounded partitions", "anchors": ["src/internal_modules/roc_audio/pcm_format.cpp", "src/internal_modules/roc_audio/pcm_mapper.cpp", "src/internal_modules/roc_audio/pcm_decoder.cpp", "src/internal_modules/roc_audio/pcm_encoder.cpp"]}
{"id": "C43", "title": "Rate limiter", "statement": "A rate limiter lets through at most one event per interval (intervals counted from the first call), never three events within one period, and always lets an event through if a whole period has passed since the last permitted one.", "quantifier": "all sequences of call times", "why_tests_cant": "unbounded histories", "anchors": ["src/internal_modules/roc_core/rate_limiter.cpp: RateLimiter::allow, would_allow"]}
{"id": "C44", "title": "Alignment helpers", "statement": "Aligning a size returns the smallest multiple of the alignment not below it; padding is the number of bytes that makes header plus padding aligned, and is less than the alignment.", "quantifier": "all sizes and alignments", "why_tests_cant": "unbounded integers", "anchors": ["src/internal_modules/roc_core/align_ops.cpp: align_as, pad_as, align_max"]}
{"id": "C45", "title": "Bounded random numbers", "statement": "A random number requested in [from, to] always lies in that range, for every internal generator state, including the full 32-bit range; and every value in the range is possible.", "quantifier": "all generator outputs and all ranges", "why_tests_cant": "2^32 x 2^64 inputs", "anchors": ["src/internal_modules/roc_core/fast_random.cpp: fast_random_range"]}
{"id": "C46", "title": "Intervals between protocol identifiers and names", "statement": "Protocol lookup by id and by scheme name are mutually inverse for every protocol the library supports and fail for every other name.", "quantifier": "all protocol ids and all strings", "why_tests_cant": "infinite set of strings", "anchors": ["src/internal_modules/roc_address/protocol_map.cpp: find_by_id, find_by_scheme, ProtocolMap"]}
{"id": "C47", "title": "Pipeline tasks are executed exactly once and never forgotten", "statement": "A task scheduled on the pipeline loop from any thread is executed exactly once, never concurrently with frame processing, and is eventually executed if the background scheduler runs, even if no more frames arrive.", "quantifier": "all interleavings of scheduling threads, the frame thread and the background scheduler", "why_tests_cant": "schedule dependent", "anchors": ["src/internal_modules/roc_pipeline/pipeline_loop.cpp: PipelineLoop"]}
{"id": "C48", "title": "RTCP reports follow a fixed schedule", "statement": "Whatever the times at which report generation is invoked, reports are produced at the first invocation and then exactly once in every report interval in which it is invoked, the intervals forming a fixed grid that does not drift.", "quantifier": "all report intervals and all non-decreasing sequences of invocation times", "why_tests_cant": "unbounded sequences of times", "anchors": ["src/internal_modules/roc_rtcp/communicator.cpp: generation_deadline, generate_reports"]}
{"id": "C49", "title": "RTCP reports cover every known remote stream exactly once", "statement": "When report generation begins, every remote receiver that reported on our stream and announced its reference time, and every remote sender we receive from whose address is known, gets exactly one block, under its own destination and with its own numbers; no block concerns a forgotten stream, and the configured destination is addressed even if there are no remote streams.", "quantifier": "all histories of received reports, goodbyes, timeouts and local stream changes", "why_tests_cant": "unbounded histories; staleness of cached pointers depends on order of events", "anchors": ["src/internal_modules/roc_rtcp/reporter.cpp: Reporter::begin_generation, refresh_index, generate_reception_block, generate_dlrr_subblock, num_dest_addresses"]}
{"id": "C50", "title": "Packets are routed to the session of their sender", "statement": "For every history of registering and removing sessions and of linking SSRCs to CNAMEs and unlinking them, the session answered for an SSRC or a source address is the one the history calls for: the session registered last for it or for an SSRC with the same CNAME, never a removed one; a session or address cannot be registered twice; no history of calls and no failed allocation aborts the receiver.", "quantifier": "all finite histories of calls, any SSRCs, addresses, CNAMEs and sessions, any allocation failures", "why_tests_cant": "unbounded histories; behaviour depends on the order in which RTP packets and RTCP reports of several senders interleave", "anchors": ["src/internal_modules/roc_pipeline/receiver_session_router.cpp: add_session, remove_session, link_source, unlink_source, find_by_source, find_by_address"]}
{"id": "C51", "title": "Receiver slot delivers packets to live sessions only, and no traffic aborts it", "statement": "For every sequence of RTP and repair packets, RTCP datagrams and periodic calls reaching a receiver slot, in any order, from any senders: the receiver does not abort; the mixer mixes every session exactly once and only sessions that exist; a packet goes to the session of its SSRC or else of its address, and stays with it until that session ends; packets that match none create one; after a goodbye exactly the session that only that SSRC led to ends; SSRCs with one CNAME share a session.", "quantifier": "all histories of transport packets, RTCP datagrams of arbitrary bytes, refreshes and reclocks; any SSRCs, addresses, CNAMEs, allocation failures", "why_tests_cant": "unbounded histories of network input from several independent senders", "anchors": ["src/internal_modules/roc_pipeline/receiver_session_group.cpp: route_packet, route_transport_packet_, route_control_packet_, create_session_, remove_session_, notify_recv_stream, halt_recv_stream, refresh_sessions, reclock_sessions", "src/internal_modules/roc_rtcp/communicator.cpp: process_packet", "src/internal_modules/roc_pipeline/state_tracker.cpp: StateTracker"]}
{"id": "C52", "title": "Control tasks: nothing is lost, nothing happens early", "statement": "However threads schedule, reschedule, cancel and wait for control tasks, and however their steps interleave with the loop thread: no assertion fails and no destroyed task is touched; a task is executed only for a request made before and not before its deadline; when no thread can move, the last request about each task has been executed, or the loop will wake up by its deadline, or it was a cancellation and the task is completed; the completer is called on the loop thread once per execution or cancellation; wait() returns only when the task is completed; one request leads to one execution; paused tasks can be resumed and cancelled.", "quantifier": "all interleavings of any number of client threads with the loop thread, any tasks, deadlines and passage of time", "why_tests_cant": "schedule dependent; lock-free code with windows of a few instructions", "anchors": ["src/internal_modules/roc_ctl/control_task_queue.cpp: schedule, schedule_at, resume, async_cancel, wait, request_renew_guarded_, try_renew_inplace_, complete_task_, wait_task_, execute_task_, process_tasks_, fetch_ready_task_, fetch_sleeping_task_, update_wakeup_timer_", "src/internal_modules/roc_ctl/control_task.cpp: ControlTask"]}
{"id": "C53", "title": "Receiver says Idle only when nothing is waiting, and packets are taken in order", "statement": "However network threads hand packets to a receiver while the pipeline thread pulls them, refreshes sessions and asks for the state: the receiver does not abort; it answers Idle exactly when it has no session and every packet handed to it was routed, so that Idle means no write is running and no accepted packet waits; Active means there is a session or a waiting packet; packets of one endpoint are taken in the order in which write() returned, each once.", "quantifier": "all interleavings of any number of writing threads with the pipeline thread, any endpoints, packets well-formed or not, endpoints added and deleted", "why_tests_cant": "schedule dependent, unbounded histories of packets", "anchors": ["src/internal_modules/roc_pipeline/receiver_endpoint.cpp: pull_packets, write", "src/internal_modules/roc_pipeline/state_tracker.cpp: get_state, add_pending_packets", "src/internal_modules/roc_pipeline/receiver_source.cpp: delete_slot, state"]}
{"id": "C54", "title": "Pump moves every frame from the right source to the sink", "statement": "Whatever the sources, the sink, the clock and the stop flag answer: every frame read is written once, in order, before the next is read, with the times its source gave or else the ones computed from latency and duration, and its own source is told its playback time; the backup source is read only while the main one is inactive or cannot resume; a source is read only while it is running; the pump ends only when told to, when the main source ends, or in oneshot mode when it becomes inactive after a frame, and then at once; at most one frame is moved after stop().", "quantifier": "all sequences of answers of sources, sink, clock and stop flag, of any length", "why_tests_cant": "depends on the order of state changes of two sources and the stop flag, without bound", "anchors": ["src/internal_modules/roc_sndio/pump.cpp: Pump::run, Pump::transfer_frame_, Pump::stop"]}
{"id": "C55", "title": "Durations, samples, timestamps and bytes convert into each other", "statement": "For every sample rate and channel count, every duration, sample count and stream timestamp: no conversion aborts, overflows or is undefined; results are within 0.24 ppm and half a unit of the exact value and saturate if that does not fit; conversions preserve order; a number of samples over all channels is a multiple of the channel count; timestamps survive the way to nanoseconds and back; byte counts convert exactly.", "quantifier": "all 64-bit durations and counts, all sample rates, channel counts and sample widths", "why_tests_cant": "64-bit inputs through single precision arithmetic; errors appear only for some large values", "anchors": ["src/internal_modules/roc_audio/sample_spec.cpp: ns_2_int_samples, nsamples_2_ns, SampleSpec::ns_2_samples_per_chan, samples_per_chan_2_ns, ns_2_samples_overall, samples_overall_2_ns, ns_2_stream_timestamp, stream_timestamp_2_ns, ns_2_stream_timestamp_delta, stream_timestamp_delta_2_ns, bytes_2_stream_timestamp, stream_timestamp_2_bytes", "src/internal_modules/roc_packet/units.cpp: ns_2_stream_timestamp, ns_2_stream_timestamp_delta"]}
{"id": "C56", "title": "Capture times travel from sender to receiver", "statement": "Whatever packets a sender sends and whenever it reports, and whatever reports and packets a receiver gets, in any order: neither aborts or overflows; the sender maps the time of its report to the stream timestamp reckoned from the last packet with known capture time; the receiver gives each packet the capture time that follows from the last report with a valid time, none before the first, and never an earlier time to a later packet under the same report; the time the receiver computes differs from the sender's by at most 0.6 samples, a quarter of a millionth of the time spans and 2 ns.", "quantifier": "all sequences of packets and reports, sample rates up to 16.7 MHz, stream timestamps with wrap, all times an NTP timestamp can express", "why_tests_cant": "unbounded histories; composition of roundings in two processes and NTP format", "anchors": ["src/internal_modules/roc_rtp/timestamp_extractor.cpp: TimestampExtractor::write, get_mapping", "src/internal_modules/roc_rtp/timestamp_injector.cpp: TimestampInjector::read, update_mapping", "src/internal_modules/roc_pipeline/sender_session.cpp: query_send_stream", "src/internal_modules/roc_pipeline/receiver_session.cpp: process_report", "src/internal_modules/roc_packet/ntp.cpp: unix_2_ntp, ntp_2_unix"]}
{"id": "C57", "title": "Output of the built-in resampler", "statement": "For every history of frames pushed, samples popped in portions of any size and changes of the scaling, each output sample is the sum over exactly those input samples that lie within half a window around its time on the input stream, weighted by their distance; the times are spaced by the scaling asked for, rounded down to 2^-20 of a sample; only input pushed before is used, and no memory outside the frames and the table is read and the program is not stopped.", "quantifier": "all profiles, frame sizes, rates and multipliers accepted; all histories of any length", "why_tests_cant": "fixed point arithmetic with wraps over unbounded histories; failures only at particular phases that depend on the multiplier", "anchors": ["src/internal_modules/roc_audio/builtin_resampler.cpp: BuiltinResampler::set_scaling, begin_push_input, end_push_input, pop_output, resample_, sinc_"]}
{"id": "C58", "title": "Round trip time and clock offset between peers", "statement": "Whatever a peer reports, in any sequence of reports: computing the round trip time never aborts or overflows and it is never negative; the values are those of the most recent plausible exchange of reports; for a peer with any clock offset, any network delays and any time between our report and its reply, the round trip time is right to 23 microseconds and the clock offset up to half the difference of the delays in both directions and 12 microseconds; there is no round trip time before the peer has received a report.", "quantifier": "all sequences of reports, all times up to 2104, all clock offsets and delays, all contents of the fields", "why_tests_cant": "composition of roundings, compact timestamp formats with wrap and clocks of two processes; hostile fields", "anchors": ["src/internal_modules/roc_rtcp/rtt_estimator.cpp: RttEstimator::update", "src/internal_modules/roc_rtcp/reporter.cpp: Reporter::process_reception_block, process_rrtr_block, process_dlrr_subblock, generate_reception_block, generate_dlrr_subblock, generate_rrtr_block"]}
{"id": "C59", "title": "Fraction lost reported to the sender", "statement": "For every history of expected and lost packet counts, each report carries the fraction of packets lost since the previous report: never undefined, zero if no packets were expected or the count of lost packets did not grow, otherwise within 1/256 (and a relative error of 2^-22) of the exact fraction when read by the peer, saturated at 255/256; exactly the fraction rounded down to 1/256 for up to 65536 packets per report.", "quantifier": "all histories of counts, 64-bit", "why_tests_cant": "single precision arithmetic on 64-bit counts; errors only for particular values", "anchors": ["src/internal_modules/roc_rtcp/loss_estimator.cpp: LossEstimator::update", "src/internal_modules/roc_rtcp/headers.h: ReceptionReportBlock::set_fract_loss, fract_loss", "src/internal_modules/roc_rtcp/reporter.cpp: Reporter::generate_reception_block"]}
{"id": "C60", "title": "Resampling reader and writer", "statement": "For every sequence of reads (or writes) of any sizes and changes of the scaling in between: the samples of all frames that come out form one stream at consecutive times on the input stream, without gaps or repetitions and independent of how it is cut into frames; a read delivers as many samples as asked for as long as the input can be read, and reads no more input than its last sample needs; a write passes on everything the complete input frames allow, in non-empty frames that fit the buffer, and ends.", "quantifier": "all sequences of reads, writes and scalings; all frame and buffer sizes, channel counts, rates; all points where the input fails", "why_tests_cant": "depends on the interplay of frame sizes, buffer size and phase of the resampler over long histories", "anchors": ["src/internal_modules/roc_audio/resampler_reader.cpp: ResamplerReader::read, push_input_, set_scaling", "src/internal_modules/roc_audio/resampler_writer.cpp: ResamplerWriter::write, push_input_, set_scaling"]}
{"id": "C61", "title": "Mapping between channel layouts", "statement": "For every pair of channel sets: a mapper is made; each output channel of a surround mapping is a fixed average of input channels or silent, so samples in range are never cut and the result depends only on the frame itself; a channel that both ends have is kept, equal sets are copied, what goes where does not depend on the channel order and is the same on the left and on the right; between named layouts no channel but LFE is lost or silent; tracks are mapped by number, tracks and surround channels in order. Calls with buffers of different durations are refused and no call reads outside its input.", "quantifier": "all pairs of channel sets that can be built through the API, all buffers and frames", "why_tests_cant": "2^34 pairs of surround sets, 71 tables combined in sequences that depend on the pair", "anchors": ["src/internal_modules/roc_audio/channel_mapper.cpp: ChannelMapper::map", "src/internal_modules/roc_audio/channel_mapper_matrix.cpp: ChannelMapperMatrix::build", "src/internal_modules/roc_audio/channel_tables.cpp: chan_map_tables, chan_order_tables"]}
{"id": "C62", "title": "Slices of a buffer", "statement": "Slices are windows of one shared buffer: in any program that makes, copies, cuts, moves and extends them, each stays inside its buffer; a part of a slice shows exactly the elements named and an extended one the elements that follow; a range that is not available, an access without data and an access outside of the slice stop the program; an element written through one slice is seen through every slice that shows it, and no other element changes.", "quantifier": "all programs over any number of slices, all buffer sizes, ranges and indices", "why_tests_cant": "all sequences of operations and all boundary values of the ranges", "anchors": ["src/internal_modules/roc_core/slice.h: Slice"]}
{"id": "C63", "title": "Channel layout stages of a pipeline", "statement": "A reader or writer that changes the channel layout works through an internal buffer, but what comes out does not depend on the size of that buffer: the frames read one after the other, of any sizes, hold what the channel mapper makes of the source's samples, without gaps or repetitions; each has exactly the flags that one of the source's frames for it has, and the capture time of the first. The frames written hold what the mapper makes of the frame that is written, have its flags, and capture times that follow each other by their durations. Nothing more is taken from the source than the frame needs, also if the read fails.", "quantifier": "all pairs of channel sets, buffer sizes, sequences of frame sizes, flags, capture times and points where the source fails", "why_tests_cant": "the number and size of the batches depends on the channel counts, buffer size and frame size; failures hit between any two batches", "anchors": ["src/internal_modules/roc_audio/channel_mapper_reader.cpp: ChannelMapperReader::read, read_", "src/internal_modules/roc_audio/channel_mapper_writer.cpp: ChannelMapperWriter::write, write_", "src/internal_modules/roc_audio/frame.cpp: Frame"]}
{"id": "C64", "title": "Sample format stages of a pipeline", "statement": "A reader or writer that changes the sample format works through an internal buffer, but what comes out does not depend on the size of that buffer: the frames filled one after the other, of any sizes, hold what the format mapper makes of the source's samples, without gaps or repetitions, and bytes beyond the last whole sample of all channels stay as they were; the flag that tells whether a frame is raw is that of the new format, the others are those of the source's frames, and the capture time is that of the first. The frames written hold what the mapper makes of the frame written, with its flags and capture times that follow each other by their durations. Nothing more is taken from the source than the frame needs, also if the read fails.", "quantifier": "all pairs of byte-aligned formats and byte orders, channel counts, buffer sizes, sequences of frame sizes, flags, capture times and points where the source fails", "why_tests_cant": "the number and size of the batches depends on formats, channels, buffer size and frame size; failures hit between any two batches", "anchors": ["src/internal_modules/roc_audio/pcm_mapper_reader.cpp: PcmMapperReader::read", "src/internal_modules/roc_audio/pcm_mapper_writer.cpp: PcmMapperWriter::write", "src/internal_modules/roc_audio/pcm_mapper.cpp: PcmMapper::map"]}
{"id": "C65", "title": "Latency tuner: when a session ends and how its speed is corrected", "statement": "For every history of latency reports, updates and frames of any sizes: an update asks to end the session exactly if the latency of the chosen kind is known and outside of target plus or minus tolerance (to one sample), unless it is too low because no packets came for longer than the stale tolerance; the clock estimator is given one latency per scaling interval, however the stream is cut into frames; each new scaling factor is offered once and lies within the scaling tolerance of one. Settings are accepted exactly if they make sense, and defaults fill in the rest.", "quantifier": "all configurations, histories of calls of any length, latencies and frame sizes, and all estimators", "why_tests_cant": "positions and intervals over days of playback; single precision thresholds; the faults appear only after 2^32 samples", "anchors": ["src/internal_modules/roc_audio/latency_tuner.cpp: LatencyConfig::deduce_defaults, LatencyTuner::LatencyTuner, write_metrics, update_stream, advance_stream, fetch_scaling, check_bounds_, compute_scaling_, report_"]}
{"id": "C66", "title": "Clock estimator: a filtered controller with a stated response", "statement": "For every sequence of latencies given to the estimator and every arithmetic (rounding included): no buffer is read or written out of bounds; the coefficient changes only every tenth (responsive) or hundredth (gradual) latency, and is one plus the weighted last error plus the weighted sum of all errors of the filtered latencies. In exact arithmetic, latencies within d of the target keep the filtered ones within 1.628 d (twice for gradual), which bounds the coefficient; a constant latency, after whatever came before, moves it in each period by the same amount, with the sign of the deviation.", "quantifier": "all sequences of latencies of any length, both profiles, all targets, all arithmetics", "why_tests_cant": "filters over hundreds of values with two rings and decimation counters; only histories of thousands of values fill them", "anchors": ["src/internal_modules/roc_audio/freq_estimator.cpp: FreqEstimator::FreqEstimator, update, run_decimators_, run_controller_, dot_prod", "src/internal_modules/roc_audio/freq_estimator.h", "src/internal_modules/roc_audio/freq_estimator_decim.cpp: fe_decim_h"]}
{"id": "C67", "title": "Slots of senders and receivers: answers, resources and failures", "statement": "For every history of configure, connect or bind, query, has-broken and unlink calls on any slots, and whatever the network and the pipeline answer: a slot works until a call on it fails, then it is broken and refuses everything until it is unlinked, and other slots are not affected; an interface can be attached once; all slots use the same protocol for an interface. What is open is exactly what the working slots need: broken and unlinked slots hold nothing, and nothing is left when the node is destroyed. At every moment, also inside a call that fails half way, a sender sends to open ports only and a receiver delivers to existing slots only. A port number that bind reports is that of an open port which receives for the interface.", "quantifier": "all histories of calls of any length on any number of slots, all interfaces, addresses and configurations, and all outcomes of every step", "why_tests_cant": "each call has up to seven points where it can fail, and the leak and the use after free need a particular call after another one succeeded", "anchors": ["src/internal_modules/roc_node/sender.cpp: Sender::configure, connect, unlink, get_metrics, has_broken, get_slot_, cleanup_slot_, break_slot_, select_outgoing_port_, setup_outgoing_port_", "src/internal_modules/roc_node/receiver.cpp: Receiver::configure, bind, unlink, get_metrics, has_broken, get_slot_, cleanup_slot_, break_slot_", "src/public_api/include/roc/receiver.h: roc_receiver_bind, roc_receiver_configure, roc_receiver_query, roc_receiver_unlink"]}
{"id": "C68", "title": "Dynamic arrays", "statement": "For every sequence of calls on a dynamic array, of any length and whatever the arena answers to requests for memory: the array shows what a plain list would show; a call that fails for lack of memory says so and changes nothing; access to an element that is not there aborts. No element is read or written outside of memory, each element constructed is destroyed exactly once, and all memory is given back. No arena memory is used while the capacity fits into the object, pointers to elements hold while the capacity stays the same, and appending costs a constant number of copies on average.", "quantifier": "all element types and sizes, embedded capacities, sequences of calls of any length, and all outcomes of every allocation", "why_tests_cant": "all interleavings of growing, shrinking and failing; sizes whose product with the element size does not fit a machine word; average cost over unbounded histories", "anchors": ["src/internal_modules/roc_core/array.h: Array", "src/internal_modules/roc_core/aligned_storage.h: AlignedStorage"]}
{"id": "C69", "title": "Feedback from the receiver", "statement": "For every history of reports, frames and queries on a sender that listens to feedback, and every tuner: what is shown about the receiver is the latest report of one receiver, and no frame was written later than the timeout after it; with a single receiver its latest report is shown from its arrival until then. Once all reports are older than the timeout, the next frame ends it: no receiver is shown and nothing is given to the tuner, which never sees a report older than the timeout. Another receiver takes over only by its own report, and of any three such changes the first and the last are more than the cooldown apart. Every frame is passed on in order, whatever the feedback.", "quantifier": "all histories of any length of starts, reports from any receivers and frames, all clock readings in order, timeouts, cooldowns and tuners", "why_tests_cant": "depends on the interleaving of reports of several receivers with frames and with the clock", "anchors": ["src/internal_modules/roc_audio/feedback_monitor.cpp: FeedbackMonitor::process_feedback, write, num_participants, latency_metrics, link_metrics, update_tuner_, update_scaling_", "src/internal_modules/roc_audio/feedback_monitor.h: FeedbackConfig"]}
{"id": "C70", "title": "Packet queue shared by threads", "statement": "For every number of writer and reader threads and every schedule of their steps: packets are read in the order in which they entered the queue, each exactly once, and those of one writer enter in the order of its calls, between call and return. With blocking reads, a read never returns without a packet, and no wakeup is lost: while a reader waits, as many packets were read as writes have returned, and if nobody is writing the queue is empty. A read of a non-blocking queue says that there is no data only if every packet that entered was read. While nobody is writing, a read returns the next packet within eleven steps of its own. Only writing a packet that is still queued aborts.", "quantifier": "all schedules of any length, numbers of threads and packets, both modes", "why_tests_cant": "depends on the interleaving of steps inside the lock-free queue, the semaphore and the mutex", "anchors": ["src/internal_modules/roc_packet/concurrent_queue.cpp: ConcurrentQueue::read, write", "src/internal_modules/roc_packet/concurrent_queue.h: ConcurrentQueue", "src/internal_modules/roc_core/mpsc_queue_impl.cpp"]}
{"id": "C71", "title": "Heap arena", "statement": "For every program of allocations in any number of arenas, stores anywhere in or within 16 bytes around the memory, and returns of memory, in any order and whatever the heap answers: memory in use holds the byte last stored at each place and at first a fixed pattern; new memory is memory nobody has. Returning memory to its arena aborts exactly if the overflow guard is on and a byte within 16 bytes around it changed; returning or measuring it through another arena aborts, or with that guard off changes nothing. The number of allocations is the number of pointers not yet returned, and the end of an arena aborts exactly if the leak guard is on and there are some. The size told beforehand, the size reported for memory and the size asked from the heap are the same. A program that keeps to its memory never makes the arena touch other memory.", "quantifier": "all programs of any length, numbers of arenas, sizes, contents of fresh memory, guards that are on, and outcomes of malloc", "why_tests_cant": "every position of an overrun, every interleaving of allocations of several arenas; sizes near 2^64", "anchors": ["src/internal_modules/roc_core/heap_arena.cpp: HeapArena::allocate, deallocate, compute_allocated_size, allocated_size, num_allocations, report_guard_, ~HeapArena", "src/internal_modules/roc_core/memory_ops.cpp: MemoryOps::poison_before_use, poison_after_use, prepare_canary, check_canary"]}
{"id": "C72", "title": "Latency of a session as the receiver measures it", "statement": "For every history of reads and reclock calls on a receiver session, and every tuner, resampler and pipeline: what is shown is the latest measurement of each kind. The queue latency is the true distance from the next sample to be played to the end of the latest packet, to the precision of a float, wherever in the stream and however often timestamps wrapped. Each read gives the tuner what is shown at that moment; the tuner is told the durations of exactly the frames that were returned, in order. When the tuner refuses, or the resampler refuses a factor, the session is over for good: all reads fail, and neither the pipeline nor the tuner is called again. With the intact profile the resampler is never touched. No call overflows.", "quantifier": "all histories of any length, timestamps, durations and clock readings, link metrics, tuners, resamplers and pipelines", "why_tests_cant": "depends on the history of packets, frames and clock readings; timestamps wrap after hours", "anchors": ["src/internal_modules/roc_audio/latency_monitor.cpp: LatencyMonitor::LatencyMonitor, is_alive, metrics, read, reclock, pre_process_, post_process_, compute_niq_latency_, compute_e2e_latency_, query_link_meter_, init_scaling_, update_scaling_", "src/internal_modules/roc_audio/latency_tuner.h: LatencyMetrics"]}
{"id": "C73", "title": "WAV files written by the library", "statement": "For every sequence of frames written to a WAV file, with any number of channels and any rate, the file is a WAV file with the right format that contains all samples of all frames in order, and its header declares the size of its data. If the program ends at any point inside of a write, a reader still gets all frames whose write had returned and the beginning of the one being written.", "quantifier": "all sequences of frames of any lengths, channel counts and rates, initial contents of memory, and all points inside of a write", "why_tests_cant": "recordings of hours; every crash point; depends on the content of memory that is not initialized", "anchors": ["src/internal_modules/roc_sndio/wav_sink.cpp: WavSink::WavSink, open, write", "src/internal_modules/roc_sndio/wav_header.cpp: WavHeader::WavHeader, update_and_get_header", "src/internal_modules/roc_sndio/wav_header.h: WavHeader::WavHeaderData"]}
{"id": "C74", "title": "Durations and sizes given as text", "statement": "For every text: a whole number, with or without a sign, and one of the units ns, us, ms, s, m, h becomes exactly that duration when it is less than 2^53 ns, and a decimal fraction the nearest one apart from a relative error of 2^-51. Sizes are the same for K, M, G or no unit. Everything that is not a number directly followed by a unit is refused, and so is a whole number far out of range; nothing wraps around.", "quantifier": "all texts of any length; all numbers of digits before and after the point, signs and units", "why_tests_cant": "all texts; rounding of binary floating point at every magnitude", "anchors": ["src/internal_modules/roc_core/parse_units.cpp: parse_duration, parse_size, find_suffix", "src/internal_modules/roc_core/parse_units.h"]}
{"id": "C75", "title": "Identity of a participant", "statement": "For every state of the random generator and every reading of the clock: making the identity of a participant succeeds, its CNAME is a random UUID in the text form of RFC 4122 that shows all its random bits, and its SSRC is not zero. Only the characters of the UUID are written to a buffer, and a buffer that is too small aborts. Changing the SSRC gives one that was not given before, as long as the generator has not gone through all its states.", "quantifier": "all states of the generator, clock readings, contents and sizes of the buffer, and numbers of other random numbers drawn in between", "why_tests_cant": "2^32 states of the generator; collisions show only after very many participants", "anchors": ["src/internal_modules/roc_rtp/identity.cpp: Identity::Identity, change_ssrc, cname, ssrc", "src/internal_modules/roc_core/uuid.cpp: uuid_generare", "src/internal_modules/roc_core/fast_random.cpp: fast_random, fast_random_range"]}
{"id": "C76", "title": "Packets leaving a sender", "statement": "For every sequence of packets written to the last stage of a sender, also the same packet several times as when it is repeated, and for every composer: each write passes its packet on once and in order, composed, with its own destination if it has one and otherwise the one of the endpoint. The composer is called at most once for each packet, never for one that was composed before, and sees the final destination. Writing aborts exactly if a packet was not prepared or cannot be composed.", "quantifier": "all sequences of any length of packets, with repetitions, all flags, addresses and composers", "why_tests_cant": "depends on what was written before: packets are shared and changed by the write", "anchors": ["src/internal_modules/roc_packet/shipper.cpp: Shipper::write", "src/internal_modules/roc_packet/packet.cpp: Packet::add_flags, has_flags, udp"]}
