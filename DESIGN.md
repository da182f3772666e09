# Formal model of roc-toolkit in Rocq (Coq 8.16.1)

Layout (`rocq/theories/`, logical name `Verif`):

* `Base.v` - machine-integer and byte-list vocabulary shared by all models.
* `<X>_model.v` - executable Gallina transcription of one component. Each
  definition cites the file and lines in /repo it models; every simplification
  is stated there.
* `<X>_spec.v` - independent specification (what the English property means),
  not using the model's helpers.
* `<X>_proof.v` - lemmas.
* `<X>_props.v` - the property theorems only (`exact lemma`), each followed by
  `Print Assumptions`, and beside them `Example`s showing that concrete
  non-trivial cases meet the hypotheses.

Conventions. Machine integers are `Z` (or `N`) with explicit `mod 2^k` wherever
the code can wrap; sizes and indices are `nat` or `Z`. A `roc_panic` and C++
undefined behaviour (signed overflow, out of bounds access, NULL dereference)
are distinct results of the model (`Panic`/`UB`), never silently totalised.
Allocation failure is modelled where the code has a branch for it. Concurrent
components are small-step interleaving models with sequentially consistent
atomics (weaker memory orders are outside the model; this is listed in the
trusted base). Where the code violates the property, the theorem
`..._refuted` exhibits a witness and a second theorem proves the property under
the exact condition that excludes the defect.

## Plan per property

| id | modelled | proof |
|----|----------|-------|
| C01 | `seqnum_diff`, `stream_timestamp_diff`, `blknum_diff` as int cast of difference mod 2^n | arithmetic over Z, all values |
| C02 | `SortedQueue` write/read over a list, compare by RTP seqnum | invariant over op lists; refinement to a sorted set of unwrapped numbers |
| C03 | `Queue` | refinement to FIFO history |
| C04 | `DelayedReader` state machine over an arbitrary upstream script | invariant over call history |
| C05 | `Interleaver` with arbitrary permutation oracle per block; Fisher-Yates proved to be a permutation | induction over writes |
| C06 | `Router` route table, locking | induction over packet sequences |
| C07 | RTP header bytes, composer, parser | round trip theorem over byte lists |
| C08 | RTP parser with checked reads (`UB` if outside) | no-UB theorem for all byte lists, slice partition |
| C09 | `Filter` state machine with int32 overflow visible | invariant; refutation for the INT32_MIN jump |
| C10 | `LinkMeter` seqnum part | simulation with unwrapped sequence numbers; refutation at wrap |
| C11 | `Sequencer` | induction |
| C12 | FEC payload-ID get/set on bytes | round trip + frame |
| C13 | FEC `Writer` numbering and sizes | simulation to spec labelling |
| C14 | FEC `Reader` block logic with abstract decoder | invariants; refutations for remote crash |
| C15 | RTCP traversers with checked reads | no-UB and termination for all byte lists |
| C16 | RTCP builder and traversers at byte level | round trip |
| C17 | `ntp_extend`, clamp functions | arithmetic |
| C18 | `PacketCounter` | refutation at wrap + conditioned theorem |
| C19 | `Communicator` packet generation loop | termination/coverage, refutation for small packets |
| C20 | `Reporter` stream table (list + map) | invariants over histories |
| C21 | NTP conversions | arithmetic |
| C22 | `HashmapImpl` with bucket lists and incremental rehash | refinement to a finite map, refutation for grow-after-remove panic |
| C23 | `ListImpl` pointer structure in a heap | refinement to sequence |
| C24 | `RingQueue` | refinement, refutation at full capacity |
| C25 | SPSC buffers as interleaving models | invariant over all schedules |
| C26 | `MemoryLimiter` CAS loop | invariant over all schedules, refutation for size_t wrap |
| C27 | `MovStats` | invariants, refutation while the window is filling |
| C28 | MPSC queue interleaving model | invariant |
| C29 | Seqlock interleaving model | invariant |
| C30 | Timer interleaving model | invariant |
| C31 | `SlabPoolImpl` | invariant |
| C32 | reference counter interleaving model | invariant |
| C33 | `StringBuilder` over a bounded buffer | induction over appends |
| C34 | `StringList` block layout | refinement, refutation for prefix lookup |
| C35 | `pct_encode`, `pct_decode` | round trip |
| C36 | endpoint URI parse/format | round trip, refutation for port cast |
| C37 | `ChannelSet` | set semantics via bits |
| C38 | `Packetizer` | refinement to concatenation |
| C39 | `Depacketizer` | refinement to timeline |
| C40 | `Mixer` | chunk independence over abstract samples |
| C41 | `Watchdog` | simulation with unwrapped positions |
| C42 | PCM integer codecs | round trip |
| C43 | `RateLimiter` | invariant over call histories |
| C44 | alignment helpers | arithmetic |
| C45 | `fast_random_range` | arithmetic |
| C46 | protocol map | finite case analysis + all strings |
| C47 | `PipelineLoop` scheduling | interleaving model; safety invariant, refutation for lost wake-up |
| C48 | `Communicator` deadline arithmetic | induction over call times |
| C49 | `Reporter` index of addresses and blocks | invariant over histories, refutations for stale index |
| C50 | `ReceiverSessionRouter` | refinement of a reference table of observable answers, over call histories |
| C51 | `ReceiverSessionGroup` with router, reporter and RTCP packet processing | composed invariant over histories of network input; refutations by datagram |
| C52 | `ControlTaskQueue` with its clients, loop thread, timer | inductive invariant of 54 clauses over interleavings of atomic steps; refutations by schedule |
| C53 | `ReceiverEndpoint` queue, `StateTracker`, writers and pipeline thread | inductive invariant with a global count of packets over interleavings; refutation by a malformed packet |
| C54 | `Pump::run` as an automaton of calls and answers | inductive invariant over traces of calls; refutations by trace |
| C55 | conversions of `SampleSpec` and `packet::units` in IEEE single precision | relative error of each rounding, composed; monotonicity of rounding; counterexamples computed |
| C56 | `TimestampExtractor`, `TimestampInjector` over the conversions of C55 and NTP times of C21 | induction over histories; error bounds composed |
| C57 | `BuiltinResampler` in 32-bit fixed point, `set_scaling` in single precision; an output sample is the list of its terms | window lemma by loop invariants without wraps; refinement of histories to a list of output times by induction; relative error bounds for the scaling; counterexamples computed |
| C58 | `RttEstimator` and the fields of the reports that feed it, over the NTP model of C17 / C21 | induction over exchanges; interval arithmetic through the conversions |
| C59 | `LossEstimator` and the 8-bit field, over the single precision model of C55 | rounding errors and monotonicity of rounding |
| C60 | `ResamplerReader::read`, `ResamplerWriter::write` as loops over the resampler of C57, with `begin_push_input` and `end_push_input` as separate steps; the input is a list of outcomes | induction over the loops with the invariant of C57 extended by a half-filled input frame; measure for termination; counterexamples computed |
| C61 | `ChannelMapperMatrix` (search for tables, filling, normalization, combination, indices) with the 71 tables generated from the source, and `ChannelMapper::map`; samples and coefficients are exact rationals | the search depends on a set only through the table sides that contain it, which leaves 22 classes of sets, for which the kernel evaluates the search; the rest by invariants of matrices (non-negative, rows average, support, symmetry); divergence by induction |
| C62 | `Slice`: null slices, construction, `reslice`, `extend`, `subslice`, `operator[]`; programs over a table of slices of one buffer | list reasoning about windows, invariant over programs |
| C63 | `ChannelMapperReader::read`, `ChannelMapperWriter::write` as loops over the mapper of C61; the source is a list of samples and of outcomes of its calls | induction over the number of batches; mapping is a homomorphism for concatenation of frames (C61_frames); capture times with the bounds of C55 |
| C64 | `PcmMapperReader::read`, `PcmMapperWriter::write` as loops over the mapper of C42, with bit offsets and the reused internal buffer | induction over the number of batches with the part of the output already written as invariant; conversion works cell by cell |
| C65 | `LatencyConfig::deduce_defaults`, the constructor and all methods of `LatencyTuner`, for an arbitrary estimator; single precision conversions of C55 | refinement: a relation between the tuner and the past of its calls, kept by every call; loops end by induction on the intervals left; clamp with Flocq |
| C66 | `FreqEstimator`: constructor, `update`, decimators and controller with both rings and the 256 weights, over an abstract arithmetic | refinement: rings represent the kept part of the history, induction over the updates; sums over the table evaluated exactly in integers; real analysis by induction over the table |
| C67 | sender and receiver nodes: `configure`, `connect`/`bind`, `unlink`, `get_metrics`, `has_broken`, destructor, on a world of open ports and pipeline slots whose tasks succeed or fail by an oracle; all intermediate worlds are recorded | refinement to an automaton of slot states; ownership invariant with a frame (what the slot holds, what all others hold), kept by every task; induction over the history |
| C68 | `core::Array` on explicit memory: blocks of raw and constructed cells, embedded storage, an arena that refuses at will; every access checked | refinement to a list with a capacity; invariant locating the elements; loop lemmas by induction; potential argument for the average cost |
| C69 | `FeedbackMonitor`: start, report, write, queries, over any tuner and any clock readings; effects are what is given to the tuner, factors, frames and changes of the receiver | invariant that explains the state by a position in the history, kept by every call; grid invariant of the limiter; induction from the right over histories |
| C70 | `ConcurrentQueue` over the step by step model of the lock-free queue, with a semaphore, a mutex, and any number of writers and readers; one step per access to shared memory | invariant that contains a run of the inner queue, so that the theorems of C28 apply, and counts packets entered, written, waited for and read; induction over schedules |
| C71 | `HeapArena` and `MemoryOps`: chunks with header, two guards and bytes, any number of arenas with counters and the guards shared by all; a program also stores and loads bytes at any offset; every access checked | invariant that explains chunks, counters and guards by the history of calls; counting lemmas; induction over programs |
| C72 | `LatencyMonitor`: construction, read, reclock, metrics, over any tuner, resampler and pipeline; what a read finds around it is given with the call | invariant that explains each field by the history, kept by every call; the conversion to nanoseconds by the theorems of C55; modular arithmetic for wrapped timestamps |
| C73 | `WavSink` and `WavHeader` as bytes of the file after each write, and at each point inside of one; the uninitialized counter is a parameter | an independent reader of WAV files; the file is header and samples by induction over frames; fields located in the header by lemmas on pieces; modular arithmetic for the sizes |
| C74 | `parse_duration` and `parse_size` on lists of characters, with `strtod` as a grammar and correctly rounded IEEE doubles (Flocq) | lemmas on each part of the grammar; error analysis of the two roundings over the reals; case analysis of overflow for what is refused |
| C75 | `uuid_generare` with its loop over the buffer, `Identity` and `change_ssrc`, on the generator of C45 | unrolling of the loop by lemmas for one step; an independent description and decoder of the text; injectivity of the output function; pigeonhole for the number of identities |
| C76 | `Shipper::write` on a heap of shared packets, with any composer | the effect of one write as a function of the packet, which is idempotent; invariant over the sequence of writes |

Floating-point computations are outside the model unless stated (C40 and C42
model them with Flocq); elsewhere samples are abstract values or integers.

## Trusted base

* Coq 8.16.1's kernel (including `vm_compute`, used for concrete witnesses and
  finite case analyses), and the C compiler/OCaml runtime it runs on.
* The faithfulness of the Gallina models to the C++ text: they are
  hand-written. Each definition cites the lines it models. No C++ was run.
* C++ semantics as assumed by the models: two's complement conversions, 64-bit
  `size_t`, 32-bit `int`, glibc ctype tables of the C locale, IEEE 754 single
  and double precision with round to nearest even.
* Concurrency models (C25, C26, C28, C29, C30, C32, C47): sequentially
  consistent interleaving at the granularity of single atomic accesses. That
  the fences and memory orders in the code provide this is not proved.
* Loops that may not end carry a fuel; `Ok None` (or a designated result) means
  "still running", and termination theorems give a sufficient fuel.

What `Print Assumptions` lists: "Closed under the global context" for every
theorem except the following, which use real numbers through Flocq and depend
on four axioms of the standard library (`ClassicalDedekindReals.sig_not_dec`,
`ClassicalDedekindReals.sig_forall_dec`,
`FunctionalExtensionality.functional_extensionality_dep`,
`Classical_Prop.classic`): `C40_float`, `C40_float_range`, and those of the C42, C55 and C56
theorems that speak about floating point samples. (`vcheck` also lists axioms of
`Rdefinitions` and `ssrunder`: they belong to library modules that are loaded,
no theorem depends on more than the four above.) No axiom, parameter, admitted
proof, module type or functor is defined in this development. `Section`
variables are all closed at the end of their section.

## What is modelled

| model | code | left out |
|-------|------|----------|
| `Seqnum`, `SortedQueue`, `Queue`, `DelayedReader`, `Interleaver`, `Router` | roc_packet: units.h, sorted_queue.cpp, queue.cpp, delayed_reader.cpp, interleaver.cpp, router.cpp | logging, null packets, time unit conversions |
| `Slice`, `FecHeaders`, `Rtp` | roc_core/slice.h, roc_fec/headers.h, composer.h, parser.h, roc_rtp/headers.h, composer.cpp, parser.cpp | buffer lifetime (see `RefCount`) |
| `RtpFilter` | roc_rtp/filter.cpp, link_meter.cpp, sequencer.cpp | jitter measurement |
| `Ntp`, `Counter` | roc_packet/ntp.cpp, roc_rtcp/ntp.cpp, packet_counter.cpp | |
| `RtcpTrav`, `RtcpBuild` | roc_rtcp/headers.h, traverser.cpp, sdes_/bye_/xr_traverser.cpp, builder.cpp | print_packet.cpp; the float of the loss fraction |
| `Communicator`, `Reporter` | roc_rtcp/communicator.cpp (generation, schedule), reporter.cpp (table of streams, index, collisions, timeouts, notifications) | contents of reports, failing allocations outside processing |
| `FecWriter`, `FecReader` | roc_fec/writer.cpp, reader.cpp | OpenFEC itself: the codec is an oracle, assumed correct only where a theorem says so |
| `Align`, `Random`, `RateLimiter`, `StrBuilder`, `StrList` | roc_core: align_ops.cpp, fast_random.cpp, rate_limiter.cpp, string_builder.cpp, string_buffer.cpp, string_list.cpp | |
| `List`, `RingQueue`, `MovStats`, `Hashmap`, `SlabPool`, `MemLimiter` | roc_core: list_impl.cpp, ring_queue.h, mov_stats.h, hashmap_impl.cpp, slab_pool_impl.cpp, memory_limiter.cpp, limited_arena.cpp | |
| `Spsc`, `Mpsc`, `Seqlock`, `Timer`, `RefCount` | roc_core: spsc_ring_buffer.h, spsc_byte_buffer.cpp, mpsc_queue_impl.cpp, seqlock_impl.cpp, timer.cpp, shared_ptr.h, ref_counted_impl.cpp | weak memory |
| `Protocol`, `Pct`, `Uri` | roc_address: protocol_map.cpp, pct.cpp, endpoint_uri*.cpp/.rl | |
| `ChannelSet`, `Packetizer`, `Depacketizer`, `Mixer`, `Watchdog`, `Pcm`, `Float32` | roc_audio: channel_set.cpp, packetizer.cpp, depacketizer.cpp, mixer.cpp, watchdog.cpp, pcm_format.cpp, pcm_mapper.cpp, pcm_encoder.cpp, pcm_decoder.cpp | capture timestamps of mixer and depacketizer |
| `PipeLoop` | roc_pipeline/pipeline_loop.cpp, pipeline_task.cpp | |
| `SessRouter` | roc_pipeline/receiver_session_router.cpp | logging |
| `SessGroup` | roc_pipeline/receiver_session_group.cpp, state_tracker.cpp, roc_rtcp/communicator.cpp:72-330 | inside of a session; contents of reports; parsing of RTP packets (see `Rtp`) |
| `CtlQueue` | roc_ctl/control_task_queue.cpp, control_task.cpp, roc_core/timer.cpp (deadline only) | weak memory; ready queue as a list with spurious emptiness (see `Mpsc`); stop_and_wait; executor and completer bodies |
| `RecvState` | roc_pipeline/receiver_endpoint.cpp:191-227, state_tracker.cpp | weak memory; the queue itself (see `Mpsc`); parsing (a packet parses or not); what routing does (see `SessGroup`) |
| `Pump` | roc_sndio/pump.cpp:56-169 | constructor (frame size); samples; wrap of n_bufs_ |
| `TimeConv` | roc_audio/sample_spec.cpp:21-63, 212-345, roc_packet/units.cpp:16-55 | 80-bit evaluation of floats (FLT_EVAL_METHOD 2); string conversion |
| `TsMap` | roc_rtp/timestamp_extractor.cpp, timestamp_injector.cpp | logging, packet I/O |
| `LinkMeter` | roc_rtp/link_meter.cpp:48-129 | forwarding; RTT copied from reports; packet loss and jitter are not computed by the code (TODO there) |
| `Rtt` | roc_rtcp/rtt_estimator.cpp:54-92, reporter.cpp:292-301, 350-377, 405-427, 724-731, 766-772 | which stream a report belongs to (see `Reporter`); wire layout (see `RtcpBuild`, `RtcpTrav`) |
| `Loss` | roc_rtcp/loss_estimator.cpp, headers.h:387-416 | where the counts come from (always 0 at present, see C10) |
| `Resampler` | roc_audio/builtin_resampler.cpp | values of the sinc table, sums of products, check_config_, alloc_frames_, n_left_to_process |
| `ResamplerIo` | roc_audio/resampler_reader.cpp:58-117, resampler_writer.cpp:67-142 | capture timestamps |
| `ChanMap` | roc_audio/channel_mapper.cpp, channel_mapper_matrix.cpp, channel_tables.cpp (table contents), channel_defs.h:86-522 | floating point rounding |
| `ChanIo` | roc_audio/channel_mapper_reader.cpp:57-108, channel_mapper_writer.cpp:57-101, frame.cpp:36-107 | constructors; allocation of the buffer; the source sets no duration |
| `PcmIo` | roc_audio/pcm_mapper_reader.cpp:66-113, pcm_mapper_writer.cpp:66-112 | constructors; allocation of the buffer; overflow of sizes in bits |
| `LatTuner` | roc_audio/latency_tuner.cpp:18-431, latency_tuner.h:24-300 | log output; jitter (only logged); the logarithm in the default tolerance (any function) |
| `FreqEst` | roc_audio/freq_estimator.cpp:19-154, freq_estimator_decim.cpp (all weights) | logging to CSV; rounding of the decimal constants (weights and P, I are exact quotients) |
| `NodeSlots` | roc_node/sender.cpp:18-542, receiver.cpp:18-433; the effects of the tasks in network_loop.cpp:385-578, sender_loop.cpp:271-301, receiver_loop.cpp:273-303, sender_slot.cpp:49-119, receiver_slot.cpp:49-74 on ports, slots and endpoints | contents of metrics; `has_incomplete`; failure to allocate the slot object; protocol checks and object creation inside the pipeline (any outcome) |
| `DynArray` | roc_core/array.h:40-318, aligned_storage.h | element types whose constructors have further effects; alignment; const overloads (same as the others) |
| `Feedback` | roc_audio/feedback_monitor.cpp:18-215 | `LatencyTuner` (any functions; its own model is `LatTuner`), the reporting to logs; the fields of the metrics other than the packet count are opaque |
| `ConcQueue` | roc_packet/concurrent_queue.cpp:16-49 | `core::Semaphore` and `core::Mutex` (assumed to be a counter and a lock); the reference counts of packets |
| `HeapArena` | roc_core/heap_arena.cpp:27-157, memory_ops.cpp:15-67 | `malloc` and `free` (refuses at will, any content, addresses not used again), `AtomicOps`; log messages |
| `LatMon` | roc_audio/latency_monitor.cpp:20-213 | `LatencyTuner` (any functions; its own model is `LatTuner`), `Depacketizer`, `SortedQueue` and the link meter (what they answer is given), logs |
| `WavSink` | roc_sndio/wav_header.cpp:15-80, wav_sink.cpp:19-172 | the stdio buffer (header in one piece, samples in order), failures of seek, write and flush (only logged by the code), big-endian machines |
| `ParseUnits`, `ParseUnits2` | roc_core/parse_units.cpp:18-153 | null pointers, logs, locales other than C, negative characters, the source of strtod (its contract is modelled) |
| `Identity` | roc_core/uuid.cpp:29-71, roc_rtp/identity.cpp:17-53 | null buffers, logs, `is_valid` (always true after construction) |
| `Shipper` | roc_packet/shipper.cpp:28-51, packet.cpp:20-29 | the composers and the writer (any), flags other than UDP, prepared and composed |

Not modelled: resamplers and latency tuning, netio (libuv), sndio backends,
node and public API layers, pipelines as wholes, logging, configuration, SDP.

## Defects found

Each is a `..._refuted` theorem with a concrete witness; the positive theorems
of the same property carry the condition that excludes it.

* C04: a start-up delay that converts to zero samples drops queued packets.
* C05: packets are lost when the writer fails inside an interleaver flush.
* C07: the FEC repair composer panics on a small buffer (fec/composer.h:89).
* C09: packets 2^31 apart make filter.cpp:104 negate INT32_MIN.
* C10: link_meter.cpp:113-115 adds 65535 per wrap; the first sequence number is overwritten after 2^15 packets.
* C13: FEC writer accepts block sizes (0, 0) and overflowing sums.
* C14: a repair packet with block length 0 aborts the receiver (reader.cpp:737); over-long block accepted after a size change; NULL dereference at reader.cpp:227 after a partial restore; out of order or duplicate packets before decoding starts; never starts after a mid-block first packet and a size change.
* C15/C16: traverser.cpp:145: padding of a report that is not the first packet is read from the first packet's bytes.
* C17: rounding of the compact delay wraps near 2^64.
* C18: packet_counter.cpp:34 adds 2^32-1 per wrap; stays 0 if the first report has already wrapped.
* C19: report generation never ends when one stream fits a packet but not two, after one "no space" failure, for a goodbye with any known stream, or with XR disabled and a known receiver; a failed allocation after a collision aborts.
* C20: several packets processed with the same current time lose a notification; a clock set back keeps silent streams; a zero timeout loops forever.
* C49: the same batches leave duplicate blocks or a dangling stream pointer in the index; switching a receiving stream, starting to send, and a late RRTR are not noticed.
* C21: times before 1900 abort, after 2104 wrap.
* C22: growth after removing the last element waiting for migration panics (hashmap_impl.cpp:219).
* C23: insert_after with a removed node is not detected.
* C24: the ring queue never reports full and loses elements at capacity; pop_back destroys the wrong slot.
* C25: a ring buffer whose number of chunks does not divide 2^32 overwrites live elements at the wrap of positions.
* C26: a huge request wraps the memory counter.
* C27: extremes are wrong when a zero is among the first values; extend_win() does not extend.
* C29: a load overtaken by exactly 2^31 stores returns a torn value.
* C31: construction panics when both slab limits are equal and not a whole number of slots.
* C32: `p = p->member` uses freed memory.
* C34: find also matches a stored string of which the key is a prefix (same 4-byte block).
* C36: "rtsp://host?query" is parsed with host "query"; port 4294967376 is accepted as 80.
* C37: is_superset() is wrong for channels from 64 up; set_count(1024) panics.
* C38: flush panics if the composer cannot pad.
* C39: an empty packet exactly 2^31 from the position panics.
* C40: intermediate saturation changes sums of three or more inputs; a single input is neither clamped nor silenced.
* C41: a clean window is overlooked in frames longer than the window and after the 32-bit wrap.
* C42: bit-packed 18- and 20-bit formats corrupt samples; NaN to integer is undefined.
* C43: two events at an interval boundary both pass.
* C44: overflow near 2^64. C45: the debiasing loop never rejects.
* C47: three interleavings in which a scheduled pipeline task is forgotten.
* C50: linking an SSRC to an empty CNAME aborts (receiver_session_router.cpp:154); relinking an SSRC without a session inserts the
  empty address in the table and takes the session away from the target CNAME, the second such call aborts (lines 482, 499: no
  check that the moved address and session are present).
* C51: a single RTCP datagram with a sender report and no SDES CNAME aborts the receiver process: the reporter announces the stream
  with an empty CNAME (reporter.cpp:939-952), the session group links it (receiver_session_group.cpp:242) and the router panics on
  the empty CNAME (receiver_session_router.cpp:154). The same follows from a failed allocation of the stream while its CNAME is read.
  When two SSRCs with sessions are joined by CNAME, the first session is left in the mixer with no packets leading to it.
* C52: `ControlTaskQueue`. schedule() of a task under execution can be executed twice (control_task_queue.cpp:619-631: the loop
  requeues the task although the scheduling thread is about to do it), with use after free if the completer destroys the task. A
  cancellation that arrives while the task is executed is lost if the task pauses: pause_task_ leaves state Sleeping, and
  reborn_task_ (line 656) expects Processing. resume() never removes the task from paused_queue_ (lines 347-353): pausing again, or
  destroying the task, panics. resume() of a completed task executes it again. A post left in the semaphore makes a later wait()
  return before the task is executed.
- C53: receiver_endpoint.cpp:201-204: a packet that cannot be parsed is dropped without add_pending_packets(-1), although write() counted
  it. From the first malformed datagram on, the receiver's state is Active for ever: the backup source of roc-recv is never used
  again and oneshot mode does not end. The same for packets left in the queue of a deleted slot (receiver_source.cpp:95-101).
- C54: pump.cpp:96-98: when the backup source ends, the pump goes back to the main source without resume(), although it paused it:
  if the main source has become active meanwhile it is read while paused. A backup source that is empty makes the loop spin without
  reading anything (lines 80-98).
- C55: sample_spec.cpp:21-63 computes in single precision: at 48000 Hz a stream timestamp of one hour is 3599999959040 ns (41 us short),
  and at 44100 Hz 3030623 samples become 3030624 on the way to nanoseconds and back. units.cpp:23-26, 42-45 clamps to
  (float) UINT32_MAX = 2^32 and then converts to uint32: undefined where it should saturate (25 hours at 48000 Hz).
- C10: link_meter.cpp:118 adds `(uint16_t)-1` = 65535, not 65536, to the extended sequence number on every wrap: packets 65535 and 0
  are reported as 65535 and 65535, and after n wraps the last sequence number is n too low. Lines 108-112 replace the first
  sequence number by a later one once the stream spans 2^15 packets without wrap, and by a number greater than the last one if
  packet 65535 arrives late after a stream that starts with packet 0.
- C58: reporter.cpp:292-301 and 350-359 do not treat LSR = 0 / LRR = 0 ("no report received yet", written by lines 724-731 and
  766-772) specially: ntp_extend turns it into a time up to 9 hours before or after now. If it is before, the estimator accepts a
  round trip time of hours (28545 s in the theorem) and a wrong clock offset.
- C57: builtin_resampler.cpp:440 and 446 compare with `>` where `>=` is needed: if the window ends exactly at the end of the current frame, sample number `frame_size` of it is read. Reached e.g. at 44100 Hz to 44100 Hz, low profile, multiplier 1043384/2^20 = 0.99505, with output sample 561. 
- C57: builtin_resampler.cpp:109-118 makes frames too short for the window when the output rate is more than about 1.35 times the input rate; 230-233 accept the scaling, and the first output sample panics in resample_.
- C57: builtin_resampler.cpp:467, 498: the fraction for interpolation is computed once per side although it changes with every term, because the step 0.9/scaling is not a multiple of the step of the table.
- C57: builtin_resampler.cpp:178-239: a multiplier that is not a number passes all checks and is converted to an integer.
- C57: builtin_resampler.cpp:142: 5e-8 in fixed point is 0, so snapping to the grid never happens.
- C60: resampler_reader.cpp:97-104: if the input can not be read, `begin_push_input` has already rotated the frames; the next successful read rotates them again, so that the frame before the previous one is played again and one is lost. Samples already popped for the failed read are lost too (79-86).
- C60: resampler_writer.cpp:54-58 takes the whole capacity of the buffer (default 1024 samples) as its size. If it is not a multiple of the number of channels (6 for 5.1 surround), `pop_output` writes behind its end.
- C60: resampler_reader.cpp:61, resampler_writer.cpp:70: `scaling_`, used for timestamps, is changed even if the resampler rejects the new scaling.
- C61: channel_mapper_matrix.cpp:98-155, 207-257: creating a mapper never returns if the output set has no channel but LFE (stereo to LFE goes through 2.1 and 1.1 forever), if the input set has no channel but LFE and the output has more than FC and LFE, or if the channel order knows none of the channels of one set (ALSA order with FLC and FRC).
- C61: channel_tables.cpp: no sequence of tables for 7.0, 7.1, 7.1.2 and 7.1.4 to 6.1 with three front channels, and 7.1.4 to 5.1.2 and 7.1.2 with three front channels: side and top channels are dropped and others are silent, without any message but a debug one.
- C61: channel_mapper.cpp:83-98: channels of a set that its channel order does not know (e.g. top channels with ALSA order) still take space in frames; their samples are ignored on input and zero on output.
- C62: slice.h:194: `operator[]` checks `i > size_`: the index `size_` passes and the element after the slice (after the buffer, for a full slice) is accessed.
- C62: slice.h:156: `extend` computes `size() + add_sz` without a check for overflow; extending by almost 2^64 elements shrinks the slice.
- C63: channel_mapper_reader.cpp:74-77: a read that fails after the first batch has consumed input that is neither delivered nor kept.
- C63: channel_mapper_reader.cpp:62: if the buffer of the frame factory holds fewer samples than there are input channels, `max_batch` is 0 and `read` never ends; the writer (channel_mapper_writer.cpp:97) panics in `set_duration(0)`.
- C63: channel_mapper_reader.cpp:88: reading an empty frame panics in `set_duration(0)`.
- C64: pcm_mapper_reader.cpp:88-90: a read that fails after the first batch has consumed input that is neither delivered nor kept.
- C64: pcm_mapper_reader.cpp:69, 112: a buffer smaller than one sample of all channels makes `read` loop forever (the writer panics in `set_duration(0)`); filling a frame shorter than one sample of all channels panics.
- C65: latency_tuner.cpp:398, 415: `stream_pos_` and `scale_pos_`/`report_pos_` wrap at 2^32 but are compared with `>=`. At position 2^32 - 1 the loop never ends; when `scale_pos_` wraps first it runs millions of updates in one call; when `stream_pos_` wraps first, no update happens for the next 2^32 samples.
- C65: latency_tuner.cpp:237: a scaling tolerance that is not a number is accepted; a negative stale tolerance is accepted.
- C66: freq_estimator.cpp:112-147: the early returns skip `dec1_ind_++` (and `dec2_ind_++`), so every tenth (responsive) or hundredth (gradual) latency and, in gradual, every tenth first-stage value is overwritten by its successor: it is used once and then missing from the filter.
- C67: receiver.cpp:163-191: `bind` does not check whether the interface is bound already. A second bind opens another port and overwrites the handle of the first; adding the endpoint then fails and the slot is broken, but the first port is never removed and goes on writing packets to the endpoint of a deleted slot (use after free), also after unlink and after the receiver is destroyed.
- C67: sender.cpp:272-327, receiver.cpp:268-323: `get_metrics` on a broken slot passes a null slot to the query task, which panics: `roc_sender_query` and `roc_receiver_query` abort the process after a failed connect or bind.
- C67: sender.cpp:85-106: `configure` looks at the port of the interface only, so it accepts a configuration for an interface that is connected through a shared port; the API says this fails.
- C67: sender.cpp:377-395, receiver.cpp:344-362: the protocols in use are not forgotten on unlink, so another protocol is refused even when no slot is left.
- C67: sender.cpp:434-456, receiver.cpp:402-424: each cleanup order protects one direction: a sender's port can deliver to a deleted control endpoint, a receiver's control endpoint can send to a removed port (UdpPort::write panics).
- C67: sender.cpp:407-423, receiver.cpp:375-391: if the slot object cannot be allocated or inserted, the pipeline slot created before is not deleted (not modelled).
- C68: array.h:154-163: `push_back(a[i])` on a full array reads the element after `grow` destroyed it and released its memory.
- C68: array.h:269-287: `n_elems * sizeof(T)` is not checked: a huge size is granted with less memory than it needs.
- C68: array.h:295-309: `next_capacity_` never ends for more than 2^63 elements: the capacity wraps to zero and starts again.
- C68: array.h:75-93: `data()` is documented to return null for an empty array; it panics.
- C69: feedback_monitor.cpp:87-95 with rate_limiter.h: the source can change twice within a nanosecond, although `source_cooldown` is documented to forbid a change for that long after another.
- C69: feedback_monitor.cpp:106-111: after one report without a packet count, the counts that receivers report later are ignored for good, also after the feedback was reset.
- C70: concurrent_queue.h:40-43: reads of a non-blocking queue with one reader are documented to be wait-free; `pop_front_exclusive` spins while a writer is stopped inside `push_back` (`try_pop_front_exclusive` would not).
- C70: concurrent_queue.cpp:37-49: a blocking read can wait while the queue holds a packet whose write returned, if a writer that entered before is stopped between `push_back` and `post`.
- C71: heap_arena.cpp:49-52: the size passed to malloc wraps around for requests of 2^64-48 bytes and more; too little memory is allocated and then written beyond its end.
- C71: heap_arena.h:46-47, heap_arena.cpp:78-126: documented to catch double-free, but the owner link is neither cleared on free nor safe to read after it.
- C72: latency_monitor.cpp:156-162: `niq_stalling` is not updated when the receive time of the latest packet is not before the current time (clock set back, packet just received, no receive time): the value of an older packet is shown and given to the tuner, which then may take the queue as stalled.
- C72: latency_monitor.cpp:165-178: `e2e_latency` keeps its last value when frames come without capture time.
- C73: wav_header.cpp:15-31: `num_samples_` is never initialized (`reset_sample_counter` is never called); the size in the header starts from what memory held, 0x7a7a7a7a in memory of `HeapArena`.
- C73: wav_sink.cpp:118-127 with wav_header.cpp:74-76: the number of samples of all channels is multiplied by the number of channels again; stereo files declare twice their size.
- C73: wav_header.cpp:73-77: the declared size wraps around at 2^32; with the two faults above after 17.5 minutes of stereo at 44.1 kHz, when it is zero.
- C73: wav_sink.cpp:112-150: the header is written with the first samples only; without samples the file stays empty.
- C74: parse_units.cpp:88-96: `(double)INT64_MAX` is 2^63, so 9223372036854775807ns passes the check and the conversion of 2^63 to a 64 bit integer is undefined; the same for `SIZE_MAX` at parse_units.cpp:143-151.
- C74: parse_units.cpp:69-96: `-nanms` and `+nans` pass all checks, and NaN is converted to an integer, which is undefined.
- C74: parse_units.cpp:77-96: whole numbers above 2^53 ns are rounded, since they go through a double.
- C75: fast_random.cpp:28-32 with uuid.cpp:38-40: all 122 bits of a UUID follow from the 32 bits of the generator, which are the low bits of the monotonic clock; identity.h:31-33 expects that collisions of CNAMEs are not practically possible.
