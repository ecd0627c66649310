{"id": "C01", "title": "Volatile ring buffer is a lossy FIFO of exact records", "statement": "For a volatile ring buffer shared by any number of producers and one consumer: the consumer receives records in the order in which their space was reserved; every record received carries exactly the bytes its producer had written into the reservation when it committed; no record is received twice; and a committed record is missed only if it was overwritten by a later reservation, in which case every unread record older than it was overwritten too.", "quantifier": "every buffer size, every number of producers, every interleaving of reserve / write / commit / read / finish-read calls, every record size", "why_tests_cant": "Unit tests and fuzzing sample a handful of sizes and interleavings; the wrap-around, gap and overlap conditions interact for arbitrary size sequences.", "anchors": ["bd-buffer/src/buffer/volatile_ring_buffer.rs: ProducerImpl::reserve, ProducerImpl::commit, ConsumerImpl::start_read, ConsumerImpl::finish_read", "bd-buffer/src/buffer/common_ring_buffer.rs: LockedData"]}
{"id": "C02", "title": "Memory handed out is in bounds and never shared", "statement": "At every moment the byte ranges currently handed out by a ring buffer (the uncommitted reservations of all producers and the record currently being read) lie inside the buffer and are pairwise disjoint, also from the bookkeeping bytes of one another.", "quantifier": "every buffer size, every reachable state of a volatile or non-volatile buffer, every pair of outstanding ranges", "why_tests_cant": "The code hands out raw slices from unsafe code and relies on checking only the oldest reservation; aliasing shows up only for particular size/wrap combinations.", "anchors": ["bd-buffer/src/buffer/common_ring_buffer.rs: intersect, intersect_reservation, advance_next_read_due_to_write, calculate_next_write_start", "bd-buffer/src/buffer/volatile_ring_buffer.rs: reserve", "bd-buffer/src/buffer/non_volatile_ring_buffer.rs: reserve"]}
{"id": "C03", "title": "Out-of-order commits become visible only as a committed prefix", "statement": "A consumer never receives a record while a record reserved before it is still uncommitted; once all earlier reservations are committed, all records up to the next uncommitted reservation are available, whatever the order in which the producers committed.", "quantifier": "every commit order of every set of outstanding reservations", "why_tests_cant": "The number of commit orders is factorial in the number of producers.", "anchors": ["bd-buffer/src/buffer/volatile_ring_buffer.rs: ProducerImpl::commit"]}
{"id": "C04", "title": "A non-overwriting buffer never loses or reorders a committed record", "statement": "For a non-volatile buffer that does not allow overwrite (continuous buffers), every record whose commit returned success is delivered to the consumer exactly once, in commit order, with exactly the committed bytes; a reservation that does not fit fails and leaves the stored records untouched.", "quantifier": "every buffer size and every sequence of reserve / commit / read / advance calls on an uncorrupted buffer", "why_tests_cant": "Loss would need a particular alignment of wrap position, read position and record size.", "anchors": ["bd-buffer/src/buffer/non_volatile_ring_buffer.rs: ProducerImpl::reserve, commit, ConsumerImpl", "bd-buffer/src/buffer/common_ring_buffer.rs: advance_next_read_due_to_write, advance_next_read"]}
{"id": "C05", "title": "Overwrites are accounted for exactly", "statement": "In overwrite mode the number of records reported as overwritten equals the number of committed records that will never be delivered, and the number of records written equals delivered + overwritten + still unread.", "quantifier": "every history of operations on an uncorrupted overwrite-mode buffer", "why_tests_cant": "An accounting identity over unbounded histories.", "anchors": ["bd-buffer/src/buffer/common_ring_buffer.rs: advance_next_read_due_to_write (records_overwritten), finish_commit_common"]}
{"id": "C06", "title": "Cursor consumer: read ahead, advance later", "statement": "A cursor consumer receives the stored records in order, each once per registration, without freeing them; a record's space becomes reusable only after the read pointer has been advanced past it, and the n-th advance releases exactly the n-th record read.", "quantifier": "every interleaving of writes, cursor reads and advances on an uncorrupted non-overwriting buffer", "why_tests_cant": "The read-ahead window can wrap and interact with the producer's wrap gap arbitrarily.", "anchors": ["bd-buffer/src/buffer/non_volatile_ring_buffer.rs: CursorConsumerImpl::start_read, advance_read_pointer"]}
{"id": "C07", "title": "Closing and reopening a non-volatile buffer preserves its unread records", "statement": "If a non-volatile buffer is closed when no reservation is outstanding and reopened with the same size, opening succeeds and a consumer then receives exactly the records that were committed and not yet consumed, in order, byte for byte.", "quantifier": "every size and every history before the close", "why_tests_cant": "Restart equivalence must hold for every reachable state (empty, wrapped, full, gap present).", "anchors": ["bd-buffer/src/buffer/non_volatile_ring_buffer.rs: RingBufferImpl::new, write_header_crc32", "bd-buffer/src/buffer/common_ring_buffer.rs: LockedData::new"]}
{"id": "C08", "title": "A crash in the middle of any operation never yields a torn record", "statement": "If the process dies between any two stores to the mapped file, reopening either reports data loss (the buffer is recreated empty) or succeeds, and then every record delivered afterwards is one whose bytes match the checksum stored with it; a record whose producer had not committed it is not delivered (up to checksum collision).", "quantifier": "every crash point inside every operation in every reachable state", "why_tests_cant": "A test would have to kill the process at each individual store.", "anchors": ["bd-buffer/src/buffer/non_volatile_ring_buffer.rs: write_header_crc32, common_consumer_start_read, RingBufferImpl::new"]}
{"id": "C09", "title": "Arbitrary corruption of stored records causes no out-of-bounds access", "statement": "Whatever bytes the record area contains, every operation on an opened buffer terminates without accessing memory outside the buffer; a record with an impossible size is reported as data loss and the buffer returns to a usable empty state.", "quantifier": "every content of the record area, every operation sequence", "why_tests_cant": "The corruption fuzzer samples; the claim is about all byte contents.", "anchors": ["bd-buffer/src/buffer/common_ring_buffer.rs: load_next_read_size, on_total_data_loss, total_data_loss_reset"]}
{"id": "C10", "title": "A locked buffer accepts no new reservations", "statement": "While at least one lock is held, or after shutdown, every reserve call fails without changing the stored records, and reading keeps working; when the last lock is released (and the buffer is not shut down) reservations are accepted again.", "quantifier": "every nesting of locks and every interleaving with producers and consumers", "why_tests_cant": "Lock nesting depth and interleavings are unbounded.", "anchors": ["bd-buffer/src/buffer/common_ring_buffer.rs: start_reserve_common, lock_common, shutdown_common", "bd-buffer/src/buffer/volatile_ring_buffer.rs: LockHandleImpl"]}
{"id": "C11", "title": "Every failed call leaves the buffer as it was", "statement": "A reserve that returns an error (too large, zero, locked, shut down, no room behind the reader) does not remove, alter or reorder any committed record that could still be delivered in a non-overwriting buffer, and a commit or finish without a matching reservation fails without effect.", "quantifier": "every failing call in every reachable state", "why_tests_cant": "Failure paths are reached in states tests rarely construct.", "anchors": ["bd-buffer/src/buffer/common_ring_buffer.rs: start_reserve_common", "bd-buffer/src/buffer/non_volatile_ring_buffer.rs: reserve, commit, finish_read"]}
{"id": "C12", "title": "Flush waits for everything committed before it", "statement": "A flush (wait for drain) on the volatile stage of an aggregate buffer completes only after every record committed before the flush started has been handed to the consumer and finished (or overwritten).", "quantifier": "every interleaving of producers, the drain thread and the flusher", "why_tests_cant": "Depends on schedules.", "anchors": ["bd-buffer/src/buffer/common_ring_buffer.rs: wait_for_drain, finish_read_common", "bd-buffer/src/buffer/aggregate_ring_buffer.rs: flush"]}
{"id": "C13", "title": "Reservation queue with free list behaves as a plain FIFO", "statement": "The intrusive queue with free list used for reservations behaves as a FIFO queue: a handle returned when an element is appended always designates that element until it is popped, no matter how slots are recycled.", "quantifier": "every sequence of append / pop / modify-by-handle operations", "why_tests_cant": "Slot recycling patterns are unbounded.", "anchors": ["bd-buffer/src/buffer/intrusive_queue_with_free_list.rs: IntrusiveQueueWithFreeList"]}
{"id": "C14", "title": "gRPC decoding does not depend on how the stream is chunked", "statement": "Feeding a byte stream to the decoder in any sequence of chunks yields the same messages in the same order as feeding it at once, up to the first undecodable message.", "quantifier": "every byte stream and every way to split it into chunks", "why_tests_cant": "2^(n-1) ways to split n bytes.", "anchors": ["bd-grpc-codec/src/lib.rs: Decoder::decode_data"]}
{"id": "C15", "title": "gRPC encode/decode round trip", "statement": "Decoding the concatenation of the encodings of any list of messages (compressed or not, whatever the size threshold decides) yields exactly that list and leaves no bytes pending.", "quantifier": "every list of messages whose encodings are shorter than 4 GiB, any lossless compressor", "why_tests_cant": "All message sizes around the threshold and length-prefix byte boundaries.", "anchors": ["bd-grpc-codec/src/lib.rs: Encoder::encode, Decoder::decode_data"]}
{"id": "C16", "title": "Upload rate limiter bounds bytes per window and never starves", "statement": "Within any one refill window the bytes admitted by the rate limiter exceed the configured budget by less than the size of the last admitted request; a request arriving after the window has passed is always admitted.", "quantifier": "every sequence of arrival times and request sizes, every budget and period", "why_tests_cant": "Unbounded arrival histories.", "anchors": ["bd-logger/src/ratelimit.rs: RateLimit::try_acquire_ratelimit_permit"]}
{"id": "C17", "title": "Batching neither loses, duplicates nor reorders logs", "statement": "The batches produced for upload, concatenated, are exactly the logs read from the buffer in order; every batch is non-empty, and removing its last log leaves a batch below both the count and the byte limit.", "quantifier": "every sequence of logs, every pair of limits (also limits that change between batches)", "why_tests_cant": "Unbounded log sequences and limits.", "anchors": ["bd-logger/src/consumer.rs: BatchBuilder, ContinuousBufferUploader, CompleteBufferUpload"]}
{"id": "C18", "title": "Continuous upload acknowledges a log only after the upload attempt finished", "statement": "The continuous uploader releases a log from the persistent buffer only after the batch holding it has been handed to the upload service and the service returned; on shutdown nothing is released; so after a crash every unreleased log is uploaded again.", "quantifier": "every interleaving of reads, flush deadlines, upload results and shutdown", "why_tests_cant": "Crash point anywhere between read, upload and release.", "anchors": ["bd-logger/src/consumer.rs: ContinuousBufferUploader::consume_continuous_logs, flush_current_batch"]}
{"id": "C19", "title": "Upload retry is bounded and reuses one identity", "statement": "One upload request is sent at most 1 + (retry limit) times, always with the same upload identifier and payload, and retrying stops at the first success or cancellation.", "quantifier": "every sequence of results, every retry limit", "why_tests_cant": "Unbounded result sequences; limit can change at run time.", "anchors": ["bd-logger/src/service.rs: RetryPolicy, UploadRequest"]}
{"id": "C20", "title": "Dropped-log accounting counts only dropped logs", "statement": "The counter of logs dropped because the retry limit was exceeded grows only when an upload finally failed.", "quantifier": "every result sequence and every retry limit", "why_tests_cant": "The corner (last permitted attempt succeeds) is not covered by tests.", "anchors": ["bd-logger/src/service.rs: RetryPolicy::retry"]}
{"id": "C21", "title": "Each upload response resolves exactly the request it belongs to", "statement": "On a stream, a response carrying an identifier completes exactly the pending request or intent with that identifier, once; a response with an unknown identifier is an error; when the stream ends every unresolved request is reported as failed.", "quantifier": "every interleaving of sends and responses on a stream", "why_tests_cant": "Unbounded numbers of in-flight uploads and response orders.", "anchors": ["bd-api/src/upload.rs: StateTracker", "bd-api/src/api.rs: handle_responses"]}
{"id": "C22", "title": "A killed client stays silent", "statement": "After the server rejects the API key (or a kill duration is configured), the client opens no stream, across any number of restarts, until the kill time has passed or the API key changes, as long as the kill file could be written and stays readable (within the rejecting process, even if it could not); after that it may connect again.", "quantifier": "every sequence of process restarts, clock readings and API keys", "why_tests_cant": "Histories across restarts and clock values.", "anchors": ["bd-api/src/api.rs: maybe_kill_client, read_kill_file, write_kill_file, wait_for_handshake"]}
{"id": "C23", "title": "Version comparison in log matchers", "statement": "Comparing two versions with a matcher is a total preorder consistent with equality: exactly one of <, =, > holds, comparison is antisymmetric and transitive, and missing trailing segments count as zero.", "quantifier": "every pair / triple of version strings", "why_tests_cant": "Mixed numeric / alphanumeric segments are unbounded.", "anchors": ["bd-log-matcher/src/version.rs: Version::cmp, VersionSegment::cmp"]}
{"id": "C24", "title": "Equal version matchers accept the same versions", "statement": "If two version matchers compare equal, they accept exactly the same candidate versions.", "quantifier": "every pair of matchers and every candidate string", "why_tests_cant": "Equality is decided on printed form, acceptance on parsed form.", "anchors": ["bd-log-matcher/src/version.rs: VersionMatch"]}
{"id": "C25", "title": "Log matcher trees mean what their boolean structure says", "statement": "A matcher tree matches a log iff the boolean formula it denotes is true of the log's level, type, message, tags; captured fields take precedence over matching fields of the same name; a leaf on a field that is absent (or not text) does not match.", "quantifier": "every matcher tree and every log", "why_tests_cant": "Trees are unbounded; tests cover a few shapes.", "anchors": ["bd-log-matcher/src/matcher.rs: Tree::do_match, Leaf", "bd-matcher/src/lib.rs: FieldProvider"]}
{"id": "C26", "title": "Buffer selection returns exactly the matching buffers", "statement": "A log is routed to a buffer iff at least one of that buffer's filters matches the log, independently of the order of the configuration.", "quantifier": "every configuration and every log", "why_tests_cant": "Unbounded configurations.", "anchors": ["bd-matcher/src/buffer_selector.rs: BufferSelector::buffers"]}
{"id": "C27", "title": "Filters never leak fields into the upload", "statement": "After the filter chain, the captured fields of a log are originally captured ones (possibly rewritten), fields explicitly named by a capture transform, or fields explicitly set by a set transform; removed fields are absent; message, level, type, session and time never change.", "quantifier": "every filter chain and every log", "why_tests_cant": "Chains compose arbitrarily.", "anchors": ["bd-log-filter/src/lib.rs: FilterChain::process"]}
{"id": "C28", "title": "A set-field filter without override never overwrites", "statement": "A set-field transform that does not allow override leaves a log unchanged when the log already has a field with that name.", "quantifier": "every log and transform", "why_tests_cant": "Depends on the kind of value stored under the name.", "anchors": ["bd-log-filter/src/lib.rs: SetField::apply, Log::field_value"]}
{"id": "C29", "title": "Log metadata normalisation", "statement": "The fields attached to a log have pairwise distinct keys; a key present in several sources takes its value from the highest-priority source (provider out-of-the-box, log out-of-the-box, log custom, globally added, provider custom); custom fields with reserved or underscore names never appear; every admissible key of any source is present.", "quantifier": "every combination of provider, log and global fields", "why_tests_cant": "Unbounded field lists with arbitrary collisions.", "anchors": ["bd-logger/src/metadata.rs: MetadataCollector::normalized_metadata_with_extra_fields, partition_fields, verify_custom_field_name"]}
{"id": "C30", "title": "The log channel never holds more than its memory budget", "statement": "Whatever the interleaving of concurrent senders and the receiver, the total size of queued messages never exceeds the configured memory capacity nor their number the count capacity; messages are delivered once, in order; when no send is in progress the recorded usage equals the size of the queued messages.", "quantifier": "every interleaving of any number of senders at the granularity of single atomic operations", "why_tests_cant": "Interleavings are unbounded.", "anchors": ["bd-logger/src/memory_bound.rs: Sender::try_send, try_reserve_memory, Receiver::recv"]}
{"id": "C31", "title": "A message that fits is accepted by the log channel", "statement": "A send is rejected for lack of memory only if the queued messages together with the new one exceed the memory capacity.", "quantifier": "every interleaving of senders and receiver", "why_tests_cant": "Needs a particular race between a failing and a succeeding sender.", "anchors": ["bd-logger/src/memory_bound.rs: Sender::try_reserve_memory"]}
{"id": "C32", "title": "Pre-configuration logs are replayed first and in order", "statement": "Logs accepted before the first configuration are processed exactly once, in order, before any later log; the buffer never exceeds its count and size limits; logs beyond the limits are dropped, never reordered.", "quantifier": "every interleaving of logs and configuration updates", "why_tests_cant": "Unbounded histories.", "anchors": ["bd-logger/src/pre_config_buffer.rs: PreConfigBuffer", "bd-logger/src/async_log_buffer.rs: write_log, update, maybe_replay_pre_config_buffer_logs"]}
{"id": "C33", "title": "Session survives restart within the inactivity threshold, and not beyond it", "statement": "With the activity-based strategy: as long as the clock does not go backwards and gaps between uses stay within the threshold, the session identifier does not change within a process; after a crash at any point and a restart, the identifier is kept if the gap since the last use is at most threshold minus the write interval, and is replaced if the gap exceeds the threshold.", "quantifier": "every history of uses, clock readings, crashes and restarts", "why_tests_cant": "Crash points and clock histories.", "anchors": ["bd-session/src/activity_based.rs: Strategy::session_id, start_new_session, flush"]}
{"id": "C34", "title": "Previous-process session identifier", "statement": "In every process the reported previous-process session identifier is the last session identifier in force in the preceding process, and it does not change during the life of a process.", "quantifier": "every history of sessions, restarts and calls", "why_tests_cant": "Histories across restarts.", "anchors": ["bd-session/src/activity_based.rs: previous_process_session_id", "bd-session/src/fixed.rs: previous_process_session_id"]}
{"id": "C35", "title": "A bad cached runtime configuration cannot crash-loop the client forever", "statement": "If loading the cached runtime configuration makes the process crash before it reaches the server, the cached configuration is applied in at most a fixed number of process starts and is then discarded.", "quantifier": "every crash point inside each start, every initial cache content", "why_tests_cant": "Sequences of crashing processes.", "anchors": ["bd-runtime/src/runtime.rs: ConfigLoader::try_load_cached_config, handle_cached_config, mark_safe, update_snapshot"]}
{"id": "C36", "title": "Runtime watches always show the current snapshot or the default", "statement": "Every registered watch reads the value of its key in the most recently applied snapshot if the key is present with the right type, and its default otherwise, no matter whether it was registered before or after the update.", "quantifier": "every history of updates and registrations", "why_tests_cant": "Unbounded histories.", "anchors": ["bd-runtime/src/runtime.rs: ConfigLoader::register_watch, update_snapshot_inner, Snapshot::get_*"]}
{"id": "C37", "title": "A persisted client configuration is loaded at most once per write", "statement": "A persisted configuration whose application crashes the process is attempted at most once; a configuration is on disk at startup only if it was applied successfully; the version reported to the server in the handshake is the version of the last successfully applied configuration of this process.", "quantifier": "every history of updates, failures, crashes and restarts", "why_tests_cant": "Crash points.", "anchors": ["bd-logger/src/client_config.rs: Config::process_configuration_update, try_load_persisted_config_helper, partial_handshake"]}
{"id": "C38", "title": "Metrics are conserved by the in-memory store", "statement": "Each counter increment is reported in exactly one snapshot as long as the incrementing code keeps its handle; the sum over all snapshots plus the live value equals the sum of increments.", "quantifier": "every interleaving of increments, handle drops and snapshots", "why_tests_cant": "Race windows.", "anchors": ["bd-client-stats-store/src/lib.rs: Counter, BoundedCollector::retain", "bd-client-stats/src/stats.rs: snap_collector_to_snapshot"]}
{"id": "C39", "title": "Dynamically recorded metrics are not lost", "statement": "An increment recorded through the dynamic (look up, increment, release) path is reported in some snapshot.", "quantifier": "every interleaving of the recording thread and the snapshotting thread", "why_tests_cant": "Needs a particular interleaving of three steps.", "anchors": ["bd-client-stats-store/src/lib.rs: BoundedCollector::retain", "bd-client-stats/src/lib.rs: DynamicStats::record_dynamic_counter"]}
{"id": "C40", "title": "The number of stored metrics never exceeds its limit", "statement": "The bounded metric store never holds more metrics than its limit; existing metrics stay usable when the limit is reached; a new one is refused and counted.", "quantifier": "every sequence of registrations and snapshots", "why_tests_cant": "Unbounded histories.", "anchors": ["bd-client-stats-store/src/lib.rs: BoundedScope::get_common"]}
{"id": "C41", "title": "Stats on disk are uploaded once per identity with unchanging content", "statement": "Once a snapshot has been handed to upload with some identifier, later attempts with the same identifier, across restarts, carry the same content; new data goes to other snapshots; the number of snapshot files stays within the limit; at most one upload is in flight.", "quantifier": "every history of flushes, uploads, completions and crashes", "why_tests_cant": "Crash points and histories.", "anchors": ["bd-client-stats/src/file_manager.rs: FileManager", "bd-client-stats/src/stats.rs: Flusher"]}
{"id": "C42", "title": "Stats on disk are not lost except by explicit eviction", "statement": "Every counter increment merged to disk is contained in exactly one file until that file is acknowledged by the server or evicted as the oldest beyond the file limit.", "quantifier": "every history without I/O errors", "why_tests_cant": "Unbounded histories.", "anchors": ["bd-client-stats/src/file_manager.rs: get_or_create_snapshot, write_snapshot, complete_pending_upload", "bd-client-stats/src/stats.rs: merge_delta_snapshot_to_disk"]}
{"id": "C43", "title": "Workflow traversal limit", "statement": "The number of workflow traversals held by the engine never exceeds the configured maximum after processing any sequence of logs.", "quantifier": "every workflow configuration, every log sequence, every limit", "why_tests_cant": "Unbounded configurations and histories.", "anchors": ["bd-workflows/src/engine.rs: WorkflowsEngine::process_log", "bd-workflows/src/workflow.rs: Workflow::process_log, Run::process_log"]}
{"id": "C44", "title": "Exclusive workflows keep at most two runs", "statement": "A workflow in exclusive mode never has more than two runs, and a log is processed by at most one of them when a run is active and not completed by it.", "quantifier": "every exclusive workflow and log sequence", "why_tests_cant": "Unbounded histories.", "anchors": ["bd-workflows/src/workflow.rs: Workflow::process_log, maybe_add_run, needs_new_run"]}
{"id": "C45", "title": "A workflow transition fires exactly at its n-th match", "statement": "A transition that requires n matching logs fires its actions at the n-th matching log since its state was entered, not earlier and not later, and logs that do not match do not count.", "quantifier": "every n, every log sequence", "why_tests_cant": "Unbounded sequences.", "anchors": ["bd-workflows/src/workflow.rs: Traversal::process_log"]}
{"id": "C46", "title": "Sankey paths are bounded and truncation is faithful", "statement": "The path recorded for a Sankey diagram never holds more than the configured number of nodes; it is the sequence of the most recent extracted values, and is flagged as trimmed iff something was dropped.", "quantifier": "every sequence of extractions, every limit", "why_tests_cant": "Unbounded sequences.", "anchors": ["bd-workflows/src/workflow.rs: SankeyState::push"]}
{"id": "C47", "title": "Streaming actions route every log somewhere and terminate", "statement": "While logs are re-routed by streaming actions, every log that had a destination still has one; a streaming action with a log limit of n re-routes at most n logs and ends when the session changes.", "quantifier": "every set of streaming actions and every log sequence", "why_tests_cant": "Unbounded histories.", "anchors": ["bd-workflows/src/actions_flush_buffers.rs: Resolver::process_streaming_actions, StreamingBuffersAction::meets_termination_criteria"]}
{"id": "C48", "title": "Flush actions are negotiated at most once at a time", "statement": "A flush action that is already pending or streaming is not negotiated again until it is resolved; a rejected or errored action is dropped.", "quantifier": "every history of triggered actions and negotiation results", "why_tests_cant": "Unbounded histories.", "anchors": ["bd-workflows/src/actions_flush_buffers.rs: Resolver::process_flush_buffer_actions, Negotiator::process_pending_action"]}
{"id": "C49", "title": "Session change resets workflow state", "statement": "After a log of a new session, no run that observed logs of an older session influences later actions.", "quantifier": "every history", "why_tests_cant": "Unbounded histories.", "anchors": ["bd-workflows/src/engine.rs: process_log, clean_state"]}
{"id": "C50", "title": "Workflow configuration update keeps exactly the unchanged workflows", "statement": "After a configuration update the engine runs exactly the configured workflows; workflows whose definition did not change keep their progress; changed or removed workflows lose theirs.", "quantifier": "every pair of configurations and every state", "why_tests_cant": "Unbounded configurations.", "anchors": ["bd-workflows/src/engine.rs: WorkflowsEngine::update, add_workflow, remove_workflow"]}
{"id": "C51", "title": "Persisting and restoring workflow state is transparent", "statement": "Restoring a persisted state into the same configuration gives an engine that produces the same actions for the same future logs as the engine that was persisted.", "quantifier": "every state and every future log sequence", "why_tests_cant": "Equivalence over unbounded futures.", "anchors": ["bd-workflows/src/engine.rs: start, StateStore", "bd-workflows/src/workflow.rs: Workflow::optimized"]}
{"id": "C52", "title": "A log that triggers a flush is part of the flushed data", "statement": "A log that triggers a buffer flush is itself written to a buffer that will be uploaded.", "quantifier": "every routing decision and set of flushed buffers", "why_tests_cant": "Depends on the relation of three buffer sets.", "anchors": ["bd-logger/src/log_replay.rs: process_flush_buffers_actions"]}
{"id": "C53", "title": "A blocking log is flushed to disk before the call returns", "statement": "When a blocking log call returns after processing, the buffers the log was written to have been flushed.", "quantifier": "every routing decision", "why_tests_cant": "Depends on streaming reroute state.", "anchors": ["bd-logger/src/log_replay.rs: process_log, finish_blocking_log_processing"]}
{"id": "C54", "title": "Time rounding", "statement": "Rounding a time down (up) to a positive whole-second interval gives the largest multiple not after (smallest multiple not before) the time; converting a time to its protobuf form and back is the identity.", "quantifier": "every time (also before 1970) and every positive interval", "why_tests_cant": "Infinite domain.", "anchors": ["bd-time/src/lib.rs: OffsetDateTimeExt::floor, ceil, into_proto, TimestampExt::to_offset_date_time"]}
{"id": "C55", "title": "Recently processed Sankey paths cache is an LRU of at most 100", "statement": "The cache of processed Sankey paths never holds more than 100 entries nor duplicates, holds exactly the most recently used ones, and evicts the least recently used.", "quantifier": "every sequence of lookups and insertions", "why_tests_cant": "Unbounded sequences.", "anchors": ["bd-workflows/src/sankey_diagram.rs: ProcessedIntents"]}
{"id": "C56", "title": "Rate limited warnings", "statement": "Two warnings emitted by one rate-limited call site are always more than the interval apart, and a call made more than the interval after the last emitted warning is emitted.", "quantifier": "every sequence of call times", "why_tests_cant": "Unbounded sequences.", "anchors": ["bd-log/src/rate_limit_log.rs: WarnTracker::should_warn"]}
{"id": "C57", "title": "Message hash identifies messages", "statement": "Equal protobuf messages have equal hash input whatever the iteration order of their maps; different messages have different hash input.", "quantifier": "every pair of messages", "why_tests_cant": "Infinite domain.", "anchors": ["bd-proto-util/src/proto.rs: hash_message, hash_value"]}
{"id": "C58", "title": "Label cardinality guard", "statement": "The label tracker never admits more than its maximum number of distinct labels when used sequentially; a known label set is always passed through; any other is replaced entirely by overflow labels.", "quantifier": "every sequence of label sets", "why_tests_cant": "Unbounded sequences.", "anchors": ["bd-server-stats/src/stats.rs: LabelTracker::track_labels"]}
{"id": "C59", "title": "App version change is reported exactly once", "statement": "After an app update, the change is reported exactly once (by the first recording of the new version), with the previously recorded version; never on first install.", "quantifier": "every history of starts and versions, crashes in between", "why_tests_cant": "Histories across restarts.", "anchors": ["bd-logger/src/app_version.rs: Repository"]}
{"id": "C60", "title": "Per-minute network usage summary", "statement": "A reported per-minute usage summary is the sum of the bytes of exactly those responses recorded in samples started at most one minute before, and a summary is reported only once samples older than a minute exist.", "quantifier": "every sequence of responses, reports and times", "why_tests_cant": "Unbounded sequences.", "anchors": ["bd-logger/src/network.rs: MetricsContainer::get_summary_sample, HTTPTrafficDataUsageTracker"]}
{"id": "C61", "title": "Histogram values are preserved when switching to a sketch", "statement": "The number and the sum of recorded values are unchanged by the switch from inline storage to sketch and by merging.", "quantifier": "every sequence of values and merges", "why_tests_cant": "Unbounded sequences.", "anchors": ["bd-client-stats-store/src/lib.rs: HistogramInner::accept, switch_to_sketch, Histogram::merge_from"]}
{"id": "C62", "title": "Key-value store returns what was stored or nothing", "statement": "Reading a key returns the last value set for it, or nothing; a value that cannot be decoded is deleted and reported as absent, and does not come back.", "quantifier": "every history of sets, reads and storage corruption", "why_tests_cant": "Unbounded histories.", "anchors": ["bd-key-value/src/lib.rs: Store::set, get"]}
{"id": "C63", "title": "A flush completes once the buffer has been drained", "statement": "A flush (wait for drain) that had to wait is released at the latest when every record has been read or overwritten and the buffer is empty.", "quantifier": "every interleaving of producers, the drain thread and the flusher", "why_tests_cant": "Needs the flush target to be overwritten while the flush is waiting.", "anchors": ["bd-buffer/src/buffer/common_ring_buffer.rs: wait_for_drain, finish_read_common"]}
{"id": "C64", "title": "Decoders on one thread are independent", "statement": "What a decoder returns for its stream does not depend on what other decoders on the same thread decoded before.", "quantifier": "every pair of streams decoded on one thread", "why_tests_cant": "The failure needs a corrupt compressed stream followed by a valid one of another connection on the same thread.", "anchors": ["bd-grpc-codec/src/lib.rs: Decoder::decompress (thread local DECOMPRESSOR)"]}
{"id": "C66", "title": "The fixed session strategy has one identifier per process", "statement": "With the fixed strategy the session identifier stays the same within a process until a new session is started explicitly, and every process starts with a newly generated identifier.", "quantifier": "every history of uses, explicit new sessions and restarts", "why_tests_cant": "Histories across restarts.", "anchors": ["bd-session/src/fixed.rs: Strategy::session_id, start_new_session"]}
{"id": "C67", "title": "The configuration acknowledgement names the version in force", "statement": "The last_applied_version_nonce of every acknowledgement sent to the server for a client configuration is the version of the last configuration applied in this process, also when the acknowledgement carries an error.", "quantifier": "every history of updates, rejections, crashes and restarts", "why_tests_cant": "Depends on the earlier history, not on a single update.", "anchors": ["bd-logger/src/client_config.rs: Config::try_apply_config"]}
{"id": "C68", "title": "Statistics reporting survives disk errors and small limits", "statement": "No error of the file system and no value of the runtime limits on statistics files makes the statistics task panic: flushing and uploading go on.", "quantifier": "every history of flushes, uploads, answers, restarts and file system outcomes; every limit", "why_tests_cant": "Depends on rare errors at particular moments and on combinations of limits with timing.", "anchors": ["bd-client-stats/src/file_manager.rs: get_initialized, get_or_create_snapshot, complete_pending_upload", "bd-client-stats/src/stats.rs: Flusher"]}
{"id": "C69", "title": "The workflows engine never panics", "statement": "No sequence of logs, configuration updates, negotiation answers, saves and restarts makes the workflows engine panic (for instance by indexing a state or a transition that does not exist), whatever workflows the parser accepts.", "quantifier": "every accepted configuration, every sequence of logs, updates, answers, saves and restarts", "why_tests_cant": "The indices used while processing were stored at other times, possibly by another process with another configuration; tests use a few fixed workflows.", "anchors": ["bd-workflows/src/workflow.rs: Traversal::process_log, Run::process_log, Workflow::process_log", "bd-workflows/src/engine.rs: WorkflowsEngine::process_log, start, update"]}
{"id": "C70", "title": "Finished traversals give their part of the limit back", "statement": "The number of traversals the engine counts against its limit is the number of traversals it holds: work that ended, whether completed, stopped or removed, does not reduce the number of traversals available later.", "quantifier": "every accepted configuration, every sequence of logs, updates and restarts", "why_tests_cant": "A drift of the counter shows only after many runs ended in particular ways.", "anchors": ["bd-workflows/src/workflow.rs: Workflow::process_log", "bd-workflows/src/engine.rs: WorkflowsEngine"]}
{"id": "C71", "title": "A record being read is not lost when its reader goes away", "statement": "If the consumer of a non-overwriting non-volatile buffer is dropped, or the process is restarted, between start_read and finish_read, the record that was being read is delivered again to the next consumer.", "quantifier": "every record and every buffer state", "why_tests_cant": "The tests of the buffer always finish a read before dropping the consumer or reopening the file.", "anchors": ["bd-buffer/src/buffer/non_volatile_ring_buffer.rs: common_consumer_start_read, ConsumerImpl::drop", "bd-buffer/src/buffer/common_ring_buffer.rs: finish_read_common"]}
{"id": "C72", "title": "A crash loses at most the record being written or read", "statement": "If the process dies in the middle of an operation on a non-overwriting non-volatile buffer, every record committed earlier and not yet read is still delivered after the file is opened again.", "quantifier": "every crash point inside every operation in every reachable state", "why_tests_cant": "A test would have to kill the process between two stores to the mapped file.", "anchors": ["bd-buffer/src/buffer/non_volatile_ring_buffer.rs: ProducerImpl::reserve, commit, write_header_crc32, RingBufferImpl::new", "bd-buffer/src/buffer/ring_buffer.rs: RingBuffer::new"]}
{"id": "C73", "title": "A temporary failure of the platform storage does not lose a stored value", "statement": "If reading a key fails once because the platform's storage reports an error, a later read of the key still returns the value that was stored.", "quantifier": "every value and every history", "why_tests_cant": "Tests use a storage that never fails temporarily.", "anchors": ["bd-key-value/src/lib.rs: Store::get"]}
{"id": "C74", "title": "Traffic is counted in the per-minute summary", "statement": "The bytes of a response recorded at most a minute before a usage summary is reported are included in that summary.", "quantifier": "every sequence of responses, reports and times", "why_tests_cant": "Depends on the pattern of report times (a late report, a suspended process).", "anchors": ["bd-logger/src/network.rs: MetricsContainer::get_summary_sample, HTTPTrafficDataUsageTracker"]}
{"id": "C75", "title": "A log is written once to each of its buffers", "statement": "Every log is written exactly once to each buffer the configuration and the streaming actions in force send it to, and to no other; a log that some configured buffer wants is always written somewhere as long as no buffer fails; tailing streams get exactly the logs they match.", "quantifier": "every sequence of logs, configuration updates, negotiation answers and restarts", "why_tests_cant": "Routing depends on the history of flush actions and configuration updates.", "anchors": ["bd-logger/src/log_replay.rs: process_log, write_to_buffers", "bd-logger/src/client_config.rs: TailConfigurations::maybe_stream_log", "bd-workflows/src/actions_flush_buffers.rs: StreamingBuffersAction::new"]}
{"id": "C65", "title": "Trigger uploads do not overlap and their requests are answered after them", "statement": "At most one upload task reads a ring buffer at a time and at most one upload of a trigger buffer is under way; a flush request starts exactly one upload for every requested trigger buffer that is known and not being uploaded; the request is answered once, after the uploads of the requested buffers are over.", "quantifier": "every sequence of configurations, requests, responses and scheduling of the tasks", "why_tests_cant": "Overlaps depend on the interleaving of several tasks with configuration updates.", "anchors": ["bd-logger/src/consumer.rs: BufferUploadManager::run, handle_trigger_uploads, handle_buffer_event"]}
{"id": "C76", "title": "Every request to flush buffers to disk is answered", "statement": "A request to flush named buffers (or all of them) flushes exactly those and is then acknowledged; the requests are served in order and one request cannot prevent others from being answered.", "quantifier": "every sequence of configuration updates and flush requests", "why_tests_cant": "Needs a request that is overtaken by a configuration update.", "anchors": ["bd-buffer/src/ring_buffer.rs: Manager::process_flushes", "bd-logger/src/log_replay.rs: process_log (blocking logs)"]}
{"id": "C77", "title": "A configuration update leaves exactly the configured buffers", "statement": "After a successful update the ring buffers are exactly those configured: those that were there are kept, the others are opened, those no longer configured are announced as removed (before the new ones are announced) and their files deleted; a failed update changes nothing; the configured type is in force; listeners know exactly the existing buffers.", "quantifier": "every sequence of configurations and failures", "why_tests_cant": "Depends on the history of configurations, not on a single one.", "anchors": ["bd-buffer/src/ring_buffer.rs: Manager::update_from_config, resolve_buffer_updates, resolve_stream_buffer_update"]}
{"id": "C79", "title": "A configuration update completes", "statement": "An update of the buffer configuration always completes, whatever uploads are under way, and when it has completed the upload manager uploads exactly the configured buffers: no removed buffer is read any more and every continuous buffer has an uploader.", "quantifier": "every configuration history, every set of uploads under way, every scheduling", "why_tests_cant": "A deadlock of three tasks needs one particular interleaving of an upload with a configuration update.", "anchors": ["bd-logger/src/consumer.rs: handle_buffer_event, CompleteBufferUpload", "bd-logger/src/service.rs: Uploader::call", "bd-buffer/src/ring_buffer.rs: Manager::update_from_config", "bd-shutdown/src/lib.rs: ComponentShutdownTrigger::shutdown"]}
{"id": "C80", "title": "Records pass through RAM to the file in order, once and complete", "statement": "Every record written to the file of an aggregate buffer is a committed record of its RAM buffer, byte for byte, in commit order and written once; with a non-overwriting file and a kept reader none of them is lost; a flush that returns has moved every record that was visible in RAM (unless it was overwritten there); the flush thread keeps running until shutdown and, left alone, empties the RAM buffer.", "quantifier": "every schedule of producers, the flush thread, readers of the file, flushes, locks and shutdown; every size of the two buffers that is accepted", "why_tests_cant": "Depends on the interleaving of the flush thread with producers and readers, and on corner sizes of records.", "anchors": ["bd-buffer/src/buffer/aggregate_ring_buffer.rs: flush_thread_func, RingBufferImpl::new, flush"]}
{"id": "C81", "title": "Shutdown saves what is in RAM and ends", "statement": "When shutdown of an aggregate buffer is past its flush, nothing is left in RAM: every record ever reserved was written to the file or had been overwritten, and no further record is accepted; shutdown ends whatever readers of the file do.", "quantifier": "every schedule of producers, the flush thread, readers of the file and shutdown", "why_tests_cant": "Needs a reader that goes away at a particular moment, or a record still in RAM at shutdown.", "anchors": ["bd-buffer/src/buffer/aggregate_ring_buffer.rs: RingBufferImpl::shutdown", "bd-buffer/src/buffer/non_volatile_ring_buffer.rs: ConsumerImpl drop"]}
{"id": "C82", "title": "Components are told to stop when asked, and shutdown waits for them", "statement": "A component that waits for shutdown is told exactly when shutdown was requested or everybody who could request it is gone, also if the component was made after the request; asking for the status says requested exactly after a request; a blocking shutdown returns exactly when no component holds a shutdown token any more, and never without a request.", "quantifier": "every interleaving of making, cloning, polling and dropping components, handles and the trigger with a request", "why_tests_cant": "The property is about every order of events in a watch channel with any number of participants.", "anchors": ["bd-shutdown/src/lib.rs: ComponentShutdownTrigger, ComponentShutdownTriggerHandle, ComponentShutdown"]}
{"id": "C83", "title": "Shutting down the logger stops it", "statement": "After shutdown of the logger, blocking or not, or after the logger is dropped, every component of it (event loop, API, uploader, buffers) is told to stop, and a blocking shutdown returns exactly when all have ended.", "quantifier": "every order of startup, polling, ending of the components, shutdown and drop of the logger", "why_tests_cant": "Depends on which handles stay alive somewhere in the process, which no single test looks at.", "anchors": ["bd-logger/src/logger.rs: Logger::shutdown", "bd-logger/src/builder.rs: build", "bd-logger/src/async_log_buffer.rs: AsyncLogBuffer::new", "bd-shutdown/src/lib.rs"]}
{"id": "C84", "title": "Periodic reports are paced by the configuration", "statement": "Resource utilization reports and periodic screen captures happen only while switched on, never closer together on average than the configured interval (less 5 ms of timer slack), are due again one interval after the last one or after a change of the interval, and no value of the runtime configuration stops the logger.", "quantifier": "every sequence of runtime updates, timer firings and restarts of the run loop, every interval", "why_tests_cant": "A statement about all timings and all orders of configuration updates.", "anchors": ["bd-resource-utilization/src/lib.rs: Reporter", "bd-session-replay/src/lib.rs: Recorder::run_with_shutdown, create_interval", "bd-runtime/src/runtime.rs: Watch"]}
{"id": "C85", "title": "Screenshots are taken one at a time", "statement": "The platform is not asked for a screenshot before the previous one was logged; a request made when nothing is pending is passed on if screenshots are enabled; every request is counted exactly once as success, disabled, not ready or channel full; screenshots keep working after one was lost.", "quantifier": "every interleaving of requests, screenshot logs, runtime updates and the run loop", "why_tests_cant": "Depends on the order in which two bounded channels are drained, and on screenshots that never arrive.", "anchors": ["bd-session-replay/src/lib.rs: Recorder, CaptureScreenshotHandler, ScreenshotLogInterceptor"]}
{"id": "C86", "title": "Platform events follow their switch", "statement": "When the listener has nothing left to notice, its last call was start exactly if the switch is on (or it was never started and the switch is off); every change of the switch is noticed; start and stop alternate.", "quantifier": "every sequence of runtime updates and looks of the run loop", "why_tests_cant": "Updates that coalesce between two looks are an interleaving unit tests do not exercise.", "anchors": ["bd-events/src/lib.rs: Listener", "bd-runtime/src/runtime.rs: Watch::changed"]}
{"id": "C87", "title": "A log carries the fields it should", "statement": "A log passed on has level, type and message of the call it comes from; under every name (other than the SDK's own) it carries the value of the first source that has that name, in the documented order of platform, call, global and custom fields; the global fields are those set by the accepted calls made before it, whatever happened since; for replay, resource and internal logs the provider's fields are for matching only.", "quantifier": "every interleaving of calls, global field changes, configurations, flushes and other threads; any field lists", "why_tests_cant": "The order of a global field change relative to queued logs and the merge of seven lists of fields are a product of cases no test enumerates.", "anchors": ["bd-logger/src/async_log_buffer.rs: process_log, run", "bd-logger/src/metadata.rs", "bd-logger/src/logger.rs: log, add_log_field, remove_log_field"]}
{"id": "C88", "title": "Accepted logs reach the pipeline once, in order", "statement": "Logs accepted by the channel are processed in the order of the calls, each exactly once: none is left when the loop has nothing to do; once a configuration has arrived the processing pipeline has seen, in order, every log that was written and not refused by the pre-config buffer, and none is held back after that.", "quantifier": "every interleaving of calls, configurations, the loop and its end; any pipeline", "why_tests_cant": "Spans the switch from pre-config buffering to the pipeline at any point of any history.", "anchors": ["bd-logger/src/async_log_buffer.rs: run, process_log, write_log, update, maybe_replay_pre_config_buffer_logs", "bd-logger/src/logging_state.rs"]}
{"id": "C89", "title": "Logs about the previous session are attributed to it, or to none", "statement": "A log with overridden session and time is written with them exactly if the session is the one of the previous process, and then says when it was really logged; otherwise it is not written and an internal log names both sessions; logs without override have the time at which they were taken.", "quantifier": "every history, every session strategy, any override", "why_tests_cant": "The previous session must survive everything that happens to the session state in between.", "anchors": ["bd-logger/src/async_log_buffer.rs: process_log, write_log_internal", "bd-session/src/lib.rs: previous_process_session_id"]}
{"id": "C90", "title": "Blocking calls return", "statement": "Blocking log and flush calls return in the order of the calls, each exactly once, not before they were served or the loop ended; if the loop ended, also by a panic, all have returned; with a provider that makes no calls the loop always gets to the end of its work in a number of steps bounded by the number of waiting messages.", "quantifier": "every interleaving, every place at which the loop can stop or panic", "why_tests_cant": "A caller that never returns hangs the application; tests only see the schedules they run.", "anchors": ["bd-logger/src/async_log_buffer.rs: enqueue_log, flush_state, run", "bd-completion/src/lib.rs"]}
{"id": "C91", "title": "A flush flushes", "statement": "When a blocking flush returns and the loop goes on, all logs accepted before it were processed before the flush began, and then, in this order, the stats flush was asked for and answered, the buffers were asked for and answered, the session state in memory was written to its store, and once configured the workflow state was persisted.", "quantifier": "every history, flushes that overlap calls of other threads", "why_tests_cant": "Ordering between five components under arbitrary interleavings.", "anchors": ["bd-logger/src/async_log_buffer.rs: run, AsyncLogBufferMessage::FlushState", "bd-session/src/lib.rs: flush"]}
{"id": "C92", "title": "The metadata provider cannot feed back into the logger", "statement": "Calls the metadata provider makes on the logger while the logger asks it for fields have no effect: state and everything visible are as if it had made none.", "quantifier": "any calls, any number, at any log of any history", "why_tests_cant": "Reentrancy from application code; tests try one call.", "anchors": ["bd-logger/src/logger.rs: with_thread_local_logger_guard, log, add_log_field, remove_log_field, flush_state", "bd-logger/src/metadata.rs: MetadataCollector"]}
{"id": "C93", "title": "Logs belong to the session the application sees", "statement": "After the application was told its session id, every log processed until it starts a new session carries this id (for the activity based strategy: as long as the clock neither goes back nor passes the inactivity threshold).", "quantifier": "every history, both strategies, any clock", "why_tests_cant": "The session is read when the log is taken from the queue, at a moment no test controls.", "anchors": ["bd-logger/src/async_log_buffer.rs: process_log", "bd-session/src/lib.rs", "bd-session/src/fixed.rs", "bd-session/src/activity_based.rs"]}
{"id": "C94", "title": "The internal report counts right", "statement": "The report attached to the periodic resource log gives, for every kind of log, the number of logs of that kind taken from the queue in all and since the last report, the reporting log included.", "quantifier": "every history; counters of 32 bits", "why_tests_cant": "Counts over unbounded histories and resets.", "anchors": ["bd-logger/src/internal_report.rs"]}
{"id": "C95", "title": "A log says offline when the device was", "statement": "A log of a type that carries the network quality has the field offline exactly if the last thing known about the network when it was taken, its own HTTP response included, is that it is offline; other types never carry it.", "quantifier": "every interleaving of quality updates, responses and logs", "why_tests_cant": "Two writers of one flag, raced by the loop.", "anchors": ["bd-logger/src/network.rs: NetworkQualityInterceptor, HTTPTrafficDataUsageTracker", "bd-network-quality/src/lib.rs"]}
{"id": "C96", "title": "What is sent on a stream arrives in order and on that stream only", "statement": "The blocks that leave on the request of a stream are those sent on it by the API task, in order and without a gap; the blocks the API task receives from a stream are those of its response, in order and without a gap, and the closure of a stream comes once and after all of them. While the request is open at most three blocks are on the way.", "quantifier": "every scheduling of the network task, the API task and the transport, any number of streams", "why_tests_cant": "Three queues and two tasks that open and drop streams independently; tests see a few schedulings.", "anchors": ["bd-hyper-network/src/lib.rs", "bd-api/src/api.rs: maintain_active_stream"]}
{"id": "C97", "title": "The network task lives until shutdown", "statement": "Whatever the server does, neither the network task nor the API task fails, and the network task does not end before the API task is done or shutdown is signalled.", "quantifier": "every scheduling, every behaviour of the server", "why_tests_cant": "The failures need a server that answers in an unusual order.", "anchors": ["bd-hyper-network/src/lib.rs: process_stream, handle_stream_event, StreamHandle", "bd-api/src/api.rs: wait_for_handshake"]}
{"id": "C98", "title": "A send of the API task completes", "statement": "A send of the API task to the network can always complete by steps of the network task and the transport, and shutdown ends both tasks.", "quantifier": "every reachable state", "why_tests_cant": "A wait cycle through three bounded channels; it needs seventeen unread responses.", "anchors": ["bd-hyper-network/src/lib.rs: send_data, start_stream, process_stream", "bd-api/src/api.rs: maintain_active_stream"]}
{"id": "C99", "title": "A unary call returns what the handler returned", "statement": "With any compression a unary gRPC call returns the message the server's handler returned for the message sent; if the handler fails the call fails with the same code and text; the handler is told the caller's headers.", "quantifier": "every message, header set, compression, and cutting of the bodies by HTTP", "why_tests_cant": "Client and server each choose the encoding from headers; tests use a few messages and never cut bodies.", "anchors": ["bd-grpc/src/lib.rs: Client::unary, common_request, unary_handler, decode_request, Status"]}
{"id": "C100", "title": "The end of a stream tells how the handler ended", "statement": "A caller that reads a server stream to its end gets exactly the messages the handler sent, in order, and then the end if the handler succeeded, or its code and text if it failed. A stream that was cut off is not taken for a complete one.", "quantifier": "every handler, every text, every cutting of the body", "why_tests_cant": "Depends on the bytes of error texts and on where a connection breaks.", "anchors": ["bd-grpc/src/lib.rs: server_streaming_handler, send_error, ServerStreamingApi::next"]}
{"id": "C101", "title": "A read stop holds a stream back and loses nothing", "statement": "Whenever the read stop is set and cleared, a reader returns the messages of the frames in order, none twice and none left out, and after the stop was set it takes at most one more frame until it is cleared.", "quantifier": "every interleaving of the reader, the body and the owner of the read stop", "why_tests_cant": "A race between the watch and the body.", "anchors": ["bd-grpc/src/lib.rs: ServerStreamingApi::next"]}
{"id": "C102", "title": "Streams are counted once", "statement": "Every streaming request is counted as one initiation and, when it is over, as one success or one failure; every message sent is counted.", "quantifier": "every sequence of requests and handlers", "why_tests_cant": "Error paths that return early.", "anchors": ["bd-grpc/src/lib.rs: server_streaming_handler, StreamStats"]}
{"id": "C103", "title": "A unary call ends within its timeout", "statement": "A unary call with a timeout returns, with the response or a timeout error, by the time the timeout has passed, and reports a timeout only then.", "quantifier": "every timing of permit, response and body", "why_tests_cant": "Needs a server that stalls in the middle of a response.", "anchors": ["bd-grpc/src/lib.rs: Client::unary"]}
{"id": "C104", "title": "An accepted message meets its rules", "statement": "When `validate` accepts a message, every rule declared on it and on every message inside it, at any depth and through singular, repeated and map fields, holds, with the meaning protoc-gen-validate gives the rules; required oneofs are set; no field has a rule that was not checked.", "quantifier": "every message of every shape and depth, every set of rules", "why_tests_cant": "Tests try each rule alone on a flat message; the claim is about all nestings and all rules.", "anchors": ["bd-pgv/src/proto_validate.rs: validate, validate_field and the rule functions"]}
{"id": "C105", "title": "A message that meets its rules is accepted", "statement": "When all the rules declared on a message and on every message inside it are among the supported ones and hold, `validate` accepts it.", "quantifier": "every message of every shape and depth, every set of supported rules", "why_tests_cant": "Needs the absence of any false alarm over all messages.", "anchors": ["bd-pgv/src/proto_validate.rs: validate, validate_field and the rule functions"]}
{"id": "C106", "title": "The first five unexpected errors are reported and the rest are counted", "statement": "Of the unexpected errors of a process, from whatever threads, exactly the first five before the handler is disabled are given to a reporter, each once and in the order they were raised, with their text; every other error raised while a counter is registered is counted once.", "quantifier": "every interleaving of errors, registrations, and disabling by any number of threads", "why_tests_cant": "The handler is global to the process, so tests run against it in parallel and cannot assert totals.", "anchors": ["bd-client-common/src/error.rs: UnexpectedErrorHandler::report, disable, register_stats"]}
{"id": "C107", "title": "An error goes to the reporter in force where it was raised", "statement": "A reported error goes to the reporter of the innermost `with_reporter` its thread is in, else to the reporter last set, else to the default one.", "quantifier": "every interleaving of scopes, settings and errors of any number of threads", "why_tests_cant": "Depends on nesting and on panics inside scopes.", "anchors": ["bd-client-common/src/error.rs: with_reporter, set_reporter, clear_reporter, report"]}
{"id": "C108", "title": "Reporting an error ends", "statement": "Reporting an unexpected error comes to an end, whatever reporter is set, and does not keep other threads from reporting or from changing the reporter.", "quantifier": "every interleaving, every reporter", "why_tests_cant": "A deadlock shows only when a reporter, or the session or metadata it asks for, comes upon an error itself.", "anchors": ["bd-client-common/src/error.rs: report, handle_unexpected_error_with_details"]}
{"id": "C109", "title": "Reports carry the session and the metadata", "statement": "The metadata reporter passes on the session id, every metadata entry under its name with dashes, and the fields it was given.", "quantifier": "every field set and metadata", "why_tests_cant": "Names can fall together after the underscores are replaced.", "anchors": ["bd-client-common/src/error.rs: MetadataErrorReporter::report"]}
{"id": "C110", "title": "The configuration follows its file", "statement": "Once the loader has dealt with all notifications, its snapshot is what the watched file contains, whatever swaps happened while it was being made or was loading; it always gets there by its own steps; for feature flags there is always a snapshot.", "quantifier": "every interleaving of changes to the file system with the loader's steps", "why_tests_cant": "A change between reading a file and publishing it, or between the watch and the first read, needs exact timing.", "anchors": ["bd-runtime-config/src/loader.rs: new_loader, load_config", "bd-runtime-config/src/feature_flags.rs: new_memory_feature_flags_loader"]}
{"id": "C111", "title": "Every load is counted once", "statement": "The three load counters together are one for the making of the loader and one for each swap of the file.", "quantifier": "every interleaving", "why_tests_cant": "Same as C110.", "anchors": ["bd-runtime-config/src/loader.rs: load_config, Stats"]}
{"id": "C112", "title": "A feature is on for its share of draws", "statement": "A feature whose flag is the number i is on for exactly i of every 10000 consecutive random numbers, always from 10000 on, never at 0; raising the number never turns off a feature for a draw it was on for.", "quantifier": "every number, every range of draws", "why_tests_cant": "It is about the distribution over all 2^64 draws.", "anchors": ["bd-runtime-config/src/feature_flags.rs: feature_enabled"]}
{"id": "C113", "title": "After shutdown the loader is quiet", "statement": "shutdown returns, and once it has returned the snapshot does not change.", "quantifier": "every interleaving of callers, the task and the file system", "why_tests_cant": "Two callers at once, with notifications still queued.", "anchors": ["bd-runtime-config/src/loader.rs: shutdown"]}
{"id": "C114", "title": "A Sankey path is uploaded only as recorded and only after the server's consent", "statement": "Each Sankey upload request carries the id, path id and nodes of the path the engine emitted, and is made only right after the server was asked about exactly that path and answered that it wants it.", "quantifier": "every interleaving of the engine, the Sankey task and the API task; every sequence of server answers and failures", "why_tests_cant": "The negotiation spans several awaits with failures possible at each; tests script single exchanges.", "anchors": ["bd-workflows/src/sankey_diagram.rs: process_sankey, handle_upload_intent_decision, upload_sankey_path, perform_upload_intent_negotiation"]}
{"id": "C115", "title": "A Sankey path is offered to the server until it is settled, and not again while remembered", "statement": "A path among the last hundred settled ones (dropped by the server, or stored by it) is not offered again; any other path that is taken is offered and, if wanted, uploaded. A path the server failed to store is not settled: when it comes again it is offered again.", "quantifier": "every interleaving, every sequence of answers, any number of paths", "why_tests_cant": "Depends on long histories (over a hundred paths) and on failed uploads answered by the server.", "anchors": ["bd-workflows/src/sankey_diagram.rs: ProcessedIntents, process_sankey, upload_sankey_path", "bd-api/src/upload.rs: resolve_pending_upload"]}
{"id": "C116", "title": "Different Sankey paths do not stand in for each other", "statement": "Whether a path is offered to the server does not depend on other paths of the diagram with other nodes.", "quantifier": "all paths, all histories", "why_tests_cant": "Two node lists with the same concatenation have to be found; tests use one set of values.", "anchors": ["bd-workflows/src/workflow.rs: SankeyPath::calculate_path_id", "bd-workflows/src/sankey_diagram.rs: ProcessedIntents"]}
{"id": "C117", "title": "Sankey paths are processed in order and every one is accounted for", "statement": "Paths are taken in the order of their emission; a path is lost on the way only when ten others wait; each path taken is counted as exactly one of already processed, dropped, failed request or upload, and each upload as a success or a failure.", "quantifier": "every interleaving, every sequence of answers and failures, the API task ending at any time", "why_tests_cant": "A sum over counters at all intermediate states of all schedules.", "anchors": ["bd-workflows/src/engine.rs: process_log (sankey_processor_input_tx)", "bd-workflows/src/sankey_diagram.rs: Processor, Stats"]}
{"id": "C118", "title": "A server stops in order: only when told to, and after its connections", "statement": "serve_with_connect_info runs until its shutdown future is ready; then it accepts nothing, tells every open connection once to finish, and returns when all have ended, with the active gauge back where it was. The total counter counts the accepted connections, the active gauge those that have not ended.", "quantifier": "every interleaving of accepts, ends of connections, failures to accept and the shutdown; any number of connections", "why_tests_cant": "A concurrent accept loop with one task per connection; tests open one connection.", "anchors": ["bd-grpc/src/axum_helper.rs: serve_with_connect_info_ex", "bd-shutdown/src/lib.rs: ComponentShutdownTrigger::shutdown, ComponentShutdown::cancelled", "bd-server-stats/src/stats.rs: AutoGauge"]}
{"id": "C119", "title": "The device keeps its id", "statement": "All calls of Device::id return the same text, in one process from any thread and over restarts of the process.", "quantifier": "all histories of calls, restarts, other uses of the store and faults of the storage", "why_tests_cant": "Needs all combinations of failing reads and writes over several processes.", "anchors": ["bd-device/src/lib.rs: Device::id", "bd-key-value/src/lib.rs: Store::get, Store::set"]}
{"id": "C120", "title": "The same metric is asked for by the same kind, name and labels, and shows all that was done to it", "statement": "Two requests for a counter, gauge or histogram get one metric exactly if kind, full name and final labels agree; a gathering shows for each metric all operations on any of its handles, and shows no others.", "quantifier": "all sequences of requests and operations of all threads, all names and labels, all scopes", "why_tests_cant": "Sharing through two caches and a registry for all pairs of requests.", "anchors": ["bd-server-stats/src/stats.rs: Scope::counter_with_labels, gauge, histogram_ex, Collector::gather"]}
{"id": "C121", "title": "Asking for a metric does not panic", "statement": "A request for a metric whose name and labels are valid gets a metric, whatever was requested before.", "quantifier": "all sequences of requests", "why_tests_cant": "The requests that clash may be far apart in a program; a test makes the ones its author thought of.", "anchors": ["bd-server-stats/src/stats.rs: Scope::counter_with_labels, gauge, histogram_ex, counter_vec, LabeledMetricBuilder::build_generic"]}
{"id": "C122", "title": "A metric is named by its scopes and carries their labels", "statement": "The name of a metric is made of the non-empty names of its nested scopes and its own, joined with colons; its labels are those of its scopes and its own, the innermost winning.", "quantifier": "all chains of scopes, all metrics made in them", "why_tests_cant": "Unbounded nesting with empty names and overriding labels.", "anchors": ["bd-server-stats/src/stats.rs: Scope::metric_name, scope_with_labels, final_labels, counter_vec"]}
{"id": "C123", "title": "A histogram has the buckets asked for", "statement": "histogram_with_buckets returns a histogram with those buckets.", "quantifier": "all sequences of requests", "why_tests_cant": "Depends on requests made elsewhere before.", "anchors": ["bd-server-stats/src/stats.rs: Scope::histogram_ex, histogram_with_buckets"]}
{"id": "C124", "title": "Pings", "statement": "While a stream to the server is up, a ping is sent one ping interval after the handshake or after the last pong, never earlier, and at most one ping is outstanding: after a ping the next one is scheduled only by a pong. A stream whose handshake named no interval, or a negative one, is never pinged.", "quantifier": "every execution of the API task: all schedules of time, network events, uploads, runtime changes and shutdown", "why_tests_cant": "The tests drive a mocked clock through one or two pings; the claim ranges over all interleavings of pongs, other responses and time.", "anchors": ["bd-api/src/api.rs:202-240", "bd-api/src/api.rs:717-744", "bd-api/src/api.rs:769-780"]}
{"id": "C125", "title": "A dead connection is noticed", "statement": "A stream whose server does not answer a ping is given up and replaced.", "quantifier": "every execution of the API task in which a ping stays unanswered, for any time", "why_tests_cant": "No test lets a ping go unanswered; that nothing ever happens afterwards is a statement about all later times.", "anchors": ["bd-api/src/api.rs:225-240", "bd-api/src/api.rs:717-730"]}
{"id": "C126", "title": "Logs are marked offline only when the connection has been down", "statement": "The network quality is offline, and logs are marked so, only if no stream to the server has been up for more than 15 seconds and the app got no HTTP response since the last attempt to connect. While a stream is up the quality is online.", "quantifier": "every execution of the API task, with HTTP responses seen by the logger at any time", "why_tests_cant": "Depends on the order of attempts, closures, waits and responses over unbounded time.", "anchors": ["bd-api/src/api.rs:78-80", "bd-api/src/api.rs:591-604", "bd-api/src/api.rs:711-713", "bd-logger/src/network.rs:71-86", "bd-logger/src/network.rs:345-387"]}
{"id": "C127", "title": "Being offline is noticed", "statement": "When no stream to the server has been up for more than 15 seconds, the network quality is offline.", "quantifier": "every execution of the API task", "why_tests_cant": "The quality is only looked at when an attempt begins; how long an attempt or a wait lasts is not bounded by any test.", "anchors": ["bd-api/src/api.rs:554-604", "bd-api/src/api.rs:660-683", "bd-api/src/api.rs:745-759"]}
{"id": "C128", "title": "Reconnects do not storm", "statement": "If the backoff's initial and largest intervals are at least 2g (and g at most a minute), any n+1 streams started in a row span at least n times g, whatever the server does; a stream that was up for more than a minute is replaced at once.", "quantifier": "every execution of the API task, every g, every window of streams, with runtime changes of the intervals at any time", "why_tests_cant": "A bound on all windows of all executions, including servers that accept and close at once.", "anchors": ["bd-api/src/api.rs:554-572", "bd-api/src/api.rs:614-618", "bd-api/src/api.rs:673-683", "bd-api/src/api.rs:745-759", "bd-api/src/api.rs:994-1006"]}
{"id": "C129", "title": "A closed stream is replaced in bounded time", "statement": "After a stream ends, the next one is started after a delay of at most one and a half times the largest interval configured (plus a nanosecond); for n+1 streams in a row that ended within a minute the delay is drawn from the interval initial * 1.5^n, capped at the maximum: at least half of it and at most one and a half of it.", "quantifier": "every execution of the API task; for the growth: executions without changes of the intervals", "why_tests_cant": "Quantifies over numbers of failures and all random delays.", "anchors": ["bd-api/src/api.rs:554-572", "bd-api/src/api.rs:745-759", "bd-api/src/api.rs:994-1006"]}
{"id": "C130", "title": "The server is told why the last stream ended", "statement": "Each handshake request carries the reason for which the stream before it ended, the first one none; the counters of streams, of failed connects and of error shutdowns count exactly those.", "quantifier": "every execution of the API task", "why_tests_cant": "The link between closures and later handshakes spans waits, failed attempts and kills.", "anchors": ["bd-api/src/api.rs:332-359", "bd-api/src/api.rs:591-592", "bd-api/src/api.rs:620", "bd-api/src/api.rs:652-656", "bd-api/src/api.rs:673-683", "bd-api/src/api.rs:745-750", "bd-api/src/api.rs:894-912"]}
{"id": "C131", "title": "The SDK's own logs say what the SDK measured", "statement": "A resource, screen, screenshot, start or update log has its documented level, type and message, the caller's fields, and in its out-of-the-box fields the measured duration, the SDK's version, the install size and the previous version, after the interceptors and the metadata were applied.", "quantifier": "every history of calls, every fields of the caller and the platform's provider, every log buffer state", "why_tests_cant": "Depends on the fields the caller and the provider add; a unit test fixes them.", "anchors": ["bd-logger/src/logger.rs:158-327", "bd-logger/src/metadata.rs:71-129"]}
{"id": "C132", "title": "An application update is logged", "statement": "When the application's version changed, exactly one AppUpdated log with the version before reaches the log buffer, however often the application calls.", "quantifier": "every history of calls by any threads, every answer of the channel, inside and outside the guard", "why_tests_cant": "Whether the log gets through depends on how full the channel is at that moment; that it never gets through later is a statement about all later calls.", "anchors": ["bd-logger/src/logger.rs:250-327", "bd-logger/src/app_version.rs:66-99"]}
{"id": "C133", "title": "The logger's calls are counted", "statement": "Each call that offers a message to the log buffer is counted once, by its kind and by the channel's answer; calls refused by the guard are counted nowhere; every capture of a screen is in the duration histogram once.", "quantifier": "every history of calls by any threads, every answer of the channel", "why_tests_cant": "Counters over arbitrary histories with guards, answers and version changes.", "anchors": ["bd-logger/src/logger.rs:36-73", "bd-logger/src/logger.rs:117-156", "bd-logger/src/logger.rs:191-220", "bd-logger/src/logger.rs:329-376", "bd-logger/src/memory_bound.rs:203-241"]}
{"id": "C134", "title": "The guard holds off its own thread only, and only while it is held", "statement": "Calls of a thread inside its guard send nothing, change no counter and no session, flushes aside; calls of all other threads, and of the thread after it left, take effect; entering twice panics.", "quantifier": "every history of calls, entries and exits by any threads", "why_tests_cant": "Interleavings of any number of threads.", "anchors": ["bd-logger/src/logger.rs:75-98", "bd-logger/src/logger.rs:127-155", "bd-logger/src/logger.rs:329-394"]}
{"id": "C135", "title": "Continuous buffers deliver their records in order, and keep them until the attempt has ended", "statement": "The records of the batches the upload task sends, followed by those it collects, are the first records that were written to the file of the buffer, in the order and with the bytes they were written, none skipped, none twice; batches respect the limits. Records leave the file oldest first and only after the attempt to upload their batch was answered; the buffer never fails the task, which returns only when it was asked to stop.", "quantifier": "every interleaving of producers, flush thread, upload task, answers of the service, timers, changes of the limits and shutdown; all sizes and contents", "why_tests_cant": "Interleavings of two threads, a task and a service over a shared file; the tests use one schedule each and mock either side.", "anchors": ["bd-logger/src/consumer.rs:260-272", "bd-logger/src/consumer.rs:421-542", "bd-buffer/src/buffer/aggregate_ring_buffer.rs:1-291"]}
{"id": "C136", "title": "Every record committed to a continuous buffer is eventually uploaded", "statement": "Without a shutdown, when the flush thread, the upload task and the upload service keep getting their turns, every record that is visible in the RAM buffer or in the file ends up in a batch whose upload was answered, in order and byte for byte, each exactly once, and both buffers are empty.", "quantifier": "every history of producers, flush thread and upload task; every later sequence of turns, in any order and multiplicity; all limits and answers; all sizes and contents", "why_tests_cant": "Liveness over all fair interleavings of two threads, a task and a service; tests run one schedule with a mocked side.", "anchors": ["bd-logger/src/consumer.rs:421-542", "bd-buffer/src/buffer/aggregate_ring_buffer.rs:1-291", "bd-buffer/src/buffer/volatile_ring_buffer.rs:1-400"]}
{"id": "C137", "title": "Matching fields are used for matching only", "statement": "Fields that an application or the SDK gives as matching fields never leave the device by themselves: every field of every record that a log leaves in a buffer or in a live stream is a captured field of the log, or was made by a filter transform of the configuration received last from texts of the configuration, the message, level, type and captured fields; a value of a matching field gets into a record only if a transform captures that field or copies it to a captured one. The same is expected of what is reported beside the records: the tags and values of metrics and the nodes of Sankey paths.", "quantifier": "for all histories of configurations, flags, logs and flushes; all filters, workflows, logs and regex engines", "why_tests_cant": "Which values end up in records depends on chains of transforms over the two lists of fields and on three separate lookups of fields (filters, metrics, paths); the tests check single transforms and single metrics.", "anchors": ["bd-log-primitives/src/lib.rs:186-217", "bd-matcher/src/lib.rs:39-64", "bd-log-filter/src/lib.rs:186-417", "bd-workflows/src/metrics.rs:36-123", "bd-workflows/src/workflow.rs:885-907", "bd-logger/src/log_replay.rs:204-493"]}
{"id": "C138", "title": "A flush never stops the SDK for good", "statement": "When the buffers are flushed (a blocking log, flush_state, or a workflow's flush action), the flush of a continuous buffer returns: the records in RAM reach the file and the SDK's thread goes on logging, uploading and talking to the server.", "quantifier": "all buffer sizes, all schedules of producers, flush thread and upload task before the flush, all record contents, all points at which the flush may be made; no bound on the number of records or steps", "why_tests_cant": "The flush waits on a condition variable on the one thread all tasks of the SDK share. Tests of the buffer flush from a thread of their own, tests of the logger never fill the file of a continuous buffer; whether the thread that must make room can still run is a question about all schedules.", "anchors": ["bd-buffer/src/ring_buffer.rs:191-230", "bd-buffer/src/buffer/aggregate_ring_buffer.rs:54-112", "bd-buffer/src/buffer/aggregate_ring_buffer.rs:236-238", "bd-buffer/src/buffer/common_ring_buffer.rs:635-667", "bd-buffer/src/buffer/common_ring_buffer.rs:845-861", "bd-logger/src/builder.rs:244-256", "bd-logger/src/builder.rs:262-297"]}
{"id": "C139", "title": "Being offline never stops logging", "statement": "Whatever the network does - no connection, failing attempts, a refused API key, a connection that works - the SDK keeps taking the calls of the application in order, and calls that block (blocking logs, flush_state) return, without anything having to come from the network.", "quantifier": "all histories of calls, configurations, uploads, connects, disconnects and kills in any interleaving, all capacities of the log channel, with and without statistics; no bound on the number of calls or steps", "why_tests_cant": "The log loop waits for the statistics, the statistics for room in the channel of the connection, and the connection for the log loop to take a configuration; each part is tested alone or with a server that answers. Whether some interleaving leaves a part waiting for good is a question about all of them together.", "anchors": ["bd-logger/src/builder.rs:115-119", "bd-logger/src/builder.rs:244-260", "bd-logger/src/async_log_buffer.rs:243-352", "bd-logger/src/async_log_buffer.rs:562-668", "bd-logger/src/log_replay.rs:301-367", "bd-client-stats/src/stats.rs:131-164", "bd-client-stats/src/stats.rs:338-342", "bd-client-stats/src/lib.rs:61-86", "bd-api/src/api.rs:592-763", "bd-api/src/api.rs:877-884", "bd-logger/src/client_config.rs:243-302"]}
{"id": "C140", "title": "Shutting down ends the SDK and releases every caller", "statement": "After a request to shut down, the log loop, the statistics and the connection end, and every application thread that waits for a blocking call is released, exactly once, in the order of the calls.", "quantifier": "all histories before and after the request, all capacities, all connection states; no bound on the number of calls or steps", "why_tests_cant": "Parts that wait for each other do not look at the shutdown while they wait; tests shut down an SDK at rest. Only an argument over all states the parts can be in together shows which of them can end.", "anchors": ["bd-logger/src/builder.rs:244-260", "bd-logger/src/async_log_buffer.rs:562-668", "bd-client-stats/src/stats.rs:131-164", "bd-client-stats/src/stats.rs:338-342", "bd-api/src/api.rs:555-568", "bd-api/src/api.rs:610-616", "bd-api/src/api.rs:720-727", "bd-logger/src/client_config.rs:243-302"]}
{"id": "C141", "title": "Trouble with the backend does not end logging", "statement": "As long as the application does not shut the SDK down, a call is accepted whenever the log channel has room; a failed write to the network or an answer of the backend that cannot be understood does not end logging.", "quantifier": "all histories of calls, configurations, uploads, connects, disconnects, kills and failures, all capacities; no bound on the number of calls or steps", "why_tests_cant": "All parts run in one try_join: an error returned by the connection drops the log loop. Tests of the connection look at its result, tests of the logger never make it fail.", "anchors": ["bd-logger/src/builder.rs:244-260", "bd-api/src/api.rs:640-763", "bd-api/src/api.rs:771-890", "bd-logger/src/async_log_buffer.rs:243-310"]}
{"id": "C142", "title": "A log call ends up in the buffers that the configuration in force names", "statement": "Take the logging loop together with the processing pipeline it drives. Every log the loop passes on, whether at once or replayed from the memory of the time before the first configuration, is filtered by the filters of the configuration received last (if the filter flag is on) and is handed, exactly once, to each buffer that the matchers of that configuration name. Without workflows these are all the buffers that get it; with workflows a streaming action may send it elsewhere and a flush may add one copy. No log that some buffer wants is lost, the buffers get their records in the order of the calls, and nothing but logs makes records.", "quantifier": "for all histories of calls, configurations, flags, flushes and turns of the pipeline, all configurations, all logs and all state files found at the start", "why_tests_cant": "a test fixes one configuration and a few logs; the claim is about any interleaving of configurations, flags, replays and logs", "anchors": ["bd-logger/src/async_log_buffer.rs:354-551", "bd-logger/src/async_log_buffer.rs:562-668", "bd-logger/src/log_replay.rs:107-317"]}
{"id": "C143", "title": "A blocking log call has its log on disk when it returns", "statement": "When a log call that waits returns, and the loop has not ended, the records of the log have been written to their buffers and those buffers flushed, and the state of the workflows is saved; otherwise the provider failed. The claim fails before the first configuration (the log is only in memory), for a log whose session override is refused (its replacement is written without a flush), and for records a streaming action sends elsewhere.", "quantifier": "for all histories, all configurations, all blocking log calls", "why_tests_cant": "needs the interleaving of the caller, the loop and the pipeline for all configurations; tests check one call", "anchors": ["bd-logger/src/async_log_buffer.rs:354-506", "bd-logger/src/log_replay.rs:204-370"]}
{"id": "C144", "title": "A blocking flush of the state saves the workflows", "statement": "When a blocking flush_state returns and the loop has not ended, every log accepted before it was dealt with, and the state of the workflow engine as these logs left it was written to its file, unless it was not marked as changed. A write that is torn is not repeated by the next flush.", "quantifier": "for all histories and all configurations", "why_tests_cant": "the claim is about all interleavings of logs, configurations and flushes", "anchors": ["bd-logger/src/async_log_buffer.rs:618-653", "bd-workflows/src/engine.rs:429-440"]}
{"id": "C145", "title": "An asynchronous read of a log buffer is woken whenever there is something to read, and otherwise lets other tasks run", "statement": "The asynchronous read of a consumer never waits while a record is there that it could return: whatever the producers and other threads do between its moves, if a record is available the read returns it after a bounded number of its own moves, even when the record is committed between the reader's look at the notification channel and its wait. When no record is available the read yields to other tasks after a bounded number of its own moves. This holds for the consumers of memory buffers, of file buffers, and for cursors that read ahead, and whether or not earlier reads were abandoned.", "quantifier": "for all capacities, all initial file contents of valid form, all interleavings of calls of producers, lock holders and shutdown with the moves of the reader, all points at which a read is abandoned", "why_tests_cant": "A lost wake-up or a busy loop needs a commit to fall between two particular instructions of the reader; unit tests either start the read after the commit or long before it, and none exercises a cursor on a damaged file.", "anchors": ["bd-buffer/src/buffer/volatile_ring_buffer.rs:269-304", "bd-buffer/src/buffer/non_volatile_ring_buffer.rs:330-364", "bd-buffer/src/buffer/non_volatile_ring_buffer.rs:507-546", "bd-buffer/src/buffer/common_ring_buffer.rs:529-543", "bd-buffer/src/buffer/common_ring_buffer.rs:736-842"]}
{"id": "C146", "title": "Records that a buffer refuses are counted", "statement": "The counter of refused records of a buffer is the number of reservations that failed although their producer held no other, and the counter of refused bytes is the sum of their sizes (a record of impossible size counts no bytes). Nothing else changes these counters.", "quantifier": "for all capacities and histories of calls by any number of producers, consumers, lock holders; for file buffers all initial files, including damaged ones, and crashes", "why_tests_cant": "The counters are changed at six places of the reserve path and one of them is shared with damage handling; tests look at a counter after one refusal of one kind, while the claim is about every mixture of refusals with other calls.", "anchors": ["bd-buffer/src/buffer/mod.rs:44-60", "bd-buffer/src/buffer/common_ring_buffer.rs:366-412", "bd-buffer/src/buffer/common_ring_buffer.rs:477-528", "bd-buffer/src/buffer/common_ring_buffer.rs:686-694", "bd-buffer/src/buffer/volatile_ring_buffer.rs:85-122", "bd-buffer/src/buffer/non_volatile_ring_buffer.rs:103-158"]}
{"id": "C147", "title": "A workflow runs as its definition says", "statement": "A workflow definition sent by the server is accepted exactly if it is complete: it has a state, each transition names an existing state and has a rule with a valid matcher, its actions and extensions are complete, and no limit or bound in it is zero. A definition that is not complete costs only itself: the others of the list are accepted. The accepted workflow has the states, transitions, rules, actions, sets of buffers, smallest stream bound, diagram limit and limits of the definition; if several states have the same name a transition leads to the last of them.", "quantifier": "all workflow definitions and all lists of them", "why_tests_cant": "Definitions are trees of optional parts of any size; tests check a few missing parts, not that completeness is the exact condition, nor that every part of an accepted definition is what the server sent.", "anchors": ["bd-workflows/src/config.rs:56-640"]}
{"id": "C148", "title": "The engine's own counters balance with what it runs", "statement": "The counters that the workflows engine reports about itself agree with what it runs. Workflows counted as started minus those counted as stopped are the workflows that run. Runs counted as started minus stopped minus completed are the runs that exist, and the same for traversals. For each log a hit of the traversal limit is counted for each workflow that needed a new run and got none; besides these only stopped runs count as hits.", "quantifier": "all configurations, limits, state files and histories of logs, updates, negotiations, flushes and writes of the state", "why_tests_cant": "The counters are spread over five functions and a drift shows only in the sum over a whole history; tests look at single counters after a few logs.", "anchors": ["bd-workflows/src/engine.rs:210-420", "bd-workflows/src/engine.rs:547-645", "bd-workflows/src/engine.rs:757-766", "bd-workflows/src/workflow.rs:120-440"]}
{"id": "C149", "title": "Statistics that are due are sent one after the other; those that are not wait", "statement": "The tick of the upload interval sends the oldest stored file of statistics that can be read, with its content and the period it covers, which ends now if it was still open. The confirmation of an upload releases the next file that can be read exactly if it and those before it are past their aggregation window; otherwise nothing is sent before the next tick. Whatever fails, an answer never releases a file whose window is not over, and nothing is sent whose period is still open.", "quantifier": "all histories of flushes, ticks, answers, restarts, read errors and crashes at any write; the safety part for all states and all failures including write errors", "why_tests_cant": "Whether a file is due depends on the time of the answer against the start of each of the files in a queue of any length, some of which may be damaged; tests have one or two files and fixed times.", "anchors": ["bd-client-stats/src/file_manager.rs:339-405", "bd-client-stats/src/stats.rs:131-166", "bd-client-stats/src/stats.rs:285-370"]}
{"id": "C150", "title": "An approved action asks once for the flush of its buffers", "statement": "When the server has approved the upload of a flush action, the engine asks for the flush of exactly the trigger buffers of that action, once, unless an earlier flush for the same action is still under way. Of the requests made for one action at most one is unanswered at any time, at most ten requests wait, every waiting request was made for an approved action, and nothing but an approval asks for a flush. Does not hold in full: if ten requests wait when an approval is dealt with, the action is forgotten without a flush.", "quantifier": "all configurations, limits, state files and histories of logs, negotiations, approvals, answers of flushes in any order, updates, writes of the state and restarts", "why_tests_cant": "Which approvals ask for a flush depends on the answers to all earlier requests, which come in any order and may never come; tests have one or two actions and answer at once.", "anchors": ["bd-workflows/src/engine.rs:471-543"]}
{"id": "C151", "title": "The memory limits of the log queues bound what the queued messages hold", "statement": "The size with which a message is counted covers what it holds: in every interleaving of senders and the receiver, the texts and binary data of the messages in the channel of the logger are within its memory capacity, and those of the logs kept before the configuration arrives are within that buffer's limit; so is the memory on the heap if strings have no spare capacity. Does not hold in full: the session id of an override is not counted, nor is the spare capacity of strings.", "quantifier": "all messages (any numbers of fields, any lengths and capacities), all interleavings of senders and receiver, all histories before a configuration, all sizes of the types on a target", "why_tests_cant": "Counted and real sizes are computed by different formulas over nested containers of any size; tests compare single values with recorded numbers and never fill a channel with overrides.", "anchors": ["bd-logger/src/size.rs:19-60", "bd-logger/src/async_log_buffer.rs:52-62", "bd-logger/src/async_log_buffer.rs:106-136", "bd-logger/src/memory_bound.rs:27-205", "bd-logger/src/pre_config_buffer.rs:30-81"]}
{"id": "C152", "title": "The handshake tells the server what is in force and why the last stream ended", "statement": "Whatever streams came before, a new stream is opened with one handshake that carries: the metadata of the platform, in which the system, the kind, the version of the SDK and that of the configuration are the SDK's own whatever the application supplies under those names; the reason why the stream before it ended, with the message of the server if it refused; and the last versions of the runtime and of the configuration that were taken, or those loaded at the start. Its headers name the key, the application of the metadata, and the compression exactly if it is on. A client that the server does not recognise opens no more streams.", "quantifier": "all platforms and metadata, all initial versions, all histories of streams (opened, answered, closed at any point, refused, versions taken)", "why_tests_cant": "The contents of a handshake depend on the whole history of streams and versions; tests look at the first handshakes of a few fixed histories.", "anchors": ["bd-metadata/src/lib.rs:14-70", "bd-api/src/api.rs:575-760", "bd-api/src/api.rs:893-913", "bd-api/src/api.rs:106-111", "bd-logger/src/client_config.rs:206-211"]}
{"id": "C153", "title": "The runtimes of a process have as many threads as the processors it was given", "statement": "A process without a number in NUM_CPUS has runtimes with as many threads as the host reports when the first is made, kept within 1 and 4096, and all its runtimes are alike whatever changes later. With a number in NUM_CPUS they have that many. Does not hold in full: any number in NUM_CPUS makes the process ask for as many threads as the address of a function says.", "quantifier": "all values of the variable, all hosts, all later changes of both, all addresses", "why_tests_cant": "A test runs on one host with one environment, and none sets the variable.", "anchors": ["bd-rt/src/lib.rs:15-90"]}
{"id": "C154", "title": "Statistics are flushed and uploaded at the pace of the configuration", "statement": "While the interval is not changed, the k-th tick of the statistics task does not come before k intervals have gone by and comes at the first poll after k+1 intervals at the latest; a changed interval sets the pace from then on; no value of the interval stops the task. Does not hold in full: an interval of zero makes the task panic, and an interval that is changed more often than it elapses may keep ticks away for any length of time.", "quantifier": "all intervals, all draws of the initial wait, all schedules of polls and changes", "why_tests_cant": "The ticks depend on the interleaving of timer, changes and random waits; the tests replace the ticker by one they control.", "anchors": ["bd-client-stats/src/stats.rs:42-80", "bd-client-stats/src/stats.rs:131-165", "bd-time/src/lib.rs:131-136", "bd-runtime/src/runtime.rs:96-103"]}
{"id": "C155", "title": "Metrics whose labels come late count everything, under the labels of their first use", "statement": "A late initialized counter of a labeled vector counts, from its first use on, under the labels given at that use, or under the overflow mark in place of all of them; it keeps that series whatever labels are given later, and counters of one vector that were first used with equal labels share one series. Every series shows exactly the sum of what was counted through its counters, and every vector the sum over all of its counters, overflow included. A use panics only if the number of labels at the first use is wrong.", "quantifier": "all vectors and label names, all limits of labels, all programs of making and using counters with any labels", "why_tests_cant": "Which series a counter gets depends on all labels tracked before it in any vector; tests use a few labels and one vector.", "anchors": ["bd-server-stats/src/stats.rs:81-114", "bd-server-stats/src/stats.rs:215-322"]}
{"id": "C156", "title": "A scrape shows every collector after its callbacks, and gauges count what lives", "statement": "A scrape of a collector ends, and shows its metrics and those of the collectors chained to it, each at its place in the order of chaining and after its callbacks have run; a gauge that is changed by its guards only shows the number of guards alive. Does not hold in full: a collector that is chained to itself makes the scrape wait for ever, and the callback of a chained collector comes too late for the metrics of the collector it is chained to.", "quantifier": "all graphs of chained collectors, all callbacks (any functions on the values), all values, all histories of guards", "why_tests_cant": "Order and termination depend on the whole graph of collectors; tests chain one collector to one other.", "anchors": ["bd-server-stats/src/stats.rs:596-645", "bd-server-stats/src/stats.rs:647-694"]}
{"id": "C157", "title": "A call reaches the method it is for", "statement": "A service method can be named exactly if the file of definitions defines it with the types of the caller; its path is the one that gRPC asks for; different methods have different paths, so that a server can register any set of different methods and a call of one of them reaches its handler. Does not hold in full: without a package the path has a dot in front of the service, which is not the path that gRPC asks for.", "quantifier": "all files of definitions, all names that protobuf allows, all sets of registered methods", "why_tests_cant": "Tests use one service of one package.", "anchors": ["bd-grpc/src/lib.rs:361", "bd-grpc/src/lib.rs:1099-1158", "bd-grpc/src/lib.rs:1162-1238"]}
{"id": "C158", "title": "A record tells its log", "statement": "The record that the output is given for a log is read as that log and nothing else: its level, type, message, fields in their order, session, ids of flush actions and streams, and its time to the nanosecond, with nanoseconds from zero to below a second also for times before 1970. One builder serves any sequence of logs, whatever the outputs answer: it never panics, no record has anything of another log, and the answer of the output is passed on.", "quantifier": "all logs with any text and binary values, all times, all sequences of logs and of answers of the outputs", "why_tests_cant": "Tests read back a few records with times after 1970, mostly made by a new builder.", "anchors": ["bd-client-common/src/fb.rs:37-149", "bd-logger/src/log_replay.rs:382-392", "bd-logger/src/log_replay.rs:462-472"]}
{"id": "C159", "title": "A response of the server reaches the one it is for", "statement": "When responses of the server are handled without an error, each configuration pipeline has applied the updates of its kind and nothing else, in their order, and exactly one acknowledgement went out for each, of its kind and in their order; each upload and each intent was resolved, and each flush of buffers asked for. An error comes at one response: all before it are handled so, none after it; only a spurious handshake or a failing call makes one. Does not hold in full: an opaque configuration update is neither applied nor acknowledged.", "quantifier": "all sequences of responses, both orders of the pipelines, all patterns of failing calls", "why_tests_cant": "Tests push one update of one kind at a time.", "anchors": ["bd-api/src/payload_conversion.rs:24-128", "bd-api/src/api.rs:86-100", "bd-api/src/api.rs:769-892", "bd-logger/src/client_config.rs:175-200"]}
{"id": "C160", "title": "A panic is reported once and ends the process if that was asked for", "statement": "After any calls that configure the panic handler, a panic is reported exactly once and before anything else, as a backtrace or, with LOG_PANIC set, as one line with its text and place; if forcing an exit was asked for, the process then ends with code 1. Does not hold in full: a later call that does not ask for it takes it back.", "quantifier": "all sequences of calls with any environment, all panics", "why_tests_cant": "A handler is global and a forced exit ends the test; the only test checks that the calls do not panic.", "anchors": ["bd-panic/src/lib.rs:26-85"]}
