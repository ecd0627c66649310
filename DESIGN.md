# Formal model of shared-core: design

Rocq/Coq 8.16.1. Sources: `/repo` (bitdriftlabs/shared-core, read as text, never built).
All files are in `rocq/theories`, logical prefix `Verif`.

## Layout

For each modelled area `X` there are up to four files:

* `X_Model.v`  executable Gallina model. No proofs. Every definition cites the file and lines it models.
* `X_Spec.v`   small independent specification vocabulary (only when the statement needs one).
* `X_Proofs.v` lemmas.
* `X_Props.v`  only the property theorems (`exact lemma.`), their witnesses (`Example`), `Print Assumptions`.

## Modelling conventions

* Integers are `Z`/`N`/`nat` without wrap unless the property is about overflow; where the code checks
  overflow (`overflow_add`) the check is in the model.
* `&mut self` methods become functions returning the new state. `Result`/`Option` stay data. A panic path is an
  explicit constructor.
* Code under one mutex is one atomic step; code outside a mutex (writing record bytes, atomics) is split into
  its single atomic steps. A schedule is then an arbitrary list of steps, and theorems quantify over all lists.
* A blocking call is modelled by its non-blocking attempt: the step reports "would block" and the schedule
  may try again later. (Condition-variable wake-ups, i.e. liveness, are not modelled.)
* Persistent storage is an explicit component; a crash keeps it and discards everything else. Crash points are
  between any two stores to persistent storage.
* External libraries (CRC32, zlib, protobuf, regex, DDSketch, flatbuffers, tokio, OS) are parameters (Section
  variables, discharged, i.e. universally quantified) with the assumptions written as hypotheses of the theorem.

## Per-property plan

| id | model | method |
|----|-------|--------|
| C01-C03, C05 | volatile ring buffer: byte memory, indices, reservation queue, any number of producers | refinement to an abstract queue; layout invariant over every operation list |
| C04, C05, C06, C11 | non-volatile ring buffer, consumer and cursor consumer | refinement to an abstract queue, same layout invariant |
| C07, C08 | file header + checksums + stores one at a time | invariant on the stored image; crash = any prefix of the stores |
| C09 | same functions over arbitrary memory contents | index bounds for every input state satisfying the weak (index range) invariant |
| C10-C12 | lock/shutdown/drain bookkeeping of the same model | invariant |
| C13 | two linked lists as lists of slots | refinement to list of (handle,value) |
| C14, C15 | decoder/encoder state machines over byte lists | induction over chunks; parameterised by protobuf and zlib |
| C16 | token bucket | induction over arrivals |
| C17, C18 | batch builder + uploader loop | induction over events |
| C19, C20 | retry policy | induction over results; C20 is expected to be refuted |
| C21 | response tracker | refinement to a set of pending ids |
| C22 | kill file + process restarts | induction over restart histories |
| C23, C24 | versions as parsed segment lists | order theory; C23 transitivity expected refuted |
| C25, C26 | matcher trees, selector | structural induction against a denotational spec |
| C27, C28 | filter chain | induction over transforms; C28 expected refuted for binary fields |
| C29 | metadata normalisation | list lemmas |
| C30, C31 | channel with single-atomic-step senders | invariant over schedules; C31 expected refuted |
| C32 | pre-config buffer and logging state | invariant |
| C33, C34 | session strategies with persistent store | induction over histories with crashes |
| C35, C36 | runtime loader with persistent files | induction over crash histories |
| C37 | configuration persistence | induction over histories |
| C38-C40 | metric store with split steps | invariant; C39 expected refuted |
| C41, C42 | stats file manager | invariant over histories |
| C43-C51 | workflow engine | invariants and equivalences |
| C80, C81 | transition system of producers, flush thread, readers and shutdown over the two buffer models | simulation by the two queues with an invariant linking them; measure for draining; refuted parts with witnesses for all continuations |
| C82, C83 | watch channel of `bd-shutdown`; the logger's wiring of it | invariant linking version, senders and receivers to the history; refuted for the non-blocking shutdown for every continuation |
| C84-C86 | run loops of the reporter, the recorder and the listener as operations on watches, a tokio interval and channels of capacity one | invariants on histories; deadline bound by induction on ticks; refuted: zero interval panics, lost or unasked screenshot, coalesced updates |
| C87-C95 | the loop of `async_log_buffer.rs` as a transition system of callers, loop, provider and other threads over any pipeline | invariants linking queue, place of the loop and state to the trace; simulation for the provider's calls; refuted: shutdown loses accepted logs, flush before configuration, flush from the provider, session of the call |
| C96-C98 | transition system of network task, API task and transport, with the three bounded channels | invariants on channels and trace; progress by cases on the network's place; refuted: wait cycle, error shutdown before the handshake |
| C99-C103 | both ends of a gRPC call as functions on requests, responses and body frames; reader with read stop as a transition system | composition with the codec's round trip; invariants; refuted: texts of errors, cut streams, timeout of the body |
| C124-C130 | timed transition system of the API task's loops | invariants linking the state to folds over the trace; refuted: unanswered ping, waiting for the first handshake, quality during a backoff |
| C131-C134 | step function of the handle's calls, on top of the stored versions, the metadata and the interceptors | folds over the calls made; refuted: a field of the caller hides the measured one, an update lost by a full channel or inside the guard |
| C135 | the buffer and its upload task stepping together, every call of the task a step of the buffer's model | refinement of the buffer to its queue, simulation of the task by the model over a queue of C17/C18; refuted: the record of an upload given up is removed |
| C136 | the same system; rounds in which each part attempts a move, in any order | well-founded measure decreased by an urgent move of every round, invariant of lively states; refuted: a record too long for the file ends the flush thread |
| C137 | `Pipeline_Model`, `Filter_Model`, `WorkflowEngine_Model`; specification: inductive derivations of fields (`kept`, `open_field`) and of reported texts (`shown`) | invariants of filters, of the engine's Sankey states over all histories; refuted: metric tags and path nodes that name a matching field |
| C138 | `Freeze_Model` over `Delivery_Model`: the moves of a continuous buffer on the SDK's one thread, which stands still while a flush waits; specification: `frozen` (no continuation makes a call), `fits_together` | invariant (the waiting flush's target is the newest record), measure on the flush thread's chores, inversion of the file's refusals; refuted on a concrete full file |
| C139, C140, C141 | `Parts_Model`: log loop, statistics, connection and flushes with the channels of one element between them; specification: what is seen of the calls (`settled`), and folds over the moves made (`channel_full`, `stats_wait`, `linked`, `conf_wait`, `conf_full`) | state invariant, exact account of the calls (accepted = taken ++ queued; awaited = answered ++ owed), progress by induction on waits and queue, two absorbing sets of states for the refutations |
| C142, C143, C144 | `Sdk_Model`: the loop of `LogBuffer_Model` with `Pipeline_Model` as its pipeline; specification: folds over the labels (`confs`, `filters_on`, `workflows_on`, `keeps_buffers`), what was given to the pipeline (`given`) and the vocabulary of C75 and C53 | each step of the loop is at most one operation of the pipeline, or the replay of all kept logs; the pipeline's history is a ghost that agrees with the labels (configurations, flags); then the theorems about the pipeline apply to every log |
| C145 | `AsyncRead_Model`: the loop of an asynchronous `read` cut at its three points, on top of any of the buffer models; specification: the FIFO queues of `Volatile_Spec` and `Nonvolatile_Spec` | invariant: the value of the channel is false, or the receiver has an unseen message, or nothing is there to read; one generic proof, instantiated for the three kinds of consumer; an absorbing set of states for the refutation |
| C146 | the buffer models; specification (`Refused_Spec`): a fold over calls and answers | each function of the models either keeps the counters or adds what the answer says; for volatile buffers the simulation of C01 excludes damage |
| C147 | the parsing functions of `Workflow_Model`; specification (`WorkflowMeans_Spec`): what a complete definition is and what the parts of the accepted workflow have to be, by position and name | case analysis over the optional parts, induction over the lists; the set of buffers by membership, the stream bound as a minimum |
| C148 | `WorkflowStats_Model`: the counters of the engine beside its state; specification (`WorkflowStats_Spec`): the lengths of the lists of workflows, runs and traversals | each function of the engine changes the balance of the counters by what it changes in the lists: per run, per workflow, per log, per update, per start; then induction over the history |
| C149 | `StatsFile_Model`; specification (`StatsDue_Spec`): due = the start of the file plus the window is not after now | safety by case analysis of a step; the rest by induction over the unreadable files at the head of the index, on top of the invariants of C41 and C68 |
| C150 | `WorkflowEngine_Model`; specification (`WorkflowFlush_Spec`): the requests of a process, read off the queue | invariant over histories: the flush remembered for an action is the one request for it that may be unanswered; numbers are fresh; refuted for a full queue |
| C151 | `Sizes_Model`, `MemoryBound_Model`, `PreConfig_Model`; specification (`Sizes_Spec`): content = lengths of all texts; heap = capacities of texts and places of vectors | counted size covers content and heap, by induction over fields; with the bounds of C30 and C32; refuted for overrides and spare capacity |
| C152 | `Handshake_Model`; specification (`Handshake_Spec`): well-formed histories of streams with the list of what counts; last reason and last versions read off that list | induction over histories; lookups in the maps; every sequence of events reduces to a well-formed history (`C152_stories`) |
| C153 | `Rt_Model` (parser of numbers, address of the function, host and environment are parameters) | case analysis and induction over calls; refuted for numbers in the environment |
| C154 | `Ticker_Model` (tokio's interval and watch channel as documented, times in ms); specification (`Ticker_Spec`): ticks at whole periods after a point in time or later | invariant: the next deadline is the time of making plus the first wait plus as many periods as ticks; refuted for zero and for restless changes |
| C155 | `Late_Model` over `Labels_Model`; specification (`Late_Spec`): first uses, vectors and sums read off the program | induction over programs; invariant: a series is that of its labels and all are tracked, or the limit is reached and one of them is not |
| C156 | `Gather_Model`; specification (`Gather_Spec`): the collectors in the order of chaining, visited one after the other | induction over fuel with the ranks of the collectors; measure: the collectors not held; refuted for cycles and late callbacks |
| C157 | `Paths_Model`; specification (`Paths_Spec`): what a file defines, the path that gRPC asks for | case analysis of the search; paths are read back at the first slash and the last dot; refuted without a package |
| C158 | `Record_Model`; specification (`Record_Spec`): a reader that follows the offsets from the root | objects made stay where they are; induction over fields, ids and logs |
| C159 | `Demux_Model`; specification (`Demux_Spec`): the responses for each, acknowledgements in order | one response by cases, then induction over the responses; refuted for opaque configurations |
| C160 | `Panic_Model`; specification in `Panic_Props`: reports and exits among the effects | only the last call counts; cases of it; refuted for an earlier forced exit |
| C65, C79 | transition system of API task, upload manager and upload tasks | invariants over all executions; measure for termination; C79 refuted by a deadlock |
| C76, C77 | buffer manager | induction over configuration histories |
| C52, C53 | routing decisions of the processing pipeline | direct; expected refuted in corner cases, partial theorem otherwise |
| C54-C62 | small utilities | direct |

# Trusted base

## Prover

* Coq 8.16.1's kernel (`coqc`, rechecked with `coqchk`), no plugins beyond those the standard library loads itself, no native code
  (`vm_compute` is used for concrete examples; it is part of the kernel).
* `Print Assumptions` follows every theorem in every `*_Props.v`. Each of them answers **"Closed under the global context"**: no theorem
  depends on any axiom, neither of ours nor of the standard library. External functions are universally quantified arguments of the
  theorems, visible in their statements (`re_match`, `sha`, `to_i32`, `f64`, checksums, compressors, sketches, ...).
* That the model says what the code does is not checked by a machine. Each definition cites the lines it models. No code of `/repo` was
  compiled or run.

## What is modelled

| code | model | properties |
|------|-------|------------|
| bd-buffer `common_ring_buffer.rs` (all but tracing and thread synchronisers) | `Ring_Model`, `Ring_Layout` | C01-C12, C63 |
| bd-buffer `volatile_ring_buffer.rs` | `Volatile_Model` | C01-C03, C05, C10-C12, C63 |
| bd-buffer `non_volatile_ring_buffer.rs` (header as fields, not bytes; stores one at a time for crashes) | `Nonvolatile_Model`, `NonvolatileCorrupt_*` | C02, C04-C11, C71, C72 |
| bd-buffer `ring_buffer.rs` manager: configuration updates, flush task | `BufferManager_Model` | C76, C77 |
| bd-buffer `aggregate_ring_buffer.rs` (every call on one of the two buffers is one step; first caller of shutdown) | `Aggregate_Model` | C80, C81 |
| bd-shutdown `lib.rs`; bd-logger `logger.rs` `Logger::shutdown`, and which parts of `builder.rs` and `async_log_buffer.rs` hold a trigger, a handle or a token | `Shutdown_Model` | C82, C83 |
| bd-resource-utilization, bd-session-replay, bd-events `lib.rs` (without their shutdown arms; tokio's `Interval` with `MissedTickBehavior::Delay` and `watch` as described in the file) | `Recorder_Model` | C84, C85, C86 |
| bd-logger `async_log_buffer.rs` (one message is one step, except the waits of a flush), `logger.rs` calls that reach it, `internal_report.rs`, `network.rs` interceptors, `logging_state.rs` switch; bd-session `lib.rs`. The pipeline is a parameter, so are the provider's answers and calls, clocks and the channel's answers | `LogBuffer_Model` | C87-C95 |
| bd-hyper-network `lib.rs` with the loop of bd-api `api.rs` that uses it (one await is one step; what the API task makes of a response is part of the schedule) | `Hyper_Model` | C96-C98 |
| bd-logger `consumer.rs` upload manager with the API task and the upload tasks (labels for every move) | `UploadManager_Model` | C65, C79 |
| bd-buffer `intrusive_queue_with_free_list.rs` | `IntrusiveQueue_Model` | C13 |
| bd-grpc `lib.rs` unary and server streaming calls, both ends, with HTTP as a relation on bodies; not: paths, permits, `axum_helper.rs` | `GrpcService_Model` | C99-C103 |
| bd-pgv `proto_validate.rs` (a message is a tree of fields with their descriptors' rules; reflection, the generated code and the texts of errors are not modelled; rules only reported as not implemented are one flag per kind of field) | `Validate_Model` | C104, C105 |
| bd-client-common `error.rs`: the handler behind its mutex with its thread locals, and `MetadataErrorReporter`; not: the log lines, the wrappers that pass a result through, `flatten` | `ErrorReport_Model` | C106-C109 |
| bd-runtime-config `feature_flags.rs`, `loader.rs` (YAML and the conversion are parameters; the file system and notify are part of the schedule, with one unbounded queue) | `Flags_Model` | C110-C113 |
| bd-workflows `sankey_diagram.rs` processor with its input channel (UUIDs and the abort in the engine's destructor left out; the API task's answers are part of the schedule) | `Sankey_Model` | C114-C117 |
| bd-grpc `axum_helper.rs` accept loop and connections' tasks (hyper's handling of a connection is part of the schedule) | `Serve_Model` | C118 |
| bd-device `lib.rs` | `Device_Model` | C119 |
| bd-api `api.rs`: when the task connects, pings and gives up (its loops with their clocks, network quality, backoff, counters; other responses and the kill file are `Api_Model`'s; the crate backoff as documented) | `Connection_Model` | C124-C130 |
| bd-logger `logger.rs`: the handle (guard, the SDK's own logs, app updates, counters of the calls) and `memory_bound.rs` `SendCounters`; durations are written by a parameter | `Handle_Model` | C131-C134 |
| bd-logger `consumer.rs` continuous uploads on the aggregate buffer of `Aggregate_Model`: the task's calls are made on the model of the buffer, all interleavings; new file, one task started once, its cursor not given back | `Delivery_Model` | C135, C136 |
| matching fields through filters, records, metrics and Sankey paths (no code of its own) | `Filter_Model`, `Pipeline_Model`, `Workflow_Model`, `WorkflowEngine_Model` | C137 |
| ring_buffer.rs `process_flushes` for one continuous buffer, builder.rs: one thread for all tasks | `Freeze_Model` | C138 |
| builder.rs `build` (channels, `try_join!`), the waiting of async_log_buffer.rs `run_with_shutdown`, `enqueue_log`, `flush_state`, log_replay.rs `finish_blocking_log_processing`, bd-client-stats `periodic_flush`, api.rs `maintain_active_stream`, client_config.rs `apply_configuration` | `Parts_Model` | C139, C140, C141 |
| async_log_buffer.rs with log_replay.rs (the two models put together; the flush of the state saves the engine, async_log_buffer.rs:645-647) | `Sdk_Model` | C142, C143, C144 |
| volatile_ring_buffer.rs:269-304, non_volatile_ring_buffer.rs:330-364 and 507-546: asynchronous `read` (not: the buffer being dropped while a read waits; the versions of the watch channel are reduced to "something unseen was sent") | `AsyncRead_Model` | C145 |
| engine.rs:155-420, 547-641 and 1107-1250: the counters of workflows, runs, traversals and limit hits (not: the counters of actions, of the state file and the histogram of times) | `WorkflowStats_Model` | C148 |
| bd-logger `size.rs` and the sizes of `async_log_buffer.rs` (sizes of types and the capacities of strings are parameters) | `Sizes_Model` | C151 |
| bd-metadata `lib.rs`; bd-api `api.rs` lines 575-760 and 893-913 as far as headers, handshakes and reasons of closure; partial handshakes | `Handshake_Model` | C152 |
| bd-rt `lib.rs` lines 15-90 (names of threads and drivers of tokio not modelled) | `Rt_Model` | C153 |
| bd-client-stats `stats.rs` lines 42-80 with the jittered interval of bd-time | `Ticker_Model` | C154 |
| bd-server-stats `stats.rs` lines 215-322, late initialized metrics (counters, one thread) | `Late_Model` | C155 |
| bd-server-stats `stats.rs` lines 596-694: gathering with callbacks and chained collectors, automatic gauges (the text format left out) | `Gather_Model` | C156 |
| bd-grpc `lib.rs` lines 1099-1238 as far as paths and routes (descriptors are lists of names; axum's router as documented) | `Paths_Model` | C157 |
| bd-client-common `fb.rs` lines 31-149 (objects in place of bytes: flatbuffers' layout, default values left out and verifier not modelled) | `Record_Model` | C158 |
| bd-api `payload_conversion.rs`, `api.rs` lines 769-892 as far as who gets a response (release build; effects of updates and failures of calls are parameters) | `Demux_Model` | C159 |
| bd-panic `lib.rs` lines 26-85 (handlers as functions to effects; not wasm, no panic of a handler) | `Panic_Model` | C160 |
| bd-server-stats `stats.rs` scopes, caches of metrics, gathering (the crate prometheus' registry as documented, hashes free of collisions; callbacks, chained collectors and the metrics of vectors left out) | `Collector_Model` | C120-C123 |
| bd-grpc-codec `lib.rs` (protobuf and zlib are parameters) | `Grpc_Model` | C14, C15, C64 |
| bd-logger `ratelimit.rs`, retry policy of `service.rs` | `RateLimit_Model`, `Retry_Model` | C16, C19, C20 |
| bd-logger `consumer.rs` batching, continuous, trigger and stream uploads | `Batching_Model` | C17, C18 |
| bd-api `upload.rs`, stream life cycle, handshake and kill file of `api.rs` | `Api_Model` | C21, C22 |
| bd-log-matcher `version.rs`, `matcher.rs` | `Version_Model`, `LogMatcher_Model` | C23-C25 |
| bd-matcher `matcher.rs`, `buffer_selector.rs`, field lookups | `BufferMatcher_Model`, `Log_Model` | C25, C26 |
| bd-log-filter `lib.rs` | `Filter_Model` | C27, C28 |
| bd-logger `metadata.rs` | `Metadata_Model` | C29 |
| bd-logger `memory_bound.rs` | `MemoryBound_Model` | C30, C31 |
| bd-logger `pre_config_buffer.rs` and its use in `async_log_buffer.rs` | `PreConfig_Model` | C32 |
| bd-session `activity_based.rs`, `fixed.rs` | `Session_Model` | C33, C34, C66 |
| bd-runtime `runtime.rs` (snapshots, watches, cache) | `Runtime_Model` | C35, C36 |
| bd-logger `client_config.rs` persistence of configurations | `ClientConfig_Model` | C37, C67 |
| bd-client-stats-store `lib.rs`, bd-client-stats `lib.rs` dynamic stats, snapshot collector | `StatsStore_Model`, `Histogram_Model` | C38-C40, C61 |
| bd-client-stats `file_manager.rs`, `stats.rs` flusher | `StatsFile_Model` | C41, C42, C68, C149 |
| bd-workflows `config.rs`, `workflow.rs` | `Workflow_Model` | C43-C46, C49, C50, C69, C70 |
| bd-workflows `engine.rs`, `actions_flush_buffers.rs`, `metrics.rs` | `WorkflowEngine_Model` | C43-C51, C69, C70, C150 |
| bd-workflows `sankey_diagram.rs` cache of processed paths | `Lru_Model` | C55 |
| bd-logger `log_replay.rs`, `client_config.rs` tail configurations | `Pipeline_Model` | C52, C53, C75 |
| bd-time `lib.rs` rounding and conversions | `Time_Model` | C54 |
| bd-log `rate_limit_log.rs` | `WarnTracker_Model` | C56 |
| bd-proto-util `proto.rs` | `ProtoHash_Model` | C57 |
| bd-server-stats `stats.rs` label tracker | `Labels_Model` | C58 |
| bd-key-value `lib.rs`, bd-logger `app_version.rs` | `KeyValue_Model` | C59, C62, C73 |
| bd-logger `network.rs` usage tracking | `Network_Model` | C60, C74 |

The header comment of each `*_Model.v` lists its simplifications; comments at the definitions list local ones.

## Simplifications that hold everywhere

* Liveness of threads and tasks (that a condition variable is signalled, that a task is polled) is not modelled: a schedule may stop
  anywhere. Where a property is about being able to proceed, it says that the attempt succeeds when made.
* Memory is sequentially consistent; code under one lock is one step.
* Log output, tracing and statistics counters are left out unless a property is about them.
* `debug_assert!` is not part of the model (release semantics), except where a comment says so.
* The protobuf, flatbuffers and bincode encodings are taken to be lossless (except in C57, C62, C15, which are about encodings).

## Not modelled

bd-grpc: binary headers; bd-noop-network, bd-pgv and bd-proto (generated code), bd-profile,
bd-panic, bd-test-helpers, bd-internal-logging, the platform bindings; in bd-logger: `builder.rs` except who holds the shutdown triggers and tokens, the channels and the joining of the parts; in bd-buffer: the
FFI; in bd-server-stats: the text format; in bd-time: timers other than the jittered interval.

# Wrong programs

`seeded/LOG.jsonl` records edits of the models that mimic realistic bugs, the claims they break and the theorems that fail. Where no theorem
failed, the theorems that were tightened or added are named in the entry.
