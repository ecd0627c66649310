{
 "claims": [
  {
   "property": "C01",
   "status": "proved",
   "theorems": [
    "C01_volatile_lossy_fifo"
   ],
   "note": "Holds: refinement to a specification of a lossy FIFO for every history of calls and writes, buffer size below 2^31."
  },
  {
   "property": "C02",
   "status": "proved",
   "theorems": [
    "C02_non_volatile_held",
    "C02_volatile_handed_out"
   ],
   "note": "Holds for the volatile buffer, with the ranges taken from the results of the calls."
  },
  {
   "property": "C03",
   "status": "proved",
   "theorems": [
    "C03_volatile_committed_prefix"
   ],
   "note": "Holds for the volatile buffer (the only one with several producers)."
  },
  {
   "property": "C04",
   "status": "proved",
   "theorems": [
    "C04_non_volatile_queue",
    "C04_exactly_once"
   ],
   "note": "Non-volatile buffer. C04_exactly_once: for whole put/get/restart histories of a non-overwriting buffer, accepted = delivered ++ still stored. C04_non_volatile_queue: every history of single calls (waiting writers, locks, registrations, reopening included) refines the queue specification."
  },
  {
   "property": "C05",
   "status": "partial",
   "theorems": [
    "C05_overwriting",
    "C05_balanced",
    "C05_counters",
    "C05_cursor_counters",
    "C05_abandoned_refuted",
    "C05_volatile_accounting"
   ],
   "note": "Holds for the volatile buffer and, without crashes, for whole put and get calls on the non-volatile buffer (records and bytes). A reservation abandoned between stored records is reported as overwritten although it was never a record (C05_abandoned_refuted)."
  },
  {
   "property": "C06",
   "status": "partial",
   "theorems": [
    "C06_cursor_client_partial",
    "C06_cursor_calls_partial",
    "C06_registered_again_refuted",
    "C06_abandoned_refuted"
   ],
   "note": "Proved for every history of puts, cursor reads, releases and restarts (writers not waiting for readers), and for every history of single calls (waiting included) in which the cursor is the only consumer and producer/cursor stay registered. False when a cursor is registered again after reads, or after an abandoned reservation (refutations, the code has a TODO)."
  },
  {
   "property": "C07",
   "status": "proved",
   "theorems": [
    "C07_restart"
   ],
   "note": "Splits any crash-free history of whole puts/gets at a restart; single-call histories with reopening anywhere: C04_non_volatile_queue and C08_crash_queue."
  },
  {
   "property": "C08",
   "status": "proved",
   "theorems": [
    "C08_crash_queue",
    "C08_crash_records",
    "C08_crash_keeps"
   ],
   "note": "Crashes between any two stores to the file, inside any call, any number of times; up to a collision of the header checksum (named exactly) and records whose checksum is 0. Stores are assumed to reach the file in program order (the process dies, not the machine)."
  },
  {
   "property": "C09",
   "status": "partial",
   "theorems": [
    "C09_no_panic_partial",
    "C09_usable_partial",
    "C09_finish_read_refuted",
    "C09_dropped_reader_refuted",
    "C09_cursor_loop_refuted"
   ],
   "note": "Damaged record areas (header intact, indices in range; any bytes at any time): no panic, no loop and no memory outside the record area for every history without cursors, except the end of a read in an overwriting buffer; after a counted loss the buffer behaves like a new queue as soon as the last reservation is given back. Refuted with witnesses: finish_read panics in an overwriting buffer; a reader dropped while a reset is pending leaves the buffer unusable until reopened; a cursor read loops for ever on a damaged size."
  },
  {
   "property": "C10",
   "status": "proved",
   "theorems": [
    "C10_non_volatile_locked",
    "C10_non_volatile_unlocked",
    "C10_volatile_locked",
    "C10_volatile_unlocked",
    "C10_volatile_read"
   ],
   "note": "Volatile buffer: holds."
  },
  {
   "property": "C11",
   "status": "proved",
   "theorems": [
    "C11_non_volatile_failed_call",
    "C11_volatile_failed_call"
   ],
   "note": "Volatile buffer: holds."
  },
  {
   "property": "C12",
   "status": "partial",
   "theorems": [
    "C12_flush_waits_partial",
    "C12_flush_refuted"
   ],
   "note": "Holds for records visible when the flush starts; refuted for records committed but held back by an older open reservation."
  },
  {
   "property": "C13",
   "status": "proved",
   "theorems": [
    "C13_fifo"
   ],
   "note": "Holds, for every history that uses a pointer only while its element is in the queue (the contract stated in the code)."
  },
  {
   "property": "C14",
   "status": "partial",
   "theorems": [
    "C14_frames_partial",
    "C14_every_stream",
    "C14_chunking",
    "C14_error_chunk_refuted",
    "C14_received_bytes"
   ],
   "note": "Holds for streams without an undecodable message and, up to that message, when it is in a later chunk; refuted when it is in the same chunk (messages decoded before it in the same call are lost)."
  },
  {
   "property": "C15",
   "status": "proved",
   "theorems": [
    "C15_roundtrip",
    "C15_sent_bytes"
   ],
   "note": "Holds for any lossless compressor, any chunking; zlib and protobuf are parameters with the stated contract."
  },
  {
   "property": "C16",
   "status": "proved",
   "theorems": [
    "C16_window_bound",
    "C16_no_starvation"
   ],
   "note": "Holds; windows are cut by an independent specification function over histories."
  },
  {
   "property": "C17",
   "status": "proved",
   "theorems": [
    "C17_continuous",
    "C17_constant_limits",
    "C17_trigger",
    "C17_trigger_dropped",
    "C17_trigger_limits"
   ],
   "note": "Full for the continuous and trigger uploaders."
  },
  {
   "property": "C18",
   "status": "partial",
   "theorems": [
    "C18_release_partial",
    "C18_kept",
    "C18_stopped",
    "C18_release_refuted",
    "C18_shutdown_refuted"
   ],
   "note": "Holds while no upload is given up. Refuted: (1) after giving up an upload on shutdown the loop may read and flush again and then releases the records of the abandoned batch; (2) an attempt cancelled by a service shutdown releases its records."
  },
  {
   "property": "C19",
   "status": "proved",
   "theorems": [
    "C19_bounded_same_identity"
   ],
   "note": "Holds for any sequence of results and any retry limit that stays below a bound while the upload runs."
  },
  {
   "property": "C20",
   "status": "partial",
   "theorems": [
    "C20_dropped_only_on_failure_refuted",
    "C20_dropped_accounting_partial"
   ],
   "note": "Refuted as stated: an upload that succeeds on its last permitted attempt is counted as dropped. The partial theorem gives what does hold."
  },
  {
   "property": "C21",
   "status": "proved",
   "theorems": [
    "C21_delivered_to_owner",
    "C21_only_owner",
    "C21_unknown_is_error",
    "C21_exactly_once",
    "C21_failed_only_at_end",
    "C21_answers",
    "C21_requests_tracked",
    "C21_responses_handled"
   ],
   "note": "Model of StateTracker and of the whole stream life cycle (handshake, main loop, backoff, shutdown, errors). C21_exactly_once assumes that requests are distinct objects (NoDup of the waiter identities), not that identifiers are distinct: a request whose identifier is taken by a later one is told of a failure."
  },
  {
   "property": "C22",
   "status": "proved",
   "theorems": [
    "C22_rejection_kills",
    "C22_rejected_process_silent",
    "C22_rejected_restarts_silent",
    "C22_configured_silent",
    "C22_connects_again"
   ],
   "note": "Process lives run over a shared kill file; clock, keys, I/O results, network events and number of restarts are universally quantified. The hash of the API key is a parameter. Examples show what the disk assumption excludes."
  },
  {
   "property": "C23",
   "status": "partial",
   "theorems": [
    "C23_trichotomy",
    "C23_antisymmetry",
    "C23_equality",
    "C23_trailing_zero",
    "C23_transitivity_refuted",
    "C23_transitivity_partial"
   ],
   "note": "Holds except transitivity, which is refuted when a number meets a word at one position (2 < 10 < 1a < 2); proved when the kinds agree."
  },
  {
   "property": "C24",
   "status": "proved",
   "theorems": [
    "C24_equal_trees",
    "C24_equal_matchers"
   ],
   "note": "Holds; the regex crate is a parameter."
  },
  {
   "property": "C25",
   "status": "partial",
   "theorems": [
    "C25_formula_partial",
    "C25_any_fields_partial",
    "C25_buffer_formula",
    "C25_precedence_partial",
    "C25_type_operator_refuted",
    "C25_precedence_refuted"
   ],
   "note": "Buffer matchers: full. Log matchers: full except two refuted deviations (operators other than equality on log_type are ignored; a binary captured field does not hide a matching field)."
  },
  {
   "property": "C26",
   "status": "proved",
   "theorems": [
    "C26_selection",
    "C26_once",
    "C26_order"
   ],
   "note": "Full."
  },
  {
   "property": "C27",
   "status": "proved",
   "theorems": [
    "C27_provenance",
    "C27_names",
    "C27_rest_unchanged",
    "C27_removed",
    "C27_unselected",
    "C27_chain",
    "C27_capture",
    "C27_set",
    "C27_set_missing",
    "C27_rewrite"
   ],
   "note": "Full."
  },
  {
   "property": "C28",
   "status": "partial",
   "theorems": [
    "C28_no_override_partial",
    "C28_binary_refuted"
   ],
   "note": "False for binary fields (refuted): only text counts as a value. Proved when the first field of that name is text."
  },
  {
   "property": "C29",
   "status": "proved",
   "theorems": [
    "C29_normalized",
    "C29_provider",
    "C29_sources",
    "C29_told",
    "C29_globals"
   ],
   "note": "Full; also for the matching fields and for histories of add_field/remove_field."
  },
  {
   "property": "C30",
   "status": "proved",
   "theorems": [
    "C30_within_budget",
    "C30_fifo",
    "C30_usage"
   ],
   "note": "Holds for every schedule of atomic steps."
  },
  {
   "property": "C31",
   "status": "partial",
   "theorems": [
    "C31_fitting_accepted_refuted",
    "C31_fitting_accepted_partial"
   ],
   "note": "Refuted: a concurrent refused send occupies the budget for a moment. Holds when nothing else is in progress."
  },
  {
   "property": "C32",
   "status": "proved",
   "theorems": [
    "C32_replayed_first",
    "C32_within_limits",
    "C32_kept_all"
   ],
   "note": "Holds."
  },
  {
   "property": "C33",
   "status": "proved",
   "theorems": [
    "C33_same_process",
    "C33_after_restart"
   ],
   "note": "Times, thresholds, histories and crash points are universally quantified; the store is assumed to keep what was set."
  },
  {
   "property": "C34",
   "status": "proved",
   "theorems": [
    "C34_activity_based",
    "C34_fixed"
   ],
   "note": "Both strategies. 'Preceding process' is the last earlier process that had a session: processes that never use the session are skipped."
  },
  {
   "property": "C35",
   "status": "proved",
   "theorems": [
    "C35_applied_bound",
    "C35_discarded",
    "C35_good_kept"
   ],
   "note": "Crash-point and I/O-error closed bound on applications; the configuration is removed after seven completed loads; a good configuration is kept for ever. Torn writes of the configuration file leave arbitrary content."
  },
  {
   "property": "C36",
   "status": "partial",
   "theorems": [
    "C36_present",
    "C36_absent_partial",
    "C36_incompatible",
    "C36_registered",
    "C36_wrong_type_refuted",
    "C36_shared_path_refuted"
   ],
   "note": "Refuted for keys of the wrong type (read as 0/false) and for two flags sharing a path with different defaults; proved for all other histories."
  },
  {
   "property": "C37",
   "status": "proved",
   "theorems": [
    "C37_attempted_once",
    "C37_tried_was_applied",
    "C37_on_disk_was_applied",
    "C37_reloaded",
    "C37_handshake"
   ],
   "note": "Crash points in and around the removal, application and write back; torn writes of config.pb as prefixes of the serialized fields."
  },
  {
   "property": "C38",
   "status": "proved",
   "theorems": [
    "C38_handle_kept",
    "C38_snapshot_takes_all"
   ],
   "note": "C38_handle_kept: for any interleaving, from handing out a handle until it is given up, reported + live = incremented (modulo 2^64). C38_snapshot_takes_all: an undisturbed snapshot leaves nothing."
  },
  {
   "property": "C39",
   "status": "partial",
   "theorems": [
    "C39_conserved_partial",
    "C39_dynamic_refuted",
    "C39_dynamic_partial"
   ],
   "note": "Refuted: an increment between the snapshot's swap and its reference check, followed by dropping the handle, is reported nowhere. C39_conserved_partial, C39_dynamic_partial: it holds for all other interleavings (whole runs: reported + live = incremented)."
  },
  {
   "property": "C40",
   "status": "partial",
   "theorems": [
    "C40_bounded",
    "C40_bounded_changing",
    "C40_lowered_refuted",
    "C40_existing_usable",
    "C40_new_refused"
   ],
   "note": "Bounded for a constant limit; a lowered limit does not shrink the store (refuted)."
  },
  {
   "property": "C41",
   "status": "partial",
   "theorems": [
    "C41_unchanging_partial",
    "C41_frozen",
    "C41_one_in_flight",
    "C41_index_bounded",
    "C41_files_in_index_partial",
    "C41_write_error_refuted",
    "C41_lowered_limit_refuted",
    "C41_orphan_refuted"
   ],
   "note": "Unchanging content, frozen files and one upload in flight hold for every history with crashes, read errors and restarts in which no write returns an error (new identifiers are assumed distinct); the index bound holds whatever fails. A write error of the index breaks identity (C41_write_error_refuted); a lowered limit is not enforced at once; a read error can leave a file outside the index."
  },
  {
   "property": "C42",
   "status": "partial",
   "theorems": [
    "C42_conserved",
    "C42_left_only",
    "C42_oldest_sent",
    "C42_crash_refuted"
   ],
   "note": "Conservation modulo 2^64 and the characterization of what leaves the index, for every history without I/O failures and panics; a crash during the overwrite of a file loses its earlier content (C42_crash_refuted). Histograms are an additive amount (see C61)."
  },
  {
   "property": "C43",
   "status": "partial",
   "theorems": [
    "C43_traversal_limit_partial",
    "C43_traversal_limit_refuted"
   ],
   "note": "Proved for configurations whose workflows have no limit of matched logs or only states with at most one way out; refuted in general: a run stopped by its limit of matched logs gives back more traversals than it holds, so that the engine later holds more than the maximum."
  },
  {
   "property": "C44",
   "status": "partial",
   "theorems": [
    "C44_exclusive_two_runs_partial",
    "C44_one_run_processes_partial",
    "C44_exclusive_two_runs_refuted"
   ],
   "note": "At most two runs, the first being the initial one, and one run per log, as long as a restart does not bring another definition under the same id. Refuted for a restart where the execution mode under an id changed from parallel to exclusive."
  },
  {
   "property": "C45",
   "status": "partial",
   "theorems": [
    "C45_waits",
    "C45_fires_at_nth_match",
    "C45_never_early",
    "C45_not_later_partial",
    "C45_new_engine_waits",
    "C45_every_nth_refuted"
   ],
   "note": "C45_not_later_partial: the actions (not paths) are carried out at the completing log, for workflows without limits of their own, while no log in between hits the traversal limit or restarts an exclusive workflow."
  },
  {
   "property": "C46",
   "status": "partial",
   "theorems": [
    "C46_recent_values",
    "C46_one_limit",
    "C46_at_most_limit_partial",
    "C46_at_most_limit_refuted"
   ],
   "note": "Every emitted path is the recent-values projection of a way through the workflow, for all executions; the bound holds if all extractions of the diagram count; refuted for extractions with counts_toward_sankey_values_extraction_limit = false."
  },
  {
   "property": "C47",
   "status": "partial",
   "theorems": [
    "C47_destination_kept",
    "C47_routing",
    "C47_limit_and_session_partial",
    "C47_limit_refuted",
    "C47_limit_restart_refuted"
   ],
   "note": "Destination kept and exact routing for all executions; limit and end of session for actions whose flush is complete; refuted while the flush is incomplete and across a restart."
  },
  {
   "property": "C48",
   "status": "partial",
   "theorems": [
    "C48_not_negotiated_again_partial",
    "C48_resolved_between_partial",
    "C48_answers",
    "C48_rejected_dropped_partial",
    "C48_negotiated_again_refuted",
    "C48_negotiated_again_after_update_refuted",
    "C48_rejected_dropped_refuted",
    "C48_negotiated_at_all_refuted"
   ],
   "note": "For unique flush ids and unchanged trigger buffers: one negotiation per resolution, rejected actions dropped. Refuted for actions sharing an id, for updates that change buffers during the negotiation, and for more actions than the channel holds."
  },
  {
   "property": "C49",
   "status": "partial",
   "theorems": [
    "C49_old_runs_forgotten_partial",
    "C49_restored_runs_forgotten",
    "C49_session",
    "C49_same_session_causes",
    "C49_empty_session_refuted"
   ],
   "note": "Equality of all later behaviour for engines differing only in runs, and in each execution only logs of the log's session call for actions (sessions with non-empty ids). Refuted for the empty session id."
  },
  {
   "property": "C50",
   "status": "partial",
   "theorems": [
    "C50_update_partial",
    "C50_equal_definitions",
    "C50_update_refuted"
   ],
   "note": "For configurations without duplicate ids; refuted with duplicates."
  },
  {
   "property": "C51",
   "status": "partial",
   "theorems": [
    "C51_restored_same_actions_partial",
    "C51_file_current_partial",
    "C51_restored_same_actions_refuted"
   ],
   "note": "C51_file_current_partial: the state file is current whenever the engine sees no need to write; without restarts and torn writes."
  },
  {
   "property": "C52",
   "status": "partial",
   "theorems": [
    "C52_actions",
    "C52_uploaded_partial",
    "C52_other_buffer_refuted"
   ],
   "note": "Proved when all trigger buffers the log goes to are flushed and no buffer fails. Refuted in general: a log routed to trigger buffer A whose action flushes only trigger buffer B is neither in B nor in a continuous buffer."
  },
  {
   "property": "C53",
   "status": "partial",
   "theorems": [
    "C53_return",
    "C53_saved_partial",
    "C53_file_kept",
    "C53_flushed_partial",
    "C53_streamed_refuted",
    "C53_no_flush_refuted",
    "C53_failed_write_refuted"
   ],
   "note": "Return exactly once at the end is proved; the flush of every written buffer is proved unless a streaming action rerouted the log, the flush task is gone, a buffer fails, or an update removed a continuous buffer. The three failures are refuted with witnesses."
  },
  {
   "property": "C54",
   "status": "partial",
   "theorems": [
    "C54_floor",
    "C54_floor_total",
    "C54_ceil_refuted",
    "C54_ceil_partial",
    "C54_ceil_forward_partial",
    "C54_proto_roundtrip",
    "C54_duration_roundtrip",
    "C54_timestamp_ms"
   ],
   "note": "Rounding down and conversions hold. Rounding up is refuted for times with a sub-second part whose whole second is a multiple; proved for whole-second times."
  },
  {
   "property": "C55",
   "status": "proved",
   "theorems": [
    "C55_lru",
    "C55_lookup"
   ],
   "note": "Holds."
  },
  {
   "property": "C56",
   "status": "proved",
   "theorems": [
    "C56_spacing",
    "C56_first"
   ],
   "note": "Holds."
  },
  {
   "property": "C57",
   "status": "partial",
   "theorems": [
    "C57_equal",
    "C57_distinct_partial",
    "C57_lists_partial",
    "C57_distinct_refuted"
   ],
   "note": "Equal messages always hash equal. Distinctness is refuted (lists and maps of texts, nested messages, neighbouring lists); it is proved for flat messages of optional numbers."
  },
  {
   "property": "C58",
   "status": "partial",
   "theorems": [
    "C58_sequential_bound",
    "C58_pairs_bound",
    "C58_pairs_refuted",
    "C58_known_passes",
    "C58_all_or_nothing",
    "C58_concurrent_bound"
   ],
   "note": "The label pairs are joined by an underscore, so with underscores in names two different pairs share one entry (C58_pairs_refuted)."
  },
  {
   "property": "C59",
   "status": "partial",
   "theorems": [
    "C59_update_reported",
    "C59_change_seen",
    "C59_once",
    "C59_first_install",
    "C59_failing_storage_refuted"
   ],
   "note": "C59_failing_storage_refuted: with a storage whose writes fail the same update is reported again on every start."
  },
  {
   "property": "C60",
   "status": "proved",
   "theorems": [
    "C60_summary",
    "C60_described",
    "C60_window"
   ],
   "note": "Network quality update not modelled; counters wrap as in release builds."
  },
  {
   "property": "C61",
   "status": "proved",
   "theorems": [
    "C61_preserved",
    "C61_snapshot",
    "C61_inline_exact"
   ],
   "note": "For every additive observation the sketch keeps (the sketch crate is a parameter; its additivity is a premise). Values of f64 are an abstract type."
  },
  {
   "property": "C62",
   "status": "proved",
   "theorems": [
    "C62_read_back",
    "C62_read_was_stored",
    "C62_stays_absent",
    "C62_strings",
    "C62_versions",
    "C62_text"
   ],
   "note": "base64 and bincode are modelled concretely; the platform storage is a map whose reads and writes may fail."
  },
  {
   "property": "C63",
   "status": "partial",
   "theorems": [
    "C63_flush_completes_refuted"
   ],
   "note": "Refuted: when the record a flush waits for is overwritten, the flush stays blocked although the buffer is empty."
  },
  {
   "property": "C64",
   "status": "partial",
   "theorems": [
    "C64_thread_isolation_refuted"
   ],
   "note": "Refuted for every decompressor whose errors persist: the thread local decompressor is not reset after an error."
  },
  {
   "property": "C66",
   "status": "proved",
   "theorems": [
    "C66_constant",
    "C66_fresh_per_process"
   ],
   "note": "Calls from inside the identifier callback are not modelled."
  },
  {
   "property": "C67",
   "status": "partial",
   "theorems": [
    "C67_ack_partial",
    "C67_ack_refuted"
   ],
   "note": "Refuted: a nack names the rejected version as last applied (client_config.rs 177, 195)."
  },
  {
   "property": "C68",
   "status": "partial",
   "theorems": [
    "C68_no_panic_partial",
    "C68_write_error_refuted",
    "C68_no_files_refuted",
    "C68_one_file_refuted"
   ],
   "note": "No panic when writes do not fail and at least two files are allowed; refuted for a failed directory creation, a limit of 0 and a limit of 1."
  },
  {
   "property": "C69",
   "status": "partial",
   "theorems": [
    "C69_parsed_configurations_well_formed",
    "C69_no_panic_partial",
    "C69_no_panic_refuted"
   ],
   "note": "For all executions in which a restart does not bring another definition under the same id; refuted otherwise: the restored state index is out of bounds."
  },
  {
   "property": "C70",
   "status": "partial",
   "theorems": [
    "C70_counter_exact_partial",
    "C70_counter_exact_refuted"
   ],
   "note": "Exact if no workflow has a limit of matched logs; refuted otherwise: the counter never returns to zero and the workflow stops starting."
  },
  {
   "property": "C71",
   "status": "partial",
   "theorems": [
    "C71_reader_dropped_refuted",
    "C71_restart_while_reading_refuted"
   ],
   "note": "False: starting a read clears the record's checksum, so a reader that goes away loses the record. Two witnesses."
  },
  {
   "property": "C72",
   "status": "partial",
   "theorems": [
    "C72_crash_in_commit_refuted"
   ],
   "note": "False: a crash between the header stores makes the whole file be thrown away. What does survive: C08_crash_keeps."
  },
  {
   "property": "C73",
   "status": "partial",
   "theorems": [
    "C73_temporary_failure_refuted"
   ],
   "note": "Refuted: get deletes the key on any error, also on a failed read."
  },
  {
   "property": "C74",
   "status": "partial",
   "theorems": [
    "C74_dropped_refuted"
   ],
   "note": "Refuted: a sample that began more than a minute before a report is dropped with everything recorded in it since."
  },
  {
   "property": "C75",
   "status": "partial",
   "theorems": [
    "C75_latest",
    "C75_once",
    "C75_delivered_partial",
    "C75_tail",
    "C75_lost_refuted"
   ],
   "note": "At most once and only to configured buffers: proved for all runs. Exactly the right buffers: proved when no continuous buffer is removed by an update. Refuted otherwise: a pending action keeps a removed streaming destination and, once approved, logs of its buffers are lost."
  },
  {
   "property": "C65",
   "status": "partial",
   "theorems": [
    "C65_one_upload",
    "C65_started",
    "C65_answer",
    "C65_early_answer_refuted"
   ],
   "note": "C65_one_upload, C65_started, C65_answer hold for every interleaving. The part 'the uploads of the requested buffers are over' fails when another request started the upload: C65_early_answer_refuted (consumer.rs skips active uploads and joins only those it started)."
  },
  {
   "property": "C76",
   "status": "partial",
   "theorems": [
    "C76_answered_partial",
    "C76_request",
    "C76_removed_buffer_refuted"
   ],
   "note": "C76_request says what each request does. C76_answered_partial: all answered in order while requested buffers stay configured; C76_removed_buffer_refuted: one request for a buffer that was just removed ends the flush task and no later request is answered."
  },
  {
   "property": "C77",
   "status": "partial",
   "theorems": [
    "C77_update",
    "C77_announced",
    "C77_type_change_refuted",
    "C77_repeated_id_refuted"
   ],
   "note": "C77_update and C77_announced hold for configurations without repeated ids; refuted: a changed type is ignored, a repeated id opens a second ring buffer over the same file."
  },
  {
   "property": "C79",
   "status": "partial",
   "theorems": [
    "C79_agreement",
    "C79_progress",
    "C79_completes_partial",
    "C79_deadlock_refuted"
   ],
   "note": "C79_agreement, C79_progress hold for all executions; C79_completes_partial: terminates if no running trigger upload reads a buffer that is removed; C79_deadlock_refuted: otherwise API task, upload manager and upload wait for each other for ever (only shutting down the SDK, not modelled, gets out)."
  },
  {
   "property": "C80",
   "status": "partial",
   "theorems": [
    "C80_records",
    "C80_exactly_once",
    "C80_flush",
    "C80_alive_partial",
    "C80_drains_partial",
    "C80_alive_refuted"
   ],
   "note": "Proved for new files: order, bytes, once; exactly once for non-overwriting files with kept readers; flush; the thread stays alive and drains under the condition that the file has room for the largest RAM record (partial: with record checksums the constructor accepts sizes where it does not, refuted with witness: thread ends silently). Draining proved for overwriting files without reader."
  },
  {
   "property": "C81",
   "status": "partial",
   "theorems": [
    "C81_saved_partial",
    "C81_saved_refuted",
    "C81_ends_refuted"
   ],
   "note": "Safety of shutdown proved for overwriting buffers (partial); refuted for non-overwriting ones (documented TODO: RAM records are dropped) and as to ending (a reader dropped during a read leaves the flush thread and shutdown waiting forever)."
  },
  {
   "property": "C82",
   "status": "proved",
   "theorems": [
    "C82_told",
    "C82_status",
    "C82_returns",
    "C82_only_after"
   ],
   "note": "Complete for the watch channel; tokio's watch is modelled by a version, a value and counts of senders and receivers."
  },
  {
   "property": "C83",
   "status": "partial",
   "theorems": [
    "C83_stops_partial",
    "C83_stops_refuted"
   ],
   "note": "Proved for the blocking shutdown of a running logger. Refuted for shutdown(false) and for dropping the logger: the log buffer keeps a ComponentShutdownTriggerHandle, so the watch sender stays alive, nobody is ever told, and a later shutdown(true) does nothing either. What a component does once told (ending in finite time) is not part of the model."
  },
  {
   "property": "C84",
   "status": "partial",
   "theorems": [
    "C84_switch",
    "C84_off",
    "C84_pacing",
    "C84_new_rate",
    "C84_due",
    "C84_ticks",
    "C84_no_crash_partial",
    "C84_no_crash_refuted"
   ],
   "note": "Pacing and switching are complete. Absence of a crash is refuted: a reporting interval of zero (tokio's interval panics) ends the run loop; proved for nonzero intervals."
  },
  {
   "property": "C85",
   "status": "partial",
   "theorems": [
    "C85_told",
    "C85_counts",
    "C85_reasons",
    "C85_one_at_a_time_partial",
    "C85_no_unexpected",
    "C85_served",
    "C85_one_at_a_time_refuted",
    "C85_recovers_refuted"
   ],
   "note": "One at a time holds if the platform logs a screenshot only when asked (polite); refuted without that. Recovery is refuted: a screenshot that never reaches the interceptor blocks all later ones for the life of the process. C85_told: the interceptor tells the recorder right after each taken screenshot log and never otherwise."
  },
  {
   "property": "C86",
   "status": "partial",
   "theorems": [
    "C86_follows",
    "C86_looks",
    "C86_alternates_refuted",
    "C86_already_on_refuted"
   ],
   "note": "The last call agrees with the switch and every change is noticed (flag off when the listener is made, as in the shipped wiring). Refuted: alternation (coalesced updates), and a flag already on at creation is not acted on."
  },
  {
   "property": "C87",
   "status": "proved",
   "theorems": [
    "C87_fields"
   ],
   "note": "Names starting with _ (the SDK's own) are covered by C89, C94, C95."
  },
  {
   "property": "C88",
   "status": "partial",
   "theorems": [
    "C88_once_in_order",
    "C88_pipeline",
    "C88_after_configuration",
    "C88_asked",
    "C88_stopped_refuted"
   ],
   "note": "What is not so: logs still in the channel when the loop is told to stop are lost (C88_stopped_refuted). Dropping by the pre-config buffer is C32."
  },
  {
   "property": "C89",
   "status": "proved",
   "theorems": [
    "C89_overridden",
    "C89_not_overridden"
   ],
   "note": ""
  },
  {
   "property": "C90",
   "status": "proved",
   "theorems": [
    "C90_returns",
    "C90_not_before",
    "C90_progress"
   ],
   "note": ""
  },
  {
   "property": "C91",
   "status": "partial",
   "theorems": [
    "C91_flushed",
    "C91_unconfigured_refuted",
    "C91_stopped_refuted"
   ],
   "note": "What is not so: before the first configuration the logs stay in memory (C91_unconfigured_refuted); when the loop is told to stop the call returns with nothing flushed (C91_stopped_refuted)."
  },
  {
   "property": "C92",
   "status": "partial",
   "theorems": [
    "C92_provider",
    "C92_flush_refuted"
   ],
   "note": "Proved for calls other than flush_state; a blocking flush_state from the provider panics the loop (C92_flush_refuted)."
  },
  {
   "property": "C93",
   "status": "partial",
   "theorems": [
    "C93_session",
    "C93_session_of_call_refuted"
   ],
   "note": "Proved for the time the log is taken; a log called before a new session and taken after it gets the new id (C93_session_of_call_refuted)."
  },
  {
   "property": "C94",
   "status": "proved",
   "theorems": [
    "C94_reported"
   ],
   "note": ""
  },
  {
   "property": "C95",
   "status": "proved",
   "theorems": [
    "C95_quality"
   ],
   "note": ""
  },
  {
   "property": "C96",
   "status": "proved",
   "theorems": [
    "C96_order",
    "C96_nothing_lost"
   ],
   "note": ""
  },
  {
   "property": "C97",
   "status": "partial",
   "theorems": [
    "C97_alive",
    "C97_hears",
    "C97_error_shutdown_refuted",
    "C97_error_shutdown_closed_refuted",
    "C97_shutdown_refuted"
   ],
   "note": "Proved for servers that do not answer a handshake with an error shutdown and before the shutdown signal; outside of that it is false, with witnesses."
  },
  {
   "property": "C98",
   "status": "partial",
   "theorems": [
    "C98_progress",
    "C98_deadlock_refuted",
    "C98_shutdown_refuted"
   ],
   "note": "Proved while fewer than 16 events wait; with 16 the tasks can wait for each other for ever (C98_deadlock_refuted); shutdown is not noticed while the response is awaited (C98_shutdown_refuted)."
  },
  {
   "property": "C99",
   "status": "partial",
   "theorems": [
    "C99_unary",
    "C99_one_message",
    "C99_headers",
    "C99_message_refuted",
    "C99_trailers_refuted"
   ],
   "note": "Proved with the code; the text of an error comes back URL encoded (C99_message_refuted), and trailers of a unary response are not looked at (C99_trailers_refuted)."
  },
  {
   "property": "C100",
   "status": "partial",
   "theorems": [
    "C100_stream",
    "C100_rejected",
    "C100_lines_refuted",
    "C100_text_refuted",
    "C100_truncated_refuted"
   ],
   "note": "Proved for error texts of visible ASCII; otherwise false, as for cut streams (refuted theorems)."
  },
  {
   "property": "C101",
   "status": "proved",
   "theorems": [
    "C101_reader",
    "C101_same",
    "C101_stop"
   ],
   "note": ""
  },
  {
   "property": "C102",
   "status": "proved",
   "theorems": [
    "C102_stats"
   ],
   "note": ""
  },
  {
   "property": "C103",
   "status": "partial",
   "theorems": [
    "C103_not_before_partial",
    "C103_body_refuted"
   ],
   "note": "Only the wait for the response is covered; the wait for the body has no bound (C103_body_refuted)."
  },
  {
   "property": "C104",
   "status": "partial",
   "theorems": [
    "C104_sound_partial",
    "C104_sint_refuted",
    "C104_min_len_refuted",
    "C104_duration_required_refuted"
   ],
   "note": "Proved for messages whose rules are of the type of their field, whose strings are ASCII, without sint32/sint64 rules and without duration.required. Each of the last three limits is needed: the refuted theorems show an accepted message that breaks a sint32 rule, a min_len (bytes are counted, not characters), and duration.required on a missing duration."
  },
  {
   "property": "C105",
   "status": "partial",
   "theorems": [
    "C105_complete_partial",
    "C105_max_len_refuted",
    "C105_ignore_empty_refuted",
    "C105_skip_refuted"
   ],
   "note": "Proved for ASCII strings and rules that are all supported. Refuted without: max_len counts bytes, string ignore_empty and message skip are not looked at and not reported."
  },
  {
   "property": "C106",
   "status": "proved",
   "theorems": [
    "C106_first_five",
    "C106_counted"
   ],
   "note": ""
  },
  {
   "property": "C107",
   "status": "partial",
   "theorems": [
    "C107_told_partial",
    "C107_details",
    "C107_nested_refuted",
    "C107_panic_refuted"
   ],
   "note": "Proved when no thread is in two scopes at once and no scope ends by a panic. Refuted otherwise: leaving an inner scope also removes the outer reporter, and a panic leaves the reporter of its scope in place."
  },
  {
   "property": "C108",
   "status": "partial",
   "theorems": [
    "C108_ends_partial",
    "C108_reentry_refuted"
   ],
   "note": "Proved when neither the reporter nor the details closure calls the handler. Refuted otherwise: the mutex is not re-entrant and is held while they run, so all threads block for good."
  },
  {
   "property": "C109",
   "status": "partial",
   "theorems": [
    "C109_metadata",
    "C109_session",
    "C109_fields",
    "C109_session_refuted"
   ],
   "note": "Proved for metadata whose names stay distinct; refuted for an entry called session_id."
  },
  {
   "property": "C110",
   "status": "partial",
   "theorems": [
    "C110_follows_partial",
    "C110_settles",
    "C110_always_something",
    "C110_failure_refuted",
    "C110_in_place_refuted"
   ],
   "note": "Proved as long as notifications do not fail and the last change was a swap. Refuted otherwise: an error from notify ends the task, after which no change is ever seen; writes in place are not looked for."
  },
  {
   "property": "C111",
   "status": "proved",
   "theorems": [
    "C111_counted",
    "C111_kinds"
   ],
   "note": ""
  },
  {
   "property": "C112",
   "status": "proved",
   "theorems": [
    "C112_share",
    "C112_monotone",
    "C112_typed"
   ],
   "note": ""
  },
  {
   "property": "C113",
   "status": "partial",
   "theorems": [
    "C113_final_partial",
    "C113_returns",
    "C113_second_refuted"
   ],
   "note": "Proved for the first caller of shutdown. Refuted for a second one at the same time: it returns at once and may see the snapshot change after that."
  },
  {
   "property": "C114",
   "status": "proved",
   "theorems": [
    "C114_consent"
   ],
   "note": "Full statement."
  },
  {
   "property": "C115",
   "status": "partial",
   "theorems": [
    "C115_asked_partial",
    "C115_rejected_refuted"
   ],
   "note": "The part about a path the server failed to store is false: C115_rejected_refuted (an answer with an error counts as stored, the path is remembered as settled). The rest is C115_asked_partial."
  },
  {
   "property": "C116",
   "status": "partial",
   "theorems": [
    "C116_new_partial",
    "C116_same_id_refuted"
   ],
   "note": "False: the path id hashes the nodes without separators (C116_same_id_refuted, for every hash function). C116_new_partial: a path whose diagram and path id did not come before is offered."
  },
  {
   "property": "C117",
   "status": "proved",
   "theorems": [
    "C117_counters",
    "C117_order"
   ],
   "note": "Full statement."
  },
  {
   "property": "C118",
   "status": "partial",
   "theorems": [
    "C118_metrics",
    "C118_closed",
    "C118_waits",
    "C118_returns",
    "C118_told",
    "C118_runs_refuted"
   ],
   "note": "C118_metrics, C118_closed, C118_waits, C118_told, C118_returns. That it runs until told to stop is false: a failure to accept ends it at once, without waiting (C118_runs_refuted)."
  },
  {
   "property": "C119",
   "status": "partial",
   "theorems": [
    "C119_process",
    "C119_restarts_partial",
    "C119_stored",
    "C119_write_refuted",
    "C119_read_refuted"
   ],
   "note": "Within a process always (C119_process); over restarts if the storage works (C119_restarts_partial, C119_stored). A failed write or a failed read changes the id (C119_write_refuted, C119_read_refuted)."
  },
  {
   "property": "C120",
   "status": "proved",
   "theorems": [
    "C120_identity",
    "C120_values",
    "C120_gathered",
    "C120_vec"
   ],
   "note": "Full statement; the metrics of vectors are not modelled."
  },
  {
   "property": "C121",
   "status": "partial",
   "theorems": [
    "C121_panics_partial",
    "C121_labels_refuted",
    "C121_vec_refuted"
   ],
   "note": "False (C121_labels_refuted, C121_vec_refuted). C121_panics_partial says exactly when a request panics."
  },
  {
   "property": "C122",
   "status": "partial",
   "theorems": [
    "C122_counter",
    "C122_others",
    "C122_vec_refuted"
   ],
   "note": "True of counters, gauges and histograms (C122_counter, C122_others); false of vectors, which lose the scope's labels (C122_vec_refuted)."
  },
  {
   "property": "C123",
   "status": "partial",
   "theorems": [
    "C123_first_partial",
    "C123_others_refuted"
   ],
   "note": "False if the histogram was asked for before with others (C123_others_refuted); C123_first_partial: the first request decides."
  },
  {
   "property": "C124",
   "status": "proved",
   "theorems": [
    "C124_pings",
    "C124_due",
    "C124_none"
   ],
   "note": "Proved for all executions; due is computed from the trace alone."
  },
  {
   "property": "C125",
   "status": "partial",
   "theorems": [
    "C125_silence_refuted"
   ],
   "note": "Only refuted: after an unanswered ping no timer is armed, the stream stays up and online for any length of silence."
  },
  {
   "property": "C126",
   "status": "proved",
   "theorems": [
    "C126_offline",
    "C126_up"
   ],
   "note": "Proved."
  },
  {
   "property": "C127",
   "status": "partial",
   "theorems": [
    "C127_attempts_partial",
    "C127_waiting_refuted",
    "C127_backoff_refuted"
   ],
   "note": "Partial: at each attempt the quality is set to offline if the first attempt since a stream was up is more than 15 s ago. Refuted while the first handshake is awaited (unknown for ever) and during the wait before a reconnect (still online)."
  },
  {
   "property": "C128",
   "status": "proved",
   "theorems": [
    "C128_spaced",
    "C128_long_lived"
   ],
   "note": "Proved for all windows; the bound needs positive intervals, which the runtime may set to zero."
  },
  {
   "property": "C129",
   "status": "proved",
   "theorems": [
    "C129_soon",
    "C129_grows",
    "C129_until"
   ],
   "note": "Proved; the crate backoff is modelled from its documentation and source."
  },
  {
   "property": "C130",
   "status": "proved",
   "theorems": [
    "C130_reason",
    "C130_counters"
   ],
   "note": "Proved."
  },
  {
   "property": "C131",
   "status": "partial",
   "theorems": [
    "C131_header",
    "C131_measured_partial",
    "C131_displaced_refuted"
   ],
   "note": "C131_measured_partial: the measured fields are in the log unless the caller or the provider gave an out-of-the-box field of the same name; C131_displaced_refuted: then the measured value is lost."
  },
  {
   "property": "C132",
   "status": "partial",
   "theorems": [
    "C132_offered_partial",
    "C132_once",
    "C132_full_refuted",
    "C132_guard_refuted"
   ],
   "note": "C132_offered_partial: the call offers the log exactly if the version differs from the one on record; C132_once: not twice. C132_full_refuted and C132_guard_refuted: the version is recorded before the log is offered, so a full channel or a call inside the guard loses the update for good."
  },
  {
   "property": "C133",
   "status": "proved",
   "theorems": [
    "C133_counted",
    "C133_captures"
   ],
   "note": "Without faults of the storage (sound)."
  },
  {
   "property": "C134",
   "status": "proved",
   "theorems": [
    "C134_held_off",
    "C134_passes",
    "C134_session",
    "C134_panics"
   ],
   "note": "The version on record is changed also from inside the guard (see C132)."
  },
  {
   "property": "C135",
   "status": "partial",
   "theorems": [
    "C135_delivered",
    "C135_batches",
    "C135_released",
    "C135_removed_partial",
    "C135_no_failure",
    "C135_removed_refuted"
   ],
   "note": "Refuted part: a task that gave up an upload at shutdown may read another record before it sees the shutdown again; releasing after that second batch removes the record of the first, which was never answered (cf. C18). New file, one task started once."
  },
  {
   "property": "C136",
   "status": "partial",
   "theorems": [
    "C136_delivered_partial",
    "C136_delivered_refuted"
   ],
   "note": "Proved when the RAM buffer is no larger than the file's data area (as then every record that fits in RAM fits in the file). Refuted without it: a record that fits in RAM and not in the file ends the flush thread (C80) and nothing is uploaded in any continuation. Fairness is stated as rounds of attempts; new file, one task started once, OBlock overflow policy, no shutdown."
  },
  {
   "property": "C137",
   "status": "partial",
   "theorems": [
    "C137_records",
    "C137_private",
    "C137_metrics_partial",
    "C137_paths_partial",
    "C137_metrics_refuted",
    "C137_paths_refuted"
   ],
   "note": "C137_records and C137_private are proved for all pipelines and histories. Metrics and Sankey paths are proved private under the hypothesis that no configuration asks for the value of a matching field (C137_metrics_partial, C137_paths_partial): FieldsRef::field_value falls back to the matching fields, so a metric tag, a metric value or a path node that names one reports its value although no filter captures it (C137_metrics_refuted, C137_paths_refuted)."
  },
  {
   "property": "C138",
   "status": "partial",
   "theorems": [
    "C138_settles",
    "C138_returns_partial",
    "C138_returns_refuted"
   ],
   "note": "C138_settles: after any history without shutdown in which a flush waits, the flush thread alone either ends the flush (RAM empty, its records in the file in order) or the SDK is frozen for good, the latter only if the file is short of room for the oldest RAM record. C138_returns_partial: it returns if the records in RAM and file fit in the file together. C138_returns_refuted: with a full file of records not uploaded yet the SDK's thread waits for room only its own upload task could make - nothing moves ever again. One continuous buffer; runtime of one thread as in build_dedicated_thread."
  },
  {
   "property": "C139",
   "status": "partial",
   "theorems": [
    "C139_settles_partial",
    "C139_nonblocking",
    "C139_stuck",
    "C139_refuted"
   ],
   "note": "Proved: from every reachable state without shutdown or failed part, the SDK's own moves deal with all accepted calls and answer all callers, unless the statistics wait for room in the channel of a connection that is not established or that waits for the log loop (C139_settles_partial); non-blocking calls never depend on that (C139_nonblocking); in the excluded case nothing moves once a call waits for the statistics (C139_stuck). Missing: the claim fails of the code - a killed client with an upload in the channel stands still at the first blocking log (C139_refuted). 'Can by its own moves': fairness of the scheduler is not modelled."
  },
  {
   "property": "C140",
   "status": "partial",
   "theorems": [
    "C140_ends_partial",
    "C140_once",
    "C140_ends_refuted"
   ],
   "note": "Proved: after a shutdown request all parts can end by their own moves and every caller is answered, except when statistics, connection and log loop wait for each other (C140_ends_partial); callers are answered in order and at most once in every history (C140_once). Missing: that cycle can arise with a connection that works, and then a shutdown never ends (C140_ends_refuted)."
  },
  {
   "property": "C141",
   "status": "partial",
   "theorems": [
    "C141_accepts_partial",
    "C141_accepts_refuted"
   ],
   "note": "Proved: without a shutdown and without a part that fails, calls are accepted whenever the channel has room (C141_accepts_partial). Missing: an error returned by the connection ends all parts (try_join) and every later call is refused (C141_accepts_refuted)."
  },
  {
   "property": "C142",
   "status": "partial",
   "theorems": [
    "C142_plain",
    "C142_once",
    "C142_kept_partial",
    "C142_routed_partial",
    "C142_order",
    "C142_lost_refuted"
   ],
   "note": "Proved without workflows (C142_plain) and for order and uniqueness; kept/routed are partial: no update removes a continuous buffer and no buffer fails (C142_lost_refuted shows that this is needed)."
  },
  {
   "property": "C143",
   "status": "partial",
   "theorems": [
    "C143_flushed_partial",
    "C143_saved_partial",
    "C143_unconfigured_refuted",
    "C143_replaced_refuted"
   ],
   "note": "Partial: conditions of C142, and the flush task answers; streamed records excepted. Refuted before the first configuration and for replaced logs."
  },
  {
   "property": "C144",
   "status": "partial",
   "theorems": [
    "C144_saved",
    "C144_torn_refuted"
   ],
   "note": "Proved for writes that are not torn; a torn write counts as saved (C144_torn_refuted)."
  },
  {
   "property": "C145",
   "status": "partial",
   "theorems": [
    "C145_plain",
    "C145_cursor_partial",
    "C145_spins_refuted",
    "C145_after_cursor_refuted",
    "C145_volatile",
    "C145_cancelled"
   ],
   "note": "Volatile buffers and the regular consumer of new file buffers proved in full; the cursor for files without damaged sizes. Refuted: a cursor that meets a damaged size while it holds a record loops without yielding and without end; a regular consumer registered after a cursor that read everything without releasing it waits although records are there."
  },
  {
   "property": "C146",
   "status": "partial",
   "theorems": [
    "C146_volatile",
    "C146_overwriting_partial",
    "C146_full_refuted",
    "C146_bytes_refuted"
   ],
   "note": "Volatile buffers in full; file buffers that overwrite: the number of records, for any file. Refuted: a file buffer that does not overwrite does not count records refused because it is full; bytes refused because of damage include the bookkeeping bytes."
  },
  {
   "property": "C147",
   "status": "proved",
   "theorems": [
    "C147_accepted",
    "C147_means",
    "C147_list"
   ],
   "note": "The parts of a definition are those of the protocol buffer; the validity of a regular expression is a parameter."
  },
  {
   "property": "C148",
   "status": "partial",
   "theorems": [
    "C148_workflows",
    "C148_runs_partial",
    "C148_traversals_partial",
    "C148_limit_hits",
    "C148_counted",
    "C148_session_refuted",
    "C148_matched_refuted",
    "C148_restored_refuted"
   ],
   "note": "Workflows: proved, also over restarts. Runs: proved while the session does not change; refuted at a change of the session, which drops all runs and counts none as stopped. Traversals: also without a limit of matched logs and if no restored run is left out; refuted otherwise."
  },
  {
   "property": "C149",
   "status": "proved",
   "theorems": [
    "C149_not_early",
    "C149_closed",
    "C149_tick",
    "C149_next",
    "C149_waits"
   ],
   "note": "Safety (C149_not_early, C149_closed) in every state and with all failures. C149_tick, C149_next, C149_waits in every state reached without a failed write, with at least two files allowed and fresh names; reads may fail before and the process may end anywhere, but the step itself does not fail."
  },
  {
   "property": "C150",
   "status": "partial",
   "theorems": [
    "C150_flush_partial",
    "C150_one_at_a_time",
    "C150_only_approvals",
    "C150_full_queue_refuted"
   ],
   "note": "C150_flush_partial, C150_one_at_a_time and C150_only_approvals hold for all histories. Partial because of the bound of ten waiting requests, beyond which an approved action is dropped (C150_full_queue_refuted). The requests of a process are recovered from the changes of the queue (WorkflowFlush_Spec)."
  },
  {
   "property": "C151",
   "status": "partial",
   "theorems": [
    "C151_channel_partial",
    "C151_channel_memory_partial",
    "C151_buffer",
    "C151_override_refuted",
    "C151_spare_refuted"
   ],
   "note": "On top of the channel of C30 and the buffer of C32, with the sizes of the code. Partial: an overriding session id of any length is counted as nothing (C151_override_refuted), spare capacity of strings too (C151_spare_refuted)."
  },
  {
   "property": "C152",
   "status": "proved",
   "theorems": [
    "C152_metadata",
    "C152_handshake",
    "C152_refused",
    "C152_stories"
   ],
   "note": "The two pipelines of the logger in either order; every sequence of events is shown to have the effect of a well-formed history (C152_stories). Network and framing are in other models."
  },
  {
   "property": "C153",
   "status": "partial",
   "theorems": [
    "C153_host_partial",
    "C153_alike",
    "C153_number_refuted"
   ],
   "note": "Proved without a number in the environment and for the likeness of all runtimes; refuted for numbers (line 44 converts the function instead of the parsed number)."
  },
  {
   "property": "C154",
   "status": "partial",
   "theorems": [
    "C154_pace_partial",
    "C154_change_partial",
    "C154_no_panic_partial",
    "C154_zero_refuted",
    "C154_restless_refuted"
   ],
   "note": "Pace, effect of a change and absence of panics proved for intervals other than zero; refuted for zero (tokio's interval_at panics) and for intervals changed more often than they elapse."
  },
  {
   "property": "C155",
   "status": "proved",
   "theorems": [
    "C155_labels",
    "C155_conserved",
    "C155_no_panic"
   ],
   "note": "Counters, calls of one thread; gauges and histograms share the code. The tracker under several threads is C58."
  },
  {
   "property": "C156",
   "status": "partial",
   "theorems": [
    "C156_gather_partial",
    "C156_ends",
    "C156_cycle_refuted",
    "C156_callback_refuted",
    "C156_gauge"
   ],
   "note": "Proved for chains without cycles; refuted for a collector chained to itself (the lock of the list is taken twice) and for callbacks of chained collectors that change metrics gathered before them. Callbacks do not gather themselves in the model."
  },
  {
   "property": "C157",
   "status": "partial",
   "theorems": [
    "C157_defined",
    "C157_path_partial",
    "C157_no_package_refuted",
    "C157_distinct",
    "C157_routed"
   ],
   "note": "Proved for files with a package; refuted for files without one. Routers of axum as documented; identifiers as protobuf allows them."
  },
  {
   "property": "C158",
   "status": "proved",
   "theorems": [
    "C158_record",
    "C158_sequence",
    "C158_one_reading"
   ],
   "note": "Record_Model: objects in place of bytes, offsets as positions; flatbuffers' layout, default values left out and verifier are not modelled; unix_timestamp rounds down as documented."
  },
  {
   "property": "C159",
   "status": "partial",
   "theorems": [
    "C159_reached_partial",
    "C159_error",
    "C159_no_error",
    "C159_opaque_refuted"
   ],
   "note": "Missing: opaque configuration updates, for which C159_opaque_refuted. Demux_Model: what an update does to a pipeline and which calls fail are parameters; a response of no or unknown type is ignored as in a release build (a debug build panics)."
  },
  {
   "property": "C160",
   "status": "partial",
   "theorems": [
    "C160_reported_once",
    "C160_exit_partial",
    "C160_line",
    "C160_backtrace",
    "C160_forced_refuted"
   ],
   "note": "Missing: a call that asks for an exit followed by one that does not, for which C160_forced_refuted. Panic_Model: handlers as functions to effects; panics of a handler and wasm are not modelled."
  }
 ]
}