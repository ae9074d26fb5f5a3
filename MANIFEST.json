{
 "claims": [
  {
   "property": "C01",
   "status": "proved",
   "theorems": [
    "C01_strict_order_append_drop"
   ],
   "note": ""
  },
  {
   "property": "C02",
   "status": "proved",
   "theorems": [
    "C02_order_invariant",
    "C02_families"
   ],
   "note": ""
  },
  {
   "property": "C03",
   "status": "proved",
   "theorems": [
    "C03_searches_are_linear_scans"
   ],
   "note": ""
  },
  {
   "property": "C04",
   "status": "proved",
   "theorems": [
    "C04_range_is_closed_interval"
   ],
   "note": ""
  },
  {
   "property": "C05",
   "status": "proved",
   "theorems": [
    "C05_append_accepts_exactly_greater"
   ],
   "note": ""
  },
  {
   "property": "C06",
   "status": "proved",
   "theorems": [
    "C06_never_more_than_maxlen",
    "C06_maxlen_in_force",
    "C06_append_keeps_newest"
   ],
   "note": ""
  },
  {
   "property": "C07",
   "status": "proved",
   "theorems": [
    "C07_index_count_contains_remove",
    "C07_sorted_collection_index_count"
   ],
   "note": ""
  },
  {
   "property": "C08",
   "status": "proved",
   "theorems": [
    "C08_insert_positions"
   ],
   "note": ""
  },
  {
   "property": "C09",
   "status": "proved",
   "theorems": [
    "C09_construction_sorts",
    "C09_negative_maxlen_rejected"
   ],
   "note": ""
  },
  {
   "property": "C10",
   "status": "proved",
   "theorems": [
    "C10_drop"
   ],
   "note": ""
  },
  {
   "property": "C11",
   "status": "partial",
   "theorems": [
    "C11_copy_reorders_equal_keys_refuted",
    "C11_copy_exact_partial"
   ],
   "note": "The code violates the property for items with equal keys (copy re-sorts them by item): witness proved. Proved exactly for every container fed by append/drop."
  },
  {
   "property": "C12",
   "status": "proved",
   "theorems": [
    "C12_writer_excludes_all"
   ],
   "note": ""
  },
  {
   "property": "C13",
   "status": "proved",
   "theorems": [
    "C13_no_torn_reads",
    "C13_reader_sees_whole_writes"
   ],
   "note": "RWLockSortedDeque.__len__ reads without the lock and is outside this claim."
  },
  {
   "property": "C14",
   "status": "proved",
   "theorems": [
    "C14_no_deadlock_without_nesting",
    "C14_everything_finishes"
   ],
   "note": ""
  },
  {
   "property": "C15",
   "status": "proved",
   "theorems": [
    "C15_writer_priority",
    "C15_readers_only_leave"
   ],
   "note": ""
  },
  {
   "property": "C16",
   "status": "proved",
   "theorems": [
    "C16_readers_do_not_block_readers"
   ],
   "note": ""
  },
  {
   "property": "C17",
   "status": "partial",
   "theorems": [
    "C17_new_range_can_deadlock_refuted",
    "C17_no_deadlock_partial",
    "C17_calls_always_finish_partial",
    "C17_somebody_moves_partial"
   ],
   "note": "The code violates the property: range(only_new_items=True) by a reader with a cursor takes the reader lock twice and can deadlock with a waiting append, for good; proved for every such call. Every other call is proved free of deadlock, on the lock alone and with the calls access by access (several threads on one reader too): all runs are bounded, and nobody is stuck before all calls have returned."
  },
  {
   "property": "C18",
   "status": "proved",
   "theorems": [
    "C18_locks_balanced",
    "C18_lock_nesting",
    "C18_lock_free_at_rest"
   ],
   "note": ""
  },
  {
   "property": "C19",
   "status": "proved",
   "theorems": [
    "C19_log_with_cursors",
    "C19_increasing_source",
    "C19_no_drop"
   ],
   "note": "For histories in the classes op_ok: appended items are not None and keys and range bounds lie in one totally ordered family."
  },
  {
   "property": "C20",
   "status": "proved",
   "theorems": [
    "C20_read_is_earliest_after_cursor"
   ],
   "note": ""
  },
  {
   "property": "C21",
   "status": "proved",
   "theorems": [
    "C21_reads_never_repeat"
   ],
   "note": ""
  },
  {
   "property": "C22",
   "status": "proved",
   "theorems": [
    "C22_keeps_up_misses_nothing",
    "C22_increasing_source"
   ],
   "note": ""
  },
  {
   "property": "C23",
   "status": "proved",
   "theorems": [
    "C23_readers_independent"
   ],
   "note": ""
  },
  {
   "property": "C24",
   "status": "proved",
   "theorems": [
    "C24_peek_keeps_cursor",
    "C24_peek_same_value"
   ],
   "note": ""
  },
  {
   "property": "C25",
   "status": "partial",
   "theorems": [
    "C25_reader_defaults_partial",
    "C25_defaults_for_ever_partial",
    "C25_peek_default_refuted"
   ],
   "note": "The code violates the property for peek: read() does not use the constructor's peek (next() does). Witness; the other three defaults proved."
  },
  {
   "property": "C26",
   "status": "proved",
   "theorems": [
    "C26_read_n"
   ],
   "note": ""
  },
  {
   "property": "C27",
   "status": "partial",
   "theorems": [
    "C27_strict_n_partial",
    "C27_strict_n_refuted",
    "C27_strict_n_ignores_ignore_refuted"
   ],
   "note": "The code violates the property: with exactly n unread items read(n, strict_n=True) raises (off by one), and it raises also under ignore_no_item_found. Witnesses; proved: all n or nothing, and success exactly when more than n are available."
  },
  {
   "property": "C28",
   "status": "proved",
   "theorems": [
    "C28_range"
   ],
   "note": ""
  },
  {
   "property": "C29",
   "status": "proved",
   "theorems": [
    "C29_only_new_items"
   ],
   "note": "For key functions that do not return a comparable key for None (with ignore_no_item_found the code evaluates key(None))."
  },
  {
   "property": "C30",
   "status": "proved",
   "theorems": [
    "C30_rounding"
   ],
   "note": ""
  },
  {
   "property": "C31",
   "status": "proved",
   "theorems": [
    "C31_tail_head"
   ],
   "note": ""
  },
  {
   "property": "C32",
   "status": "partial",
   "theorems": [
    "C32_nothing_to_return_partial",
    "C32_index_error_refuted",
    "C32_identity_key_refuted"
   ],
   "note": "The code violates the property: tail() on an empty buffer and range() over an empty interval raise IndexError, and range(only_new_items, ignore_no_item_found) with an identity key raises TypeError. Witnesses; the exact behaviour is proved."
  },
  {
   "property": "C33",
   "status": "proved",
   "theorems": [
    "C33_next_protocol"
   ],
   "note": ""
  },
  {
   "property": "C34",
   "status": "proved",
   "theorems": [
    "C34_for_loop_drains_stopped_stream"
   ],
   "note": ""
  },
  {
   "property": "C35",
   "status": "partial",
   "theorems": [
    "C35_loop_delivers_partial",
    "C35_last_items_lost_refuted"
   ],
   "note": "The code violates the property: an item appended after the loop's last poll and before stop() is never yielded (witness). Proved: everything appended before that last poll has been yielded."
  },
  {
   "property": "C36",
   "status": "proved",
   "theorems": [
    "C36_blocking_read"
   ],
   "note": ""
  },
  {
   "property": "C37",
   "status": "proved",
   "theorems": [
    "C37_mk_reader",
    "C37_attach_reader",
    "C37_next"
   ],
   "note": ""
  },
  {
   "property": "C38",
   "status": "proved",
   "theorems": [
    "C38_thread_life",
    "C38_source_sessions"
   ],
   "note": ""
  },
  {
   "property": "C39",
   "status": "partial",
   "theorems": [
    "C39_restart_partial",
    "C39_old_thread_survives_refuted",
    "C39_old_failure_stops_new_session_refuted"
   ],
   "note": "The code violates the property when a read outlasts stop()'s one second: the old thread goes on reading and appends to the new buffer, and its failure stops the new session and closes its source (witnesses). Proved when earlier threads have ended by the time start() replaces them; C107 gives timing bounds under which they have."
  },
  {
   "property": "C40",
   "status": "proved",
   "theorems": [
    "C40_nothing_lost",
    "C40_old_thread_evicts_refuted"
   ],
   "note": "C40_old_thread_evicts_refuted shows that the precondition is needed."
  },
  {
   "property": "C41",
   "status": "proved",
   "theorems": [
    "C41_read_order",
    "C41_own_buffer"
   ],
   "note": ""
  },
  {
   "property": "C42",
   "status": "proved",
   "theorems": [
    "C42_failure_stops_cleanly",
    "C42_items_stay",
    "C42_refused_items"
   ],
   "note": ""
  },
  {
   "property": "C43",
   "status": "proved",
   "theorems": [
    "C43_stop_is_effective"
   ],
   "note": ""
  },
  {
   "property": "C44",
   "status": "partial",
   "theorems": [
    "C44_after_stop_partial",
    "C44_after_stop_refuted"
   ],
   "note": "The code violates the property: stop() sleeps one second instead of joining, so a slow read appends after it returned (witness). Proved: once the threads have ended, nothing changes until the next start(); C107 gives timing bounds under which they have ended when stop() returns."
  },
  {
   "property": "C45",
   "status": "partial",
   "theorems": [
    "C45_is_running_partial",
    "C45_failed_start_runs_refuted"
   ],
   "note": "The code violates the property: after a start() whose open() raised, is_running is True (witness). Proved for all other cases."
  },
  {
   "property": "C46",
   "status": "partial",
   "theorems": [
    "C46_info_partial",
    "C46_info_empty_buffer_refuted"
   ],
   "note": "The code violates the property: source_reader_info is None while the buffer is empty, because the truth value of the buffer is its length (witness). Proved: readers always have the info captured at open; the stream has it exactly when the buffer is not empty."
  },
  {
   "property": "C47",
   "status": "partial",
   "theorems": [
    "C47_current_session_partial",
    "C47_start_on_running_stream",
    "C47_stale_after_failure_refuted"
   ],
   "note": "The code violates the property: if the source failed and start() is called again, next(stream_buffer) stays on the old session and raises StopIteration (witness). Proved whenever the stream's own reader was reset before each start, which start() on a running stream does itself."
  },
  {
   "property": "C48",
   "status": "partial",
   "theorems": [
    "C48_old_sessions_frozen_partial",
    "C48_orderly_frozen_partial",
    "C48_late_writes_bounded_partial",
    "C48_stays_stopped",
    "C48_late_append_refuted",
    "C48_late_drop_refuted"
   ],
   "note": "The code violates the property when a restart overtakes an append or a drop() that has already loaded the old buffer: that one item still goes to (or leaves) the old session. Proved: nothing changes once nobody holds the old buffer, in particular after restarts that find the old threads ended and with no drop() under way; at most one more write by each thread or caller that held the buffer; a stopped reader stays stopped."
  },
  {
   "property": "C49",
   "status": "proved",
   "theorems": [
    "C49_drop_refused",
    "C49_drop_takes_current",
    "C49_drop_removes_oldest",
    "C49_each_call_once"
   ],
   "note": "drop() is two steps: the load of the current buffer and the removal from the buffer loaded."
  },
  {
   "property": "C50",
   "status": "proved",
   "theorems": [
    "C50_sleep_time"
   ],
   "note": ""
  },
  {
   "property": "C51",
   "status": "partial",
   "theorems": [
    "C51_working_configurations_partial",
    "C51_unbounded_manual_drop_refuted"
   ],
   "note": "The code violates the property in every history: the comparison of a length with None kills the thread before its first read. Proved for the other configurations: a thread dies of nothing but an exception of read(), of the append or of time.sleep() (for the last see C117)."
  },
  {
   "property": "C52",
   "status": "proved",
   "theorems": [
    "C52_stop_after_last_close",
    "C52_nothing_else_stops"
   ],
   "note": ""
  },
  {
   "property": "C53",
   "status": "partial",
   "theorems": [
    "C53_counts_close_calls_partial",
    "C53_double_close_refuted"
   ],
   "note": "The code violates the property: every close() call decrements the count, so closing one of two readers twice stops the stream (witness). Proved: close() never raises and stops exactly when the close calls reach the opened readers in number."
  },
  {
   "property": "C54",
   "status": "partial",
   "theorems": [
    "C54_running_partial",
    "C54_never_reopened_refuted"
   ],
   "note": "The code violates the property in every history: the source is opened at most once, and a reader opened after the stop is on the stopped session. Proved as long as the stream was not stopped."
  },
  {
   "property": "C55",
   "status": "partial",
   "theorems": [
    "C55_configure_buffer",
    "C55_default_buffer",
    "C55_reader_cls_ignored_refuted"
   ],
   "note": "Buffer settings proved. The reader_cls half is violated in every history: the class of the readers does not depend on it."
  },
  {
   "property": "C56",
   "status": "partial",
   "theorems": [
    "C56_with_opened_partial",
    "C56_opened_readers_partial",
    "C56_assigned_partial",
    "C56_with_made_refuted"
   ],
   "note": "Proved for open_reader(), and for any reader once onclose was assigned. The code violates the property for every reader of mk_reader: close() raises AttributeError, and so does leaving a with block."
  },
  {
   "property": "C57",
   "status": "proved",
   "theorems": [
    "C57_enumerated_never_rejected"
   ],
   "note": "For every stream (any sessions, schedules, read_stream results of any type) of mk_stream_buffer with enumerate_data=True and key=None."
  },
  {
   "property": "C58",
   "status": "partial",
   "theorems": [
    "C58_none_is_no_data_partial",
    "C58_enumerated_none_refuted"
   ],
   "note": "True with enumerate_data=False. With the default enumerate_data=True it is false of the code: each None is stored as (index, None) (simply.py:97-103)."
  },
  {
   "property": "C59",
   "status": "partial",
   "theorems": [
    "C59_always_stopped",
    "C59_exceptions_partial",
    "C59_stop_iteration_refuted"
   ],
   "note": "The stream is always stopped. Exceptions of the body and of open_stream reach the caller, except that a StopIteration of open_stream becomes RuntimeError (PEP 479, the context manager is a generator)."
  },
  {
   "property": "C60",
   "status": "partial",
   "theorems": [
    "C60_call_forwards",
    "C60_with_statement",
    "C60_with_instance",
    "C60_default_does_nothing",
    "C60_nested_refuted"
   ],
   "note": "Proved for wrapped objects whose __dict__ has no func/enter_func/exit_func entry. For others, such as another ContextualizeCall, the code violates the property: wraps(func)(self) copies the inner attributes over the new ones (util.py:129-133)."
  },
  {
   "property": "C61",
   "status": "partial",
   "theorems": [
    "C61_rejects_soundly_partial",
    "C61_exit_signature_ignored_refuted",
    "C61_accepts_uncallable_refuted",
    "C61_what_is_checked"
   ],
   "note": "Rejections are justified. Acceptance is not: the exit signature is never looked at (util.py:58 names the predicate instead of calling it) and the enter check counts parameters of every kind."
  },
  {
   "property": "C62",
   "status": "proved",
   "theorems": [
    "C62_defaulted_values"
   ],
   "note": ""
  },
  {
   "property": "C63",
   "status": "partial",
   "theorems": [
    "C63_url_and_headers_partial",
    "C63_kept_request_partial",
    "C63_method_and_body_refuted"
   ],
   "note": "Url and headers proved. The code violates the property for method and body: open() builds a new GET request without a body."
  },
  {
   "property": "C64",
   "status": "partial",
   "theorems": [
    "C64_flag_setting_classes",
    "C64_with_statements_partial",
    "C64_direct_calls_refuted"
   ],
   "note": "Proved for QuickSourceReader and classes that set _closed; for the other classes of the repo only under with statements: StreamBuffer calls open()/close() directly and closed stays True."
  },
  {
   "property": "C65",
   "status": "proved",
   "theorems": [
    "C65_yields_valid_data",
    "C65_default_skips_none"
   ],
   "note": ""
  },
  {
   "property": "C66",
   "status": "proved",
   "theorems": [
    "C66_counter",
    "C66_key_and_misuse"
   ],
   "note": ""
  },
  {
   "property": "C67",
   "status": "proved",
   "theorems": [
    "C67_no_thread",
    "C67_start_returns",
    "C67_retry"
   ],
   "note": ""
  },
  {
   "property": "C68",
   "status": "partial",
   "theorems": [
    "C68_key_assignment_drops_maxlen_refuted",
    "C68_key_assignment_partial",
    "C68_key_deletion_keeps_maxlen"
   ],
   "note": "The code violates the property: the key property object was created in the base class, so assignment runs the base _setkey, which re-initialises with maxlen=None. Witness, plus what assignment does in every state; del d.key does keep the bound."
  },
  {
   "property": "C69",
   "status": "partial",
   "theorems": [
    "C69_negative_maxlen_assignment_refuted",
    "C69_maxlen_assignment_partial"
   ],
   "note": "The code violates the first half: a negative maxlen raises but leaves an unbounded container that still reports the old maxlen. Witness; second half proved."
  },
  {
   "property": "C70",
   "status": "proved",
   "theorems": [
    "C70_nan_key_blocks_append"
   ],
   "note": ""
  },
  {
   "property": "C71",
   "status": "partial",
   "theorems": [
    "C71_full_chunks_partial",
    "C71_strict_n_loop_refuted"
   ],
   "note": "The code violates the property: a look that finds some but not more than n new items raises ValueError. Proved: what is yielded are full chunks, in order, without a gap; and it raises in that case only."
  },
  {
   "property": "C72",
   "status": "partial",
   "theorems": [
    "C72_openings_are_closed_partial",
    "C72_source_left_open_refuted"
   ],
   "note": "The code violates the property in every case: nobody ever closes that opening. Proved: if info does not raise and the buffer can be built, start() never fails after open(), and each opening has a thread at work or was closed."
  },
  {
   "property": "C73",
   "status": "partial",
   "theorems": [
    "C73_undisturbed_partial",
    "C73_next_on_own_reader_partial",
    "C73_next_races_stop_refuted"
   ],
   "note": "The code violates the property: TypeError if stop() returns in between (witness). Proved: as long as the stream's reader is there, the answer is that reader's next()."
  },
  {
   "property": "C74",
   "status": "proved",
   "theorems": [
    "C74_stop_before_start",
    "C74_drop_before_start"
   ],
   "note": ""
  },
  {
   "property": "C75",
   "status": "proved",
   "theorems": [
    "C75_concurrent_log",
    "C75_auto_drop",
    "C75_never_repeats",
    "C75_keeps_up"
   ],
   "note": ""
  },
  {
   "property": "C76",
   "status": "partial",
   "theorems": [
    "C54_running_partial",
    "C76_failed_open_leaves_nothing_partial",
    "C76_failed_open_is_final_refuted"
   ],
   "note": "The code violates the property in every history: all later open_reader() calls raise StreamNotStartedError. Proved: a failed open_reader() leaves no thread, reader or count behind."
  },
  {
   "property": "C77",
   "status": "partial",
   "theorems": [
    "C77_moving_clock_partial",
    "C77_eof_is_data_refuted",
    "C77_eof_fills_and_kills_refuted"
   ],
   "note": "The code violates the property in every history: read() returns (time, b'') for ever; two of them on one clock tick kill the thread. Proved: under a strictly increasing clock no append fails, and the thread ends of nothing but read() or time.sleep()."
  },
  {
   "property": "C78",
   "status": "partial",
   "theorems": [
    "C78_count_before_data_partial",
    "C78_bytes_never_counted_refuted"
   ],
   "note": "The code violates the property: the count is never updated. Proved: it is right exactly as long as no byte was read."
  },
  {
   "property": "C79",
   "status": "proved",
   "theorems": [
    "C79_responses_are_closed",
    "C79_closed_reader"
   ],
   "note": ""
  },
  {
   "property": "C80",
   "status": "proved",
   "theorems": [
    "C80_linearizable",
    "C80_linearizable_own_readers"
   ],
   "note": "Every call except mk_reader, which touches nothing shared. Reading is_stopped is an input of the call."
  },
  {
   "property": "C81",
   "status": "proved",
   "theorems": [
    "C81_len_never_exceeds_maxlen"
   ],
   "note": ""
  },
  {
   "property": "C82",
   "status": "partial",
   "theorems": [
    "C82_shared_reader_refuted",
    "C82_guarded_reader_partial"
   ],
   "note": "The code violates the property: read() holds the lock as a reader, so two threads on one BufferReader can get the same item, and one of them can raise TypeError (two witnesses). Proved when the calls on the reader do not overlap (any number of threads, e.g. under a lock of their own)."
  },
  {
   "property": "C83",
   "status": "proved",
   "theorems": [
    "C83_concurrent_reads_never_repeat"
   ],
   "note": ""
  },
  {
   "property": "C84",
   "status": "proved",
   "theorems": [
    "C84_for_loop_waits"
   ],
   "note": "Without strict_n; for strict_n with read_size > 1 see C71."
  },
  {
   "property": "C85",
   "status": "proved",
   "theorems": [
    "C85_next_method"
   ],
   "note": "strict_n with exactly n items left is the off-by-one of C27; with fewer: ValueError, proved."
  },
  {
   "property": "C86",
   "status": "proved",
   "theorems": [
    "C86_cursor_assignment"
   ],
   "note": ""
  },
  {
   "property": "C87",
   "status": "partial",
   "theorems": [
    "C87_one_at_a_time_partial",
    "C87_lost_reader_refuted",
    "C87_never_stopped_refuted",
    "C87_not_started_yet_refuted",
    "C87_two_streams_refuted",
    "C87_stops_the_wrong_stream_refuted"
   ],
   "note": "The code takes no lock and violates the property when calls overlap: a lost update of the reader counter stops a stream under an open reader, or leaves it running for ever after the last close; open_reader() can raise StreamNotStartedError; and two first calls can make two StreamBuffers that both read the source, and the last close() then may stop the wrong one. Proved for all histories whose calls do not overlap."
  },
  {
   "property": "C88",
   "status": "proved",
   "theorems": [
    "C88_with_statement",
    "C88_outcome"
   ],
   "note": ""
  },
  {
   "property": "C89",
   "status": "partial",
   "theorems": [
    "C89_iteration_partial",
    "C89_iteration_dies_refuted"
   ],
   "note": "The code violates the property: the loop looks up is_stopped, which StreamSource does not define, and dies with AttributeError at the first round without an item. Proved up to that round."
  },
  {
   "property": "C90",
   "status": "partial",
   "theorems": [
    "C90_stream_source_timestamp_refuted",
    "C90_timestamp_partial"
   ],
   "note": "The code violates the property for StreamSource: the attribute timestamp_seconds_to_unit_conversion is not defined there, so every call raises AttributeError. Proved for the others."
  },
  {
   "property": "C91",
   "status": "partial",
   "theorems": [
    "C91_waiting_ends_partial",
    "C91_readers_starve_refuted"
   ],
   "note": "The code violates the property: two writing threads can keep a reader waiting for arbitrarily many writes. Proved: once writers stop coming the reader gets in."
  },
  {
   "property": "C92",
   "status": "proved",
   "theorems": [
    "C92_attached_reader_continues"
   ],
   "note": "With read_size > 1 and strict_n see C27."
  },
  {
   "property": "C93",
   "status": "proved",
   "theorems": [
    "C93_join_call",
    "C93_join_means_ended",
    "C93_quiet_after_join",
    "C93_stop_then_join_returns"
   ],
   "note": ""
  },
  {
   "property": "C94",
   "status": "proved",
   "theorems": [
    "C94_join_protocol"
   ],
   "note": ""
  },
  {
   "property": "C95",
   "status": "proved",
   "theorems": [
    "C95_iter_is_lazy",
    "C95_loop",
    "C95_nobody_waits_for_a_loop"
   ],
   "note": ""
  },
  {
   "property": "C96",
   "status": "partial",
   "theorems": [
    "C96_two_writers_refuted",
    "C96_reader_and_writer_refuted",
    "C96_no_reader_ever_again_refuted",
    "C96_interrupts_outside_partial",
    "C96_uncounted_writer_partial"
   ],
   "note": "The code violates the property: the acquisition is inside the try, so an exception raised while waiting makes the finally part release a lock the thread does not hold. Proved when interrupts only hit the bodies of sections and threads outside the lock, and for a writer that has not counted itself while no writer is inside."
  },
  {
   "property": "C97",
   "status": "partial",
   "theorems": [
    "C97_rejected_key_refuted",
    "C97_keyless_cannot_be_pickled_refuted",
    "C97_reconstruction_partial",
    "C97_exact_partial"
   ],
   "note": "The code violates the property: a rejected key assignment changes later copies, pickles and repr; clear(), maxlen= and copy() of a container without key make it unpicklable; equal keys are re-sorted (C11). Proved: same items up to the order of equal keys, same key and maxlen, when no key change was rejected and no negative maxlen was assigned; exact for containers fed by append and drop."
  },
  {
   "property": "C98",
   "status": "proved",
   "theorems": [
    "C98_concurrent_reader_misses_nothing"
   ],
   "note": "read() with strict_n=False in the second part (with strict_n a read may refuse a short tail)."
  },
  {
   "property": "C99",
   "status": "proved",
   "theorems": [
    "C99_same_buffer",
    "C99_same_items"
   ],
   "note": "Readers of one class."
  },
  {
   "property": "C100",
   "status": "partial",
   "theorems": [
    "C100_own_info_partial",
    "C100_attached_info_refuted"
   ],
   "note": "Refuted after attach_reader(): it replaces the buffer and the event but not the info."
  },
  {
   "property": "C101",
   "status": "partial",
   "theorems": [
    "C101_same_answers_partial",
    "C101_count_refuted",
    "C101_slices_refuted"
   ],
   "note": "Refuted: count() of an item that does not equal itself (NaN) differs, because the override compares with == only; slices raise TypeError on the deque . Proved for everything else, and for count of items equal to themselves."
  },
  {
   "property": "C102",
   "status": "proved",
   "theorems": [
    "C102_sorted_collection",
    "C102_slices"
   ],
   "note": ""
  },
  {
   "property": "C103",
   "status": "proved",
   "theorems": [
    "C103_read_then_drop"
   ],
   "note": ""
  },
  {
   "property": "C104",
   "status": "partial",
   "theorems": [
    "C104_calm_partial",
    "C104_atomic_partial",
    "C104_torn_refuted",
    "C104_late_refuted",
    "C104_refuted",
    "C104_who_waits"
   ],
   "note": "Refuted: a loop that looks between the two assignments sees the new buffer and the old stop event; a loop that is attached between its look and its question about the stop ends without having looked at the new buffer. Proved when nobody uses the reader during attach_reader() and no loop over it is between the two; then attach_reader() is one step."
  },
  {
   "property": "C105",
   "status": "proved",
   "theorems": [
    "C105_open_reader_in_any_race"
   ],
   "note": ""
  },
  {
   "property": "C106",
   "status": "partial",
   "theorems": [
    "C106_answer_of_one_instant_partial",
    "C106_stop_iteration_partial",
    "C106_ended_means_complete_partial",
    "C106_append_before_stop_missed_refuted",
    "C106_not_final_refuted"
   ],
   "note": "The code violates the property: an item appended between the read and the look at is_stopped is missed by the call that raises StopIteration, and an item whose source.read() outlives the stop arrives after StopIteration. Proved: every answer is that of the instant of its read, or StopIteration instead of None; StopIteration means everything appended before that read was received, and is final if nothing is appended later, in particular once the reading threads have ended."
  },
  {
   "property": "C107",
   "status": "proved",
   "theorems": [
    "C107_restart",
    "C107_stop",
    "C107_healthy_source",
    "C107_long_sleep_breaks_it"
   ],
   "note": "Time is an integer clock; C107_healthy_source replaces the condition on what start() finds by one on when the client calls start(), for sources and sleeps that do not fail. stop() calls may overlap; they are taken to return in the order in which they began. The last theorem shows that the bound is needed."
  },
  {
   "property": "C108",
   "status": "partial",
   "theorems": [
    "C108_drop_now",
    "C108_value",
    "C108_never_assigned",
    "C108_switched_off_partial",
    "C108_switched_on",
    "C108_one_lost_refuted"
   ],
   "note": "Refuted: a thread that has decided to read while auto_drop was True pushes out one item after the assignment. Proved: at most that one, and none if the thread was not reading; after True the thread reads within five steps of its own or is on its way out."
  },
  {
   "property": "C109",
   "status": "proved",
   "theorems": [
    "C109_len_shown",
    "C109_drop_is_one_step",
    "C109_room_is_kept"
   ],
   "note": "No item pushed out: for auto_drop other than True and restarts that find the earlier threads ended (as C40). C40 itself is proved in the same model, where len() may fall into the middle of a drop."
  },
  {
   "property": "C110",
   "status": "partial",
   "theorems": [
    "C110_only_the_call",
    "C110_start_again",
    "C110_half_start_is_dead",
    "C110_nothing_lost",
    "C110_source_left_open_refuted"
   ],
   "note": "Refuted: hit after open(), the source stays open for good and is_running is True. All the rest is proved, C110_nothing_lost for auto_drop other than True and orderly restarts, as C40."
  },
  {
   "property": "C111",
   "status": "proved",
   "theorems": [
    "C111_calls_have_instants",
    "C111_transfer",
    "C111_nobody_left_out"
   ],
   "note": "For auto_drop=True; next(reader), next(stream_buffer) and for loops are not in the step-level model (C106 and C104 treat their races)."
  },
  {
   "property": "C112",
   "status": "proved",
   "theorems": [
    "C112_steps_never_repeat"
   ],
   "note": "As C111."
  },
  {
   "property": "C113",
   "status": "partial",
   "theorems": [
    "C113_somebody_moves_partial",
    "C113_calls_are_finite",
    "C113_everybody_gets_out_partial",
    "C113_can_be_closed_partial",
    "C113_range_hangs_the_stream_refuted"
   ],
   "note": "Proved as long as no client calls range(only_new_items=True): if a call or an append is under way, one of the threads inside buffers can take a step; such steps are finitely many (they decrease a well-founded order); they can be continued until everybody is out; after stop() every reading thread can then end and close its source without any further step of a client. Refuted in general: range(only_new_items=True) by a reader with a cursor asks for the lock again inside its section (C17); on a stream the call, the reading thread and the source then hang for good, also after stop()."
  },
  {
   "property": "C114",
   "status": "partial",
   "theorems": [
    "C114_every_method_may_call",
    "C114_callbacks_are_calls",
    "C114_method_waits",
    "C114_calls_of_reading_threads_return",
    "C114_callback_with_lock_hangs_refuted"
   ],
   "note": "Refuted for open() and info: such a call hangs for good, start() with it, and from then on nobody can start the stream, make or attach a reader or ask is_running (start_lock is not reentrant). Proved: the calls are calls like any others (so all theorems about histories hold of histories with them), and while open() and info make no such call, every call made by read() or close() can return after steps of the start() under way alone, whatever open() and info answer."
  },
  {
   "property": "C115",
   "status": "proved",
   "theorems": [
    "C115_each_read_is_a_next",
    "C115_both_are_histories",
    "C115_reads_what_the_reader_gets",
    "C115_in_order",
    "C115_next_item",
    "C115_nothing_lost_on_the_way",
    "C115_end_travels"
   ],
   "note": "For a reader with a read size of at most 1 that nobody else uses; next(reader) is one step of the upstream (C106 and C111 for its interleaving). Keeping up, orderly restarts downstream and the same key function are assumed only where the statement names them."
  },
  {
   "property": "C116",
   "status": "proved",
   "theorems": [
    "C116_streams_unaware",
    "C116_goes_on",
    "C116_info_stays",
    "C116_as_in_one_stream"
   ],
   "note": "For one key function on all streams the reader visits. C116_as_in_one_stream ties the model to that of one stream: a reader that is made, attached and called as one of a single stream gets the same answers."
  },
  {
   "property": "C117",
   "status": "partial",
   "theorems": [
    "C117_good_seconds",
    "C117_still_a_stream",
    "C117_good_sleep_partial",
    "C117_quiet_source_partial",
    "C117_reads_again_partial",
    "C117_bad_sleep_refuted",
    "C117_full_buffer_refuted"
   ],
   "note": "Refuted for every number that time.sleep() does not take (negative, NaN, above 2^63-1 ns): the constructor accepts it, and the first None - or, with auto_drop=False, the first full buffer - ends the thread and closes the source. Proved for all other numbers: no sleep fails, and the thread of an orderly stream ends of nothing but an exception of read() or of the append; while the stream runs (and has room) a thread that sleeps needs at most four steps of its own to be in read() again."
  }
 ]
}