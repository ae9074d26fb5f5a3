{"id": "C01", "title": "Buffer stays strictly ordered under append/drop", "statement": "After any sequence of append and drop calls on an initially empty SortedDeque (calls that raise included), the keys of the stored items are strictly increasing from left to right, and the key used for searching an item is the key function's value on that very item.", "quantifier": "every key function, every maxlen, every finite sequence of append/drop calls, including ones that raise and including keys of mixed or incomparable types", "why_tests_cant": "a test runs a handful of sequences on ints; order and key/item alignment must survive every history including those where a comparison raises half way", "anchors": ["stream2py/utility/sorted_deque.py:SortedDeque.append", "stream2py/utility/sorted_deque.py:SortedDeque.drop"]}
{"id": "C02", "title": "Sorted container invariant under the full mutation API", "statement": "For keys drawn from a totally ordered family, after any sequence of constructor, insert, insert_right, remove, append, drop, clear, copy, key-change and maxlen-change calls, iterating a SortedDeque yields items in non-decreasing key order and the internal search keys match the items.", "quantifier": "every totally ordered key family, every key function into it, every finite operation sequence", "why_tests_cant": "the invariant is over unbounded histories of nine different mutators", "anchors": ["stream2py/utility/sorted_deque.py:SortedDeque", "stream2py/utility/sorted_collection.py:SortedCollection"]}
{"id": "C03", "title": "Search methods agree with a linear scan", "statement": "On a container in order, find_gt / find_ge return the first item whose key is > / >= k, find_lt / find_le the last item whose key is < / <= k, find the first item whose key equals k; each raises ValueError exactly when no such item exists, and never reads outside the container.", "quantifier": "every ordered container of every size and every probe key comparable with the stored keys", "why_tests_cant": "the repo's own check samples pools of nine floats and at most 5 items; binary search boundary bugs hide at sizes and positions not sampled", "anchors": ["stream2py/utility/sorted_collection.py:SortedCollection.find_gt", "stream2py/utility/sorted_collection.py:SortedCollection.find_ge", "stream2py/utility/sorted_collection.py:SortedCollection.find_lt", "stream2py/utility/sorted_collection.py:SortedCollection.find_le", "stream2py/utility/sorted_collection.py:SortedCollection.find"]}
{"id": "C04", "title": "range returns exactly the closed key interval", "statement": "range(start, stop) returns exactly the stored items with start <= key <= stop in key order, and range(start, stop, step) every step-th of these starting with the first; a step below 1 raises ValueError.", "quantifier": "every ordered container, every start/stop comparable with the keys (including start > stop), every step", "why_tests_cant": "inclusive/exclusive boundary and step behaviour for all positions of start/stop relative to the keys", "anchors": ["stream2py/utility/sorted_deque.py:SortedDeque.range", "stream2py/utility/sorted_deque.py:SortedDeque.range_by_index"]}
{"id": "C05", "title": "append accepts exactly the strictly greater keys", "statement": "append(item) succeeds iff the container is empty or key(item) > key of the last item; otherwise it raises (ValueError when not greater) and the container is unchanged. On success the item is last.", "quantifier": "every container state, every item", "why_tests_cant": "must hold in every reachable state, including full, empty and maxlen=0 containers", "anchors": ["stream2py/utility/sorted_deque.py:SortedDeque.append"]}
{"id": "C06", "title": "Bounded memory: newest maxlen items are kept", "statement": "As long as no negative maxlen is assigned, a SortedDeque with maxlen=m never holds more than m items, and if fed only by append it holds exactly the last min(m, number accepted) accepted items in order.", "quantifier": "every m including 0 and None, every sequence of appends of every length", "why_tests_cant": "a universally quantified statement on history length", "anchors": ["stream2py/utility/sorted_deque.py:SortedDeque.append", "stream2py/utility/sorted_deque.py:SortedDeque.__init__"]}
{"id": "C07", "title": "index / count / contains / remove agree with a linear scan", "statement": "index(item) is the position of the first stored item equal to item (ValueError if none), count(item) the number of stored items equal to it, 'item in container' says whether there is one, and remove(item) deletes exactly that first occurrence and nothing else, provided equal items have equal keys.", "quantifier": "every ordered container, every probe item whose key is comparable", "why_tests_cant": "the methods only look inside the equal-key block found by two binary searches; correctness for all blocks is a universal claim", "anchors": ["stream2py/utility/sorted_deque.py:SortedDeque.index", "stream2py/utility/sorted_deque.py:SortedDeque.count", "stream2py/utility/sorted_deque.py:SortedDeque.__contains__", "stream2py/utility/sorted_collection.py:SortedCollection.remove"]}
{"id": "C08", "title": "insert and insert_right put the item at the documented place", "statement": "insert(item) places the item immediately left of the first stored item with an equal or greater key, insert_right immediately right of the last with an equal or smaller key; all other items keep their order. On a full deque they raise IndexError and change nothing.", "quantifier": "every ordered container, every item with comparable key", "why_tests_cant": "positional claim for all states", "anchors": ["stream2py/utility/sorted_collection.py:SortedCollection.insert", "stream2py/utility/sorted_collection.py:SortedCollection.insert_right"]}
{"id": "C09", "title": "Construction sorts without losing or inventing items", "statement": "Building a SortedDeque from an iterable whose (key, item) pairs are comparable yields a permutation of the iterable in (key, item) order, cut to its maxlen largest entries; a negative maxlen raises ValueError.", "quantifier": "every iterable, key function and maxlen", "why_tests_cant": "all inputs of all lengths", "anchors": ["stream2py/utility/sorted_collection.py:SortedCollection.__init__", "stream2py/utility/sorted_deque.py:SortedDeque.__init__"]}
{"id": "C10", "title": "drop removes exactly the n oldest", "statement": "drop(n) with n <= len removes exactly the n leftmost items; with n > len it raises IndexError leaving the container empty but consistent; with n <= 0 it does nothing.", "quantifier": "every container state and every integer n", "why_tests_cant": "universal over states and n, including the error path", "anchors": ["stream2py/utility/sorted_deque.py:SortedDeque.drop"]}
{"id": "C11", "title": "copy preserves the container", "statement": "copy() returns a container with the same items in the same order, the same key function and the same maxlen.", "quantifier": "every container reachable through the public API", "why_tests_cant": "needs states with equal keys built by particular insert orders; tests copy only freshly sorted containers", "anchors": ["stream2py/utility/sorted_deque.py:SortedDeque.copy", "stream2py/utility/sorted_collection.py:SortedCollection.copy"]}
{"id": "C12", "title": "Reader/writer mutual exclusion", "statement": "While one thread is inside writer_lock(), no other thread is inside reader_lock() or writer_lock() of the same buffer.", "quantifier": "every number of threads, every interleaving of the individual lock operations, every history (re-entrant reader use included)", "why_tests_cant": "interleavings of six primitive locks and two counters by unboundedly many threads cannot be enumerated by tests", "anchors": ["stream2py/utility/reader_writer_lock.py:RWLock", "stream2py/utility/locked_sorted_deque.py:RWLockSortedDeque.writer_lock"]}
{"id": "C13", "title": "No torn reads", "statement": "Whenever a thread is inside reader_lock(), the keys and items it can see are exactly the result of a whole number of completed append/drop operations, and they do not change until it leaves; each completed write takes effect atomically between two reader sections.", "quantifier": "every number of reader and writer threads and every interleaving at the granularity of single deque mutations", "why_tests_cant": "the half-updated window between keys.append and items.append is a few bytecodes wide", "anchors": ["stream2py/utility/locked_sorted_deque.py:RWLockSortedDeque", "stream2py/stream_buffer.py:_SourceBuffer.append", "stream2py/utility/sorted_deque.py:SortedDeque.append"]}
{"id": "C14", "title": "The lock never deadlocks when sections are not nested", "statement": "If no thread asks for the lock while it is inside it, then in every reachable state in which some thread is inside acquire or release, some thread inside acquire/release or a critical section can take a step.", "quantifier": "every number of threads and every interleaving", "why_tests_cant": "absence of deadlock is a property of all schedules", "anchors": ["stream2py/utility/reader_writer_lock.py:RWLock"]}
{"id": "C15", "title": "Writer priority", "statement": "From the moment a writer has announced itself (its writer_acquire is past the write switch) until no writer is announced, no reader that is not already counted in gets into the critical section: the set of readers inside can only shrink.", "quantifier": "every interleaving, every number of readers and writers", "why_tests_cant": "a statement about all schedules", "anchors": ["stream2py/utility/reader_writer_lock.py:RWLock.writer_acquire", "stream2py/utility/reader_writer_lock.py:RWLock.reader_acquire"]}
{"id": "C16", "title": "Readers do not block readers", "statement": "If no writer is using or waiting for the lock, a thread that calls reader_acquire can always complete it by steps of readers that are themselves inside acquire/release, without any reader having to leave its critical section; so any number of readers can be inside together.", "quantifier": "every reachable state without writers, every number of readers already inside", "why_tests_cant": "a reachability statement from all reachable states", "anchors": ["stream2py/utility/reader_writer_lock.py:RWLock.reader_acquire"]}
{"id": "C17", "title": "No BufferReader call can deadlock against the source thread", "statement": "Any BufferReader API call running concurrently with StreamBuffer's appends eventually gets and releases the lock; in particular no call requests the buffer lock in a way that can block forever while the source thread waits to append.", "quantifier": "every BufferReader method with every argument combination, every interleaving with the appending thread", "why_tests_cant": "deadlock appears only under a narrow interleaving", "anchors": ["stream2py/buffer_reader.py:BufferReader.range", "stream2py/buffer_reader.py:BufferReader.read", "stream2py/utility/reader_writer_lock.py:RWLock"]}
{"id": "C18", "title": "The lock is released on every path", "statement": "Every BufferReader read/range/tail/head call and every append/drop releases exactly the lock acquisitions it made, whether it returns a value, returns None or raises.", "quantifier": "every method, argument combination, buffer content and key function (including ones that raise)", "why_tests_cant": "exception paths are numerous", "anchors": ["stream2py/utility/locked_sorted_deque.py:RWLockSortedDeque.reader_lock", "stream2py/utility/locked_sorted_deque.py:RWLockSortedDeque.writer_lock", "stream2py/buffer_reader.py:BufferReader"]}
{"id": "C19", "title": "A buffer with readers behaves like a log with cursors", "statement": "For a source whose keys strictly increase, every sequence of append, drop, mk_reader, read, tail, head and range calls by any number of readers returns exactly what an append-only log with a retention window and one integer cursor per reader would return.", "quantifier": "every maxlen, every number of readers, every interleaved call sequence with all arguments", "why_tests_cant": "refinement over unbounded histories", "anchors": ["stream2py/buffer_reader.py:BufferReader", "stream2py/stream_buffer.py:_SourceBuffer", "stream2py/utility/sorted_deque.py:SortedDeque"]}
{"id": "C20", "title": "read returns the earliest item after the cursor", "statement": "read() returns the buffered item with the smallest key greater than the cursor's key (the oldest buffered item for a fresh reader) and moves the cursor to it.", "quantifier": "every ordered buffer and every cursor, including cursors whose item has been evicted", "why_tests_cant": "must hold for every relative position of cursor and retention window", "anchors": ["stream2py/buffer_reader.py:BufferReader.read"]}
{"id": "C21", "title": "Successive reads never repeat or reorder items", "statement": "The items a reader obtains by successive non-peek reads (any n) have strictly increasing keys and appear among the appended items in the same order, whatever is appended or dropped in between.", "quantifier": "every interleaving of appends, drops, other readers' calls and this reader's reads", "why_tests_cant": "interleavings are unbounded", "anchors": ["stream2py/buffer_reader.py:BufferReader.read", "stream2py/buffer_reader.py:BufferReader.__next__"]}
{"id": "C22", "title": "A reader that keeps up misses nothing", "statement": "If no item is evicted or dropped before the reader has read it, the items the reader has obtained are exactly a prefix of the items appended, and after a read that finds nothing new they are all of them.", "quantifier": "every interleaving in which the eviction hypothesis holds", "why_tests_cant": "no-loss is a claim over every history", "anchors": ["stream2py/buffer_reader.py:BufferReader.read", "stream2py/utility/sorted_deque.py:SortedDeque.append"]}
{"id": "C23", "title": "Readers are independent", "statement": "Calls made on one reader never change what another reader of the same buffer returns, nor the buffer.", "quantifier": "every set of readers, every interleaving", "why_tests_cant": "non-interference over all histories", "anchors": ["stream2py/buffer_reader.py:BufferReader", "stream2py/stream_buffer.py:StreamBuffer.mk_reader"]}
{"id": "C24", "title": "peek=True never moves the cursor", "statement": "read, range, tail, head and next(reader) with peek=True leave last_item and last_key unchanged; read, tail and head return the same value as without peek, and so does range whenever something is in range (an empty interval gives [] with peek, IndexError/None without).", "quantifier": "every method, every argument combination, every state", "why_tests_cant": "universal over states", "anchors": ["stream2py/buffer_reader.py:BufferReader.read", "stream2py/buffer_reader.py:BufferReader.range", "stream2py/buffer_reader.py:BufferReader.tail", "stream2py/buffer_reader.py:BufferReader.head"]}
{"id": "C25", "title": "Reader defaults given to mk_reader apply to read()", "statement": "A reader made with read_size, peek, strict_n and ignore_no_item_found uses these as the defaults of every read() argument not passed explicitly.", "quantifier": "every combination of constructor defaults and explicit arguments", "why_tests_cant": "combinatorial over all option pairs and all states", "anchors": ["stream2py/buffer_reader.py:BufferReader.__init__", "stream2py/buffer_reader.py:BufferReader.read", "stream2py/buffer_reader.py:defaulted_values"]}
{"id": "C26", "title": "read(n) returns the next n items", "statement": "read(n) for n > 1 returns the list of the next min(n, available) items after the cursor in order, and the cursor moves to the last of them; n <= 1 returns a single item.", "quantifier": "every n, every ordered buffer, every cursor", "why_tests_cant": "all positions and sizes", "anchors": ["stream2py/buffer_reader.py:BufferReader.read", "stream2py/utility/sorted_deque.py:SortedDeque.range_by_index"]}
{"id": "C27", "title": "strict_n: all n or ValueError", "statement": "With strict_n=True, read(n) raises ValueError, leaving the cursor unchanged, exactly when fewer than n unread items are buffered; otherwise it returns exactly n items.", "quantifier": "every n, every buffer, every cursor", "why_tests_cant": "the boundary where exactly n items remain must be right for all n", "anchors": ["stream2py/buffer_reader.py:BufferReader.read"]}
{"id": "C28", "title": "range through a reader", "statement": "BufferReader.range(start, stop, step) returns exactly the buffered items of the closed key interval (every step-th) and, without peek, moves the cursor to the last returned item.", "quantifier": "every buffer, cursor, start, stop, step", "why_tests_cant": "universal over states and arguments", "anchors": ["stream2py/buffer_reader.py:BufferReader.range"]}
{"id": "C29", "title": "range(only_new_items=True) returns only unseen items", "statement": "With only_new_items=True, every returned item has a key greater than the cursor's, and every unseen buffered item of the requested interval is returned, also together with start_le and stop_ge.", "quantifier": "every buffer, cursor and argument combination", "why_tests_cant": "interaction of three flags over all states", "anchors": ["stream2py/buffer_reader.py:BufferReader.range"]}
{"id": "C30", "title": "range(start_le / stop_ge) rounding", "statement": "start_le=True extends the interval down to the greatest key <= start when there is one, stop_ge=True extends it up to the smallest key >= stop, and raises ValueError (or returns None under ignore_no_item_found) when no key >= stop is buffered.", "quantifier": "every buffer, cursor, start, stop", "why_tests_cant": "all relative positions", "anchors": ["stream2py/buffer_reader.py:BufferReader.range"]}
{"id": "C31", "title": "tail and head", "statement": "tail() returns the newest item and head() the oldest one; without peek the cursor moves there; tail(only_new_items=True) returns the newest item only if its key is greater than the cursor's.", "quantifier": "every buffer and cursor", "why_tests_cant": "universal over states", "anchors": ["stream2py/buffer_reader.py:BufferReader.tail", "stream2py/buffer_reader.py:BufferReader.head"]}
{"id": "C32", "title": "Nothing to return: None or ValueError, cursor untouched", "statement": "When there is nothing (new) to return, read, tail and range raise ValueError, or return None if ignore_no_item_found is true, and the cursor does not move.", "quantifier": "every method, key function, argument combination and state in which no item qualifies", "why_tests_cant": "the outcome differs by key function and flag; all combinations are needed", "anchors": ["stream2py/buffer_reader.py:BufferReader.read", "stream2py/buffer_reader.py:BufferReader.range", "stream2py/buffer_reader.py:BufferReader.tail"]}
{"id": "C33", "title": "next(reader) protocol", "statement": "next(reader) returns the next item(s) if available (with strict_n: or raises ValueError), None if there is none and the stream still runs, and raises StopIteration exactly if there is none and the stream is stopped.", "quantifier": "every buffer, cursor, stop state", "why_tests_cant": "universal over states", "anchors": ["stream2py/buffer_reader.py:BufferReader.__next__"]}
{"id": "C34", "title": "A for loop over a stopped stream drains it and ends", "statement": "Iterating a reader (made without peek and without strict_n, or with read_size 1) whose stream has stopped and receives no more data yields every remaining item once, in order, in chunks of at most read_size, and then terminates.", "quantifier": "every buffer content and cursor", "why_tests_cant": "termination and completeness for all sizes", "anchors": ["stream2py/buffer_reader.py:BufferReader.__iter__"]}
{"id": "C35", "title": "A for loop delivers everything read from the source before the stop", "statement": "When a for loop over a reader that keeps up ends because the stream was stopped, it has yielded every item that the source thread had appended before the stop.", "quantifier": "every interleaving of the appending thread, stop() and the iterating thread", "why_tests_cant": "the loss needs an append and a stop between two consecutive bytecodes of the reader", "anchors": ["stream2py/buffer_reader.py:BufferReader.__next__", "stream2py/buffer_reader.py:BufferReader.__iter__", "stream2py/stream_buffer.py:StreamBuffer._run"]}
{"id": "C36", "title": "Blocking read", "statement": "read(blocking=True) returns the first qualifying item that is visible at one of its polls, returns None only if the stream is stopped and its last poll found nothing, and never returns None while the stream runs; it returns within one poll after the stream has stopped.", "quantifier": "every evolution of the buffer and stop flag between polls", "why_tests_cant": "quantifies over all environments", "anchors": ["stream2py/buffer_reader.py:BufferReader.read"]}
{"id": "C37", "title": "Readers need a started stream", "statement": "mk_reader, attach_reader and iteration raise StreamNotStartedError if and only if no start() has succeeded since the last start attempt; a reader made later sees the buffer of the latest successful start.", "quantifier": "every sequence of start/stop/failed start/mk_reader calls and thread steps", "why_tests_cant": "all lifecycles", "anchors": ["stream2py/stream_buffer.py:StreamBuffer.mk_reader", "stream2py/stream_buffer.py:StreamBuffer.attach_reader"]}
{"id": "C38", "title": "Source lifecycle: open, reads, one close", "statement": "For each start() whose predecessors' threads have ended and whose info could be read after open (see C39, C72 for the other cases), the source sees open once, then any number of reads, then close exactly once when the thread ends, and never a read after close or before open.", "quantifier": "every schedule of the reading thread, stop calls and source outcomes (data, None, exception)", "why_tests_cant": "ordering over all schedules and failure points", "anchors": ["stream2py/stream_buffer.py:StreamBuffer.start", "stream2py/stream_buffer.py:StreamBuffer._run"]}
{"id": "C39", "title": "Restart leaves exactly one reading thread", "statement": "After stop() followed by start() (or start() on a running stream) only the newly started thread reads the source, and the old thread's termination does not affect the new session.", "quantifier": "every schedule, in particular sources whose read blocks longer than stop()'s one second", "why_tests_cant": "depends on a slow read overlapping a restart", "anchors": ["stream2py/stream_buffer.py:StreamBuffer.start", "stream2py/stream_buffer.py:StreamBuffer.stop", "stream2py/stream_buffer.py:StreamBuffer._run"]}
{"id": "C40", "title": "auto_drop=False never loses data", "statement": "With auto_drop=False, and no thread of an earlier start() still running (see C39), every item appended is in the buffer until drop() removes it: no append evicts, and the buffer never exceeds maxlen.", "quantifier": "every schedule of thread steps and drop calls, every maxlen", "why_tests_cant": "check-then-append race with drop over all schedules", "anchors": ["stream2py/stream_buffer.py:StreamBuffer._run", "stream2py/stream_buffer.py:StreamBuffer.drop"]}
{"id": "C41", "title": "Everything read is buffered in order", "statement": "Every non-None value the source returns to a start()'s thread is appended exactly once, in read order, and to that start()'s own buffer if no thread of an earlier start() is still running (see C39), unless the thread ends at that value because the append raised; None values are never appended.", "quantifier": "every schedule and source behaviour", "why_tests_cant": "all histories", "anchors": ["stream2py/stream_buffer.py:StreamBuffer._run"]}
{"id": "C42", "title": "A failing source stops the stream cleanly", "statement": "If source.read() or the append raises (for instance because a key is not greater than the previous one), the thread sets the stop event, calls close exactly once even if close raises, ends, and the buffered items stay readable.", "quantifier": "every point of failure in every history", "why_tests_cant": "every crash point", "anchors": ["stream2py/stream_buffer.py:StreamBuffer._run"]}
{"id": "C43", "title": "stop() is effective", "statement": "Once stop() has been called, and until the next start(), the reading thread performs at most one more source.read() and one more append and then closes the source, within a bounded number of its own steps.", "quantifier": "every thread position at the time of stop and every source behaviour", "why_tests_cant": "all thread positions", "anchors": ["stream2py/stream_buffer.py:StreamBuffer.stop", "stream2py/stream_buffer.py:StreamBuffer._run"]}
{"id": "C44", "title": "After stop() returns nothing more is appended and the source is closed", "statement": "When stop() returns, the source has been closed and the buffer no longer changes.", "quantifier": "every source behaviour, in particular a slow read", "why_tests_cant": "timing dependent", "anchors": ["stream2py/stream_buffer.py:StreamBuffer.stop"]}
{"id": "C45", "title": "is_running", "statement": "is_running is True exactly from a successful start() until stop() or the end of the reading thread, and False otherwise.", "quantifier": "every lifecycle including failing open()", "why_tests_cant": "all histories", "anchors": ["stream2py/stream_buffer.py:StreamBuffer.is_running", "stream2py/stream_buffer.py:StreamBuffer.start"]}
{"id": "C46", "title": "source_reader_info is available while started", "statement": "After a successful start(), source_reader_info is the info dict captured at open, for StreamBuffer and for every reader made from it.", "quantifier": "every state after start, including an empty buffer", "why_tests_cant": "a test normally looks after data has arrived", "anchors": ["stream2py/stream_buffer.py:StreamBuffer.source_reader_info", "stream2py/stream_buffer.py:_SourceBuffer.__len__"]}
{"id": "C47", "title": "next(stream_buffer) follows the current session", "statement": "next(stream_buffer) and stream_buffer() return items of the current session, also after a restart.", "quantifier": "every lifecycle: stop/start, start on a running stream, restart after the source failed", "why_tests_cant": "needs a crash between two starts", "anchors": ["stream2py/stream_buffer.py:StreamBuffer.__next__", "stream2py/stream_buffer.py:StreamBuffer.stop"]}
{"id": "C48", "title": "Readers of an earlier session are isolated", "statement": "A reader keeps reading the buffer of the session it was made in: no later start, append or stop changes the items it returns, and once stopped it stays stopped.", "quantifier": "every history after the session's successor was installed", "why_tests_cant": "all histories", "anchors": ["stream2py/stream_buffer.py:StreamBuffer._open", "stream2py/stream_buffer.py:_SourceBuffer.mk_reader"]}
{"id": "C49", "title": "drop() is refused under auto_drop", "statement": "StreamBuffer.drop raises RuntimeError and changes nothing when auto_drop is True; when False it removes exactly the n oldest items.", "quantifier": "every state and n", "why_tests_cant": "universal over states", "anchors": ["stream2py/stream_buffer.py:StreamBuffer.drop"]}
{"id": "C50", "title": "Sleep time resolution", "statement": "The sleep time on read None is the numeric constructor argument if given, else the source's numeric attribute, else 0.3 s.", "quantifier": "every combination of argument and attribute values", "why_tests_cant": "small but complete case analysis", "anchors": ["stream2py/stream_buffer.py:StreamBuffer.__init__"]}
{"id": "C51", "title": "auto_drop=False works with an unbounded buffer", "statement": "A stream configured with auto_drop=False and maxlen=None (the StreamSource.configure_buffer default for maxlen) delivers the source's data.", "quantifier": "every source", "why_tests_cant": "configuration combination", "anchors": ["stream2py/stream_buffer.py:StreamBuffer._run", "stream2py/stream_source.py:StreamSource.configure_buffer"]}
{"id": "C52", "title": "StreamSource stops after the last reader closes, not before", "statement": "With every opened reader closed at most once, the stream is stopped exactly when the number of open readers returns to zero.", "quantifier": "every sequence of open_reader and close calls", "why_tests_cant": "all open/close orders", "anchors": ["stream2py/stream_source.py:StreamSource.open_reader", "stream2py/stream_source.py:StreamSource._handle_reader_closed"]}
{"id": "C53", "title": "Closing a reader twice is harmless", "statement": "Closing one reader more than once does not stop the stream under the other open readers.", "quantifier": "every sequence of open/close calls", "why_tests_cant": "needs a double close", "anchors": ["stream2py/stream_source.py:StreamSource._handle_reader_closed", "stream2py/buffer_reader.py:BufferReader.close"]}
{"id": "C54", "title": "A closed StreamSource can be reopened", "statement": "After all readers were closed, open_reader() opens the source again and the new reader sees a running stream.", "quantifier": "every history ending with all readers closed", "why_tests_cant": "the doctest passes on stale data", "anchors": ["stream2py/stream_source.py:StreamSource._ensure_buffer", "stream2py/stream_source.py:StreamSource.exit"]}
{"id": "C55", "title": "StreamSource uses the configured reader class and buffer settings", "statement": "Readers opened from a StreamSource are instances of the reader_cls given to it, and configure_buffer takes effect if called before the first open_reader and raises ValueError afterwards.", "quantifier": "every configuration and call order", "why_tests_cant": "all call orders", "anchors": ["stream2py/stream_source.py:StreamSource.__init__", "stream2py/stream_source.py:StreamSource.configure_buffer"]}
{"id": "C56", "title": "Readers work as context managers", "statement": "Leaving a 'with reader:' block closes the reader without raising, for readers from StreamBuffer.mk_reader as well as StreamSource.open_reader.", "quantifier": "every reader", "why_tests_cant": "depends on how the reader was made", "anchors": ["stream2py/buffer_reader.py:BufferReader.close", "stream2py/buffer_reader.py:BufferReader.__exit__"]}
{"id": "C57", "title": "mk_stream_buffer with enumerated data never rejects an item", "statement": "With enumerate_data=True and the default key, every value returned by read_stream is appended, whatever its type or order.", "quantifier": "every sequence of values of any types", "why_tests_cant": "incomparable values at all positions", "anchors": ["stream2py/simply.py:mk_stream_buffer"]}
{"id": "C58", "title": "mk_stream_buffer treats None as 'no data yet'", "statement": "When read_stream returns None nothing is put on the buffer.", "quantifier": "every option combination", "why_tests_cant": "depends on option combination", "anchors": ["stream2py/simply.py:mk_stream_buffer"]}
{"id": "C59", "title": "mk_stream_buffer always stops the stream", "statement": "Leaving the mk_stream_buffer context sets the stop event and never hides the exception of the with body or of open_stream.", "quantifier": "every outcome of open_stream and of the with body", "why_tests_cant": "all failure points", "anchors": ["stream2py/simply.py:mk_stream_buffer"]}
{"id": "C60", "title": "ContextualizeCall forwards calls and context management", "statement": "A ContextualizeCall behaves as the wrapped callable when called; entering and leaving it run enter_func/exit_func on the wrapped callable exactly once each, and an exception of the body is suppressed iff exit_func returns a true value; contextualize_with_instance forwards to the bound instance.", "quantifier": "every callable, enter/exit function and body outcome", "why_tests_cant": "higher-order", "anchors": ["stream2py/util.py:ContextualizeCall", "stream2py/util.py:contextualize_with_instance"]}
{"id": "C61", "title": "ContextualizeCall validates its enter and exit functions", "statement": "Construction raises TypeError exactly for functions that could not be called with the arguments the context protocol passes them.", "quantifier": "every signature", "why_tests_cant": "all signatures", "anchors": ["stream2py/util.py:EnterFunctionValidation.is_valid", "stream2py/util.py:ExitFunctionValidation.is_valid"]}
{"id": "C62", "title": "defaulted_values substitutes exactly the None entries", "statement": "defaulted_values returns, in order, the source's values with None replaced by the default of the same key and everything else (including False and 0) unchanged; KeyError iff a None entry has no default.", "quantifier": "every mapping", "why_tests_cant": "all mappings", "anchors": ["stream2py/buffer_reader.py:defaulted_values", "stream2py/stream_source.py:defaulted_values"]}
{"id": "C63", "title": "HTTPResponseReader sends the configured request", "statement": "open() issues a request with the url, headers, method and body given to the constructor.", "quantifier": "every constructor argument combination", "why_tests_cant": "needs a server to observe", "anchors": ["stream2py/sources/http.py:HTTPResponseReader.open"]}
{"id": "C64", "title": "SourceReader.closed reflects whether the source is open", "statement": "closed is False exactly between an open and the following close, however open/close are invoked.", "quantifier": "every call sequence of open/close/with", "why_tests_cant": "all call sequences", "anchors": ["stream2py/source_reader.py:SourceReader.closed", "stream2py/source_reader.py:QuickSourceReader"]}
{"id": "C65", "title": "QuickSourceReader / SourceReader iteration yields exactly the valid data in order", "statement": "Iterating a source yields every value read that is valid (not None by default, or as is_valid_data says), in read order, and skips all others.", "quantifier": "every sequence of read results and every validity filter", "why_tests_cant": "all sequences", "anchors": ["stream2py/source_reader.py:SourceReader.__iter__", "stream2py/source_reader.py:QuickSourceReader.__iter__"]}
{"id": "C66", "title": "Counter source end to end", "statement": "A StreamBuffer on SimpleCounterString(start, stop) with maxlen >= stop-start delivers to a reader, over any schedule, a prefix of the strings f's{start}'...f's{stop-1}', and all of them once the thread has read them.", "quantifier": "every start < stop and every schedule", "why_tests_cant": "all ranges and schedules", "anchors": ["stream2py/examples/source_reader.py:SimpleCounterString", "stream2py/stream_buffer.py:StreamBuffer"]}
{"id": "C67", "title": "Failed start can be retried", "statement": "If open() raises during start(), the exception reaches the caller, no thread is started, and a later start() whose open() succeeds yields a working stream.", "quantifier": "every history of failing and succeeding starts", "why_tests_cant": "all failure histories", "anchors": ["stream2py/stream_buffer.py:StreamBuffer.start", "stream2py/stream_buffer.py:StreamBuffer._open"]}
{"id": "C68", "title": "Assigning the key function keeps the maxlen bound", "statement": "Assigning container.key = f re-sorts the items by f and keeps the container's maxlen.", "quantifier": "every container state and key function", "why_tests_cant": "all states; also a method-resolution subtlety that only shows when key and maxlen are combined", "anchors": ["stream2py/utility/sorted_collection.py:SortedCollection.key", "stream2py/utility/sorted_deque.py:SortedDeque._setkey"]}
{"id": "C69", "title": "A rejected maxlen assignment changes nothing", "statement": "If assigning container.maxlen raises, the container (items, order, bound) is as before; if it does not raise, the maxlen largest-keyed items are kept and the new bound is enforced.", "quantifier": "every container state and every assigned value", "why_tests_cant": "all states and values, and the bound must hold for every later history", "anchors": ["stream2py/utility/sorted_deque.py:SortedDeque._setmaxlen"]}
{"id": "C70", "title": "A key nothing can exceed blocks the buffer", "statement": "Once the last stored item's key is NaN, every append raises and leaves the container unchanged, until that item is dropped.", "quantifier": "every container state ending in a NaN key and every appended item", "why_tests_cant": "all items and states", "anchors": ["stream2py/utility/sorted_deque.py:SortedDeque.append"]}
{"id": "C71", "title": "Iterating with strict_n delivers the data in full chunks", "statement": "A for loop over a reader made with strict_n=True and read_size=n > 1 never raises for want of data: it waits for full chunks, and ends when the stream is stopped.", "quantifier": "every buffer content, cursor and read_size", "why_tests_cant": "all chunk boundaries", "anchors": ["stream2py/buffer_reader.py:BufferReader.__iter__", "stream2py/buffer_reader.py:BufferReader.read"]}
{"id": "C72", "title": "A failed start() closes the source it opened", "statement": "If start() raises after source.open() succeeded (source.info raises, or the buffer cannot be built from maxlen), the source is closed again.", "quantifier": "every history and every point of failure inside start()", "why_tests_cant": "crash point inside start", "anchors": ["stream2py/stream_buffer.py:StreamBuffer.start", "stream2py/stream_buffer.py:StreamBuffer._mk_source_buffer"]}
{"id": "C73", "title": "next(stream_buffer) is safe against a concurrent stop()", "statement": "next(stream_buffer) returns an item or None, or raises StopIteration or StreamNotStartedError, whatever other threads do between its check and its read.", "quantifier": "every interleaving of next(stream_buffer) with stop() and start()", "why_tests_cant": "check-then-use race", "anchors": ["stream2py/stream_buffer.py:StreamBuffer.__next__", "stream2py/stream_buffer.py:StreamBuffer.stop"]}
{"id": "C74", "title": "stop() and drop() without a session", "statement": "stop() raises AttributeError exactly if no start() ever created a session, and otherwise sets the stop event of the latest one; drop() with auto_drop=False raises AttributeError exactly if the latest completed start() did not succeed or there was none.", "quantifier": "every history of calls", "why_tests_cant": "all lifecycles", "anchors": ["stream2py/stream_buffer.py:StreamBuffer.stop", "stream2py/stream_buffer.py:StreamBuffer.drop"]}
{"id": "C75", "title": "Under every schedule a reader sees an append-only log", "statement": "Whatever the appending thread, stop(), restarts and other readers do in between, the answers a reader gets to its calls are those of a sequential log of its session's accepted items with a cursor; a reader that only moves forward gets strictly increasing keys of its own session's items, and one that keeps up gets exactly the first of them without gaps.", "quantifier": "every schedule, history, key family with a total order, and number of readers", "why_tests_cant": "all interleavings", "anchors": ["stream2py/stream_buffer.py:StreamBuffer._run", "stream2py/buffer_reader.py:BufferReader.read", "stream2py/buffer_reader.py:BufferReader.range"]}
{"id": "C76", "title": "A StreamSource whose open() failed can be opened again", "statement": "If open_reader() raised because the source's open() raised, a later open_reader() opens the source again.", "quantifier": "every history of open_reader() calls and open() outcomes", "why_tests_cant": "all failure histories", "anchors": ["stream2py/stream_source.py:StreamSource._ensure_buffer", "stream2py/stream_source.py:StreamSource.open_reader"]}
{"id": "C77", "title": "The end of an HTTP response is not data", "statement": "Once the response of an HTTPResponseReader is exhausted, read() returns None, so that a StreamBuffer on it stores nothing more and keeps running.", "quantifier": "every response, read size and schedule", "why_tests_cant": "all streams", "anchors": ["stream2py/sources/http.py:HTTPResponseReader.read"]}
{"id": "C78", "title": "HTTPResponseReader.info counts the bytes read", "statement": "info['n_bytes_read'] is the number of bytes that read() has returned so far.", "quantifier": "every sequence of open/read/close calls", "why_tests_cant": "all call sequences", "anchors": ["stream2py/sources/http.py:HTTPResponseReader.info", "stream2py/sources/http.py:HTTPResponseReader.read"]}
{"id": "C79", "title": "HTTPResponseReader closes every response it opened, once", "statement": "Each response is closed at most once and never while it is in use; if open() is only called on a closed reader, every earlier response has been closed; close() on a closed reader does nothing and read() on it raises AttributeError.", "quantifier": "every sequence of open/read/close calls with every outcome of the network", "why_tests_cant": "all call sequences and failures", "anchors": ["stream2py/sources/http.py:HTTPResponseReader.open", "stream2py/sources/http.py:HTTPResponseReader.close", "stream2py/sources/http.py:HTTPResponseReader.read"]}
{"id": "C80", "title": "Concurrent use of a buffer is linearizable", "statement": "When any number of threads append to, drop from and read a buffer, no two calls on the same BufferReader overlapping, there is for every call an instant between its start and its return such that all answers, the final buffer and the final cursors are those of the same calls made one after the other in the order of these instants.", "quantifier": "every number of threads and readers, every sequence of calls with every argument, every key function, and every interleaving of the single lock operations, deque accesses and attribute accesses", "why_tests_cant": "all interleavings below the level of calls", "anchors": ["stream2py/buffer_reader.py:BufferReader", "stream2py/stream_buffer.py:_SourceBuffer.append", "stream2py/stream_buffer.py:_SourceBuffer.drop", "stream2py/utility/locked_sorted_deque.py:RWLockSortedDeque", "stream2py/utility/reader_writer_lock.py:RWLock"]}
{"id": "C81", "title": "len() of a live buffer never exceeds maxlen", "statement": "len(stream_buffer), which takes no lock, never reports more than maxlen, at whatever instant of an append or drop it is evaluated.", "quantifier": "every interleaving and history", "why_tests_cant": "every instant of every interleaving", "anchors": ["stream2py/utility/locked_sorted_deque.py:RWLockSortedDeque.__len__", "stream2py/utility/sorted_deque.py:SortedDeque.append"]}
{"id": "C82", "title": "A BufferReader can be shared by threads", "statement": "If several threads call read() on the same BufferReader, every item is delivered to at most one of them and read() raises only what it raises for a single thread.", "quantifier": "every interleaving of the calls", "why_tests_cant": "all interleavings", "anchors": ["stream2py/buffer_reader.py:BufferReader.read", "stream2py/buffer_reader.py:BufferReader.last_item"]}
{"id": "C83", "title": "Concurrent reads never repeat or reorder items", "statement": "Whatever other threads append, drop and read, the items that the returned read() and next() calls on one BufferReader (used by one thread at a time) delivered have strictly increasing keys, and each was passed to append() by some thread.", "quantifier": "every interleaving of single accesses, any number of writers and readers, every key family with a total order", "why_tests_cant": "all interleavings below the level of calls", "anchors": ["stream2py/buffer_reader.py:BufferReader.read", "stream2py/buffer_reader.py:BufferReader.next", "stream2py/stream_buffer.py:_SourceBuffer.append"]}
{"id": "C84", "title": "A for loop over a running stream waits, and ends only when the stream has stopped", "statement": "While is_stopped is false a for loop over a reader yields the unread items in order (in chunks of read_size), waits when there is nothing new and does not end; once it looks, finds nothing new and sees the stop, it returns without an exception; and it ends in no other way.", "quantifier": "every sequence of buffer states and stop flags the rounds of the loop may see, every cursor and read size (without strict_n)", "why_tests_cant": "all schedules of producer, stop and consumer", "anchors": ["stream2py/buffer_reader.py:BufferReader.__iter__", "stream2py/buffer_reader.py:BufferReader.__next__"]}
{"id": "C85", "title": "The next() method uses its own arguments, not the reader's defaults", "statement": "reader.next(n, peek=..., ignore_no_item_found=..., strict_n=...) returns the next item, or the next n as a list, moves the cursor to the last one unless peek, answers None or ValueError when there is nothing new depending on ignore_no_item_found, and does not depend on the defaults given to mk_reader.", "quantifier": "every buffer, cursor, argument and reader default", "why_tests_cant": "all buffers and arguments", "anchors": ["stream2py/buffer_reader.py:BufferReader.next"]}
{"id": "C86", "title": "Assigning or deleting last_item repositions the reader", "statement": "After reader.last_item = x the reader sees exactly the items whose key is above key(x), whether or not x is buffered; if the key function raises, the exception is raised and the cursor stays. After del reader.last_item it starts again at the oldest buffered item. Defaults are kept.", "quantifier": "every buffer, item, key function and cursor", "why_tests_cant": "all buffers and cursors", "anchors": ["stream2py/buffer_reader.py:BufferReader.last_item"]}
{"id": "C87", "title": "open_reader() and close() of a StreamSource may be called from several threads", "statement": "Whenever a reader is open the stream runs, the stream is stopped exactly when the last open reader is closed, and the source is opened by one StreamBuffer only, however the calls of open_reader() and of the readers' close() overlap.", "quantifier": "every number of client threads and every interleaving of the attribute accesses of their calls", "why_tests_cant": "all interleavings below the level of calls", "anchors": ["stream2py/stream_source.py:StreamSource._ensure_buffer", "stream2py/stream_source.py:StreamSource.open_reader", "stream2py/stream_source.py:StreamSource._handle_reader_open", "stream2py/stream_source.py:StreamSource._handle_reader_closed"]}
{"id": "C88", "title": "with stream_buffer: runs the body inside one session", "statement": "`with stream_buffer:` starts a new session, runs the body only if start() succeeded, ends as the body ends or with the exception of start(), and leaves the stop event of that session set.", "quantifier": "every source, body, exception and schedule of the reading threads and other callers", "why_tests_cant": "all schedules and all exit paths", "anchors": ["stream2py/stream_buffer.py:StreamBuffer.__enter__", "stream2py/stream_buffer.py:StreamBuffer.__exit__"]}
{"id": "C89", "title": "A StreamSource can be iterated for its items", "statement": "`for item in stream_source` yields the items of the source in order, waits while there is nothing new and ends when the stream is stopped.", "quantifier": "every source and every sequence of buffer states the loop may see", "why_tests_cant": "all schedules of producer and consumer", "anchors": ["stream2py/stream_source.py:StreamSource.__iter__", "stream2py/stream_source.py:StreamSource.is_stopped"]}
{"id": "C90", "title": "get_timestamp() of a source answers in the source's time unit", "statement": "get_timestamp() returns the current time scaled by the conversion factor of the object, for SourceReader and for StreamSource alike.", "quantifier": "every clock value and conversion factor", "why_tests_cant": "all clock values", "anchors": ["stream2py/stream_source.py:StreamSource.get_timestamp", "stream2py/source_reader.py:SourceReader.get_timestamp"]}
{"id": "C91", "title": "A waiting reader is not starved by writers", "statement": "A thread that waits to read gets in after a bounded number of writes by other threads.", "quantifier": "every number of threads and every schedule of lock operations", "why_tests_cant": "all infinite schedules", "anchors": ["stream2py/utility/reader_writer_lock.py:RWLock"]}
{"id": "C92", "title": "A reader attached to a new session goes on after what it has returned", "statement": "After attach_reader(reader) the reader goes on in the new session's buffer with the first item whose key is above the key of the last item it returned; over all sessions the items it returns (by read and next, without peek) have strictly increasing keys and were appended to the buffers.", "quantifier": "every history of starts, stops and attachments, every interleaving with the reading threads, every totally ordered key family", "why_tests_cant": "all histories and schedules", "anchors": ["stream2py/stream_buffer.py:StreamBuffer.attach_reader", "stream2py/stream_buffer.py:_SourceBuffer.attach_reader", "stream2py/buffer_reader.py:BufferReader.read"]}
{"id": "C93", "title": "join() waits for the reading thread of the latest start", "statement": "stream_buffer.join() raises AttributeError before any start and RuntimeError if the latest start() failed, otherwise waits until the reading thread of the latest start has ended; when it has returned, the source of that session has been closed, and (if no earlier thread survives) nothing is read or appended any more. After stop() and as long as nobody starts again, a waiting join() can return after at most eight more steps of that thread.", "quantifier": "every schedule of callers and reading threads, every source", "why_tests_cant": "all schedules; a test sees only the timing it gets", "anchors": ["stream2py/stream_buffer.py:StreamBuffer.join", "stream2py/stream_buffer.py:StreamBuffer.stop", "stream2py/stream_buffer.py:StreamBuffer._run"]}
{"id": "C94", "title": "stop(), join(), start() restarts a stream without leftovers", "statement": "If a program calls join() and waits for its return before every start() that follows a successful start, no reading thread of an earlier session is alive when a new one begins, so the guarantees for orderly restarts hold.", "quantifier": "every history of calls following the protocol, every schedule, every source", "why_tests_cant": "all schedules and histories", "anchors": ["stream2py/stream_buffer.py:StreamBuffer.join", "stream2py/stream_buffer.py:StreamBuffer.start"]}
{"id": "C95", "title": "for x in stream_buffer iterates the current session with a reader of its own", "statement": "iter(stream_buffer) has no effect until it is first advanced; then it makes its own reader on the current session, or raises StreamNotStartedError if there is none. Each such loop yields the items of that session one by one in key order, each at most once, independently of every other reader and loop; it waits while there is nothing new, and ends only when the session is stopped and the last look found nothing, never with an exception.", "quantifier": "any number of loops, every schedule of producer, loops and callers, every totally ordered key family", "why_tests_cant": "all schedules, all numbers of loops", "anchors": ["stream2py/stream_buffer.py:StreamBuffer.__iter__", "stream2py/buffer_reader.py:BufferReader.__iter__", "stream2py/stream_buffer.py:StreamBuffer.mk_reader"]}
{"id": "C96", "title": "An interrupted thread leaves the lock working", "statement": "A KeyboardInterrupt or other asynchronous exception that hits a thread while it waits for, enters or is inside a reader or writer section of the buffer's lock only ends that thread's call: afterwards a writer still has the container for itself and waiting readers still get in.", "quantifier": "every number of threads, every schedule and every point of interruption", "why_tests_cant": "all schedules and all interruption points", "anchors": ["stream2py/utility/reader_writer_lock.py:RWLock.reader", "stream2py/utility/reader_writer_lock.py:RWLock.writer", "stream2py/utility/locked_sorted_deque.py:writer_lock", "stream2py/utility/locked_sorted_deque.py:reader_lock"]}
{"id": "C97", "title": "copy.copy, pickle and jdict reproduce a SortedDeque", "statement": "copy.copy(d), pickle.loads(pickle.dumps(d)), SortedDeque.from_jdict(d.to_jdict()) and d.copy() give a container with the same items in the same order, the same key and the same maxlen, whatever was done to d before, accepted or rejected.", "quantifier": "every history of public calls, every key function", "why_tests_cant": "all histories", "anchors": ["stream2py/utility/sorted_deque.py:SortedDeque.__reduce__", "stream2py/utility/sorted_deque.py:SortedDeque.to_jdict", "stream2py/utility/sorted_deque.py:SortedDeque.from_jdict", "stream2py/utility/sorted_collection.py:SortedCollection.__init__"]}
{"id": "C98", "title": "A reader among concurrent writers misses nothing while there is room", "statement": "While nothing is dropped and no more than maxlen items have been offered, a BufferReader used for read() and next() by one thread at a time skips nothing: if an item was received, so was every successfully appended item with a smaller key; and when a read() finds nothing new, every item whose append() had returned before that read() was called has been received.", "quantifier": "every number of writers and readers, every interleaving of single accesses, every key family with a total order, every maxlen", "why_tests_cant": "all interleavings below the level of calls", "anchors": ["stream2py/buffer_reader.py:BufferReader.read", "stream2py/buffer_reader.py:BufferReader.next", "stream2py/stream_buffer.py:_SourceBuffer.append", "stream2py/utility/locked_sorted_deque.py:RWLockSortedDeque"]}
{"id": "C99", "title": "is_same_buffer() tells readers of one session from others", "statement": "reader1.is_same_buffer(reader2) is True exactly if both were last made on or attached to the same session of the stream; then their calls are answered from the same buffer and they see the same stop.", "quantifier": "every history of starts, stops, mk_reader and attach_reader, every pair of readers", "why_tests_cant": "all histories", "anchors": ["stream2py/buffer_reader.py:BufferReader.is_same_buffer", "stream2py/stream_buffer.py:_SourceBuffer.attach_reader", "stream2py/stream_buffer.py:_SourceBuffer.mk_reader"]}
{"id": "C100", "title": "A reader's source_reader_info describes the session it reads", "statement": "reader.source_reader_info is the info the source had when the session whose buffer the reader reads was opened.", "quantifier": "every history, including attach_reader", "why_tests_cant": "all histories; the tests do not look at the info after attach_reader", "anchors": ["stream2py/buffer_reader.py:BufferReader.source_reader_info", "stream2py/stream_buffer.py:_SourceBuffer.attach_reader"]}
{"id": "C101", "title": "A SortedDeque without maxlen behaves like the SortedCollection it extends", "statement": "SortedDeque(iterable, key) and SortedCollection(iterable, key) give the same outcome for the same sequence of insert, insert_right, remove, clear, copy and key assignments, and then the same answers to len, indexing, slicing, iteration, in, index, count, find, find_le, find_lt, find_ge and find_gt.", "quantifier": "every iterable, key function (also raising ones) and sequence of calls, whether they raise or not", "why_tests_cant": "all histories; the overridden methods are other code", "anchors": ["stream2py/utility/sorted_collection.py:SortedCollection", "stream2py/utility/sorted_deque.py:SortedDeque"]}
{"id": "C102", "title": "SortedCollection is sorted and searches like a scan", "statement": "After the constructor and any mutating calls the items of a SortedCollection are in key order; find, find_le, find_lt, find_ge, find_gt, index, in, count, remove, insert, insert_right and slices give what a scan of the list would give.", "quantifier": "every sequence of calls, every family of mutually comparable keys", "why_tests_cant": "all histories and keys", "anchors": ["stream2py/utility/sorted_collection.py:SortedCollection"]}
{"id": "C103", "title": "With auto_drop=False a consumer that reads, then drops, gets every item once", "statement": "With auto_drop=False, if the consumer never drops more items than its reader has received so far, the reader has always received exactly the first accepted items of the session, in order, each once; the buffer holds exactly the accepted items not yet dropped; and next(reader) gives the first one not received yet (None, or StopIteration after a stop, if there is none).", "quantifier": "every schedule, every history of reads and drops with restarts that find the earlier threads ended, every maxlen, every strictly increasing source", "why_tests_cant": "all interleavings of the consumer with the reading thread", "anchors": ["stream2py/simply.py:mk_stream_buffer", "stream2py/stream_buffer.py:_SourceBuffer.drop", "stream2py/stream_buffer.py:StreamBuffer._run", "stream2py/buffer_reader.py:BufferReader.next"]}
{"id": "C104", "title": "attach_reader() on a reader that is in use", "statement": "When a reader is attached to another session while a for loop over it is running in another thread, the loop ends only when the session the reader is on has stopped and the loop has looked at that session's buffer and found nothing new.", "quantifier": "every schedule of the loop, the reading threads and attach_reader(), which assigns buffer and stop event one after the other", "why_tests_cant": "the window between the two assignments, and between the loop's look and its question whether the stream is stopped", "anchors": ["stream2py/stream_buffer.py:_SourceBuffer.attach_reader", "stream2py/stream_buffer.py:StreamBuffer.attach_reader", "stream2py/buffer_reader.py:BufferReader.__iter__", "stream2py/buffer_reader.py:BufferReader.__next__"]}
{"id": "C105", "title": "open_reader() called by several threads at once returns distinct readers, set up as asked", "statement": "Whatever other threads do with the StreamSource, a call open_reader(read_size, strict_n, ignore_no_item_found) that returns gives a reader with these defaults and peek=False, and no reader is returned by two calls.", "quantifier": "every number of threads, every interleaving of open_reader(), close() and the reading threads, attribute access by attribute access", "why_tests_cant": "the races of C87 are schedules a test does not hit on purpose", "anchors": ["stream2py/stream_source.py:StreamSource.open_reader", "stream2py/stream_source.py:StreamSource._ensure_buffer", "stream2py/stream_buffer.py:StreamBuffer.mk_reader"]}
{"id": "C106", "title": "StopIteration from next(reader) is complete and final", "statement": "When next(reader) raises StopIteration, the reader (which keeps up) has received everything that was appended before the stream was stopped, and it receives nothing more: every later next(reader) raises StopIteration again. In any case next(reader) answers what it would have answered in the single instant of its read.", "quantifier": "every interleaving of next(reader) calls, whose read and whose look at is_stopped are separate steps, with appends, stops, restarts and other readers", "why_tests_cant": "the loss needs an append and a stop between two statements of next(); the late item needs a read of the source that outlives the stop", "anchors": ["stream2py/buffer_reader.py:BufferReader.__next__", "stream2py/stream_buffer.py:StreamBuffer._run", "stream2py/stream_buffer.py:StreamBuffer.stop"]}
{"id": "C107", "title": "stop() and restarts when the source answers in time", "statement": "Suppose that one read(), one sleep, one close() and six more lines of the reading thread together take less than the one second that stop() sleeps, that stop() is not called while a start() is under way, and that start() is called on a running stream or at least a second after it stopped. Then when stop() returns, the reading thread has ended, the source is closed and nothing more is appended until the next start(); after any number of restarts at most one thread is alive; and the source sees one session after the other. The bound matters: with a longer sleep_time_on_read_none_s two threads read one source.", "quantifier": "every timed schedule of calls and threads within these bounds, every number of restarts", "why_tests_cant": "tests try one timing; the statement is about every timing within the bound", "anchors": ["stream2py/stream_buffer.py:StreamBuffer.stop", "stream2py/stream_buffer.py:StreamBuffer.start", "stream2py/stream_buffer.py:StreamBuffer._run", "stream2py/stream_buffer.py:StreamBuffer._stop_and_clear"]}
{"id": "C108", "title": "auto_drop takes effect when it is assigned", "statement": "After stream_buffer.auto_drop is assigned a value other than True, no item leaves the buffer except through drop(), and drop() is allowed; after it is assigned True, drop() raises RuntimeError and a full buffer no longer keeps the reading thread from reading the source.", "quantifier": "every history of the stream with assignments to auto_drop at any point between the steps of the reading thread", "why_tests_cant": "the reading thread may be at any point of its round when the attribute changes", "anchors": ["stream2py/stream_buffer.py:StreamBuffer.drop", "stream2py/stream_buffer.py:StreamBuffer._run", "stream2py/stream_buffer.py:StreamBuffer.__init__"]}
{"id": "C109", "title": "A drop(n) that is half done does not mislead the reading thread", "statement": "The reading thread asks for the length of the buffer without taking its lock, so it can see some of the items of a drop(n) gone and others not yet. Whatever it sees lies between the lengths before and after the drop; if it takes that for room and reads an item, it can add it only when the drop has ended, and then there is room: no item is pushed out. Nothing else of a half-done drop can be observed, except that source_reader_info can already be None.", "quantifier": "every history of the stream, every n and every point in the middle of the drop at which len() is evaluated", "why_tests_cant": "len() falls into the middle of drop(n) only under a particular interleaving", "anchors": ["stream2py/stream_buffer.py:StreamBuffer._run", "stream2py/stream_buffer.py:StreamBuffer.drop", "stream2py/stream_buffer.py:_SourceBuffer", "stream2py/utility/sorted_deque.py:SortedDeque.drop", "stream2py/utility/locked_sorted_deque.py:RWLockSortedDeque.__len__"]}
{"id": "C110", "title": "An exception that hits start() leaves the stream usable", "statement": "If an exception (KeyboardInterrupt, MemoryError, the RuntimeError of a thread that cannot be started) hits start() at any point, the lock is released, running sessions, buffers and readers are as they were, no item is lost, the start that was hit never reads, adds or closes anything later, the source does not stay open, is_running is False, and the next start() works as the first.", "quantifier": "every history with any number of start() calls hit at any of their points, every continuation", "why_tests_cant": "the exception has to fall between two particular lines", "anchors": ["stream2py/stream_buffer.py:StreamBuffer.start", "stream2py/stream_buffer.py:StreamBuffer._open", "stream2py/stream_buffer.py:StreamBuffer._set_read_to_buffer_thread_and_source_buffer"]}
{"id": "C111", "title": "On a running stream too, every call takes effect at one instant", "statement": "Appends of the reading thread, calls on readers, start(), stop(), mk_reader() and attach_reader() may interleave access by access. What clients see is what they would see if every append and every call on a reader happened at one instant between its beginning and its return; so everything that holds of all histories of whole calls holds of these, and nobody is kept from beginning a call by the calls of others.", "quantifier": "every interleaving of any number of clients and reading threads at the grain of single lock operations, deque mutations, probes of a search and loads and stores of cursors; any number of starts and stops (auto_drop=True, no two threads on one reader at once)", "why_tests_cant": "the number of interleavings of single accesses is out of reach of tests", "anchors": ["stream2py/stream_buffer.py:StreamBuffer._run", "stream2py/stream_buffer.py:StreamBuffer.attach_reader", "stream2py/utility/reader_writer_lock.py:ReaderWriterLock", "stream2py/utility/locked_sorted_deque.py:RWLockSortedDeque", "stream2py/buffer_reader.py:BufferReader"]}
{"id": "C112", "title": "On a running stream no interleaving of accesses makes read() repeat or reorder items", "statement": "The items a reader receives through read() have strictly increasing keys and were appended in its session, while the reading thread appends, other clients use other readers, and the stream is stopped and restarted, whatever the interleaving of their single accesses.", "quantifier": "every interleaving as in the previous property; readers used for read() without peek and not attached elsewhere; keys of one comparable family", "why_tests_cant": "a torn read needs an append between two particular accesses of read()", "anchors": ["stream2py/stream_buffer.py:StreamBuffer._run", "stream2py/buffer_reader.py:BufferReader.read", "stream2py/utility/locked_sorted_deque.py:RWLockSortedDeque"]}
{"id": "C113", "title": "No call on a reader can keep the stream from going on and from being closed", "statement": "Whatever calls on readers are under way, they return, the reading thread gets to append, and after stop() the source gets closed.", "quantifier": "every interleaving of clients and the reading thread, access by access, and every continuation", "why_tests_cant": "a deadlock appears in one interleaving of accesses, and only a proof shows that nothing ends it", "anchors": ["stream2py/buffer_reader.py:BufferReader.range", "stream2py/utility/reader_writer_lock.py:ReaderWriterLock", "stream2py/stream_buffer.py:StreamBuffer._run", "stream2py/stream_buffer.py:StreamBuffer.stop"]}
{"id": "C114", "title": "Methods of the source may call the stream", "statement": "The code of open(), info, read() and close() may call the stream it serves. For the stream such calls are like those of any client, and those made by read() and close() come back. start(), mk_reader(), attach_reader(), is_running and a next(stream_buffer) that makes its reader need the lock that start() holds while it runs open() and info.", "quantifier": "every history of the stream, every interleaving, any number of such calls (start, mk_reader, attach_reader, next, is_running) by open(), info and by read() or close() of any session", "why_tests_cant": "whether the call comes back depends on everything that happens afterwards, and a hang is no result a test can wait for", "anchors": ["stream2py/stream_buffer.py:StreamBuffer.start", "stream2py/stream_buffer.py:StreamBuffer._open", "stream2py/stream_buffer.py:StreamBuffer._run", "stream2py/stream_buffer.py:StreamBuffer.mk_reader", "stream2py/stream_buffer.py:StreamBuffer.is_running"]}
{"id": "C115", "title": "A stream can read from another stream", "statement": "If the read() of a source is next(r) on a reader r of another stream, the data read downstream are exactly the items r received, in order, each once: a subsequence of what the upstream session appended, and a prefix of it if r keeps up. Nothing is lost on the way into the downstream buffer, the next read gives the next upstream item or None, and when the upstream is stopped and read out, the next read ends the downstream stream, which closes its source. With other read sizes each read() is one next(r) and gives what that gives, a chunk as a chunk.", "quantifier": "every interleaving of the two streams and their clients (r used by nobody else, with a read size of at most 1; keys of one comparable family; for the losslessness, the same key function and orderly restarts downstream)", "why_tests_cant": "two reading threads, each with its own clients, interleave in ways a test can neither enumerate nor force", "anchors": ["stream2py/stream_buffer.py:StreamBuffer._run", "stream2py/buffer_reader.py:BufferReader.__next__", "stream2py/stream_buffer.py:StreamBuffer.mk_reader", "stream2py/stream_buffer.py:StreamBuffer.stop"]}
{"id": "C116", "title": "A reader can be attached to several streams", "statement": "attach_reader() takes readers of other StreamBuffers. Streams do not notice such a reader; wherever it is attached, it never gives an item again, nor one that does not come after all it gave before, and next(reader) is the first such item of the buffer it is attached to now; whether it ends depends on that stream only, not on those it was attached to before. Its source_reader_info stays that of the stream that made it.", "quantifier": "any number of streams with their own clients, threads, starts and stops, in any interleaving; any sequence of attachments and of read() / next() calls (without peek; one key function, keys of one comparable family)", "why_tests_cant": "the state a reader takes from stream to stream depends on the whole history of both", "anchors": ["stream2py/stream_buffer.py:StreamBuffer.attach_reader", "stream2py/stream_buffer.py:_SourceBuffer.attach_reader", "stream2py/stream_buffer.py:StreamBuffer.mk_reader", "stream2py/buffer_reader.py:BufferReader.__next__", "stream2py/buffer_reader.py:BufferReader.read"]}
{"id": "C117", "title": "A source that has nothing for a while goes on being read", "statement": "Whatever sleep time the stream (sleep_time_on_read_none_s) or its source gives, a stream whose source returned None sleeps and then reads it again: having nothing for a while neither ends the reading thread nor closes the source.", "quantifier": "every int, float or bool as argument of StreamBuffer or attribute of the source, every history of the stream", "why_tests_cant": "the sleep time is used only at the first None, any time after construction; and one has to show that nothing else ends the thread", "anchors": ["stream2py/stream_buffer.py:StreamBuffer.__init__", "stream2py/stream_buffer.py:StreamBuffer._run"]}
